(** Specification vocabulary for printed text (C49).  Characters are codes, values of doubles are
    rational numbers.  Nothing here is used by the model. *)
From Coq Require Import String Ascii QArith Qabs Floats.SpecFloat.
From Verif Require Import Base M_Util M_Print Spec Shown Typed.
Local Open Scope Z_scope.

Definition is_digits (ds : list Z) : Prop := Forall (fun d => 0 <= d <= 9) ds.
Definition in_ascii (ds : list Z) : list Z := map (Z.add 48) ds.

(** digits without superfluous zeros in front; the single digit 0 is allowed *)
Definition lean (ds : list Z) : Prop := is_digits ds /\ (ds = [0] \/ exists d ds', ds = d :: ds' /\ d <> 0).

(** [t] is the integer [n >= 0] in decimal *)
Definition natural (n : Z) (t : list Z) : Prop := exists ds, lean ds /\ t = in_ascii ds /\ n = value_of ds.

(** the decimal fraction with the digits [a] before and [b] after the point, as a number and as text;
    the digits after the point do not end in 0, and the point is left out if there are none *)
Definition fraction (a b : list Z) : Q := (inject_Z (value_of (a ++ b)) / 10 ^ zlen b)%Q.
Definition point (a b : list Z) : list Z :=
  in_ascii a ++ match b with [] => [] | _ => [46] ++ in_ascii b end.
Definition neat (b : list Z) : Prop := is_digits b /\ forall b', b <> b' ++ [0].

(** [t] is [q] in decimal without an exponent: 0.00025, 12, 3.5 *)
Definition plain (q : Q) (t : list Z) : Prop :=
  exists a b, lean a /\ neat b /\ t = point a b /\ (q == fraction a b)%Q.
(** [t] is [q] in decimal with an exponent, of at least two digits: 2.5e-05, 1e+06, 1.25e+100 *)
Definition scientific (q : Q) (t : list Z) : Prop :=
  exists d b x ds, 1 <= d <= 9 /\ neat b
    /\ (lean ds /\ 2 <= zlen ds \/ exists d', 0 <= d' <= 9 /\ ds = [0; d'])
    /\ t = point [d] b ++ [101; if x <? 0 then 45 else 43] ++ in_ascii ds
    /\ value_of ds = Z.abs x
    /\ (q == fraction [d] b * 10 ^ x)%Q.

(** [r] is the decimal number of six digits next to [q], with an even last digit if there are two *)
Definition six_digits (q r : Q) : Prop :=
  exists X n, (10 ^ X <= q)%Q /\ (q < 10 ^ (X + 1))%Q
    /\ (r == inject_Z n * 10 ^ (X - 5))%Q
    /\ ((Qabs (q - r) < (1 # 2) * 10 ^ (X - 5))%Q
        \/ (Qabs (q - r) == (1 # 2) * 10 ^ (X - 5))%Q /\ Z.even n = true).

(** [t] is the double [x], with up to six digits; [nan] is the text for a NaN *)
Definition rounded (q : Q) (t : list Z) : Prop :=
  exists r, six_digits q r
    /\ ((1 # 10000) <= r /\ r < 1000000 -> plain r t)%Q
    /\ (~ ((1 # 10000) <= r /\ r < 1000000)%Q -> scientific r t).
Definition real (nan : list Z) (x : spec_float) (t : list Z) : Prop :=
  match x with
  | S754_zero s => t = word (if s then "-0" else "0")
  | S754_infinity s => t = word (if s then "-inf" else "inf")
  | S754_nan => t = nan
  | S754_finite s m e =>
      exists u, rounded (inject_Z (Zpos m) * 2 ^ e)%Q u /\ t = (if s then [45] else []) ++ u
  end.

(** ** What statistics::print shows, line by line *)
Inductive piece := W (s : string) | N (n : Z) | R (x : spec_float).
Definition written (nan : list Z) (p : piece) (t : list Z) : Prop :=
  match p with
  | W s => t = word s
  | N n => natural n t
  | R x => real nan x t
  end.
(** [t] is the lines [ls] *)
Definition page (nan : list Z) (ls : list (list piece)) (t : list Z) : Prop :=
  exists tss, Forall2 (Forall2 (written nan)) ls tss /\ t = lines (map (@concat Z) tss).

Local Open Scope string_scope.
Definition summary_lines (c : field -> Z) : list (list piece) :=
  [[W "processed "; N (c F_sequences); W " sequences, "; N (c F_integers); W " integers"];
   [W "chunks: "; N (c F_chunks)];
   [W "full chunks: "; N (c F_full_chunks); W " ("; R (pct (c F_integers_in_full_chunks) (c F_integers));
    W "% of ints)"];
   [W "empty chunks: "; N (c F_empty_chunks); W " ("; R (pct (c F_empty_chunks) (c F_chunks));
    W "% of chunks)"];
   [W "dense chunks: "; N (c F_dense_chunks); W " (";
    R (pct (c F_integers_in_dense_chunks) (c F_integers)); W "% of ints)"];
   [W "sparse chunks: "; N (c F_sparse_chunks); W " (";
    R (pct (c F_integers_in_sparse_chunks) (c F_integers)); W "% of ints)"];
   [W "blocks: "; N (c F_blocks)];
   [W "empty blocks: "; N (c F_empty_blocks); W " ("; R (pct (c F_empty_blocks) (c F_blocks));
    W "% of blocks)"];
   [W "dense blocks: "; N (c F_dense_blocks); W " (";
    R (pct (c F_integers_in_dense_blocks) (c F_integers)); W "% of ints)"];
   [W "sparse blocks: "; N (c F_sparse_blocks); W " (";
    R (pct (c F_integers_in_sparse_blocks) (c F_integers)); W "% of ints)"];
   [R (quot (c F_chunks_header_bits) (c F_integers)); W " [bpi] for chunks' headers"];
   [R (quot (c F_blocks_header_bits) (c F_integers)); W " [bpi] for blocks' headers"];
   [R (quot (c F_dense_chunks_bits) (c F_integers)); W " [bpi] for dense chunks"];
   [R (quot (c F_dense_blocks_bits) (c F_integers)); W " [bpi] for dense blocks"];
   [R (quot (c F_sparse_blocks_bits) (c F_integers)); W " [bpi] for sparse blocks"];
   [W "total bytes: "; N (c F_bits / 8)];
   [W "total bpi: "; R (quot (c F_bits) (c F_integers))]].

Definition card_lines (c : field -> Z) (i : Z) : list (list piece) :=
  [[W "sparse blocks with card. "; N i; W ": ";
    R (SFmul 53 1024 (quot (c (F_sparse_blocks_cardinalities i)) (c F_sparse_blocks)) (dbl 100))]].

Definition dist_lines (c : field -> Z) (i : Z) : list (list piece) :=
  [[W "sparse chunks with "; N i; W " blocks: ";
    R (SFmul 53 1024 (quot (c (F_num_blocks_in_chunks i)) (c F_sparse_chunks)) (dbl 100));
    W "%; avg_num_integers_per_block = ";
    R (quot (c (F_num_integers i)) (i * c (F_num_blocks_in_chunks i)));
    W "; avg_num_integers_per_chunk = "; N (average c i)];
   [W "Elias-Fano avg. bpi "; R (quot (ef_bits (average c i)) (average c i)); W " vs. 8"];
   [W " -- total integers covered ";
    R (pct (total (fun j => c (F_num_integers j)) (zrange 1 (Z.to_nat i))) (c F_integers_in_sparse_chunks));
    W "%"]].

Definition statistics_lines (c : field -> Z) : list (list piece) :=
  (summary_lines c
   ++ [[W "== sparse blocks cardinalities (%) =="]]
   ++ flat_map (card_lines c) (zrange 1 30)
   ++ [[W "expected_value ";
        R (mean 30 (fun i => quot (c (F_sparse_blocks_cardinalities i)) (c F_sparse_blocks)))];
       [W "== distribution of blocks in sparse chunks (";
        R (pct (c F_integers_in_sparse_chunks) (c F_integers)); W "% of ints) =="]]
   ++ flat_map (dist_lines c) (zrange 1 256)
   ++ [[W "expected_value ";
        R (mean 256 (fun i => quot (c (F_num_blocks_in_chunks i)) (c F_sparse_chunks)))]])%list.

(** what the program build shows for [S] lists out of a universe of [u] *)
Definition build_lines (u S : Z) (c : field -> Z) : list (list piece) :=
  ([[W "universe size: "; N u]]
   ++ map (fun k => [W "processed "; N (1000 * k); W " sequences"]) (zrange 1 (Z.to_nat (S / 1000)))
   ++ statistics_lines c)%list.
