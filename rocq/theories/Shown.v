(** The numbers that statistics::print shows (util.hpp:151-242), as one list computed from the
    counters [c], without loops or accumulators.  Nothing here is used by the model. *)
From Coq Require Import Floats.SpecFloat.
From Verif Require Import Base M_Util M_Print Spec Counts.

(** a double quotient and a percentage of two integers *)
Definition dbl (n : Z) : spec_float := binary_normalize 53 1024 n 0 false.
Definition quot (x y : Z) : spec_float := SFdiv 53 1024 (dbl x) (dbl y).
Definition pct (x y : Z) : spec_float := SFdiv 53 1024 (SFmul 53 1024 (dbl x) (dbl 100)) (dbl y).
(** the sum of i * p i for i from 1 to n, added from left to right *)
Definition mean (n : nat) (p : Z -> spec_float) : spec_float :=
  fold_left (fun s i => SFadd 53 1024 s (SFmul 53 1024 (dbl i) (p i))) (zrange 1 n) (S754_zero false).

(** for chunks of [i] blocks: how many values they have on average, and how many bits an
    Elias-Fano code of that many values out of 65536 takes *)
Definition average (c : field -> Z) (i : Z) : Z := c (F_num_integers i) / c (F_num_blocks_in_chunks i).
Definition ef_bits (n : Z) : Z :=
  n * ((if n <? 65536 then Z.log2_up ((65536 + n - 1) / n) else 0) + 2).

Definition summary (c : field -> Z) : list token :=
  [TNum (c F_sequences); TNum (c F_integers); TNum (c F_chunks);
   TNum (c F_full_chunks); TReal (pct (c F_integers_in_full_chunks) (c F_integers));
   TNum (c F_empty_chunks); TReal (pct (c F_empty_chunks) (c F_chunks));
   TNum (c F_dense_chunks); TReal (pct (c F_integers_in_dense_chunks) (c F_integers));
   TNum (c F_sparse_chunks); TReal (pct (c F_integers_in_sparse_chunks) (c F_integers));
   TNum (c F_blocks);
   TNum (c F_empty_blocks); TReal (pct (c F_empty_blocks) (c F_blocks));
   TNum (c F_dense_blocks); TReal (pct (c F_integers_in_dense_blocks) (c F_integers));
   TNum (c F_sparse_blocks); TReal (pct (c F_integers_in_sparse_blocks) (c F_integers));
   TReal (quot (c F_chunks_header_bits) (c F_integers));
   TReal (quot (c F_blocks_header_bits) (c F_integers));
   TReal (quot (c F_dense_chunks_bits) (c F_integers));
   TReal (quot (c F_dense_blocks_bits) (c F_integers));
   TReal (quot (c F_sparse_blocks_bits) (c F_integers));
   TNum (c F_bits / 8); TReal (quot (c F_bits) (c F_integers))].

(** the line for listed blocks of [i] values; the line for chunks of [i] blocks *)
Definition card_line (c : field -> Z) (i : Z) : list token :=
  [TNum i; TReal (SFmul 53 1024 (quot (c (F_sparse_blocks_cardinalities i)) (c F_sparse_blocks)) (dbl 100))].
Definition dist_line (c : field -> Z) (i : Z) : list token :=
  [TNum i; TReal (SFmul 53 1024 (quot (c (F_num_blocks_in_chunks i)) (c F_sparse_chunks)) (dbl 100));
   TReal (quot (c (F_num_integers i)) (i * c (F_num_blocks_in_chunks i)));
   TNum (average c i);
   TReal (quot (ef_bits (average c i)) (average c i));
   TReal (pct (total (fun j => c (F_num_integers j)) (zrange 1 (Z.to_nat i))) (c F_integers_in_sparse_chunks))].

Definition shown (c : field -> Z) : list token :=
  summary c
  ++ flat_map (card_line c) (zrange 1 30)
  ++ [TReal (mean 30 (fun i => quot (c (F_sparse_blocks_cardinalities i)) (c F_sparse_blocks)));
      TReal (pct (c F_integers_in_sparse_chunks) (c F_integers))]
  ++ flat_map (dist_line c) (zrange 1 256)
  ++ [TReal (mean 256 (fun i => quot (c (F_num_blocks_in_chunks i)) (c F_sparse_chunks)))].

(** the counters of a collection *)
Definition counters (bits : Z) (kept : list (list Z)) (f : field) : Z :=
  match f with
  | F_bits => bits
  | f => total (fun L => counts L f) kept
  end.
