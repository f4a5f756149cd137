(** Specification vocabulary for C50: the output of build with exact fractions instead of doubles.
    Nothing here is used by the model. *)
From Coq Require Import String QArith Qabs.
From Verif Require Import Base M_Util Spec Typed Printed Shown.
Local Open Scope Z_scope.

(** [t] is a decimal number of at most six digits, which differs from [q] by at most 0.0000051 [q] *)
Definition about (q : Q) (t : list Z) : Prop :=
  (q == 0)%Q /\ t = word "0"
  \/ (0 < q)%Q /\ exists n x, 0 < n < 10 ^ 6
       /\ (let r := (inject_Z n * 10 ^ x)%Q in
           (Qabs (r - q) <= (51 # 10000000) * q
            /\ ((1 # 10000) <= r /\ r < 1000000 -> plain r t)
            /\ (~ ((1 # 10000) <= r /\ r < 1000000) -> scientific r t))%Q).

(** [t] is the fraction x / y; [nan] is the text for 0 / 0 *)
Definition ratio_text (nan : list Z) (x y : Z) (t : list Z) : Prop :=
  if y =? 0 then t = (if x =? 0 then nan else word "inf")
  else about (inject_Z x / inject_Z y) t.

Inductive item := Text (s : string) | Int (n : Z) | Frac (x y : Z).
Definition put (nan : list Z) (p : item) (t : list Z) : Prop :=
  match p with
  | Text s => t = word s
  | Int n => natural n t
  | Frac x y => ratio_text nan x y t
  end.
(** [t] is the lines [ls] *)
Definition sheet (nan : list Z) (ls : list (list item)) (t : list Z) : Prop :=
  exists tss, Forall2 (Forall2 (put nan)) ls tss /\ t = lines (map (@concat Z) tss).

Local Open Scope string_scope.
Definition summary_sheet (c : field -> Z) : list (list item) :=
  let share a b := Frac (100 * c a) (c b) in
  let per_int a := Frac (c a) (c F_integers) in
  [[Text "processed "; Int (c F_sequences); Text " sequences, "; Int (c F_integers); Text " integers"];
   [Text "chunks: "; Int (c F_chunks)];
   [Text "full chunks: "; Int (c F_full_chunks); Text " ("; share F_integers_in_full_chunks F_integers; Text "% of ints)"];
   [Text "empty chunks: "; Int (c F_empty_chunks); Text " ("; share F_empty_chunks F_chunks; Text "% of chunks)"];
   [Text "dense chunks: "; Int (c F_dense_chunks); Text " ("; share F_integers_in_dense_chunks F_integers; Text "% of ints)"];
   [Text "sparse chunks: "; Int (c F_sparse_chunks); Text " ("; share F_integers_in_sparse_chunks F_integers;
    Text "% of ints)"];
   [Text "blocks: "; Int (c F_blocks)];
   [Text "empty blocks: "; Int (c F_empty_blocks); Text " ("; share F_empty_blocks F_blocks; Text "% of blocks)"];
   [Text "dense blocks: "; Int (c F_dense_blocks); Text " ("; share F_integers_in_dense_blocks F_integers; Text "% of ints)"];
   [Text "sparse blocks: "; Int (c F_sparse_blocks); Text " ("; share F_integers_in_sparse_blocks F_integers;
    Text "% of ints)"];
   [per_int F_chunks_header_bits; Text " [bpi] for chunks' headers"];
   [per_int F_blocks_header_bits; Text " [bpi] for blocks' headers"];
   [per_int F_dense_chunks_bits; Text " [bpi] for dense chunks"];
   [per_int F_dense_blocks_bits; Text " [bpi] for dense blocks"];
   [per_int F_sparse_blocks_bits; Text " [bpi] for sparse blocks"];
   [Text "total bytes: "; Int (c F_bits / 8)];
   [Text "total bpi: "; per_int F_bits]].

Definition card_sheet (c : field -> Z) (i : Z) : list (list item) :=
  [[Text "sparse blocks with card. "; Int i; Text ": ";
    Frac (100 * c (F_sparse_blocks_cardinalities i)) (c F_sparse_blocks)]].

Definition dist_sheet (c : field -> Z) (i : Z) : list (list item) :=
  let chunks := c (F_num_blocks_in_chunks i) in
  let ints := c (F_num_integers i) in
  [[Text "sparse chunks with "; Int i; Text " blocks: "; Frac (100 * chunks) (c F_sparse_chunks);
    Text "%; avg_num_integers_per_block = "; Frac ints (i * chunks);
    Text "; avg_num_integers_per_chunk = "; Int (ints / chunks)];
   [Text "Elias-Fano avg. bpi "; Frac (ef_bits (ints / chunks)) (ints / chunks); Text " vs. 8"];
   [Text " -- total integers covered ";
    Frac (100 * total (fun j => c (F_num_integers j)) (zrange 1 (Z.to_nat i))) (c F_integers_in_sparse_chunks);
    Text "%"]].

Definition statistics_sheet (c : field -> Z) : list (list item) :=
  (summary_sheet c
   ++ [[Text "== sparse blocks cardinalities (%) =="]]
   ++ flat_map (card_sheet c) (zrange 1 30)
   ++ [[Text "expected_value ";
        Frac (total (fun i => i * c (F_sparse_blocks_cardinalities i)) (zrange 1 30)) (c F_sparse_blocks)];
       [Text "== distribution of blocks in sparse chunks (";
        Frac (100 * c F_integers_in_sparse_chunks) (c F_integers); Text "% of ints) =="]]
   ++ flat_map (dist_sheet c) (zrange 1 256)
   ++ [[Text "expected_value ";
        Frac (total (fun i => i * c (F_num_blocks_in_chunks i)) (zrange 1 256)) (c F_sparse_chunks)]])%list.

Definition build_sheet (u S : Z) (c : field -> Z) : list (list item) :=
  ([[Text "universe size: "; Int u]]
   ++ map (fun k => [Text "processed "; Int (1000 * k); Text " sequences"]) (zrange 1 (Z.to_nat (S / 1000)))
   ++ statistics_sheet c)%list.
