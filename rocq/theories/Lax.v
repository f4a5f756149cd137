(** Specification vocabulary for C63: what statistics::print shows where chunks of some number of blocks do not
    occur, on a machine that yields a number for every conversion.  Nothing here is used by the model. *)
From Coq Require Import String Floats.SpecFloat.
From Verif Require Import Base M_Util Spec Counts Shown Printed.
Local Open Scope Z_scope.

(** the double [x] as an unsigned 64-bit integer: the integral part if it is one, else whatever the
    machine yields, [conv x] *)
Definition whole (conv : spec_float -> Z) (x : spec_float) : Z :=
  match x with
  | S754_zero _ => 0
  | S754_finite false m e => if Z.shiftl (Zpos m) e <? 2 ^ 64 then Z.shiftl (Zpos m) e else conv x
  | S754_finite true m e => if Z.shiftl (Zpos m) e =? 0 then 0 else conv x
  | _ => conv x
  end.

(** the average shown for chunks of a number of blocks that does not occur, and the bits of its Elias-Fano code *)
Definition odd_average (conv : spec_float -> Z) : Z := conv S754_nan.
Definition odd_bits (conv : spec_float -> Z) : Z :=
  let a := odd_average conv in
  if a =? 0 then conv S754_nan
  else if a <? 65536 then ef_bits a
  else whole conv (SFmul 53 1024 (dbl a) (dbl 2)).

(** what three machines yield: x86-64 with a compiler that converts by cvttsd2si, x86-64 with AVX-512, AArch64 *)
Definition x86 (x : spec_float) : Z := match x with S754_nan => 2 ^ 63 | _ => 0 end.
Definition avx512 (x : spec_float) : Z := 2 ^ 64 - 1.
Definition aarch64 (x : spec_float) : Z := match x with S754_nan | S754_infinity true => 0 | _ => 2 ^ 64 - 1 end.

Local Open Scope string_scope.
Definition dist_lines_on (conv : spec_float -> Z) (c : field -> Z) (i : Z) : list (list piece) :=
  let none := Z.eqb (c (F_num_blocks_in_chunks i)) 0 in
  let a := if none then odd_average conv else average c i in
  let b := if none then odd_bits conv else ef_bits (average c i) in
  [[W "sparse chunks with "; N i; W " blocks: ";
    R (SFmul 53 1024 (quot (c (F_num_blocks_in_chunks i)) (c F_sparse_chunks)) (dbl 100));
    W "%; avg_num_integers_per_block = ";
    R (quot (c (F_num_integers i)) (i * c (F_num_blocks_in_chunks i)));
    W "; avg_num_integers_per_chunk = "; N a];
   [W "Elias-Fano avg. bpi "; R (quot b a); W " vs. 8"];
   [W " -- total integers covered ";
    R (pct (total (fun j => c (F_num_integers j)) (zrange 1 (Z.to_nat i))) (c F_integers_in_sparse_chunks));
    W "%"]].
Definition statistics_lines_on (conv : spec_float -> Z) (c : field -> Z) : list (list piece) :=
  (summary_lines c
   ++ [[W "== sparse blocks cardinalities (%) =="]]
   ++ flat_map (card_lines c) (zrange 1 30)
   ++ [[W "expected_value ";
        R (mean 30 (fun i => quot (c (F_sparse_blocks_cardinalities i)) (c F_sparse_blocks)))];
       [W "== distribution of blocks in sparse chunks (";
        R (pct (c F_integers_in_sparse_chunks) (c F_integers)); W "% of ints) =="]]
   ++ flat_map (dist_lines_on conv c) (zrange 1 256)
   ++ [[W "expected_value ";
        R (mean 256 (fun i => quot (c (F_num_blocks_in_chunks i)) (c F_sparse_chunks)))]])%list.
Definition build_lines_on (conv : spec_float -> Z) (u S : Z) (c : field -> Z) : list (list piece) :=
  ([[W "universe size: "; N u]]
   ++ map (fun k => [W "processed "; N (1000 * k); W " sequences"]) (zrange 1 (Z.to_nat (S / 1000)))
   ++ statistics_lines_on conv c)%list.
