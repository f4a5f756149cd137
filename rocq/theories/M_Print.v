(** Printing the statistics of a build: util.hpp:151-242.

    The output is the list of numbers written to std::cout, in order; the
    fixed text between them is left out.  Counters are uint64_t in the code
    and unbounded here, as in M_Build.v. *)
From Coq Require Import Floats.SpecFloat.
From Verif Require Import Base M_Util.
Local Open Scope Z_scope.

(** a number written to the stream: an integer or a double *)
Inductive token := TNum (n : Z) | TReal (x : spec_float).

(** conversion of uint64_t (or int) to double, rounding to nearest even, as in
    "static_cast<double>(num_integers[i])" (util.hpp:213) *)
Definition double_of_u64 (n : Z) : spec_float := binary_normalize 53 1024 n 0 false.
(** double operators of util.hpp:151-242 *)
Definition ddiv := SFdiv 53 1024.
Definition dmul := SFmul 53 1024.
Definition dadd := SFadd 53 1024.

(** integral part of m * 2^e *)
Definition dtrunc (m : positive) (e : Z) : Z :=
  if 0 <=? e then Zpos m * 2 ^ e else Zpos m / 2 ^ (- e).

(** conversion of double to uint64_t (util.hpp:212-213, the initialisation of
    avg_num_integers_per_chunk): the value is truncated; undefined when the truncated
    value does not fit, hence for NaN and for infinities (C++17 [conv.fpint]) *)
Definition u64_of_double (x : spec_float) : res Z :=
  match x with
  | S754_zero _ => Ok 0
  | S754_finite s m e =>
      let t := if s then - dtrunc m e else dtrunc m e in
      if (0 <=? t) && (t <? 2 ^ 64) then Ok t else UB
  | S754_infinity _ | S754_nan => UB
  end.

(** util.hpp:90-94 elias_fano_bitsize, called with u = 65536.
    Simplified: std::ceil(std::log2(u / n)) is the exact ceiling of the
    logarithm, not the result of the C library's log2.
    With n = 0 the code converts 0 * infinity, a NaN, to uint64_t. *)
Definition elias_fano_bitsize (n u : Z) : res Z :=
  if n =? 0 then UB
  else Ok (n * ((if n <? u then Z.log2_up ((u + n - 1) / n) else 0) + 2)).

(** "x * 100.0 / y" (util.hpp:157, 160, 163, ...) *)
Definition percent (x y : Z) : token :=
  TReal (ddiv (dmul (double_of_u64 x) (double_of_u64 100)) (double_of_u64 y)).
(** "double(x) / y" (util.hpp:181, ...) *)
Definition ratio (x y : Z) : token := TReal (ddiv (double_of_u64 x) (double_of_u64 y)).

(** util.hpp:196-202: the loop over the cardinalities of sparse blocks *)
Fixpoint print_cards (fuel : nat) (st : statistics) (i : Z) (ev : spec_float) (out : list token)
  : spec_float * list token :=
  match fuel with
  | O => (ev, out)
  | S f =>
      let p := ddiv (double_of_u64 (st (F_sparse_blocks_cardinalities i)))
                    (double_of_u64 (st F_sparse_blocks)) in
      print_cards f st (i + 1) (dadd ev (dmul (double_of_u64 i) p))
        (out ++ [TNum i; TReal (dmul p (double_of_u64 100))])
  end.

(** util.hpp:210-240: the loop over the number of blocks in sparse chunks *)
Fixpoint print_dist (fuel : nat) (st : statistics) (i : Z) (covered : Z) (ev : spec_float)
  (out : list token) : res (spec_float * list token) :=
  match fuel with
  | O => Ok (ev, out)
  | S f =>
      let ni := st (F_num_integers i) in
      let nb := st (F_num_blocks_in_chunks i) in
      (* util.hpp:212-213 *)
      let! avg := u64_of_double (ddiv (double_of_u64 ni) (double_of_u64 nb)) in
      (* util.hpp:214-215 *)
      let! ef := elias_fano_bitsize avg 65536 in
      (* util.hpp:220-221 *)
      let p := ddiv (double_of_u64 nb) (double_of_u64 (st F_sparse_chunks)) in
      let covered' := covered + ni in
      print_dist f st (i + 1) covered' (dadd ev (dmul (double_of_u64 i) p))
        (out ++ [TNum i; TReal (dmul p (double_of_u64 100));
                 ratio ni (i * nb); TNum avg;
                 ratio ef avg;
                 percent covered' (st F_integers_in_sparse_chunks)])
  end.

(** util.hpp:152-192: what is written before the two loops *)
Definition print_summary (st : statistics) : list token :=
  [TNum (st F_sequences); TNum (st F_integers);
   TNum (st F_chunks);
   TNum (st F_full_chunks); percent (st F_integers_in_full_chunks) (st F_integers);
   TNum (st F_empty_chunks); percent (st F_empty_chunks) (st F_chunks);
   TNum (st F_dense_chunks); percent (st F_integers_in_dense_chunks) (st F_integers);
   TNum (st F_sparse_chunks); percent (st F_integers_in_sparse_chunks) (st F_integers);
   TNum (st F_blocks);
   TNum (st F_empty_blocks); percent (st F_empty_blocks) (st F_blocks);
   TNum (st F_dense_blocks); percent (st F_integers_in_dense_blocks) (st F_integers);
   TNum (st F_sparse_blocks); percent (st F_integers_in_sparse_blocks) (st F_integers);
   ratio (st F_chunks_header_bits) (st F_integers);
   ratio (st F_blocks_header_bits) (st F_integers);
   ratio (st F_dense_chunks_bits) (st F_integers);
   ratio (st F_dense_blocks_bits) (st F_integers);
   ratio (st F_sparse_blocks_bits) (st F_integers);
   TNum (st F_bits / 8); ratio (st F_bits) (st F_integers)].

(** util.hpp:151-242 statistics::print *)
Definition print (st : statistics) : res (list token) :=
  let '(ev, out) := print_cards 30 st 1 (S754_zero false) (print_summary st) in
  let out := out ++ [TReal ev; percent (st F_integers_in_sparse_chunks) (st F_integers)] in
  let! (ev, out) := print_dist 256 st 1 0 (S754_zero false) out in
  Ok (out ++ [TReal ev]).
