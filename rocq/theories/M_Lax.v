(** The programs build and example on a machine where the conversions of util.hpp:212-213 and 90-94 that the
    standard leaves undefined yield some number and the program goes on.

    [conv x] is the number which the conversion of the double [x] to uint64_t yields where the standard
    defines none: for a NaN it is 2^63 on x86-64 (cvttsd2si), 2^64 - 1 with AVX-512 (vcvttsd2usi), 0 on
    AArch64 (fcvtzu). *)
From Coq Require Import Floats.SpecFloat.
From Verif Require Import Base M_Util M_Build M_Print M_Out M_Session.
Local Open Scope Z_scope.

(** conversion of double to uint64_t (util.hpp:212-213) *)
Definition u64_lax (conv : spec_float -> Z) (x : spec_float) : Z :=
  match u64_of_double x with
  | Ok z => z
  | _ => conv x
  end.

(** util.hpp:90-94 elias_fano_bitsize, called with u = 65536.  With n = 0 the double converted is
    0 * infinity.  Otherwise with n < u simplified as in M_Print.v: the logarithm is exact, and the product is
    too, being less than 2^53. *)
Definition elias_fano_lax (conv : spec_float -> Z) (n : Z) : Z :=
  if n =? 0 then u64_lax conv S754_nan
  else if n <? 65536 then n * (Z.log2_up ((65536 + n - 1) / n) + 2)
  else u64_lax conv (dmul (double_of_u64 n) (double_of_u64 2)).

(** util.hpp:210-240 *)
Fixpoint print_dist_lax (fuel : nat) (conv : spec_float -> Z) (st : statistics) (i : Z) (covered : Z) (ev : spec_float)
  (out : list token) : spec_float * list token :=
  match fuel with
  | O => (ev, out)
  | S f =>
      let ni := st (F_num_integers i) in
      let nb := st (F_num_blocks_in_chunks i) in
      (* util.hpp:212-215 *)
      let avg := u64_lax conv (ddiv (double_of_u64 ni) (double_of_u64 nb)) in
      let ef := elias_fano_lax conv avg in
      (* util.hpp:220-221 *)
      let p := ddiv (double_of_u64 nb) (double_of_u64 (st F_sparse_chunks)) in
      let covered' := covered + ni in
      print_dist_lax f conv st (i + 1) covered' (dadd ev (dmul (double_of_u64 i) p))
        (out ++ [TNum i; TReal (dmul p (double_of_u64 100));
                 ratio ni (i * nb); TNum avg;
                 ratio ef avg;
                 percent covered' (st F_integers_in_sparse_chunks)])
  end.

(** util.hpp:151-242 statistics::print *)
Definition print_lax (conv : spec_float -> Z) (st : statistics) : list token :=
  let '(ev, out) := print_cards 30 st 1 (S754_zero false) (print_summary st) in
  let out := out ++ [TReal ev; percent (st F_integers_in_sparse_chunks) (st F_integers)] in
  let '(ev, out) := print_dist_lax 256 conv st 1 0 (S754_zero false) out in
  out ++ [TReal ev].
(** util.hpp:151-242, with the text between the numbers *)
Definition print_text_lax (conv : spec_float -> Z) (nan : list Z) (st : statistics) : res (list Z) :=
  Ok (fill nan print_frame (print_lax conv st)).

(** build.cpp:21-51 *)
Definition run_build_lax stod iso conv nan := run_build_by stod iso (print_text_lax conv nan).
(** example.cpp:11-89 *)
Definition run_example_lax conv nan := run_example_by (print_text_lax conv nan).
