(** C50: the numbers that build prints are the exact fractions, to five digits.  [about], [ratio_text] and
    [sheet] are in Exact.v; no double occurs there. *)
From Coq Require Import QArith Floats.SpecFloat.
From Verif Require Import Base M_Util M_Build M_Index M_Print M_Text M_Out Spec Format Counts Shown Printed Exact
  P_Print P_Out4 P_Acc4 P_Acc5.
Local Open Scope Z_scope.

(** a quotient, a percentage computed in one of two ways, and an average, all of integers below 2^53 *)
Theorem C50_quotient : forall nan x y, 0 <= x < 2 ^ 53 -> 0 <= y < 2 ^ 53 ->
  ratio_text nan x y (show_double nan (quot x y)).
Proof. exact c50_quotient. Qed.
Print Assumptions C50_quotient.

Theorem C50_percentage : forall nan x y, 0 <= x < 2 ^ 53 -> 0 <= y < 2 ^ 53 ->
  ratio_text nan (100 * x) y (show_double nan (pct x y))
  /\ ratio_text nan (100 * x) y (show_double nan (SFmul 53 1024 (quot x y) (dbl 100))).
Proof. exact c50_percentage. Qed.
Print Assumptions C50_percentage.

Theorem C50_mean : forall nan n y (x : Z -> Z), 1 <= Z.of_nat n <= 256 -> 0 < y < 2 ^ 53 ->
  (forall i, 1 <= i <= Z.of_nat n -> 0 <= x i < 2 ^ 53) ->
  ratio_text nan (total (fun i => i * x i) (zrange 1 n)) y (show_double nan (mean n (fun i => quot (x i) y))).
Proof. exact c50_mean. Qed.
Print Assumptions C50_mean.

(** the whole output *)
Theorem C50_build : forall nan dbg params u Ls stats offsets sequences t,
  let kept := filter (fun L => pass params (zlen L) (last L 0)) Ls in
  0 <= u -> Forall valid kept -> Forall short Ls -> total zlen kept < 2 ^ 36 ->
  index_build dbg params (collection u Ls) = Ok (stats, offsets, sequences) ->
  build_text nan dbg params (collection u Ls) = Ok t ->
  sheet nan (build_sheet u (zlen kept) (counters (8 * zlen (index_file offsets sequences)) kept)) t.
Proof. exact c50_build. Qed.
Print Assumptions C50_build.

Theorem C50_occurs : forall nan dbg u, 0 <= u ->
  exists stats offsets sequences t,
    index_build dbg default_params (collection u combs) = Ok (stats, offsets, sequences)
    /\ build_text nan dbg default_params (collection u combs) = Ok t
    /\ sheet nan (build_sheet u 256 (counters (8 * zlen (index_file offsets sequences)) combs)) t.
Proof. exact c50_occurs. Qed.
Print Assumptions C50_occurs.

(** the log in README.md *)
Example C50_readme : forall nan, sheet nan (summary_sheet readme) readme_log.
Proof. exact c50_readme. Qed.

(** C49: an integer can be read off its text, and two doubles of the same sign with the same text are rounded
    to the same number of six digits. *)
Theorem C49_integer_read : forall n m, 0 <= n -> 0 <= m -> show n = show m -> n = m.
Proof. exact c49_integer_read. Qed.
Print Assumptions C49_integer_read.

Theorem C49_double_read : forall nan s m e m' e',
  show_double nan (S754_finite s m e) = show_double nan (S754_finite s m' e') ->
  exists r, six_digits (inject_Z (Zpos m) * 2 ^ e) r /\ six_digits (inject_Z (Zpos m') * 2 ^ e') r.
Proof. exact c49_double_read. Qed.
Print Assumptions C49_double_read.

(** 1/3 and 0.333333 *)
Example C49_read_example : forall nan, show_double nan (quot 1 3) = show_double nan (quot 333333 1000000).
Proof. reflexivity. Qed.
