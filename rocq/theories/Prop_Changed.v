(** C68: example when the file it maps is not the one it has saved, as when another program has replaced it. *)
From Coq Require Import String Sorted Floats.SpecFloat.
From Verif Require Import Base Hw Spec Lib Layout M_Util M_Build M_Seq M_Decode M_Query M_Many
  M_Index M_Print M_Drivers M_Tools M_Text M_Out M_Say M_Session M_Lax Holds Format Room Shown Typed Printed Counts Report Drawn Session Lax
  P_SessionEx P_LaxEx P_Changed.
Local Open Scope Z_scope.

(** [S] is the input and [T] what is at the address mapped.  The first value that differs is reported and the
    program returns 1.  If [T] is a beginning of [S] nothing is noticed.  If [T] goes on after [S], the input is read past its end. *)
Theorem C68_example : forall conv nan dbg sized heap mapped name o t g S T more d,
  (forall x, 0 <= conv x < 2 ^ 64) ->
  typed t (zlen S :: S ++ more) -> no_digit g -> valid S -> valid T ->
  stored 31 (fst (mapped (f_sequence_file S))) (snd (mapped (f_sequence_file S)) + 8) T ->
  let run := run_example_lax conv nan dbg sized heap mapped name [word "-o"; o] (t ++ g) d in
  exists t1 d', page nan (statistics_lines_on conv (counters (8 * zlen (f_sequence S) + 128) [S])) t1
    /\ saved d o (f_sequence_file S) d'
    /\ (~ decode_fits T (zlen T) -> run = (t1 ++ sized (f_sequence_file S), d', UB))
    /\ (decode_fits T (zlen T) ->
         (forall R, S = T ++ R -> run = (t1 ++ sized (f_sequence_file S), d', Ok 0))
         /\ (forall v R, T = S ++ v :: R -> run = (t1 ++ sized (f_sequence_file S), d', UB))
         /\ (forall P v w R R', T = P ++ v :: R -> S = P ++ w :: R' -> v <> w ->
               exists t2, page nan [[W "got "; N v; W " but expected "; N w]] t2
                 /\ run = (t1 ++ sized (f_sequence_file S) ++ t2, d', Ok 1))).
Proof. exact c68_example. Qed.
Print Assumptions C68_example.

(** files that hold 0 10 20 30 40 50 61 65 and 0 10 ... 70 *)
Definition file_T : list Z := [20; 0; 0; 0; 0; 0; 0; 0; 0; 0; 0; 0; 7; 0; 1; 0; 10; 0; 0; 7; 0; 10; 20; 30; 40; 50; 61; 65].
Definition file_B : list Z := [20; 0; 0; 0; 0; 0; 0; 0; 0; 0; 0; 0; 7; 0; 1; 0; 10; 0; 0; 7; 0; 10; 20; 30; 40; 50; 60; 70].
Definition changed_rest (input file : list Z) :=
  let m := t_mapped file in example_rest true input (fst m) (snd m + 8) [].
Example C68_example_example :
  let B := [0; 10; 20; 30; 40; 50; 60; 70] in
  changed_rest B file_T = (word "got 61 but expected 60
", [], Ok 1)
  /\ changed_rest (B ++ [80]) file_B = ([], [], Ok 0)
  /\ changed_rest (firstn 7 B) file_B = ([], [], UB).
Proof. vm_compute. repeat split. Qed.
