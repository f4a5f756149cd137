(** C65: the test programs that go through a collection, as whole programs: what they have written when they come to the
    end, and when they do not. *)
From Coq Require Import String Sorted Floats.SpecFloat.
From Verif Require Import Base Hw Spec Lib Layout M_Util M_Build M_Seq M_Decode M_Uncompress M_Query M_Index M_Print M_Tests M_Drivers
  M_Text M_Out M_Say M_Session M_Bench M_Live
  Holds Format Room Shown Told Typed Printed Report Session Bench Live P_Ex P_Tests5 P_Say P_SessionEx P_Live3 P_LiveEx.
Local Open Scope Z_scope.

(** The index need not be the one of the collection, but has at least as many lists.  When the collection ends with the lists,
    a program writes all its lines and returns 0.  When a list is cut off, or with assertions when there is one list more than
    in the index, the program ends with undefined behaviour or is aborted, and the lines for all lists before that one have
    been written.  The same holds for a list that decode or uncompress has no room for (C34). *)
Theorem C65_tests : forall stod iso dbg mapped name idx coll args d,
  let double v x := stod v = Ok x in
  Forall (proper_test iso double) args ->
  exists density size,
    settled (says_density double) args (p_density default_params) density
    /\ settled (says_size iso) args (p_size default_params) size
    /\ forall u u' Ls tail Ks',
       let params := mkParams density size in
       let run test := run_live stod iso test mapped name (idx :: coll :: flat_map spelled args) d in
       let Ks := kept_lists params Ls in
       let pairs := combine Ks Ks' in
       index_on d mapped idx u' Ks' -> has_file d coll (words32 (collection u Ls ++ tail)) ->
       Forall is_u32 (collection u Ls ++ tail) -> Forall short Ls -> zlen Ks <= zlen Ks' ->
       let ends verb last_verb rep test :=
         (tail = [] -> reports [] (session verb last_verb u' rep pairs) d (run test))
         /\ (forall how, ends_badly dbg params (zlen Ks = zlen Ks') tail how -> stops (so_far verb u' rep pairs) how d (run test)) in
       let long p := zlen (fst p) <= zlen (snd p) in
       let spreads S := last S 0 / 65536 <= u' / 65536 /\ zlen S <= u' in
       (Forall (fun p => decode_fits (snd p) u' /\ long p) pairs -> ends "decoded "%string "decoded "%string decode_report (live_decode dbg))
       /\ ends "checked "%string "checked "%string contains_report (live_contains dbg)
       /\ ends "checked "%string "checked "%string select_report (live_select dbg)
       /\ ends "decoded "%string "decoded "%string (enumerator_report u') (live_enumerator dbg)
       /\ (forall fuel, (100 <= fuel)%nat -> Forall (fun L => valid L /\ last L 0 + 1000001 < 2 ^ 32) Ks ->
             ends "checked "%string "checked "%string next_geq_report (live_next_geq fuel dbg)
             /\ ends "checked "%string "checked "%string next_geq_report (live_next_geq_enumerator fuel dbg))
       /\ (u' < 2 ^ 32 - 65536 -> Forall (fun p => spreads (snd p) /\ long p) pairs ->
             ends "decoded "%string "uncompressed "%string uncompress_report (live_uncompress dbg))
       /\ (forall L more S, tail = zlen L :: L ++ more -> short L -> pass params (zlen L) (last L 0) = true ->
             znth Ks' (zlen Ks) = Some S ->
             (Forall (fun p => decode_fits (snd p) u' /\ long p) pairs -> ~ decode_fits S u' ->
                stops (so_far "decoded " u' decode_report pairs) UB d (run (live_decode dbg)))
             /\ (u' < 2 ^ 32 - 65536 -> Forall (fun p => spreads (snd p) /\ long p) pairs -> ~ spreads S ->
                   stops (so_far "decoded " u' uncompress_report pairs) UB d (run (live_uncompress dbg)))).
Proof. exact c65_tests. Qed.
Print Assumptions C65_tests.

Example C65_tests_example : index_on v_disk t_mapped (word "i") 1000 v_index
  /\ has_file v_disk (word "cut") (words32 (collection 1000 [[3; 6; 9]; [4; 700]] ++ [5; 1; 2]))
  /\ v_run (live_decode true) "i" "same" = (word
"universe size: 1000
decoded 2 sequences
everything good
", v_disk, Ok 0)
  /\ v_run (live_decode true) "i" "cut" = (word
"universe size: 1000
error at 1/3: expected 6 but got 5
", v_disk, UB)
  /\ v_run (live_contains true) "i" "cut" = (word
"universe size: 1000
6 should have been found
", v_disk, UB)
  /\ v_run (live_select true) "i" "more" = (word
"universe size: 1000
", v_disk, Abort)
  /\ v_run (live_decode true) "j" "small" = (word
"universe size: 9
", v_disk, UB)
  /\ v_run (live_uncompress true) "j" "small" = (word
"universe size: 9
", v_disk, UB).
Proof. exact c65_ex_tests. Qed.

(** A program that cannot start writes nothing, or its usage: the index is opened before the collection. *)
Theorem C65_refuse : forall stod iso dbg mapped name idx coll args d,
  let double v x := stod v = Ok x in
  Forall (proper_test iso double) args ->
  forall test fuel,
  In test [live_decode dbg; live_contains dbg; live_select dbg; live_enumerator dbg; live_next_geq fuel dbg;
           live_next_geq_enumerator fuel dbg; live_uncompress dbg] ->
  let run argv := run_live stod iso test mapped name argv d in
  let argv := idx :: coll :: flat_map spelled args in
  (no_file d idx -> run argv = ([], d, Throw))
  /\ (forall u Ks, index_on d mapped idx u Ks ->
        (no_file d coll -> run argv = ([], d, Throw))
        /\ (has_file d coll [] -> run argv = ([], d, UB))
        /\ (forall w ws, has_file d coll (words32 (w :: ws)) -> Forall is_u32 (w :: ws) -> w <> 1 -> dbg = true ->
              run argv = ([], d, Abort)))
  /\ (forall few, zlen few < 2 ->
        run few = (name ++ word " index_filename collection_filename [--density d] [--size s]" ++ [10], d, Ok 1)).
Proof. exact c65_refuse. Qed.
Print Assumptions C65_refuse.

Example C65_refuse_example : v_run (live_enumerator true) "x" "same" = ([], v_disk, Throw)
  /\ v_run (live_enumerator true) "i" "x" = ([], v_disk, Throw)
  /\ v_run (live_enumerator true) "i" "old" = ([], v_disk, Abort)
  /\ v_run (live_enumerator false) "i" "old" = (word
"universe size: 1000
decoded 0 sequences
everything good
", v_disk, Ok 0).
Proof. exact c65_ex_refuse. Qed.
