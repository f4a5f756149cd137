(** Proofs for C68: example when the file it reads back holds another sequence. *)
From Coq Require Import Lia Sorted String Floats.SpecFloat.
From Verif Require Import Base Hw Spec Lib L_Bits L_Group Layout M_Util M_Build M_Seq M_Decode M_Query M_Many
  M_Index M_Print M_Drivers M_Tools M_Text M_Out M_Say M_Session M_Lax Holds Format Room Shown Typed Printed Counts Report Drawn Session Lax
  P_Build1 P_Build2 P_Build3 P_Index P_Format P_Text P_Text2 P_Text3 P_Text4 P_Text6 P_Tools P_Drivers P_Stats P_Fin4 P_Counts P_Print P_Shown P_Out3 P_Say P_Say3 P_Say4
  P_Session P_Session2 P_Session3 P_Lax.
Local Open Scope Z_scope.

Lemma znth_mid (P : list Z) x R : znth (P ++ x :: R) (zlen P) = Some x.
Proof. rewrite znth_app_r, Z.sub_diag by lia. reflexivity. Qed.
Lemma loop_common dbg mem s input out T : zlen T < 2 ^ 32 ->
  (forall j, 0 <= j < zlen T -> znth out j = znth T j) ->
  (forall j x v, 0 <= j < 2 ^ 32 -> znth T j = Some x -> select dbg mem s j v = Ok (true, x)) ->
  forall C P Q Q' v, T = P ++ C ++ Q -> input = P ++ C ++ Q' ->
  exists v', say_example_loop (length (C ++ Q)) dbg mem s input out (zlen P) v
    = say_example_loop (length Q) dbg mem s input out (zlen (P ++ C)) v'.
Proof.
  change (2 ^ 32) with 4294967296. intros HT HO HS C. induction C as [|c C IH]; intros P Q Q' v ET EI.
  - exists v. rewrite app_nil_r. reflexivity.
  - cbn [length app say_example_loop].
    assert (BT : 0 <= zlen P < zlen T).
    { rewrite ET, zlen_app. cbn [app]. rewrite zlen_cons. pose proof (zlen_nonneg _ P). pose proof (zlen_nonneg _ (C ++ Q)). lia. }
    assert (X : znth T (zlen P) = Some c) by (rewrite ET; apply znth_mid).
    assert (Y : znth input (zlen P) = Some c) by (rewrite EI; apply znth_mid).
    unfold vget. rewrite Y, (HO _ BT), X. cbn [bind]. rewrite Z.eqb_refl. cbn [negb].
    rewrite (u32_id (zlen P)) by (clear - HT BT; lia). rewrite (HS (zlen P) c v ltac:(clear - HT BT; lia) X). cbn [bind]. rewrite Z.eqb_refl. cbn [negb].
    destruct (IH (P ++ [c]) Q Q' c) as (v' & E).
    + now rewrite <- app_assoc.
    + now rewrite <- app_assoc.
    + exists v'. rewrite zlen_app in E. change (zlen [c]) with 1 in E. rewrite E. now rewrite <- app_assoc.
Qed.

Lemma rest_other dbg S T mem a d : valid T -> stored 31 mem a T ->
  (~ decode_fits T (zlen T) -> example_rest dbg S mem a d = ([], d, UB))
  /\ (decode_fits T (zlen T) ->
       (forall R, S = T ++ R -> example_rest dbg S mem a d = ([], d, Ok 0))
       /\ (forall v R, T = S ++ v :: R -> example_rest dbg S mem a d = ([], d, UB))
       /\ (forall P v w R R', T = P ++ v :: R -> S = P ++ w :: R' -> v <> w ->
             example_rest dbg S mem a d = (say_got v w, d, Ok 1))).
Proof.
  intros V St. pose proof (P_Tests.stored_weaken _ 0 _ _ _ St ltac:(lia)) as St0.
  destruct (P_Fin1.c04_size mem a T V St0) as (s & Es & Ez & _).
  pose proof (zlen_nonneg _ T) as L0.
  assert (LR : zlen (repeat 0 (Z.to_nat (zlen T))) = zlen T) by (rewrite zlen_repeat; lia).
  destruct (P_Room.c34_decode dbg mem a T (repeat 0 (Z.to_nat (zlen T))) 0 V St ltac:(lia)) as (s' & Es' & D1 & D2).
  rewrite Es in Es'. injection Es' as <-. rewrite LR, Z.sub_0_r in D1, D2.
  split.
  - intro F. unfold example_rest. rewrite Es, (then_quiet _ _ _ _ eq_refl), Ez, (then_quiet _ _ _ _ eq_refl), (D2 F). reflexivity.
  - intro F. destruct (D1 F) as (out & ED & LO & HO & _).
    assert (H1 : zlen T < 2 ^ 32) by (pose proof (short_valid T V) as X; unfold short in X; lia).
    assert (H2 : forall j, 0 <= j < zlen T -> znth out j = znth T j) by (intros j Hj; rewrite <- (HO j Hj); f_equal; lia).
    assert (H3 : forall j x v, 0 <= j < 2 ^ 32 -> znth T j = Some x -> select dbg mem s j v = Ok (true, x)).
    { intros j x v Hj Hx. destruct (P_Fin1.c06_select dbg mem a T j v V St0 Hj) as (s' & Es' & A & _).
      rewrite Es in Es'. injection Es' as <-. now apply A. }
    assert (EL : Z.to_nat (zlen T) = length T) by (unfold zlen; lia).
    assert (G : forall r t, say_example_loop (length T) dbg mem s S out 0 0 = Ok (r, t) -> example_rest dbg S mem a d = (t, d, Ok r)).
    { intros r t E. unfold example_rest. rewrite Es, (then_quiet _ _ _ _ eq_refl), Ez, (then_quiet _ _ _ _ eq_refl), ED, (then_quiet _ _ _ _ eq_refl), EL.
      rewrite E, (then_quiet _ _ _ _ eq_refl), then_cout. cbn. now rewrite app_nil_r. }
    pose proof (loop_common dbg mem s S out T H1 H2 H3) as LC.
    split; [|split].
    + intros R E. destruct (LC T [] [] R 0) as (v' & E'); [now rewrite app_nil_r|exact E|]. rewrite app_nil_r in E'.
      apply G. exact E'.
    + intros v R E. destruct (LC S [] (v :: R) [] 0) as (v' & E'); [exact E|now rewrite app_nil_r|]. rewrite <- E in E'.
      unfold example_rest. rewrite Es, (then_quiet _ _ _ _ eq_refl), Ez, (then_quiet _ _ _ _ eq_refl), ED, (then_quiet _ _ _ _ eq_refl), EL.
      change (zlen (@nil Z)) with 0 in E'. rewrite E'. cbn [length say_example_loop app]. unfold vget at 1.
      rewrite P_Fin1.znth_ge by lia. reflexivity.
    + intros P v w R R' E1 E2 NE. destruct (LC P [] (v :: R) (w :: R') 0) as (v' & E'); [exact E1|exact E2|]. rewrite <- E1 in E'.
      apply G. change (zlen (@nil Z)) with 0 in E'. rewrite E'. cbn [length say_example_loop app].
      assert (X : znth T (zlen P) = Some v) by (rewrite E1; apply znth_mid).
      assert (Y : znth S (zlen P) = Some w) by (rewrite E2; apply znth_mid).
      assert (BT : 0 <= zlen P < zlen T).
      { rewrite E1, zlen_app, zlen_cons. pose proof (zlen_nonneg _ P). pose proof (zlen_nonneg _ R). lia. }
      unfold vget. rewrite Y, (H2 _ BT), X. cbn [bind]. destruct (Z.eqb_spec w v); [congruence|]. reflexivity.
Qed.

Lemma got_page nan x y : 0 <= x -> 0 <= y -> page nan [[W "got "; N x; W " but expected "; N y]] (say_got x y).
Proof.
  intros X Y. replace (say_got x y) with (ptext nan [[W "got "; N x; W " but expected "; N y]]).
  - apply ptext_page. pieces.
  - unfold say_got. lines.
Qed.

Theorem c68_example : forall conv nan dbg sized heap mapped name o t g S T more d,
  (forall x, 0 <= conv x < 2 ^ 64) ->
  typed t (zlen S :: S ++ more) -> no_digit g -> valid S -> valid T ->
  stored 31 (fst (mapped (f_sequence_file S))) (snd (mapped (f_sequence_file S)) + 8) T ->
  let run := run_example_lax conv nan dbg sized heap mapped name [word "-o"; o] (t ++ g) d in
  exists t1 d', page nan (statistics_lines_on conv (counters (8 * zlen (f_sequence S) + 128) [S])) t1
    /\ saved d o (f_sequence_file S) d'
    /\ (~ decode_fits T (zlen T) -> run = (t1 ++ sized (f_sequence_file S), d', UB))
    /\ (decode_fits T (zlen T) ->
         (forall R, S = T ++ R -> run = (t1 ++ sized (f_sequence_file S), d', Ok 0))
         /\ (forall v R, T = S ++ v :: R -> run = (t1 ++ sized (f_sequence_file S), d', UB))
         /\ (forall P v w R R', T = P ++ v :: R -> S = P ++ w :: R' -> v <> w ->
               exists t2, page nan [[W "got "; N v; W " but expected "; N w]] t2
                 /\ run = (t1 ++ sized (f_sequence_file S) ++ t2, d', Ok 1))).
Proof.
  intros conv nan dbg sized heap mapped name o t g S T more d HC HT HG V VT HM run.
  assert (ER : read_input (t ++ g) = Ok S).
  { apply read_input_ok with more; auto.
    - destruct V as (_ & _ & F'). eapply Forall_impl; [|exact F']. unfold is_u32. intros; lia.
    - pose proof (short_valid S V) as X. unfold short in X. lia. }
  set (t1 := ptext nan (statistics_lines_on conv (counters (8 * zlen (f_sequence S) + 128) [S]))).
  assert (PG : page nan (statistics_lines_on conv (counters (8 * zlen (f_sequence S) + 128) [S])) t1).
  { apply ptext_page, statistics_on_nonneg; [|apply HC]. intro h. apply counters_nonneg; [auto|]. pose proof (zlen_nonneg _ (f_sequence S)). lia. }
  set (d' := (o, f_sequence_file S) :: d).
  set (m := mapped (f_sequence_file S)) in *.
  assert (ERun : forall tt rr, example_rest dbg S (fst m) (snd m + 8) d' = (tt, d', rr) -> run = (t1 ++ sized (f_sequence_file S) ++ tt, d', rr)).
  { intros tt rr E.
    unfold run, run_example_lax, run_example_by.
    change [word "-o"; o] with (flat_map (fun v => [word "-o"; v]) [o]).
    rewrite <- (app_nil_r (flat_map _ [o])), example_words_names. cbn [example_words].
    rewrite (then_quiet _ _ _ _ eq_refl), (then_quiet _ _ _ _ ER).
    destruct (example_text_on dbg S V) as (st & enc & EB & EE & P). rewrite EB, (then_quiet _ _ _ _ eq_refl), (then_quiet _ _ _ _ (P conv nan)).
    destruct (c25_format dbg [] S V) as (st' & E'). rewrite app_nil_l, EB in E'. injection E' as -> ->.
    rewrite then_cout. cbn [last].
    assert (EF : sequence_file (f_sequence S) = f_sequence_file S) by (unfold sequence_file, f_sequence_file; now rewrite le8_le64).
    rewrite EF, then_cout.
    rewrite (then_is (save_file o (f_sequence_file S)) _ d [] d' Datatypes.tt eq_refl).
    rewrite (then_open o _ d' (f_sequence_file S)) by exact (proj1 (saved_cons d o (f_sequence_file S))).
    fold m. destruct m as [mem a]. cbn [fst snd] in *. rewrite E. reflexivity. }
  destruct (rest_other dbg S T (fst m) (snd m + 8) d' VT HM) as [N F].
  exists t1, d'. split; [exact PG|]. split; [apply saved_cons|]. split.
  - intro H. rewrite (ERun _ _ (N H)). now rewrite app_nil_r.
  - intro H. destruct (F H) as (F1 & F2 & F3). split; [|split].
    + intros R E. rewrite (ERun _ _ (F1 R E)). now rewrite app_nil_r.
    + intros v R E. rewrite (ERun _ _ (F2 v R E)). now rewrite app_nil_r.
    + intros P v w R R' E1 E2 NE. exists (say_got v w). split; [|exact (ERun _ _ (F3 P v w R R' E1 E2 NE))].
      apply got_page.
      * destruct VT as (_ & _ & X). rewrite Forall_forall in X. specialize (X v). unfold is_u32 in X. rewrite E1, in_app_iff in X. cbn [In] in X. intuition lia.
      * destruct V as (_ & _ & X). rewrite Forall_forall in X. specialize (X w). unfold is_u32 in X. rewrite E2, in_app_iff in X. cbn [In] in X. intuition lia.
Qed.
