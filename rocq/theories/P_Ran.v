(** Proofs for C58: what the test programs of the set operations report. *)
From Coq Require Import Lia String.
From Verif Require Import Base Hw Spec Lib M_Util M_Build M_Seq M_Decode M_Uncompress M_Query M_Intersect M_Union M_Many M_Index
  M_Print M_Calls M_Tests M_Text M_Out M_Say Printed Report Ran P_Ex P_Tests2 P_Tests5 P_Cut P_Out3 P_Say P_Say2 P_Say3 P_Say4 P_Beyond
  P_Spoil P_Plain.
Local Open Scope Z_scope.

Lemma vget_at l j x : vget l j = Ok x -> at_ l 0 j = x.
Proof.
  unfold vget, at_. destruct (znth l j) as [y|] eqn:E; [|discriminate]. intro H. apply Ok_inj in H. subst y.
  unfold znth in E. destruct (j <? 0); [discriminate|]. now apply nth_error_nth.
Qed.

Lemma check_report expected out size : forall m j lg lg', say_check_loop m expected out j size lg = Ok lg' ->
  lg' = reported (flat_map (fun j => let x := at_ expected 0 j in let y := at_ out 0 j in if_not (x =? y) (value_line size j x y))
                    (zrange j m)) lg.
Proof.
  induction m as [|m IH]; intros j lg lg' E; cbn [say_check_loop] in E.
  - apply Ok_inj in E. subst lg'. reflexivity.
  - apply bind_ok in E as (x & Ex & E). apply bind_ok in E as (y & Ey & E). apply IH in E. subst lg'.
    cbn [zrange flat_map]. rewrite reported_app. f_equal. rewrite (vget_at _ _ _ Ex), (vget_at _ _ _ Ey). cbn zeta.
    apply report_line. unfold say_error, value_line. line.
Qed.

(** the log after some reports *)
Definition logged (each errs : list (list piece)) (lg lg' : log) : Prop :=
  lg' = (fst lg && nothing errs, snd lg ++ ptext [] each).
Lemma reported_logged ls lg : logged ls ls lg (reported ls lg).
Proof. unfold logged. rewrite (surjective_pairing (reported ls lg)), reported_fst, reported_snd. reflexivity. Qed.

Lemma nothing_app a b : nothing (a ++ b) = nothing a && nothing b.
Proof. destruct a; reflexivity. Qed.

Lemma logged_app a b c d lg lg1 lg2 : logged a b lg lg1 -> logged c d lg1 lg2 -> logged (a ++ c) (b ++ d) lg lg2.
Proof. unfold logged. intros -> ->. cbn [fst snd]. now rewrite nothing_app, andb_assoc, ptext_app, app_assoc. Qed.
Lemma told_logged l t lg : t = ltext [] l -> logged [l] [] lg (tell t lg).
Proof.
  intros ->. unfold logged, tell. cbn [nothing ptext flat_map]. now rewrite andb_true_r, app_nil_r.
Qed.

Lemma query_logged what expected count size out lg lg' :
  say_check_loop (Z.to_nat size) expected out 0 size (report (negb (count =? size)) (say_size what size count) lg) = Ok lg' ->
  let r := mkRun count expected size out in logged (query_report what r) (query_report what r) lg lg'.
Proof.
  intros E r. apply check_report in E. rewrite (report_line _ [W what; W " has size "; N size; W " but expected "; N count]) in E.
  - rewrite <- reported_app in E. subst lg'. apply reported_logged.
  - unfold say_size. line.
Qed.

(** the words are numbers *)
Definition plain (r : run) : Prop :=
  0 <= r_size r /\ Forall (fun v => 0 <= v) (r_expected r) /\ Forall (fun v => 0 <= v) (r_got r).
Lemma U_plain c e n out : 0 <= n -> U e -> U out -> plain (mkRun c e n out).
Proof.
  assert (G : forall l, U l -> Forall (fun v => 0 <= v) l) by (intros l H; eapply Forall_impl; [|exact H]; intros v Hv; apply Hv).
  intros H1 H2 H3. exact (conj H1 (conj (G _ H2) (G _ H3))).
Qed.

Lemma queries_logged {Q A} (body : Q -> A * log -> res (A * log)) (ran : Q -> run -> Prop) each errs (left : A -> list Z) (inv : A -> Prop) :
  (forall q a lg a' lg', body q (a, lg) = Ok (a', lg') -> exists r, ran q r /\ logged (each r) (errs r) lg lg'
     /\ left a' = r_expected r /\ skipn (Z.to_nat (r_count r)) (r_expected r) = skipn (Z.to_nat (r_count r)) (left a)
     /\ (inv a -> inv a' /\ plain r)) ->
  forall qs a lg a' lg', run_queries body qs (a, lg) = Ok (a', lg') ->
  exists runs, Forall2 ran qs runs /\ logged (flat_map each runs) (flat_map errs runs) lg lg' /\ carried (left a) runs
    /\ (inv a -> Forall plain runs).
Proof.
  intros H. induction qs as [|q qs IH]; intros a lg a' lg' E; cbn [run_queries] in E.
  - apply Ok_inj in E. injection E as <- <-. exists []. split; [constructor|]. split; [|split; [exact I|constructor]]. unfold logged.
    cbn [flat_map nothing ptext]. rewrite andb_true_r, app_nil_r. destruct lg; reflexivity.
  - apply bind_ok in E as ([a1 lg1] & E1 & E). apply H in E1 as (r & R & L1 & EL & ES & HI). apply IH in E as (runs & F & L2 & C & HP).
    exists (r :: runs). split; [now constructor|]. cbn [flat_map carried]. split; [eapply logged_app; eauto|].
    split; [split; auto; now rewrite <- EL|]. intro Ha. destruct (HI Ha) as (Ha' & Hr). constructor; auto.
Qed.

Lemma stored_front buf e buf' : store buf 0 e = Ok buf' -> buf' = e ++ skipn (length e) buf.
Proof.
  unfold store. destruct (_ && _); [|discriminate]. intro E. apply Ok_inj in E. subst buf'.
  cbn [Z.to_nat firstn app]. do 2 f_equal. unfold zlen. lia.
Qed.

Lemma skip_front (e buf : list Z) : skipn (Z.to_nat (zlen e)) (e ++ skipn (length e) buf) = skipn (Z.to_nat (zlen e)) buf.
Proof. unfold zlen. rewrite Nat2Z.id, skipn_app, skipn_all, Nat.sub_diag. reflexivity. Qed.

Lemma verdict_page before each errs t0 lg k : logged each errs (true, ptext [] before) lg ->
  t0 = verdict (say_count "tested " k " queries") lg ->
  t0 = ptext [] (before ++ each ++ [[W "tested "; N k; W " queries"]] ++ if nothing errs then [[W "everything good"]] else [])%list.
Proof.
  unfold logged. intros -> ->. unfold verdict. cbn [fst snd andb]. rewrite !ptext_app.
  destruct (nothing errs); unfold say_count; rewrite <- ?app_assoc; do 2 f_equal;
    unfold ptext; cbn [flat_map]; rewrite ?app_nil_r; line.
Qed.

Lemma Forall2_length A B (P : A -> B -> Prop) l r : Forall2 P l r -> length l = length r.
Proof. induction 1; cbn [length]; congruence. Qed.

(** ** pairs *)
Lemma reading_text : say_reading = ptext [] reading.
Proof. unfold say_reading, reading. lines. Qed.

Definition qinv (a : qstate) : Prop := U (q_i a) /\ U (q_j a) /\ U (q_expected a) /\ U (q_out a).
Lemma qinv0 u : qinv (qstate0 u).
Proof. repeat split; apply U_zeros. Qed.
Lemma intersect_logged tbl sort dbg mem ix q a lg a' lg' :
  say_intersect_query tbl sort dbg mem ix q (a, lg) = Ok (a', lg') ->
  exists r, ran_pair tbl dbg mem ix merge_and (fun s t out => CInterMany mem (sort [s; t]) out 0) q r
    /\ logged (query_report "intersection" r) (query_report "intersection" r) lg lg'
    /\ q_expected a' = r_expected r /\ skipn (Z.to_nat (r_count r)) (r_expected r) = skipn (Z.to_nat (r_count r)) (q_expected a)
    /\ (qinv a -> qinv a' /\ plain r).
Proof.
  unfold say_intersect_query. intro E.
  apply bind_ok in E as (si & E1 & E). apply bind_ok in E as ([vi ni] & E2 & E).
  apply bind_ok in E as (sj & E3 & E). apply bind_ok in E as ([vj nj] & E4 & E). cbn zeta in E.
  apply bind_ok in E as (ex & E5 & E). apply bind_ok in E as ([sc [out n]] & E6 & E).
  apply bind_ok in E as (lg1 & E7 & E). apply Ok_inj in E. injection E as <- <-.
  apply query_logged in E7. apply stored_front in E5. subst ex. eexists. split; [|split; [exact E7|]];
    [|cbn [r_expected r_count q_expected]; split; [reflexivity|split; [apply skip_front|]];
      intros (I1 & I2 & I3 & I4); apply (U_decode _ _ _ _ _ I1) in E2; apply (U_decode _ _ _ _ _ I2) in E4;
      apply U_call in E6; [|exact I4]; destruct E6 as (E6 & EN); unfold U1 in *; cbn [fst snd] in *;
      assert (UE : U (merge_and (firstn (Z.to_nat ni) vi) (firstn (Z.to_nat nj) vj)
                      ++ skipn (length (merge_and (firstn (Z.to_nat ni) vi) (firstn (Z.to_nat nj) vj))) (q_expected a)))
        by (apply U_app; [apply U_merge_and; now apply U_firstn|now apply U_skipn]);
      split; [split; [exact E2|split; [exact E4|split; [exact UE|exact E6]]]|exact (U_plain _ _ _ _ EN UE E6)]].
  exists si, sj, (q_i a), (q_j a), vi, vj, ni, nj, (q_expected a), (q_sc a), (q_out a), sc, out, n. repeat split; auto.
Qed.
Lemma union_logged tbl dbg mem ix q a lg a' lg' :
  say_union_query tbl dbg mem ix q (a, lg) = Ok (a', lg') ->
  exists r, ran_pair tbl dbg mem ix merge_or (fun s t out => CUnion mem s t out 0) q r
    /\ logged (query_report "union" r) (query_report "union" r) lg lg'
    /\ q_expected a' = r_expected r /\ skipn (Z.to_nat (r_count r)) (r_expected r) = skipn (Z.to_nat (r_count r)) (q_expected a)
    /\ (qinv a -> qinv a' /\ plain r).
Proof.
  unfold say_union_query. intro E.
  apply bind_ok in E as (si & E1 & E). apply bind_ok in E as ([vi ni] & E2 & E).
  apply bind_ok in E as (sj & E3 & E). apply bind_ok in E as ([vj nj] & E4 & E). cbn zeta in E.
  apply bind_ok in E as (ex & E5 & E). apply bind_ok in E as ([sc [out n]] & E6 & E).
  apply bind_ok in E as (lg1 & E7 & E). apply Ok_inj in E. injection E as <- <-.
  apply query_logged in E7. apply stored_front in E5. subst ex. eexists. split; [|split; [exact E7|]];
    [|cbn [r_expected r_count q_expected]; split; [reflexivity|split; [apply skip_front|]];
      intros (I1 & I2 & I3 & I4); apply (U_decode _ _ _ _ _ I1) in E2; apply (U_decode _ _ _ _ _ I2) in E4;
      apply U_call in E6; [|exact I4]; destruct E6 as (E6 & EN); unfold U1 in *; cbn [fst snd] in *;
      assert (UE : U (merge_or (firstn (Z.to_nat ni) vi) (firstn (Z.to_nat nj) vj)
                      ++ skipn (length (merge_or (firstn (Z.to_nat ni) vi) (firstn (Z.to_nat nj) vj))) (q_expected a)))
        by (apply U_app; [apply U_merge_or; now apply U_firstn|now apply U_skipn]);
      split; [split; [exact E2|split; [exact E4|split; [exact UE|exact E6]]]|exact (U_plain _ _ _ _ EN UE E6)]].
  exists si, sj, (q_i a), (q_j a), vi, vj, ni, nj, (q_expected a), (q_sc a), (q_out a), sc, out, n. repeat split; auto.
Qed.

Lemma query_nonneg what r : 0 <= r_count r -> 0 <= r_size r -> Forall (fun v => 0 <= v) (r_expected r) ->
  Forall (fun v => 0 <= v) (r_got r) -> Forall (Forall nonneg) (query_report what r).
Proof.
  intros H1 H2 H3 H4. unfold query_report. apply Forall_app. split; [apply if_not_nonneg; pieces|].
  apply Forall_forall. intros l Hl. apply in_flat_map in Hl as (j & Hj & Hl). apply In_zrange in Hj.
  revert l Hl. apply Forall_forall. apply if_not_nonneg. unfold value_line. pieces; first [lia|apply at_nonneg; auto; lia].
Qed.
Lemma each_nonneg each runs : Forall (fun r => 0 <= r_count r) runs -> Forall plain runs ->
  (forall r, 0 <= r_count r -> plain r -> Forall (Forall nonneg) (each r)) -> Forall (Forall nonneg) (flat_map each runs).
Proof.
  intros HC HP H. apply Forall_forall. intros l Hl. apply in_flat_map in Hl as (r & Hr & Hl). revert l Hl. apply Forall_forall.
  rewrite Forall_forall in HC, HP. auto.
Qed.
Lemma session_page before each errs runs t : t = ptext [] (query_session before each errs runs) ->
  Forall (Forall nonneg) before -> Forall (fun r => 0 <= r_count r) runs ->
  (forall r, 0 <= r_count r -> plain r -> Forall (Forall nonneg) (each r)) -> Forall plain runs ->
  page [] (query_session before each errs runs) t.
Proof.
  intros -> HB HC HE HP. apply ptext_page. unfold query_session. repeat (apply Forall_app; split); auto.
  - now apply each_nonneg.
  - pieces. apply zlen_nonneg.
  - destruct (nothing _); pieces.
Qed.
Lemma counts_pair tbl dbg mem ix merge op qs runs : Forall2 (ran_pair tbl dbg mem ix merge op) qs runs ->
  Forall (fun r => 0 <= r_count r) runs.
Proof.
  induction 1 as [|q r qs runs R _ IH]; constructor; auto.
  destruct R as (s & t & bi & bj & vi & vj & ni & nj & buf & sc & out & sc' & out' & n & _ & _ & _ & _ & _ & ->).
  apply zlen_nonneg.
Qed.
Lemma counts_many tbl dbg mem ix merge op qs runs : Forall2 (ran_many tbl dbg mem ix merge op) qs runs ->
  Forall (fun r => 0 <= r_count r) runs.
Proof.
  induction 1 as [|q r qs runs R _ IH]; constructor; auto.
  destruct R as (ss & ls & e & sc & out & sc' & out' & n & _ & _ & _ & _ & ->). apply zlen_nonneg.
Qed.
Lemma query_plain what r : 0 <= r_count r -> plain r -> Forall (Forall nonneg) (query_report what r).
Proof. intros H (A & B & C). now apply query_nonneg. Qed.
Lemma sized_plain what r : 0 <= r_count r -> plain r -> Forall (Forall nonneg) (sized_report what r).
Proof. intros H P. unfold sized_report. constructor; [destruct P; pieces|]. now apply query_plain. Qed.
Lemma reading_nonneg : Forall (Forall nonneg) reading.
Proof. unfold reading. pieces. Qed.

Lemma c58_pairs : forall tbl sort dbg mem f qs t,
  (say_test_intersect tbl sort dbg mem f qs = Ok t ->
   exists ix runs, index_mmap mem f = Ok ix
     /\ Forall2 (ran_pair tbl dbg mem ix merge_and (fun s t out => CInterMany mem (sort [s; t]) out 0)) qs runs
     /\ carried (repeat 0 (Z.to_nat (ix_universe ix))) runs
     /\ page [] (query_session reading (query_report "intersection") (query_report "intersection") runs) t)
  /\ (say_test_union tbl dbg mem f qs = Ok t ->
   exists ix runs, index_mmap mem f = Ok ix
     /\ Forall2 (ran_pair tbl dbg mem ix merge_or (fun s t out => CUnion mem s t out 0)) qs runs
     /\ carried (repeat 0 (Z.to_nat (ix_universe ix))) runs
     /\ page [] (query_session reading (query_report "union") (query_report "union") runs) t).
Proof.
  intros tbl sort dbg mem f qs t. split; intro E.
  - unfold say_test_intersect in E. apply bind_ok in E as (ix & EM & E). apply bind_ok in E as ([a lg] & E & ET).
    apply Ok_inj in ET. rewrite reading_text in E.
    eapply (queries_logged _ _ _ _ q_expected qinv) in E as (runs & F & L & C & HP); [|intros q a0 lg0 a' lg' EQ; eapply intersect_logged, EQ].
    exists ix, runs. split; auto. split; auto. split; [exact C|]. apply session_page; auto using reading_nonneg, query_plain, qinv0.
    + unfold query_session. eapply verdict_page; [exact L|]. rewrite <- ET. do 2 f_equal. unfold zlen.
      now rewrite (Forall2_length _ _ _ _ _ F).
    + eapply counts_pair, F.
  - unfold say_test_union in E. apply bind_ok in E as (ix & EM & E). apply bind_ok in E as ([a lg] & E & ET).
    apply Ok_inj in ET. rewrite reading_text in E.
    eapply (queries_logged _ _ _ _ q_expected qinv) in E as (runs & F & L & C & HP); [|intros q a0 lg0 a' lg' EQ; eapply union_logged, EQ].
    exists ix, runs. split; auto. split; auto. split; [exact C|]. apply session_page; auto using reading_nonneg, query_plain, qinv0.
    + unfold query_session. eapply verdict_page; [exact L|]. rewrite <- ET. do 2 f_equal. unfold zlen.
      now rewrite (Forall2_length _ _ _ _ _ F).
    + eapply counts_pair, F.
Qed.

(** ** many *)
Lemma res_map_all {A B} (g : A -> res B) : forall l r, res_map g l = Ok r -> Forall2 (fun x y => g x = Ok y) l r.
Proof.
  induction l as [|x l IH]; intros r E; cbn [res_map] in E.
  - apply Ok_inj in E. subst r. constructor.
  - apply bind_ok in E as (y & Ey & E). apply bind_ok in E as (ys & Eys & E). apply Ok_inj in E. subst r. constructor; auto.
Qed.
Lemma collected_u dbg mem ix : forall q ls, res_map (collect dbg mem ix) q = Ok ls -> Forall U ls.
Proof.
  intros q ls E. apply res_map_all in E. induction E as [|k l q ls H _ IH]; constructor; auto. eapply collect_u, H.
Qed.
Definition big (q : list Z) : bool := 2 <=? zlen q.
Lemma many_logged (body : list Z -> Z * log * scratch * list Z -> res (Z * log * scratch * list Z)) (ran : list Z -> run -> Prop) each errs :
  (forall q st, big q = false -> body q st = Ok st) ->
  (forall q num lg sc out num' lg' sc' out', big q = true -> body q (num, lg, sc, out) = Ok (num', lg', sc', out') ->
     num' = num + 1 /\ exists r, ran q r /\ logged (each r) (errs r) lg lg' /\ (U out -> U out' /\ plain r)) ->
  forall qs num lg sc out num' lg' sc' out', run_queries body qs (num, lg, sc, out) = Ok (num', lg', sc', out') ->
  exists runs, Forall2 ran (filter big qs) runs /\ num' = num + zlen runs
    /\ logged (flat_map each runs) (flat_map errs runs) lg lg' /\ (U out -> Forall plain runs).
Proof.
  intros H0 H. induction qs as [|q qs IH]; intros num lg sc out num' lg' sc' out' E; cbn [run_queries] in E.
  - apply Ok_inj in E. injection E as <- <- <- <-. exists []. split; [constructor|]. split; [zl|]. split; [|constructor]. unfold logged.
    cbn [flat_map nothing ptext]. rewrite andb_true_r, app_nil_r. destruct lg; reflexivity.
  - apply bind_ok in E as ([[[n1 lg1] sc1] out1] & E1 & E). cbn [filter]. destruct (big q) eqn:EB.
    + apply H in E1 as (-> & r & R & L1 & HI); auto. apply IH in E as (runs & F & EN & L2 & HP).
      exists (r :: runs). split; [now constructor|]. split; [rewrite zlen_cons; lia|]. cbn [flat_map]. split; [eapply logged_app; eauto|].
      intro Ho. destruct (HI Ho) as (Ho' & Hr). constructor; auto.
    + rewrite H0 in E1 by auto. apply Ok_inj in E1. injection E1 as <- <- <- <-. eapply IH, E.
Qed.
Lemma intersect_many_logged tbl sort dbg mem ix q num lg sc out num' lg' sc' out' : big q = true ->
  say_intersect_many_query tbl sort dbg mem ix q (num, lg, sc, out) = Ok (num', lg', sc', out') ->
  num' = num + 1 /\ exists r, ran_many tbl dbg mem ix and_all (fun ss out => CInterMany mem (sort ss) out 0) q r
    /\ logged (sized_report "intersection" r) (query_report "intersection" r) lg lg' /\ (U out -> U out' /\ plain r).
Proof.
  unfold say_intersect_many_query, big. intros HB E.
  replace (zlen q <? 2) with false in E by (symmetry; apply Z.ltb_ge; now apply Z.leb_le).
  apply bind_ok in E as (ls & E1 & E). apply bind_ok in E as (e & E2 & E). apply bind_ok in E as (ss & E3 & E).
  apply bind_ok in E as ([sc1 [out1 n]] & E4 & E). cbn zeta in E. apply bind_ok in E as (lg1 & E5 & E).
  apply Ok_inj in E. injection E as <- <- <- <-. split; auto. apply query_logged in E5. eexists. split.
  - exists ss, ls, e, sc, out, sc1, out1, n. split; [now apply res_map_all|]. split; [now apply res_map_all|]. auto.
  - split; [unfold sized_report; eapply (logged_app [_] []); [|exact E5]; apply told_logged; unfold say_count; line|].
    intro Ho. apply U_call in E4; [|exact Ho]. destruct E4 as (E4 & EN). cbn [fst snd] in *. split; auto. apply U_plain; auto.
    assert (UL : Forall U ls) by (eapply collected_u, E1). eapply U_and_all; eauto.
Qed.
Lemma union_many_logged tbl dbg mem ix q num lg sc out num' lg' sc' out' : big q = true ->
  say_union_many_query tbl dbg mem ix q (num, lg, sc, out) = Ok (num', lg', sc', out') ->
  num' = num + 1 /\ exists r, ran_many tbl dbg mem ix (fun ls => Ok (or_all ls)) (fun ss out => CUnionMany mem ss out 0) q r
    /\ logged (sized_report "union" r) (query_report "union" r) lg lg' /\ (U out -> U out' /\ plain r).
Proof.
  unfold say_union_many_query, big. intros HB E.
  replace (zlen q <? 2) with false in E by (symmetry; apply Z.ltb_ge; now apply Z.leb_le).
  apply bind_ok in E as (ls & E1 & E). cbn zeta in E. apply bind_ok in E as (ss & E3 & E).
  apply bind_ok in E as ([sc1 [out1 n]] & E4 & E). cbn zeta in E. apply bind_ok in E as (lg1 & E5 & E).
  apply Ok_inj in E. injection E as <- <- <- <-. split; auto. apply query_logged in E5. eexists. split.
  - exists ss, ls, (or_all ls), sc, out, sc1, out1, n. split; [now apply res_map_all|]. split; [now apply res_map_all|]. auto.
  - split; [unfold sized_report; eapply (logged_app [_] []); [|exact E5]; apply told_logged; unfold say_count; line|].
    intro Ho. apply U_call in E4; [|exact Ho]. destruct E4 as (E4 & EN). cbn [fst snd] in *. split; auto. apply U_plain; auto.
    assert (UL : Forall U ls) by (eapply collected_u, E1). now apply U_or_all.
Qed.

Definition reading_many : list (list piece) := (reading ++ [[W "running test..."]])%list.
Lemma reading_many_text : (say_reading ++ codes "running test..." ++ endl)%list = ptext [] reading_many.
Proof. unfold reading_many. rewrite ptext_app, <- reading_text. reflexivity. Qed.

Lemma c58_many : forall tbl sort dbg mem f qs t,
  (say_test_intersect_many tbl sort dbg mem f qs = Ok t ->
   exists ix runs, index_mmap mem f = Ok ix
     /\ Forall2 (ran_many tbl dbg mem ix and_all (fun ss out => CInterMany mem (sort ss) out 0))
          (filter (fun q => 2 <=? zlen q) qs) runs
     /\ page [] (query_session (reading ++ [[W "running test..."]]) (sized_report "intersection") (query_report "intersection")
                    runs) t)
  /\ (say_test_union_many tbl dbg mem f qs = Ok t ->
   exists ix runs, index_mmap mem f = Ok ix
     /\ Forall2 (ran_many tbl dbg mem ix (fun ls => Ok (or_all ls)) (fun ss out => CUnionMany mem ss out 0))
          (filter (fun q => 2 <=? zlen q) qs) runs
     /\ page [] (query_session (reading ++ [[W "running test..."]]) (sized_report "union") (query_report "union") runs) t).
Proof.
  intros tbl sort dbg mem f qs t.
  assert (NB : Forall (Forall nonneg) (reading ++ [[W "running test..."]])).
  { apply Forall_app. split; [apply reading_nonneg|]. pieces. }
  assert (SM : forall q, big q = false -> (zlen q <? 2) = true).
  { unfold big. intros q H. apply Z.ltb_lt. apply Z.leb_gt in H. lia. }
  split; intro E.
  - unfold say_test_intersect_many, say_many in E. apply bind_ok in E as (ix & EM & E).
    apply bind_ok in E as ([[[num lg] sc] out] & E & ET). apply Ok_inj in ET. rewrite reading_many_text in E.
    eapply many_logged in E as (runs & F & EN & L & HP);
      [|intros q [[[n0 l0] s0] o0] EB; unfold say_intersect_many_query; now rewrite SM
       |intros; eapply intersect_many_logged; eauto].
    exists ix, runs. split; auto. split; auto. apply session_page; auto using sized_plain, U_zeros.
    + unfold query_session. eapply verdict_page; [exact L|]. rewrite <- ET. now rewrite EN.
    + eapply counts_many, F.
  - unfold say_test_union_many, say_many in E. apply bind_ok in E as (ix & EM & E).
    apply bind_ok in E as ([[[num lg] sc] out] & E & ET). apply Ok_inj in ET. rewrite reading_many_text in E.
    eapply many_logged in E as (runs & F & EN & L & HP);
      [|intros q [[[n0 l0] s0] o0] EB; unfold say_union_many_query; now rewrite SM
       |intros; eapply union_many_logged; eauto].
    exists ix, runs. split; auto. split; auto. apply session_page; auto using sized_plain, U_zeros.
    + unfold query_session. eapply verdict_page; [exact L|]. rewrite <- ET. now rewrite EN.
    + eapply counts_many, F.
Qed.
