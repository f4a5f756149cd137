(** Proofs for C53: what the test programs for one sequence report. *)
From Coq Require Import Lia Sorted String.
From Verif Require Import Base Hw Spec Lib L_Bits L_Group Layout M_Util M_Build M_Seq M_Decode M_Uncompress
  M_Query M_Union M_Many M_Index M_Print M_Calls M_Tests M_Text M_Out M_Say Holds Format Room Shown Typed Printed Told Report
  P_Build1 P_Build2 P_Build3 P_Seq P_Decode P_Query P_NextGeq
  P_Ng P_Enum P_Uncompress P_Sets P_Index P_Fin1 P_Fin2 P_Fin3 P_Room P_Tests P_Tests2 P_Tests3 P_Tests4 P_Fits P_Out3.
Local Open Scope Z_scope.

Lemma znth_none A (l : list A) i : znth l i = None -> 0 <= i -> zlen l <= i.
Proof.
  intros E H. destruct (Z.lt_ge_cases i (zlen l)); [|lia]. destruct (znth_Some A l i ltac:(lia)). congruence.
Qed.

(** ** logs *)
Definition reported (ls : list (list piece)) (lg : log) : log :=
  match ls with [] => lg | _ => (false, snd lg ++ ptext [] ls) end.
Lemma reported_app a b lg : reported (a ++ b) lg = reported b (reported a lg).
Proof.
  destruct a as [|x a]; [reflexivity|]. destruct b as [|y b]; [now rewrite app_nil_r|].
  cbn [reported app]. rewrite app_comm_cons, ptext_app, app_assoc. reflexivity.
Qed.
Lemma report_line b l t lg : t = ltext [] l -> report (negb b) t lg = reported (if_not b l) lg.
Proof. intros ->. destruct b; cbn [negb report if_not reported ptext flat_map]; rewrite ?app_nil_r; reflexivity. Qed.
Lemma reported_snd ls lg : snd (reported ls lg) = snd lg ++ ptext [] ls.
Proof. destruct ls; cbn [reported snd]; [now rewrite app_nil_r|reflexivity]. Qed.
Lemma reported_fst ls lg : fst (reported ls lg) = fst lg && match ls with [] => true | _ => false end.
Proof. destruct ls; cbn [reported fst]; [now rewrite andb_true_r|now rewrite andb_false_r]. Qed.

Ltac line := unfold ltext; cbn [map text concat]; rewrite ?app_nil_r, <- ?app_assoc; reflexivity.

(** ** the loop over the collection, with an invariant that depends on the number of lists *)
Lemma scan_indexed {A} params (body : list Z -> Z -> Z -> Z -> Z -> A -> res A) (P : Z -> A -> Prop) (K : list (list Z)) data :
  (forall k i L st, znth K k = Some L -> P k st -> list_at data (i + 1) L ->
     exists st', body data k i (zlen L) (last L 0) st = Ok st' /\ P (k + 1) st') ->
  forall Ls pre fuel k st, data = pre ++ words Ls -> Forall short Ls ->
    0 <= k -> (forall j L, znth (filter (keep params) Ls) j = Some L -> znth K (k + j) = Some L) ->
    zlen (words Ls) <= Z.of_nat fuel -> P k st ->
    exists st', scan fuel params data (body data) (zlen pre) k st
      = Ok (k + zlen (filter (keep params) Ls), st') /\ P (k + zlen (filter (keep params) Ls)) st'.
Proof.
  intros HB. induction Ls as [|L Ls IH]; intros pre fuel k st E HSh Hk HK Hf HP.
  - cbn [filter]. rewrite zlen_nil, Z.add_0_r. assert (data = pre) as <- by (rewrite E; apply app_nil_r).
    exists st. split; auto. apply scan_end.
  - assert (Hf' : zlen (words Ls) + zlen L + 1 <= Z.of_nat fuel).
    { revert Hf. unfold words. cbn [flat_map]. rewrite zlen_app, zlen_cons. lia. }
    zpos. destruct fuel as [|fuel]; [lia|].
    change (S fuel) with (1 + fuel)%nat. rewrite (scan_step params body data pre L Ls fuel k st E (Forall_inv HSh)).
    assert (E' : data = (pre ++ zlen L :: L) ++ words Ls) by (rewrite E, <- app_assoc; reflexivity).
    cbn [filter] in *. destruct (keep params L) eqn:EK.
    + assert (K0 : znth K k = Some L) by (specialize (HK 0 L); rewrite Z.add_0_r in HK; apply HK, znth_cons_0).
      destruct (HB k (zlen pre) L st K0 HP) as (st1 & E1 & P1); [exact (list_at_words body _ _ _ _ E)|].
      rewrite E1. cbn [bind].
      destruct (IH (pre ++ zlen L :: L) fuel (k + 1) st1 E' (Forall_inv_tail HSh)) as (st2 & E2 & P2); auto; try lia.
      { intros j L' Hj. pose proof (znth_lt _ _ _ _ Hj) as Hj'.
        replace (k + 1 + j) with (k + (j + 1)) by lia. apply HK.
        rewrite znth_cons_pos by lia. rewrite <- Hj. f_equal. lia. }
      exists st2. rewrite zlen_cons. replace (k + (zlen (filter (keep params) Ls) + 1))
        with (k + 1 + zlen (filter (keep params) Ls)) by lia. auto.
    + apply IH; auto; try lia. exact (Forall_inv_tail HSh).
Qed.

Lemma reports_app verb rep : forall a k b,
  reports verb rep k (a ++ b) = reports verb rep k a ++ reports verb rep (k + zlen a) b.
Proof.
  induction a as [|(L & S) a IH]; intros k b; cbn [app reports]; [now rewrite zlen_nil, Z.add_0_r|].
  rewrite IH, zlen_cons, <- !app_assoc. replace (k + 1 + zlen a) with (k + (zlen a + 1)) by lia. reflexivity.
Qed.

Lemma firstn_next {A} (l : list A) k x : znth l k = Some x ->
  firstn (Z.to_nat (k + 1)) l = firstn (Z.to_nat k) l ++ [x].
Proof.
  intro E. pose proof (znth_lt _ _ _ _ E) as H. unfold znth in E. destruct (Z.ltb_spec k 0); [lia|].
  replace (Z.to_nat (k + 1)) with (S (Z.to_nat k)) by lia. revert E. clear. generalize (Z.to_nat k). intro n.
  revert l. induction n as [|n IH]; intros [|y l] E; cbn [nth_error] in E; try discriminate.
  - injection E as ->. reflexivity.
  - exact (f_equal (cons y) (IH l E)).
Qed.
Lemma combine_znth (K K' : list (list Z)) k L S : znth K k = Some L -> znth K' k = Some S ->
  znth (combine K K') k = Some (L, S).
Proof.
  unfold znth. destruct (k <? 0); [discriminate|]. generalize (Z.to_nat k). intro n. revert K K'.
  induction n as [|n IH]; intros [|x K] [|y K'] E1 E2; cbn [nth_error combine] in *; try discriminate.
  - congruence.
  - auto.
Qed.

Lemma say_scan_ok {A} verb last_verb dbg params mem f u u' Ls (K' : list (list Z)) ix
    (body : list Z -> s_index -> Z -> Z -> Z -> Z -> A * log -> res (A * log)) start rep (inv : A -> Prop) :
  let kept := filter (keep params) Ls in
  let data := collection u Ls in
  index_mmap mem f = Ok ix -> ix_universe ix = u' -> Forall short Ls -> zlen kept <= zlen K' ->
  inv (start ix) ->
  (forall k i L S a lg, znth kept k = Some L -> znth K' k = Some S -> inv a -> list_at data (i + 1) L ->
     exists a', body data ix k i (zlen L) (last L 0) (a, lg) = Ok (a', reported (rep L S) lg) /\ inv a') ->
  say_scan verb last_verb dbg params mem f data (body data) start
  = Ok (ptext [] (session verb last_verb u' rep (combine kept K'))).
Proof.
  intros kept data E0 EU HSh HK HI HB. unfold say_scan. rewrite E0. cbn [bind].
  change (vget data 0) with (Ok 1). cbn [bind]. rewrite assert_ok by reflexivity. cbn [bind]. rewrite EU.
  set (pairs := combine kept K').
  assert (LP : zlen pairs = zlen kept) by (unfold pairs, zlen in *; rewrite combine_length; lia).
  set (P := fun k (st : A * log) => inv (fst st)
    /\ snd st = (forallb (no_report rep) (firstn (Z.to_nat k) pairs),
                 say_universe u' ++ ptext [] (reports verb rep 0 (firstn (Z.to_nat k) pairs)))).
  change 2 with (zlen [1; u]).
  destruct (scan_indexed params (fun data => counting verb (body data ix)) P kept data) with
    (Ls := Ls) (pre := [1; u]) (fuel := length data) (k := 0)
    (st := (start ix, (true, say_universe u'))) as ((a & lg) & E & _ & El).
  - intros k i L (a & lg) EK (Ia & El) HA. cbn [fst snd] in *. pose proof (znth_lt _ _ _ _ EK) as Hk.
    destruct (znth K' k) as [S|] eqn:ES. 2: { apply znth_none in ES; lia. }
    destruct (HB k i L S a lg EK ES Ia HA) as (a' & EB & Ia').
    unfold counting. rewrite EB. cbn [bind]. eexists. split; [reflexivity|]. split; [exact Ia'|]. cbn [fst snd].
    rewrite (firstn_next pairs k (L, S)) by (now apply combine_znth).
    rewrite forallb_app, reports_app. cbn [forallb reports]. rewrite andb_true_r, app_nil_r.
    assert (Lk : zlen (firstn (Z.to_nat k) pairs) = k) by (unfold zlen in *; rewrite firstn_length; lia).
    rewrite Lk, Z.add_0_l. set (F := firstn (Z.to_nat k) pairs) in *. clearbody F.
    rewrite !ptext_app. unfold no_report at 2. cbn [fst snd].
    destruct ((k + 1) mod 1000 =? 0); cbn [negb if_not]; unfold tell; subst lg;
      rewrite ?reported_fst, ?reported_snd; cbn [fst snd].
    + f_equal. rewrite <- !app_assoc. do 3 f_equal. unfold ptext, say_count. cbn [flat_map]. rewrite app_nil_r. line.
    + destruct (rep L S); cbn [reported].
      * cbn [ptext flat_map]. now rewrite !app_nil_r, andb_true_r.
      * rewrite andb_false_r. cbn [snd]. f_equal. change (ptext [] []) with (@nil Z). rewrite app_nil_r, <- app_assoc. reflexivity.
  - reflexivity.
  - exact HSh.
  - lia.
  - intros j L H. rewrite Z.add_0_l. exact H.
  - unfold data, collection. fold (words Ls). unfold zlen. cbn [length]. lia.
  - split; [exact HI|]. cbn [firstn Z.to_nat reports forallb snd]. now rewrite app_nil_r.
  - rewrite E. cbn [bind]. cbn [snd] in El. rewrite Z.add_0_l in *. fold kept in El |- *. f_equal.
    assert (EF : firstn (Z.to_nat (zlen kept)) pairs = pairs) by (apply firstn_all2; unfold zlen in *; lia).
    rewrite EF in El. rewrite El. unfold verdict, session. cbn [fst snd]. rewrite !ptext_app.
    rewrite LP. rewrite <- !app_assoc. f_equal.
    { unfold ptext, say_universe. cbn [flat_map]. rewrite app_nil_r. line. }
    f_equal. f_equal.
    { unfold ptext, say_count. cbn [flat_map]. rewrite app_nil_r. line. }
    destruct (forallb _ pairs); cbn [negb if_not]; [|reflexivity].
    unfold ptext. cbn [flat_map]. rewrite app_nil_r. line.
Qed.

(** ** loops *)
Lemma at_list L d j x : znth L j = Some x -> at_ L d j = x.
Proof.
  unfold znth, at_. destruct (j <? 0); [discriminate|]. intro E. now apply nth_error_nth.
Qed.
Lemma at_over L d j : zlen L <= j -> at_ L d j = d.
Proof. intro H. unfold at_. apply nth_overflow. unfold zlen in H. lia. Qed.
Lemma list_at_at data p L j : list_at data p L -> 0 <= j < zlen L -> vget data (p + j) = Ok (at_ L 0 j).
Proof.
  intros H Hj. destruct (znth_Some _ L j Hj) as (x & Ex). rewrite (at_list L 0 j x Ex). apply vget_ok. now rewrite H.
Qed.

Lemma error_line j n x y lg :
  report (negb (x =? y)) (say_error j n x y) lg = reported (if_not (x =? y) (value_line n j x y)) lg.
Proof. apply report_line. unfold say_error, value_line. line. Qed.

Lemma say_compare_loop_ok data p out n (X Y : Z -> Z) : forall m j lg,
  (forall i, j <= i < j + Z.of_nat m -> vget data (p + i) = Ok (X i) /\ vget out i = Ok (Y i)) ->
  say_compare_loop m data (p + j) out j n lg
  = Ok (reported (flat_map (fun i => if_not (X i =? Y i) (value_line n i (X i) (Y i))) (zrange j m)) lg).
Proof.
  induction m as [|m IH]; intros j lg H; [reflexivity|]. cbn [say_compare_loop zrange flat_map].
  destruct (H j ltac:(lia)) as [-> ->]. cbn [bind]. rewrite error_line, reported_app.
  rewrite <- Z.add_assoc. apply IH. intros i Hi. apply H. lia.
Qed.

Lemma card_line L S lg :
  report (negb (zlen S =? zlen L)) (say_cardinality (zlen S) (zlen L)) lg = reported (card_report L S) lg.
Proof. apply report_line. unfold say_cardinality. line. Qed.
Lemma decoded_line L S lg :
  report (negb (zlen S =? zlen L)) (say_decoded (zlen S) (zlen L)) lg = reported (length_report L S) lg.
Proof. apply report_line. unfold say_decoded. line. Qed.

Lemma wrote_at k out out' S j : wrote k out 0 S out' -> 0 <= j < zlen S -> vget out' j = Ok (at_ S 0 j).
Proof.
  intros W Hj. rewrite <- (Z.add_0_l j). eapply list_at_at; [|exact Hj]. eapply wrote_list_at; eauto.
Qed.

Lemma say_values data i L S out lg : list_at data (i + 1) L -> zlen L <= zlen S ->
  (forall j, 0 <= j < zlen S -> vget out j = Ok (at_ S 0 j)) ->
  say_compare_loop (Z.to_nat (zlen L)) data (i + 1) out 0 (zlen L) lg = Ok (reported (value_report 0 L S) lg).
Proof.
  intros HA HL HO. rewrite length_of_zlen. unfold value_report. rewrite <- (Z.add_0_r (i + 1)).
  apply (say_compare_loop_ok data (i + 1) out (zlen L) (at_ L 0) (at_ S 0)).
  intros j Hj. rewrite Z.add_0_l in Hj. split; [apply list_at_at; auto; unfold zlen; lia|apply HO; unfold zlen in *; lia].
Qed.

(** ** decode *)
Lemma say_decode_ok dbg params mem f u u' Ls K' ix :
  let kept := filter (keep params) Ls in Forall short Ls -> 0 <= u' ->
  opened 31 mem f u' K' ix -> zlen kept <= zlen K' -> Forall (fun S => decode_fits S u') K' ->
  Forall (fun p => zlen (fst p) <= zlen (snd p)) (combine kept K') ->
  say_test_decode dbg params mem f (collection u Ls)
  = Ok (ptext [] (session "decoded " "decoded " u' decode_report (combine kept K'))).
Proof.
  intros kept HSh Hu O HK HF HP. unfold say_test_decode.
  apply (say_scan_ok _ _ _ params mem f u u' Ls K' ix (fun data => say_decode_body dbg mem data) _ decode_report
    (fun out => zlen out = u')); auto; try apply O.
  { rewrite (proj1 (proj2 (proj2 O))), zlen_repeat. lia. }
  intros k i L S out lg EL ES Lo HA. fold kept in EL. unfold say_decode_body.
  destruct (opened_decode_exact dbg mem f u' K' ix k S out O ES Lo) as (s & Es & -> & D). cbn [bind].
  assert (F : decode_fits S u') by (rewrite Forall_forall in HF; apply HF; eapply znth_In; eauto).
  destruct D as [(_ & out' & -> & Lo' & EF)|(NF & _)]; [|contradiction]. cbn [bind].
  rewrite (opened_card mem f u' K' ix 31 k S s O ltac:(lia) ES Es). cbn [bind].
  rewrite card_line, decoded_line, (say_values _ i L S); auto.
  - cbn [bind]. unfold decode_report. rewrite !reported_app. eauto.
  - pose proof (combine_znth _ _ _ _ _ EL ES) as EC. apply znth_In in EC.
    rewrite Forall_forall in HP. apply (HP _ EC).
  - intros j Hj. destruct (znth_Some _ S j Hj) as (x & Ex). rewrite (at_list S 0 j x Ex). apply vget_ok.
    rewrite length_of_zlen in EF. rewrite <- EF in Ex. rewrite <- Ex. symmetry. apply znth_firstn. unfold zlen in Hj. lia.
Qed.

(** ** contains *)
Lemma say_contains_loop_ok dbg mem a S s data : valid S -> stored 0 mem a S -> seq_at mem a = Ok s ->
  forall L p lg, Forall is_u32 L -> list_at data p L ->
  say_contains_loop (length L) dbg mem s data p lg
  = Ok (reported (flat_map (fun v => if_not (existsb (Z.eqb v) S) [N v; W " should have been found"]) L) lg).
Proof.
  intros V St Es. induction L as [|x L IH]; intros p lg R H; [reflexivity|]. cbn [length say_contains_loop flat_map].
  apply list_at_cons in H as [E H]. rewrite E. cbn [bind]. inversion R; subst.
  destruct (c05_contains dbg mem a S x V St) as (s' & b & Es' & EC & B); auto.
  rewrite Es in Es'. injection Es' as <-. rewrite EC. cbn [bind].
  assert (existsb (Z.eqb x) S = b) as ->.
  { apply eq_true_iff_eq. rewrite existsb_exists, B. split.
    - intros (y & Hy & Ey). apply Z.eqb_eq in Ey. now subst y.
    - intro Hx. exists x. split; auto. apply Z.eqb_refl. }
  rewrite (report_line b [N x; W " should have been found"]) by line. rewrite reported_app. auto.
Qed.

Lemma say_contains_ok dbg params mem f u u' Ls K' ix :
  let kept := filter (keep params) Ls in Forall short Ls ->
  opened 0 mem f u' K' ix -> zlen kept <= zlen K' -> Forall (Forall is_u32) kept ->
  say_test_contains dbg params mem f (collection u Ls)
  = Ok (ptext [] (session "checked " "checked " u' contains_report (combine kept K'))).
Proof.
  intros kept HSh O HK HR. unfold say_test_contains.
  apply (say_scan_ok _ _ _ params mem f u u' Ls K' ix (fun data => say_contains_body dbg mem data) _ contains_report
    (fun _ => True)); auto; try apply O.
  intros k i L S [] lg EL ES _ HA. fold kept in EL. unfold say_contains_body.
  pose proof (opened_valid _ _ _ _ _ _ _ _ O ES) as VS.
  pose proof O as (_ & _ & _ & _ & G). destruct (G k S ES) as (s & Es & St & EG). rewrite EG. cbn [bind].
  rewrite (opened_card mem f u' K' ix 0 k S s O ltac:(lia) ES Es). cbn [bind]. rewrite card_line, length_of_zlen.
  erewrite say_contains_loop_ok; eauto.
  - cbn [bind]. unfold contains_report. rewrite reported_app. eauto.
  - rewrite Forall_forall in HR. apply HR. eapply znth_In; eauto.
Qed.

(** ** select *)
Lemma say_select_loop_ok dbg mem a S s data p L n : valid S -> stored 0 mem a S -> seq_at mem a = Ok s ->
  list_at data p L -> zlen L <= 4294967296 ->
  forall m j v lg, 0 <= j -> j + Z.of_nat m = zlen L ->
  (0 < j -> v = at_ S (last S 0) (j - 1)) ->
  say_select_loop m dbg mem s data (p + j) j n v lg
  = Ok (reported (flat_map (fun j =>
        let x := at_ L 0 j in let y := at_ S (last S 0) j in
        if_not (j <? zlen S) [W "rank "; N j; W " should have been valid"]
        ++ if_not (x =? y) (value_line n j x y)) (zrange j m)) lg).
Proof.
  intros V St Es HA HL. induction m as [|m IH]; intros j v lg Hj Hm Hv; [reflexivity|].
  cbn [say_select_loop zrange flat_map]. rewrite (list_at_at data p L j HA) by lia. cbn [bind].
  rewrite u32_id by lia. destruct (select_ok dbg mem a S j v V St) as (s' & Es' & EC); [unfold is_u32; lia|].
  rewrite Es in Es'. injection Es' as <-.
  assert (X : select dbg mem s j v = Ok (j <? zlen S, at_ S (last S 0) j)).
  { rewrite EC. destruct (znth S j) as [y|] eqn:Ey.
    - rewrite (at_list _ _ _ _ Ey). apply znth_lt in Ey. destruct (Z.ltb_spec j (zlen S)); [reflexivity|lia].
    - assert (zlen S <= j) by (apply znth_none in Ey; lia). rewrite at_over by lia.
      destruct (Z.ltb_spec j (zlen S)); [lia|]. do 2 f_equal.
      assert (NE : S <> []) by apply V. pose proof (last_znth S NE) as EL.
      destruct (Z.eq_dec j (zlen S)) as [->|].
      + rewrite Hv. { now apply at_list. } destruct S; [easy|]. zl.
      + rewrite Hv by (zpos; lia). apply at_over. lia. }
  rewrite X. cbn [bind].
  rewrite (report_line (j <? zlen S) [W "rank "; N j; W " should have been valid"]) by line.
  rewrite error_line, !reported_app. rewrite <- Z.add_assoc. apply IH; try lia.
  intros _. f_equal. lia.
Qed.

Lemma say_select_ok dbg params mem f u u' Ls K' ix :
  let kept := filter (keep params) Ls in Forall short Ls ->
  opened 0 mem f u' K' ix -> zlen kept <= zlen K' -> Forall (fun L => zlen L <= 4294967296) kept ->
  say_test_select dbg params mem f (collection u Ls)
  = Ok (ptext [] (session "checked " "checked " u' select_report (combine kept K'))).
Proof.
  intros kept HSh O HK HR. unfold say_test_select.
  apply (say_scan_ok _ _ _ params mem f u u' Ls K' ix (fun data => say_select_body dbg mem data) _ select_report
    (fun _ => True)); auto; try apply O.
  intros k i L S [] lg EL ES _ HA. fold kept in EL. unfold say_select_body.
  pose proof (opened_valid _ _ _ _ _ _ _ _ O ES) as VS.
  pose proof O as (_ & _ & _ & _ & G). destruct (G k S ES) as (s & Es & St & EG). rewrite EG. cbn [bind].
  rewrite (opened_card mem f u' K' ix 0 k S s O ltac:(lia) ES Es). cbn [bind]. rewrite card_line, length_of_zlen.
  rewrite <- (Z.add_0_r (i + 1)).
  rewrite (say_select_loop_ok dbg mem (addr K' f k) S s (collection u Ls) (i + 1) L (zlen L)); eauto; try lia.
  - cbn [bind]. unfold select_report. rewrite reported_app. eauto.
  - rewrite Forall_forall in HR. apply HR. eapply znth_In; eauto.
Qed.

(** ** enumerator *)
Lemma en_done_buf p e j : en_done p e j -> zlen (en_buf e) = 65536.
Proof. intro D. apply D. Qed.
Lemma en_at_buf mem p e R : en_at mem p e R -> zlen (en_buf e) = 65536.
Proof.
  destruct R; cbn [en_at]; [apply en_done_buf|].
  intros (? & ? & ? & _ & _ & _ & _ & _ & _ & _ & _ & Hz & _). exact Hz.
Qed.
Lemma say_enumerator_done dbg mem p data q L n : list_at data q L ->
  forall m j e r lg, 0 <= j -> j + Z.of_nat m = zlen L -> en_done p e r -> 0 <= r -> r + Z.of_nat m < 4294967296 ->
  exists e', say_enumerator_loop m dbg mem data (q + j) j n e lg
    = Ok (reported (flat_map (fun j => if_not (at_ L 0 j =? p) (value_line n j (at_ L 0 j) p)) (zrange j m)) lg, e')
    /\ zlen (en_buf e') = 65536.
Proof.
  intro HA. induction m as [|m IH]; intros j e r lg Hj Hm D Hr Hb; cbn [say_enumerator_loop zrange flat_map].
  - exists e. split; [reflexivity|]. eapply en_done_buf; eauto.
  - rewrite (list_at_at data q L j HA) by lia. cbn [bind].
    pose proof D as (D1 & D2 & _). unfold enum_value. rewrite D1. cbn [bind].
    destruct (enum_next_done dbg mem p e r D ltac:(lia)) as (e1 & -> & D'). cbn [bind].
    destruct (IH (j + 1) e1 (r + 1) (reported (if_not (at_ L 0 j =? p) (value_line n j (at_ L 0 j) p)) lg))
      as (e2 & E2 & Hz); auto; try lia.
    exists e2. split; auto. rewrite <- Z.add_assoc, reported_app, <- E2, error_line.
    replace (en_past_the_end e) with p by congruence. reflexivity.
Qed.
Lemma say_enumerator_loop_ok dbg mem p data q L n S : list_at data q L -> zlen L < 4294967296 ->
  forall m j e lg R, 0 <= j -> j + Z.of_nat m = zlen L -> (forall i, 0 <= i -> znth R i = znth S (j + i)) ->
  en_at mem p e R ->
  exists e', say_enumerator_loop m dbg mem data (q + j) j n e lg
    = Ok (reported (flat_map (fun j => let x := at_ L 0 j in let y := at_ S p j in if_not (x =? y) (value_line n j x y))
                      (zrange j m)) lg, e')
    /\ zlen (en_buf e') = 65536.
Proof.
  intros HA HL. induction m as [|m IH]; intros j e lg R Hj Hm HR I.
  - cbn [say_enumerator_loop zrange flat_map]. exists e. split; [reflexivity|]. eapply en_at_buf; eauto.
  - destruct R as [|y R].
    + destruct (say_enumerator_done dbg mem p data q L n HA (1 + m) j e 0 lg) as (e' & E & Hz); auto; try lia.
      exists e'. split; auto. change (Datatypes.S m) with (1 + m)%nat. rewrite E. do 3 f_equal.
      rewrite !flat_map_concat_map. f_equal. apply map_ext_in. intros i Hi. apply In_zrange in Hi. cbv zeta.
      rewrite (at_over S p i); auto. specialize (HR 0 ltac:(lia)). rewrite Z.add_0_r in HR. symmetry in HR.
      change (znth (@nil Z) 0) with (@None Z) in HR. apply znth_none in HR; lia.
    + cbn [say_enumerator_loop zrange flat_map]. rewrite (list_at_at data q L j HA) by lia. cbn [bind].
      cbn [en_at] in I. rewrite (enum_value_inv mem p e y _ I). cbn [bind].
      destruct (enum_next_inv dbg mem p e y _ I) as (e1 & -> & I1). cbn [bind].
      assert (at_ S p j = y) as ->.
      { apply at_list. specialize (HR 0 ltac:(lia)). rewrite Z.add_0_r, znth_cons_0 in HR. auto. }
      rewrite error_line. cbv zeta. rewrite reported_app, <- Z.add_assoc. apply (IH (j + 1) e1 _ R); auto; try lia.
      intros i Hi. specialize (HR (i + 1) ltac:(lia)). rewrite znth_cons_pos in HR by lia.
      replace (i + 1 - 1) with i in HR by lia. rewrite HR. f_equal. lia.
Qed.

Lemma say_enumerator_ok dbg params mem f u u' Ls K' ix :
  let kept := filter (keep params) Ls in Forall short Ls -> is_u32 u' ->
  opened 31 mem f u' K' ix -> zlen kept <= zlen K' -> Forall (fun L => zlen L < 4294967296) kept ->
  say_test_enumerator dbg params mem f (collection u Ls)
  = Ok (ptext [] (session "decoded " "decoded " u' (enumerator_report u') (combine kept K'))).
Proof.
  intros kept HSh Hu O HK HR. unfold say_test_enumerator.
  apply (say_scan_ok _ _ _ params mem f u u' Ls K' ix (fun data => say_enumerator_body dbg mem data) _
    (enumerator_report u') (fun b => zlen b = 65536)); auto; try apply O.
  intros k i L S b lg EL ES Hb HA. fold kept in EL. unfold say_enumerator_body.
  pose proof (opened_valid _ _ _ _ _ _ _ _ O ES) as VS.
  pose proof O as (_ & _ & EU & _ & G). destruct (G k S ES) as (s & Es & St & EG). rewrite EG. cbn [bind].
  rewrite EU, u32_id by exact Hu.
  destruct (enum_init_inv dbg mem _ S u' b s VS St Es Hb) as (e & -> & I). cbn [bind]. rewrite length_of_zlen.
  destruct (say_enumerator_loop_ok dbg mem u' (collection u Ls) (i + 1) L (zlen L) S HA) with
    (m := length L) (j := 0) (e := e) (lg := lg) (R := S) as (e' & E & Hz); auto; try lia.
  - rewrite Forall_forall in HR. apply HR. eapply znth_In; eauto.
  - destruct S; [exfalso; now apply (proj1 VS)|exact I].
  - rewrite Z.add_0_r in E. rewrite E. cbn [bind]. unfold enumerator_report, value_report. eauto.
Qed.

(** ** next_geq *)
Lemma spec_next_geq_ge S v : v <= 4294967295 -> v <= spec_next_geq S v.
Proof. induction S as [|y S IH]; intro H; cbn [spec_next_geq]; auto. destruct (Z.leb_spec v y); auto. Qed.

Definition geq_line (L S : list Z) (v : Z) : list (list piece) :=
  let x := spec_next_geq L v in let y := spec_next_geq S v in
  if_not (y =? x) [W "error at "; N v; W "/"; N (last L 0); W ": got "; N y; W " but expected next_geq("; N v;
                   W ") = "; N x].
Definition beyond_line (L S : list Z) (i : Z) : list (list piece) :=
  let y := spec_next_geq S (last L 0 + 1 + 10000 * i) in
  if_not (y =? 4294967295) [W "error : got "; N y; W " but expected "; N 4294967295].

Lemma say_geq_loop_ok {A} dbg (next : A -> Z -> res (A * Z)) (I : Z -> A -> Prop) data i L S :
  valid L -> list_at data (i + 1) L ->
  (forall st lb, 0 <= lb <= last L 0 -> I lb st ->
     exists st', next st lb = Ok (st', spec_next_geq S lb) /\ I (lb + 1) st') ->
  forall m fuel st lb lg, 0 <= lb -> lb + Z.of_nat m = last L 0 + 1 -> (m <= fuel)%nat -> I lb st ->
  exists st', say_geq_loop fuel dbg next data i (zlen L) (last L 0) st lb lg
    = Ok (st', reported (flat_map (geq_line L S) (zrange lb m)) lg) /\ I (last L 0 + 1) st'.
Proof.
  intros V HA HN. pose proof (valid_last L V) as VL.
  assert (EU : u32 (last L 0 + 1) = last L 0 + 1) by (apply u32_id; lia).
  induction m as [|m IH]; intros fuel st lb lg Hlb Hm Hf HI.
  - exists st. split; [|now replace (last L 0 + 1) with lb by lia]. cbn [zrange flat_map reported].
    destruct fuel; cbn [say_geq_loop]; rewrite EU; (destruct (Z.eqb_spec lb (last L 0 + 1)); [reflexivity|lia]).
  - destruct fuel as [|fuel]; [lia|]. cbn [say_geq_loop zrange flat_map]. rewrite EU.
    destruct (Z.eqb_spec lb (last L 0 + 1)); [lia|]. rewrite length_of_zlen.
    destruct (lower_bound_ok data lb L (i + 1) HA) as (it & -> & Eit).
    { exists (last L 0). split; [apply last_In; apply V|lia]. }
    cbn [bind]. rewrite (u32_id lb) by lia.
    destruct (HN st lb ltac:(lia) HI) as (st1 & -> & I1). cbn [bind].
    rewrite assert_ok by (apply Z.leb_le, spec_next_geq_ge; lia). cbn [bind]. rewrite Eit. cbn [bind].
    rewrite reported_app.
    match goal with |- context [report ?b ?t lg] => assert (ER : report b t lg = reported (geq_line L S lb) lg) end.
    { unfold geq_line. cbv zeta. apply report_line. line. }
    rewrite ER. apply IH; auto; lia.
Qed.

Lemma say_beyond_loop_ok {A} (next : A -> Z -> res (A * Z)) (I : Z -> A -> Prop) L S :
  valid L -> last L 0 + 1000001 < 4294967296 ->
  (forall st lb, last L 0 < lb < 4294967296 -> I lb st ->
     exists st', next st lb = Ok (st', spec_next_geq S lb) /\ I (lb + 10000) st') ->
  forall m fuel st j lg, 0 <= j -> j + Z.of_nat m = 100 -> (m <= fuel)%nat -> I (last L 0 + 1 + 10000 * j) st ->
  exists st', say_beyond_loop fuel next (last L 0) st (last L 0 + 1 + 10000 * j) lg
    = Ok (st', reported (flat_map (beyond_line L S) (zrange j m)) lg).
Proof.
  intros V HL HN. pose proof (valid_last L V) as VL.
  assert (ET : u32 (last L 0 + 1000000 + 1) = last L 0 + 1000001) by (rewrite u32_id; lia).
  induction m as [|m IH]; intros fuel st j lg Hj Hm Hf HI.
  - exists st. destruct fuel; cbn [say_beyond_loop]; rewrite ET;
      (destruct (Z.eqb_spec (last L 0 + 1 + 10000 * j) (last L 0 + 1000001)); [reflexivity|lia]).
  - destruct fuel as [|fuel]; [lia|]. cbn [say_beyond_loop zrange flat_map]. rewrite ET.
    destruct (Z.eqb_spec (last L 0 + 1 + 10000 * j) (last L 0 + 1000001)); [lia|].
    rewrite (u32_id (last L 0 + 1 + 10000 * j)) by lia.
    destruct (HN st (last L 0 + 1 + 10000 * j) ltac:(lia) HI) as (st1 & -> & I1). cbn [bind].
    rewrite reported_app.
    match goal with |- context [report ?b ?t lg] => assert (ER : report b t lg = reported (beyond_line L S j) lg) end.
    { unfold beyond_line. cbv zeta. apply report_line. line. }
    rewrite ER. rewrite u64_id by lia.
    replace (last L 0 + 1 + 10000 * j + 10000) with (last L 0 + 1 + 10000 * (j + 1)) in * by lia.
    apply IH; auto; lia.
Qed.

Lemma say_geq_parts {A} fuel dbg (next : A -> Z -> res (A * Z)) (I : Z -> A -> Prop) data i L S st lg :
  valid L -> last L 0 + 1000001 < 4294967296 -> (100 <= fuel)%nat -> list_at data (i + 1) L ->
  (forall st lb, 0 <= lb < 4294967296 -> I lb st ->
     exists st', next st lb = Ok (st', spec_next_geq S lb)
       /\ I (lb + 1) st' /\ I (lb + 10000) st') ->
  I 0 st ->
  exists st1 lg1 st2,
    say_geq_loop (Z.to_nat (u32 (last L 0 + 1))) dbg next data i (zlen L) (last L 0) st 0 lg = Ok (st1, lg1)
    /\ say_beyond_loop fuel next (last L 0) st1 (u32 (last L 0 + 1)) lg1
       = Ok (st2, reported (flat_map (geq_line L S) (zrange 0 (Z.to_nat (last L 0 + 1)))
                            ++ flat_map (beyond_line L S) (zrange 0 100)) lg).
Proof.
  intros V HL Hf HA HN HI. pose proof (valid_last L V) as VL. rewrite u32_id by lia.
  destruct (say_geq_loop_ok dbg next I data i L S V HA) with
    (m := Z.to_nat (last L 0 + 1)) (fuel := Z.to_nat (last L 0 + 1)) (st := st) (lb := 0) (lg := lg)
    as (st1 & E1 & I1); auto; try lia.
  { intros s lb Hlb Hs. destruct (HN s lb ltac:(lia) Hs) as (s' & ? & ? & _). eauto. }
  destruct (say_beyond_loop_ok next I L S V HL) with
    (m := 100%nat) (fuel := fuel) (st := st1) (j := 0)
    (lg := reported (flat_map (geq_line L S) (zrange 0 (Z.to_nat (last L 0 + 1)))) lg) as (st2 & E2); auto; try lia.
  { intros s lb Hlb Hs. destruct (HN s lb ltac:(lia) Hs) as (s' & ? & _ & ?). eauto. }
  { now rewrite Z.mul_0_r, Z.add_0_r. }
  exists st1, (reported (flat_map (geq_line L S) (zrange 0 (Z.to_nat (last L 0 + 1)))) lg), st2.
  split; [exact E1|]. rewrite Z.mul_0_r, Z.add_0_r in E2. rewrite reported_app. exact E2.
Qed.

Definition ng_lists (kept : list (list Z)) : Prop :=
  Forall (fun L => valid L /\ last L 0 + 1000001 < 4294967296) kept.

Lemma say_next_geq_ok fuel dbg params mem f u u' Ls K' ix :
  let kept := filter (keep params) Ls in Forall short Ls ->
  opened 0 mem f u' K' ix -> zlen kept <= zlen K' -> ng_lists kept -> (100 <= fuel)%nat ->
  say_test_next_geq fuel dbg params mem f (collection u Ls)
  = Ok (ptext [] (session "checked " "checked " u' next_geq_report (combine kept K'))).
Proof.
  intros kept HSh O HK HR Hf. unfold say_test_next_geq.
  apply (say_scan_ok _ _ _ params mem f u u' Ls K' ix (fun data => say_next_geq_body fuel dbg mem data) _ next_geq_report
    (fun _ => True)); auto; try apply O.
  intros k i L S [] lg EL ES _ HA. fold kept in EL. unfold say_next_geq_body.
  pose proof (opened_valid _ _ _ _ _ _ _ _ O ES) as VS.
  assert (RL : valid L /\ last L 0 + 1000001 < 4294967296)
    by (unfold ng_lists in HR; rewrite Forall_forall in HR; apply HR; eapply znth_In; eauto).
  pose proof O as (_ & _ & _ & _ & G). destruct (G k S ES) as (s & Es & St & EG). rewrite EG. cbn [bind].
  rewrite (opened_card mem f u' K' ix 0 k S s O ltac:(lia) ES Es). cbn [bind]. rewrite card_line.
  set (next := fun (_ : unit) v => let! r := next_geq dbg mem s v in Ok (tt, r)). cbv zeta.
  destruct (say_geq_parts fuel dbg next (fun _ _ => True) (collection u Ls) i L S tt (reported (card_report L S) lg))
    as (s1 & lg1 & s2 & E1 & E2); try apply RL; auto.
  { intros st lb Hlb _. exists tt. split; auto. unfold next.
    destruct (next_geq_ok dbg mem _ S lb VS St Hlb) as (s' & Es' & EN).
    rewrite Es in Es'. injection Es' as <-. now rewrite EN. }
  rewrite E1. cbn [bind]. destruct s1. rewrite E2. cbn [bind].
  exists tt. split; auto. rewrite <- reported_app. reflexivity.
Qed.

Lemma say_ng_ok fuel dbg params mem f u u' Ls K' ix :
  let kept := filter (keep params) Ls in Forall short Ls ->
  opened 0 mem f u' K' ix -> zlen kept <= zlen K' -> ng_lists kept -> (100 <= fuel)%nat ->
  say_test_next_geq_enumerator fuel dbg params mem f (collection u Ls)
  = Ok (ptext [] (session "checked " "checked " u' next_geq_report (combine kept K'))).
Proof.
  intros kept HSh O HK HR Hf. unfold say_test_next_geq_enumerator.
  apply (say_scan_ok _ _ _ params mem f u u' Ls K' ix (fun data => say_ng_body fuel dbg mem data) _ next_geq_report
    (fun _ => True)); auto; try apply O.
  intros k i L S [] lg EL ES _ HA. fold kept in EL. unfold say_ng_body.
  pose proof (opened_valid _ _ _ _ _ _ _ _ O ES) as VS.
  assert (RL : valid L /\ last L 0 + 1000001 < 4294967296)
    by (unfold ng_lists in HR; rewrite Forall_forall in HR; apply HR; eapply znth_In; eauto).
  pose proof O as (_ & _ & _ & _ & G). destruct (G k S ES) as (s & Es & St & EG). rewrite EG. cbn [bind].
  rewrite (opened_card mem f u' K' ix 0 k S s O ltac:(lia) ES Es). cbn [bind]. rewrite card_line.
  destruct (ng_init_ok mem _ S VS St) as (s' & e & Es' & EI & _ & I & A).
  rewrite Es in Es'. injection Es' as <-. rewrite EI. cbn [bind]. cbv zeta.
  destruct (say_geq_parts fuel dbg (fun e v => ng_next_geq dbg mem e v)
    (fun q e => q < 4294967296 -> ng_ask mem S q e) (collection u Ls) i L S e (reported (card_report L S) lg))
    as (s1 & lg1 & s2 & E1 & E2); try apply RL; auto.
  { intros e1 lb Hlb I1. destruct (ng_step dbg mem S lb e1 VS (I1 ltac:(lia))) as (e2 & E2 & N2); [unfold is_u32; lia|].
    pose proof (spec_next_geq_ge S lb ltac:(lia)). exists e2. split; auto. split; intro Hq; apply N2; lia. }
  { intros _. exists (chunks_of S), 0. split; auto. split; [lia|auto]. }
  rewrite E1. cbn [bind]. rewrite E2. cbn [bind].
  exists tt. split; auto. rewrite <- reported_app. reflexivity.
Qed.

(** ** uncompress *)
Lemma bitmap_round dbg mem a s L n out :
  valid L -> stored 0 mem a L -> seq_at mem a = Ok s ->
  (forall v, In v L -> 0 <= v /\ 1024 * (v / 65536 + 1) <= Z.of_nat n) ->
  64 * Z.of_nat n <= 4294967296 -> zlen L <= zlen out ->
  exists bm' out', uncompress dbg mem s (repeat 0 n) 0 = Ok (bm', zlen L)
    /\ decode_bitmap_and_reset bm' (Z.of_nat n) out = Ok (repeat 0 n, out', zlen L)
    /\ wrote 0 out 0 L out'.
Proof.
  intros VL St Es RV Hn Ho.
  destruct (c08_uncompress dbg mem a L (repeat 0 n) 0 VL St) as (s' & bm' & Es' & EU' & LB & H1 & H2); try lia.
  { intros v Hv. rewrite zlen_repeat. specialize (RV v Hv). lia. }
  rewrite Es in Es'. injection Es' as <-. rewrite zlen_repeat in LB. exists bm'.
  assert (LL : zlen L < 4294967296) by (destruct (valid_chunks L VL) as (_ & _ & _ & _ & LS); lia).
  destruct (decode_bitmap_and_reset_ok n bm' L out LB) as (out' & ED & W); try lia.
  - intros j Hj.
    destruct (existsb (fun v => v / 65536 =? j / 1024) L) eqn:EX.
    + apply existsb_exists in EX as (v & Hv & Ev). apply Z.eqb_eq in Ev.
      destruct (H1 j ltac:(lia)) as (w & Ew & Hw & Hb); [eauto|]. rewrite Z.add_0_l in Ew.
      exists w. split; [unfold words_vec; now apply vget_ok|]. split; [exact Hw|].
      intros b Hb'. specialize (Hb b Hb'). apply eq_true_iff_eq. rewrite Hb. symmetry. apply memb_In.
    + assert (NX : forall v, In v L -> v / 65536 <> j / 1024).
      { intros v Hv Ev. assert (X : existsb (fun v => v / 65536 =? j / 1024) L = true)
          by (apply existsb_exists; exists v; split; auto; now apply Z.eqb_eq). congruence. }
      specialize (H2 j (or_intror NX)). rewrite Z.add_0_l in H2. rewrite znth_repeat in H2 by lia.
      exists 0. split; [unfold words_vec; now apply vget_ok|]. split; [unfold w64; lia|].
      intros b Hb'. rewrite zero_word_bits. symmetry. apply memb_false. intro Hi.
      apply (NX _ Hi). lia.
  - apply VL.
  - rewrite Forall_forall. intros v Hv. specialize (RV v Hv). lia.
  - exists out'. auto.
Qed.

Lemma say_uncompress_ok dbg params mem f u u' Ls K' ix :
  let kept := filter (keep params) Ls in Forall short Ls -> 0 <= u' < 4294901760 ->
  opened 0 mem f u' K' ix -> zlen kept <= zlen K' ->
  Forall (fun S => last S 0 / 65536 <= u' / 65536 /\ zlen S <= u') K' ->
  Forall (fun p => zlen (fst p) <= zlen (snd p)) (combine kept K') ->
  say_test_uncompress dbg params mem f (collection u Ls)
  = Ok (ptext [] (session "decoded " "uncompressed " u' uncompress_report (combine kept K'))).
Proof.
  intros kept HSh Hu O HK HF HP. unfold say_test_uncompress.
  set (n := Z.to_nat (bitmap_words u')).
  assert (Hn : Z.of_nat n = 1024 * (u' / 65536 + 1)) by (unfold n; rewrite bitmap_words_ok by lia; lia).
  apply (say_scan_ok _ _ _ params mem f u u' Ls K' ix (fun data => say_uncompress_body dbg mem data) _ uncompress_report
    (fun st => fst st = repeat 0 n /\ zlen (snd st) = u')); auto; try apply O.
  { rewrite (proj1 (proj2 (proj2 O))). cbn [fst snd]. split; [reflexivity|]. rewrite zlen_repeat. lia. }
  intros k i L S [bm out] lg EL ES (Eb & Lo) HA. cbn [fst snd] in Eb, Lo. subst bm. fold kept in EL.
  unfold say_uncompress_body.
  pose proof (opened_valid _ _ _ _ _ _ _ _ O ES) as VS.
  pose proof O as (_ & _ & EU & _ & G). destruct (G k S ES) as (s & Es & St & EG). rewrite EG. cbn [bind].
  assert (B : last S 0 / 65536 <= u' / 65536 /\ zlen S <= u')
    by (rewrite Forall_forall in HF; apply HF; eapply znth_In; eauto).
  destruct (bitmap_round dbg mem _ s S n out VS St Es) as (bm' & out' & -> & ED & W); try lia.
  { intros v Hv. pose proof (le_last S v (proj1 (proj2 VS)) Hv).
    destruct VS as (_ & _ & R). rewrite Forall_forall in R. specialize (R v Hv). lia. }
  cbn [bind]. rewrite EU. replace (bitmap_words u') with (Z.of_nat n) by (rewrite bitmap_words_ok by lia; exact Hn).
  rewrite ED. cbn [bind]. rewrite Z.eqb_refl. cbn [negb report]. rewrite decoded_line, (say_values _ i L S); auto.
  - cbn [bind]. unfold uncompress_report. rewrite !reported_app. eexists. split; [reflexivity|]. cbn [fst snd].
    split; auto. now rewrite (wrote_zlen _ _ _ _ _ W).
  - pose proof (combine_znth _ _ _ _ _ EL ES) as EC. apply znth_In in EC.
    rewrite Forall_forall in HP. apply (HP _ EC).
  - intros j Hj. eapply wrote_at; eauto.
Qed.
