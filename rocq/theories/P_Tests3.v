(** What a successful run of a test program says about the index. *)
From Verif Require Import Base Hw Spec Lib L_Bits L_Group Layout M_Util M_Build M_Seq M_Decode M_Uncompress
  M_Query M_Union M_Many M_Index M_Calls M_Tests P_Build1 P_Build2 P_Build3 P_Seq P_Decode P_Query P_NextGeq
  P_Ng P_Enum P_Uncompress P_Sets P_Index P_Fin1 P_Fin2 P_Fin3 P_Short P_Tests P_Tests2.
From Coq Require Import Lia Sorted.

Section Sound.
Context {A : Type} (params : parameters) (body : list Z -> Z -> Z -> Z -> Z -> A -> res A).

(** every list was examined from a state with [I], and left a state with [good] *)
Lemma scan_sound (good I : A -> Prop) data :
  (forall k i L st st', body data k i (zlen L) (last L 0) st = Ok st' -> good st' -> good st) ->
  forall Ls pre fuel k st k' st', data = pre ++ words Ls -> Forall short Ls ->
    (forall j i L st st', znth (filter (keep params) Ls) j = Some L -> I st -> list_at data (i + 1) L ->
       body data (k + j) i (zlen L) (last L 0) st = Ok st' -> I st') ->
    I st -> scan fuel params data (body data) (zlen pre) k st = Ok (k', st') -> good st' ->
    good st /\ forall j L, znth (filter (keep params) Ls) j = Some L ->
      exists i st1 st2, list_at data (i + 1) L /\ I st1
        /\ body data (k + j) i (zlen L) (last L 0) st1 = Ok st2 /\ good st2.
Proof.
  intro HM. induction Ls as [|L Ls IH]; intros pre fuel k st k' st' E HSh HI I0 ES Hg.
  - assert (data = pre) as <- by (rewrite E; apply app_nil_r). rewrite scan_end in ES. injection ES as <- <-.
    split; auto. intros j L Hj. apply znth_lt in Hj. cbn [filter] in Hj. rewrite zlen_nil in Hj. lia.
  - destruct fuel as [|fuel].
    { cbn [scan] in ES. destruct (zlen pre <? zlen data) eqn:El; [discriminate ES|].
      apply Z.ltb_ge in El. rewrite E in El. unfold words in El. cbn [flat_map] in El. zl. }
    change (S fuel) with (1 + fuel)%nat in ES. rewrite (scan_step params body data pre L Ls fuel k st E (Forall_inv HSh)) in ES.
    assert (E' : data = (pre ++ zlen L :: L) ++ words Ls) by (rewrite E, <- app_assoc; reflexivity).
    cbn [filter] in *. destruct (keep params L) eqn:EK.
    + destruct (body data k (zlen pre) (zlen L) (last L 0) st) as [st1| | | |] eqn:E1; try discriminate ES.
      cbn [bind] in ES. pose proof (HI 0 (zlen pre) L st st1 (znth_cons_0 _ _ _) I0 ltac:(eapply list_at_words; eauto)) as I1.
      rewrite Z.add_0_r in I1. specialize (I1 E1).
      destruct (IH (pre ++ zlen L :: L) fuel (k + 1) st1 k' st' E' (Forall_inv_tail HSh)) as [G1 GA]; auto.
      { intros j i L' s s' Hj Hs HA HB. pose proof (znth_lt _ _ _ _ Hj). apply (HI (j + 1) i L' s s'); auto.
        - rewrite znth_cons_pos by lia. rewrite <- Hj. f_equal. lia.
        - replace (k + (j + 1)) with (k + 1 + j) by lia. exact HB. }
      split; [eapply HM; eauto|]. intros j L' Hj. pose proof (znth_lt _ _ _ _ Hj) as Hj'.
      destruct (Z.eq_dec j 0) as [->|].
      * rewrite znth_cons_0 in Hj. injection Hj as <-. exists (zlen pre), st, st1.
        split; [eapply list_at_words; eauto|]. rewrite Z.add_0_r. auto.
      * rewrite znth_cons_pos in Hj by lia. destruct (GA (j - 1) L' Hj) as (i & s1 & s2 & HA & HS & HB & HG).
        exists i, s1, s2. replace (k + j) with (k + 1 + (j - 1)) by lia. auto.
    + eapply IH; eauto. exact (Forall_inv_tail HSh).
Qed.
End Sound.

(** the lists of [kept] are the first ones of [K] *)
Lemma same_lists (kept K : list (list Z)) : zlen kept <= zlen K ->
  (forall j L S, znth kept j = Some L -> znth K j = Some S -> L = S) ->
  kept = firstn (length kept) K.
Proof.
  intros HL H. apply znth_ext.
  - rewrite zlen_firstn. unfold zlen in *. lia.
  - intros j Hj. rewrite znth_firstn by (unfold zlen in *; lia).
    destruct (znth_Some _ kept j ltac:(lia)) as (L & EL). destruct (znth_Some _ K j ltac:(lia)) as (S & ES).
    rewrite EL, ES. f_equal. eauto.
Qed.

Lemma list_at_vget data p L j : list_at data p L -> 0 <= j < zlen L ->
  exists x, vget data (p + j) = Ok x /\ znth L j = Some x.
Proof.
  intros H Hj. destruct (znth_Some _ L j Hj) as (x & Ex). exists x. split; auto. apply vget_ok. now rewrite H.
Qed.

(** decode *)
Lemma compare_loop_sound data out : forall L p j g,
  list_at data p L -> compare_loop (length L) data p out j g = Ok true -> g = true /\ list_at out j L.
Proof.
  induction L as [|x L IH]; intros p j g H; cbn [length compare_loop].
  - intros [= ->]. split; auto. intros k Hk. rewrite zlen_nil in Hk. lia.
  - apply list_at_cons in H as [E H]. rewrite E. cbn [bind].
    destruct (vget out j) as [y| | | |] eqn:Ey; try discriminate. cbn [bind].
    intro EL. apply IH in EL as [Eg HL]; auto. apply andb_true_iff in Eg as [-> Exy]. apply Z.eqb_eq in Exy. subst y.
    split; auto. intros k Hk. destruct (Z.eq_dec k 0) as [->|].
    + rewrite Z.add_0_r, znth_cons_0. unfold vget in Ey. destruct (znth out j); [now injection Ey as ->|discriminate].
    + rewrite zlen_cons in Hk. rewrite znth_cons_pos by lia. rewrite <- (HL (k - 1)) by lia. f_equal. lia.
Qed.
Lemma compare_loop_false data out : forall m p j g,
  compare_loop m data p out j false = Ok g -> g = false.
Proof.
  induction m as [|m IH]; intros p j g; cbn [compare_loop]; [intros [= <-]; auto|].
  destruct (vget data p); try discriminate. cbn [bind]. destruct (vget out j); try discriminate. cbn [bind andb]. eauto.
Qed.

Lemma list_at_same data L S : zlen L = zlen S -> list_at data 0 L -> list_at data 0 S -> L = S.
Proof.
  intros E H1 H2. apply znth_ext; auto. intros j Hj. rewrite <- (H1 j) by lia. apply H2. lia.
Qed.

Lemma test_decode_sound dbg params mem f u u' Ls K ix k :
  let kept := filter (keep params) Ls in Forall short Ls ->
  opened 31 mem f u' K ix -> Forall (fun S => zlen S + 23 <= u') K -> zlen kept <= zlen K ->
  test_decode dbg params mem f (collection u Ls) = Ok (k, true) -> kept = firstn (length kept) K.
Proof.
  intros kept HSh O HB HK. unfold test_decode. rewrite (proj1 O). cbn [bind].
  change (vget (collection u Ls) 0) with (Ok 1). cbn [bind].
  rewrite assert_ok by reflexivity. cbn [bind].
  destruct (scan _ _ _ _ _ _ _) as [[k' [g out]]| | | |] eqn:ES; try discriminate. cbn [bind]. intros [= <- ->].
  change 2 with (zlen [1; u]) in ES.
  assert (D : forall i L S out, znth kept i = Some L -> znth K i = Some S -> zlen out = Z.max 0 u' ->
    exists s out', index_get dbg mem ix i = Ok s /\ decode dbg mem s out 0 = Ok (out', zlen S)
      /\ wrote 23 out 0 S out' /\ cardinality mem s = Ok (zlen S)).
  { intros i L S o EL EK HO. pose proof (opened_valid _ _ _ _ _ _ _ _ O EK) as VL.
    assert (B : zlen S + 23 <= u') by (rewrite Forall_forall in HB; apply HB; eapply znth_In; eauto).
    pose proof O as (_ & _ & _ & _ & G). destruct (G i S EK) as (s & Es & St & EG).
    destruct (decode_ok dbg mem _ S o 0 VL St) as (s' & out' & Es' & ED & W); try lia.
    rewrite Es in Es'. injection Es' as <-. exists s, out'. split; [auto|]. split; [auto|]. split; [exact W|].
    apply (opened_card mem f u' K ix 31 i S s O ltac:(lia) EK Es). }
  destruct (fun HM HI I0 => scan_sound params (fun data => decode_body dbg mem ix data) (fun st => fst st = true)
    (fun st => zlen (snd st) = Z.max 0 u') (collection u Ls) HM Ls [1; u] _ 0 _ _ _ eq_refl HSh HI I0 ES eq_refl) as [_ H]; auto.
  - intros k i L [g o] [g' o'] HS Hg. cbn [fst] in *. destruct g; auto. exfalso. unfold decode_body in HS.
    destruct (index_get dbg mem ix k); try discriminate. cbn [bind] in HS.
    destruct (decode dbg mem a o 0) as [[? ?]| | | |]; try discriminate. cbn [bind] in HS.
    destruct (cardinality mem a); try discriminate. cbn [bind andb] in HS.
    destruct (compare_loop _ _ _ _ _ _) eqn:EC; try discriminate. apply compare_loop_false in EC.
    cbn [bind] in HS. injection HS as <- _. congruence.
  - intros j i L [g o] [g' o'] Hj HI _ HS. cbn [snd] in *. rewrite Z.add_0_l in HS. fold kept in Hj.
    pose proof (znth_lt _ _ _ _ Hj) as Hj'.
    destruct (znth_Some _ K j ltac:(lia)) as (S & EK).
    destruct (D j L S o Hj EK HI) as (s & out' & E1 & E2 & W & E3). unfold decode_body in HS.
    rewrite E1 in HS. cbn [bind] in HS. rewrite E2 in HS. cbn [bind] in HS. rewrite E3 in HS. cbn [bind] in HS.
    destruct (compare_loop _ _ _ _ _ _); try discriminate. cbn [bind] in HS. injection HS as _ <-.
    now rewrite (wrote_zlen _ _ _ _ _ W).
  - cbn [snd]. pose proof O as (_ & _ & -> & _). rewrite zlen_repeat. lia.
  - apply same_lists; auto. intros j L S EL EK. destruct (H j L EL) as (i & [g1 o1] & [g2 o2] & HA & HI & HS & Hg).
    cbn [fst snd] in *. subst g2. rewrite Z.add_0_l in HS.
    destruct (D j L S o1 EL EK HI) as (s & out' & E1 & E2 & W & E3). unfold decode_body in HS.
    rewrite E1 in HS. cbn [bind] in HS. rewrite E2 in HS. cbn [bind] in HS. rewrite E3 in HS. cbn [bind] in HS.
    destruct (compare_loop _ _ _ _ _ _) as [g3| | | |] eqn:EC; try discriminate. cbn [bind] in HS.
    injection HS as -> _. rewrite length_of_zlen in EC. apply compare_loop_sound in EC as [Eg HL]; auto.
    rewrite !andb_true_iff, Z.eqb_eq in Eg. destruct Eg as [[_ Eg] _].
    eapply list_at_same; eauto. eapply wrote_list_at; eauto.
Qed.

(** contains *)
Lemma contains_loop_false dbg mem s data : forall m p g,
  contains_loop m dbg mem s data p false = Ok g -> g = false.
Proof.
  induction m as [|m IH]; intros p g; cbn [contains_loop]; [intros [= <-]; auto|].
  destruct (vget data p); try discriminate. cbn [bind]. destruct (contains dbg mem s a); try discriminate.
  cbn [bind andb]. eauto.
Qed.
Lemma contains_loop_sound dbg mem a S s data : forall L p g,
  valid S -> stored 0 mem a S -> seq_at mem a = Ok s -> Forall is_u32 L ->
  list_at data p L -> contains_loop (length L) dbg mem s data p g = Ok true -> g = true /\ incl L S.
Proof.
  induction L as [|x L IH]; intros p g V St Es R H; cbn [length contains_loop].
  - intros [= ->]. split; auto. intros y [].
  - apply list_at_cons in H as [E H]. rewrite E. cbn [bind]. inversion R; subst.
    destruct (c05_contains dbg mem a S x V St) as (s' & b & Es' & EC & B); auto.
    rewrite Es in Es'. injection Es' as <-. rewrite EC. cbn [bind]. intro EL.
    apply IH in EL as [Eg HL]; auto. apply andb_true_iff in Eg as [-> ->]. split; auto.
    intros y [<-|Hy]; auto. now apply B.
Qed.
Lemma same_set (L S : list Z) : sorted L -> sorted S -> zlen L = zlen S -> incl L S -> L = S.
Proof.
  intros HL HS E I. apply (enumerates_unique (fun v => In v S)).
  - split; auto. intro v. split; auto. apply (NoDup_length_incl (l := L) (l' := S)); auto.
    + now apply sorted_NoDup.
    + unfold zlen in E. lia.
  - split; auto. tauto.
Qed.
Lemma valid_u32 L : valid L -> Forall is_u32 L.
Proof. intros (_ & _ & R). eapply Forall_impl; [|exact R]. unfold is_u32. cbn beta. intros. lia. Qed.

Lemma test_contains_sound dbg params mem f u u' Ls K ix k :
  let kept := filter (keep params) Ls in Forall short Ls ->
  opened 0 mem f u' K ix -> Forall valid kept -> zlen kept <= zlen K ->
  test_contains dbg params mem f (collection u Ls) = Ok (k, true) -> kept = firstn (length kept) K.
Proof.
  intros kept HSh O VK HK. unfold test_contains. rewrite (proj1 O). cbn [bind].
  change (vget (collection u Ls) 0) with (Ok 1). cbn [bind].
  rewrite assert_ok by reflexivity. cbn [bind]. change 2 with (zlen [1; u]). intro ES.
  destruct (fun HM HI I0 => scan_sound params (fun data => contains_body dbg mem ix data) (fun g => g = true)
    (fun _ => True) (collection u Ls) HM Ls [1; u] _ 0 _ _ _ eq_refl HSh HI I0 ES eq_refl) as [_ H]; auto.
  - intros k0 i L g g' HS ->. destruct g; auto. exfalso. unfold contains_body in HS.
    destruct (index_get dbg mem ix k0); try discriminate. cbn [bind] in HS.
    destruct (cardinality mem a); try discriminate. cbn [bind andb] in HS. apply contains_loop_false in HS. discriminate.
  - apply same_lists; auto. intros j L S EL EK. destruct (H j L EL) as (i & g1 & g2 & HA & _ & HS & ->).
    rewrite Z.add_0_l in HS. unfold contains_body in HS.
    pose proof (opened_valid _ _ _ _ _ _ _ _ O EK) as VS.
    assert (VL : valid L) by (rewrite Forall_forall in VK; apply VK; eapply znth_In; eauto).
    pose proof O as (_ & _ & _ & _ & G). destruct (G j S EK) as (s & Es & St & EG). rewrite EG in HS. cbn [bind] in HS.
    rewrite (opened_card mem f u' K ix 0 j S s O ltac:(lia) EK Es) in HS. cbn [bind] in HS. rewrite length_of_zlen in HS.
    apply (contains_loop_sound dbg mem (addr K f j) S) in HS as [Eg HI]; auto using valid_u32.
    apply andb_true_iff in Eg as [_ Eg]. apply Z.eqb_eq in Eg. apply same_set; auto; [apply VL|apply VS].
Qed.

(** select *)
Lemma select_loop_false dbg mem s data : forall m p j v g,
  select_loop m dbg mem s data p j v false = Ok g -> g = false.
Proof.
  induction m as [|m IH]; intros p j v g; cbn [select_loop]; [intros [= <-]; auto|].
  destruct (vget data p); try discriminate. cbn [bind].
  destruct (select dbg mem s (u32 j) v) as [[? ?]| | | |]; try discriminate. cbn [bind andb]. eauto.
Qed.
Lemma select_loop_sound dbg mem a S s data : forall L p j v g,
  valid S -> stored 0 mem a S -> seq_at mem a = Ok s -> 0 <= j -> j + zlen L <= 4294967296 ->
  list_at data p L -> select_loop (length L) dbg mem s data p j v g = Ok true ->
  g = true /\ forall i, 0 <= i < zlen L -> znth S (j + i) = znth L i.
Proof.
  induction L as [|x L IH]; intros p j v g V St Es Hj Hb H; cbn [length select_loop].
  - intros [= ->]. split; auto. intros i Hi. rewrite zlen_nil in Hi. lia.
  - apply list_at_cons in H as [E H]. rewrite E. cbn [bind]. rewrite zlen_cons in *. zpos. rewrite u32_id by lia.
    destruct (select_ok dbg mem a S j v V St) as (s' & Es' & EC); [unfold is_u32; lia|].
    rewrite Es in Es'. injection Es' as <-. rewrite EC.
    destruct (znth S j) as [y|] eqn:Ey; cbn [bind]; intro EL.
    2:{ rewrite andb_false_r in EL. cbn [andb] in EL. apply select_loop_false in EL. discriminate. }
    apply IH in EL as [Eg HL]; auto; try lia. rewrite !andb_true_iff, Z.eqb_eq in Eg.
    destruct Eg as [[-> _] ->]. split; auto. intros i Hi. destruct (Z.eq_dec i 0) as [->|].
    + now rewrite Z.add_0_r, znth_cons_0.
    + rewrite znth_cons_pos by lia. rewrite <- (HL (i - 1)) by lia. f_equal. lia.
Qed.

Lemma test_select_sound dbg params mem f u u' Ls K ix k :
  let kept := filter (keep params) Ls in Forall short Ls ->
  opened 0 mem f u' K ix -> zlen kept <= zlen K ->
  test_select dbg params mem f (collection u Ls) = Ok (k, true) -> kept = firstn (length kept) K.
Proof.
  intros kept HSh O HK. unfold test_select. rewrite (proj1 O). cbn [bind].
  change (vget (collection u Ls) 0) with (Ok 1). cbn [bind].
  rewrite assert_ok by reflexivity. cbn [bind]. change 2 with (zlen [1; u]). intro ES.
  assert (F : forall m dbg mem s data p j v c n, select_loop m dbg mem s data p j v (c =? n) = Ok true -> c = n).
  { intros m d mm s da p j v c n HS. destruct (Z.eqb_spec c n); auto. apply select_loop_false in HS. discriminate. }
  destruct (fun HM HI I0 => scan_sound params (fun data => select_body dbg mem ix data) (fun g => g = true)
    (fun _ => True) (collection u Ls) HM Ls [1; u] _ 0 _ _ _ eq_refl HSh HI I0 ES eq_refl) as [_ H]; auto.
  - intros k0 i L g g' HS ->. destruct g; auto. exfalso. unfold select_body in HS.
    destruct (index_get dbg mem ix k0); try discriminate. cbn [bind] in HS.
    destruct (cardinality mem a); try discriminate. cbn [bind andb] in HS. apply select_loop_false in HS. discriminate.
  - apply same_lists; auto. intros j L S EL EK. destruct (H j L EL) as (i & g1 & g2 & HA & _ & HS & ->).
    rewrite Z.add_0_l in HS. unfold select_body in HS.
    pose proof (opened_valid _ _ _ _ _ _ _ _ O EK) as VS.
    pose proof O as (_ & _ & _ & _ & G). destruct (G j S EK) as (s & Es & St & EG). rewrite EG in HS. cbn [bind] in HS.
    rewrite (opened_card mem f u' K ix 0 j S s O ltac:(lia) EK Es) in HS. cbn [bind] in HS.
    destruct g1; cbn [andb] in HS; [|apply select_loop_false in HS; discriminate].
    pose proof (F _ _ _ _ _ _ _ _ _ _ HS) as EQ. rewrite length_of_zlen in HS.
    pose proof (valid_chunks S VS) as (_ & _ & _ & _ & LS).
    apply (select_loop_sound dbg mem (addr K f j) S) in HS as [_ HI]; auto; try lia.
    apply znth_ext; auto. intros x Hx. rewrite <- (HI x) by lia. f_equal.
Qed.

(** enumerator: only a prefix is compared *)
Lemma enumerator_loop_false dbg mem data : forall m p e g e',
  enumerator_loop m dbg mem data p e false = Ok (g, e') -> g = false.
Proof.
  induction m as [|m IH]; intros p e g e'; cbn [enumerator_loop]; [intros [= <- _]; auto|].
  destruct (vget data p); try discriminate. cbn [bind].
  destruct (enum_value e); try discriminate. cbn [bind].
  destruct (enum_next dbg mem e); try discriminate. cbn [bind andb]. eauto.
Qed.
Lemma enumerator_prefix_ok dbg mem p data : forall L R q e g,
  en_at mem p e (L ++ R) -> list_at data q L ->
  exists e', enumerator_loop (length L) dbg mem data q e g = Ok (g, e') /\ zlen (en_buf e') = 65536.
Proof.
  induction L as [|x L IH]; intros R q e g I H; cbn [length enumerator_loop app].
  - eexists. split; [reflexivity|]. cbn [app] in I. destruct R; cbn [en_at] in I.
    + apply I.
    + destruct I as (? & ? & ? & _ & _ & _ & _ & _ & _ & _ & _ & Hz & _). exact Hz.
  - apply list_at_cons in H as [E H]. rewrite E. cbn [bind]. cbn [app en_at] in I.
    rewrite (enum_value_inv mem p e x _ I). cbn [bind].
    destruct (enum_next_inv dbg mem p e x _ I) as (e1 & -> & I1). cbn [bind].
    rewrite Z.eqb_refl, andb_true_r. eapply IH; eauto.
Qed.

(** an index whose lists extend those of the collection is accepted *)
Lemma test_enumerator_prefix dbg params mem f u u' Ls K ix :
  let kept := filter (keep params) Ls in Forall short Ls ->
  opened 31 mem f u' K ix ->
  (forall j L, znth kept j = Some L -> exists R, znth K j = Some (L ++ R)) ->
  test_enumerator dbg params mem f (collection u Ls) = Ok (zlen kept, true).
Proof.
  intros kept HSh O HP. unfold test_enumerator. rewrite (proj1 O). cbn [bind].
  change (vget (collection u Ls) 0) with (Ok 1). cbn [bind].
  rewrite assert_ok by reflexivity. cbn [bind].
  destruct (scan_collection (fun data => enumerator_body dbg mem ix data) params u Ls
    (fun st => fst st = true /\ zlen (snd st) = 65536) (true, enum_new_buf) HSh) as ((g & b) & E & Eg & _).
  - intros k i L (g & b) EL (Eg & El) HA. cbn [fst snd] in *. subst g. fold kept in EL.
    destruct (HP k L EL) as (R & EK).
    pose proof (opened_valid _ _ _ _ _ _ _ _ O EK) as VS. pose proof O as (_ & _ & _ & _ & G).
    destruct (G k _ EK) as (s & Es & St & EG). unfold enumerator_body. rewrite EG. cbn [bind].
    destruct (enum_init_inv dbg mem _ (L ++ R) (u32 (ix_universe ix)) b s VS St Es El) as (e & -> & I). cbn [bind].
    rewrite length_of_zlen.
    destruct (enumerator_prefix_ok dbg mem (u32 (ix_universe ix)) (collection u Ls) L R (i + 1) e true) as (e' & -> & Hb); auto.
    { destruct (L ++ R) eqn:ER; [exfalso; now apply (proj1 VS)|exact I]. }
    cbn [bind]. eexists. split; [reflexivity|]. auto.
  - cbn [fst snd]. split; [reflexivity|]. unfold enum_new_buf. rewrite zlen_repeat. unfold chunk_size. lia.
  - cbn [fst] in Eg. subst g. rewrite E. reflexivity.
Qed.

(** what acceptance by test_enumerator says: the list read is the beginning of the list stored,
    followed, when longer, by copies of the universe *)
Lemma enumerator_loop_done dbg mem p data : forall L q e j g g' e',
  en_done p e j -> 0 <= j -> j + zlen L < 4294967296 -> list_at data q L ->
  enumerator_loop (length L) dbg mem data q e g = Ok (g', e') ->
  zlen (en_buf e') = 65536 /\ (g' = true -> L = repeat p (length L)).
Proof.
  induction L as [|x L IH]; intros q e j g g' e' D Hj Hb H; cbn [length enumerator_loop].
  - intros [= <- <-]. split; [apply D|auto].
  - apply list_at_cons in H as [E H]. rewrite E. cbn [bind]. rewrite zlen_cons in Hb. zpos.
    pose proof D as (D1 & D2 & _). unfold enum_value. rewrite D1. cbn [bind].
    destruct (enum_next_done dbg mem p e j D ltac:(lia)) as (e1 & -> & D'). cbn [bind]. intro EL.
    destruct (IH _ _ (j + 1) _ _ _ D' ltac:(lia) ltac:(lia) H EL) as [Hz Hg]. split; auto. intros ->.
    destruct (g && (x =? en_past_the_end e)) eqn:Eg; [|apply enumerator_loop_false in EL; discriminate].
    apply andb_true_iff in Eg as [_ Eg]. apply Z.eqb_eq in Eg. cbn [repeat]. rewrite <- Hg by auto. congruence.
Qed.
Lemma enumerator_loop_sound dbg mem p data : forall L R q e g g' e',
  en_at mem p e R -> zlen L < 4294967296 -> list_at data q L ->
  enumerator_loop (length L) dbg mem data q e g = Ok (g', e') ->
  zlen (en_buf e') = 65536 /\ (g' = true -> L = firstn (length L) R ++ repeat p (length L - length R)).
Proof.
  induction L as [|x L IH]; intros R q e g g' e' I Hb H.
  - cbn [length enumerator_loop]. intros [= <- <-]. split; auto. destruct R; cbn [en_at] in I; [apply I|].
    destruct I as (? & ? & ? & _ & _ & _ & _ & _ & _ & _ & _ & Hz & _). exact Hz.
  - destruct R as [|y R].
    { intro EL. destruct (enumerator_loop_done dbg mem p data (x :: L) q e 0 g g' e' I) as [Hz Hg]; auto; try lia.
    }
    cbn [length enumerator_loop]. apply list_at_cons in H as [E H]. rewrite E. cbn [bind]. rewrite zlen_cons in Hb.
    cbn [en_at] in I. rewrite (enum_value_inv mem p e y _ I). cbn [bind].
    destruct (enum_next_inv dbg mem p e y _ I) as (e1 & -> & I1). cbn [bind]. intro EL.
    destruct (IH R _ _ _ _ _ I1 ltac:(lia) H EL) as [Hz Hg]. split; auto. intros ->.
    destruct (g && (x =? y)) eqn:Eg; [|apply enumerator_loop_false in EL; discriminate].
    apply andb_true_iff in Eg as [_ Eg]. apply Z.eqb_eq in Eg. cbn [length Nat.sub firstn app]. f_equal; auto.
Qed.

Lemma test_enumerator_sound dbg params mem f u u' Ls K ix k :
  let kept := filter (keep params) Ls in Forall short Ls ->
  opened 31 mem f u' K ix -> is_u32 u' -> zlen kept <= zlen K -> Forall (fun L => zlen L < 4294967296) kept ->
  test_enumerator dbg params mem f (collection u Ls) = Ok (k, true) ->
  forall j L S, znth kept j = Some L -> znth K j = Some S ->
    L = firstn (length L) S ++ repeat u' (length L - length S).
Proof.
  intros kept HSh O Hu HK HB. unfold test_enumerator. rewrite (proj1 O). cbn [bind].
  change (vget (collection u Ls) 0) with (Ok 1). cbn [bind].
  rewrite assert_ok by reflexivity. cbn [bind].
  destruct (scan _ _ _ _ _ _ _) as [[k' [g b]]| | | |] eqn:ES; try discriminate. cbn [bind]. intros [= <- ->].
  change 2 with (zlen [1; u]) in ES.
  assert (EU : u32 (ix_universe ix) = u') by (pose proof O as (_ & _ & -> & _); apply u32_id; auto).
  assert (D : forall j i L g b g' b', znth kept j = Some L -> zlen b = 65536 -> list_at (collection u Ls) (i + 1) L ->
    enumerator_body dbg mem ix (collection u Ls) j i (zlen L) (last L 0) (g, b) = Ok (g', b') ->
    zlen b' = 65536 /\ (g' = true -> forall S, znth K j = Some S -> L = firstn (length L) S ++ repeat u' (length L - length S))).
  { intros j i L g0 b0 g' b' EL Hb HA. pose proof (znth_lt _ _ _ _ EL) as Hj.
    destruct (znth_Some _ K j ltac:(lia)) as (S & EK).
    pose proof (opened_valid _ _ _ _ _ _ _ _ O EK) as VS. pose proof O as (_ & _ & _ & _ & G).
    destruct (G j S EK) as (s & Es & St & EG). unfold enumerator_body. rewrite EG. cbn [bind].
    destruct (enum_init_inv dbg mem _ S (u32 (ix_universe ix)) b0 s VS St Es Hb) as (e & -> & I). cbn [bind].
    rewrite length_of_zlen. destruct (enumerator_loop _ _ _ _ _ _ _) as [[g1 e1]| | | |] eqn:EL1; try discriminate.
    cbn [bind]. intros [= <- <-].
    apply (enumerator_loop_sound dbg mem (u32 (ix_universe ix)) (collection u Ls) L S) in EL1; auto.
    - rewrite EU in EL1. destruct EL1 as [Hz Hg]. split; auto. intros Et S' ES'.
      rewrite EK in ES'. injection ES' as <-. auto.
    - destruct S; [exfalso; now apply (proj1 VS)|exact I].
    - rewrite Forall_forall in HB. apply HB. eapply znth_In; eauto. }
  destruct (fun HM HI I0 => scan_sound params (fun data => enumerator_body dbg mem ix data) (fun st => fst st = true)
    (fun st => zlen (snd st) = 65536) (collection u Ls) HM Ls [1; u] _ 0 _ _ _ eq_refl HSh HI I0 ES eq_refl) as [_ H].
  - intros k i L [g o] [g' o'] HS Hg. cbn [fst] in *. destruct g; auto. exfalso. unfold enumerator_body in HS.
    destruct (index_get dbg mem ix k); try discriminate. cbn [bind] in HS.
    destruct (enum_init _ _ _ _ _); try discriminate. cbn [bind] in HS.
    destruct (enumerator_loop _ _ _ _ _ _ _) as [[? ?]| | | |] eqn:EC; try discriminate.
    apply enumerator_loop_false in EC. cbn [bind] in HS. injection HS as <- _. congruence.
  - intros j i L [g o] [g' o'] Hj HI HA HS. cbn [snd] in *. rewrite Z.add_0_l in HS. eapply D; eauto.
  - cbn [snd]. unfold enum_new_buf. rewrite zlen_repeat. unfold chunk_size. lia.
  - intros j L S EL EK. destruct (H j L EL) as (i & [g1 o1] & [g2 o2] & HA & HI & HS & Hg).
    cbn [fst snd] in *. subst g2. rewrite Z.add_0_l in HS. destruct (D j i L g1 o1 true o2 EL HI HA HS) as [_ R]. auto.
Qed.

(** the first kept list already fails *)
Lemma scan_first {A} params (body : list Z -> Z -> Z -> Z -> Z -> A -> res A) data st : forall Ls pre fuel L0,
  data = pre ++ words Ls -> Forall short Ls -> zlen (words Ls) <= Z.of_nat fuel -> znth (filter (keep params) Ls) 0 = Some L0 ->
  (forall i, body data 0 i (zlen L0) (last L0 0) st = UB) ->
  scan fuel params data (body data) (zlen pre) 0 st = UB.
Proof.
  induction Ls as [|L Ls IH]; intros pre fuel L0 E HSh HF HK HB; [discriminate HK|].
  unfold words in HF. cbn [flat_map] in HF. fold (words Ls) in HF. rewrite zlen_app, zlen_cons in HF.
  pose proof (zlen_nonneg _ L). pose proof (zlen_nonneg _ (words Ls)).
  destruct fuel as [|fuel]; [lia|]. change (S fuel) with (1 + fuel)%nat.
  rewrite (scan_step params body data pre L Ls fuel 0 st E (Forall_inv HSh)). cbn [filter] in HK. destruct (keep params L).
  - rewrite znth_cons_0 in HK. injection HK as ->. now rewrite HB.
  - apply IH with (L0 := L0); auto; [|exact (Forall_inv_tail HSh)|lia]. now rewrite E, <- app_assoc.
Qed.

(** ** sizes computed in 32 bits *)
Lemma test_uncompress_wrap dbg params mem f u Ls ix :
  let kept := filter (keep params) Ls in Forall short Ls ->
  opened 0 mem f u kept ix -> 4294901760 <= u < 4294967296 -> kept <> [] ->
  test_uncompress dbg params mem f (collection u Ls) = UB.
Proof.
  intros kept HSh O Hu HN. unfold test_uncompress. rewrite (proj1 O). cbn [bind].
  change (vget (collection u Ls) 0) with (Ok 1). cbn [bind].
  rewrite assert_ok by reflexivity. cbn [bind].
  assert (EU : ix_universe ix = u) by apply O. rewrite EU, bitmap_words_wrap by lia. cbn [Z.to_nat repeat].
  change 2 with (zlen [1; u]). destruct kept as [|L0 kept'] eqn:EK; [easy|].
  erewrite (scan_first params (fun data => uncompress_body dbg mem ix data)) with (L0 := L0); [reflexivity|reflexivity|exact HSh| | |].
  - unfold collection. fold (words Ls). unfold zlen. cbn [length]. lia.
  - fold kept. rewrite EK. apply znth_cons_0.
  - intro i. pose proof (opened_valid _ _ _ _ _ _ 0 L0 O (znth_cons_0 _ _ _)) as VL.
    pose proof O as (_ & _ & _ & _ & G). destruct (G 0 L0 (znth_cons_0 _ _ _)) as (s & Es & St & EG).
    unfold uncompress_body. rewrite EG. cbn [bind].
    destruct (uncompress_short dbg mem _ L0 [] 0 VL St) as (s' & Es' & EX); try lia.
    { rewrite zlen_nil. assert (0 <= last L0 0); [|lia]. apply last_nonneg. auto. }
    rewrite Es in Es'. injection Es' as <-. rewrite EX. reflexivity.
Qed.

(** next_geq *)
Lemma spec_next_geq_self L x : StronglySorted Z.lt L -> In x L -> spec_next_geq L x = x.
Proof.
  induction L as [|y L IH]; intros H Hx; [destruct Hx|]. apply StronglySorted_inv in H as [H F]. cbn [spec_next_geq].
  destruct (Z.leb_spec x y).
  - destruct Hx as [->|Hx]; auto. rewrite Forall_forall in F. specialize (F x Hx). lia.
  - destruct Hx as [->|Hx]; [lia|auto].
Qed.
Lemma spec_next_geq_In S v : spec_next_geq S v <> 4294967295 -> In (spec_next_geq S v) S.
Proof.
  induction S as [|y S IH]; cbn [spec_next_geq]; [easy|]. destruct (v <=? y); [now left|]. intro H. right. auto.
Qed.
Lemma geq_loop_sound {A} dbg (next : A -> Z -> res (A * Z)) data i L S :
  valid L -> list_at data (i + 1) L ->
  (forall st v, is_u32 v -> exists st', next st v = Ok (st', spec_next_geq S v)) ->
  forall fuel st lb g st', 0 <= lb <= last L 0 + 1 ->
    geq_loop fuel dbg next data i (zlen L) (last L 0) st lb g = Ok (st', true) ->
    g = true /\ forall v, lb <= v <= last L 0 -> spec_next_geq S v = spec_next_geq L v.
Proof.
  intros V HA HN. pose proof (valid_last L V) as VL.
  induction fuel as [|fuel IH]; intros st lb g st' Hlb; cbn [geq_loop];
    (destruct (Z.eqb_spec lb (u32 (last L 0 + 1))) as [->|HE];
      [rewrite u32_id in * by lia; intros [= _ ->]; split; auto; intros v Hv; lia|]); [discriminate|].
  rewrite u32_id in HE by lia. rewrite length_of_zlen.
  assert (HL : In (last L 0) L) by (apply last_In; apply V).
  destruct (lower_bound_ok data lb L (i + 1) HA) as (it & -> & Eit).
  { exists (last L 0). split; auto. lia. }
  cbn [bind]. rewrite (u32_id lb) by lia.
  destruct (HN st lb) as (st1 & ->); [unfold is_u32; lia|]. cbn [bind].
  destruct (assert_ _ _); try discriminate. cbn [bind]. rewrite Eit. cbn [bind]. intro EL.
  apply IH in EL as [Eg HS]; [|lia]. apply andb_true_iff in Eg as [-> Eg]. apply Z.eqb_eq in Eg. split; auto.
  intros v Hv. destruct (Z.eq_dec v lb) as [->|]; auto. apply HS. lia.
Qed.

Lemma test_next_geq_sound fuel dbg params mem f u u' Ls K ix k :
  let kept := filter (keep params) Ls in Forall short Ls ->
  opened 0 mem f u' K ix -> Forall valid kept -> zlen kept <= zlen K ->
  test_next_geq fuel dbg params mem f (collection u Ls) = Ok (k, true) -> kept = firstn (length kept) K.
Proof.
  intros kept HSh O VK HK. unfold test_next_geq. rewrite (proj1 O). cbn [bind].
  change (vget (collection u Ls) 0) with (Ok 1). cbn [bind].
  rewrite assert_ok by reflexivity. cbn [bind]. change 2 with (zlen [1; u]). intro ES.
  destruct (fun HM HI I0 => scan_sound params (fun data => next_geq_body fuel dbg mem ix data) (fun g => g = true)
    (fun _ => True) (collection u Ls) HM Ls [1; u] _ 0 _ _ _ eq_refl HSh HI I0 ES eq_refl) as [_ H]; auto.
  - intros k0 i L g g' HS ->. destruct g; auto. apply next_geq_body_false in HS. discriminate.
  - apply same_lists; auto. intros j L S EL EK. destruct (H j L EL) as (i & g1 & g2 & HA & _ & HS & ->).
    rewrite Z.add_0_l in HS. unfold next_geq_body in HS.
    pose proof (opened_valid _ _ _ _ _ _ _ _ O EK) as VS.
    assert (VL : valid L) by (rewrite Forall_forall in VK; apply VK; eapply znth_In; eauto).
    pose proof O as (_ & _ & _ & _ & G). destruct (G j S EK) as (s & Es & St & EG). rewrite EG in HS. cbn [bind] in HS.
    rewrite (opened_card mem f u' K ix 0 j S s O ltac:(lia) EK Es) in HS. cbn [bind] in HS.
    destruct (geq_loop _ _ _ _ _ _ _ _ _ _) as [[[] g3]| | | |] eqn:E1; try discriminate HS. cbn [bind] in HS.
    destruct (beyond_loop _ _ _ _ _ _) as [[[] g4]| | | |] eqn:E2; try discriminate HS. cbn [bind] in HS.
    injection HS as ->. destruct g3; [|apply beyond_loop_false in E2; discriminate].
    pose proof (valid_last L VL) as LL.
    apply (geq_loop_sound dbg _ (collection u Ls) i L S) in E1 as [Eg HG]; auto; try lia.
    2:{ intros st v Hv. exists tt. destruct (next_geq_ok dbg mem _ S v VS St Hv) as (s' & Es' & EN).
        rewrite Es in Es'. injection Es' as <-. now rewrite EN. }
    apply andb_true_iff in Eg as [_ Eg]. apply Z.eqb_eq in Eg.
    apply same_set; auto; [apply VL|apply VS|]. intros x Hx.
    assert (Hx' : 0 <= x <= last L 0 /\ x < 4294901760).
    { pose proof (le_last L x (proj1 (proj2 VL)) Hx). destruct VL as (_ & _ & R). rewrite Forall_forall in R.
      specialize (R x Hx). lia. }
    specialize (HG x ltac:(lia)). rewrite (spec_next_geq_self L x) in HG; auto; [|apply VL].
    rewrite <- HG. apply spec_next_geq_In. lia.
Qed.
