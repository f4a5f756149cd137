(** The test programs that read queries. *)
From Verif Require Import Base Hw Spec Lib L_Bits L_Group Layout M_Util M_Build M_Seq M_Decode M_Uncompress
  M_Query M_Union M_Many M_Index M_Calls M_Tests P_Build1 P_Build2 P_Build3 P_Seq P_Decode P_Enum
  P_Sets P_Index P_Fin1 P_Fin2 P_Fin3 P_Tests.
From Coq Require Import Lia Sorted Permutation.

Lemma merge_and_enum : forall l r, sorted l -> sorted r ->
  enumerates (fun v => In v l /\ In v r) (merge_and l r).
Proof.
  induction l as [|x l IHl]; intros r Hl Hr.
  { cbn [merge_and]. split; [constructor|]. intro v. cbn. tauto. }
  apply sorted_inv in Hl as [Hl Fx]. rewrite Forall_forall in Fx.
  induction r as [|y r IHr].
  { cbn [merge_and]. split; [constructor|]. intro v. cbn. tauto. }
  pose proof Hr as Hr'. apply sorted_inv in Hr' as [Hr' Fy]. rewrite Forall_forall in Fy.
  assert (E : merge_and (x :: l) (y :: r)
    = if x <? y then merge_and l (y :: r) else if y <? x then merge_and (x :: l) r else x :: merge_and l r)
    by reflexivity.
  rewrite E. destruct (Z.ltb_spec x y).
  - destruct (IHl (y :: r) Hl Hr) as [S1 I1]. split; auto. intro v. rewrite I1. split.
    + intros [H1 H2]. split; auto. now right.
    + intros [[<-|H1] H2]; auto. exfalso. destruct H2 as [->|H2]; [lia|]. specialize (Fy _ H2). lia.
  - destruct (Z.ltb_spec y x).
    + destruct (IHr Hr') as [S1 I1]. split; auto. intro v. rewrite I1. split.
      * intros [H1 H2]. split; auto. now right.
      * intros [H1 [<-|H2]]; auto. exfalso. destruct H1 as [->|H1]; [lia|]. specialize (Fx _ H1). lia.
    + assert (x = y) as <- by lia. destruct (IHl r Hl Hr') as [S1 I1]. split.
      * apply sorted_cons; auto. rewrite Forall_forall. intros v Hv. apply I1 in Hv. now apply Fx.
      * intro v. cbn [In]. rewrite I1. split; [tauto|]. intros [[->|H1] [H2|H2]]; auto.
Qed.

Lemma merge_or_enum : forall l r, sorted l -> sorted r ->
  enumerates (fun v => In v l \/ In v r) (merge_or l r).
Proof.
  induction l as [|x l IHl]; intros r Hl Hr.
  { cbn [merge_or]. split; auto. intro v. cbn. tauto. }
  pose proof Hl as Hl0. apply sorted_inv in Hl as [Hl Fx]. rewrite Forall_forall in Fx.
  induction r as [|y r IHr].
  { cbn [merge_or]. split; auto. intro v. cbn. tauto. }
  pose proof Hr as Hr'. apply sorted_inv in Hr' as [Hr' Fy]. rewrite Forall_forall in Fy.
  assert (E : merge_or (x :: l) (y :: r)
    = if x <? y then x :: merge_or l (y :: r) else if y <? x then y :: merge_or (x :: l) r else x :: merge_or l r)
    by reflexivity.
  rewrite E. destruct (Z.ltb_spec x y).
  - destruct (IHl (y :: r) Hl Hr) as [S1 I1]. split.
    + apply sorted_cons; auto. rewrite Forall_forall. intros v Hv. apply I1 in Hv as [Hv|[<-|Hv]]; auto.
      specialize (Fy _ Hv). lia.
    + intro v. cbn [In]. rewrite I1. cbn [In]. tauto.
  - destruct (Z.ltb_spec y x).
    + destruct (IHr Hr') as [S1 I1]. split.
      * apply sorted_cons; auto. rewrite Forall_forall. intros v Hv. apply I1 in Hv as [[<-|Hv]|Hv]; auto.
        specialize (Fx _ Hv). lia.
      * intro v. cbn [In]. rewrite I1. cbn [In]. tauto.
    + assert (x = y) as <- by lia. destruct (IHl r Hl Hr') as [S1 I1]. split.
      * apply sorted_cons; auto. rewrite Forall_forall. intros v Hv. apply I1 in Hv as [Hv|Hv]; auto.
      * intro v. cbn [In]. rewrite I1. tauto.
Qed.

Lemma and_fold_enum : forall Ss acc (P : Z -> Prop), enumerates P acc -> Forall sorted Ss ->
  enumerates (fun v => P v /\ forall S, In S Ss -> In v S) (fold_left merge_and Ss acc).
Proof.
  induction Ss as [|S Ss IH]; intros acc P HP HS; cbn [fold_left].
  - destruct HP as [S1 I1]. split; auto. intro v. rewrite I1. cbn. intuition.
  - inversion HS as [|? ? H1 H2]; subst.
    pose proof (merge_and_enum acc S (proj1 HP) H1) as HE.
    destruct (IH _ _ HE H2) as [S1 I1]. split; auto. intro v. rewrite I1. destruct HP as [_ I2]. rewrite I2.
    cbn [In]. split.
    + intros ((H3 & H4) & H5). split; auto. intros T [<-|HT]; auto.
    + intros (H3 & H4). split; [split|]; auto.
Qed.
Lemma or_fold_enum : forall Ss acc (P : Z -> Prop), enumerates P acc -> Forall sorted Ss ->
  enumerates (fun v => P v \/ exists S, In S Ss /\ In v S) (fold_left merge_or Ss acc).
Proof.
  induction Ss as [|S Ss IH]; intros acc P HP HS; cbn [fold_left].
  - destruct HP as [S1 I1]. split; auto. intro v. rewrite I1. cbn. split; auto. intros [H|(T & [] & _)]; auto.
  - inversion HS as [|? ? H1 H2]; subst.
    pose proof (merge_or_enum acc S (proj1 HP) H1) as HE.
    destruct (IH _ _ HE H2) as [S1 I1]. split; auto. intro v. rewrite I1. destruct HP as [_ I2]. rewrite I2.
    cbn [In]. split.
    + intros [[H3|H3]|(T & HT & H3)]; eauto.
    + intros [H3|(T & [<-|HT] & H3)]; eauto.
Qed.

Lemma check_loop_ok expected out : forall e j g,
  list_at expected j e -> list_at out j e -> check_loop (length e) expected out j g = Ok g.
Proof.
  induction e as [|x e IH]; intros j g H1 H2; cbn [length check_loop]; auto.
  apply list_at_cons in H1 as [E1 H1]. apply list_at_cons in H2 as [E2 H2].
  rewrite E1. cbn [bind]. rewrite E2. cbn [bind]. rewrite Z.eqb_refl, andb_true_r. auto.
Qed.

Lemma wrote_list_at k buf e buf' : wrote k buf 0 e buf' -> list_at buf' 0 e.
Proof. intros (_ & W & _) j Hj. apply W. exact Hj. Qed.

Lemma store_at0 buf e : zlen e <= zlen buf -> exists buf', store buf 0 e = Ok buf' /\ wrote 0 buf 0 e buf'.
Proof. intro H. apply store_ok; lia. Qed.

(** the std::sort of intersection_many.hpp:10 on readable sequences *)
Definition sorts (mem : list Z) (sort : list s_sequence -> list s_sequence) : Prop :=
  forall seqs, (forall s, In s seqs -> exists c, cardinality mem s = Ok c) -> sort_outcome mem seqs (sort seqs).

Lemma opened_card mem f u kept ix slack i S s :
  opened slack mem f u kept ix -> 0 <= slack -> znth kept i = Some S -> seq_at mem (addr kept f i) = Ok s ->
  cardinality mem s = Ok (zlen S).
Proof.
  intros O Hs E Es. pose proof (opened_valid _ _ _ _ _ _ _ _ O E) as V.
  destruct O as (_ & _ & _ & _ & G). destruct (G i S E) as (s' & Es' & St & _).
  destruct (c04_size mem _ S V (stored_weaken _ 0 _ _ _ St Hs)) as (s2 & Es2 & _ & EC). congruence.
Qed.

(** decoding into a buffer of [u] words *)
Lemma opened_decode dbg mem f u kept ix i S buf :
  opened 31 mem f u kept ix -> znth kept i = Some S -> zlen S + 23 <= zlen buf ->
  exists s buf', seq_at mem (addr kept f i) = Ok s /\ index_get dbg mem ix i = Ok s
    /\ decode dbg mem s buf 0 = Ok (buf', zlen S) /\ zlen buf' = zlen buf
    /\ firstn (Z.to_nat (zlen S)) buf' = S.
Proof.
  intros O E Hb. pose proof (opened_valid _ _ _ _ _ _ _ _ O E) as V.
  destruct O as (_ & _ & _ & _ & G). destruct (G i S E) as (s & Es & St & EG).
  destruct (decode_ok dbg mem _ S buf 0 V St) as (s' & buf' & Es' & ED & W); try lia.
  rewrite Es in Es'. injection Es' as <-. exists s, buf'. split; auto. split; auto. split; auto.
  split; [now rewrite (wrote_zlen _ _ _ _ _ W)|].
  rewrite length_of_zlen. apply (wrote_firstn _ _ _ _ W). lia.
Qed.

Lemma intersect_query_ok tbl sort dbg mem f u kept ix q S T st :
  opened 31 mem f u kept ix -> sorts mem sort ->
  znth kept (fst q) = Some S -> znth kept (snd q) = Some T -> zlen S + 23 <= u -> zlen T + 23 <= u ->
  sized (q_sc st) -> zlen (q_out st) = u -> zlen (q_i st) = u -> zlen (q_j st) = u -> zlen (q_expected st) = u ->
  exists st', intersect_query tbl sort dbg mem ix q st = Ok st' /\ q_good st' = q_good st
    /\ sized (q_sc st') /\ zlen (q_out st') = u /\ zlen (q_i st') = u /\ zlen (q_j st') = u
    /\ zlen (q_expected st') = u.
Proof.
  intros O HS ES ET BS BT SZ L1 L2 L3 L4. unfold intersect_query.
  pose proof (opened_valid _ _ _ _ _ _ _ _ O ES) as VS. pose proof (opened_valid _ _ _ _ _ _ _ _ O ET) as VT.
  destruct (opened_decode dbg mem f u kept ix _ S (q_i st) O ES) as (si & vi & Esi & -> & EDi & Li & Fi); [lia|].
  cbn [bind]. rewrite EDi. cbn [bind].
  destruct (opened_decode dbg mem f u kept ix _ T (q_j st) O ET) as (sj & vj & Esj & -> & EDj & Lj & Fj); [lia|].
  cbn [bind]. rewrite EDj. cbn [bind]. rewrite Fi, Fj.
  pose proof (merge_and_enum S T (proj1 (proj2 VS)) (proj1 (proj2 VT))) as HE.
  set (e := merge_and S T) in *.
  assert (Le : zlen e <= zlen S).
  { unfold zlen. apply inj_le. apply NoDup_incl_length; [apply sorted_NoDup, HE|].
    intros v Hv. apply HE in Hv. tauto. }
  destruct (store_at0 (q_expected st) e) as (ex & -> & WE); [lia|]. cbn [bind run_call].
  destruct O as (O1 & O2 & O3 & O4 & G). destruct (G _ S ES) as (s1 & Es1 & StS & _).
  destruct (G _ T ET) as (s2 & Es2 & StT & _).
  assert (O : opened 31 mem f u kept ix) by (split; auto).
  destruct (c13_intersection_many mem [addr kept f (fst q); addr kept f (snd q)] [S; T])
    as (seqs & e' & F2 & HE' & _ & HC).
  { discriminate. }
  { constructor; auto. }
  { constructor; [eapply stored_weaken; eauto; lia|]. constructor; [eapply stored_weaken; eauto; lia|constructor]. }
  assert (seqs = [si; sj]) as ->.
  { inversion F2 as [|? ? ? ? H1 H2]; subst. inversion H2 as [|? ? ? ? H3 H4]; subst. inversion H4; subst.
    congruence. }
  assert (e' = e) as ->.
  { eapply enumerates_unique; [exact HE'|]. split; [apply HE|]. intro v. rewrite (proj2 HE v). cbn [In]. split.
    - intros [H1 H2] R [<-|[<-|[]]]; auto.
    - intro H. split; apply H; auto. }
  assert (SO : sort_outcome mem [si; sj] (sort [si; sj])).
  { apply HS. intros s [<-|[<-|[]]]; eexists.
    - apply (opened_card mem f u kept ix 31 _ S si O ltac:(lia) ES Esi).
    - apply (opened_card mem f u kept ix 31 _ T sj O ltac:(lia) ET Esj). }
  destruct SZ as (Z1 & Z2 & Z3 & Z4 & Z5 & Z6 & Z7 & Z8).
  destruct (HC _ SO dbg (sc_headers (q_sc st)) (sc_and (q_sc st)) (sc_ibitmap (q_sc st)) (q_out st) 0)
    as (h' & t' & b' & o' & -> & Hh & Ht & Hb & W); try lia.
  cbn [bind]. rewrite Z.eqb_refl, andb_true_r, length_of_zlen, check_loop_ok by (eapply wrote_list_at; eauto).
  cbn [bind]. eexists. split; [reflexivity|].
  cbn [q_good q_sc q_out q_i q_j q_expected]. split; [reflexivity|].
  split. { unfold sized. cbn [sc_inter sc_block sc_union sc_and sc_or sc_headers sc_ibitmap sc_ubitmap]. repeat split; auto. }
  rewrite (wrote_zlen _ _ _ _ _ W), (wrote_zlen _ _ _ _ _ WE). repeat split; lia.
Qed.

Lemma run_queries_ok {Q A} (body : Q -> A -> res A) (P : A -> Prop) : forall qs st,
  (forall q st, In q qs -> P st -> exists st', body q st = Ok st' /\ P st') -> P st ->
  exists st', run_queries body qs st = Ok st' /\ P st'.
Proof.
  induction qs as [|q qs IH]; intros st HB HP; cbn [run_queries]; [eauto|].
  destruct (HB q st) as (st1 & -> & P1); [now left|auto|]. cbn [bind]. apply IH; auto.
  intros q' st' Hq. apply HB. now right.
Qed.

Lemma sized_scratch0 : sized scratch0.
Proof.
  unfold sized, scratch0. cbn [sc_inter sc_block sc_union sc_and sc_or sc_headers sc_ibitmap sc_ubitmap].
  rewrite !zlen_repeat, !Z2Nat.id by lia. repeat split.
Qed.

(** [q] names two sequences of the index *)
Definition fits_and (u : Z) (kept : list (list Z)) (q : Z * Z) : Prop :=
  exists S T, znth kept (fst q) = Some S /\ znth kept (snd q) = Some T
    /\ zlen S + 23 <= u /\ zlen T + 23 <= u.

Lemma test_intersect_ok tbl sort dbg mem f u kept ix queries :
  0 <= u -> opened 31 mem f u kept ix -> sorts mem sort -> Forall (fits_and u kept) queries ->
  test_intersect tbl sort dbg mem f queries = Ok (zlen queries, true).
Proof.
  intros Hu O HS HQ. unfold test_intersect. rewrite (proj1 O). cbn [bind].
  assert (EU : ix_universe ix = u) by apply O. rewrite EU.
  destruct (run_queries_ok (intersect_query tbl sort dbg mem ix)
    (fun st => q_good st = true /\ sized (q_sc st) /\ zlen (q_out st) = u /\ zlen (q_i st) = u
               /\ zlen (q_j st) = u /\ zlen (q_expected st) = u) queries (qstate0 u)) as (st & -> & Hg & _).
  - intros q st Hq (H1 & H2 & H3 & H4 & H5 & H6). rewrite Forall_forall in HQ.
    destruct (HQ q Hq) as (S & T & ES & ET & BS & BT).
    destruct (intersect_query_ok tbl sort dbg mem f u kept ix q S T st) as (st' & E & R1 & R2); auto.
    exists st'. split; auto. split; [congruence|]. exact R2.
  - unfold qstate0. cbn [q_good q_sc q_out q_i q_j q_expected]. rewrite zlen_repeat, Z2Nat.id by lia.
    split; [reflexivity|]. split; [apply sized_scratch0|]. auto.
  - cbn [bind]. now rewrite Hg.
Qed.

Lemma union_query_ok tbl dbg mem f u kept ix q S T e st :
  opened 31 mem f u kept ix ->
  znth kept (fst q) = Some S -> znth kept (snd q) = Some T ->
  enumerates (fun v => In v S \/ In v T) e -> zlen e + 23 <= u ->
  sized (q_sc st) -> zlen (q_out st) = u -> zlen (q_i st) = u -> zlen (q_j st) = u -> zlen (q_expected st) = u ->
  exists st', union_query tbl dbg mem ix q st = Ok st' /\ q_good st' = q_good st
    /\ sized (q_sc st') /\ zlen (q_out st') = u /\ zlen (q_i st') = u /\ zlen (q_j st') = u
    /\ zlen (q_expected st') = u.
Proof.
  intros O ES ET HE Be SZ L1 L2 L3 L4. unfold union_query.
  pose proof (opened_valid _ _ _ _ _ _ _ _ O ES) as VS. pose proof (opened_valid _ _ _ _ _ _ _ _ O ET) as VT.
  assert (LS : zlen S <= zlen e).
  { unfold zlen. apply inj_le. apply NoDup_incl_length; [apply sorted_NoDup, VS|].
    intros v Hv. apply HE. auto. }
  assert (LT : zlen T <= zlen e).
  { unfold zlen. apply inj_le. apply NoDup_incl_length; [apply sorted_NoDup, VT|].
    intros v Hv. apply HE. auto. }
  destruct (opened_decode dbg mem f u kept ix _ S (q_i st) O ES) as (si & vi & Esi & -> & EDi & Li & Fi); [lia|].
  cbn [bind]. rewrite EDi. cbn [bind].
  destruct (opened_decode dbg mem f u kept ix _ T (q_j st) O ET) as (sj & vj & Esj & -> & EDj & Lj & Fj); [lia|].
  cbn [bind]. rewrite EDj. cbn [bind]. rewrite Fi, Fj.
  assert (merge_or S T = e) as ->.
  { eapply enumerates_unique; [|exact HE]. apply merge_or_enum; [apply VS|apply VT]. }
  destruct (store_at0 (q_expected st) e) as (ex & -> & WE); [lia|]. cbn [bind run_call].
  destruct O as (O1 & O2 & O3 & O4 & G). destruct (G _ S ES) as (s1 & Es1 & StS & _).
  destruct (G _ T ET) as (s2 & Es2 & StT & _).
  destruct (c12_union mem _ _ S T VS VT StS StT (addr_apart kept f _ _ S T O4 ES ET)) as (e' & HE' & HC).
  assert (e' = e) as -> by (eapply enumerates_unique; eauto).
  destruct SZ as (Z1 & Z2 & Z3 & Z4 & Z5 & Z6 & Z7 & Z8).
  destruct (HC dbg (sc_block (q_sc st)) (sc_union (q_sc st)) (q_out st) 0)
    as (s' & t' & x' & y' & o' & Hs' & Ht' & EC & Hx & Hy & W); try lia.
  rewrite Esi in Hs'. injection Hs' as <-. rewrite Esj in Ht'. injection Ht' as <-. rewrite EC.
  cbn [bind]. rewrite Z.eqb_refl, andb_true_r, length_of_zlen, check_loop_ok by (eapply wrote_list_at; eauto).
  cbn [bind]. eexists. split; [reflexivity|].
  cbn [q_good q_sc q_out q_i q_j q_expected]. split; [reflexivity|].
  split. { unfold sized. cbn [sc_inter sc_block sc_union sc_and sc_or sc_headers sc_ibitmap sc_ubitmap]. repeat split; auto. }
  rewrite (wrote_zlen _ _ _ _ _ W), (wrote_zlen _ _ _ _ _ WE). repeat split; lia.
Qed.

Definition fits_or (u : Z) (kept : list (list Z)) (q : Z * Z) : Prop :=
  exists S T e, znth kept (fst q) = Some S /\ znth kept (snd q) = Some T
    /\ enumerates (fun v => In v S \/ In v T) e /\ zlen e + 23 <= u.

Lemma test_union_ok tbl dbg mem f u kept ix queries :
  0 <= u -> opened 31 mem f u kept ix -> Forall (fits_or u kept) queries ->
  test_union tbl dbg mem f queries = Ok (zlen queries, true).
Proof.
  intros Hu O HQ. unfold test_union. rewrite (proj1 O). cbn [bind].
  assert (EU : ix_universe ix = u) by apply O. rewrite EU.
  destruct (run_queries_ok (union_query tbl dbg mem ix)
    (fun st => q_good st = true /\ sized (q_sc st) /\ zlen (q_out st) = u /\ zlen (q_i st) = u
               /\ zlen (q_j st) = u /\ zlen (q_expected st) = u) queries (qstate0 u)) as (st & -> & Hg & _).
  - intros q st Hq (H1 & H2 & H3 & H4 & H5 & H6). rewrite Forall_forall in HQ.
    destruct (HQ q Hq) as (S & T & e & ES & ET & HE & BE).
    destruct (union_query_ok tbl dbg mem f u kept ix q S T e st) as (st' & E & R1 & R2); auto.
    exists st'. split; auto. split; [congruence|]. exact R2.
  - unfold qstate0. cbn [q_good q_sc q_out q_i q_j q_expected]. rewrite zlen_repeat, Z2Nat.id by lia.
    split; [reflexivity|]. split; [apply sized_scratch0|]. auto.
  - cbn [bind]. now rewrite Hg.
Qed.

(** ** many *)
Lemma collect_loop_ok dbg mem p : forall L fuel e acc, en_at mem p e L -> (length L <= fuel)%nat ->
  collect_loop fuel dbg mem e acc = Ok (acc ++ L).
Proof.
  induction L as [|x L IH]; intros fuel e acc I Hf.
  - rewrite app_nil_r. destruct fuel; cbn [collect_loop]; rewrite (proj1 I); auto.
  - cbn [en_at] in I. assert (HN : en_has_next e = true).
    { destruct I as (? & ? & ? & _ & _ & _ & _ & _ & _ & _ & Hh & _). exact Hh. }
    cbn [length] in Hf. destruct fuel as [|fuel]; [lia|]. cbn [collect_loop]. rewrite HN.
    rewrite (enum_value_inv mem p e x L I). cbn [bind].
    destruct (enum_next_inv dbg mem p e x L I) as (e1 & -> & I1). cbn [bind].
    rewrite (IH fuel e1 (acc ++ [x])); auto; try lia. now rewrite <- app_assoc.
Qed.

Lemma is_sorted_ok l : sorted l -> is_sorted l = true.
Proof.
  induction l as [|x l IH]; intro H; auto. apply sorted_inv in H as [H F].
  destruct l as [|y l]; auto. cbn [is_sorted]. inversion F; subst.
  destruct (Z.leb_spec x y); [|lia]. cbn [andb]. now apply IH.
Qed.

Lemma collect_ok dbg mem f u kept ix k S :
  opened 31 mem f u kept ix -> znth kept k = Some S -> collect dbg mem ix k = Ok S.
Proof.
  intros O E. pose proof (opened_valid _ _ _ _ _ _ _ _ O E) as V. unfold collect.
  destruct (proj2 (proj2 (proj2 (proj2 O))) k S E) as (s & Es & St & EG). rewrite EG. cbn [bind].
  destruct (enum_init_inv dbg mem _ S (u32 (ix_universe ix)) enum_new_buf s V St Es) as (e & -> & I).
  { unfold enum_new_buf. rewrite zlen_repeat. unfold chunk_size. lia. }
  cbn [bind]. rewrite (opened_card mem f u kept ix 31 k S s O ltac:(lia) E Es). cbn [bind].
  rewrite (collect_loop_ok dbg mem (u32 (ix_universe ix)) S).
  - cbn [bind app]. rewrite assert_ok by (now rewrite Z.eqb_refl). cbn [bind].
    rewrite assert_ok by (apply is_sorted_ok, V). reflexivity.
  - destruct S; [exfalso; now apply (proj1 V)|exact I].
  - rewrite length_of_zlen. lia.
Qed.

(** [q] names the sequences [Ss] of the index *)
Definition names (kept : list (list Z)) (q : list Z) (Ss : list (list Z)) : Prop :=
  Forall2 (fun k S => znth kept k = Some S) q Ss.

Lemma collects_ok dbg mem f u kept ix : forall q Ss,
  opened 31 mem f u kept ix -> names kept q Ss -> res_map (collect dbg mem ix) q = Ok Ss.
Proof.
  induction q as [|k q IH]; intros Ss O N; inversion N as [|? S ? Ss' H1 H2]; subst; cbn [res_map]; auto.
  rewrite (collect_ok dbg mem f u kept ix k S O H1). cbn [bind]. rewrite (IH Ss' O H2). reflexivity.
Qed.

Lemma gets_ok dbg mem f u kept ix : forall q Ss,
  opened 31 mem f u kept ix -> names kept q Ss ->
  exists seqs, res_map (index_get dbg mem ix) q = Ok seqs
    /\ Forall2 (fun a s => seq_at mem a = Ok s) (map (addr kept f) q) seqs
    /\ Forall2 (stored 0 mem) (map (addr kept f) q) Ss
    /\ (forall s, In s seqs -> exists c, cardinality mem s = Ok c)
    /\ Forall valid Ss.
Proof.
  induction q as [|k q IH]; intros Ss O N; inversion N as [|? S ? Ss' H1 H2]; subst; cbn [res_map map].
  - exists []. repeat split; auto. intros s [].
  - destruct (IH Ss' O H2) as (seqs & -> & F1 & F2 & F3 & F4).
    destruct (proj2 (proj2 (proj2 (proj2 O))) k S H1) as (s & Es & St & EG). rewrite EG. cbn [bind].
    exists (s :: seqs). split; auto. split; [constructor; auto|].
    split; [constructor; auto; eapply stored_weaken; eauto; lia|]. split.
    + intros s' [<-|Hs]; auto. eexists. eapply (opened_card mem f u kept ix 31); eauto; lia.
    + constructor; auto. eapply opened_valid; eauto.
Qed.

Lemma seqs_unique mem (f : list Z) : forall s1 s2,
  Forall2 (fun a s => seq_at mem a = Ok s) f s1 -> Forall2 (fun a s => seq_at mem a = Ok s) f s2 -> s1 = s2.
Proof.
  induction f as [|a f IH]; intros s1 s2 H1 H2; inversion H1; subst; inversion H2; subst; auto.
  f_equal; [congruence|auto].
Qed.

Definition big (q : list Z) : bool := 2 <=? zlen q.

(** [q] names sequences whose intersection fits *)
Definition fits_and_all (u : Z) (kept : list (list Z)) (q : list Z) : Prop :=
  big q = true -> exists Ss e, names kept q Ss
    /\ enumerates (fun v => forall S, In S Ss -> In v S) e /\ zlen e <= u.
Definition fits_or_all (u : Z) (kept : list (list Z)) (q : list Z) : Prop :=
  big q = true -> exists Ss e, names kept q Ss
    /\ enumerates (fun v => exists S, In S Ss /\ In v S) e /\ zlen e <= u.

Definition many_inv (u num : Z) (st : Z * bool * scratch * list Z) : Prop :=
  let '(n, g, sc, out) := st in n = num /\ g = true /\ sized sc /\ zlen out = u.

Lemma intersect_many_query_ok tbl sort dbg mem f u kept ix q num st :
  opened 31 mem f u kept ix -> sorts mem sort -> fits_and_all u kept q -> many_inv u num st ->
  exists st', intersect_many_query tbl sort dbg mem ix q st = Ok st'
    /\ many_inv u (num + (if big q then 1 else 0)) st'.
Proof.
  intros O HS HQ. destruct st as [[[n g] sc] out]. intros (-> & -> & SZ & LO). unfold intersect_many_query.
  unfold fits_and_all in HQ. destruct (big q) eqn:EB; unfold big in EB.
  2: { destruct (Z.ltb_spec (zlen q) 2); [|apply Z.leb_gt in EB; lia]. eexists. split; [reflexivity|].
       cbn. rewrite Z.add_0_r. auto. }
  destruct (Z.ltb_spec (zlen q) 2); [apply Z.leb_le in EB; lia|].
  destruct (HQ eq_refl) as (Ss & e & HN & HE & Le).
  rewrite (collects_ok dbg mem f u kept ix q Ss O HN). cbn [bind].
  destruct (gets_ok dbg mem f u kept ix q Ss O HN) as (seqs & EG & F1 & F2 & F3 & F4).
  assert (ES : exists S T R, Ss = S :: T :: R).
  { inversion HN as [|? S ? Ss1 H1 H2]; subst; [rewrite zlen_nil in *; lia|].
    inversion H2 as [|? T ? R H3 H4]; subst; [rewrite zlen_cons, zlen_nil in *; lia|]. eauto. }
  destruct ES as (S & T & R & ->). cbn [and_all bind].
  inversion F4 as [|? ? V1 F5]; subst. inversion F5 as [|? ? V2 F6]; subst.
  assert (FS : Forall sorted R) by (eapply Forall_impl; [|exact F6]; intros ? (? & ? & ?); auto).
  assert (EE : fold_left merge_and R (merge_and S T) = e).
  { eapply enumerates_unique; [|exact HE].
    pose proof (and_fold_enum R _ _ (merge_and_enum S T (proj1 (proj2 V1)) (proj1 (proj2 V2))) FS) as [S1 I1].
    split; auto. intro v. rewrite I1. cbn [In]. split.
    - intros ((H1 & H2) & H3) X [<-|[<-|HX]]; auto.
    - intro H1. split; [split|]; auto. }
  rewrite EE, EG. cbn [bind run_call].
  destruct (c13_intersection_many mem (map (addr kept f) q) (S :: T :: R)) as (seqs' & e' & F2' & HE' & _ & HC); auto.
  { discriminate. }
  assert (seqs' = seqs) as -> by (eapply seqs_unique; eauto).
  assert (e' = e) as -> by (eapply enumerates_unique; eauto).
  destruct SZ as (Z1 & Z2 & Z3 & Z4 & Z5 & Z6 & Z7 & Z8).
  destruct (HC _ (HS seqs F3) dbg (sc_headers sc) (sc_and sc) (sc_ibitmap sc) out 0)
    as (h' & t' & b' & o' & -> & Hh & Ht & Hb & W); try lia.
  cbn [bind]. rewrite Z.eqb_refl. cbn [andb].
  rewrite length_of_zlen, check_loop_ok; [|intros j Hj; reflexivity|eapply wrote_list_at; eauto].
  cbn [bind]. eexists. split; [reflexivity|]. cbn [many_inv]. split; auto. split; auto.
  split. { unfold sized. cbn [sc_inter sc_block sc_union sc_and sc_or sc_headers sc_ibitmap sc_ubitmap]. repeat split; auto. }
  now rewrite (wrote_zlen _ _ _ _ _ W).
Qed.

Lemma union_many_query_ok tbl dbg mem f u kept ix q num st :
  opened 31 mem f u kept ix -> fits_or_all u kept q -> many_inv u num st ->
  exists st', union_many_query tbl dbg mem ix q st = Ok st'
    /\ many_inv u (num + (if big q then 1 else 0)) st'.
Proof.
  intros O HQ. destruct st as [[[n g] sc] out]. intros (-> & -> & SZ & LO). unfold union_many_query.
  unfold fits_or_all in HQ. destruct (big q) eqn:EB; unfold big in EB.
  2: { destruct (Z.ltb_spec (zlen q) 2); [|apply Z.leb_gt in EB; lia]. eexists. split; [reflexivity|].
       cbn. rewrite Z.add_0_r. auto. }
  destruct (Z.ltb_spec (zlen q) 2); [apply Z.leb_le in EB; lia|].
  destruct (HQ eq_refl) as (Ss & e & HN & HE & Le).
  rewrite (collects_ok dbg mem f u kept ix q Ss O HN). cbn [bind].
  destruct (gets_ok dbg mem f u kept ix q Ss O HN) as (seqs & EG & F1 & F2 & F3 & F4).
  assert (FS : Forall sorted Ss) by (eapply Forall_impl; [|exact F4]; intros ? (? & ? & ?); auto).
  assert (EE : or_all Ss = e).
  { eapply enumerates_unique; [|exact HE]. unfold or_all.
    pose proof (or_fold_enum Ss [] (fun _ => False)) as HF.
    destruct HF as [S1 I1]; auto; [split; [constructor|intro v; cbn; tauto]|].
    split; auto. intro v. rewrite I1. tauto. }
  rewrite EE, EG. cbn [bind run_call].
  destruct (c14_union_many mem (map (addr kept f) q) Ss) as (seqs' & e' & F2' & HE' & HC); auto.
  { intros ->. inversion HN; subst. rewrite zlen_nil in *. lia. }
  assert (seqs' = seqs) as -> by (eapply seqs_unique; eauto).
  assert (e' = e) as -> by (eapply enumerates_unique; eauto).
  destruct SZ as (Z1 & Z2 & Z3 & Z4 & Z5 & Z6 & Z7 & Z8).
  destruct (HC dbg (sc_or sc) (sc_ubitmap sc) out 0) as (t' & b' & o' & -> & Ht & Hb & W); try lia.
  cbn [bind]. rewrite Z.eqb_refl. cbn [andb].
  rewrite length_of_zlen, check_loop_ok; [|intros j Hj; reflexivity|eapply wrote_list_at; eauto].
  cbn [bind]. eexists. split; [reflexivity|]. cbn [many_inv]. split; auto. split; auto.
  split. { unfold sized. cbn [sc_inter sc_block sc_union sc_and sc_or sc_headers sc_ibitmap sc_ubitmap]. repeat split; auto. }
  now rewrite (wrote_zlen _ _ _ _ _ W).
Qed.

Lemma run_many {A} (body : list Z -> A -> res A) (P : Z -> A -> Prop) : forall qs num st,
  (forall q num st, In q qs -> P num st ->
     exists st', body q st = Ok st' /\ P (num + (if big q then 1 else 0)) st') -> P num st ->
  exists st', run_queries body qs st = Ok st' /\ P (num + zlen (filter big qs)) st'.
Proof.
  induction qs as [|q qs IH]; intros num st HB HP; cbn [run_queries filter].
  - exists st. split; auto. rewrite zlen_nil, Z.add_0_r. auto.
  - destruct (HB q num st) as (st1 & -> & P1); [now left|auto|]. cbn [bind].
    destruct (IH (num + (if big q then 1 else 0)) st1) as (st2 & E & P2); [|exact P1|].
    { intros q' n' s' Hq. apply HB. now right. }
    exists st2. split; auto. destruct (big q); rewrite ?zlen_cons.
    + replace (num + (zlen (filter big qs) + 1)) with (num + 1 + zlen (filter big qs)) by lia. auto.
    + now rewrite Z.add_0_r in P2.
Qed.

Lemma test_intersect_many_ok tbl sort dbg mem f u kept ix queries :
  0 <= u -> opened 31 mem f u kept ix -> sorts mem sort -> Forall (fits_and_all u kept) queries ->
  test_intersect_many tbl sort dbg mem f queries = Ok (zlen (filter big queries), true).
Proof.
  intros Hu O HS HQ. unfold test_intersect_many. rewrite (proj1 O). cbn [bind].
  assert (EU : ix_universe ix = u) by apply O. rewrite EU.
  destruct (run_many (intersect_many_query tbl sort dbg mem ix) (many_inv u) queries 0
    (0, true, scratch0, repeat 0 (Z.to_nat u))) as ([[[n g] sc] out] & -> & H1 & H2 & _).
  - intros q num st Hq HI. rewrite Forall_forall in HQ. eapply intersect_many_query_ok; eauto.
  - cbn [many_inv]. split; auto. split; auto. split; [apply sized_scratch0|]. rewrite zlen_repeat. lia.
  - cbn [bind]. rewrite H1, H2. reflexivity.
Qed.

Lemma test_union_many_ok tbl dbg mem f u kept ix queries :
  0 <= u -> opened 31 mem f u kept ix -> Forall (fits_or_all u kept) queries ->
  test_union_many tbl dbg mem f queries = Ok (zlen (filter big queries), true).
Proof.
  intros Hu O HQ. unfold test_union_many. rewrite (proj1 O). cbn [bind].
  assert (EU : ix_universe ix = u) by apply O. rewrite EU.
  destruct (run_many (union_many_query tbl dbg mem ix) (many_inv u) queries 0
    (0, true, scratch0, repeat 0 (Z.to_nat u))) as ([[[n g] sc] out] & -> & H1 & H2 & _).
  - intros q num st Hq HI. rewrite Forall_forall in HQ. eapply union_many_query_ok; eauto.
  - cbn [many_inv]. split; auto. split; auto. split; [apply sized_scratch0|]. rewrite zlen_repeat. lia.
  - cbn [bind]. rewrite H1, H2. reflexivity.
Qed.
