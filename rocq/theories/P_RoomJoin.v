(** The output room of the union in terms of the lists of values. *)
From Verif Require Import Base Hw Spec Format Lib L_Bits L_Group Layout M_Util M_Seq M_Decode M_Uncompress
  M_Union P_Build1 P_Build2 P_Build3 P_Seq P_Decode P_Query P_Uncompress P_Sets P_Inter P_Union P_Format P_Conc
  P_Short P_Stats P_Print Room P_Room RoomSets P_RoomInter P_RoomUnion.
From Coq Require Import Lia.

Definition ufits (k n : Z) (one : Z -> list Z -> Z) (two : Z -> list Z -> list Z -> Z) (t : Z)
    (A B : list (Z * list Z)) : Prop :=
  t + zlen (uni (ungroup k A) (ungroup k B)) <= n
  /\ (forall id va, In (id, va) A -> ~ In id (map fst B) ->
        one (t + below (uni (ungroup k A) (ungroup k B)) (id * k)) va <= n)
  /\ (forall id vb, In (id, vb) B -> ~ In id (map fst A) ->
        one (t + below (uni (ungroup k A) (ungroup k B)) (id * k)) vb <= n)
  /\ (forall id va vb, In (id, va) A -> In (id, vb) B ->
        two (t + below (uni (ungroup k A) (ungroup k B)) (id * k)) va vb <= n).

Section Fits.
Variables (k lim n : Z) (one : Z -> list Z -> Z).
Hypothesis Hk : 0 < k.

Lemma ufits_comm two t A B : wf k lim A -> wf k lim B ->
  ufits k n one two t A B <-> ufits k n one (fun s a b => two s b a) t B A.
Proof.
  intros WA WB. unfold ufits.
  rewrite (uni_comm (ungroup k A)) by (eapply sorted_ungroup; eauto).
  split; intros (H1 & H2 & H3 & H4); (split; [auto|split; [auto|split; [auto|]]]); intros; eauto.
Qed.

Lemma front i va (U' : list Z) :
  Forall (fun x => 0 <= x < k) va -> Forall (fun v => (i + 1) * k <= v) U' ->
  zlen (ungroup1 k (i, va) ++ U') = zlen va + zlen U'
  /\ below (ungroup1 k (i, va) ++ U') (i * k) = 0
  /\ forall id, i < id -> below (ungroup1 k (i, va) ++ U') (id * k) = zlen va + below U' (id * k).
Proof.
  intros R FI.
  assert (FH : Forall (fun v => i * k <= v < (i + 1) * k) (ungroup1 k (i, va))).
  { apply Forall_map. cbn [fst snd]. eapply Forall_impl; [|exact R]. cbn beta. intros; lia. }
  rewrite zlen_app, zlen_ungroup1. cbn [snd]. split; [auto|]. split.
  - apply below_none, Forall_app. split; (eapply Forall_impl; [|eassumption]); cbn beta; intros; nia.
  - intros id Hid. rewrite below_app, below_all, zlen_ungroup1; auto. eapply Forall_impl; [|exact FH]. cbn beta. intros; nia.
Qed.

Lemma not_in_above i (A : list (Z * list Z)) : Forall (fun b => i < fst b) A -> ~ In i (map fst A).
Proof.
  intros F I. apply in_map_iff in I as (b & E & I). rewrite Forall_forall in F. specialize (F b I). lia.
Qed.

Lemma ufits_one two t i va A B :
  wf k lim ((i, va) :: A) -> wf k lim B -> Forall (fun b => i < fst b) B ->
  ufits k n one two t ((i, va) :: A) B <-> one t va <= n /\ ufits k n one two (t + zlen va) A B.
Proof.
  intros WA WB FB. pose proof (proj1 (wf_cons _ _ _ _) WA) as (W1 & WA' & FA). cbn [fst] in FA.
  assert (EU : uni (ungroup k ((i, va) :: A)) (ungroup k B) = ungroup1 k (i, va) ++ uni (ungroup k A) (ungroup k B)).
  { destruct B as [|[j vb] B].
    - change (ungroup k []) with (@nil Z). now rewrite !uni_nil_r, ungroup_cons.
    - pose proof (Forall_inv FB) as Q. cbn [fst] in Q. now apply (uni_groups_lt k lim). }
  unfold ufits. rewrite EU. set (U' := uni (ungroup k A) (ungroup k B)).
  destruct (front i va U') as (EL & B0 & BI).
  { apply W1. } { apply Forall_uni; apply (ungroup_above k lim); auto. }
  rewrite EL. pose proof (not_in_above i A FA) as NA. pose proof (not_in_above i B FB) as NB.
  rewrite Forall_forall in FA, FB. cbn [map fst]. split.
  - intros (H1 & H2 & H3 & H4). split.
    { specialize (H2 i va (or_introl eq_refl) NB). now rewrite B0, Z.add_0_r in H2. }
    split; [lia|]. split; [|split].
    + intros id v I N. pose proof (FA _ I) as Hid. cbn [fst] in Hid. specialize (H2 id v (or_intror I) N).
      rewrite BI in H2 by auto. now rewrite Z.add_assoc in H2.
    + intros id v I N. pose proof (FB _ I) as Hid. cbn [fst] in Hid.
      assert (N' : ~ (i = id \/ In id (map fst A))) by (intros [E|E]; [lia|auto]).
      specialize (H3 id v I N'). rewrite BI in H3 by auto. now rewrite Z.add_assoc in H3.
    + intros id v w I J. pose proof (FB _ J) as Hid. cbn [fst] in Hid. specialize (H4 id v w (or_intror I) J).
      rewrite BI in H4 by auto. now rewrite Z.add_assoc in H4.
  - intros (H0 & H1 & H2 & H3 & H4). split; [lia|]. split; [|split].
    + intros id v [E|I] N.
      * injection E as <- <-. now rewrite B0, Z.add_0_r.
      * pose proof (FA _ I) as Hid. cbn [fst] in Hid. rewrite BI, Z.add_assoc by auto. now apply H2.
    + intros id v I N. pose proof (FB _ I) as Hid. cbn [fst] in Hid. rewrite BI, Z.add_assoc by auto. apply H3; auto. intro Q; apply N; now right.
    + intros id v w [E|I] J; pose proof (FB _ J) as Hid; cbn [fst] in Hid.
      * injection E as <- <-. lia.
      * rewrite BI, Z.add_assoc by auto. now apply H4.
Qed.

Lemma ufits_two two t i va A vb B :
  wf k lim ((i, va) :: A) -> wf k lim ((i, vb) :: B) ->
  ufits k n one two t ((i, va) :: A) ((i, vb) :: B)
  <-> two t va vb <= n /\ ufits k n one two (t + zlen (uni va vb)) A B.
Proof.
  intros WA WB. pose proof (proj1 (wf_cons _ _ _ _) WA) as (W1 & WA' & FA).
  pose proof (proj1 (wf_cons _ _ _ _) WB) as (W2 & WB' & FB). cbn [fst] in FA, FB.
  unfold ufits. rewrite (uni_groups_eq k lim Hk i i va vb A B) by auto. set (U' := uni (ungroup k A) (ungroup k B)).
  destruct (front i (uni va vb) U') as (EL & B0 & BI).
  { apply Forall_uni; [apply W1|apply W2]. } { apply Forall_uni; apply (ungroup_above k lim); auto. }
  rewrite EL. pose proof (not_in_above i A FA) as NA. pose proof (not_in_above i B FB) as NB.
  rewrite Forall_forall in FA, FB. cbn [map fst]. split.
  - intros (H1 & H2 & H3 & H4). split.
    { specialize (H4 i va vb (or_introl eq_refl) (or_introl eq_refl)). now rewrite B0, Z.add_0_r in H4. }
    split; [lia|]. split; [|split].
    + intros id v I N. pose proof (FA _ I) as Hid. cbn [fst] in Hid.
      assert (N' : ~ (i = id \/ In id (map fst B))) by (intros [E|E]; [lia|auto]).
      specialize (H2 id v (or_intror I) N'). rewrite BI in H2 by auto. now rewrite Z.add_assoc in H2.
    + intros id v I N. pose proof (FB _ I) as Hid. cbn [fst] in Hid.
      assert (N' : ~ (i = id \/ In id (map fst A))) by (intros [E|E]; [lia|auto]).
      specialize (H3 id v (or_intror I) N'). rewrite BI in H3 by auto. now rewrite Z.add_assoc in H3.
    + intros id v w I J. pose proof (FB _ J) as Hid. cbn [fst] in Hid. specialize (H4 id v w (or_intror I) (or_intror J)).
      rewrite BI in H4 by auto. now rewrite Z.add_assoc in H4.
  - intros (H0 & H1 & H2 & H3 & H4). split; [lia|]. split; [|split].
    + intros id v [E|I] N; [injection E as <- <-; exfalso; apply N; now left|].
      pose proof (FA _ I) as Hid. cbn [fst] in Hid. rewrite BI, Z.add_assoc by auto. apply H2; auto. intro Q; apply N; now right.
    + intros id v [E|I] N; [injection E as <- <-; exfalso; apply N; now left|].
      pose proof (FB _ I) as Hid. cbn [fst] in Hid. rewrite BI, Z.add_assoc by auto. apply H3; auto. intro Q; apply N; now right.
    + intros id v w [E|I] [E'|J].
      * injection E as <- <-. injection E' as <-. now rewrite B0, Z.add_0_r.
      * injection E as <- <-. specialize (FB _ J). cbn [fst] in FB. lia.
      * injection E' as <- <-. specialize (FA _ I). cbn [fst] in FA. lia.
      * pose proof (FA _ I) as Hid. cbn [fst] in Hid. rewrite BI, Z.add_assoc by auto. now apply H4.
Qed.

Lemma ufits_nil two t : ufits k n one two t [] [] <-> t <= n.
Proof.
  unfold ufits. change (ungroup k []) with (@nil Z). rewrite uni_nil_l, zlen_nil, Z.add_0_r.
  split; [tauto|]. intro H. split; auto. split; [|split]; intros id v; intros; contradiction.
Qed.
Lemma ufits_run two : forall A t, wf k lim A -> (run one t A <= n <-> ufits k n one two t A []).
Proof.
  induction A as [|[i va] A IH]; intros t W; cbn [run].
  - now rewrite ufits_nil.
  - rewrite ufits_one, <- IH by (auto using wf_nil; apply wf_cons in W; tauto). lia.
Qed.

Lemma mneed_fits two : forall m A B t, (length A + length B <= m)%nat -> wf k lim A -> wf k lim B ->
  (mneed one two A t B <= n <-> ufits k n one two t A B).
Proof.
  induction m as [|m IH]; intros A B t Hm WA WB.
  { destruct A; [|cbn [length] in Hm; lia]. destruct B; [|cbn [length] in Hm; lia].
    cbn [mneed run]. now rewrite ufits_nil. }
  destruct A as [|[i va] A].
  { cbn [mneed]. rewrite ufits_comm by auto. now apply ufits_run. }
  destruct B as [|[j vb] B].
  { rewrite mneed_nil_r. now apply ufits_run. }
  rewrite mneed_cons. cbn [length] in Hm.
  pose proof (proj1 (wf_cons _ _ _ _) WA) as (W1 & WA' & FA).
  pose proof (proj1 (wf_cons _ _ _ _) WB) as (W2 & WB' & FB). cbn [fst] in FA, FB.
  destruct (Z.ltb_spec i j); [|destruct (Z.ltb_spec j i)].
  - rewrite ufits_one, <- IH; auto; [lia|cbn [length]; lia|]. constructor; auto.
    eapply Forall_impl; [|exact FB]. cbn beta. intros; lia.
  - assert (F : Forall (fun b => j < fst b) ((i, va) :: A)).
    { constructor; auto. eapply Forall_impl; [|exact FA]. cbn beta. intros; lia. }
    rewrite ufits_comm by auto. rewrite ufits_one by auto. rewrite (ufits_comm _ _ B) by auto.
    rewrite <- IH; auto; [|cbn [length]; lia]. change (fun s a b => two s a b) with two. lia.
  - assert (j = i) by lia. subst j. rewrite ufits_two, <- IH by (auto; lia). lia.
Qed.
End Fits.

Lemma sorted_part k S h : 0 < k -> sorted S -> sorted (part k S h).
Proof.
  intros Hk. induction S as [|v S IH]; intro H; [exact H|]. apply sorted_inv in H as [HS HF]. rewrite part_cons.
  destruct (Z.eqb_spec (v / k) h); auto. constructor; auto. rewrite Forall_forall in *. intros x Hx.
  apply In_part in Hx as [Hx I]; auto. specialize (HF _ I). pose proof (Z.div_mod v k ltac:(lia)). nia.
Qed.
Lemma part_uni k S T h : 0 < k -> sorted S -> sorted T -> part k (uni S T) h = uni (part k S h) (part k T h).
Proof.
  intros Hk HS HT. apply uni_unique; auto using sorted_part, sorted_uni.
  intro x. rewrite !In_part, In_uni by auto. tauto.
Qed.
Lemma filter_uni f S T : sorted S -> sorted T -> filter f (uni S T) = uni (filter f S) (filter f T).
Proof.
  intros HS HT. apply uni_unique; auto using sorted_filter, sorted_uni.
  intro x. rewrite !filter_In, In_uni. tauto.
Qed.
Lemma filter_isect f S T : filter f (isect S T) = isect (filter f S) (filter f T).
Proof.
  unfold isect. induction S as [|v S IH]; auto. cbn [filter]. destruct (f v) eqn:F.
  - cbn [filter]. assert (E : memb (filter f T) v = memb T v).
    { apply memb_iff. rewrite filter_In. tauto. }
    rewrite E. destruct (memb T v); cbn [filter]; [rewrite F; now f_equal|exact IH].
  - destruct (memb T v); cbn [filter]; [rewrite F|]; exact IH.
Qed.
Lemma join_below_uni S T x : sorted S -> sorted T -> join_below S T x = below (uni S T) x.
Proof.
  intros HS HT. unfold join_below, below. change meet with isect. rewrite filter_isect, filter_uni by auto.
  rewrite <- join_size_uni by auto using sorted_filter. reflexivity.
Qed.

Lemma chunk_card_pos S h c : valid S -> In (h, c) (chunks_of S) -> 0 < card 65536 S h.
Proof. intros V I. destruct (part_of S h c V I) as [E W]. rewrite <- card_part, <- E. pose proof (chunk_card _ _ W). lia. Qed.
Lemma no_chunk S h : valid S -> ~ In h (map fst (chunks_of S)) <-> card 65536 S h = 0.
Proof.
  intro V. pose proof (card_nonneg 65536 S h). split; intro H'.
  - destruct (Z.eq_dec (card 65536 S h) 0) as [|Q]; auto. exfalso. apply H'.
    destruct (find_chunk S h V ltac:(lia)) as (c & I). apply in_map_iff. exists (h, c). auto.
  - intro I. apply in_map_iff in I as ([h' c] & E & I). cbn [fst] in E. subst h'. pose proof (chunk_card_pos S h c V I). lia.
Qed.
Lemma as_blocks_kind S h c : valid S -> In (h, c) (chunks_of S) -> as_blocks S h = true -> kind_of c = KSparse.
Proof.
  intros V I A. pose proof (kind_rep S h c V I) as K. pose proof (full_card S h c V I) as F.
  destruct (kind_of c); auto; exfalso; unfold as_bitmap in *; rewrite ?A in *.
  - rewrite Bool.andb_false_r in K. discriminate.
  - unfold as_blocks in A. rewrite (proj1 F eq_refl) in A. discriminate.
Qed.
Lemma no_block S h c b : valid S -> In (h, c) (chunks_of S) -> kind_of c = KSparse -> 0 <= b < 256 ->
  ~ In b (map fst (blocks_of c)) <-> card 256 S (256 * h + b) = 0.
Proof.
  intros V I K Hb. pose proof (kind_rep S h c V I) as A. rewrite K in A. pose proof (card_nonneg 256 S (256 * h + b)).
  assert (EQ : (256 * h + b) / 256 = h) by (rewrite Z.mul_comm, Z.div_add_l, Z.div_small by lia; lia).
  assert (EM : (256 * h + b) mod 256 = b) by (rewrite Z.add_comm, Z.mul_comm, Z.mod_add, Z.mod_small by lia; lia).
  split; intro H'.
  - destruct (Z.eq_dec (card 256 S (256 * h + b)) 0) as [|Q]; auto. exfalso. apply H'.
    destruct (find_block' S (256 * h + b) V) as (c' & I' & _ & J); [now rewrite EQ|lia|]. rewrite EQ in I'. rewrite EM in J.
    assert (c' = c) by (rewrite (proj1 (part_of S h c V I)); apply (part_of S h c' V I')). subst c'.
    apply in_map_iff. eexists. split; [|exact J]. reflexivity.
  - intro J. apply in_map_iff in J as ([b' vs] & E & J). cbn [fst] in E. subst b'.
    destruct (block_of S h c b vs V I J) as (E & _ & L & _). rewrite E, card_part in L. lia.
Qed.
Lemma zlen_blocks_in S h c : valid S -> In (h, c) (chunks_of S) -> zlen (blocks_of c) = blocks_in S h.
Proof.
  intros V I. destruct (part_of S h c V I) as [E W]. rewrite (blocks_format h c W), zlen_map, E. apply blocks_in_ids.
Qed.

Definition pick (ca cb : bool) (s : Z) (u v : list Z) : Z := if ca then two_b cb s u v else two_b cb s v u.
Lemma two_c_fits n same t ia ib a b : wfc1 (ia, a) -> wfc1 (ib, b) -> kind_of a = KSparse -> kind_of b = KSparse ->
  two_c same t a b <= n
  <-> ufits 256 n one_b (pick (zlen (blocks_of a) <? zlen (blocks_of b)) same) t (blocks_of a) (blocks_of b).
Proof.
  intros Wa Wb Ka Kb. unfold two_c. rewrite Ka, Kb.
  pose proof (Layout.blocks_wf ia a Wa) as WA. pose proof (Layout.blocks_wf ib b Wb) as WB. unfold pick.
  destruct (zlen (blocks_of a) <? zlen (blocks_of b)).
  - now rewrite (mneed_fits 256 256 n one_b ltac:(lia) _ _ _ _ _ (Nat.le_refl _) WA WB).
  - rewrite (mneed_fits 256 256 n one_b ltac:(lia) _ _ _ _ _ (Nat.le_refl _) WB WA).
    now rewrite (ufits_comm 256 256 n one_b ltac:(lia)).
Qed.

(** the room needed is that of [join_fits] *)
Lemma chunk_need_at n S h c t : valid S -> In (h, c) (chunks_of S) ->
  chunk_need t c <= n <->
  t + zlen c <= n
  /\ (as_blocks S h = true -> forall b, 0 <= b < 256 -> 0 < card 256 S (256 * h + b) ->
        t + below c (b * 256) + decode_words (card 256 S (256 * h + b)) <= n).
Proof.
  intros V I. destruct (part_of S h c V I) as [E W]. unfold chunk_need. destruct (kind_of c) eqn:K.
  - pose proof (kind_rep S h c V I) as A. rewrite K in A.
    rewrite (blocks_need_below n 256) by (eapply Layout.blocks_wf; eauto). rewrite blocks_ungroup.
    apply and_iff_compat_l. split.
    + intros H _ b Hb C.
      assert (J : In b (map fst (blocks_of c))).
      { destruct (in_dec Z.eq_dec b (map fst (blocks_of c))) as [|N]; auto. apply (no_block S h c b V I K Hb) in N. lia. }
      apply in_map_iff in J as ([b' vs] & E' & J). cbn [fst] in E'. subst b'.
      destruct (block_of S h c b vs V I J) as (Ev & _). specialize (H b vs J). rewrite Ev, card_part in H.
      rewrite decode_words_bneed. exact H.
    + intros H b vs J. destruct (block_of S h c b vs V I J) as (Ev & Hb & L & _). rewrite Ev, card_part in *.
      rewrite <- decode_words_bneed. apply H; auto; lia.
  - split; [|tauto]. intro H. split; auto. intro A. pose proof (as_blocks_kind S h c V I A). congruence.
  - split; [|tauto]. intro H. split; auto. intro A. pose proof (as_blocks_kind S h c V I A). congruence.
Qed.

Lemma block_in S h c b : valid S -> In (h, c) (chunks_of S) -> kind_of c = KSparse -> 0 <= b < 256 ->
  0 < card 256 S (256 * h + b) -> In (b, part 256 S (256 * h + b)) (blocks_of c).
Proof.
  intros V I K Hb C.
  assert (J : In b (map fst (blocks_of c))).
  { destruct (in_dec Z.eq_dec b (map fst (blocks_of c))) as [|N]; auto. apply (no_block S h c b V I K Hb) in N. lia. }
  apply in_map_iff in J as ([b' vs] & E' & J). cbn [fst] in E'. subst b'.
  destruct (block_of S h c b vs V I J) as (Ev & _). now rewrite <- Ev.
Qed.

Lemma two_c_at n S T h a b t : valid S -> valid T -> In (h, a) (chunks_of S) -> In (h, b) (chunks_of T) ->
  two_c false t a b <= n <->
  t + zlen (uni a b) <= n
  /\ (as_blocks S h = true -> as_blocks T h = true -> forall x, 0 <= x < 256 ->
        let p := t + below (uni a b) (x * 256) in let y := 256 * h + x in
        (0 < card 256 S y -> card 256 T y = 0 -> p + decode_words (card 256 S y) <= n)
        /\ (0 < card 256 T y -> card 256 S y = 0 -> p + decode_words (card 256 T y) <= n)
        /\ (0 < card 256 S y -> 0 < card 256 T y ->
              p + (if blocks_in S h <? blocks_in T h then join_words (part 256 S y) (part 256 T y)
                   else join_words (part 256 T y) (part 256 S y)) <= n)).
Proof.
  intros VS VT IS IT. destruct (part_of S h a VS IS) as [Ea Wa]. destruct (part_of T h b VT IT) as [Eb Wb].
  assert (ND : kind_of a <> KSparse \/ kind_of b <> KSparse \/ (kind_of a = KSparse /\ kind_of b = KSparse)).
  { destruct (kind_of a), (kind_of b); auto; try (left; discriminate); right; left; discriminate. }
  assert (NS : kind_of a <> KSparse \/ kind_of b <> KSparse -> two_c false t a b = t + zlen (uni a b)).
  { intro N. unfold two_c. destruct (kind_of a), (kind_of b); auto. destruct N; congruence. }
  destruct ND as [N|[N|[Ka Kb]]].
  - rewrite NS by auto. split; [|tauto]. intro H. split; auto. intros A. now rewrite (as_blocks_kind S h a VS IS A) in N.
  - rewrite NS by auto. split; [|tauto]. intro H. split; auto. intros _ A. now rewrite (as_blocks_kind T h b VT IT A) in N.
  - clear NS. rewrite (two_c_fits n false t h h a b Wa Wb Ka Kb). unfold ufits. rewrite !blocks_ungroup.
    pose proof (kind_rep S h a VS IS) as AS. rewrite Ka in AS. pose proof (kind_rep T h b VT IT) as AT. rewrite Kb in AT.
    rewrite (zlen_blocks_in S h a VS IS), (zlen_blocks_in T h b VT IT). unfold pick, one_b, two_b, jneed.
    apply and_iff_compat_l. split.
    + intros (H2 & H3 & H4) _ _ x Hx. cbn zeta. split; [|split].
      * intros CS CT. apply (no_block T h b x VT IT Kb Hx) in CT.
        specialize (H2 x _ (block_in S h a x VS IS Ka Hx CS) CT). rewrite card_part in H2. exact H2.
      * intros CT CS. apply (no_block S h a x VS IS Ka Hx) in CS.
        specialize (H3 x _ (block_in T h b x VT IT Kb Hx CT) CS). rewrite card_part in H3. exact H3.
      * intros CS CT. specialize (H4 x _ _ (block_in S h a x VS IS Ka Hx CS) (block_in T h b x VT IT Kb Hx CT)).
        cbv beta in H4. destruct (blocks_in S h <? blocks_in T h); lia.
    + intro H. specialize (H AS AT). cbn zeta in H. split; [|split].
      * intros x va J N. destruct (block_of S h a x va VS IS J) as (Ev & Hx & L & _).
        apply (no_block T h b x VT IT Kb Hx) in N. destruct (H x Hx) as (H1 & _). rewrite Ev, card_part in *.
        apply H1; auto; lia.
      * intros x vb J N. destruct (block_of T h b x vb VT IT J) as (Ev & Hx & L & _).
        apply (no_block S h a x VS IS Ka Hx) in N. destruct (H x Hx) as (_ & H1 & _). rewrite Ev, card_part in *.
        apply H1; auto; lia.
      * intros x va vb J1 J2. destruct (block_of S h a x va VS IS J1) as (Ev1 & Hx & L1 & _).
        destruct (block_of T h b x vb VT IT J2) as (Ev2 & _ & L2 & _).
        destruct (H x Hx) as (_ & _ & H1). rewrite Ev1, card_part in L1. rewrite Ev2, card_part in L2.
        specialize (H1 ltac:(lia) ltac:(lia)). rewrite <- Ev1, <- Ev2 in H1. cbv beta.
        destruct (blocks_in S h <? blocks_in T h); lia.
Qed.

Lemma join_fits_iff S T n t : valid S -> valid T ->
  (join_fits S T (n - t) <-> mneed chunk_need (two_c false) (chunks_of S) t (chunks_of T) <= n).
Proof.
  intros VS VT. destruct (valid_chunks S VS) as (WS & _ & US & _). destruct (valid_chunks T VT) as (WT & _ & UT & _).
  assert (SS : sorted S) by apply VS. assert (ST : sorted T) by apply VT.
  rewrite (mneed_fits 65536 65535 n chunk_need ltac:(lia) _ _ _ _ _ (Nat.le_refl _) WS WT).
  unfold join_fits, ufits. rewrite US, UT, join_size_uni by auto. set (U := uni S T).
  assert (JB : forall x, join_below S T x = below U x) by (intro; apply join_below_uni; auto).
  assert (BI : forall h x, 0 <= x < 256 ->
    below U (256 * (256 * h + x)) = below U (h * 65536) + below (uni (part 65536 S h) (part 65536 T h)) (x * 256)).
  { intros h x Hx. replace (256 * (256 * h + x)) with (65536 * h + x * 256) by lia.
    unfold U. rewrite below_part, part_uni by (auto; lia). now rewrite (Z.mul_comm h). }
  assert (LI : forall h, below U (h * 65536) + zlen (uni (part 65536 S h) (part 65536 T h)) <= zlen U).
  { intro h. rewrite <- part_uni by (auto; lia). fold U. rewrite <- below_part_all, Z.mul_comm, <- below_part by lia. apply below_le_zlen. }
  assert (EQ : forall h x, 0 <= x < 256 -> (256 * h + x) / 256 = h).
  { intros h id Hid. rewrite Z.mul_comm, Z.div_add_l, Z.div_small by lia. lia. }
  assert (P0 : forall V h, card 65536 V h = 0 -> part 65536 V h = []).
  { intros V h H. rewrite <- card_part in H. destruct (part 65536 V h); auto. rewrite zlen_cons in H. zpos. pose proof (zlen_nonneg _ l). lia. }
  assert (C0 : forall V h x, 0 <= x < 256 -> card 65536 V h = 0 -> card 256 V (256 * h + x) = 0).
  { intros V h x Hx H. rewrite <- card_sub, (P0 V h H) by auto. reflexivity. }
  split; intros (HL & H).
  - split; [lia|]. split; [|split].
    + intros h a I N. apply (no_chunk T h VT) in N. destruct (part_of S h a VS I) as [Ea _].
      pose proof (LI h) as Lh. rewrite (P0 T h N), uni_nil_r, <- Ea in Lh.
      apply (chunk_need_at n S h a _ VS I). split; [lia|]. intros A x Hx C.
      destruct (H (256 * h + x)) as (H1 & _). rewrite JB, BI, EQ, (P0 T h N), uni_nil_r, <- Ea in H1 by auto.
      specialize (H1 A C (C0 T h x Hx N) (or_introl N)). lia.
    + intros h b I N. apply (no_chunk S h VS) in N. destruct (part_of T h b VT I) as [Eb _].
      pose proof (LI h) as Lh. rewrite (P0 S h N), uni_nil_l, <- Eb in Lh.
      apply (chunk_need_at n T h b _ VT I). split; [lia|]. intros A x Hx C.
      destruct (H (256 * h + x)) as (_ & H1 & _). rewrite JB, BI, EQ, (P0 S h N), uni_nil_l, <- Eb in H1 by auto.
      specialize (H1 A C (C0 S h x Hx N) (or_introl N)). lia.
    + intros h a b Ia Ib. destruct (part_of S h a VS Ia) as [Ea _]. destruct (part_of T h b VT Ib) as [Eb _].
      pose proof (LI h) as Lh. rewrite <- Ea, <- Eb in Lh.
      apply (two_c_at n S T h a b _ VS VT Ia Ib). split; [lia|]. intros AS AT x Hx. cbn zeta.
      destruct (H (256 * h + x)) as (H1 & H2 & H3). rewrite JB, BI, EQ, <- Ea, <- Eb in H1, H2, H3 by auto.
      split; [|split].
      * intros CS CT. specialize (H1 AS CS CT (or_intror AT)). lia.
      * intros CT CS. specialize (H2 AT CT CS (or_intror AS)). lia.
      * intros CS CT. specialize (H3 AS AT CS CT). lia.
  - destruct H as (H2 & H3 & H4). split; [lia|]. intro y. cbn zeta. rewrite JB.
    pose proof (Z.mod_pos_bound y 256 ltac:(lia)) as Hx. set (h := y / 256). set (x := y mod 256) in *.
    assert (Ey : y = 256 * h + x) by (apply Z.div_mod; lia). rewrite Ey, BI by auto. clearbody h x. clear Ey y.
    assert (PosB : forall V, as_blocks V h = true -> 0 < card 65536 V h).
    { intros V A. unfold as_blocks in A. apply andb_prop in A as [A _]. apply andb_prop in A as [A _]. now apply Z.ltb_lt. }
    split; [|split].
    + intros AS CS CT D. destruct (find_chunk S h VS (PosB S AS)) as (a & Ia). destruct (part_of S h a VS Ia) as [Ea _].
      destruct D as [N|AT].
      * apply (no_chunk T h VT) in N. specialize (H2 h a Ia N). apply (no_chunk T h VT) in N.
        apply (chunk_need_at n S h a _ VS Ia) in H2 as [_ H2]. specialize (H2 AS x Hx CS).
        rewrite (P0 T h N), uni_nil_r, <- Ea. lia.
      * destruct (find_chunk T h VT (PosB T AT)) as (b & Ib). destruct (part_of T h b VT Ib) as [Eb _].
        specialize (H4 h a b Ia Ib). apply (two_c_at n S T h a b _ VS VT Ia Ib) in H4 as [_ H4].
        destruct (H4 AS AT x Hx) as (H1 & _). specialize (H1 CS CT). rewrite <- Ea, <- Eb. lia.
    + intros AT CT CS D. destruct (find_chunk T h VT (PosB T AT)) as (b & Ib). destruct (part_of T h b VT Ib) as [Eb _].
      destruct D as [N|AS].
      * apply (no_chunk S h VS) in N. specialize (H3 h b Ib N). apply (no_chunk S h VS) in N.
        apply (chunk_need_at n T h b _ VT Ib) in H3 as [_ H3]. specialize (H3 AT x Hx CT).
        rewrite (P0 S h N), uni_nil_l, <- Eb. lia.
      * destruct (find_chunk S h VS (PosB S AS)) as (a & Ia). destruct (part_of S h a VS Ia) as [Ea _].
        specialize (H4 h a b Ia Ib). apply (two_c_at n S T h a b _ VS VT Ia Ib) in H4 as [_ H4].
        destruct (H4 AS AT x Hx) as (_ & H1 & _). specialize (H1 CT CS). rewrite <- Ea, <- Eb. lia.
    + intros AS AT CS CT. destruct (find_chunk T h VT (PosB T AT)) as (b & Ib). destruct (part_of T h b VT Ib) as [Eb _].
      destruct (find_chunk S h VS (PosB S AS)) as (a & Ia). destruct (part_of S h a VS Ia) as [Ea _].
      specialize (H4 h a b Ia Ib). apply (two_c_at n S T h a b _ VS VT Ia Ib) in H4 as [_ H4].
      destruct (H4 AS AT x Hx) as (_ & _ & H1). specialize (H1 CS CT). cbn zeta in H1. rewrite <- Ea, <- Eb. lia.
Qed.
