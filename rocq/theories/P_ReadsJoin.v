(** The bytes read by the union in terms of the lists of values. *)
From Verif Require Import Base Hw Spec Format Lib L_Bits L_Group Layout M_Util M_Seq M_Decode M_Uncompress
  M_Union P_Build1 P_Build2 P_Build3 P_Seq P_Decode P_Query P_Uncompress P_Sets P_Inter P_Union P_Format P_Conc
  P_Short P_Stats P_Print Reads P_Reads Room P_Room RoomSets ReadsSets P_RoomInter P_RoomUnion P_RoomJoin.
From Coq Require Import Lia.

Fixpoint tsz (sz : list Z -> Z) (A : list (Z * list Z)) : Z :=
  match A with [] => 0 | (_, v) :: A => sz v + tsz sz A end.

(** everything read from [A], which ends at [ea], and [B], which ends at [eb], is below [m] *)
Definition ureads (sz : list Z -> Z) (one : Z -> list Z -> Z) (two : Z -> Z -> list Z -> list Z -> Z)
    (m ea eb : Z) (A B : list (Z * list Z)) : Prop :=
  (forall pa id va sa, A = pa ++ (id, va) :: sa -> ~ In id (map fst B) ->
     one (ea - tsz sz ((id, va) :: sa)) va <= m)
  /\ (forall pb id vb sb, B = pb ++ (id, vb) :: sb -> ~ In id (map fst A) ->
     one (eb - tsz sz ((id, vb) :: sb)) vb <= m)
  /\ (forall pa id va sa pb vb sb, A = pa ++ (id, va) :: sa -> B = pb ++ (id, vb) :: sb ->
     two (ea - tsz sz ((id, va) :: sa)) (eb - tsz sz ((id, vb) :: sb)) va vb <= m).

Lemma cons_split {A} (x y : A) l p q : x :: l = p ++ y :: q -> (p = [] /\ x = y /\ l = q) \/ exists p', p = x :: p' /\ l = p' ++ y :: q.
Proof.
  destruct p as [|z p]; cbn [app]; intro E.
  - injection E as -> ->. left. auto.
  - injection E as -> ->. right. exists p. auto.
Qed.
Lemma split_in {A} (x : A) l p q : l = p ++ x :: q -> In x l.
Proof. intros ->. apply at_split. Qed.

Section Reads.
Variables (sz : list Z -> Z) (k lim m : Z) (one : Z -> list Z -> Z).

Lemma ureads_comm two ea eb A B :
  ureads sz one two m ea eb A B <-> ureads sz one (fun db da b a => two da db a b) m eb ea B A.
Proof.
  unfold ureads. split; intros (H1 & H2 & H3); (split; [exact H2|split; [exact H1|]]); intros; eapply H3; eauto.
Qed.

Lemma ureads_one two ea eb i va A B :
  Forall (fun b => i < fst b) A -> Forall (fun b => i < fst b) B ->
  ureads sz one two m ea eb ((i, va) :: A) B
  <-> one (ea - tsz sz ((i, va) :: A)) va <= m /\ ureads sz one two m ea eb A B.
Proof.
  intros FA FB. pose proof (not_in_above one i B FB) as NB. rewrite Forall_forall in FA, FB. unfold ureads. split.
  - intros (H1 & H2 & H3). split; [exact (H1 [] i va A eq_refl NB)|]. split; [|split].
    + intros pa id v sa E. subst A. exact (H1 ((i, va) :: pa) id v sa eq_refl).
    + intros pb id v sb E N. apply (H2 pb id v sb E). cbn [map fst]. intros [Q|Q]; [|auto].
      specialize (FB _ (split_in _ _ _ _ E)). cbn [fst] in FB. lia.
    + intros pa id v sa pb w sb E E'. subst A. exact (H3 ((i, va) :: pa) id v sa pb w sb eq_refl E').
  - intros (H0 & H1 & H2 & H3). split; [|split].
    + intros pa id v sa E N. apply cons_split in E as [(-> & E & ->)|(p' & -> & E)]; [injection E as <- <-; exact H0|].
      exact (H1 p' id v sa E N).
    + intros pb id v sb E N. apply (H2 pb id v sb E). intro Q. apply N. now right.
    + intros pa id v sa pb w sb E E'. apply cons_split in E as [(-> & E & ->)|(p' & -> & E)].
      * injection E as <- <-. exfalso. specialize (FB _ (split_in _ _ _ _ E')). cbn [fst] in FB. lia.
      * exact (H3 p' id v sa pb w sb E E').
Qed.

Lemma ureads_two two ea eb i va A vb B :
  Forall (fun b => i < fst b) A -> Forall (fun b => i < fst b) B ->
  ureads sz one two m ea eb ((i, va) :: A) ((i, vb) :: B)
  <-> two (ea - tsz sz ((i, va) :: A)) (eb - tsz sz ((i, vb) :: B)) va vb <= m /\ ureads sz one two m ea eb A B.
Proof.
  intros FA FB. rewrite Forall_forall in FA, FB. unfold ureads. split.
  - intros (H1 & H2 & H3). split; [exact (H3 [] i va A [] vb B eq_refl eq_refl)|]. split; [|split].
    + intros pa id v sa E N. pose proof (FA _ (split_in _ _ _ _ E)) as L. cbn [fst] in L. subst A.
      apply (H1 ((i, va) :: pa) id v sa eq_refl). cbn [map fst]. intros [Q|Q]; [lia|auto].
    + intros pb id v sb E N. pose proof (FB _ (split_in _ _ _ _ E)) as L. cbn [fst] in L. subst B.
      apply (H2 ((i, vb) :: pb) id v sb eq_refl). cbn [map fst]. intros [Q|Q]; [lia|auto].
    + intros pa id v sa pb w sb E E'. subst A B. exact (H3 ((i, va) :: pa) id v sa ((i, vb) :: pb) w sb eq_refl eq_refl).
  - intros (H0 & H1 & H2 & H3). split; [|split].
    + intros pa id v sa E N. apply cons_split in E as [(-> & E & ->)|(p' & -> & E)].
      * injection E as <- <-. exfalso. apply N. now left.
      * apply (H1 p' id v sa E). intro Q. apply N. now right.
    + intros pb id v sb E N. apply cons_split in E as [(-> & E & ->)|(p' & -> & E)].
      * injection E as <- <-. exfalso. apply N. now left.
      * apply (H2 p' id v sb E). intro Q. apply N. now right.
    + intros pa id v sa pb w sb E E'. apply cons_split in E as [(-> & E & ->)|(p' & -> & E)];
        apply cons_split in E' as [(-> & E' & ->)|(q' & -> & E')].
      * injection E as <- <-. injection E' as <-. exact H0.
      * injection E as <- <-. specialize (FB _ (split_in _ _ _ _ E')). cbn [fst] in FB. lia.
      * injection E' as <- <-. specialize (FA _ (split_in _ _ _ _ E)). cbn [fst] in FA. lia.
      * exact (H3 p' id v sa q' w sb E E').
Qed.

Lemma ureads_nil two ea eb : ureads sz one two m ea eb [] [].
Proof. split; [|split]; intros [|? ?] ? ? ? E; discriminate. Qed.
Lemma ureads_run two eb : forall A d, wf k lim A -> d + tsz sz A <= m ->
  (runr sz one d A <= m <-> ureads sz one two m (d + tsz sz A) eb A []).
Proof.
  induction A as [|[i va] A IH]; intros d W L; cbn [runr tsz] in *.
  - split; [intros _; apply ureads_nil|lia].
  - apply wf_cons in W as (_ & W & F). cbn [fst] in F.
    rewrite ureads_one by auto. cbn [tsz]. replace (d + (sz va + tsz sz A)) with (d + sz va + tsz sz A) by lia.
    rewrite <- IH by (auto; lia). replace (d + sz va + tsz sz A - (sz va + tsz sz A)) with d by lia. lia.
Qed.

Lemma mreach_reads two : forall n A B da db, (length A + length B <= n)%nat -> wf k lim A -> wf k lim B ->
  da + tsz sz A <= m -> db + tsz sz B <= m ->
  (mreach sz one two A da db B <= m <-> ureads sz one two m (da + tsz sz A) (db + tsz sz B) A B).
Proof.
  induction n as [|n IH]; intros A B da db Hn WA WB LA LB.
  { destruct A; [|cbn [length] in Hn; lia]. destruct B; [|cbn [length] in Hn; lia].
    cbn [mreach runr tsz] in *. split; [intros _; apply ureads_nil|lia]. }
  destruct A as [|[i va] A].
  { cbn [mreach]. rewrite ureads_comm. now apply ureads_run. }
  destruct B as [|[j vb] B].
  { rewrite mreach_nil_r. now apply ureads_run. }
  rewrite mreach_cons. cbn [length] in Hn.
  pose proof (proj1 (wf_cons _ _ _ _) WA) as (W1 & WA' & FA).
  pose proof (proj1 (wf_cons _ _ _ _) WB) as (W2 & WB' & FB). cbn [fst] in FA, FB.
  assert (EA : da + tsz sz ((i, va) :: A) = da + sz va + tsz sz A) by (cbn [tsz]; lia).
  assert (EB : db + tsz sz ((j, vb) :: B) = db + sz vb + tsz sz B) by (cbn [tsz]; lia).
  assert (EA' : da + tsz sz ((i, va) :: A) - tsz sz ((i, va) :: A) = da) by lia.
  assert (EB' : db + tsz sz ((j, vb) :: B) - tsz sz ((j, vb) :: B) = db) by lia.
  destruct (Z.ltb_spec i j); [|destruct (Z.ltb_spec j i)].
  - rewrite ureads_one; auto.
    2: { constructor; [auto|]. eapply Forall_impl; [|exact FB]. cbn beta. intros; lia. }
    rewrite EA', EA, <- IH; auto; [lia|cbn [length]; lia|lia].
  - assert (F : Forall (fun b => j < fst b) ((i, va) :: A)).
    { constructor; [auto|]. eapply Forall_impl; [|exact FA]. cbn beta. intros; lia. }
    rewrite ureads_comm. rewrite ureads_one by auto. rewrite EB', (ureads_comm _ _ _ B), EB.
    rewrite <- (IH ((i, va) :: A) B da (db + sz vb)); auto; [lia|cbn [length]; lia|lia].
  - assert (j = i) by lia. subst j. rewrite ureads_two by auto. rewrite EA', EB', EA, EB, <- IH by (auto; lia). lia.
Qed.
End Reads.

Lemma tsz_b A : tsz szb A = zlen (datas A).
Proof. induction A as [|[i v] A IH]; [reflexivity|]. cbn [tsz]. rewrite zlen_datas_cons, IH. reflexivity. Qed.
Lemma tsz_c A : tsz szc A = zlen (cdatas A).
Proof. induction A as [|[i v] A IH]; [reflexivity|]. cbn [tsz]. rewrite zlen_cdatas_cons, IH. reflexivity. Qed.

Lemma join_block_iff m da db a b : 0 <= m ->
  (jreach false da db a b <= m <-> join_block_reads a b (m - da) (m - db)).
Proof.
  intro Hm. unfold jreach, join_block_reads. cbn [orb].
  destruct (Z.leb_spec 31 (zlen a)); cbn [orb]; [split; [intros _; lia|lia]|].
  destruct (Z.leb_spec 31 (zlen b)); cbn [orb]; [split; [intros _; lia|lia]|].
  cbn zeta. set (ka := zlen (above (last b 0) a)). set (kb := zlen (above (last a 0) b)).
  destruct (Z.ltb_spec 0 ka).
  - split; [intros ? _ _; split; [intros _|]; lia|]. intro J. specialize (J ltac:(lia) ltac:(lia)). lia.
  - split; [intros ? _ _; split; lia|]. intro J. specialize (J ltac:(lia) ltac:(lia)). lia.
Qed.

(** two chunks stored as blocks *)
Lemma twor_at S T m h pa a sa pb b sb ea eb :
  valid S -> valid T -> chunks_of S = pa ++ (h, a) :: sa -> chunks_of T = pb ++ (h, b) :: sb ->
  0 <= m -> ea <= m -> eb <= m ->
  twor_c false (ea - tsz szc ((h, a) :: sa)) (eb - tsz szc ((h, b) :: sb)) a b <= m <->
  (as_blocks S h = true -> as_blocks T h = true -> forall x, 0 <= x < 256 ->
     let y := 256 * h + x in
     (card 256 T y = 0 -> block_reads S (m - ea) y)
     /\ (card 256 S y = 0 -> block_reads T (m - eb) y)
     /\ (0 < card 256 S y -> 0 < card 256 T y ->
           if blocks_in S h <? blocks_in T h
           then join_block_reads (part 256 S y) (part 256 T y) (bytes_left S y + (m - ea)) (bytes_left T y + (m - eb))
           else join_block_reads (part 256 T y) (part 256 S y) (bytes_left T y + (m - eb)) (bytes_left S y + (m - ea)))).
Proof.
  intros VS VT EA EB Hm LA LB.
  assert (IS : In (h, a) (chunks_of S)) by (rewrite EA; apply at_split).
  assert (IT : In (h, b) (chunks_of T)) by (rewrite EB; apply at_split).
  destruct (part_of S h a VS IS) as [Ea Wa]. destruct (part_of T h b VT IT) as [Eb Wb].
  pose proof (kind_blocks S h a VS IS) as KA. pose proof (kind_blocks T h b VT IT) as KB.
  assert (ND : (kind_of a = KSparse /\ kind_of b = KSparse) \/ (~ (kind_of a = KSparse /\ kind_of b = KSparse))).
  { destruct (kind_of a), (kind_of b); auto; right; intros [? ?]; discriminate. }
  destruct ND as [[Ka Kb]|N].
  2: { unfold twor_c. split.
       - intros _ A B. exfalso. apply N. tauto.
       - intros _. destruct (kind_of a), (kind_of b); auto. exfalso. auto. }
  assert (EDa : zlen (chunk_data a) = 2 * zlen (blocks_of a) + zlen (datas (blocks_of a))).
  { unfold chunk_data. rewrite Ka. unfold sparse_data. now rewrite zlen_app, zlen_hdrs. }
  assert (EDb : zlen (chunk_data b) = 2 * zlen (blocks_of b) + zlen (datas (blocks_of b))).
  { unfold chunk_data. rewrite Kb. unfold sparse_data. now rewrite zlen_app, zlen_hdrs. }
  pose proof (zlen_nonneg _ (cdatas sa)) as Psa. pose proof (zlen_nonneg _ (cdatas sb)) as Psb.
  unfold twor_c. rewrite Ka, Kb. rewrite !tsz_c, !zlen_cdatas_cons.
  set (ja := ea - zlen (cdatas sa)). set (jb := eb - zlen (cdatas sb)).
  pose proof (Layout.blocks_wf h a Wa) as WA. pose proof (Layout.blocks_wf h b Wb) as WB.
  set (A := blocks_of a) in *. set (B := blocks_of b) in *.
  set (p := ea - (zlen (chunk_data a) + zlen (cdatas sa)) + 2 * zlen A).
  set (q := eb - (zlen (chunk_data b) + zlen (cdatas sb)) + 2 * zlen B).
  assert (Ep : p + tsz szb A = ja) by (rewrite tsz_b; unfold p, ja; lia).
  assert (Eq : q + tsz szb B = jb) by (rewrite tsz_b; unfold q, jb; lia).
  set (ca := zlen A <? zlen B).
  set (two := fun da db u v => if ca then jreach false da db u v else jreach false db da v u).
  transitivity (ureads szb oner_b two m ja jb A B).
  { unfold two, reach_b. destruct ca.
    - rewrite (mreach_reads szb 256 256 m oner_b _ _ _ _ _ _ (Nat.le_refl _) WA WB), Ep, Eq by lia. reflexivity.
    - rewrite (mreach_reads szb 256 256 m oner_b _ _ _ _ _ _ (Nat.le_refl _) WB WA), Ep, Eq by lia.
      now rewrite ureads_comm. }
  assert (Eca : ca = (blocks_in S h <? blocks_in T h)).
  { unfold ca, A, B. now rewrite (zlen_blocks_in S h a VS IS), (zlen_blocks_in T h b VT IT). }
  clearbody ca. subst ca.
  assert (AS : as_blocks S h = true) by tauto. assert (AT : as_blocks T h = true) by tauto.
  assert (FS : forall x, 0 <= x < 256 -> 0 < card 256 S (256 * h + x) ->
    exists qa ra, A = qa ++ (x, part 256 S (256 * h + x)) :: ra).
  { intros x Hx C. apply in_split. now apply block_in. }
  assert (FT : forall x, 0 <= x < 256 -> 0 < card 256 T (256 * h + x) ->
    exists qa ra, B = qa ++ (x, part 256 T (256 * h + x)) :: ra).
  { intros x Hx C. apply in_split. now apply block_in. }
  assert (RS : forall qa x va ra, A = qa ++ (x, va) :: ra ->
    0 <= x < 256 /\ va = part 256 S (256 * h + x) /\ zlen va = card 256 S (256 * h + x) /\ 1 <= zlen va
    /\ ja - tsz szb ((x, va) :: ra) = ea - bytes_left S (256 * h + x) /\ szb va <= bytes_left S (256 * h + x)).
  { intros qa x va ra E. destruct (below_block S pa h a sa qa x va ra VS EA E) as (_ & C & Hx & L1).
    rewrite (bytes_left_eq S pa h a sa qa x va ra VS EA E), tsz_b. split; auto.
    split; [apply (block_of S h a x va VS IS (split_in _ _ _ _ E))|]. split; auto. split; auto. split; [unfold ja; lia|].
    rewrite zlen_datas_cons. pose proof (zlen_nonneg _ (datas ra)). unfold szb. cbn [snd]. lia. }
  assert (RT : forall qa x va ra, B = qa ++ (x, va) :: ra ->
    0 <= x < 256 /\ va = part 256 T (256 * h + x) /\ zlen va = card 256 T (256 * h + x) /\ 1 <= zlen va
    /\ jb - tsz szb ((x, va) :: ra) = eb - bytes_left T (256 * h + x) /\ szb va <= bytes_left T (256 * h + x)).
  { intros qa x va ra E. destruct (below_block T pb h b sb qa x va ra VT EB E) as (_ & C & Hx & L1).
    rewrite (bytes_left_eq T pb h b sb qa x va ra VT EB E), tsz_b. split; auto.
    split; [apply (block_of T h b x va VT IT (split_in _ _ _ _ E))|]. split; auto. split; auto. split; [unfold jb; lia|].
    rewrite zlen_datas_cons. pose proof (zlen_nonneg _ (datas ra)). unfold szb. cbn [snd]. lia. }
  assert (BR : forall V e x (vs : list Z), e <= m -> as_blocks V h = true -> 0 <= x < 256 ->
     zlen vs = card 256 V (256 * h + x) -> 1 <= zlen vs -> szb vs <= bytes_left V (256 * h + x) ->
     (oner_b (e - bytes_left V (256 * h + x)) vs <= m <-> block_reads V (m - e) (256 * h + x))).
  { intros V e x vs Le AV Hx C L1 Lb. unfold oner_b, block_reads, bread. destruct (split_block h x Hx) as [Q1 _].
    rewrite Q1, <- C. unfold szb in Lb. rewrite bbc_data in Lb. unfold data_bytes in Lb. revert Lb.
    destruct (Z.ltb_spec (zlen vs) 31), (Z.leb_spec (zlen vs) 8); intro;
      (split; [lia|intro G; specialize (G AV ltac:(lia)); lia]). }
  assert (NZ : forall V x, card 256 V (256 * h + x) = 0 -> forall e, block_reads V e (256 * h + x)).
  { intros V x C e _ C'. lia. }
  unfold ureads. split.
  - intros (H1 & H2 & H3) _ _ x Hx. cbn zeta.
    pose proof (card_nonneg 256 S (256 * h + x)). pose proof (card_nonneg 256 T (256 * h + x)). split; [|split].
    + intros CT. destruct (Z.eq_dec (card 256 S (256 * h + x)) 0) as [CS|CS]; [now apply NZ|].
      destruct (FS x Hx ltac:(lia)) as (qa & ra & E). destruct (RS qa x _ ra E) as (_ & _ & C & L1 & E1 & Lb).
      apply (BR S ea x _ LA AS Hx C L1 Lb). rewrite <- E1. apply (H1 _ _ _ _ E). now apply (no_block T h b x VT IT Kb Hx).
    + intros CS. destruct (Z.eq_dec (card 256 T (256 * h + x)) 0) as [CT|CT]; [now apply NZ|].
      destruct (FT x Hx ltac:(lia)) as (qa & ra & E). destruct (RT qa x _ ra E) as (_ & _ & C & L1 & E1 & Lb).
      apply (BR T eb x _ LB AT Hx C L1 Lb). rewrite <- E1. apply (H2 _ _ _ _ E). now apply (no_block S h a x VS IS Ka Hx).
    + intros CS CT. destruct (FS x Hx CS) as (qa & ra & E). destruct (FT x Hx CT) as (qb & rb & E').
      specialize (H3 _ _ _ _ _ _ _ E E').
      destruct (RS qa x _ ra E) as (_ & _ & _ & _ & E1 & _). destruct (RT qb x _ rb E') as (_ & _ & _ & _ & E2 & _).
      rewrite E1, E2 in H3. unfold two in H3. cbv beta in H3.
      destruct (blocks_in S h <? blocks_in T h); apply join_block_iff in H3; auto;
        (replace (bytes_left S (256 * h + x) + (m - ea)) with (m - (ea - bytes_left S (256 * h + x))) by lia;
         replace (bytes_left T (256 * h + x) + (m - eb)) with (m - (eb - bytes_left T (256 * h + x))) by lia; exact H3).
  - intro H. specialize (H AS AT). cbn zeta in H. split; [|split].
    + intros qa x va ra E N. destruct (RS qa x va ra E) as (Hx & _ & C & L1 & E1 & Lb). rewrite E1.
      apply (BR S ea x _ LA AS Hx C L1 Lb). destruct (H x Hx) as (G & _). apply G. now apply (no_block T h b x VT IT Kb Hx).
    + intros qa x va ra E N. destruct (RT qa x va ra E) as (Hx & _ & C & L1 & E1 & Lb). rewrite E1.
      apply (BR T eb x _ LB AT Hx C L1 Lb). destruct (H x Hx) as (_ & G & _). apply G. now apply (no_block S h a x VS IS Ka Hx).
    + intros qa x va ra qb vb rb E E'. destruct (RS qa x va ra E) as (Hx & Ev & C & L1 & E1 & _).
      destruct (RT qb x vb rb E') as (_ & Ev' & C' & L1' & E2 & _).
      destruct (H x Hx) as (_ & _ & H3). specialize (H3 ltac:(lia) ltac:(lia)). rewrite <- Ev, <- Ev' in H3.
      rewrite E1, E2. unfold two. cbv beta.
      destruct (blocks_in S h <? blocks_in T h); apply join_block_iff; auto;
        (replace (m - (ea - bytes_left S (256 * h + x))) with (bytes_left S (256 * h + x) + (m - ea)) by lia;
         replace (m - (eb - bytes_left T (256 * h + x))) with (bytes_left T (256 * h + x) + (m - eb)) by lia; exact H3).
Qed.

Lemma join_reads_iff S T m da db : valid S -> valid T -> 0 <= m ->
  da + zlen (cdatas (chunks_of S)) <= m -> db + zlen (cdatas (chunks_of T)) <= m ->
  (join_reads S T (m - (da + zlen (cdatas (chunks_of S)))) (m - (db + zlen (cdatas (chunks_of T))))
   <-> reach_c false (chunks_of S) da db (chunks_of T) <= m).
Proof.
  intros VS VT Hm LA LB. destruct (valid_chunks S VS) as (WS & _). destruct (valid_chunks T VT) as (WT & _).
  unfold reach_c. rewrite <- !tsz_c in *.
  rewrite (mreach_reads szc 65536 65535 m chunk_reach _ _ _ _ _ _ (Nat.le_refl _) WS WT LA LB).
  set (ea := da + _) in *. set (eb := db + _) in *.
  assert (C0 : forall V h x, 0 <= x < 256 -> card 65536 V h = 0 -> card 256 V (256 * h + x) = 0).
  { intros V h x Hx H. rewrite <- card_sub by auto. rewrite <- card_part in H. destruct (part 65536 V h); [reflexivity|].
    rewrite zlen_cons in H. pose proof (zlen_nonneg _ l). lia. }
  assert (CR1 : forall V e pre h c suf, valid V -> chunks_of V = pre ++ (h, c) :: suf -> e <= m ->
    (chunk_reach (e - tsz szc ((h, c) :: suf)) c <= m <-> forall x, 0 <= x < 256 -> block_reads V (m - e) (256 * h + x))).
  { intros V e pre h c suf VV E Le. rewrite tsz_c, zlen_cdatas_cons. pose proof (zlen_nonneg _ (cdatas suf)).
    rewrite (chunk_reach_iff V pre h c suf m _ VV E) by lia.
    now replace (m - (e - (zlen (chunk_data c) + zlen (cdatas suf)) + zlen (chunk_data c) + zlen (cdatas suf)))
      with (m - e) by lia. }
  assert (PosB : forall V h, as_blocks V h = true -> 0 < card 65536 V h).
  { intros V h A. unfold as_blocks in A. apply andb_prop in A as [A _]. apply andb_prop in A as [A _]. now apply Z.ltb_lt. }
  unfold ureads, join_reads. split.
  - intro H. split; [|split].
    + intros pa h a sa E N. apply (CR1 S ea pa h a sa VS E LA). intros x Hx. apply (no_chunk T h VT) in N.
      destruct (H (256 * h + x)) as (H1 & _). destruct (split_block h x Hx) as [Q _]. rewrite Q in H1. auto.
    + intros pb h b sb E N. apply (CR1 T eb pb h b sb VT E LB). intros x Hx. apply (no_chunk S h VS) in N.
      destruct (H (256 * h + x)) as (_ & H1 & _). destruct (split_block h x Hx) as [Q _]. rewrite Q in H1. auto.
    + intros pa h a sa pb b sb E E'. apply (twor_at S T m h pa a sa pb b sb ea eb VS VT E E' Hm LA LB).
      intros AS AT x Hx. cbn zeta. destruct (H (256 * h + x)) as (H1 & H2 & H3).
      destruct (split_block h x Hx) as [Q _]. rewrite Q in *.
      split; [auto|]. split; [auto|]. exact (H3 AS AT).
  - intros (H1 & H2 & H3) y. cbn zeta. pose proof (Z.mod_pos_bound y 256 ltac:(lia)) as Hx.
    set (h := y / 256). set (x := y mod 256) in *.
    assert (Ey : y = 256 * h + x) by (apply Z.div_mod; lia). clearbody h x. subst y.
    destruct (split_block h x Hx) as [Q _].
    assert (Q2 : as_blocks S h = true -> as_blocks T h = true -> exists pa a sa pb b sb,
      chunks_of S = pa ++ (h, a) :: sa /\ chunks_of T = pb ++ (h, b) :: sb).
    { intros AS AT. destruct (find_chunk S h VS (PosB S h AS)) as (a & IA). destruct (find_chunk T h VT (PosB T h AT)) as (b & IB).
      apply in_split in IA as (pa & sa & EA). apply in_split in IB as (pb & sb & EB). exists pa, a, sa, pb, b, sb. auto. }
    split; [|split].
    + intros CT D AS CS. rewrite Q in AS. destruct D as [N|AT].
      * apply (no_chunk T h VT) in N. destruct (find_chunk S h VS (PosB S h AS)) as (a & IA).
        apply in_split in IA as (pa & sa & EA). specialize (H1 _ _ _ _ EA N).
        apply (CR1 S ea pa h a sa VS EA LA) with (x := x) in H1; auto. apply H1; [now rewrite Q|auto].
      * destruct (Q2 AS AT) as (pa & a & sa & pb & b & sb & EA & EB). specialize (H3 _ _ _ _ _ _ _ EA EB).
        apply (twor_at S T m h pa a sa pb b sb ea eb VS VT EA EB Hm LA LB) with (x := x) in H3; auto.
        destruct H3 as (G & _). apply (G CT); [now rewrite Q|exact CS].
    + intros CS D AT CT. rewrite Q in AT. destruct D as [N|AS].
      * apply (no_chunk S h VS) in N. destruct (find_chunk T h VT (PosB T h AT)) as (b & IB).
        apply in_split in IB as (pb & sb & EB). specialize (H2 _ _ _ _ EB N).
        apply (CR1 T eb pb h b sb VT EB LB) with (x := x) in H2; auto. apply H2; [now rewrite Q|auto].
      * destruct (Q2 AS AT) as (pa & a & sa & pb & b & sb & EA & EB). specialize (H3 _ _ _ _ _ _ _ EA EB).
        apply (twor_at S T m h pa a sa pb b sb ea eb VS VT EA EB Hm LA LB) with (x := x) in H3; auto.
        destruct H3 as (_ & G & _). apply (G CS); [now rewrite Q|exact CT].
    + intros AS AT CS CT. destruct (Q2 AS AT) as (pa & a & sa & pb & b & sb & EA & EB). specialize (H3 _ _ _ _ _ _ _ EA EB).
      apply (twor_at S T m h pa a sa pb b sb ea eb VS VT EA EB Hm LA LB) with (x := x) in H3; auto.
      cbn zeta in H3. destruct H3 as (_ & _ & G). exact (G CS CT).
Qed.

(** 31 bytes are always enough *)
Lemma join_block_enough A B a b : 1 <= zlen A -> 1 <= zlen B -> sorted A -> sorted B ->
  data_bytes (zlen A) + 31 <= a -> data_bytes (zlen B) + 31 <= b -> join_block_reads A B a b.
Proof.
  intros LA LB SA SB Ha Hb HA HB. cbn zeta. unfold data_bytes in *. destruct (Z.ltb_spec (zlen A) 31), (Z.ltb_spec (zlen B) 31); try lia.
  assert (K : forall x V, zlen (above x V) <= zlen V) by (intros; unfold above; apply zlen_filter_le).
  pose proof (K (last B 0) A). pose proof (K (last A 0) B).
  pose proof (zlen_nonneg _ (above (last A 0) B)).
  unfold decode_bytes. split.
  - intro. destruct (Z.leb_spec (zlen (above (last B 0) A)) 8); lia.
  - destruct (Z.leb_spec (zlen (above (last A 0) B)) 8); lia.
Qed.
Lemma join_reads_enough S T s t : valid S -> valid T -> 31 <= s -> 31 <= t -> join_reads S T s t.
Proof.
  intros VS VT Hs Ht b h. split; [intros _ _; now apply c39_enough|]. split; [intros _ _; now apply c39_enough|].
  intros AS AT CS CT. pose proof (block_left S b VS AS CS) as L1. pose proof (block_left T b VT AT CT) as L2.
  assert (PS : sorted (part 256 S b)) by (apply sorted_part; [lia|apply VS]).
  assert (PT : sorted (part 256 T b)) by (apply sorted_part; [lia|apply VT]).
  destruct (blocks_in S h <? blocks_in T h); apply join_block_enough; rewrite ?card_part; auto; lia.
Qed.

(** a sequence united with itself is read without leaving its encoding *)
Lemma reach_self_b A : forall d, reach_b true A d d A <= Z.max 0 (d + zlen (datas A)).
Proof.
  unfold reach_b. induction A as [|[i v] A IH]; intro d.
  - cbn [mreach runr]. change (zlen (datas [])) with 0. lia.
  - rewrite mreach_cons. destruct (Z.ltb_spec i i); [lia|]. rewrite zlen_datas_cons. cbn [snd].
    specialize (IH (d + szb v)). unfold szb in *. change (jreach true d d v v) with 0. lia.
Qed.
Lemma reach_self A : forall d, reach_c true A d d A <= Z.max 0 (d + zlen (cdatas A)).
Proof.
  unfold reach_c. induction A as [|[i v] A IH]; intro d.
  - cbn [mreach runr]. change (zlen (cdatas [])) with 0. lia.
  - rewrite mreach_cons. destruct (Z.ltb_spec i i); [lia|]. rewrite zlen_cdatas_cons.
    specialize (IH (d + szc v)). unfold szc in *. pose proof (zlen_nonneg _ (cdatas A)).
    assert (twor_c true d d v v <= Z.max 0 (d + (zlen (chunk_data v) + zlen (cdatas A)))); [|lia].
    unfold twor_c, chunk_data. destruct (kind_of v); try lia. rewrite Z.ltb_irrefl.
    pose proof (reach_self_b (blocks_of v) (d + 2 * zlen (blocks_of v))).
    unfold sparse_data. rewrite zlen_app, zlen_hdrs. lia.
Qed.
