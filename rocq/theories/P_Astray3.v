(** Results of the operations on many sequences of which some chunks are damaged. *)
From Verif Require Import Base Hw Spec Outcome Lib L_Bits L_Group Layout Format Damage Astray M_Util M_Build M_Seq M_Decode
  M_Uncompress M_Many P_Build1 P_Build2 P_Build3 P_Seq P_Decode P_Query P_Uncompress P_Sets P_Inter P_Union P_Many P_Many2
  P_Fin1 P_Fin2 P_Fin3 P_Room P_Damage P_Damage2 P_Total P_Spoil P_Lands P_Astray.
From Coq Require Import Lia Sorted Permutation.

Section Mem.
Variables (dbg : bool) (mem : list Z) (ok : Z -> Prop).
Hypothesis Bytes : Forall is_byte mem.
Notation view := (part_view 0 ok mem).

(** the static vectors keep their length and hold words *)
Definition room (v : list Z) : Prop := zlen v = 1024 /\ Forall w64 v.
Lemma and_words_zlen : forall n word i c out, okp (and_words_loop n word i c out) (fun r => zlen (fst r) = zlen out).
Proof.
  induction n as [|n IH]; intros word i c out; cbn [and_words_loop]; [apply okp_ok; reflexivity|].
  eapply okp_seq; [apply okp_any|]. intros o _. eapply okp_seq; [apply okp_any|]. intros w _. cbv zeta.
  eapply okp_seq; [apply vset_outside|]. intros o1 [L _]. eapply okp_mono; [apply IH|]. cbn beta. intros r Hr. lia.
Qed.
Lemma or_words_zlen : forall n word i out, okp (or_words_loop n word i out) (fun r => zlen r = zlen out).
Proof.
  induction n as [|n IH]; intros word i out; cbn [or_words_loop]; [apply okp_ok; reflexivity|].
  eapply okp_seq; [apply okp_any|]. intros o _. eapply okp_seq; [apply okp_any|]. intros w _.
  eapply okp_seq; [apply vset_outside|]. intros o1 [L _]. eapply okp_mono; [apply IH|]. cbn beta. intros r Hr. lia.
Qed.
Lemma tmp_zlen begin bl (tmp : list Z) :
  okp (uncompress_sparse_chunk dbg mem begin bl (repeat 0 (length tmp)) 0) (fun t => zlen t = zlen tmp).
Proof.
  eapply okp_mono; [apply (sparse_chunk_zlen dbg mem Bytes)|]. cbn beta. intros t ->. unfold zlen. now rewrite repeat_length.
Qed.
Lemma and_zlen it tmp out c :
  okp (uncompress_chunk_and_intersect dbg mem it tmp out c) (fun r => zlen (fst (fst r)) = zlen tmp /\ zlen (snd (fst r)) = zlen out).
Proof.
  unfold uncompress_chunk_and_intersect, uncompress_sparse_chunk_and_intersect, uncompress_dense_chunk_and_intersect. cbv zeta.
  eapply okp_seq; [apply okp_any|]. intros t _. destruct (t =? t_sparse); [|destruct (t =? t_dense); [|destruct (t =? t_full)]].
  - eapply okp_seq; [apply okp_any|]. intros b _. eapply okp_seq; [apply tmp_zlen|]. intros t1 T1. cbn beta in T1.
    eapply okp_seq; [apply and_words_zlen|]. intros [o k] O1. cbn [fst] in O1. apply okp_ok. auto.
  - eapply okp_seq; [apply and_words_zlen|]. intros [o k] O1. cbn [fst] in O1. apply okp_ok. auto.
  - apply okp_ok. auto.
  - intros r E. discriminate.
Qed.
Lemma or_zlen it tmp out :
  okp (uncompress_chunk_and_merge dbg mem it tmp out) (fun r => zlen (fst r) = zlen tmp /\ zlen (snd r) = zlen out).
Proof.
  unfold uncompress_chunk_and_merge, uncompress_sparse_chunk_and_merge, uncompress_dense_chunk_and_merge, uncompress_full_chunk_and_merge. cbv zeta.
  eapply okp_seq; [apply okp_any|]. intros t _. destruct (t =? t_sparse); [|destruct (t =? t_dense); [|destruct (t =? t_full)]].
  - eapply okp_seq; [apply okp_any|]. intros b _. eapply okp_seq; [apply tmp_zlen|]. intros t1 T1. cbn beta in T1.
    eapply okp_seq; [apply or_words_zlen|]. intros o O1. cbn beta in O1. apply okp_ok. auto.
  - eapply okp_seq; [apply or_words_zlen|]. intros o O1. cbn beta in O1. apply okp_ok. auto.
  - eapply okp_seq; [apply fill_loop_outside|]. intros o [O1 _]. apply okp_ok. auto.
  - intros r E. discriminate.
Qed.
Lemma and_room it tmp out c : room tmp -> room out ->
  okp (uncompress_chunk_and_intersect dbg mem it tmp out c) (fun r => let '(t, o, _) := r in room t /\ room o).
Proof.
  intros [T1 T2] [O1 O2] r E. pose proof (and_zlen _ _ _ _ _ E) as [L1 L2].
  pose proof (okp_wp _ dbg _ _ (uncompress_chunk_and_intersect_wp dbg mem Bytes it tmp out c T2 O2) _ E) as K. destruct r as [[t o] k]. cbn [fst snd] in *.
  destruct K. unfold room. split; split; auto; lia.
Qed.
Lemma or_room it tmp out : room tmp -> room out ->
  okp (uncompress_chunk_and_merge dbg mem it tmp out) (fun r => room (fst r) /\ room (snd r)).
Proof.
  intros [T1 T2] [O1 O2] r E. pose proof (or_zlen _ _ _ _ E) as [L1 L2].
  pose proof (okp_wp _ dbg _ _ (uncompress_chunk_and_merge_wp dbg mem Bytes it tmp out T2 O2) _ E) as K. destruct r as [t o]. cbn [fst snd] in *.
  destruct K. unfold room. split; split; auto; lia.
Qed.
Lemma unc_room it id c cs out : id_view mem it ((id, c) :: cs) -> room out ->
  okp (uncompress_chunk dbg mem it out 0) (fun r => room (fst r) /\ snd r = zlen c).
Proof.
  intros V [O1 O2] r E. destruct (uncompress_chunk_outside dbg mem it id c cs out 0 Bytes V r E) as [[L _] N].
  pose proof (okp_wp _ dbg _ _ (uncompress_chunk_wp dbg mem Bytes it out 0 O2) _ E) as K. cbn beta in K. unfold room. split; auto. split; auto. lia.
Qed.

(** a bitmap decoded *)
Lemma bitmap_got (good : Prop) id bitmap c out pos :
  0 <= id < 65535 -> room bitmap -> 0 <= pos <= zlen out -> sorted c -> in_chunk c ->
  (good -> bm_at (reg bitmap 0) 1024 (memb c)) ->
  okp (decode_bitmap (words_vec bitmap) 1024 (id * 65536) out pos) (fun r => got good id c out pos (fst r) (snd r)).
Proof.
  intros Hi [_ Hw] Hp Sc Rc G r E.
  apply got_lands; [lia|exact (decode_bitmap_lands (words_vec bitmap) 1024 (id * 65536) out pos (oks_vec _ Hw) ltac:(lia) ltac:(lia) ltac:(lia) r E)|].
  intro Hg. specialize (G Hg).
  assert (B : bm_at (words_vec bitmap) (Z.of_nat (Z.to_nat 1024)) (memb c)) by (rewrite Z2Nat.id by lia; exact G).
  assert (R : Forall (fun x => 0 <= x < 64 * Z.of_nat (Z.to_nat 1024)) c) by (rewrite Z2Nat.id by lia; exact Rc).
  destruct (Z_le_gt_dec (pos + zlen c) (zlen out)) as [L|L].
  - destruct (decode_bitmap_ok (words_vec bitmap) (Z.to_nat 1024) c (id * 65536) out pos B Sc R) as (o & Eo & W);
      rewrite ?Z2Nat.id in * by lia; try lia.
    rewrite Eo in E. apply Ok_val in E. subst r. split; [reflexivity|exact (proj1 (proj2 W))].
  - pose proof (decode_bitmap_short (words_vec bitmap) (Z.to_nat 1024) c (id * 65536) out pos B Sc R ltac:(lia) ltac:(lia) ltac:(lia)) as Eo.
    rewrite Z2Nat.id in Eo by lia. rewrite Eo in E. discriminate.
Qed.
Lemma got_none (good : Prop) id c out pos : (good -> c = []) -> got good id c out pos out 0.
Proof.
  intro H. exists []. rewrite zlen_nil. split; auto. split; [apply below_refl|]. split; [intros i Hi; rewrite zlen_nil in Hi; lia|].
  split; [constructor|]. intro G. now rewrite (H G).
Qed.

(** ** intersection *)
Lemma past3_move h it C :
  past3 mem ok h it C -> 0 <= h < 65536 -> In h (map fst C) -> wfc C ->
  exists it' suf, it_advance mem it h = Ok it' /\ view it' ((h, chunk_of h C) :: suf) /\ past3 mem ok h it' C.
Proof.
  intros (pre & suf & E & F & V) Hh Hi W.
  destruct (part_advance 0 ok mem it suf h V ltac:(lia)) as (it' & pre2 & suf2 & -> & (D1 & D2 & D3) & V2).
  assert (EC : C = (pre ++ pre2) ++ suf2) by (rewrite <- app_assoc, <- D1; exact E).
  assert (FP : Forall (fun ch => fst ch < h) (pre ++ pre2)) by (apply Forall_app; auto).
  clear E D1 F D2. set (P := pre ++ pre2) in *. subst C.
  rewrite map_app in Hi. apply in_app_or in Hi as [Hi|Hi].
  { apply in_map_iff in Hi as (ch & <- & Hch). rewrite Forall_forall in FP. specialize (FP _ Hch). lia. }
  destruct suf2 as [|[id c] suf2]; [destruct Hi|].
  apply wf_app in W as [_ W]. apply wf_cons in W as (_ & _ & W). inversion D3 as [|? ? D4 D5]; subst. cbn [fst] in *.
  assert (id = h) as ->.
  { destruct Hi as [Hi|Hi]; [exact Hi|]. apply in_map_iff in Hi as (ch & <- & Hch).
    rewrite Forall_forall in W. specialize (W _ Hch). lia. }
  exists it', suf2. rewrite chunk_of_mid by auto. split; auto. split; auto. exists P, ((h, c) :: suf2). auto.
Qed.
Lemma and_rest_room h : forall its Cs tmp bitmap k,
  0 <= h < 65536 -> Forall2 (past3 mem ok h) its Cs -> Forall wfc Cs -> common Cs h -> room tmp -> room bitmap ->
  okp (and_rest dbg mem its h tmp bitmap k) (fun r => let '(its', t, b, _, _) := r in
    Forall2 (past3 mem ok h) its' Cs /\ room t /\ room b).
Proof.
  induction its as [|it its IH]; intros Cs tmp bitmap k Hh P W Hc Ht Hb;
    inversion P as [|? C ? Cs' P1 P2]; subst; cbn [and_rest].
  - apply okp_ok. auto.
  - inversion W as [|? ? W1 W2]; subst.
    destruct (past3_move h it C P1 Hh (Hc C (in_eq _ _)) W1) as (it' & suf & -> & V & P'). cbn [bind].
    eapply okp_seq; [apply okp_any|]. intros id _. eapply okp_seq; [apply okp_any|]. intros _ _.
    eapply okp_seq; [apply and_room; auto|]. intros [[t b] k2] [T B]. destruct (k2 =? 0); [apply okp_ok; auto|].
    eapply okp_seq; [apply (IH Cs' t b k2); auto|].
    { intros C' H'. apply Hc. now right. }
    intros [[[[its' t2] b2] k3] sk] (I2 & T2 & B2). apply okp_ok. auto.
Qed.

Lemma intersect_headers_gone C0 Cs headers hs : forall hs2 hs1 it0 its tmp bitmap out pos,
  hs = hs1 ++ hs2 -> holds headers hs -> sorted hs -> Forall (common (C0 :: Cs)) hs -> Forall wfc (C0 :: Cs) ->
  (forall h, In h hs2 -> Forall2 (past3 mem ok h) (it0 :: its) (C0 :: Cs)) ->
  room tmp -> room bitmap -> 0 <= pos <= zlen out ->
  okp (intersect_headers (length hs2) dbg mem (it0 :: its) headers (zlen hs1) tmp bitmap out pos) (fun r =>
    let '(_, _, o, p) := r in gone ok (map (fun h => (h, piece C0 Cs h)) hs2) out pos o p).
Proof.
  induction hs2 as [|h hs2 IH]; intros hs1 it0 its tmp bitmap out pos EH Ho SH HC W HP Ht Hb Hp.
  - cbn [length intersect_headers map]. apply okp_ok. apply gone_nil.
  - cbn [length intersect_headers map].
    assert (Hh : common (C0 :: Cs) h).
    { rewrite Forall_forall in HC. apply HC. rewrite EH. apply in_or_app. right. now left. }
    pose proof (Hh C0 (in_eq _ _)) as Hh0. inversion W as [|? ? W0 WS]; subst x l.
    assert (Rh : 0 <= h < 65535).
    { apply in_map_iff in Hh0 as (ch & <- & Hch). destruct W0 as [_ W0]. rewrite Forall_forall in W0. apply W0. auto. }
    assert (EV : vget headers (zlen hs1) = Ok h).
    { unfold vget. destruct Ho as [_ Ho]. rewrite (Ho (zlen hs1)).
      - rewrite EH, znth_app_r by lia. rewrite Z.sub_diag. reflexivity.
      - rewrite EH, zlen_app, zlen_cons. zpos. lia. }
    rewrite EV. cbn [bind].
    pose proof (HP h (in_eq _ _)) as P. inversion P as [|? ? ? ? P0 P1]; subst x l y l'.
    destruct (past3_move h it0 C0 P0 ltac:(lia) Hh0 W0) as (it' & suf & -> & V & P'). cbn [bind].
    rewrite (id_view_id _ _ _ (proj1 V)). cbn [bind fst]. rewrite assert_ok by apply Z.eqb_refl. cbn [bind].
    pose proof (id_view_wf _ _ _ _ (proj1 V)) as (_ & _ & Sc & Rc). cbn [snd] in Sc, Rc.
    assert (Zc : zlen (chunk_of h C0) <= 65536).
    { change 65536 with (Z.of_nat (Z.to_nat 65536)). apply sorted_zlen_le; auto. }
    pose proof (zlen_nonneg _ (chunk_of h C0)) as Zn.
    assert (Hcs : common Cs h) by (intros C' H'; apply Hh; now right).
    destruct (uncompress_chunk dbg mem it' bitmap 0) as [[b1 k1]| | | |] eqn:E1; cbn [bind]; try (intros r E; discriminate).
    pose proof (unc_room it' h _ suf bitmap (proj1 V) Hb _ E1) as [B1 N1]. cbn [fst snd] in B1, N1. subst k1. rewrite u32_id by lia.
    destruct (and_rest dbg mem its h tmp b1 (zlen (chunk_of h C0))) as [[[[[its' t2] b2] k2] sk]| | | |] eqn:E2; cbn [bind];
      try (intros r E; discriminate).
    pose proof (and_rest_room h its Cs tmp b1 (zlen (chunk_of h C0)) ltac:(lia) P1 WS Hcs Ht B1 _ E2) as (I2 & T2 & B2).
    assert (G : ok h -> if sk : bool then piece C0 Cs h = [] else bm_at (reg b2 0) 1024 (memb (piece C0 Cs h))).
    { intro Hok. pose proof (part_one _ _ _ _ _ _ _ V Hok ltac:(lia)) as V1.
      change (uncompress_chunk dbg mem it') with (uncompress_chunk dbg mem (one it')) in E1.
      destruct Hb as [Hb1 Hb2].
      destruct (uncompress_chunk_ok dbg mem 0 (one it') h _ [] bitmap 0 V1) as (b1' & Eq & Bm & S1); try lia.
      rewrite Eq in E1. apply Ok_val in E1. injection E1 as ->.
      destruct (and_rest_at dbg mem ok h its Cs tmp b1 (chunk_of h C0)) as (its3 & t3 & b3 & k3 & sk3 & Eq3 & _ & _ & _ & Q4);
        auto; try lia; try apply Ht; try apply B1.
      rewrite Eq3 in E2. apply Ok_val in E2. injection E2 as -> -> -> -> ->. exact Q4. }
    assert (HP' : forall h', In h' hs2 -> Forall2 (past3 mem ok h') (it' :: its') (C0 :: Cs)).
    { intros h' Hh'. assert (h < h').
      { rewrite EH in SH. apply sorted_app_inv in SH as (_ & SH & _). apply sorted_inv in SH as [_ SH].
        rewrite Forall_forall in SH. auto. }
      constructor; [eapply past3_mono; eauto; lia|]. eapply Forall2_mono; [exact I2|].
      intros. eapply past3_mono; eauto; lia. }
    assert (EH' : hs = (hs1 ++ [h]) ++ hs2) by (rewrite <- app_assoc; exact EH).
    assert (EL : zlen (hs1 ++ [h]) = zlen hs1 + 1) by (rewrite zlen_app; reflexivity).
    destruct sk.
    + rewrite <- EL. eapply okp_mono; [apply IH; auto|]. intros [[[t3 b3] o] p] G3.
      eapply gone_cons; [apply got_none, G|]. rewrite Z.add_0_r. exact G3.
    + rewrite Z.shiftl_mul_pow2 by lia. change (2 ^ 16) with 65536. rewrite u32_id by lia.
      eapply okp_seq; [apply (bitmap_got (ok h) h b2 (piece C0 Cs h) out pos); auto|].
      { apply sorted_fold_isect. auto. }
      { apply Forall_forall. intros x (Hx & _)%In_fold_isect. rewrite Forall_forall in Rc. specialize (Rc _ Hx). exact Rc. }
      intros [o1 n1] G1. cbn [fst snd] in G1. rewrite <- EL.
      eapply okp_mono; [apply IH; auto; eapply got_room; eauto|]. intros [[[t3 b3] o] p] G3.
      eapply gone_cons; eauto.
Qed.

(** ** union *)
Lemma merge_all_part h : forall its css first tmp bitmap,
  Forall2 view its css -> room tmp -> room bitmap -> h < 65536 ->
  okp (merge_all dbg mem its h first tmp bitmap) (fun r => room (fst r) /\ room (snd r)
    /\ (ok h -> forall a, (if first : bool then a = [] else bm_at (reg bitmap 0) 1024 (memb a)) ->
         first = false \/ tops h css <> [] -> bm_at (reg (snd r) 0) 1024 (memb (fold_left uni (tops h css) a)))).
Proof.
  induction its as [|it its IH]; intros css first tmp bitmap V Ht Hb Hh.
  - inversion V; subst. cbn [merge_all]. apply okp_ok. cbn [fst snd]. split; auto. split; auto. intros _ a Ha.
    intros [->|H]; [exact Ha|now cbn in H].
  - inversion V as [|? cs ? css' V1 V2]; subst. cbn [merge_all].
    rewrite (id_view_id _ _ _ (proj1 V1)). cbn [bind].
    unfold tops. cbn [flat_map]. fold (tops h css'). unfold top. destruct cs as [|[id c] cs].
    { destruct (Z.eqb_spec 65536 h); [lia|]. cbn [app]. apply IH; auto. }
    cbn [fst snd]. destruct (Z.eqb_spec id h) as [E|E].
    2:{ cbn [app]. apply IH; auto. }
    subst h. cbn [app fold_left]. destruct first.
    + destruct (uncompress_chunk dbg mem it bitmap 0) as [[b1 k1]| | | |] eqn:E1; cbn [bind]; try (intros r E; discriminate).
      pose proof (unc_room it id c cs bitmap (proj1 V1) Hb _ E1) as [B1 _]. cbn [fst] in B1.
      eapply okp_mono; [apply (IH css' false tmp b1); auto|]. cbn beta. intros r (R1 & R2 & R3). split; auto. split; auto.
      intros Ho a -> _. rewrite uni_nil_l. apply R3; auto.
      pose proof (part_one _ _ _ _ _ _ _ V1 Ho ltac:(lia)) as V0.
      change (uncompress_chunk dbg mem it) with (uncompress_chunk dbg mem (one it)) in E1. destruct Hb as [Hb1 Hb2].
      destruct (uncompress_chunk_ok dbg mem 0 (one it) id c [] bitmap 0 V0) as (b1' & Eq & Bm & S1); try lia.
      rewrite Eq in E1. apply Ok_val in E1. injection E1 as -> _. exact Bm.
    + destruct (uncompress_chunk_and_merge dbg mem it tmp bitmap) as [[t1 b1]| | | |] eqn:E1; cbn [bind]; try (intros r E; discriminate).
      pose proof (or_room it tmp bitmap Ht Hb _ E1) as [T1 B1]. cbn [fst snd] in T1, B1.
      eapply okp_mono; [apply (IH css' false t1 b1); auto|]. cbn beta. intros r (R1 & R2 & R3). split; auto. split; auto.
      intros Ho a Ha _. apply R3; auto.
      pose proof (part_one _ _ _ _ _ _ _ V1 Ho ltac:(lia)) as V0.
      change (uncompress_chunk_and_merge dbg mem it) with (uncompress_chunk_and_merge dbg mem (one it)) in E1.
      destruct (chunk_or_ok dbg mem 0 (one it) id c [] tmp bitmap a V0) as (t1' & b1' & Eq & _ & _ & Bm); auto; try apply Ht; try apply Hb.
      rewrite Eq in E1. apply Ok_val in E1. injection E1 as -> ->. exact Bm.
Qed.
Lemma next_headers_part h : forall its css next,
  Forall2 view its css -> h < 65536 ->
  exists its' next', next_headers mem its h next = Ok (its', next')
    /\ Forall2 view its' (map (popped h) css)
    /\ next' = fold_left Z.min (map hd_id (map (popped h) css)) next.
Proof.
  induction its as [|it its IH]; intros css next V Hh.
  - inversion V; subst. exists [], next. cbn. auto.
  - inversion V as [|? cs ? css' V1 V2]; subst. cbn [next_headers].
    rewrite (id_view_id _ _ _ (proj1 V1)). cbn [bind map fold_left].
    assert (P : exists it', (if (match cs with [] => 65536 | ch :: _ => fst ch end) =? h
                             then it_next mem it else Ok it) = Ok it' /\ view it' (popped h cs)).
    { unfold popped. destruct cs as [|[id c] cs].
      - destruct (Z.eqb_spec 65536 h); [lia|]. exists it. auto.
      - cbn [fst]. destruct (Z.eqb_spec id h); [|exists it; auto].
        destruct (part_next _ _ _ _ _ _ _ V1) as (it' & -> & V'). exists it'. auto. }
    destruct P as (it' & -> & V'). cbn [bind].
    rewrite (id_view_id _ _ _ (proj1 V')). cbn [bind].
    destruct (IH css' (Z.min next (hd_id (popped h cs))) V2 Hh) as (its2 & n2 & E2 & V3 & N2).
    fold (hd_id (popped h cs)).
    replace (if hd_id (popped h cs) <? next then hd_id (popped h cs) else next)
      with (Z.min next (hd_id (popped h cs))) by (destruct (Z.ltb_spec (hd_id (popped h cs)) next); lia).
    rewrite E2. cbn [bind]. exists (it' :: its2), n2. auto.
Qed.
Lemma views_wfc its css : Forall2 view its css -> Forall wfc css.
Proof. intro V. induction V as [|it cs its css V1 V2]; constructor; auto. apply V1. Qed.

Lemma union_many_gone : forall fuel its css h tmp bitmap out pos,
  Forall2 view its css -> least h css -> 0 <= h <= 65536 -> room tmp -> room bitmap -> 0 <= pos <= zlen out ->
  okp (union_loop fuel dbg mem its h tmp bitmap out pos) (fun r => let '(_, _, o, p) := r in
    exists gs, gone ok gs out pos o p /\ sorted (map fst gs) /\ ranged gs
      /\ (forall x, In x (map fst gs) -> h <= x /\ exists cs, In cs css /\ In x (map fst cs))
      /\ ungroup 65536 gs = unis (map (ungroup 65536) css)).
Proof.
  assert (DONE : forall css (tmp bitmap out : list Z) pos, Forall wfc css -> least 65536 css ->
    okp (Ok (tmp, bitmap, out, pos)) (fun r => let '(_, _, o, p) := r in
    exists gs, gone ok gs out pos o p /\ sorted (map fst gs) /\ ranged gs
      /\ (forall x, In x (map fst gs) -> 65536 <= x /\ exists cs, In cs css /\ In x (map fst cs))
      /\ ungroup 65536 gs = unis (map (ungroup 65536) css))).
  { intros css tmp bitmap out pos W [L _]. apply okp_ok. exists []. split; [apply gone_nil|]. split; [apply sorted_nil|].
    split; [constructor|]. split; [intros x []|]. cbn [ungroup flat_map].
    assert (forall cs, In cs css -> cs = []) as EN.
    { intros cs Hcs; rewrite Forall_forall in L, W; specialize (L _ Hcs); specialize (W _ Hcs);
      destruct cs as [|ch cs]; auto; apply wf_cons in W as ((W & _) & _); cbn [hd_id] in L; lia. }
    clear -EN. unfold unis. induction css as [|cs css IH]; auto. cbn [map fold_left].
    rewrite (EN cs) by (now left). cbn. apply IH. intros; apply EN; now right. }
  induction fuel as [|f IH]; intros its css h tmp bitmap out pos V L Hh Ht Hb Hp; pose proof (views_wfc _ _ V) as W; cbn [union_loop].
  all: destruct (Z.ltb_spec h 65536) as [Hlt|]; [|assert (h = 65536) as -> by lia; apply DONE; auto].
  { intros r E. discriminate. }
  eapply okp_seq; [apply (merge_all_part h its css true); auto|]. intros [t1 b1] (T1 & B1 & G). cbn [fst snd] in *.
  assert (NT : tops h css <> []).
  { destruct L as [_ [L|(cs & Hcs & E)]]; [lia|]. destruct cs as [|[id c] cs]; cbn [hd_id fst] in E; [lia|].
    subst id. intro E. assert (In c (tops h css)) as Hc by (apply tops_In; eauto). rewrite E in Hc. destruct Hc. }
  assert (ST : Forall sorted (tops h css)).
  { apply Forall_forall. intros c (r & Hr)%tops_In. rewrite Forall_forall in W. specialize (W _ Hr).
    apply wf_cons in W as ((_ & _ & Hc & _) & _). exact Hc. }
  assert (RT : in_chunk (unis (tops h css))).
  { apply Forall_forall. intros x (c & Hc & Hx)%In_unis; auto. apply tops_In in Hc as (r & Hr).
    rewrite Forall_forall in W. specialize (W _ Hr).
    apply wf_cons in W as ((_ & _ & _ & R) & _). cbn [snd] in R. rewrite Forall_forall in R. auto. }
  assert (Hh2 : h < 65535 /\ exists cs, In cs css /\ In h (map fst cs)).
  { destruct L as [_ [L|(cs & Hcs & E)]]; [lia|]. destruct cs as [|[id c] cs]; cbn [hd_id fst] in E; [lia|].
    rewrite Forall_forall in W. specialize (W _ Hcs). apply wf_cons in W as ((W & _) & _). cbn [fst] in W. split; [lia|].
    exists ((id, c) :: cs). split; auto. left. exact E. }
  destruct Hh2 as [Hh2 HIN].
  rewrite Z.shiftl_mul_pow2 by lia. change (2 ^ 16) with 65536. rewrite u32_id by lia.
  eapply okp_seq; [apply (bitmap_got (ok h) h b1 (unis (tops h css)) out pos); auto using sorted_unis; try lia|].
  { intro Ho. exact (G Ho [] eq_refl (or_intror NT)). }
  intros [o1 n1] G1. cbn [fst snd] in G1.
  destruct (next_headers_part h its css 65536 V Hlt) as (its1 & nx & -> & V1 & N1). cbn [bind].
  destruct (fold_min (map hd_id (map (popped h) css)) 65536) as (F1 & F2 & F3). rewrite <- N1 in F1, F2, F3.
  assert (LE : least nx (map (popped h) css)).
  { split; [apply (proj1 (Forall_map _ _ _)) in F2; exact F2|]. destruct F3 as [F3|F3]; auto. right.
    apply in_map_iff in F3 as (cs & E & Hcs). eauto. }
  assert (GT : h < nx).
  { destruct F3 as [F3|F3]; [lia|]. apply in_map_iff in F3 as (cs & E & Hcs).
    apply in_map_iff in Hcs as (cs0 & <- & H0c). destruct L as [L _]. rewrite Forall_forall in L, W.
    specialize (L _ H0c). specialize (W _ H0c). unfold popped in E. destruct cs0 as [|ch0 cs0]; cbn [hd_id] in E; [lia|].
    apply wf_cons in W as (_ & _ & W). cbn [hd_id] in L. destruct (Z.eqb_spec (fst ch0) h) as [E0|E0].
    - destruct cs0 as [|ch1 cs0]; cbn [hd_id] in E; [lia|]. inversion W; subst. lia.
    - cbn [hd_id] in E. lia. }
  eapply okp_mono; [apply (IH its1 (map (popped h) css) nx); auto; [lia|eapply got_room; eauto]|].
  intros [[[t2 b2] o2] p2] (gs & G2 & SG & RG & IG & UG). exists ((h, unis (tops h css)) :: gs).
  split; [eapply gone_cons; eauto|]. split; [|split; [|split]].
  - cbn [map fst]. constructor; auto. apply Forall_forall. intros x Hx. destruct (IG x Hx). lia.
  - constructor; auto.
  - cbn [map fst]. intros x [<-|Hx]; [split; [lia|auto]|]. destruct (IG x Hx) as [X1 (cs & Hcs & Hin)]. split; [lia|].
    apply in_map_iff in Hcs as (cs0 & <- & H0). exists cs0. split; auto. unfold popped in Hin. destruct cs0 as [|ch cs0]; [destruct Hin|].
    destruct (fst ch =? h); [now right|exact Hin].
  - rewrite ungroup_cons, UG, (unis_step mem h css) by auto. reflexivity.
Qed.

Lemma min_id_part its css : Forall2 view its css -> its <> [] -> exists h, min_id mem its = Ok h /\ least h css /\ 0 <= h <= 65536.
Proof.
  intros V N. destruct V as [|it cs its css V1 V2]; [easy|].
  assert (LP : forall its css m, Forall2 view its css ->
    min_id_loop mem its m = Ok (fold_left Z.min (map hd_id css) m)).
  { clear. induction its as [|it its IH]; intros css m V; inversion V as [|? cs ? css' V1 V2]; subst; auto.
    cbn [min_id_loop]. rewrite (id_view_id _ _ _ (proj1 V1)). cbn [bind map fold_left].
    fold (hd_id cs). rewrite (IH css') by auto. f_equal. f_equal. destruct (Z.ltb_spec (hd_id cs) m); lia. }
  cbn [min_id]. rewrite (id_view_id _ _ _ (proj1 V1)). cbn [bind]. fold (hd_id cs).
  rewrite (LP its css) by auto. eexists. split; [reflexivity|].
  destruct (fold_min (map hd_id css) (hd_id cs)) as (F1 & F2 & F3).
  set (m := fold_left Z.min (map hd_id css) (hd_id cs)) in *. split.
  - split; [constructor; auto; apply (proj1 (Forall_map _ _ _)) in F2; exact F2|]. right. destruct F3 as [F3|F3].
    + exists cs. split; [now left|auto].
    + apply in_map_iff in F3 as (cs' & E & H). exists cs'. split; [now right|auto].
  - pose proof (hd_id_range _ _ _ (proj1 V1)). destruct F3 as [F3|F3]; [lia|].
    apply in_map_iff in F3 as (cs' & E & Hin). rewrite <- E.
    assert (HV : forall l l', Forall2 view l l' -> In cs' l' -> exists it, view it cs').
    { clear. induction 1; intros []; subst; eauto. }
    destruct (HV _ _ V2 Hin) as (it' & V'). eapply hd_id_range. apply V'.
Qed.
End Mem.

Lemma ungroup_pieces C0 Cs hs : ungroup 65536 (map (fun h => (h, piece C0 Cs h)) hs) = pieces C0 Cs hs.
Proof. induction hs as [|h hs IH]; [reflexivity|]. cbn [map]. rewrite ungroup_cons, IH. reflexivity. Qed.
Lemma map_fst_pieces C0 Cs hs : map fst (map (fun h => (h, piece C0 Cs h)) hs) = hs.
Proof. rewrite map_map. cbn [fst]. apply map_id. Qed.

Lemma sorted_astray dbg mem addrs Ss (ok : Z -> Prop) seqs headers tmp bitmap out pos headers' tmp' bitmap' out' n I :
  Ss <> [] -> Forall valid Ss -> Forall is_byte mem -> Forall2 (intact 0 ok mem) addrs Ss ->
  Forall2 (fun a s => seq_at mem a = Ok s) addrs seqs ->
  zlen headers = 65536 -> room tmp -> room bitmap -> 0 <= pos <= zlen out ->
  intersection_sorted dbg mem seqs headers tmp bitmap out pos = Ok (headers', tmp', bitmap', out', n) ->
  enumerates (fun v => forall S, In S Ss -> In v S) I ->
  exists e, delivered out pos out' n e /\ agrees_on (fun h => forall S, In S Ss -> has_chunk S h) ok I e.
Proof.
  intros N V Hby St Es Hh Ht Hb Hp R En. destruct (intact_vector 0 ok mem addrs Ss ltac:(lia) V St) as (seqs' & E & I0).
  assert (seqs' = seqs) as -> by exact (reads_unique _ _ _ _ E Es). rename I0 into IV.
  assert (EX : exists hs, enumerates (common (map chunks_of Ss)) hs).
  { destruct Ss as [|S0 Ss]; [easy|]. cbn [map].
    exists (fold_left isect (map (map fst) (map chunks_of Ss)) (map fst (chunks_of S0))). split.
    - apply sorted_fold_isect. inversion V as [|? ? V0 VS]; subst. apply (valid_chunks S0 V0).
    - intro x. rewrite In_fold_isect. unfold common. split.
      + intros [H1 H2] C [<-|HC]; auto. apply H2. now apply in_map.
      + intro H. split; [apply H; now left|]. intros l Hl. apply in_map_iff in Hl as (C & <- & HC).
        apply H. now right. }
  destruct EX as (hs & EH).
  assert (OKC : forall h, common (map chunks_of Ss) h -> forall S, In S Ss -> has_chunk S h).
  { intros h Hc S HS. rewrite Forall_forall in V. apply has_chunk_fst; auto. apply Hc. now apply in_map. }
  destruct Ss as [|S0 Ss]; [easy|]. destruct seqs as [|s0 seqs]; [inversion IV|]. cbn [map] in *.
  assert (W : Forall wfc (chunks_of S0 :: map chunks_of Ss)).
  { rewrite <- (map_cons chunks_of). apply Forall_map. eapply Forall_impl; [|exact V].
    intros S HV. apply (valid_chunks S HV). }
  assert (EI : I = pieces (chunks_of S0) (map chunks_of Ss) hs).
  { eapply enumerates_unique; [exact En|]. pose proof (pieces_ok _ _ _ W EH) as [P1 P2]. split; auto. intro v. rewrite P2.
    rewrite <- (map_cons chunks_of), map_ungroup_chunks by auto. reflexivity. }
  unfold intersection_sorted in R. cbn [map] in R.
  change (iget (seq_begin s0 :: map seq_begin seqs) 0) with (Ok (seq_begin s0)) in R. cbn [bind] in R.
  inversion IV as [|? ? ? ? I0 IS]; subst. rewrite (id_view_id _ _ _ (proj1 I0)) in R. cbn [bind] in R.
  inversion V as [|? ? V0 VS]; subst.
  destruct (chunks_of S0) as [|[c0 l0] CS] eqn:EC0.
  { exfalso. destruct V0 as (V0 & _). apply V0. apply (group_nil 65536). exact EC0. }
  cbn [fst] in R. pose proof (id_view_wf _ _ _ _ (proj1 I0)) as (Hc0 & _). cbn [fst] in Hc0.
  assert (PF : forall l l' k, Forall2 (part_view 0 ok mem) l l' -> Forall2 (past mem k) l l').
  { clear. intros l l' k H. eapply Forall2_mono; [exact H|]. intros it C HV. exists [], C. split; auto. split; auto. apply HV. }
  destruct (candidate_loop_ok mem (((c0, l0) :: CS) :: map chunks_of Ss) (candidate_fuel (s0 :: seqs))
     [seq_begin s0] (map seq_begin seqs) [(c0, l0) :: CS] (map chunks_of Ss) c0 headers [])
     as (hd & hs' & EL & EH' & Ho').
  { reflexivity. }
  { discriminate. }
  { exact W. }
  { lia. }
  { unfold candidate_fuel. rewrite Z2Nat.id by lia. lia. }
  { left. constructor; auto. exists [], l0, CS. split; auto. split; auto. apply I0. }
  { apply PF. exact IS. }
  { split; [apply sorted_nil|]. intro x. split; [intros []|]. intros [Hx1 Hx2].
    specialize (Hx2 _ (in_eq _ _)). inversion W as [|? ? WC ?]; subst. apply wf_cons in WC as (_ & _ & WC).
    destruct Hx2 as [Hx2|Hx2]; cbn [fst] in *; [lia|]. apply in_map_iff in Hx2 as (ch & <- & Hch).
    rewrite Forall_forall in WC. specialize (WC _ Hch). lia. }
  { split; auto. rewrite zlen_nil. intros. lia. }
  rewrite zlen_nil in EL. change (zlen [seq_begin s0]) with 1 in EL. cbn [app] in EL. rewrite EL in R. cbn [bind] in R.
  assert (hs' = hs) as -> by (eapply enumerates_unique; eauto).
  replace (Z.to_nat (zlen hs)) with (length hs) in R by (unfold zlen; lia).
  assert (PF2 : forall h, Forall2 (past3 mem ok h) (seq_begin s0 :: map seq_begin seqs) (((c0, l0) :: CS) :: map chunks_of Ss)).
  { intros h. eapply Forall2_mono; [exact IV|]. intros it C HV. exists [], C. auto. }
  destruct (intersect_headers (length hs) dbg mem (seq_begin s0 :: map seq_begin seqs) hd 0 tmp bitmap out pos)
    as [[[[t3 b3] o3] p3]| | | |] eqn:E3; cbn [bind] in R; try discriminate.
  injection R as <- <- <- <- <-.
  pose proof (intersect_headers_gone dbg mem ok Hby ((c0, l0) :: CS) (map chunks_of Ss) hd hs hs []
    (seq_begin s0) (map seq_begin seqs) tmp bitmap out pos) as G. rewrite zlen_nil in G.
  specialize (G eq_refl Ho' (proj1 EH)). 
  assert (G' : gone ok (map (fun h => (h, piece ((c0, l0) :: CS) (map chunks_of Ss) h)) hs) out pos o3 p3).
  { refine (G _ W _ Ht Hb Hp _ E3); auto. apply Forall_forall. intros x Hx. now apply EH. }
  eapply gone_delivered; [| | | |exact G'].
  - rewrite map_fst_pieces. apply EH.
  - unfold ranged. apply Forall_map, Forall_forall. intros h Hin. cbn [snd]. apply EH in Hin.
    specialize (Hin _ (in_eq _ _)). inversion W as [|? ? W0 _]; subst.
    apply Forall_forall. intros x (Hx & _)%In_fold_isect.
    apply in_map_iff in Hin as ([id c] & Eid & Hc). cbn [fst] in Eid. subst id.
    destruct (in_split _ _ Hc) as (p1 & p2 & Ep). rewrite Ep in Hx, W0. rewrite chunk_of_mid in Hx.
    + destruct W0 as [_ W0]. rewrite Forall_forall in W0. specialize (W0 (h, c) (in_elt _ _ _)). destruct W0 as (_ & _ & _ & W0).
      cbn [snd] in W0. rewrite Forall_forall in W0. exact (W0 x Hx).
    + apply Forall_forall. intros ch Hch. change h with (fst (h, c)). eapply wf_app_lt; [exact W0|exact Hch|apply in_eq].
  - rewrite map_fst_pieces. intros h Hin. apply OKC. now apply EH.
  - apply ungroup_pieces.
Qed.

Lemma c60_intersection_many : forall dbg mem addrs Ss ok seqs seqs' headers tmp bitmap out pos headers' tmp' bitmap' out' n I,
  Ss <> [] -> Forall valid Ss -> Forall is_byte mem -> Forall2 (intact 0 ok mem) addrs Ss ->
  Forall2 (fun a s => seq_at mem a = Ok s) addrs seqs -> sort_outcome mem seqs seqs' ->
  zlen headers = 65536 -> zlen tmp = 1024 -> Forall is_word tmp -> zlen bitmap = 1024 -> Forall is_word bitmap -> 0 <= pos <= zlen out ->
  intersection_sorted dbg mem seqs' headers tmp bitmap out pos = Ok (headers', tmp', bitmap', out', n) ->
  enumerates (fun v => forall S, In S Ss -> In v S) I ->
  exists e, delivered out pos out' n e /\ agrees_on (fun h => forall S, In S Ss -> has_chunk S h) ok I e.
Proof.
  intros dbg mem addrs Ss ok seqs seqs' headers tmp bitmap out pos headers' tmp' bitmap' out' n I N V Hby St E [P _] Hh Ht HT Hb HB Hp R En.
  pose proof (F2_common _ _ _ _ _ _ _ _ E St) as F.
  destruct (F2_perm _ _ _ _ _ P _ F) as (Ss' & PS & F').
  apply F2_middle in F' as (addrs' & E' & St').
  destruct (sorted_astray dbg mem addrs' Ss' ok seqs' headers tmp bitmap out pos headers' tmp' bitmap' out' n I) as (e & D & (A1 & A2 & A3));
    auto; try (split; auto; fail).
  - intros ->. apply N. apply Permutation_nil. now apply Permutation_sym.
  - exact (Permutation_Forall PS V).
  - destruct En as [X Y]. split; auto. intro x. rewrite Y. split; intros H S HS; apply H.
    + exact (Permutation_in S (Permutation_sym PS) HS).
    + exact (Permutation_in S PS HS).
  - exists e. split; auto. split; [|split; auto]. eapply Forall_impl; [|exact A1]. cbn beta. intros v Hv S HS.
    apply Hv. exact (Permutation_in S PS HS).
Qed.

Lemma c60_union_many : forall dbg mem addrs Ss ok seqs tmp bitmap out pos tmp' bitmap' out' n I,
  Ss <> [] -> Forall valid Ss -> Forall is_byte mem -> Forall2 (intact 0 ok mem) addrs Ss ->
  Forall2 (fun a s => seq_at mem a = Ok s) addrs seqs ->
  zlen tmp = 1024 -> Forall is_word tmp -> zlen bitmap = 1024 -> Forall is_word bitmap -> 0 <= pos <= zlen out ->
  union_many dbg mem seqs tmp bitmap out pos = Ok (tmp', bitmap', out', n) ->
  enumerates (fun v => exists S, In S Ss /\ In v S) I ->
  exists e, delivered out pos out' n e /\ agrees_on (fun h => exists S, In S Ss /\ has_chunk S h) ok I e.
Proof.
  intros dbg mem addrs Ss ok seqs tmp bitmap out pos tmp' bitmap' out' n I N V Hby St Es Ht HT Hb HB Hp R En.
  destruct (intact_vector 0 ok mem addrs Ss ltac:(lia) V St) as (seqs' & E & IV).
  assert (seqs' = seqs) as -> by exact (reads_unique _ _ _ _ E Es).
  unfold union_many in R. destruct (min_id_part mem ok _ _ IV) as (h & Eh & L & Hh).
  { destruct Ss; [easy|]. inversion IV; congruence. }
  rewrite Eh in R. cbn [bind] in R.
  destruct (union_loop (union_fuel (map seq_begin seqs)) dbg mem (map seq_begin seqs) h tmp bitmap out pos)
    as [[[[t3 b3] o3] p3]| | | |] eqn:E3; cbn [bind] in R; try discriminate.
  injection R as <- <- <- <-.
  pose proof (union_many_gone dbg mem ok Hby _ _ _ h tmp bitmap out pos IV L Hh (conj Ht HT) (conj Hb HB) Hp _ E3) as (gs & G & SG & RG & IG & UG).
  rewrite map_ungroup_chunks in UG by auto.
  assert (I = unis Ss) as ->.
  { eapply enumerates_unique; [exact En|]. split; [apply sorted_unis, valid_sorted, V|]. intro. apply In_unis, valid_sorted, V. }
  eapply gone_delivered; [exact SG|exact RG| |exact UG|exact G].
  intros x Hx. destruct (IG x Hx) as [_ (cs & Hcs & Hin)]. apply in_map_iff in Hcs as (S & <- & HS). exists S. split; auto.
  apply has_chunk_fst; auto. rewrite Forall_forall in V. auto.
Qed.
