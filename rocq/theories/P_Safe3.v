(** The operations on many sequences with arbitrary data are defined. *)
From Verif Require Import Base Hw Spec Outcome Lib L_Bits L_Group Layout Format Damage M_Util M_Build M_Seq M_Decode M_Uncompress
  M_Many P_Build1 P_Build2 P_Build3 P_Seq P_Decode P_Uncompress P_Query P_Sets P_Enum P_Format P_Inter P_Union P_Many P_Many2 P_Fin1 P_Fin2 P_Fin3
  P_Total P_Reads P_Damage P_Damage2 P_Cut P_Spoil P_Spoil2 P_Lands P_Astray P_Astray3 P_Safe P_Safe2.
From Coq Require Import Lia Sorted Permutation.

Section Mem.
Variables (dbg : bool) (mem : list Z).
Hypothesis Hb : Forall is_byte mem.
Notation view := (far mem 8712).

(** ** words *)
Lemma and_words_fin word : forall n i c out, (forall k, i <= k < i + Z.of_nat n -> fin (word k) w64) -> 0 <= i -> i + Z.of_nat n <= zlen out ->
  fin (and_words_loop n word i c out) (fun _ => True).
Proof.
  induction n as [|n IH]; intros i c out W I0 I1; cbn [and_words_loop]; [now apply fin_ok|].
  destruct (znth_Some _ out i) as (o & Eo); [lia|]. unfold vget. rewrite Eo. cbn [bind].
  eapply fin_seq; [apply W; lia|]. intros w _. cbv zeta. eapply fin_seq; [apply vset_fin; lia|]. intros o1 L1. cbn beta in L1.
  apply IH; [intros k Hk; apply W; lia|lia|lia].
Qed.
Lemma or_words_fin word : forall n i out, (forall k, i <= k < i + Z.of_nat n -> fin (word k) w64) -> 0 <= i -> i + Z.of_nat n <= zlen out ->
  fin (or_words_loop n word i out) (fun _ => True).
Proof.
  induction n as [|n IH]; intros i out W I0 I1; cbn [or_words_loop]; [now apply fin_ok|].
  destruct (znth_Some _ out i) as (o & Eo); [lia|]. unfold vget. rewrite Eo. cbn [bind].
  eapply fin_seq; [apply W; lia|]. intros w _. eapply fin_seq; [apply vset_fin; lia|]. intros o1 L1. cbn beta in L1.
  apply IH; [intros k Hk; apply W; lia|lia|lia].
Qed.
Lemma fin_okp A (r : res A) Q : fin r (fun _ => True) -> okp r Q -> fin r Q.
Proof. intros (x & -> & _) H. exists x. split; auto. Qed.
Lemma vec_words v : room v -> forall k, 0 <= k < 0 + Z.of_nat (Z.to_nat chunk_size_in_64bit_words) -> fin (words_vec v k) w64.
Proof. intros [L F] k Hk. change chunk_size_in_64bit_words with 1024 in Hk. apply fin_vec; auto. lia. Qed.
Lemma mem_words a : rdb mem 8712 a -> forall k, 0 <= k < 0 + Z.of_nat (Z.to_nat chunk_size_in_64bit_words) -> fin (words_mem mem a k) w64.
Proof. intros [A B] k Hk. change chunk_size_in_64bit_words with 1024 in Hk. apply fin_mem; auto; lia. Qed.
Lemma chunk_and_fin it id c cs tmp out k : view it ((id, c) :: cs) -> room tmp -> room out ->
  fin (uncompress_chunk_and_intersect dbg mem it tmp out k) (fun r => room (fst (fst r)) /\ room (snd (fst r))).
Proof.
  intros V T O. eapply fin_okp; [|eapply okp_mono; [apply (and_room dbg mem (fun _ => True) Hb); auto|]].
  2:{ cbn beta. intros [[t o] n] H. exact H. }
  pose proof (far_rdb _ _ _ _ V) as R. destruct V as (V & _). pose proof (blocks_count _ _ (id_view_wf _ _ _ _ V)) as B.
  assert (S : forall v : list Z, room v -> 0 + Z.of_nat (Z.to_nat chunk_size_in_64bit_words) <= zlen v).
  { intros v [L _]. change chunk_size_in_64bit_words with 1024. lia. }
  unfold uncompress_chunk_and_intersect. rewrite (id_view_type _ _ _ _ _ V). cbn [bind].
  destruct (kind_of c) eqn:K; cbn [t_full t_dense t_sparse Z.eqb Pos.eqb].
  - rewrite (id_view_blocks _ _ _ _ _ V K). cbn [bind]. unfold uncompress_sparse_chunk_and_intersect. cbv zeta.
    eapply fin_seq; [apply sparse_vec_fin; auto; apply T|]. intros t HT.
    eapply fin_seq; [apply and_words_fin; [apply vec_words, HT|lia|apply S, O]|]. intros [o n] _. apply fin_ok. exact I.
  - unfold uncompress_dense_chunk_and_intersect.
    eapply fin_seq; [apply and_words_fin; [apply mem_words, R|lia|apply S, O]|]. intros [o n] _. apply fin_ok. exact I.
  - apply fin_ok. exact I.
Qed.
Lemma chunk_or_fin it id c cs tmp out : view it ((id, c) :: cs) -> room tmp -> room out ->
  fin (uncompress_chunk_and_merge dbg mem it tmp out) (fun r => room (fst r) /\ room (snd r)).
Proof.
  intros V T O. eapply fin_okp; [|apply (or_room dbg mem (fun _ => True) Hb); auto].
  pose proof (far_rdb _ _ _ _ V) as R. destruct V as (V & _). pose proof (blocks_count _ _ (id_view_wf _ _ _ _ V)) as B.
  assert (S : forall v : list Z, room v -> 0 + Z.of_nat (Z.to_nat chunk_size_in_64bit_words) <= zlen v).
  { intros v [L _]. change chunk_size_in_64bit_words with 1024. lia. }
  unfold uncompress_chunk_and_merge. rewrite (id_view_type _ _ _ _ _ V). cbn [bind].
  destruct (kind_of c) eqn:K; cbn [t_full t_dense t_sparse Z.eqb Pos.eqb].
  - rewrite (id_view_blocks _ _ _ _ _ V K). cbn [bind]. unfold uncompress_sparse_chunk_and_merge. cbv zeta.
    eapply fin_seq; [apply sparse_vec_fin; auto; apply T|]. intros t HT.
    eapply fin_seq; [apply or_words_fin; [apply vec_words, HT|lia|apply S, O]|]. intros o _. apply fin_ok. exact I.
  - unfold uncompress_dense_chunk_and_merge.
    eapply fin_seq; [apply or_words_fin; [apply mem_words, R|lia|apply S, O]|]. intros o _. apply fin_ok. exact I.
  - unfold uncompress_full_chunk_and_merge. eapply fin_seq; [apply fill_fin; [lia|apply S, O]|]. intros o _. apply fin_ok. exact I.
Qed.
Lemma chunk_unc_fin it id c cs out : view it ((id, c) :: cs) -> room out ->
  fin (uncompress_chunk dbg mem it out 0) (fun r => room (fst r) /\ snd r = zlen c).
Proof.
  intros V O. eapply fin_okp; [|apply (unc_room dbg mem (fun _ => True) Hb it id c cs); [apply V|exact O]].
  pose proof (far_rdb _ _ _ _ V) as [R1 R2]. destruct O as [O _].
  eapply fin_mono; [apply (uncompress_chunk_fin mem Hb dbg it id c cs); try apply V; lia|auto].
Qed.
Lemma bitmap_dec_fin b base out pos : room b -> 0 <= pos -> pos + 65536 <= zlen out ->
  fin (decode_bitmap (words_vec b) 1024 base out pos) (fun r => zlen (fst r) = zlen out /\ 0 <= snd r <= 65536).
Proof.
  intros [L F] P0 P1. unfold decode_bitmap. eapply fin_seq; [apply (fin_any_bitmap _ 1024); try lia|].
  - intros i Hi. apply fin_vec; auto. lia.
  - intros [o s] [Lo S]. cbn [fst snd] in *. apply fin_ok. cbn [fst snd]. rewrite u32_id by lia. lia.
Qed.

(** ** intersection *)
Definition pastf (h : Z) (it : iterator) (C : list (Z * list Z)) : Prop :=
  exists pre suf, C = pre ++ suf /\ Forall (fun ch => fst ch < h) pre /\ view it suf.
Lemma pastf_mono c c' it C : pastf c it C -> c <= c' -> pastf c' it C.
Proof.
  intros (pre & suf & E & F & V) H. exists pre, suf. split; auto. split; auto.
  eapply Forall_impl; [|exact F]. cbn beta. intros. lia.
Qed.
Lemma pastf_move h it C :
  pastf h it C -> 0 <= h < 65536 -> In h (map fst C) -> wfc C ->
  exists it' suf, it_advance mem it h = Ok it' /\ view it' ((h, chunk_of h C) :: suf) /\ pastf h it' C.
Proof.
  intros (pre & suf & E & F & V) Hh Hi W.
  destruct (far_advance mem 8712 it suf h V ltac:(lia)) as (it' & pre2 & suf2 & -> & (D1 & D2 & D3) & V2).
  assert (EC : C = (pre ++ pre2) ++ suf2) by (rewrite <- app_assoc, <- D1; exact E).
  assert (FP : Forall (fun ch => fst ch < h) (pre ++ pre2)) by (apply Forall_app; auto).
  clear E D1 F D2. set (P := pre ++ pre2) in *. subst C.
  rewrite map_app in Hi. apply in_app_or in Hi as [Hi|Hi].
  { apply in_map_iff in Hi as (ch & <- & Hch). rewrite Forall_forall in FP. specialize (FP _ Hch). lia. }
  destruct suf2 as [|[id c] suf2]; [destruct Hi|].
  apply wf_app in W as [_ W]. apply wf_cons in W as (_ & _ & W). inversion D3 as [|? ? D4 D5]; subst. cbn [fst] in *.
  assert (id = h) as ->.
  { destruct Hi as [Hi|Hi]; [exact Hi|]. apply in_map_iff in Hi as (ch & <- & Hch).
    rewrite Forall_forall in W. specialize (W _ Hch). lia. }
  exists it', suf2. rewrite chunk_of_mid by auto. split; auto. split; auto. exists P, ((h, c) :: suf2). auto.
Qed.
Lemma and_rest_fin h : forall its Cs tmp bitmap k,
  0 <= h < 65536 -> Forall2 (pastf h) its Cs -> Forall wfc Cs -> common Cs h -> room tmp -> room bitmap ->
  fin (and_rest dbg mem its h tmp bitmap k) (fun r => let '(its', t, b, _, _) := r in
    Forall2 (pastf h) its' Cs /\ room t /\ room b).
Proof.
  induction its as [|it its IH]; intros Cs tmp bitmap k Hh P W Hc Ht Hbm;
    inversion P as [|? C ? Cs' P1 P2]; subst; cbn [and_rest].
  - apply fin_ok. auto.
  - inversion W as [|? ? W1 W2]; subst.
    destruct (pastf_move h it C P1 Hh (Hc C (in_eq _ _)) W1) as (it' & suf & -> & V & P'). cbn [bind].
    rewrite (id_view_id _ _ _ (proj1 V)). cbn [bind fst]. rewrite assert_ok by apply Z.eqb_refl. cbn [bind].
    eapply fin_seq; [eapply chunk_and_fin; eauto|]. intros [[t b] k2] [T B]. cbn [fst snd] in T, B. destruct (k2 =? 0); [apply fin_ok; auto|].
    eapply fin_seq; [apply (IH Cs' t b k2); auto|].
    { intros C' H'. apply Hc. now right. }
    intros [[[[its' t2] b2] k3] sk] (I2 & T2 & B2). apply fin_ok. auto.
Qed.
Lemma intersect_headers_fin C0 Cs headers hs : forall hs2 hs1 it0 its tmp bitmap out pos,
  hs = hs1 ++ hs2 -> holds headers hs -> sorted hs -> Forall (common (C0 :: Cs)) hs -> Forall wfc (C0 :: Cs) ->
  (forall h, In h hs2 -> Forall2 (pastf h) (it0 :: its) (C0 :: Cs)) ->
  room tmp -> room bitmap -> 0 <= pos -> pos + 65536 * zlen hs2 <= zlen out ->
  fin (intersect_headers (length hs2) dbg mem (it0 :: its) headers (zlen hs1) tmp bitmap out pos) (fun _ => True).
Proof.
  induction hs2 as [|h hs2 IH]; intros hs1 it0 its tmp bitmap out pos EH Ho SH HC W HP Ht Hbm P0 PR.
  - cbn [length intersect_headers]. now apply fin_ok.
  - cbn [length intersect_headers]. rewrite zlen_cons in PR. pose proof (zlen_nonneg _ hs2).
    assert (Hh : common (C0 :: Cs) h).
    { rewrite Forall_forall in HC. apply HC. rewrite EH. apply in_or_app. right. now left. }
    pose proof (Hh C0 (in_eq _ _)) as Hh0. inversion W as [|? ? W0 WS]; subst x l.
    assert (Rh : 0 <= h < 65535).
    { apply in_map_iff in Hh0 as (ch & <- & Hch). destruct W0 as [_ W0]. rewrite Forall_forall in W0. apply W0. auto. }
    assert (EV : vget headers (zlen hs1) = Ok h).
    { unfold vget. destruct Ho as [_ Ho]. rewrite (Ho (zlen hs1)).
      - rewrite EH, znth_app_r by lia. rewrite Z.sub_diag. reflexivity.
      - rewrite EH, zlen_app, zlen_cons. zpos. lia. }
    rewrite EV. cbn [bind].
    pose proof (HP h (in_eq _ _)) as P. inversion P as [|? ? ? ? Q0 P1]; subst x l y l'.
    destruct (pastf_move h it0 C0 Q0 ltac:(lia) Hh0 W0) as (it' & suf & -> & V & P'). cbn [bind].
    rewrite (id_view_id _ _ _ (proj1 V)). cbn [bind fst]. rewrite assert_ok by apply Z.eqb_refl. cbn [bind].
    assert (Hcs : common Cs h) by (intros C' H'; apply Hh; now right).
    eapply fin_seq; [eapply chunk_unc_fin; eauto|]. intros [b1 k1] [B1 N1]. cbn [fst snd] in B1, N1.
    eapply fin_seq; [apply (and_rest_fin h its Cs tmp b1); auto; lia|]. intros [[[[its' t2] b2] k2] sk] (I2 & T2 & B2).
    assert (HP' : forall h', In h' hs2 -> Forall2 (pastf h') (it' :: its') (C0 :: Cs)).
    { intros h' Hh'. assert (h < h').
      { rewrite EH in SH. apply sorted_app_inv in SH as (_ & SH & _). apply sorted_inv in SH as [_ SH].
        rewrite Forall_forall in SH. auto. }
      constructor; [eapply pastf_mono; eauto; lia|]. eapply Forall2_mono; [exact I2|].
      intros. eapply pastf_mono; eauto; lia. }
    assert (EH' : hs = (hs1 ++ [h]) ++ hs2) by (rewrite <- app_assoc; exact EH).
    assert (EL : zlen (hs1 ++ [h]) = zlen hs1 + 1) by (rewrite zlen_app; reflexivity).
    rewrite <- EL. destruct sk.
    + apply IH; auto. lia.
    + eapply fin_seq; [apply bitmap_dec_fin; auto; lia|]. intros [o1 n1] [Lo N]. cbn [fst snd] in *. apply IH; auto; lia.
Qed.

(** ** union *)
Lemma merge_all_fin h : forall its css first tmp bitmap,
  Forall2 view its css -> room tmp -> room bitmap -> h < 65536 ->
  fin (merge_all dbg mem its h first tmp bitmap) (fun r => room (fst r) /\ room (snd r)).
Proof.
  induction its as [|it its IH]; intros css first tmp bitmap V Ht Hbm Hh; inversion V as [|? cs ? css' V1 V2]; subst; cbn [merge_all].
  - now apply fin_ok.
  - rewrite (id_view_id _ _ _ (proj1 V1)). cbn [bind]. destruct cs as [|[id c] cs].
    { destruct (Z.eqb_spec 65536 h); [lia|]. eapply IH; eauto. }
    cbn [fst]. destruct (Z.eqb_spec id h) as [E|E]; [|eapply IH; eauto]. destruct first.
    + eapply fin_seq; [eapply chunk_unc_fin; eauto|]. intros [b1 k1] [B1 _]. cbn [fst] in B1. eapply IH; eauto.
    + eapply fin_seq; [eapply chunk_or_fin; eauto|]. intros [t1 b1] [T1 B1]. cbn [fst snd] in *. eapply IH; eauto.
Qed.
Lemma next_headers_far h : forall its css next,
  Forall2 view its css -> h < 65536 ->
  exists its' next', next_headers mem its h next = Ok (its', next')
    /\ Forall2 view its' (map (popped h) css)
    /\ next' = fold_left Z.min (map hd_id (map (popped h) css)) next.
Proof.
  induction its as [|it its IH]; intros css next V Hh.
  - inversion V; subst. exists [], next. cbn. auto.
  - inversion V as [|? cs ? css' V1 V2]; subst. cbn [next_headers].
    rewrite (id_view_id _ _ _ (proj1 V1)). cbn [bind map fold_left].
    assert (P : exists it', (if (match cs with [] => 65536 | ch :: _ => fst ch end) =? h
                             then it_next mem it else Ok it) = Ok it' /\ view it' (popped h cs)).
    { unfold popped. destruct cs as [|[id c] cs].
      - destruct (Z.eqb_spec 65536 h); [lia|]. exists it. auto.
      - cbn [fst]. destruct (Z.eqb_spec id h); [|exists it; auto].
        destruct (far_next _ _ _ _ _ _ V1) as (it' & -> & V'). exists it'. auto. }
    destruct P as (it' & -> & V'). cbn [bind].
    rewrite (id_view_id _ _ _ (proj1 V')). cbn [bind].
    destruct (IH css' (Z.min next (hd_id (popped h cs))) V2 Hh) as (its2 & n2 & E2 & V3 & N2).
    fold (hd_id (popped h cs)).
    replace (if hd_id (popped h cs) <? next then hd_id (popped h cs) else next)
      with (Z.min next (hd_id (popped h cs))) by (destruct (Z.ltb_spec (hd_id (popped h cs)) next); lia).
    rewrite E2. cbn [bind]. exists (it' :: its2), n2. auto.
Qed.
Lemma fars_wfc its css : Forall2 view its css -> Forall wfc css.
Proof. intro V. induction V as [|it cs its css V1 V2]; constructor; auto. apply V1. Qed.

Lemma min_id_far its css : Forall2 view its css -> its <> [] -> exists h, min_id mem its = Ok h /\ least h css /\ 0 <= h <= 65536.
Proof.
  intros V N. destruct V as [|it cs its css V1 V2]; [easy|].
  assert (LP : forall its css m, Forall2 view its css ->
    min_id_loop mem its m = Ok (fold_left Z.min (map hd_id css) m)).
  { clear. induction its as [|it its IH]; intros css m V; inversion V as [|? cs ? css' V1 V2]; subst; auto.
    cbn [min_id_loop]. rewrite (id_view_id _ _ _ (proj1 V1)). cbn [bind map fold_left].
    fold (hd_id cs). rewrite (IH css') by auto. f_equal. f_equal. destruct (Z.ltb_spec (hd_id cs) m); lia. }
  cbn [min_id]. rewrite (id_view_id _ _ _ (proj1 V1)). cbn [bind]. fold (hd_id cs).
  rewrite (LP its css) by auto. eexists. split; [reflexivity|].
  destruct (fold_min (map hd_id css) (hd_id cs)) as (F1 & F2 & F3).
  set (m := fold_left Z.min (map hd_id css) (hd_id cs)) in *. split.
  - split; [constructor; auto; apply (proj1 (Forall_map _ _ _)) in F2; exact F2|]. right. destruct F3 as [F3|F3].
    + exists cs. split; [now left|auto].
    + apply in_map_iff in F3 as (cs' & E & H). exists cs'. split; [now right|auto].
  - pose proof (hd_id_range _ _ _ (proj1 V1)). destruct F3 as [F3|F3]; [lia|].
    apply in_map_iff in F3 as (cs' & E & Hin). rewrite <- E.
    assert (HV : forall l l', Forall2 view l l' -> In cs' l' -> exists it, view it cs').
    { clear. induction 1; intros []; subst; eauto. }
    destruct (HV _ _ V2 Hin) as (it' & V'). eapply hd_id_range. apply V'.
Qed.

Lemma filter_drop h hs : In h hs -> zlen (filter (fun x => h <? x) hs) + 1 <= zlen hs.
Proof.
  induction hs as [|x hs IH]; [intros []|]. intros [->|H]; cbn [filter].
  - rewrite Z.ltb_irrefl, zlen_cons. unfold zlen. pose proof (filter_length_le _ (fun x => h <? x) hs). lia.
  - specialize (IH H). destruct (h <? x); rewrite !zlen_cons; lia.
Qed.
Lemma union_many_fin : forall fuel its css h hs tmp bitmap out pos,
  65536 - h <= Z.of_nat fuel -> Forall2 view its css -> least h css -> 0 <= h <= 65536 ->
  (forall cs ch, In cs css -> In ch cs -> In (fst ch) hs) -> room tmp -> room bitmap -> 0 <= pos -> pos + 65536 * zlen hs <= zlen out ->
  fin (union_loop fuel dbg mem its h tmp bitmap out pos) (fun _ => True).
Proof.
  induction fuel as [|f IH]; intros its css h hs tmp bitmap out pos Hf V L Hh HI Ht Hbm P0 P1; pose proof (fars_wfc _ _ V) as W; cbn [union_loop].
  all: destruct (Z.ltb_spec h 65536) as [Hlt|]; [|now apply fin_ok]. { lia. }
  eapply fin_seq; [apply (merge_all_fin h its css true); auto|]. intros [t1 b1] (T1 & B1). cbn [fst snd] in *.
  assert (HIN : In h hs).
  { destruct L as [_ [L|(cs & Hcs & E)]]; [lia|]. destruct cs as [|[id c] cs]; cbn [hd_id fst] in E; [lia|]. subst id.
    apply (HI _ (h, c) Hcs). now left. }
  pose proof (filter_drop h hs HIN) as FD. pose proof (zlen_nonneg _ (filter (fun x => h <? x) hs)).
  eapply fin_seq; [apply bitmap_dec_fin; auto; lia|]. intros [o1 n1] [Lo N]. cbn [fst snd] in *.
  destruct (next_headers_far h its css 65536 V Hlt) as (its1 & nx & -> & V1 & N1). cbn [bind].
  destruct (fold_min (map hd_id (map (popped h) css)) 65536) as (F1 & F2 & F3). rewrite <- N1 in F1, F2, F3.
  assert (LE : least nx (map (popped h) css)).
  { split; [apply (proj1 (Forall_map _ _ _)) in F2; exact F2|]. destruct F3 as [F3|F3]; auto. right.
    apply in_map_iff in F3 as (cs & E & Hcs). eauto. }
  assert (UP : forall cs ch, In cs (map (popped h) css) -> In ch cs -> h < fst ch /\ In (fst ch) hs).
  { intros cs ch Hcs Hch. apply in_map_iff in Hcs as (cs0 & <- & H0c). destruct L as [L _]. rewrite Forall_forall in L, W.
    specialize (L _ H0c). specialize (W _ H0c). unfold popped in Hch. destruct cs0 as [|ch0 cs0]; [destruct Hch|].
    apply wf_cons in W as (_ & _ & W). rewrite Forall_forall in W. cbn [hd_id] in L. destruct (Z.eqb_spec (fst ch0) h) as [E0|E0].
    - split; [specialize (W _ Hch); lia|]. apply (HI _ _ H0c). now right.
    - split; [|apply (HI _ _ H0c); exact Hch]. destruct Hch as [<-|Hch]; [lia|]. specialize (W _ Hch). lia. }
  assert (GT : h < nx).
  { destruct F3 as [F3|F3]; [lia|]. apply in_map_iff in F3 as (cs & E & Hcs). destruct cs as [|ch cs]; cbn [hd_id] in E; [lia|].
    destruct (UP _ ch Hcs (in_eq _ _)). lia. }
  apply (IH its1 (map (popped h) css) nx (filter (fun x => h <? x) hs)); auto; try lia.
  intros cs ch Hcs Hch. destruct (UP cs ch Hcs Hch) as [U1 U2]. apply filter_In. split; auto. now apply Z.ltb_lt.
Qed.
End Mem.

Lemma intact_fars ok mem addrs Ss seqs : Forall valid Ss -> Forall2 (intact 0 ok mem) addrs Ss ->
  Forall2 (fun a s => seq_at mem a = Ok s) addrs seqs -> Forall2 (fun a S => a + zlen (f_sequence S) + 8712 <= zlen mem) addrs Ss ->
  Forall2 (far mem 8712) (map seq_begin seqs) (map chunks_of Ss).
Proof.
  intros V I. revert seqs. induction I as [|a S addrs Ss I1 I2 IH]; intros seqs E L; inversion E; subst; cbn [map]; constructor.
  - inversion V; inversion L; subst. eapply intact_far_at; eauto.
  - inversion V; inversion L; subst. apply IH; auto.
Qed.
Lemma sorted_safe dbg mem addrs Ss ok seqs headers tmp bitmap out pos Hs :
  Ss <> [] -> Forall valid Ss -> Forall is_byte mem -> Forall2 (intact 0 ok mem) addrs Ss ->
  Forall2 (fun a s => seq_at mem a = Ok s) addrs seqs -> Forall2 (fun a S => a + zlen (f_sequence S) + 8712 <= zlen mem) addrs Ss ->
  zlen headers = 65536 -> room tmp -> room bitmap -> 0 <= pos ->
  (forall h, (forall S, In S Ss -> has_chunk S h) -> In h Hs) -> pos + 65536 * zlen Hs <= zlen out ->
  exists r, intersection_sorted dbg mem seqs headers tmp bitmap out pos = Ok r.
Proof.
  intros N V Hby St Es HL Hh Ht Hb P0 HH P1. pose proof (intact_fars _ _ _ _ _ V St Es HL) as IV.
  assert (EX : exists hs, enumerates (common (map chunks_of Ss)) hs).
  { destruct Ss as [|S0 Ss]; [easy|]. cbn [map].
    exists (fold_left isect (map (map fst) (map chunks_of Ss)) (map fst (chunks_of S0))). split.
    - apply sorted_fold_isect. inversion V as [|? ? V0 VS]; subst. apply (valid_chunks S0 V0).
    - intro x. rewrite In_fold_isect. unfold common. split.
      + intros [H1 H2] C [<-|HC]; auto. apply H2. now apply in_map.
      + intro H. split; [apply H; now left|]. intros l Hl. apply in_map_iff in Hl as (C & <- & HC).
        apply H. now right. }
  destruct EX as (hs & EH).
  assert (OKC : forall h, common (map chunks_of Ss) h -> forall S, In S Ss -> has_chunk S h).
  { intros h Hc S HS. rewrite Forall_forall in V. apply has_chunk_fst; auto. apply Hc. now apply in_map. }
  destruct Ss as [|S0 Ss]; [easy|]. destruct seqs as [|s0 seqs]; [inversion IV|]. cbn [map] in *.
  assert (W : Forall wfc (chunks_of S0 :: map chunks_of Ss)).
  { rewrite <- (map_cons chunks_of). apply Forall_map. eapply Forall_impl; [|exact V].
    intros S HV. apply (valid_chunks S HV). }
  unfold intersection_sorted. cbn [map].
  change (iget (seq_begin s0 :: map seq_begin seqs) 0) with (Ok (seq_begin s0)). cbn [bind].
  inversion IV as [|? ? ? ? I0 IS]; subst. rewrite (id_view_id _ _ _ (proj1 I0)). cbn [bind].
  inversion V as [|? ? V0 VS]; subst.
  destruct (chunks_of S0) as [|[c0 l0] CS] eqn:EC0.
  { exfalso. destruct V0 as (V0 & _). apply V0. apply (group_nil 65536). exact EC0. }
  cbn [fst]. pose proof (id_view_wf _ _ _ _ (proj1 I0)) as (Hc0 & _). cbn [fst] in Hc0.
  assert (PF : forall l l' k, Forall2 (far mem 8712) l l' -> Forall2 (past mem k) l l').
  { clear. intros l l' k H. eapply Forall2_mono; [exact H|]. intros it C HV. exists [], C. split; auto. split; auto. apply HV. }
  destruct (candidate_loop_ok mem (((c0, l0) :: CS) :: map chunks_of Ss) (candidate_fuel (s0 :: seqs))
     [seq_begin s0] (map seq_begin seqs) [(c0, l0) :: CS] (map chunks_of Ss) c0 headers [])
     as (hd & hs' & EL & EH' & Ho').
  { reflexivity. }
  { discriminate. }
  { exact W. }
  { lia. }
  { unfold candidate_fuel. rewrite Z2Nat.id by lia. lia. }
  { left. constructor; auto. exists [], l0, CS. split; auto. split; auto. apply I0. }
  { apply PF. exact IS. }
  { split; [apply sorted_nil|]. intro x. split; [intros []|]. intros [Hx1 Hx2].
    specialize (Hx2 _ (in_eq _ _)). inversion W as [|? ? WC ?]; subst. apply wf_cons in WC as (_ & _ & WC).
    destruct Hx2 as [Hx2|Hx2]; cbn [fst] in *; [lia|]. apply in_map_iff in Hx2 as (ch & <- & Hch).
    rewrite Forall_forall in WC. specialize (WC _ Hch). lia. }
  { split; auto. rewrite zlen_nil. intros. lia. }
  rewrite zlen_nil in EL. change (zlen [seq_begin s0]) with 1 in EL. cbn [app] in EL. rewrite EL. cbn [bind].
  assert (hs' = hs) as -> by (eapply enumerates_unique; eauto).
  replace (Z.to_nat (zlen hs)) with (length hs) by (unfold zlen; lia).
  assert (LE : zlen hs <= zlen Hs).
  { assert (NoDup hs) as ND by (apply sorted_NoDup; apply EH). unfold zlen. apply inj_le. apply NoDup_incl_length; auto.
    intros h Hin. apply HH, OKC. now apply EH. }
  destruct (intersect_headers_fin dbg mem Hby ((c0, l0) :: CS) (map chunks_of Ss) hd hs hs []
    (seq_begin s0) (map seq_begin seqs) tmp bitmap out pos) as ([[[t3 b3] o3] p3] & E3 & _); auto; try lia.
  { apply EH. }
  { apply Forall_forall. intros x Hx. now apply EH. }
  { intros h _. eapply Forall2_mono; [exact IV|]. intros it C HV. exists [], C. auto. }
  rewrite zlen_nil in E3. rewrite E3. cbn [bind]. eauto.
Qed.
Lemma c61_intersection_many : forall dbg mem addrs Ss seqs seqs' headers tmp bitmap out pos Hs,
  Ss <> [] -> Forall valid Ss -> Forall is_byte mem -> Forall2 (intact 0 (fun _ => False) mem) addrs Ss ->
  Forall2 (fun a s => seq_at mem a = Ok s) addrs seqs -> sort_outcome mem seqs seqs' ->
  Forall2 (fun a S => a + zlen (f_sequence S) + 8712 <= zlen mem) addrs Ss ->
  zlen headers = 65536 -> zlen tmp = 1024 -> Forall is_word tmp -> zlen bitmap = 1024 -> Forall is_word bitmap -> 0 <= pos ->
  (forall h, (forall S, In S Ss -> has_chunk S h) -> In h Hs) -> pos + 65536 * zlen Hs <= zlen out ->
  exists r, intersection_sorted dbg mem seqs' headers tmp bitmap out pos = Ok r.
Proof.
  intros dbg mem addrs Ss seqs seqs' headers tmp bitmap out pos Hs N V Hby St E [P _] HL Hh Ht HT Hb HB P0 HH P1.
  assert (St2 : Forall2 (fun a S => intact 0 (fun _ => False) mem a S /\ a + zlen (f_sequence S) + 8712 <= zlen mem) addrs Ss).
  { clear -St HL. revert HL. induction St; intro HL; inversion HL; subst; constructor; auto. }
  pose proof (F2_common _ _ _ _ _ _ _ _ E St2) as F.
  destruct (F2_perm _ _ _ _ _ P _ F) as (Ss' & PS & F').
  apply F2_middle in F' as (addrs' & E' & St').
  apply (sorted_safe dbg mem addrs' Ss' (fun _ => False) seqs' headers tmp bitmap out pos Hs); auto; try (split; auto; fail).
  - intros ->. apply N. apply Permutation_nil. now apply Permutation_sym.
  - exact (Permutation_Forall PS V).
  - eapply Forall2_mono; [exact St'|]. cbn beta. tauto.
  - eapply Forall2_mono; [exact St'|]. cbn beta. tauto.
  - intros h Hc. apply HH. intros S HS. apply Hc. exact (Permutation_in S PS HS).
Qed.
Lemma c61_union_many : forall dbg mem addrs Ss seqs tmp bitmap out pos Hs,
  Ss <> [] -> Forall valid Ss -> Forall is_byte mem -> Forall2 (intact 0 (fun _ => False) mem) addrs Ss ->
  Forall2 (fun a s => seq_at mem a = Ok s) addrs seqs ->
  Forall2 (fun a S => a + zlen (f_sequence S) + 8712 <= zlen mem) addrs Ss ->
  zlen tmp = 1024 -> Forall is_word tmp -> zlen bitmap = 1024 -> Forall is_word bitmap -> 0 <= pos ->
  (forall h S, In S Ss -> has_chunk S h -> In h Hs) -> pos + 65536 * zlen Hs <= zlen out ->
  exists r, union_many dbg mem seqs tmp bitmap out pos = Ok r.
Proof.
  intros dbg mem addrs Ss seqs tmp bitmap out pos Hs N V Hby St E HL Ht HT Hb HB P0 HH P1.
  pose proof (intact_fars _ _ _ _ _ V St E HL) as IV. unfold union_many. cbv zeta.
  destruct (min_id_far mem (map seq_begin seqs) (map chunks_of Ss) IV) as (h & -> & L & Hh).
  { intro E0. rewrite E0 in IV. inversion IV. destruct Ss; [easy|discriminate]. }
  cbn [bind].
  destruct (union_many_fin dbg mem Hby (union_fuel (map seq_begin seqs)) (map seq_begin seqs) (map chunks_of Ss) h Hs tmp bitmap out pos)
    as ([[[t3 b3] o3] p3] & -> & _); auto; try (split; auto; fail).
  - unfold union_fuel. rewrite Nat2Z.inj_add, Z2Nat.id by lia. lia.
  - intros cs ch Hcs Hch. apply in_map_iff in Hcs as (S & <- & HS). apply (HH (fst ch) S HS). rewrite Forall_forall in V.
    apply has_chunk_fst; auto. now apply in_map.
  - cbn [bind]. eauto.
Qed.
