(** The operations on several sequences pause with the bitmap of the result in the shared vector. *)
From Verif Require Import Base Hw Spec Format Lib L_Bits L_Group Layout M_Util M_Seq M_Decode M_Uncompress M_Intersect
  M_Union M_Many M_Calls M_Conc M_Threads P_Build1 P_Seq P_Decode P_Uncompress P_Inter P_Union P_Many P_Many2 P_Sets P_Format P_Room P_RoomInter P_RoomUnion
  P_Scratch P_Conc P_Threads1 P_Threads3.
From Coq Require Import Lia.

Lemma ro_dbl pos n : forall i base buf size, ro (decode_bitmap_loop_c n i base buf pos size).
Proof.
  induction n as [|n IH]; intros; [exact I|]. cbn [decode_bitmap_loop_c]. apply ro_get. intro w.
  apply ro_bind; [exact I|]. intros [o k]. apply IH.
Qed.
Lemma ro_db n base out pos : ro (decode_bitmap_c n base out pos).
Proof. unfold decode_bitmap_c. apply ro_bind; [apply ro_dbl|]. intros [o k]. exact I. Qed.
Lemma db_fits h c b out pos : wfc1 (h, c) -> h < 65536 -> bm_at (reg b 0) 1024 (memb c) -> 0 <= pos <= zlen out ->
  fits out pos (map (addb (h * 65536)) c) (decode_bitmap (words_vec b) 1024 (h * 65536) out pos).
Proof.
  intros (Hh & _ & Sc & Rc) Hlt B Hp. cbn [fst snd] in *. unfold fits. rewrite zlen_map.
  destruct (Z.leb_spec (pos + zlen c) (zlen out)) as [Hl|Hl].
  - destruct (decode_bitmap_ok (words_vec b) (Z.to_nat 1024) c (h * 65536) out pos) as (o & E & W);
      rewrite ?Z2Nat.id in * by lia; auto; try lia.
    exists o. split; [exact E|]. eapply wrote_weaken; eauto. lia.
  - pose proof (decode_bitmap_short (words_vec b) (Z.to_nat 1024) c (h * 65536) out pos) as E.
    rewrite Z2Nat.id in E by lia. apply E; auto; lia.
Qed.
Lemma hi_shows z c t b : z = t ++ b -> zlen t = 1024 -> zlen b = 1024 ->
  (shows 1024 2048 z c <-> bm_at (reg b 0) 1024 (memb c)).
Proof.
  intros -> Ht Hb. unfold shows, bm_at, reg. rewrite zlen_app, Ht, Hb.
  assert (E : forall i, 0 <= i < 1024 -> vget (t ++ b) (1024 + i) = vget b (0 + i)).
  { intros i Hi. rewrite <- Ht. pose proof (vget_mid t b [] i ltac:(lia)) as E. rewrite app_nil_r in E. exact E. }
  split.
  - intros [_ H] i Hi. rewrite <- E by exact Hi. exact (H i Hi).
  - intro H. split; [reflexivity|]. intros i Hi. rewrite E by exact Hi. exact (H i Hi).
Qed.
Lemma split2 a b (x : list Z) : 0 <= a -> 0 <= b -> zlen x = a + b -> exists t u, x = t ++ u /\ zlen t = a /\ zlen u = b.
Proof.
  intros Ha Hb Hx. destruct (split3 a b x) as (t & u & v & -> & Ht & Hu); [lia|lia|lia|].
  rewrite !zlen_app in Hx. assert (zlen v = 0) as E by lia. apply zlen_0 in E. subst v. exists t, u.
  rewrite app_nil_r. auto.
Qed.
Lemma tops_one h ss : tops h (map (fun s => [(h, s)]) ss) = ss.
Proof. induction ss as [|s ss IH]; [reflexivity|]. cbn [map tops flat_map top fst snd]. rewrite Z.eqb_refl. cbn [app]. unfold tops in IH. now rewrite IH. Qed.
Lemma popped_one h (ss : list (list Z)) : map (popped h) (map (fun s => [(h, s)]) ss) = map (fun _ => []) ss.
Proof. rewrite map_map. apply map_ext. intro s. cbn [popped fst]. now rewrite Z.eqb_refl. Qed.
Lemma min_one (ss : list (list Z)) : fold_left Z.min (map hd_id (map (fun _ => []) ss)) 65536 = 65536.
Proof. induction ss as [|s ss IH]; [reflexivity|]. cbn [map fold_left hd_id]. exact IH. Qed.

Lemma um_paused dbg mem seqs ss out pos h : 0 <= h < 65535 ->
  Forall2 (it_view 0 mem) (map seq_begin seqs) (map (fun s => [(h, s)]) ss) -> ss <> [] -> 0 <= pos <= zlen out ->
  paused 1024 2048 h (union_many_c dbg mem seqs out pos) (unis ss) (map (addb (h * 65536))) out pos.
Proof.
  intros Hh V N Hp x Hx. destruct (split2 1024 1024 x) as (t & b & -> & Ht & Hb); [lia|lia|lia|].
  unfold union_many_c. cbv zeta.
  assert (N' : map seq_begin seqs <> []). { intro E. rewrite E in V. inversion V as [E1 E2|]. symmetry in E2. now apply map_eq_nil in E2. }
  destruct (min_id_ok mem _ _ V N') as (h' & Eh & (L1 & L2) & _).
  assert (h' = h) as ->.
  { destruct ss as [|s ss]; [easy|]. apply Forall_inv in L1. cbn [hd_id fst] in L1. destruct L2 as [L2|(cs & Hcs & E)]; [lia|].
    apply in_map_iff in Hcs as (s' & <- & _). cbn [hd_id fst] in E. auto. }
  rewrite Eh. cbn [pbind].
  assert (Hf : exists f, union_fuel (map seq_begin seqs) = S f).
  { unfold union_fuel. destruct (Z.to_nat (65536 + 1)) as [|k] eqn:E; [apply (f_equal Z.of_nat) in E; rewrite Z2Nat.id in E; lia|].
    eexists. reflexivity. }
  destruct Hf as [f ->]. cbn [union_loop_c]. destruct (Z.ltb_spec h 65536); [|lia]. cbv zeta.
  rewrite Z.shiftl_mul_pow2 by lia. change (2 ^ 16) with 65536. rewrite u32_id by lia.
  destruct (merge_all_ok dbg mem h _ _ true t b [] V Ht Hb ltac:(lia) eq_refl) as (t1 & b1 & E1 & Ht1 & Hb1 & B1).
  rewrite tops_one in B1. specialize (B1 (or_intror N)). fold (unis ss) in B1.
  destruct (next_headers_ok mem h _ _ 65536 V ltac:(lia)) as (its1 & n1 & E2 & _ & N1).
  rewrite popped_one, min_one in N1. subst n1.
  assert (FIN : forall o p, union_loop_c f dbg mem its1 65536 o p = Ret (Ok (o, p))) by (intros; destruct f; reflexivity).
  exists (t1 ++ b1). eexists. split; [|split; [|split]].
  - apply runs_bind. apply runs_alone_bind. rewrite ma_alone by auto. rewrite E1. reflexivity.
  - apply (hi_shows _ _ t1 b1 eq_refl Ht1 Hb1). exact B1.
  - apply ro_bind; [apply ro_bind; [apply ro_within, ro_db|]|]; intros [o k]; [|exact I]. rewrite E2. cbn [pbind]. rewrite FIN. exact I.
  - intros c z W Hz. destruct (split2 1024 1024 z) as (t2 & b2 & -> & Ht2 & Hb2); [lia|lia|destruct Hz; lia|].
    apply (hi_shows _ _ t2 b2 eq_refl Ht2 Hb2) in Hz.
    pose proof (db_fits h c b2 out pos W ltac:(lia) Hz Hp) as D.
    unfold outcome. rewrite !alone_bind, alone_hi, db_alone by auto. unfold tag, fits in *. destruct (_ <=? _).
    + destruct D as (o & -> & Wo). exists o. split; [|exact Wo]. cbn [bind fst snd]. rewrite E2. cbn [pbind]. rewrite FIN.
      cbn [alone bind fst snd]. f_equal. f_equal. lia.
    + rewrite D. reflexivity.
Qed.

Lemma chunk_of_one h (ss : list (list Z)) : map (chunk_of h) (map (fun s => [(h, s)]) ss) = ss.
Proof.
  rewrite map_map. erewrite map_ext; [apply map_id|]. intro s. exact (chunk_of_mid h [] s [] (Forall_nil _)).
Qed.
Lemma common_one h s (ss : list (list Z)) hs : enumerates (common (map (fun s => [(h, s)]) (s :: ss))) hs -> hs = [h].
Proof.
  intro E. apply (enumerates_unique (common (map (fun s => [(h, s)]) (s :: ss)))); [exact E|]. split; [apply sorted_cons; [apply sorted_nil|constructor]|].
  intro x. unfold common. split.
  - intros [<-|[]] C HC. apply in_map_iff in HC as (s' & <- & _). now left.
  - intro H. specialize (H [(h, s)] (or_introl eq_refl)). exact H.
Qed.
Lemma im_paused dbg mem seqs s ss out pos h : 0 <= h < 65535 ->
  Forall2 (it_view 0 mem) (map seq_begin seqs) (map (fun s => [(h, s)]) (s :: ss)) ->
  fold_left isect ss s <> [] -> 0 <= pos <= zlen out ->
  paused 66560 67584 h (intersection_sorted_c dbg mem seqs out pos) (fold_left isect ss s) (map (addb (h * 65536))) out pos.
Proof.
  intros Hh V N Hp x Hx.
  destruct (split2 65536 2048 x) as (hd & tb & -> & Hhd & Htb); [lia|lia|lia|].
  destruct (split2 1024 1024 tb) as (t & b & -> & Ht & Hb); [lia|lia|lia|].
  destruct seqs as [|s0 seqs]; [inversion V|]. unfold intersection_sorted_c. cbv zeta. cbn [map] in *.
  change (iget (seq_begin s0 :: map seq_begin seqs) 0) with (Ok (seq_begin s0)). cbn [pbind].
  inversion V as [|? ? ? ? V0 VS]; subst. rewrite (id_view_id _ _ _ (proj1 V0)). cbn [pbind fst].
  assert (W : Forall wfc ([(h, s)] :: map (fun s => [(h, s)]) ss)).
  { clear -V. induction V as [|it cs its css V1 V2]; constructor; auto; apply V1. }
  destruct (candidate_loop_ok mem ([(h, s)] :: map (fun s => [(h, s)]) ss) (candidate_fuel (s0 :: seqs))
     [seq_begin s0] (map seq_begin seqs) [[(h, s)]] (map (fun s => [(h, s)]) ss) h hd [])
     as (hd' & hs' & EL & EH & Ho).
  { reflexivity. }
  { discriminate. }
  { exact W. }
  { lia. }
  { unfold candidate_fuel. rewrite Z2Nat.id by lia. lia. }
  { left. constructor; auto. exists [], s, []. split; auto. split; auto. apply V0. }
  { eapply Forall2_mono; [exact VS|]. intros it C HV. exists [], C. split; auto. split; auto. apply HV. }
  { split; [apply sorted_nil|]. intro v. split; [intros []|]. intros [Hx1 Hx2].
    specialize (Hx2 _ (or_introl eq_refl)). destruct Hx2 as [Hx2|[]]. cbn [fst] in *. lia. }
  { split; auto. rewrite zlen_nil. intros. lia. }
  rewrite zlen_nil in EL. change (zlen [seq_begin s0]) with 1 in EL. cbn [app] in EL.
  apply (common_one h s ss) in EH. subst hs'. change (zlen [h]) with 1 in EL. destruct Ho as [Lhd' Ho].
  assert (E0 : vget hd' 0 = Ok h). { unfold vget. rewrite (Ho 0); [reflexivity|]. change (zlen [h]) with 1. lia. }
  assert (CM : common ([(h, s)] :: map (fun s => [(h, s)]) ss) h).
  { intros C HC. change ([(h, s)] :: map (fun s => [(h, s)]) ss) with (map (fun s => [(h, s)]) (s :: ss)) in HC.
    apply in_map_iff in HC as (s' & <- & _). now left. }
  inversion W as [|? ? W0 WS]; subst.
  destruct (past2_advance mem h (seq_begin s0) [(h, s)]) as (it' & suf & EA & EI & VA & _).
  { exists [], [(h, s)]. auto. }
  { lia. }
  { now left. }
  { exact W0. }
  change (chunk_of h [(h, s)]) with (chunk_of h ([] ++ (h, s) :: [])) in VA. rewrite chunk_of_mid in VA by constructor.
  destruct (uncompress_chunk_ok dbg mem 0 it' h s suf b 0 VA ltac:(lia) ltac:(lia)) as (b1 & E1 & B1 & [L1 _]).
  pose proof (view_wf _ _ _ _ _ VA) as (_ & _ & Sc & Rc). cbn [snd] in Sc, Rc.
  assert (Zc : 0 <= zlen s <= 65536).
  { split; [apply zlen_nonneg|]. change 65536 with (Z.of_nat (Z.to_nat 65536)). apply sorted_zlen_le; auto. }
  destruct (and_rest_ok dbg mem h (map seq_begin seqs) (map (fun s => [(h, s)]) ss) t b1 s) as (its' & t2 & b2 & k & sk & E2 & _ & Ht2 & Hb2 & Q4); auto; try lia.
  { eapply Forall2_mono; [exact VS|]. intros it C HV. exists [], C. auto. }
  { intros C HC. apply CM. now right. }
  rewrite chunk_of_one in Q4. destruct sk; [contradiction|].
  exists (hd' ++ t2 ++ b2). eexists. split; [|split; [|split]].
  - eapply runs_trans; [apply runs_alone_bind; rewrite cl_alone by auto; rewrite EL; reflexivity|].
    change (Z.to_nat 1) with 1%nat. cbn [intersect_headers_c]. apply runs_bind.
    eapply runs_trans.
    { apply (runs_alone_bind _ _ _ _ _ (hd' ++ t ++ b) h). unfold get. rewrite alone_lo by auto. rewrite alone_get, E0. reflexivity. }
    cbv zeta. rewrite EA. cbn [pbind]. rewrite EI. cbn [pbind]. rewrite assert_ok by apply Z.eqb_refl. cbn [pbind].
    eapply runs_trans.
    { apply (runs_alone_bind _ _ _ _ _ (hd' ++ t ++ b1) (zlen s)). rewrite alone_hi by (auto; rewrite zlen_app; lia).
      rewrite alone_hi, uncc_alone by auto. rewrite E1. reflexivity. }
    rewrite u32_id by lia.
    eapply runs_trans.
    { apply (runs_alone_bind _ _ _ _ _ (hd' ++ t2 ++ b2) (its', k, false)). rewrite alone_hi by (auto; rewrite zlen_app; lia).
      rewrite ar_alone by (auto; congruence). rewrite E2. reflexivity. }
    cbv iota beta. rewrite Z.shiftl_mul_pow2 by lia. change (2 ^ 16) with 65536. rewrite u32_id by lia. constructor.
  - split; [rewrite !zlen_app; lia|]. intros i Hi. unfold reg.
    assert (E3 : vget (hd' ++ t2 ++ b2) (66560 + i) = vget b2 (0 + i)).
    { rewrite app_assoc. replace 66560 with (zlen (hd' ++ t2)) by (rewrite zlen_app; lia).
      pose proof (vget_mid (hd' ++ t2) b2 [] i ltac:(lia)) as E. rewrite app_nil_r in E. exact E. }
    rewrite E3. exact (Q4 i Hi).
  - apply ro_bind; [apply ro_bind; [apply ro_within, ro_within, ro_db|]|]; intros [o k']; exact I.
  - intros c z Wc Hz. destruct (split2 65536 2048 z) as (hz & tz & -> & Hhz & Htz); [lia|lia|destruct Hz; lia|].
    destruct (split2 1024 1024 tz) as (t3 & b3 & -> & Ht3 & Hb3); [lia|lia|lia|].
    assert (Bz : bm_at (reg b3 0) 1024 (memb c)).
    { destruct Hz as [_ Hz]. intros i Hi. specialize (Hz i Hi). unfold reg in *. rewrite app_assoc in Hz.
      replace 66560 with (zlen (hz ++ t3)) in Hz by (rewrite zlen_app; lia).
      pose proof (vget_mid (hz ++ t3) b3 [] i ltac:(lia)) as E. rewrite app_nil_r in E. rewrite E in Hz. exact Hz. }
    pose proof (db_fits h c b3 out pos Wc ltac:(lia) Bz Hp) as D.
    unfold outcome. rewrite !alone_bind, alone_hi by (auto; rewrite zlen_app; lia). rewrite alone_hi, db_alone by auto.
    unfold tag, fits in *. destruct (_ <=? _).
    + destruct D as (o & -> & Wo). exists o. split; [|exact Wo]. cbn [bind fst snd intersect_headers_c alone]. f_equal. f_equal. lia.
    + rewrite D. reflexivity.
Qed.
