(** Output buffers of the operations on many sequences that are too small. *)
From Verif Require Import Base Hw Spec Lib L_Bits L_Group Layout M_Util M_Seq M_Decode M_Uncompress
  M_Many P_Build1 P_Build2 P_Build3 P_Seq P_Decode P_Query P_Uncompress P_Sets P_Inter P_Union P_Many P_Many2 P_Room.
From Coq Require Import Lia.

Section Short.
Variables (dbg : bool) (mem : list Z).
Notation view := (it_view 0 mem).
Lemma intersect_headers_short C0 Cs headers hs : forall hs2 hs1 it0 its tmp bitmap out pos,
  hs = hs1 ++ hs2 -> holds headers hs -> sorted hs -> Forall (common (C0 :: Cs)) hs -> Forall wfc (C0 :: Cs) ->
  (forall h, In h hs2 -> Forall2 (past2 mem h) (it0 :: its) (C0 :: Cs)) ->
  zlen tmp = 1024 -> zlen bitmap = 1024 -> 0 <= pos <= zlen out -> zlen out < pos + zlen (pieces C0 Cs hs2) ->
  intersect_headers (length hs2) dbg mem (it0 :: its) headers (zlen hs1) tmp bitmap out pos = UB.
Proof.
  induction hs2 as [|h hs2 IH]; intros hs1 it0 its tmp bitmap out pos EH Ho SH HC W HP Ht Hb Hp Hl.
  - change (pieces C0 Cs []) with (@nil Z) in *. rewrite zlen_nil in *. lia.
  - cbn [length intersect_headers]. unfold pieces in *. cbn [flat_map] in *. fold (pieces C0 Cs hs2) in *.
    rewrite zlen_app, zlen_map in *. zpos.
    assert (Hh : common (C0 :: Cs) h).
    { rewrite Forall_forall in HC. apply HC. rewrite EH. apply in_or_app. right. now left. }
    pose proof (Hh C0 (in_eq _ _)) as Hh0. inversion W as [|? ? W0 WS]; subst x l.
    assert (Rh : 0 <= h < 65535).
    { apply in_map_iff in Hh0 as (ch & <- & Hch). destruct W0 as [_ W0]. rewrite Forall_forall in W0. apply W0. auto. }
    assert (EV : vget headers (zlen hs1) = Ok h).
    { unfold vget. destruct Ho as [_ Ho]. rewrite (Ho (zlen hs1)).
      - rewrite EH, znth_app_r by lia. rewrite Z.sub_diag. reflexivity.
      - rewrite EH, zlen_app, zlen_cons. zpos. lia. }
    rewrite EV. cbn [bind].
    pose proof (HP h (in_eq _ _)) as P. inversion P as [|? ? ? ? P0 P1]; subst x l y l'.
    destruct (past2_advance mem h it0 C0 P0 ltac:(lia) Hh0 W0) as (it' & suf & -> & EI & V & P'). cbn [bind].
    rewrite EI. cbn [bind]. rewrite assert_ok by apply Z.eqb_refl. cbn [bind].
    destruct (uncompress_chunk_ok dbg mem 0 it' h _ suf bitmap 0 V) as (b1 & -> & B1 & S1); try lia. cbn [bind].
    pose proof (view_wf _ _ _ _ _ V) as (_ & _ & Sc & Rc). cbn [snd] in Sc, Rc.
    assert (Zc : zlen (chunk_of h C0) <= 65536).
    { change 65536 with (Z.of_nat (Z.to_nat 65536)). apply sorted_zlen_le; auto. }
    zpos. rewrite (u32_id (zlen (chunk_of h C0))) by lia.
    destruct (and_rest_ok dbg mem h its Cs tmp b1 (chunk_of h C0)) as (its' & t2 & b2 & k & sk & -> & Q1 & Q2 & Q3 & Q4);
      auto; try lia.
    { intros C' H'. apply Hh. now right. }
    { destruct S1; lia. }
    cbn [bind]. fold (piece C0 Cs h) in Q4.
    assert (HP' : forall h', In h' hs2 -> Forall2 (past2 mem h') (it' :: its') (C0 :: Cs)).
    { intros h' Hh'. assert (h < h').
      { rewrite EH in SH. apply sorted_app_inv in SH as (_ & SH & _). apply sorted_inv in SH as [_ SH].
        rewrite Forall_forall in SH. auto. }
      constructor; [eapply past2_mono; eauto; lia|]. eapply Forall2_mono; [exact Q1|].
      intros. eapply past2_mono; eauto; lia. }
    assert (EH' : hs = (hs1 ++ [h]) ++ hs2) by (rewrite <- app_assoc; exact EH).
    assert (EL : zlen (hs1 ++ [h]) = zlen hs1 + 1) by (rewrite zlen_app; reflexivity).
    destruct sk.
    + rewrite Q4 in *. cbn [map app] in *. rewrite zlen_nil in *. rewrite !Z.add_0_l in *.
      rewrite <- EL. apply IH; auto.
    + rewrite Z.shiftl_mul_pow2 by lia. change (2 ^ 16) with 65536. rewrite u32_id by lia.
      assert (SP : sorted (piece C0 Cs h)) by (apply sorted_fold_isect; auto).
      assert (RP : Forall (fun x => 0 <= x < 64 * Z.of_nat (Z.to_nat 1024)) (piece C0 Cs h)).
      { apply Forall_forall. intros x (Hx & _)%In_fold_isect. rewrite Forall_forall in Rc. specialize (Rc _ Hx). lia. }
      destruct (Z_lt_le_dec (zlen out) (pos + zlen (piece C0 Cs h))) as [Hs|Hs].
      { pose proof (decode_bitmap_short (words_vec b2) (Z.to_nat 1024) (piece C0 Cs h) (h * 65536) out pos) as E1.
        rewrite Z2Nat.id in E1 by lia. rewrite E1; auto; lia. }
      destruct (decode_bitmap_ok (words_vec b2) (Z.to_nat 1024) (piece C0 Cs h) (h * 65536) out pos)
        as (out1 & E1 & W1); rewrite ?Z2Nat.id in * by lia; auto; try lia.
      rewrite E1. cbn [bind]. pose proof (wrote_zlen _ _ _ _ _ W1) as LZ.
      rewrite <- EL. apply IH; auto; try lia.
Qed.

Lemma union_loop_short : forall fuel its css h tmp bitmap out pos,
  Forall2 view its css -> least h css -> 0 <= h <= 65536 -> 65536 - h <= Z.of_nat fuel ->
  zlen tmp = 1024 -> zlen bitmap = 1024 ->
  0 <= pos <= zlen out -> zlen out < pos + zlen (unis (map (ungroup 65536) css)) ->
  union_loop fuel dbg mem its h tmp bitmap out pos = UB.
Proof.
  induction fuel; intros its css h tmp bitmap out pos V L Hh Hf Ht Hb Hp Ho.
  all: assert (W : Forall wfc css) by
    (clear -V; induction V as [|it cs its css V1 V2]; constructor; auto; apply V1).
  all: assert (NIL : h = 65536 -> unis (map (ungroup 65536) css) = [])
    by (intro E; destruct L as [L _]; subst h;
        assert (forall cs, In cs css -> cs = []) as EN by
          (intros cs Hcs; rewrite Forall_forall in L, W; specialize (L _ Hcs); specialize (W _ Hcs);
           destruct cs as [|ch cs]; auto; apply wf_cons in W as ((W & _) & _); cbn [hd_id] in L; lia);
        clear -EN; unfold unis; induction css as [|cs css IH]; auto; cbn [map fold_left];
        rewrite (EN cs) by (now left); cbn; apply IH; intros; apply EN; now right).
  - cbn [union_loop]. destruct (Z.ltb_spec h 65536); [lia|]. rewrite NIL in * by lia.
    rewrite zlen_nil in Ho. lia.
  - cbn [union_loop]. destruct (Z.ltb_spec h 65536) as [Hlt|].
    2:{ rewrite NIL in * by lia. rewrite zlen_nil in Ho. lia. }
    rewrite (unis_step mem h) in * by auto.
    destruct (merge_all_ok dbg mem h its css true tmp bitmap [] V Ht Hb Hlt eq_refl) as (t1 & b1 & -> & L1 & L2 & B1).
    cbn [bind].
    assert (NT : tops h css <> []).
    { destruct L as [_ [L|(cs & Hcs & E)]]; [lia|]. destruct cs as [|[id c] cs]; cbn [hd_id fst] in E; [lia|].
      subst id. intro E. assert (In c (tops h css)) as Hc by (apply tops_In; eauto). rewrite E in Hc. destruct Hc. }
    specialize (B1 (or_intror NT)). fold (unis (tops h css)) in B1.
    assert (ST : Forall sorted (tops h css)).
    { apply Forall_forall. intros c (r & Hr)%tops_In. rewrite Forall_forall in W. specialize (W _ Hr).
      apply wf_cons in W as ((_ & _ & Hc & _) & _). exact Hc. }
    assert (RT : in_chunk (unis (tops h css))).
    { apply Forall_forall. intros x (c & Hc & Hx)%In_unis; auto. apply tops_In in Hc as (r & Hr).
      rewrite Forall_forall in W. specialize (W _ Hr).
      apply wf_cons in W as ((_ & _ & _ & R) & _). cbn [snd] in R. rewrite Forall_forall in R. auto. }
    assert (Hh2 : h < 65535).
    { destruct L as [_ [L|(cs & Hcs & E)]]; [lia|]. destruct cs as [|[id c] cs]; cbn [hd_id fst] in E; [lia|].
      rewrite Forall_forall in W. specialize (W _ Hcs). apply wf_cons in W as ((W & _) & _). cbn [fst] in W. lia. }
    rewrite zlen_app, zlen_map in Ho. zpos.
    rewrite Z.shiftl_mul_pow2 by lia. change (2 ^ 16) with 65536. rewrite u32_id by lia.
    destruct (Z_lt_le_dec (zlen out) (pos + zlen (unis (tops h css)))) as [Hs|Hs].
    { pose proof (decode_bitmap_short (words_vec b1) (Z.to_nat 1024) (unis (tops h css)) (h * 65536) out pos) as E1.
      rewrite Z2Nat.id in E1 by lia. rewrite E1; auto using sorted_unis; lia. }
    destruct (decode_bitmap_ok (words_vec b1) (Z.to_nat 1024) (unis (tops h css)) (h * 65536) out pos)
      as (out1 & E1 & W1); rewrite ?Z2Nat.id in * by lia; auto using sorted_unis; try lia.
    rewrite E1. cbn [bind].
    destruct (next_headers_ok mem h its css 65536 V Hlt) as (its1 & n1 & -> & V1 & N1). cbn [bind].
    destruct (fold_min (map hd_id (map (popped h) css)) 65536) as (F1 & F2 & F3). rewrite <- N1 in F1, F2, F3.
    assert (LE : least n1 (map (popped h) css)).
    { split; [apply (proj1 (Forall_map _ _ _)) in F2; exact F2|]. destruct F3 as [F3|F3]; auto. right.
      apply in_map_iff in F3 as (cs & E & Hcs). eauto. }
    assert (GT : h < n1).
    { destruct F3 as [F3|F3]; [lia|]. apply in_map_iff in F3 as (cs & E & Hcs).
      apply in_map_iff in Hcs as (cs0 & <- & H0c). destruct L as [L _]. rewrite Forall_forall in L, W.
      specialize (L _ H0c). specialize (W _ H0c). unfold popped in E. destruct cs0 as [|ch0 cs0]; cbn [hd_id] in E; [lia|].
      apply wf_cons in W as (_ & _ & W). cbn [hd_id] in L. destruct (Z.eqb_spec (fst ch0) h) as [E0|E0].
      - destruct cs0 as [|ch1 cs0]; cbn [hd_id] in E; [lia|]. inversion W; subst. lia.
      - cbn [hd_id] in E. lia. }
    pose proof (wrote_zlen _ _ _ _ _ W1) as LZ.
    apply IHfuel with (css := map (popped h) css); auto; lia.
Qed.
End Short.

Lemma intersection_sorted_room mem addrs Ss :
  Ss <> [] -> Forall valid Ss -> Forall2 (stored 0 mem) addrs Ss ->
  exists seqs e, Forall2 (fun a s => seq_at mem a = Ok s) addrs seqs
    /\ enumerates (fun v => forall S, In S Ss -> In v S) e
    /\ forall dbg headers tmp bitmap out pos,
       zlen headers = 65536 -> zlen tmp = 1024 -> zlen bitmap = 1024 -> 0 <= pos <= zlen out ->
       zlen out < pos + zlen e -> intersection_sorted dbg mem seqs headers tmp bitmap out pos = UB.
Proof.
  intros N V St. destruct (stored_vector 0 mem addrs Ss ltac:(lia) V St) as (seqs & E & I).
  assert (EX : exists hs, enumerates (common (map chunks_of Ss)) hs).
  { destruct Ss as [|S0 Ss]; [easy|]. cbn [map].
    exists (fold_left isect (map (map fst) (map chunks_of Ss)) (map fst (chunks_of S0))). split.
    - apply sorted_fold_isect. inversion V as [|? ? V0 VS]; subst. apply (valid_chunks S0 V0).
    - intro x. rewrite In_fold_isect. unfold common. split.
      + intros [H1 H2] C [<-|HC]; auto. apply H2. now apply in_map.
      + intro H. split; [apply H; now left|]. intros l Hl. apply in_map_iff in Hl as (C & <- & HC).
        apply H. now right. }
  destruct EX as (hs & EH).
  destruct Ss as [|S0 Ss]; [easy|]. destruct seqs as [|s0 seqs]; [inversion I|]. cbn [map] in *.
  assert (W : Forall wfc (chunks_of S0 :: map chunks_of Ss)).
  { rewrite <- (map_cons chunks_of). apply Forall_map. eapply Forall_impl; [|exact V].
    intros S HV. apply (valid_chunks S HV). }
  exists (s0 :: seqs), (pieces (chunks_of S0) (map chunks_of Ss) hs). split; auto. split.
  { pose proof (pieces_ok _ _ _ W EH) as [P1 P2]. split; auto. intro v. rewrite P2.
    rewrite <- (map_cons chunks_of), map_ungroup_chunks by auto. reflexivity. }
  intros dbg headers tmp bitmap out pos Hh Ht Hb Hp Ho. unfold intersection_sorted. cbn [map].
  change (iget (seq_begin s0 :: map seq_begin seqs) 0) with (Ok (seq_begin s0)). cbn [bind].
  inversion I as [|? ? ? ? I0 IS]; subst. rewrite (id_view_id _ _ _ (proj1 I0)). cbn [bind].
  inversion V as [|? ? V0 VS]; subst.
  destruct (chunks_of S0) as [|[c0 l0] CS] eqn:EC0.
  { exfalso. destruct V0 as (V0 & _). apply V0. apply (group_nil 65536). exact EC0. }
  cbn [fst]. pose proof (id_view_wf _ _ _ _ (proj1 I0)) as (Hc0 & _). cbn [fst] in Hc0.
  assert (PF : forall l l' k, Forall2 (it_view 0 mem) l l' -> Forall2 (past mem k) l l').
  { clear. intros l l' k H. eapply Forall2_mono; [exact H|]. intros it C HV. exists [], C. split; auto. split; auto. apply HV. }
  destruct (candidate_loop_ok mem (((c0, l0) :: CS) :: map chunks_of Ss) (candidate_fuel (s0 :: seqs))
     [seq_begin s0] (map seq_begin seqs) [(c0, l0) :: CS] (map chunks_of Ss) c0 headers [])
     as (hd & hs' & EL & EH' & Ho').
  { reflexivity. }
  { discriminate. }
  { exact W. }
  { lia. }
  { unfold candidate_fuel. rewrite Z2Nat.id by lia. lia. }
  { left. constructor; auto. exists [], l0, CS. split; auto. split; auto. apply I0. }
  { apply PF. exact IS. }
  { split; [apply sorted_nil|]. intro x. split; [intros []|]. intros [Hx1 Hx2].
    specialize (Hx2 _ (in_eq _ _)). inversion W as [|? ? WC ?]; subst. apply wf_cons in WC as (_ & _ & WC).
    destruct Hx2 as [Hx2|Hx2]; cbn [fst] in *; [lia|]. apply in_map_iff in Hx2 as (ch & <- & Hch).
    rewrite Forall_forall in WC. specialize (WC _ Hch). lia. }
  { split; auto. rewrite zlen_nil. intros. lia. }
  rewrite zlen_nil in EL. change (zlen [seq_begin s0]) with 1 in EL. cbn [app] in EL. rewrite EL. cbn [bind].
  assert (hs' = hs) as -> by (eapply enumerates_unique; eauto).
  replace (Z.to_nat (zlen hs)) with (length hs) by (unfold zlen; lia).
  assert (PF2 : forall h, Forall2 (past2 mem h) (seq_begin s0 :: map seq_begin seqs) (((c0, l0) :: CS) :: map chunks_of Ss)).
  { intros h. eapply Forall2_mono; [exact I|]. intros it C HV. exists [], C. auto. }
  pose proof (intersect_headers_short dbg mem ((c0, l0) :: CS) (map chunks_of Ss) hd hs hs []
    (seq_begin s0) (map seq_begin seqs) tmp bitmap out pos) as E3. rewrite zlen_nil in E3. rewrite E3; auto.
  { apply EH. }
  { apply Forall_forall. intros x Hx. now apply EH. }
Qed.

Lemma union_many_room mem addrs Ss :
  Ss <> [] -> Forall valid Ss -> Forall2 (stored 0 mem) addrs Ss ->
  exists seqs, Forall2 (fun a s => seq_at mem a = Ok s) addrs seqs
    /\ forall dbg tmp bitmap out pos,
       zlen tmp = 1024 -> zlen bitmap = 1024 -> 0 <= pos <= zlen out -> zlen out < pos + zlen (unis Ss) ->
       union_many dbg mem seqs tmp bitmap out pos = UB.
Proof.
  intros N V St. destruct (stored_vector 0 mem addrs Ss ltac:(lia) V St) as (seqs & E & I).
  exists seqs. split; auto. intros dbg tmp bitmap out pos Ht Hb Hp Ho. unfold union_many.
  destruct (min_id_ok mem _ _ I) as (h & -> & L & Hh).
  { destruct Ss; [easy|]. inversion I; congruence. }
  cbn [bind].
  rewrite (union_loop_short dbg mem (union_fuel (map seq_begin seqs)) _ _ h tmp bitmap out pos I L Hh); auto.
  { unfold union_fuel. rewrite Nat2Z.inj_add, Z2Nat.id by lia. lia. }
  rewrite map_ungroup_chunks by auto. auto.
Qed.
