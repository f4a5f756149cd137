(** Intersection of many sequences of which only the common chunks are intact. *)
From Verif Require Import Base Hw Spec Lib L_Bits L_Group Layout M_Util M_Build M_Seq M_Decode M_Uncompress
  M_Query M_Intersect M_Many Format Damage P_Build1 P_Build2 P_Build3 P_Seq P_Decode P_Query P_Uncompress P_Sets P_Inter P_Union P_Many
  P_Many2 P_Stats P_Format P_Ex P_Fin1 P_Fin2 P_Fin3
  P_NextGeq P_Align P_Jumps P_Damage.
From Coq Require Import Permutation.

Section Inter.
Variables (dbg : bool) (mem : list Z) (ok : Z -> Prop).

Definition past3 (h : Z) (it : iterator) (C : list (Z * list Z)) : Prop :=
  exists pre suf, C = pre ++ suf /\ Forall (fun ch => fst ch < h) pre /\ part_view 0 ok mem it suf.

Lemma past3_mono c c' it C : past3 c it C -> c <= c' -> past3 c' it C.
Proof.
  intros (pre & suf & E & F & V) H. exists pre, suf. split; auto. split; auto.
  eapply Forall_impl; [|exact F]. cbn beta. intros. lia.
Qed.

Lemma past3_advance h it C :
  past3 h it C -> 0 <= h < 65536 -> ok h -> In h (map fst C) -> wfc C ->
  exists it', it_advance mem it h = Ok it' /\ it_id mem it' = Ok h
    /\ it_view 0 mem (one it') [(h, chunk_of h C)] /\ past3 h it' C.
Proof.
  intros (pre & suf & E & F & V) Hh Ho Hi W.
  destruct (part_advance 0 ok mem it suf h V ltac:(lia)) as (it' & pre2 & suf2 & -> & (D1 & D2 & D3) & V2).
  assert (EC : C = (pre ++ pre2) ++ suf2) by (rewrite <- app_assoc, <- D1; exact E).
  assert (FP : Forall (fun ch => fst ch < h) (pre ++ pre2)) by (apply Forall_app; auto).
  clear E D1 F D2. set (P := pre ++ pre2) in *. subst C.
  rewrite map_app in Hi. apply in_app_or in Hi as [Hi|Hi].
  { apply in_map_iff in Hi as (ch & <- & Hch). rewrite Forall_forall in FP. specialize (FP _ Hch). lia. }
  destruct suf2 as [|[id c] suf2]; [destruct Hi|].
  apply wf_app in W as [_ W]. apply wf_cons in W as (_ & _ & W). inversion D3 as [|? ? D4 D5]; subst. cbn [fst] in *.
  assert (id = h) as ->.
  { destruct Hi as [Hi|Hi]; [exact Hi|]. apply in_map_iff in Hi as (ch & <- & Hch).
    rewrite Forall_forall in W. specialize (W _ Hch). lia. }
  exists it'. split; auto. rewrite chunk_of_mid by auto.
  split; [exact (id_view_id _ _ _ (proj1 V2))|]. split; [eapply part_one; [exact V2|exact Ho|lia]|].
  exists P, ((h, c) :: suf2). auto.
Qed.

Lemma and_rest_at h : forall its Cs tmp bitmap a,
  0 <= h < 65536 -> ok h -> Forall2 (past3 h) its Cs -> Forall wfc Cs -> common Cs h ->
  zlen tmp = 1024 -> zlen bitmap = 1024 -> bm_at (reg bitmap 0) 1024 (memb a) -> sorted a -> in_chunk a ->
  exists its' tmp' bitmap' k skip, and_rest dbg mem its h tmp bitmap (zlen a)
      = Ok (its', tmp', bitmap', k, skip)
    /\ Forall2 (past3 h) its' Cs /\ zlen tmp' = 1024 /\ zlen bitmap' = 1024
    /\ (if skip : bool then fold_left isect (map (chunk_of h) Cs) a = []
        else bm_at (reg bitmap' 0) 1024 (memb (fold_left isect (map (chunk_of h) Cs) a))).
Proof.
  induction its as [|it its IH]; intros Cs tmp bitmap a Hh Hok P W Hc Ht Hb Ha Sa Ra;
    inversion P as [|? C ? Cs' P1 P2]; subst; cbn [and_rest map fold_left].
  - exists [], tmp, bitmap, (zlen a), false. auto.
  - inversion W as [|? ? W1 W2]; subst.
    destruct (past3_advance h it C P1 Hh Hok (Hc C (in_eq _ _)) W1) as (it' & -> & EI & V & P'). cbn [bind].
    rewrite EI. cbn [bind]. rewrite assert_ok by apply Z.eqb_refl. cbn [bind].
    change (uncompress_chunk_and_intersect dbg mem it') with (uncompress_chunk_and_intersect dbg mem (one it')).
    destruct (chunk_and_ok dbg mem 0 (one it') h _ [] tmp bitmap a V) as (t1 & b1 & -> & L1 & L2 & B1); auto.
    cbn [bind]. destruct (Z.eqb_spec (zlen (isect a (chunk_of h C))) 0) as [E|E].
    + apply zlen_0 in E. rewrite E, fold_isect_nil.
      exists (it' :: its), t1, b1, (zlen (@nil Z)), true. rewrite zlen_nil. auto.
    + destruct (IH Cs' t1 b1 (isect a (chunk_of h C))) as (its' & t2 & b2 & k & sk & -> & Q1 & Q2 & Q3 & Q4);
        auto using sorted_isect, Forall_isect.
      { intros C' H'. apply Hc. now right. }
      cbn [bind]. exists (it' :: its'), t2, b2, k, sk. auto.
Qed.

Lemma intersect_headers_at C0 Cs headers hs : forall hs2 hs1 it0 its tmp bitmap out pos,
  hs = hs1 ++ hs2 -> holds headers hs -> sorted hs -> Forall (common (C0 :: Cs)) hs -> Forall ok hs -> Forall wfc (C0 :: Cs) ->
  (forall h, In h hs2 -> Forall2 (past3 h) (it0 :: its) (C0 :: Cs)) ->
  zlen tmp = 1024 -> zlen bitmap = 1024 -> 0 <= pos -> pos + zlen (pieces C0 Cs hs2) <= zlen out ->
  exists tmp' bitmap' out', intersect_headers (length hs2) dbg mem (it0 :: its) headers (zlen hs1) tmp bitmap out pos
      = Ok (tmp', bitmap', out', pos + zlen (pieces C0 Cs hs2))
    /\ zlen tmp' = 1024 /\ zlen bitmap' = 1024 /\ wrote 0 out pos (pieces C0 Cs hs2) out'.
Proof.
  induction hs2 as [|h hs2 IH]; intros hs1 it0 its tmp bitmap out pos EH Ho SH HC OK W HP Ht Hb Hp Hl.
  - cbn [length intersect_headers]. exists tmp, bitmap, out. change (pieces C0 Cs []) with (@nil Z) in *.
    rewrite zlen_nil, Z.add_0_r. split; auto. split; auto. split; auto. apply wrote_nil. lia.
  - cbn [length intersect_headers]. unfold pieces in *. cbn [flat_map] in *. fold (pieces C0 Cs hs2) in *.
    rewrite zlen_app, zlen_map in *. zpos.
    assert (Hh : common (C0 :: Cs) h).
    { rewrite Forall_forall in HC. apply HC. rewrite EH. apply in_or_app. right. now left. }
    assert (Hok : ok h).
    { rewrite Forall_forall in OK. apply OK. rewrite EH. apply in_or_app. right. now left. }
    pose proof (Hh C0 (in_eq _ _)) as Hh0. inversion W as [|? ? W0 WS]; subst x l.
    assert (Rh : 0 <= h < 65535).
    { apply in_map_iff in Hh0 as (ch & <- & Hch). destruct W0 as [_ W0]. rewrite Forall_forall in W0. apply W0. auto. }
    assert (EV : vget headers (zlen hs1) = Ok h).
    { unfold vget. destruct Ho as [_ Ho]. rewrite (Ho (zlen hs1)).
      - rewrite EH, znth_app_r by lia. rewrite Z.sub_diag. reflexivity.
      - rewrite EH, zlen_app, zlen_cons. zpos. lia. }
    rewrite EV. cbn [bind].
    pose proof (HP h (in_eq _ _)) as P. inversion P as [|? ? ? ? P0 P1]; subst x l y l'.
    destruct (past3_advance h it0 C0 P0 ltac:(lia) Hok Hh0 W0) as (it' & -> & EI & V & P'). cbn [bind].
    rewrite EI. cbn [bind]. rewrite assert_ok by apply Z.eqb_refl. cbn [bind].
    change (uncompress_chunk dbg mem it') with (uncompress_chunk dbg mem (one it')).
    destruct (uncompress_chunk_ok dbg mem 0 (one it') h _ [] bitmap 0 V) as (b1 & -> & B1 & S1); try lia. cbn [bind].
    pose proof (view_wf _ _ _ _ _ V) as (_ & _ & Sc & Rc). cbn [snd] in Sc, Rc.
    assert (Zc : zlen (chunk_of h C0) <= 65536).
    { change 65536 with (Z.of_nat (Z.to_nat 65536)). apply sorted_zlen_le; auto. }
    zpos. rewrite (u32_id (zlen (chunk_of h C0))) by lia.
    destruct (and_rest_at h its Cs tmp b1 (chunk_of h C0)) as (its' & t2 & b2 & k & sk & -> & Q1 & Q2 & Q3 & Q4);
      auto; try lia.
    { intros C' H'. apply Hh. now right. }
    { destruct S1; lia. }
    cbn [bind]. fold (piece C0 Cs h) in Q4.
    assert (HP' : forall h', In h' hs2 -> Forall2 (past3 h') (it' :: its') (C0 :: Cs)).
    { intros h' Hh'. assert (h < h').
      { rewrite EH in SH. apply sorted_app_inv in SH as (_ & SH & _). apply sorted_inv in SH as [_ SH].
        rewrite Forall_forall in SH. auto. }
      constructor; [eapply past3_mono; eauto; lia|]. eapply Forall2_mono; [exact Q1|].
      intros. eapply past3_mono; eauto; lia. }
    assert (EH' : hs = (hs1 ++ [h]) ++ hs2) by (rewrite <- app_assoc; exact EH).
    assert (EL : zlen (hs1 ++ [h]) = zlen hs1 + 1) by (rewrite zlen_app; reflexivity).
    destruct sk.
    + rewrite Q4 in *. cbn [map app] in *. rewrite zlen_nil in *. rewrite !Z.add_0_l in *.
      destruct (IH (hs1 ++ [h]) it' its' t2 b2 out pos) as (t3 & b3 & o3 & E3 & R1 & R2 & R3); auto.
      rewrite EL in E3. exists t3, b3, o3. auto.
    + rewrite Z.shiftl_mul_pow2 by lia. change (2 ^ 16) with 65536. rewrite u32_id by lia.
      destruct (decode_bitmap_ok (words_vec b2) (Z.to_nat 1024) (piece C0 Cs h) (h * 65536) out pos)
        as (out1 & E1 & W1); rewrite ?Z2Nat.id in * by lia; auto; try lia.
      { apply sorted_fold_isect. auto. }
      { apply Forall_forall. intros x (Hx & _)%In_fold_isect. rewrite Forall_forall in Rc. specialize (Rc _ Hx). lia. }
      rewrite E1. cbn [bind]. pose proof (wrote_zlen _ _ _ _ _ W1) as LZ.
      destruct (IH (hs1 ++ [h]) it' its' t2 b2 out1 (pos + zlen (piece C0 Cs h)))
        as (t3 & b3 & o3 & E3 & R1 & R2 & R3); auto; try lia.
      rewrite EL in E3. rewrite E3. exists t3, b3, o3. split; [f_equal; f_equal; lia|]. split; auto. split; auto.
      eapply wrote_app; [lia|exact W1|]. rewrite zlen_map. exact R3.
Qed.

End Inter.

Lemma intact_vector slack ok mem addrs Ss :
  0 <= slack -> Forall valid Ss -> Forall2 (intact slack ok mem) addrs Ss ->
  exists seqs, Forall2 (fun a s => seq_at mem a = Ok s) addrs seqs
    /\ Forall2 (part_view slack ok mem) (map seq_begin seqs) (map chunks_of Ss).
Proof.
  intros Hs V H. induction H as [|a S addrs Ss H1 H2 IH]; [exists []; cbn; auto|].
  inversion V as [|? ? V1 V2]; subst. destruct (IH V2) as (seqs & E1 & E2).
  destruct (intact_seq slack ok mem a S V1 H1 Hs) as (s & E & _ & I & _).
  exists (s :: seqs). cbn [map]. auto.
Qed.

Lemma intersection_sorted_at mem addrs Ss (ok : Z -> Prop) :
  Ss <> [] -> Forall valid Ss -> (forall h, (forall S, In S Ss -> has_chunk S h) -> ok h) ->
  Forall2 (intact 0 ok mem) addrs Ss ->
  exists seqs e, Forall2 (fun a s => seq_at mem a = Ok s) addrs seqs
    /\ enumerates (fun v => forall S, In S Ss -> In v S) e
    /\ forall dbg headers tmp bitmap out pos,
       zlen headers = 65536 -> zlen tmp = 1024 -> zlen bitmap = 1024 -> 0 <= pos -> pos + zlen e <= zlen out ->
       exists headers' tmp' bitmap' out', intersection_sorted dbg mem seqs headers tmp bitmap out pos
           = Ok (headers', tmp', bitmap', out', zlen e)
         /\ zlen headers' = 65536 /\ zlen tmp' = 1024 /\ zlen bitmap' = 1024 /\ wrote 0 out pos e out'.
Proof.
  intros N V OK St. destruct (intact_vector 0 ok mem addrs Ss ltac:(lia) V St) as (seqs & E & I).
  assert (EX : exists hs, enumerates (common (map chunks_of Ss)) hs).
  { destruct Ss as [|S0 Ss]; [easy|]. cbn [map].
    exists (fold_left isect (map (map fst) (map chunks_of Ss)) (map fst (chunks_of S0))). split.
    - apply sorted_fold_isect. inversion V as [|? ? V0 VS]; subst. apply (valid_chunks S0 V0).
    - intro x. rewrite In_fold_isect. unfold common. split.
      + intros [H1 H2] C [<-|HC]; auto. apply H2. now apply in_map.
      + intro H. split; [apply H; now left|]. intros l Hl. apply in_map_iff in Hl as (C & <- & HC).
        apply H. now right. }
  destruct EX as (hs & EH).
  assert (OKC : forall h, common (map chunks_of Ss) h -> ok h).
  { intros h Hh. apply OK. intros S HS. rewrite Forall_forall in V. apply has_chunk_fst; auto. apply Hh. now apply in_map. }
  destruct Ss as [|S0 Ss]; [easy|]. destruct seqs as [|s0 seqs]; [inversion I|]. cbn [map] in *.
  assert (W : Forall wfc (chunks_of S0 :: map chunks_of Ss)).
  { rewrite <- (map_cons chunks_of). apply Forall_map. eapply Forall_impl; [|exact V].
    intros S HV. apply (valid_chunks S HV). }
  exists (s0 :: seqs), (pieces (chunks_of S0) (map chunks_of Ss) hs). split; auto. split.
  { pose proof (pieces_ok _ _ _ W EH) as [P1 P2]. split; auto. intro v. rewrite P2.
    rewrite <- (map_cons chunks_of), map_ungroup_chunks by auto. reflexivity. }
  intros dbg headers tmp bitmap out pos Hh Ht Hb Hp Ho. unfold intersection_sorted. cbn [map].
  change (iget (seq_begin s0 :: map seq_begin seqs) 0) with (Ok (seq_begin s0)). cbn [bind].
  inversion I as [|? ? ? ? I0 IS]; subst. rewrite (id_view_id _ _ _ (proj1 I0)). cbn [bind].
  inversion V as [|? ? V0 VS]; subst.
  destruct (chunks_of S0) as [|[c0 l0] CS] eqn:EC0.
  { exfalso. destruct V0 as (V0 & _). apply V0. apply (group_nil 65536). exact EC0. }
  cbn [fst]. pose proof (id_view_wf _ _ _ _ (proj1 I0)) as (Hc0 & _). cbn [fst] in Hc0.
  assert (PF : forall l l' k, Forall2 (part_view 0 ok mem) l l' -> Forall2 (past mem k) l l').
  { clear. intros l l' k H. eapply Forall2_mono; [exact H|]. intros it C HV. exists [], C. split; auto. split; auto. apply HV. }
  destruct (candidate_loop_ok mem (((c0, l0) :: CS) :: map chunks_of Ss) (candidate_fuel (s0 :: seqs))
     [seq_begin s0] (map seq_begin seqs) [(c0, l0) :: CS] (map chunks_of Ss) c0 headers [])
     as (hd & hs' & EL & EH' & Ho').
  { reflexivity. }
  { discriminate. }
  { exact W. }
  { lia. }
  { unfold candidate_fuel. rewrite Z2Nat.id by lia. lia. }
  { left. constructor; auto. exists [], l0, CS. split; auto. split; auto. apply I0. }
  { apply PF. exact IS. }
  { split; [apply sorted_nil|]. intro x. split; [intros []|]. intros [Hx1 Hx2].
    specialize (Hx2 _ (in_eq _ _)). inversion W as [|? ? WC ?]; subst. apply wf_cons in WC as (_ & _ & WC).
    destruct Hx2 as [Hx2|Hx2]; cbn [fst] in *; [lia|]. apply in_map_iff in Hx2 as (ch & <- & Hch).
    rewrite Forall_forall in WC. specialize (WC _ Hch). lia. }
  { split; auto. rewrite zlen_nil. intros. lia. }
  rewrite zlen_nil in EL. change (zlen [seq_begin s0]) with 1 in EL. cbn [app] in EL. rewrite EL. cbn [bind].
  assert (hs' = hs) as -> by (eapply enumerates_unique; eauto).
  replace (Z.to_nat (zlen hs)) with (length hs) by (unfold zlen; lia).
  assert (PF2 : forall h, Forall2 (past3 mem ok h) (seq_begin s0 :: map seq_begin seqs) (((c0, l0) :: CS) :: map chunks_of Ss)).
  { intros h. eapply Forall2_mono; [exact I|]. intros it C HV. exists [], C. auto. }
  destruct (intersect_headers_at dbg mem ok ((c0, l0) :: CS) (map chunks_of Ss) hd hs hs []
    (seq_begin s0) (map seq_begin seqs) tmp bitmap out pos) as (t3 & b3 & o3 & E3 & R1 & R2 & R3); auto.
  { apply EH. }
  { apply Forall_forall. intros x Hx. now apply EH. }
  { apply Forall_forall. intros x Hx. apply OKC. now apply EH. }
  rewrite zlen_nil in E3. rewrite E3. cbn [bind]. exists hd, t3, b3, o3.
  split; [f_equal; f_equal; lia|]. destruct Ho'. auto.
Qed.

Lemma intact_mono slack (ok ok' : Z -> Prop) mem a S :
  intact slack ok mem a S -> (forall h, ok' h -> ok h) -> intact slack ok' mem a S.
Proof.
  intros (dbg & enc & E & B & L) H. exists dbg, enc. split; auto. split; auto.
  intros i [Hi|(h & Hh & Hi)]; apply B; auto. right. exists h. auto.
Qed.

Lemma c52_intersection_many : forall mem addrs Ss,
  Ss <> [] -> Forall valid Ss -> Forall2 (intact 0 (fun h => forall S, In S Ss -> has_chunk S h) mem) addrs Ss ->
  exists seqs e, Forall2 (fun a s => seq_at mem a = Ok s) addrs seqs
    /\ enumerates (fun v => forall S, In S Ss -> In v S) e
    /\ (exists seqs', sort_outcome mem seqs seqs')
    /\ forall seqs', sort_outcome mem seqs seqs' ->
       forall dbg headers tmp bitmap out pos,
       zlen headers = 65536 -> zlen tmp = 1024 -> zlen bitmap = 1024 -> 0 <= pos -> pos + zlen e <= zlen out ->
       exists headers' tmp' bitmap' out', intersection_sorted dbg mem seqs' headers tmp bitmap out pos
           = Ok (headers', tmp', bitmap', out', zlen e)
         /\ zlen headers' = 65536 /\ zlen tmp' = 1024 /\ zlen bitmap' = 1024 /\ wrote 0 out pos e out'.
Proof.
  intros mem addrs Ss N V St. set (ok := fun h => forall S, In S Ss -> has_chunk S h) in *.
  assert (K0 : forall h, (forall S, In S Ss -> has_chunk S h) -> ok h) by auto. clearbody ok.
  destruct (intersection_sorted_at mem addrs Ss ok N V K0 St) as (seqs & e & E & En & _).
  exists seqs, e. split; auto. split; auto. split.
  - apply (sort_exists mem seqs (map zlen Ss)). pose proof (F2_common _ _ _ _ _ _ _ _ E St) as F.
    clear -F V. induction F as [|s S seqs Ss (a & H1 & H2) _ IH]; cbn [map]; constructor; inversion V; subst; auto.
    destruct (c52_size mem a S) as (s' & E1 & _ & E2); auto; [|congruence].
    eapply intact_mono; [exact H2|]. intros h [].
  - intros seqs' [P _]. pose proof (F2_common _ _ _ _ _ _ _ _ E St) as F.
    destruct (F2_perm _ _ _ _ _ P _ F) as (Ss' & PS & F').
    apply F2_middle in F' as (addrs' & E' & St').
    destruct (intersection_sorted_at mem addrs' Ss' ok) as (seqs1 & e1 & E1 & En1 & K).
    { intros ->. apply N. apply Permutation_nil. now apply Permutation_sym. }
    { exact (Permutation_Forall PS V). }
    { intros h Hh. apply K0. intros S HS. apply Hh. exact (Permutation_in S PS HS). }
    { exact St'. }
    assert (seqs1 = seqs') as -> by exact (reads_unique _ _ _ _ E1 E').
    assert (e1 = e) as ->; [|exact K].
    eapply enumerates_unique; [exact En1|]. destruct En as [X Y]. split; auto.
    intro x. rewrite Y. split; intros H S HS; apply H.
    + exact (Permutation_in S (Permutation_sym PS) HS).
    + exact (Permutation_in S PS HS).
Qed.

(** ** overwriting one chunk *)
Lemma total_upto (f : Z -> Z) a b : (forall x, 0 <= f x) -> 0 <= a < b ->
  total f (zrange 0 (Z.to_nat a)) + f a <= total f (zrange 0 (Z.to_nat b)).
Proof.
  intros Hf H. replace (Z.to_nat b) with (Z.to_nat a + (1 + Z.to_nat (b - a - 1)))%nat by lia.
  rewrite zrange_app, total_app, zrange_app, total_app. rewrite Z.add_0_l, Z2Nat.id by lia.
  cbn [zrange]. rewrite total_cons. cbn [total fold_right].
  assert (0 <= total f (zrange (a + Z.of_nat 1) (Z.to_nat (b - a - 1)))).
  { generalize (zrange (a + Z.of_nat 1) (Z.to_nat (b - a - 1))). clear -Hf. intro l. induction l as [|x l IH]; [cbn; lia|].
    rewrite total_cons. specialize (Hf x). lia. }
  lia.
Qed.
Lemma znth_overwrite bs k junk i :
  0 <= k -> k + zlen junk <= zlen bs -> i < k \/ k + zlen junk <= i -> znth (overwrite bs k junk) i = znth bs i.
Proof.
  intros Hk Hl Hi. unfold overwrite. pose proof (zlen_nonneg _ junk).
  assert (L1 : zlen (firstn (Z.to_nat k) bs) = k) by (rewrite zlen_firstn; lia).
  destruct (Z_lt_le_dec i 0) as [|H0]; [now rewrite !znth_neg by lia|].
  destruct Hi as [Hi|Hi].
  - rewrite znth_app_l by lia. rewrite <- (firstn_skipn (Z.to_nat k) bs) at 2. now rewrite znth_app_l by lia.
  - rewrite znth_app_r by lia. rewrite znth_app_r by lia. rewrite L1.
    rewrite <- (firstn_skipn (Z.to_nat (k + zlen junk)) bs) at 2.
    assert (L2 : zlen (firstn (Z.to_nat (k + zlen junk)) bs) = k + zlen junk) by (rewrite zlen_firstn; lia).
    rewrite znth_app_r by lia. f_equal. lia.
Qed.
Lemma zlen_overwrite bs k junk : 0 <= k -> k + zlen junk <= zlen bs -> zlen (overwrite bs k junk) = zlen bs.
Proof. intros Hk Hl. unfold overwrite. pose proof (zlen_nonneg _ junk). rewrite !zlen_app, zlen_firstn, zlen_skipn. lia. Qed.

Lemma chunk_start_le S enc dbg h : valid S -> encoding dbg S enc -> 0 <= h < 65536 ->
  0 <= head_size S <= chunk_start S h /\ chunk_start S h + chunk_cost S h <= zlen enc.
Proof.
  intros V E Hh. destruct (c25_size dbg S enc V E) as (L0 & Hc & _). unfold chunk_start.
  assert (L : zlen enc = head_size S + total (chunk_cost S) (zrange 0 (Z.to_nat 65536))) by exact L0. clear L0.
  assert (HS : 0 <= head_size S) by (unfold head_size; match goal with |- context [zlen ?l] => pose proof (zlen_nonneg _ l) end; lia).
  pose proof (total_upto (chunk_cost S) h 65536) as T.
  assert (P : forall x, 0 <= chunk_cost S x) by (intro; apply Hc). specialize (T P ltac:(lia)).
  assert (0 <= total (chunk_cost S) (zrange 0 (Z.to_nat h))); [|lia].
  generalize (zrange 0 (Z.to_nat h)). clear -P. intro l. induction l as [|x l IH]; [cbn; lia|].
  rewrite total_cons. specialize (P x). lia.
Qed.

Lemma start_before S x h : 0 <= x < h -> chunk_start S x + chunk_cost S x <= chunk_start S h.
Proof.
  intro H. unfold chunk_start. assert (P : forall y, 0 <= chunk_cost S y) by (intro y; apply (chunk_cost_bound S y)).
  pose proof (total_upto (chunk_cost S) x h P H). generalize dependent (head_size S). intros. lia.
Qed.

Lemma has_chunk_range S h : valid S -> has_chunk S h -> 0 <= h < 65536.
Proof. intros (_ & _ & R) (v & Hv & <-). rewrite Forall_forall in R. specialize (R v Hv). lia. Qed.

Lemma c52_overwritten : forall dbg S enc h junk pre post slack,
  valid S -> encoding dbg S enc -> 0 <= h < 65536 -> zlen junk = chunk_cost S h -> slack <= zlen post ->
  intact slack (fun x => x <> h) (pre ++ overwrite enc (chunk_start S h) junk ++ post) (zlen pre) S.
Proof.
  intros dbg S enc h junk pre post slack V E Hh Hj Hs.
  destruct (chunk_start_le S enc dbg h V E Hh) as [L1 L2].
  assert (L3 : 0 <= chunk_start S h) by lia. assert (L4 : chunk_start S h + zlen junk <= zlen enc) by lia.
  exists dbg, enc. split; auto. split.
  2:{ intros x _ Hx. pose proof (has_chunk_range S x V Hx) as Rx. destruct (chunk_start_le S enc dbg x V E Rx) as [_ X].
      rewrite !zlen_app, zlen_overwrite by auto. lia. }
  intros i Hi. assert (HB : 0 <= i < zlen enc /\ (i < chunk_start S h \/ chunk_start S h + chunk_cost S h <= i)).
  { pose proof (chunk_cost_bound S h) as [Ph _]. destruct Hi as [Hi|(x & Hx & Hx1 & Hx2)]; [unfold in_head in Hi; lia|].
    destruct (chunk_start_le S enc dbg x V E Hx1) as [X1 X2]. split; [lia|].
    destruct (Z_lt_le_dec x h).
    - pose proof (start_before S x h ltac:(lia)). lia.
    - pose proof (start_before S h x ltac:(lia)). lia. }
  destruct HB as [HB1 HB2]. pose proof (zlen_nonneg _ pre). rewrite znth_app_r by lia.
  replace (zlen pre + i - zlen pre) with i by lia. rewrite znth_app_l by (rewrite zlen_overwrite; auto; lia).
  apply znth_overwrite; auto. lia.
Qed.

(** ** all chunks intact *)
Lemma total_find (f : Z -> Z) j n : (forall x, 0 <= f x) -> 0 <= j < total f (zrange 0 n) ->
  exists h, 0 <= h < Z.of_nat n /\ total f (zrange 0 (Z.to_nat h)) <= j < total f (zrange 0 (Z.to_nat h)) + f h.
Proof.
  intro Hf. induction n as [|n IH]; intro H; [cbn in H; lia|].
  replace (S n) with (n + 1)%nat in H by lia. rewrite zrange_app, total_app in H. cbn [zrange] in H.
  rewrite total_cons in H. change (total f []) with 0 in H. rewrite Z.add_0_l, Z.add_0_r in H.
  destruct (Z_lt_le_dec j (total f (zrange 0 n))) as [L|L].
  - destruct IH as (h & H1 & H2); [lia|]. exists h. split; auto. lia.
  - exists (Z.of_nat n). rewrite Nat2Z.id. lia.
Qed.
Lemma total_find_big (f : Z -> Z) j N : 0 <= N -> (forall x, 0 <= f x) -> 0 <= j < total f (zrange 0 (Z.to_nat N)) ->
  exists h, 0 <= h < N /\ total f (zrange 0 (Z.to_nat h)) <= j < total f (zrange 0 (Z.to_nat h)) + f h.
Proof.
  intros HN Hf H. destruct (total_find f j (Z.to_nat N) Hf H) as (h & H1 & H2). exists h.
  rewrite Z2Nat.id in H1 by exact HN. auto.
Qed.

Lemma offsets S enc dbg i : valid S -> encoding dbg S enc ->
  0 <= i < zlen enc <-> in_head S i \/ exists h, in_chunk_data S h i.
Proof.
  intros V E. split.
  - intro Hi. destruct (Z_lt_le_dec i (head_size S)) as [|L]; [left; unfold in_head; lia|]. right.
    destruct (c25_size dbg S enc V E) as (L0 & Hc & _).
    assert (L1 : zlen enc = head_size S + total (chunk_cost S) (zrange 0 (Z.to_nat 65536))) by exact L0.
    destruct (total_find_big (chunk_cost S) (i - head_size S) 65536) as (h & H1 & H2).
    + discriminate.
    + intro x. apply (chunk_cost_bound S x).
    + clear L0. generalize dependent (total (chunk_cost S) (zrange 0 (Z.to_nat 65536))). intros. lia.
    + exists h. split; auto. unfold chunk_start. clear L0 L1. lia.
  - intros [Hi|(h & Hh & Hi)].
    + destruct (chunk_start_le S enc dbg 0 V E ltac:(lia)) as [L1 L2]. pose proof (chunk_cost_bound S 0) as [L3 _].
      unfold in_head in Hi. lia.
    + destruct (chunk_start_le S enc dbg h V E Hh) as [L1 L2]. lia.
Qed.

Lemma head_size_chunks S : valid S ->
  head_size S = 2 + 8 * (zlen (chunks_of S) / 32) + 8 * zlen (chunks_of S).
Proof. intro V. unfold head_size. rewrite (zlen_ids_chunks S V). reflexivity. Qed.
(** the last chunk ends where the encoding ends *)
Lemma last_chunk dbg S enc : valid S -> encoding dbg S enc ->
  exists h, has_chunk S h /\ zlen enc = chunk_start S h + chunk_cost S h.
Proof.
  intros V E. apply encoding_layout in E; auto. subst enc. rewrite zlen_layout.
  destruct (valid_chunks S V) as (W & N & _). destruct (exists_last N) as (pre & [id c] & EC).
  assert (HI : In (id, c) (chunks_of S)) by (rewrite EC; apply in_elt).
  exists id. split; [apply has_chunk_fst; auto; apply (in_map fst) in HI; exact HI|].
  rewrite (cost_data S id c V HI). rewrite chunk_start_def, (head_size_chunks S V).
  pose proof W as W0. rewrite EC in W0. pose proof (proj2 (wf_app _ _ _ _ W0)) as W1.
  rewrite <- (pre_data _ S id pre [(id, c)] eq_refl V ltac:(pose proof (wfc_id _ _ _ W1); lia)).
  - rewrite EC at 3. rewrite cdatas_app, zlen_app, cdatas_cons, zlen_app. change (zlen (cdatas [])) with 0. cbn [snd].
    rewrite EC. rewrite !zlen_app. lia.
  - split; auto. split; [|repeat constructor; cbn; lia].
    apply Forall_forall. intros ch Hch. change id with (fst (id, c)). eapply wf_app_lt; [exact W0|exact Hch|apply in_eq].
Qed.

Lemma c52_whole : forall slack mem a S, valid S -> (intact slack (fun _ => True) mem a S <-> stored slack mem a S).
Proof.
  intros slack mem a S V. split; intros (dbg & enc & E & B & L); exists dbg, enc; split; auto; split.
  - intros i Hi. apply B. destruct (proj1 (offsets S enc dbg i V E) Hi) as [H|(h & H)]; [left; auto|].
    right. exists h. auto.
  - destruct (last_chunk dbg S enc V E) as (h & Hh & ->). specialize (L h I Hh). lia.
  - intros i Hi. apply B. apply (offsets S enc dbg i V E). destruct Hi as [H|(h & _ & H)]; [left; auto|]. right. exists h. auto.
  - intros h _ Hh. pose proof (has_chunk_range S h V Hh) as Rh. destruct (chunk_start_le S enc dbg h V E Rh). lia.
Qed.

(** [exA] with its last chunk, and with its first chunk, overwritten *)
Definition rest : list Z := [4; 5] ++ encB ++ repeat 9 31.
Definition mem_last : list Z := [1; 2; 3] ++ overwrite encA 70 [255; 255; 255] ++ rest.
Definition mem_first : list Z := [1; 2; 3] ++ overwrite encA 26 (repeat 255 41) ++ rest.
Lemma head_A : head_size exA = 26.
Proof. unfold head_size. rewrite (zlen_ids_chunks exA valid_A). vm_compute. reflexivity. Qed.
Lemma intact_last : intact 31 (fun h => h <> 3) mem_last ex_a exA.
Proof.
  unfold mem_last. replace 70 with (chunk_start exA 3) by (unfold chunk_start; rewrite head_A; vm_compute; reflexivity).
  apply (c52_overwritten false exA encA 3 [255; 255; 255] [1; 2; 3] rest 31 valid_A encoding_A).
  - lia.
  - vm_compute. reflexivity.
  - vm_compute. discriminate.
Qed.
Lemma intact_first : intact 31 (fun h => h <> 0) mem_first ex_a exA.
Proof.
  unfold mem_first. replace 26 with (chunk_start exA 0) by (unfold chunk_start; rewrite head_A; vm_compute; reflexivity).
  apply (c52_overwritten false exA encA 0 (repeat 255 41) [1; 2; 3] rest 31 valid_A encoding_A).
  - lia.
  - vm_compute. reflexivity.
  - vm_compute. discriminate.
Qed.
Lemma intact_weaken slack slack' ok mem a S : intact slack ok mem a S -> slack' <= slack -> intact slack' ok mem a S.
Proof. intros (dbg & enc & E & B & L) H. exists dbg, enc. split; auto. split; auto.
  intros h Hh Hc. specialize (L h Hh Hc). lia.
Qed.
Lemma intact_B ok : intact 31 ok mem_last ex_b exB.
Proof.
  apply (intact_mono 31 (fun _ => True)); [apply (c52_whole 31 mem_last ex_b exB valid_B)|].
  - exact (stored_mid false exB encB ([1; 2; 3] ++ overwrite encA 70 [255; 255; 255] ++ [4; 5]) (repeat 9 31) 31 encoding_B
      ltac:(vm_compute; discriminate)).
  - auto.
Qed.
Lemma no_chunk_3 : ~ has_chunk exB 3.
Proof.
  intros (v & Hv & E). assert (F : forallb (fun v => negb (v / 65536 =? 3)) exB = true) by (vm_compute; reflexivity).
  rewrite forallb_forall in F. specialize (F v Hv). rewrite E in F. discriminate.
Qed.
