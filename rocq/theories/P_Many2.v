(** Intersection of many sequences. *)
From Verif Require Import Base Hw Spec Lib L_Bits L_Group Layout M_Util M_Seq M_Decode M_Uncompress
  M_Many P_Build1 P_Build2 P_Build3 P_Seq P_Decode P_Query P_Uncompress P_Sets P_Inter P_Union P_Many.

Section Inter.
Variables (dbg : bool) (mem : list Z).

(** ** first phase: the common chunk identifiers.  Only the header part of the iterators
    matters (after a second skip their data pointers are wrong) *)
(** the iterator has passed only chunks of [C] below [cand] *)
Definition past (cand : Z) (it : iterator) (C : list (Z * list Z)) : Prop :=
  exists pre suf, C = pre ++ suf /\ Forall (fun ch => fst ch < cand) pre /\ id_view mem it suf.
(** ... and stands on chunk [cand] *)
Definition hit (cand : Z) (it : iterator) (C : list (Z * list Z)) : Prop :=
  exists pre c suf, C = pre ++ (cand, c) :: suf /\ Forall (fun ch => fst ch < cand) pre
    /\ id_view mem it ((cand, c) :: suf).

Lemma past_mono c c' it C : past c it C -> c <= c' -> past c' it C.
Proof.
  intros (pre & suf & E & F & V) H. exists pre, suf. split; auto. split; auto.
  eapply Forall_impl; [|exact F]. cbn beta. intros. lia.
Qed.
Lemma hit_past c it C : hit c it C -> past c it C.
Proof. intros (pre & c0 & suf & E & F & V). exists pre, ((c, c0) :: suf). auto. Qed.

Lemma Forall2_mono A B (R R' : A -> B -> Prop) l l' :
  Forall2 R l l' -> (forall a b, R a b -> R' a b) -> Forall2 R' l l'.
Proof. induction 1; constructor; auto. Qed.

Lemma F2_length A B (R : A -> B -> Prop) l l' : Forall2 R l l' -> length l = length l'.
Proof. induction 1; cbn; auto. Qed.

Lemma iget_mid its1 it its2 : iget (its1 ++ it :: its2) (zlen its1) = Ok it.
Proof.
  unfold iget. rewrite znth_app_r by lia. rewrite Z.sub_diag. reflexivity.
Qed.
Lemma iset_mid its1 it its2 it' : iset (its1 ++ it :: its2) (zlen its1) it' = its1 ++ it' :: its2.
Proof.
  unfold iset. replace (Z.to_nat (zlen its1)) with (length its1) by (unfold zlen; lia).
  replace (Z.to_nat (zlen its1 + 1)) with (length its1 + 1)%nat by (unfold zlen; lia).
  rewrite firstn_app, firstn_all, Nat.sub_diag. cbn [firstn]. rewrite app_nil_r. f_equal.
  rewrite skipn_app, skipn_all2 by lia. replace (length its1 + 1 - length its1)%nat with 1%nat by lia.
  reflexivity.
Qed.

Lemma past_skip cand it C :
  past cand it C -> 0 <= cand < 65536 ->
  exists it' val, skip_to_value mem it cand = Ok it' /\ it_id mem it' = Ok val
    /\ ((val = cand /\ hit cand it' C)
        \/ (cand < val <= 65536 /\ past cand it' C
            /\ forall x, cand <= x < val -> ~ In x (map fst C))).
Proof.
  intros (pre & suf & E & F & V) Hc.
  destruct (skip_to_value_id mem it suf cand V ltac:(lia)) as (it' & pre2 & suf2 & E2 & D & V2 & _).
  destruct D as (D1 & D2 & D3). pose proof (id_view_id _ _ _ V2) as I. fold (hd_id suf2) in I.
  exists it', (hd_id suf2). split; auto. split; auto.
  assert (EC : C = (pre ++ pre2) ++ suf2) by (rewrite <- app_assoc, <- D1; exact E).
  assert (FP : Forall (fun ch => fst ch < cand) (pre ++ pre2)) by (apply Forall_app; auto).
  destruct suf2 as [|[id c] suf2]; cbn [hd_id fst] in *.
  - right. split; [lia|]. split; [exists (pre ++ pre2), []; auto|].
    intros x Hx Hi. rewrite EC, app_nil_r in Hi. apply in_map_iff in Hi as (ch & <- & Hch).
    rewrite Forall_forall in FP. specialize (FP _ Hch). lia.
  - pose proof (id_view_wf _ _ _ _ V2) as (Hid & _). cbn [fst] in Hid.
    inversion D3 as [|? ? D4 D5]; subst. cbn [fst] in D4.
    destruct (Z.eq_dec id cand) as [->|Hne].
    + left. split; auto. exists (pre ++ pre2), c, suf2. auto.
    + right. split; [lia|]. split; [exists (pre ++ pre2), ((id, c) :: suf2); auto|].
      intros x Hx Hi. rewrite app_assoc in Hi. rewrite map_app in Hi. apply in_app_or in Hi as [Hi|Hi].
      * apply in_map_iff in Hi as (ch & <- & Hch). rewrite Forall_forall in FP. specialize (FP _ Hch). lia.
      * assert (W : wfc ((id, c) :: suf2)) by apply V2. apply wf_cons in W as (_ & _ & W).
        destruct Hi as [Hi|Hi]; cbn [fst] in *; [lia|].
        apply in_map_iff in Hi as (ch & <- & Hch). rewrite Forall_forall in W. specialize (W _ Hch). lia.
Qed.

Lemma candidate_for_ok cand : forall its2 Cs2 its1 Cs1,
  0 <= cand < 65536 -> Forall2 (hit cand) its1 Cs1 -> Forall2 (past cand) its2 Cs2 ->
  exists its' cand' i', candidate_for (length its2) mem (its1 ++ its2) cand (zlen its1) = Ok (its', cand', i')
    /\ ((cand' = cand /\ i' = zlen (its1 ++ its2) /\ Forall2 (hit cand) its' (Cs1 ++ Cs2))
        \/ (i' = 0 /\ cand < cand' <= 65536 /\ Forall2 (past cand) its' (Cs1 ++ Cs2)
            /\ exists C, In C (Cs1 ++ Cs2) /\ forall x, cand <= x < cand' -> ~ In x (map fst C))).
Proof.
  induction its2 as [|it its2 IH]; intros Cs2 its1 Cs1 Hc H1 H2.
  - inversion H2; subst. cbn [length candidate_for]. exists (its1 ++ []), cand, (zlen its1). split; auto.
    left. rewrite !app_nil_r. auto.
  - inversion H2 as [|? C ? Cs2' P P2]; subst. cbn [length candidate_for].
    rewrite iget_mid. cbn [bind].
    destruct (past_skip cand it C P Hc) as (it' & val & -> & E & D). cbn [bind]. rewrite E. cbn [bind].
    rewrite iset_mid. destruct D as [[-> D]|(D1 & D2 & D3)].
    + rewrite Z.eqb_refl. cbn [negb].
      destruct (IH Cs2' (its1 ++ [it']) (Cs1 ++ [C]) Hc) as (its' & c' & i' & E' & R); auto.
      { apply Forall2_app; auto. }
      rewrite <- app_assoc in E', R. cbn [app] in E', R. rewrite zlen_app in E'. change (zlen [it']) with 1 in E'.
      rewrite E'. exists its', c', i'. split; auto. rewrite <- app_assoc in R. cbn [app] in R.
      destruct R as [(R1 & R2 & R3)|R]; [left|right; auto]. split; auto. split; auto.
      rewrite R2. rewrite !zlen_app, !zlen_cons. reflexivity.
    + destruct (Z.eqb_spec val cand); [lia|]. cbn [negb]. exists (its1 ++ it' :: its2), val, 0. split; auto.
      right. split; auto. split; auto. split.
      * apply Forall2_app; [eapply Forall2_mono; eauto using hit_past|]. constructor; auto.
      * exists C. split; auto. apply in_or_app. right. now left.
Qed.

Definition common (Cs : list (list (Z * list Z))) (x : Z) : Prop := forall C, In C Cs -> In x (map fst C).

(** the headers buffer holds [hs] *)
Definition holds (buf hs : list Z) : Prop :=
  zlen buf = 65536 /\ forall k, 0 <= k < zlen hs -> znth buf k = znth hs k.

Lemma candidate_loop_ok Cs : forall fuel its1 its2 Cs1 Cs2 cand headers hs,
  Cs = Cs1 ++ Cs2 -> Cs <> [] -> Forall wfc Cs ->
  0 <= cand <= 65536 -> 65536 - cand <= Z.of_nat fuel ->
  Forall2 (hit cand) its1 Cs1 \/ cand = 65536 -> Forall2 (past cand) its2 Cs2 ->
  enumerates (fun x => x < cand /\ common Cs x) hs -> holds headers hs ->
  exists headers' hs', candidate_loop fuel mem (its1 ++ its2) cand (zlen its1) headers (zlen hs)
      = Ok (headers', zlen hs')
    /\ enumerates (common Cs) hs' /\ holds headers' hs'.
Proof.
  induction fuel; intros its1 its2 Cs1 Cs2 cand headers hs EC NC W Hc Hf H1 H2 En Ho.
  all: assert (RNG : forall x, common Cs x -> 0 <= x < 65535)
    by (intros x Hx; destruct Cs as [|C Cs']; [easy|]; specialize (Hx C (in_eq _ _));
        inversion W as [|? ? WC ?]; apply in_map_iff in Hx as (ch & <- & Hch);
        destruct WC as [_ WC]; rewrite Forall_forall in WC; apply WC; auto).
  all: assert (FIN : cand = 65536 -> enumerates (common Cs) hs)
    by (intro E; split; [apply En|]; intro x; destruct En as [_ En]; rewrite En; split;
        [tauto|intro Hx; split; auto; specialize (RNG x Hx); lia]).
  { assert (cand = 65536) by lia. subst cand. cbn [candidate_loop]. cbn [Z.ltb Z.compare Pos.compare Pos.compare_cont].
    exists headers, hs. auto. }
  cbn [candidate_loop]. destruct (Z.ltb_spec cand 65536) as [Hlt|Hge].
  2:{ exists headers, hs. split; auto. split; auto. apply FIN. lia. }
  destruct H1 as [H1|H1]; [|lia].
  replace (Z.to_nat (zlen (its1 ++ its2) - zlen its1)) with (length its2)
    by (rewrite zlen_app; unfold zlen; lia).
  destruct (candidate_for_ok cand its2 Cs2 its1 Cs1 ltac:(lia) H1 H2) as (its' & c' & i' & -> & R). cbn [bind].
  rewrite <- EC in R. destruct R as [(-> & -> & R)|(-> & R1 & R2 & C & HC & R3)].
  - assert (LE : zlen its' = zlen (its1 ++ its2)).
    { apply F2_length in R. apply F2_length in H1, H2. rewrite EC in R. unfold zlen.
      rewrite !app_length in *. lia. }
    rewrite LE, Z.eqb_refl. destruct its' as [|it0 its'].
    { destruct Cs; [easy|]. inversion R. }
    destruct Cs as [|C0 Cs']; [easy|]. inversion R as [|? ? ? ? R0 RR]; subst x l y l'.
    assert (CC : common (C0 :: Cs') cand).
    { intros C HC. assert (HX : forall l l', Forall2 (hit cand) l l' -> In C l' -> exists it, hit cand it C).
      { clear. induction 1; intros []; subst; eauto. }
      destruct (HX _ _ R HC) as (it & pre & c & suf & -> & _). rewrite map_app. apply in_or_app. right. now left. }
    assert (Hz : zlen hs <= 65535).
    { change 65535 with (Z.of_nat (Z.to_nat 65535)). apply sorted_zlen_le; [apply En|].
      apply Forall_forall. intros x Hx. apply En in Hx as [_ Hx]. specialize (RNG x Hx). lia. }
    zpos. destruct (vset_ok headers (zlen hs) (u16 cand)) as (hd' & -> & W1); [destruct Ho; lia|]. cbn [bind].
    change (iget (it0 :: its') 0) with (Ok it0). cbn [bind].
    destruct R0 as (pre & c & suf & E0 & F0 & V0).
    destruct (id_view_next _ _ _ _ _ V0) as (it1 & -> & V1 & _). cbn [bind].
    change (iset (it0 :: its') 0 it1) with (it1 :: its'). rewrite (id_view_id _ _ _ V1). cbn [bind]. fold (hd_id suf).
    assert (WS : wfc ((cand, c) :: suf)) by apply V0. apply wf_cons in WS as (WS1 & WS2 & WS3). cbn [fst] in *.
    assert (HG : cand < hd_id suf <= 65536).
    { destruct suf as [|ch suf]; cbn [hd_id]; [lia|]. inversion WS3; subst.
      pose proof (id_view_wf _ _ _ _ V1) as (Hid & _). lia. }
    destruct (IHfuel [it1] its' [C0] Cs' (hd_id suf) hd' (hs ++ [cand])) as (headers' & hs' & E' & En' & Ho');
      auto; try lia.
    + destruct suf as [|[id c1] suf]; [right; auto|left]. constructor; [|constructor].
      exists (pre ++ [(cand, c)]), c1, suf. cbn [hd_id fst] in *. split; [|split; auto].
      * rewrite <- app_assoc. exact E0.
      * apply Forall_app. split; [|constructor; cbn; auto; lia].
        eapply Forall_impl; [|exact F0]. cbn beta. intros. lia.
    + eapply Forall2_mono; [exact RR|]. intros it C Hh. eapply past_mono; [apply hit_past; exact Hh|lia].
    + destruct En as [S1 En]. split.
      * apply sorted_app; auto; [apply sorted_cons; auto; apply sorted_nil|].
        intros x y Hx [<-|[]]. apply En in Hx. lia.
      * intro x. rewrite in_app_iff, En. cbn [In]. split.
        -- intros [[? ?]|[<-|[]]]; split; auto; lia.
        -- intros [Hx1 Hx2]. destruct (Z_lt_le_dec x cand); auto. right. left.
           specialize (Hx2 C0 (in_eq _ _)). rewrite E0, map_app in Hx2. apply in_app_or in Hx2 as [Hx2|Hx2].
           ++ apply in_map_iff in Hx2 as (ch & <- & Hch). rewrite Forall_forall in F0. specialize (F0 _ Hch). lia.
           ++ destruct Hx2 as [Hx2|Hx2]; [exact Hx2|]. exfalso. apply in_map_iff in Hx2 as (ch & <- & Hch).
              assert (WV : wfc suf) by apply V1. destruct suf as [|ch1 suf]; [destruct Hch|]. cbn [hd_id] in *.
              apply wf_cons in WV as (_ & _ & WV). destruct Hch as [<-|Hch]; [lia|].
              rewrite Forall_forall in WV. specialize (WV _ Hch). lia.
    + destruct Ho as [Ho1 Ho2]. destruct W1 as (X1 & X2 & X3). split; [lia|]. intros k Hk.
      rewrite zlen_app in Hk. change (zlen [cand]) with 1 in *. destruct (Z.eq_dec k (zlen hs)) as [->|].
      * specialize (X2 0 ltac:(zl)). rewrite Z.add_0_r in X2. rewrite X2.
        rewrite znth_app_r by lia. rewrite Z.sub_diag. cbn. unfold u16. rewrite Z.mod_small; auto. lia.
      * rewrite X3 by zl. rewrite znth_app_l by lia. apply Ho2. lia.
    + change (zlen [it1]) with 1 in E'. rewrite zlen_app in E'. change (zlen [cand]) with 1 in E'.
      cbn [app] in E'. rewrite E'. exists headers', hs'. auto.
  - destruct (Z.eqb_spec 0 (zlen its')) as [E|E].
    { exfalso. destruct its' as [|it its']; [|zl]. inversion R2; subst. destruct Cs1, Cs2; easy. }
    destruct (IHfuel [] its' [] Cs c' headers hs) as (headers' & hs' & E' & En' & Ho'); auto; try lia.
    + eapply Forall2_mono; [exact R2|]. intros it C' Hh. eapply past_mono; [exact Hh|lia].
    + destruct En as [S1 En]. split; auto. intro x. rewrite En. split; intros [Hx1 Hx2]; split; auto; [lia|].
      destruct (Z_lt_le_dec x cand); auto. exfalso. apply (R3 x); [lia|]. apply Hx2. exact HC.
    + change (zlen (@nil iterator)) with 0 in E'. cbn [app] in E'. rewrite E'. exists headers', hs'. auto.
Qed.

(** ** second phase *)
Definition chunk_of (h : Z) (C : list (Z * list Z)) : list Z :=
  match find (fun ch => fst ch =? h) C with Some ch => snd ch | None => [] end.
Lemma chunk_of_mid h pre c suf :
  Forall (fun ch => fst ch < h) pre -> chunk_of h (pre ++ (h, c) :: suf) = c.
Proof.
  unfold chunk_of. induction 1 as [|ch pre H1 H2 IH]; cbn [app find fst].
  - now rewrite Z.eqb_refl.
  - destruct (Z.eqb_spec (fst ch) h); [lia|]. exact IH.
Qed.

Definition past2 (h : Z) (it : iterator) (C : list (Z * list Z)) : Prop :=
  exists pre suf, C = pre ++ suf /\ Forall (fun ch => fst ch < h) pre /\ it_view 0 mem it suf.

Lemma past2_mono c c' it C : past2 c it C -> c <= c' -> past2 c' it C.
Proof.
  intros (pre & suf & E & F & V) H. exists pre, suf. split; auto. split; auto.
  eapply Forall_impl; [|exact F]. cbn beta. intros. lia.
Qed.

Lemma past2_advance h it C :
  past2 h it C -> 0 <= h < 65536 -> In h (map fst C) -> wfc C ->
  exists it' suf, it_advance mem it h = Ok it' /\ it_id mem it' = Ok h
    /\ it_view 0 mem it' ((h, chunk_of h C) :: suf) /\ past2 h it' C.
Proof.
  intros (pre & suf & E & F & V) Hh Hi W.
  destruct (it_advance_ok 0 mem it suf h V ltac:(lia)) as (it' & pre2 & suf2 & -> & (D1 & D2 & D3) & V2 & _).
  assert (EC : C = (pre ++ pre2) ++ suf2) by (rewrite <- app_assoc, <- D1; exact E).
  assert (FP : Forall (fun ch => fst ch < h) (pre ++ pre2)) by (apply Forall_app; auto).
  clear E D1 F D2. set (P := pre ++ pre2) in *. subst C.
  rewrite map_app in Hi. apply in_app_or in Hi as [Hi|Hi].
  { apply in_map_iff in Hi as (ch & <- & Hch). rewrite Forall_forall in FP. specialize (FP _ Hch). lia. }
  destruct suf2 as [|[id c] suf2]; [destruct Hi|].
  apply wf_app in W as [_ W]. apply wf_cons in W as (_ & _ & W). inversion D3 as [|? ? D4 D5]; subst. cbn [fst] in *.
  assert (id = h) as ->.
  { destruct Hi as [Hi|Hi]; [exact Hi|]. apply in_map_iff in Hi as (ch & <- & Hch).
    rewrite Forall_forall in W. specialize (W _ Hch). lia. }
  exists it', suf2. split; auto. rewrite chunk_of_mid by auto.
  split; [exact (id_view_id _ _ _ (proj1 V2))|]. split; auto.
  exists P, ((h, c) :: suf2). auto.
Qed.

Lemma fold_isect_nil ls : fold_left isect ls [] = [].
Proof. induction ls; auto. Qed.
Lemma In_fold_isect ls : forall a x, In x (fold_left isect ls a) <-> In x a /\ forall l, In l ls -> In x l.
Proof.
  induction ls as [|l ls IH]; intros a x; cbn [fold_left].
  - split; [intro; split; auto; intros _ []|tauto].
  - rewrite IH, In_isect. split.
    + intros [[H1 H2] H3]. split; auto. intros l' [<-|H]; auto.
    + intros [H1 H2]. split; [split; auto; apply H2; now left|]. intros. apply H2. now right.
Qed.
Lemma sorted_fold_isect ls : forall a, sorted a -> sorted (fold_left isect ls a).
Proof. induction ls; intros; cbn [fold_left]; auto using sorted_isect. Qed.

Lemma and_rest_ok h : forall its Cs tmp bitmap a,
  0 <= h < 65536 -> Forall2 (past2 h) its Cs -> Forall wfc Cs -> common Cs h ->
  zlen tmp = 1024 -> zlen bitmap = 1024 -> bm_at (reg bitmap 0) 1024 (memb a) -> sorted a -> in_chunk a ->
  exists its' tmp' bitmap' k skip, and_rest dbg mem its h tmp bitmap (zlen a)
      = Ok (its', tmp', bitmap', k, skip)
    /\ Forall2 (past2 h) its' Cs /\ zlen tmp' = 1024 /\ zlen bitmap' = 1024
    /\ (if skip : bool then fold_left isect (map (chunk_of h) Cs) a = []
        else bm_at (reg bitmap' 0) 1024 (memb (fold_left isect (map (chunk_of h) Cs) a))).
Proof.
  induction its as [|it its IH]; intros Cs tmp bitmap a Hh P W Hc Ht Hb Ha Sa Ra;
    inversion P as [|? C ? Cs' P1 P2]; subst; cbn [and_rest map fold_left].
  - exists [], tmp, bitmap, (zlen a), false. auto.
  - inversion W as [|? ? W1 W2]; subst.
    destruct (past2_advance h it C P1 Hh (Hc C (in_eq _ _)) W1) as (it' & suf & -> & EI & V & P'). cbn [bind].
    rewrite EI. cbn [bind]. rewrite assert_ok by apply Z.eqb_refl. cbn [bind].
    destruct (chunk_and_ok dbg mem 0 it' h _ suf tmp bitmap a V) as (t1 & b1 & -> & L1 & L2 & B1); auto.
    cbn [bind]. destruct (Z.eqb_spec (zlen (isect a (chunk_of h C))) 0) as [E|E].
    + apply zlen_0 in E. rewrite E, fold_isect_nil.
      exists (it' :: its), t1, b1, (zlen (@nil Z)), true. rewrite zlen_nil. auto.
    + destruct (IH Cs' t1 b1 (isect a (chunk_of h C))) as (its' & t2 & b2 & k & sk & -> & Q1 & Q2 & Q3 & Q4);
        auto using sorted_isect, Forall_isect.
      { intros C' H'. apply Hc. now right. }
      cbn [bind]. exists (it' :: its'), t2, b2, k, sk. auto.
Qed.

Definition piece (C0 : list (Z * list Z)) (Cs : list (list (Z * list Z))) (h : Z) : list Z :=
  fold_left isect (map (chunk_of h) Cs) (chunk_of h C0).
Definition pieces (C0 : list (Z * list Z)) (Cs : list (list (Z * list Z))) (hs : list Z) : list Z :=
  flat_map (fun h => map (addb (h * 65536)) (piece C0 Cs h)) hs.

Lemma intersect_headers_ok C0 Cs headers hs : forall hs2 hs1 it0 its tmp bitmap out pos,
  hs = hs1 ++ hs2 -> holds headers hs -> sorted hs -> Forall (common (C0 :: Cs)) hs -> Forall wfc (C0 :: Cs) ->
  (forall h, In h hs2 -> Forall2 (past2 h) (it0 :: its) (C0 :: Cs)) ->
  zlen tmp = 1024 -> zlen bitmap = 1024 -> 0 <= pos -> pos + zlen (pieces C0 Cs hs2) <= zlen out ->
  exists tmp' bitmap' out', intersect_headers (length hs2) dbg mem (it0 :: its) headers (zlen hs1) tmp bitmap out pos
      = Ok (tmp', bitmap', out', pos + zlen (pieces C0 Cs hs2))
    /\ zlen tmp' = 1024 /\ zlen bitmap' = 1024 /\ wrote 0 out pos (pieces C0 Cs hs2) out'.
Proof.
  induction hs2 as [|h hs2 IH]; intros hs1 it0 its tmp bitmap out pos EH Ho SH HC W HP Ht Hb Hp Hl.
  - cbn [length intersect_headers]. exists tmp, bitmap, out. change (pieces C0 Cs []) with (@nil Z) in *.
    rewrite zlen_nil, Z.add_0_r. split; auto. split; auto. split; auto. apply wrote_nil. lia.
  - cbn [length intersect_headers]. unfold pieces in *. cbn [flat_map] in *. fold (pieces C0 Cs hs2) in *.
    rewrite zlen_app, zlen_map in *. zpos.
    assert (Hh : common (C0 :: Cs) h).
    { rewrite Forall_forall in HC. apply HC. rewrite EH. apply in_or_app. right. now left. }
    pose proof (Hh C0 (in_eq _ _)) as Hh0. inversion W as [|? ? W0 WS]; subst x l.
    assert (Rh : 0 <= h < 65535).
    { apply in_map_iff in Hh0 as (ch & <- & Hch). destruct W0 as [_ W0]. rewrite Forall_forall in W0. apply W0. auto. }
    assert (EV : vget headers (zlen hs1) = Ok h).
    { unfold vget. destruct Ho as [_ Ho]. rewrite (Ho (zlen hs1)).
      - rewrite EH, znth_app_r by lia. rewrite Z.sub_diag. reflexivity.
      - rewrite EH, zlen_app, zlen_cons. zpos. lia. }
    rewrite EV. cbn [bind].
    pose proof (HP h (in_eq _ _)) as P. inversion P as [|? ? ? ? P0 P1]; subst x l y l'.
    destruct (past2_advance h it0 C0 P0 ltac:(lia) Hh0 W0) as (it' & suf & -> & EI & V & P'). cbn [bind].
    rewrite EI. cbn [bind]. rewrite assert_ok by apply Z.eqb_refl. cbn [bind].
    destruct (uncompress_chunk_ok dbg mem 0 it' h _ suf bitmap 0 V) as (b1 & -> & B1 & S1); try lia. cbn [bind].
    pose proof (view_wf _ _ _ _ _ V) as (_ & _ & Sc & Rc). cbn [snd] in Sc, Rc.
    assert (Zc : zlen (chunk_of h C0) <= 65536).
    { change 65536 with (Z.of_nat (Z.to_nat 65536)). apply sorted_zlen_le; auto. }
    zpos. rewrite (u32_id (zlen (chunk_of h C0))) by lia.
    destruct (and_rest_ok h its Cs tmp b1 (chunk_of h C0)) as (its' & t2 & b2 & k & sk & -> & Q1 & Q2 & Q3 & Q4);
      auto; try lia.
    { intros C' H'. apply Hh. now right. }
    { destruct S1; lia. }
    cbn [bind]. fold (piece C0 Cs h) in Q4.
    assert (HP' : forall h', In h' hs2 -> Forall2 (past2 h') (it' :: its') (C0 :: Cs)).
    { intros h' Hh'. assert (h < h').
      { rewrite EH in SH. apply sorted_app_inv in SH as (_ & SH & _). apply sorted_inv in SH as [_ SH].
        rewrite Forall_forall in SH. auto. }
      constructor; [eapply past2_mono; eauto; lia|]. eapply Forall2_mono; [exact Q1|].
      intros. eapply past2_mono; eauto; lia. }
    assert (EH' : hs = (hs1 ++ [h]) ++ hs2) by (rewrite <- app_assoc; exact EH).
    assert (EL : zlen (hs1 ++ [h]) = zlen hs1 + 1) by (rewrite zlen_app; reflexivity).
    destruct sk.
    + rewrite Q4 in *. cbn [map app] in *. rewrite zlen_nil in *. rewrite !Z.add_0_l in *.
      destruct (IH (hs1 ++ [h]) it' its' t2 b2 out pos) as (t3 & b3 & o3 & E3 & R1 & R2 & R3); auto.
      rewrite EL in E3. exists t3, b3, o3. auto.
    + rewrite Z.shiftl_mul_pow2 by lia. change (2 ^ 16) with 65536. rewrite u32_id by lia.
      destruct (decode_bitmap_ok (words_vec b2) (Z.to_nat 1024) (piece C0 Cs h) (h * 65536) out pos)
        as (out1 & E1 & W1); rewrite ?Z2Nat.id in * by lia; auto; try lia.
      { apply sorted_fold_isect. auto. }
      { apply Forall_forall. intros x (Hx & _)%In_fold_isect. rewrite Forall_forall in Rc. specialize (Rc _ Hx). lia. }
      rewrite E1. cbn [bind]. pose proof (wrote_zlen _ _ _ _ _ W1) as LZ.
      destruct (IH (hs1 ++ [h]) it' its' t2 b2 out1 (pos + zlen (piece C0 Cs h)))
        as (t3 & b3 & o3 & E3 & R1 & R2 & R3); auto; try lia.
      rewrite EL in E3. rewrite E3. exists t3, b3, o3. split; [f_equal; f_equal; lia|]. split; auto. split; auto.
      eapply wrote_app; [lia|exact W1|]. rewrite zlen_map. exact R3.
Qed.

Lemma In_chunk_of h C x : wfc C -> In x (chunk_of h C) <-> exists c, In (h, c) C /\ In x c.
Proof.
  intro W. split.
  - unfold chunk_of. destruct (find _ C) as [[id c]|] eqn:E; [|intros []]. cbn [snd]. intro Hx.
    apply find_some in E as [E1 E2]. apply Z.eqb_eq in E2. cbn [fst] in E2. subst id. eauto.
  - intros (c & Hc & Hx). apply in_split in Hc as (pre & suf & ->). rewrite chunk_of_mid; auto.
    apply Forall_forall. intros ch Hch. change h with (fst (h, c)).
    eapply wf_app_lt; [exact W|exact Hch|now left].
Qed.

Lemma pieces_ok C0 Cs hs :
  Forall wfc (C0 :: Cs) -> enumerates (common (C0 :: Cs)) hs ->
  enumerates (fun v => forall S, In S (map (ungroup 65536) (C0 :: Cs)) -> In v S) (pieces C0 Cs hs).
Proof.
  intros W [SH EH]. inversion W as [|? ? W0 WS]; subst.
  assert (PR : forall h x, In x (piece C0 Cs h) <->
     forall C, In C (C0 :: Cs) -> exists c, In (h, c) C /\ In x c).
  { intros h x. unfold piece. rewrite In_fold_isect, In_chunk_of by auto. split.
    - intros [H1 H2] C [<-|HC]; auto. apply In_chunk_of; [rewrite Forall_forall in WS; auto|].
      apply H2. now apply in_map.
    - intro H. split; [apply H; now left|]. intros l Hl. apply in_map_iff in Hl as (C & <- & HC).
      apply In_chunk_of; [rewrite Forall_forall in WS; auto|]. apply H. now right. }
  assert (RG : forall h x, In x (piece C0 Cs h) -> 0 <= x < 65536).
  { intros h x Hx. destruct (proj1 (PR h x) Hx C0 (in_eq _ _)) as (c & Hc & Hxc).
    destruct W0 as [_ W0]. rewrite Forall_forall in W0. destruct (W0 _ Hc) as (_ & _ & _ & R).
    rewrite Forall_forall in R. apply R. exact Hxc. }
  assert (MEM : forall hs v, In v (pieces C0 Cs hs) <-> In (v / 65536) hs /\ In (v mod 65536) (piece C0 Cs (v / 65536))).
  { clear -RG. intros hs v. unfold pieces. rewrite in_flat_map. split.
    - intros (h & Hh & Hv). apply in_map_iff in Hv as (x & <- & Hx). specialize (RG _ _ Hx). unfold addb.
      replace (h * 65536 + x) with (x + h * 65536) by lia.
      rewrite Z.div_add, Z.mod_add, Z.div_small, Z.mod_small by lia. auto.
    - intros [H1 H2]. exists (v / 65536). split; auto. apply in_map_iff. exists (v mod 65536). split; auto.
      unfold addb. pose proof (Z.div_mod v 65536). lia. }
  split.
  - clear EH. induction hs as [|h hs IH]; [apply sorted_nil|]. apply sorted_inv in SH as [SH FH].
    unfold pieces. cbn [flat_map]. fold (pieces C0 Cs hs). apply sorted_app; auto.
    + apply sorted_map; [|unfold addb; intros; lia]. apply sorted_fold_isect.
      unfold chunk_of. destruct (find _ C0) as [ch|] eqn:E; [|apply sorted_nil].
      apply find_some in E as [E _]. destruct W0 as [_ W0]. rewrite Forall_forall in W0. apply (W0 _ E).
    + intros x y Hx Hy. apply in_map_iff in Hx as (x0 & <- & Hx). specialize (RG _ _ Hx).
      apply MEM in Hy as [Hy _]. rewrite Forall_forall in FH. specialize (FH _ Hy). unfold addb.
      pose proof (Z.div_mod y 65536 ltac:(lia)). pose proof (Z.mod_pos_bound y 65536 ltac:(lia)). lia.
  - intro v. rewrite MEM, PR, EH. split.
    + intros [_ H] S HS. apply in_map_iff in HS as (C & <- & HC). destruct (H _ HC) as (c & Hc & Hx).
      apply (In_ungroup 65536 65535); [lia|rewrite Forall_forall in W; apply W; auto|]. exists c. auto.
    + intro H. assert (H' : forall C, In C (C0 :: Cs) -> exists c, In (v / 65536, c) C /\ In (v mod 65536) c).
      { intros C HC. apply (In_ungroup 65536 65535); [lia|rewrite Forall_forall in W; apply W; auto|].
        apply H. now apply in_map. }
      split; auto. intros C HC. destruct (H' C HC) as (c & Hc & _). apply in_map_iff. exists (v / 65536, c). auto.
Qed.
End Inter.

(** ** the whole operation, for every order of the sequences (line 10 sorts them) *)
Lemma intersection_sorted_ok mem addrs Ss :
  Ss <> [] -> Forall valid Ss -> Forall2 (stored 0 mem) addrs Ss ->
  exists seqs e, Forall2 (fun a s => seq_at mem a = Ok s) addrs seqs
    /\ enumerates (fun v => forall S, In S Ss -> In v S) e
    /\ forall dbg headers tmp bitmap out pos,
       zlen headers = 65536 -> zlen tmp = 1024 -> zlen bitmap = 1024 -> 0 <= pos -> pos + zlen e <= zlen out ->
       exists headers' tmp' bitmap' out', intersection_sorted dbg mem seqs headers tmp bitmap out pos
           = Ok (headers', tmp', bitmap', out', zlen e)
         /\ zlen headers' = 65536 /\ zlen tmp' = 1024 /\ zlen bitmap' = 1024 /\ wrote 0 out pos e out'.
Proof.
  intros N V St. destruct (stored_vector 0 mem addrs Ss ltac:(lia) V St) as (seqs & E & I).
  assert (EX : exists hs, enumerates (common (map chunks_of Ss)) hs).
  { destruct Ss as [|S0 Ss]; [easy|]. cbn [map].
    exists (fold_left isect (map (map fst) (map chunks_of Ss)) (map fst (chunks_of S0))). split.
    - apply sorted_fold_isect. inversion V as [|? ? V0 VS]; subst. apply (valid_chunks S0 V0).
    - intro x. rewrite In_fold_isect. unfold common. split.
      + intros [H1 H2] C [<-|HC]; auto. apply H2. now apply in_map.
      + intro H. split; [apply H; now left|]. intros l Hl. apply in_map_iff in Hl as (C & <- & HC).
        apply H. now right. }
  destruct EX as (hs & EH).
  destruct Ss as [|S0 Ss]; [easy|]. destruct seqs as [|s0 seqs]; [inversion I|]. cbn [map] in *.
  assert (W : Forall wfc (chunks_of S0 :: map chunks_of Ss)).
  { rewrite <- (map_cons chunks_of). apply Forall_map. eapply Forall_impl; [|exact V].
    intros S HV. apply (valid_chunks S HV). }
  exists (s0 :: seqs), (pieces (chunks_of S0) (map chunks_of Ss) hs). split; auto. split.
  { pose proof (pieces_ok _ _ _ W EH) as [P1 P2]. split; auto. intro v. rewrite P2.
    rewrite <- (map_cons chunks_of), map_ungroup_chunks by auto. reflexivity. }
  intros dbg headers tmp bitmap out pos Hh Ht Hb Hp Ho. unfold intersection_sorted. cbn [map].
  change (iget (seq_begin s0 :: map seq_begin seqs) 0) with (Ok (seq_begin s0)). cbn [bind].
  inversion I as [|? ? ? ? I0 IS]; subst. rewrite (id_view_id _ _ _ (proj1 I0)). cbn [bind].
  inversion V as [|? ? V0 VS]; subst.
  destruct (chunks_of S0) as [|[c0 l0] CS] eqn:EC0.
  { exfalso. destruct V0 as (V0 & _). apply V0. apply (group_nil 65536). exact EC0. }
  cbn [fst]. pose proof (id_view_wf _ _ _ _ (proj1 I0)) as (Hc0 & _). cbn [fst] in Hc0.
  assert (PF : forall l l' k, Forall2 (it_view 0 mem) l l' -> Forall2 (past mem k) l l').
  { clear. intros l l' k H. eapply Forall2_mono; [exact H|]. intros it C HV. exists [], C. split; auto. split; auto. apply HV. }
  destruct (candidate_loop_ok mem (((c0, l0) :: CS) :: map chunks_of Ss) (candidate_fuel (s0 :: seqs))
     [seq_begin s0] (map seq_begin seqs) [(c0, l0) :: CS] (map chunks_of Ss) c0 headers [])
     as (hd & hs' & EL & EH' & Ho').
  { reflexivity. }
  { discriminate. }
  { exact W. }
  { lia. }
  { unfold candidate_fuel. rewrite Z2Nat.id by lia. lia. }
  { left. constructor; auto. exists [], l0, CS. split; auto. split; auto. apply I0. }
  { apply PF. exact IS. }
  { split; [apply sorted_nil|]. intro x. split; [intros []|]. intros [Hx1 Hx2].
    specialize (Hx2 _ (in_eq _ _)). inversion W as [|? ? WC ?]; subst. apply wf_cons in WC as (_ & _ & WC).
    destruct Hx2 as [Hx2|Hx2]; cbn [fst] in *; [lia|]. apply in_map_iff in Hx2 as (ch & <- & Hch).
    rewrite Forall_forall in WC. specialize (WC _ Hch). lia. }
  { split; auto. rewrite zlen_nil. intros. lia. }
  rewrite zlen_nil in EL. change (zlen [seq_begin s0]) with 1 in EL. cbn [app] in EL. rewrite EL. cbn [bind].
  assert (hs' = hs) as -> by (eapply enumerates_unique; eauto).
  replace (Z.to_nat (zlen hs)) with (length hs) by (unfold zlen; lia).
  assert (PF2 : forall h, Forall2 (past2 mem h) (seq_begin s0 :: map seq_begin seqs) (((c0, l0) :: CS) :: map chunks_of Ss)).
  { intros h. eapply Forall2_mono; [exact I|]. intros it C HV. exists [], C. auto. }
  destruct (intersect_headers_ok dbg mem ((c0, l0) :: CS) (map chunks_of Ss) hd hs hs []
    (seq_begin s0) (map seq_begin seqs) tmp bitmap out pos) as (t3 & b3 & o3 & E3 & R1 & R2 & R3); auto.
  { apply EH. }
  { apply Forall_forall. intros x Hx. now apply EH. }
  rewrite zlen_nil in E3. rewrite E3. cbn [bind]. exists hd, t3, b3, o3.
  split; [f_equal; f_equal; lia|]. destruct Ho'. auto.
Qed.
