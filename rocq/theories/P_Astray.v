(** Results of decode and of the pairwise operations on sequences of which some chunks are damaged. *)
From Verif Require Import Base Hw Spec Outcome Lib L_Bits L_Group Layout Format Damage Astray M_Util M_Build M_Seq M_Decode
  M_Uncompress M_Intersect M_Union P_Build1 P_Build2 P_Build3 P_Seq P_Decode P_Query P_Uncompress P_Sets P_Inter P_Union
  P_Room P_RoomInter P_RoomUnion P_Damage P_Spoil P_Lands.
From Coq Require Import Lia Sorted.

Lemma Ok_val {A} (x y : A) : Ok x = Ok y -> x = y.
Proof. congruence. Qed.

(** ** lists of values that stay in their chunks *)
Definition held (o : list Z) (pos : Z) (e : list Z) : Prop := forall i, 0 <= i < zlen e -> znth o (pos + i) = znth e i.
Fixpoint strayed (ok : Z -> Prop) (gs : list (Z * list Z)) (e : list Z) : Prop :=
  match gs with
  | [] => e = []
  | g :: gs => exists e1 e2, e = e1 ++ e2 /\ Forall (fun v => v / 65536 = fst g) e1
      /\ (ok (fst g) -> e1 = ungroup1 65536 g) /\ strayed ok gs e2
  end.

Lemma of_chunk_app h l r : of_chunk h (l ++ r) = of_chunk h l ++ of_chunk h r.
Proof. apply filter_app. Qed.
Lemma of_chunk_none h l : Forall (fun v => v / 65536 <> h) l -> of_chunk h l = [].
Proof.
  intro F. induction F as [|v l H F IH]; [reflexivity|]. unfold of_chunk in *. cbn [filter].
  destruct (Z.eqb_spec (v / 65536) h); [easy|exact IH].
Qed.
Lemma of_chunk_all h l : Forall (fun v => v / 65536 = h) l -> of_chunk h l = l.
Proof.
  intro F. induction F as [|v l H F IH]; [reflexivity|]. unfold of_chunk in *. cbn [filter].
  destruct (Z.eqb_spec (v / 65536) h); [now rewrite IH|easy].
Qed.
Lemma ungroup1_chunk id c : Forall (fun x => 0 <= x < 65536) c -> Forall (fun v => v / 65536 = id) (ungroup1 65536 (id, c)).
Proof. intro F. unfold ungroup1. apply Forall_map. eapply Forall_impl; [|exact F]. cbn [fst]. intros x Hx. lia. Qed.

Definition ranged (gs : list (Z * list Z)) : Prop := Forall (fun g => Forall (fun x => 0 <= x < 65536) (snd g)) gs.
Lemma ungroup_in gs v : ranged gs -> In v (ungroup 65536 gs) -> In (v / 65536) (map fst gs).
Proof.
  intros R H. unfold ungroup in H. apply in_flat_map in H as ([id c] & Hg & Hv). unfold ranged in R. rewrite Forall_forall in R.
  pose proof (ungroup1_chunk id c (R _ Hg)) as F. rewrite Forall_forall in F. rewrite (F v Hv). apply in_map_iff. exists (id, c). auto.
Qed.
Lemma strayed_in ok gs : forall e, strayed ok gs e -> Forall (fun v => In (v / 65536) (map fst gs)) e.
Proof.
  induction gs as [|g gs IH]; intros e H; cbn [strayed map] in *; [subst; constructor|].
  destruct H as (e1 & e2 & -> & F & _ & H). apply Forall_app. split.
  - eapply Forall_impl; [|exact F]. cbn beta. intros v Hv. now left.
  - eapply Forall_impl; [|exact (IH _ H)]. cbn beta. intros v Hv. now right.
Qed.
Lemma strayed_agrees (has ok : Z -> Prop) gs e :
  sorted (map fst gs) -> ranged gs -> (forall h, In h (map fst gs) -> has h) -> strayed ok gs e ->
  agrees_on has ok (ungroup 65536 gs) e.
Proof.
  intros S R Hh H. split; [eapply Forall_impl; [|exact (strayed_in _ _ _ H)]; cbn beta; auto|]. clear Hh has.
  revert e H. induction gs as [|g gs IH]; intros e H; cbn [strayed] in H.
  - subst e. split; [constructor|]. reflexivity.
  - destruct H as (e1 & e2 & -> & F & Eq & H). cbn [map] in S. apply sorted_inv in S as [S SF]. rewrite Forall_forall in SF.
    pose proof R as R0. inversion R as [|? ? R1 R2]; subst.
    destruct (IH S R2 e2 H) as [Sd Ag]. pose proof (strayed_in _ _ _ H) as I2. rewrite Forall_forall in I2. split.
    + clear Eq. induction F as [|v e1 Hv F IHF]; [exact Sd|]. cbn [app]. constructor; [exact IHF|]. apply Forall_app. split.
      * eapply Forall_impl; [|exact F]. cbn beta. intros w Hw. lia.
      * apply Forall_forall. intros w Hw. specialize (SF _ (I2 w Hw)). lia.
    + intros h Ho. rewrite ungroup_cons, !of_chunk_app. rewrite (Ag h Ho). f_equal.
      destruct (Z.eq_dec (fst g) h) as [E|E]; [subst h; rewrite (Eq Ho); reflexivity|].
      rewrite !of_chunk_none; auto.
      * destruct g as [id c]. eapply Forall_impl; [|apply ungroup1_chunk, R1]. cbn [fst] in *. cbn beta. intros v Hv. lia.
      * eapply Forall_impl; [|exact F]. cbn beta. intros v Hv. lia.
Qed.

Lemma held_keep o1 o2 pos e : held o1 pos e -> below o1 o2 (pos + zlen e) -> held o2 pos e.
Proof. intros H [_ K] i Hi. rewrite K by lia. auto. Qed.
Lemma held_app o pos e1 e2 : held o pos e1 -> held o (pos + zlen e1) e2 -> held o pos (e1 ++ e2).
Proof.
  intros H K i Hi. rewrite zlen_app in Hi. destruct (Z_lt_le_dec i (zlen e1)).
  - rewrite znth_app_l by lia. apply H. lia.
  - rewrite znth_app_r by lia. rewrite <- K by lia. f_equal. lia.
Qed.
Lemma held_room o pos e : held o pos e -> pos <= zlen o -> pos + zlen e <= zlen o.
Proof.
  intros H Hp. pose proof (zlen_nonneg _ e). destruct (Z.eq_dec (zlen e) 0); [lia|].
  specialize (H (zlen e - 1) ltac:(lia)). destruct (znth_Some _ e (zlen e - 1)) as (v & Ev); [lia|].
  rewrite Ev in H. apply znth_lt in H. lia.
Qed.
Lemma held_wrote k out pos e o : wrote k out pos e o -> below out o pos /\ held o pos e.
Proof. intros (L & H & B). split; [split; auto|exact H]. Qed.

(** words of a buffer as a list *)
Lemma lands_list b w out pos o n : lands b w out pos o n ->
  exists e, zlen e = n /\ below out o pos /\ held o pos e /\ Forall (fun v => b <= v < b + w) e.
Proof.
  intros (B & N & I). revert I. rewrite <- (Z2Nat.id n) by lia. clear N. generalize (Z.to_nat n). clear n. intros n.
  revert pos B. induction n as [|n IH]; intros pos B I.
  - exists []. split; [reflexivity|]. split; auto. split; [|constructor]. intros i Hi. rewrite zlen_nil in Hi. lia.
  - assert (exists e, zlen e = Z.of_nat n /\ below out o pos /\ held o pos e /\ Forall (fun v => b <= v < b + w) e) as (e & E1 & _ & E2 & E3).
    { apply IH; auto. intros i Hi. apply I. lia. }
    destruct (I (pos + Z.of_nat n)) as (v & Ev & Rv); [lia|]. exists (e ++ [v]). rewrite zlen_app. change (zlen [v]) with 1.
    split; [lia|]. split; auto. split; [|apply Forall_app; auto]. apply held_app; auto. rewrite E1. intros i Hi.
    change (zlen [v]) with 1 in Hi. replace i with 0 by lia. rewrite Z.add_0_r. exact Ev.
Qed.

(** what a kernel did for one chunk *)
Definition got (ok : Prop) (id : Z) (right : list Z) (out : list Z) (pos : Z) (o : list Z) (n : Z) : Prop :=
  exists e, n = zlen e /\ below out o pos /\ held o pos e /\ Forall (fun v => v / 65536 = id) e
    /\ (ok -> e = ungroup1 65536 (id, right)).
Lemma got_lands (ok : Prop) id c out pos o n : 0 <= id -> lands (id * 65536) 65536 out pos o n ->
  (ok -> n = zlen c /\ held o pos (ungroup1 65536 (id, c))) -> got ok id c out pos o n.
Proof.
  intros Hi L G. destruct (lands_list _ _ _ _ _ _ L) as (e & En & B & H & F). exists e. split; auto. split; auto. split; auto. split.
  - eapply Forall_impl; [|exact F]. cbn beta. intros v Hv. lia.
  - intro Ho. destruct (G Ho) as [E W]. apply znth_ext; [rewrite zlen_ungroup1; cbn [snd]; lia|].
    intros i Hi'. rewrite <- H by lia. apply W. rewrite zlen_ungroup1. cbn [snd]. lia.
Qed.

(** what a loop did *)
Definition gone (ok : Z -> Prop) (gs : list (Z * list Z)) (out : list Z) (pos : Z) (o : list Z) (pos' : Z) : Prop :=
  exists e, pos' = pos + zlen e /\ below out o pos /\ held o pos e /\ strayed ok gs e.
Lemma gone_nil ok out pos : gone ok [] out pos out pos.
Proof. exists []. rewrite zlen_nil. split; [lia|]. split; [apply below_refl|]. split; [intros i Hi; rewrite zlen_nil in Hi; lia|reflexivity]. Qed.
Lemma gone_cons (ok : Z -> Prop) id c gs out pos o1 n o2 pos' :
  got (ok id) id c out pos o1 n -> gone ok gs o1 (pos + n) o2 pos' -> gone ok ((id, c) :: gs) out pos o2 pos'.
Proof.
  intros (e1 & -> & B1 & H1 & F1 & O1) (e2 & -> & B2 & H2 & S2). exists (e1 ++ e2). rewrite zlen_app. zpos. split; [lia|].
  split; [eapply below_trans; eauto; lia|]. split.
  - apply held_app; auto. eapply held_keep; eauto.
  - cbn [strayed fst]. exists e1, e2. auto.
Qed.
Lemma got_room (ok : Prop) id c out pos o n : got ok id c out pos o n -> 0 <= pos <= zlen out -> 0 <= pos + n <= zlen o.
Proof. intros (e & -> & (L & _) & H & _) Hp. zpos. pose proof (held_room _ _ _ H ltac:(lia)). lia. Qed.
Lemma strayed_app ok g1 g2 : forall e1 e2, strayed ok g1 e1 -> strayed ok g2 e2 -> strayed ok (g1 ++ g2) (e1 ++ e2).
Proof.
  induction g1 as [|g g1 IH]; intros e1 e2 H1 H2; cbn [strayed app] in *; [subst; exact H2|].
  destruct H1 as (a & b & -> & F & O & H1). exists a, (b ++ e2). rewrite app_assoc. auto.
Qed.
Lemma gone_app ok g1 g2 out pos o1 p1 o2 p2 : gone ok g1 out pos o1 p1 -> gone ok g2 o1 p1 o2 p2 -> gone ok (g1 ++ g2) out pos o2 p2.
Proof.
  intros (e1 & -> & B1 & H1 & S1) (e2 & -> & B2 & H2 & S2). exists (e1 ++ e2). rewrite zlen_app. zpos. split; [lia|].
  split; [eapply below_trans; eauto; lia|]. split; [|now apply strayed_app].
  apply held_app; auto. eapply held_keep; eauto.
Qed.
Lemma gone_room ok gs out pos o p : gone ok gs out pos o p -> 0 <= pos <= zlen out -> 0 <= p <= zlen o.
Proof. intros (e & -> & (L & _) & H & _) Hp. zpos. pose proof (held_room _ _ _ H ltac:(lia)). lia. Qed.
Lemma gone_delivered (has ok : Z -> Prop) gs out pos o p S :
  sorted (map fst gs) -> ranged gs -> (forall h, In h (map fst gs) -> has h) -> ungroup 65536 gs = S ->
  gone ok gs out pos o p -> exists e, delivered out pos o (p - pos) e /\ agrees_on has ok S e.
Proof.
  intros S1 R Hh <- (e & -> & (L & B) & H & St). exists e. split.
  - split; [lia|]. split; auto.
  - now apply strayed_agrees.
Qed.

Lemma wfc_ranged cs : wfc cs -> ranged cs.
Proof. intros [_ F]. eapply Forall_impl; [|exact F]. intros [id c] (_ & _ & _ & R). exact R. Qed.

(** ** decode *)
Section Mem.
Variables (dbg : bool) (mem : list Z) (ok : Z -> Prop).
Hypothesis Bytes : Forall is_byte mem.

Lemma decode_chunk_got it id c cs out pos :
  part_view 0 ok mem it ((id, c) :: cs) -> 0 <= pos <= zlen out ->
  okp (decode_chunk dbg mem it out pos) (fun r => got (ok id) id c out pos (fst r) (snd r)).
Proof.
  intros V Hp r E. destruct (chunk_base _ _ _ _ _ (proj1 V)) as (Ei & _ & Hi).
  apply got_lands; [lia|exact (decode_chunk_lands dbg mem Bytes it id out pos Ei Hi r E)|].
  intro Ho. destruct (decode_good ok dbg mem it id c cs out pos V Ho Hp r E) as [N W]. split; auto. exact (proj1 (proj2 W)).
Qed.
Lemma decode_loop_gone : forall cs it out pos,
  part_view 0 ok mem it cs -> 0 <= pos <= zlen out ->
  okp (decode_loop (length cs) dbg mem it out pos) (fun r => gone ok cs out pos (fst r) (snd r)).
Proof.
  induction cs as [|[id c] cs IH]; intros it out pos V Hp; cbn [length decode_loop]; [apply okp_ok, gone_nil|].
  eapply okp_seq; [eapply decode_chunk_got; eauto|]. intros [o n] G. cbn [fst snd] in G.
  destruct (part_next _ _ _ _ _ _ _ V) as (it' & -> & V'). cbn [bind].
  eapply okp_mono; [apply IH; [exact V'|eapply got_room; eauto]|]. cbn beta. intros r Hr. eapply gone_cons; eauto.
Qed.
Lemma decode_rest_gone : forall cs fuel it out pos, (length cs <= fuel)%nat ->
  part_view 0 ok mem it cs -> 0 <= pos <= zlen out ->
  okp (decode_rest_loop fuel dbg mem it out pos) (fun r => gone ok cs out pos (fst r) (snd r)).
Proof.
  induction cs as [|[id c] cs IH]; intros fuel it out pos Hf V Hp.
  - destruct fuel; cbn [decode_rest_loop]; rewrite (id_view_has_next _ _ _ (proj1 V)); apply okp_ok, gone_nil.
  - destruct fuel as [|fuel]; cbn [length] in Hf; [lia|]. cbn [decode_rest_loop]. rewrite (id_view_has_next _ _ _ (proj1 V)).
    eapply okp_seq; [eapply decode_chunk_got; eauto|]. intros [o n] G. cbn [fst snd] in G.
    destruct (part_next _ _ _ _ _ _ _ V) as (it' & -> & V'). cbn [bind].
    eapply okp_mono; [apply IH; [lia|exact V'|eapply got_room; eauto]|]. cbn beta. intros r Hr. eapply gone_cons; eauto.
Qed.

(** ** pairwise intersection *)
Variables (tbl : Z -> list Z) (Ht : shuffle_table_ok tbl).
Lemma sparse_chunk_zlen begin bl x : okp (uncompress_sparse_chunk dbg mem begin bl x 0) (fun x' => zlen x' = zlen x).
Proof.
  unfold uncompress_sparse_chunk. eapply okp_seq; [apply okp_any|]. intros _ _.
  eapply okp_mono; [apply (sparse_chunk_outside mem 0 Bytes (Z.to_nat bl) begin (begin + bl * 2) 0 x)|]. cbn beta. intros x' [L _]. exact L.
Qed.
Lemma intersect_chunks_zlen itl itr base x out pos :
  okp (intersect_chunks tbl dbg mem itl itr base x out pos) (fun y => zlen (fst (fst y)) = zlen x).
Proof.
  unfold intersect_chunks. cbv zeta.
  set (P := fun y : list Z * list Z * Z => zlen (fst (fst y)) = zlen x).
  assert (K : forall y : res (list Z * Z), okp (let! p := y in let '(out, n) := p in Ok (x, out, n)) P).
  { intros y. eapply okp_seq; [apply okp_any|]. intros [o n] _. apply okp_ok. reflexivity. }
  assert (KD : forall l r b, okp (ds_intersect_chunk dbg mem l r b base x out pos) P).
  { intros l r b. unfold ds_intersect_chunk. cbv zeta. eapply okp_seq; [apply sparse_chunk_zlen|]. intros x' Hx. cbn beta in Hx.
    eapply okp_seq; [apply okp_any|]. intros [o n] _. apply okp_ok. unfold P. cbn [fst]. rewrite Hx. unfold zlen. now rewrite repeat_length. }
  assert (NB : forall it (f : Z -> res (list Z * list Z * Z)), (forall b, okp (f b) P) -> okp (bind (it_blocks mem it) f) P).
  { intros it f Hf. eapply okp_seq; [apply okp_any|]. intros b _. apply Hf. }
  eapply okp_seq; [apply okp_any|]. intros tl _. eapply okp_seq; [apply okp_any|]. intros tr _.
  destruct (_ =? _). { apply NB. intro. apply NB. intro. destruct (_ <? _); apply K. }
  destruct (_ =? _). { apply NB. intro. apply KD. }
  destruct (_ =? _). { apply NB. intro. apply K. }
  destruct (_ =? _). { apply NB. intro. apply KD. }
  destruct (_ =? _); [apply K|]. destruct (_ =? _); [apply K|].
  destruct (_ =? _). { apply NB. intro. apply K. }
  destruct (_ =? _); [apply K|]. destruct (_ =? _); [apply K|]. intros y E. discriminate.
Qed.
Lemma intersect_chunks_got itl itr i a b A B x out pos :
  part_view 0 ok mem itl ((i, a) :: A) -> part_view 0 ok mem itr ((i, b) :: B) -> zlen x = 1024 -> 0 <= pos <= zlen out ->
  okp (intersect_chunks tbl dbg mem itl itr (i * 65536) x out pos) (fun r =>
    zlen (fst (fst r)) = 1024 /\ got (ok i) i (isect a b) out pos (snd (fst r)) (u32 (snd r))).
Proof.
  intros Va Vb Hx Hp r E. destruct (chunk_base _ _ _ _ _ (proj1 Va)) as (_ & _ & Hi).
  split; [rewrite <- Hx; exact (intersect_chunks_zlen _ _ _ _ _ _ _ E)|].
  apply got_lands; [lia|apply lands_u32; exact (intersect_chunks_lands dbg mem Bytes tbl Ht itl itr (i * 65536) x out pos ltac:(lia) ltac:(lia) r E)|].
  intro Ho. pose proof (part_one _ _ _ _ _ _ _ Va Ho ltac:(lia)) as Va0. pose proof (part_one _ _ _ _ _ _ _ Vb Ho ltac:(lia)) as Vb0.
  change (intersect_chunks tbl dbg mem itl itr (i * 65536) x out pos) with (intersect_chunks tbl dbg mem (one itl) (one itr) (i * 65536) x out pos) in E.
  destruct (intersect_chunks_room tbl Ht dbg mem (one itl) (one itr) i i a b [] [] (i * 65536) x out pos Va0 Vb0 Hx ltac:(lia) ltac:(lia) ltac:(lia) ltac:(lia))
    as (x' & Hx' & [(_ & o & Eo & W)|(_ & Eo)]); rewrite Eo in E; [|discriminate].
  apply Ok_val in E. subst r. cbn [fst snd].
  pose proof (chunk_card _ _ (id_view_wf _ _ _ _ (proj1 Va))) as Ca. pose proof (zlen_isect_le a b). zpos.
  pose proof (zlen_nonneg _ (isect a b)). rewrite u32_id by lia. split; [reflexivity|exact (proj1 (proj2 W))].
Qed.

Lemma intersection_loop_gone : forall fuel A B itl itr x out pos,
  (length A + length B <= fuel)%nat ->
  part_view 0 ok mem itl A -> part_view 0 ok mem itr B -> zlen x = 1024 -> 0 <= pos <= zlen out ->
  okp (pairwise_intersection_loop fuel tbl dbg mem itl itr x out pos) (fun r =>
    zlen (fst (fst r)) = 1024
    /\ exists gs, gone ok gs out pos (snd (fst r)) (snd r) /\ sorted (map fst gs) /\ ranged gs
      /\ (forall h, In h (map fst gs) -> In h (map fst A) /\ In h (map fst B))
      /\ ungroup 65536 gs = isect (ungroup 65536 A) (ungroup 65536 B)).
Proof.
  assert (Hk : 0 < 65536) by lia.
  assert (DONE : forall A B (x out : list Z) pos, zlen x = 1024 -> isect (ungroup 65536 A) (ungroup 65536 B) = [] ->
    okp (Ok (x, out, pos)) (fun r => zlen (fst (fst r)) = 1024
    /\ exists gs, gone ok gs out pos (snd (fst r)) (snd r) /\ sorted (map fst gs) /\ ranged gs
      /\ (forall h, In h (map fst gs) -> In h (map fst A) /\ In h (map fst B))
      /\ ungroup 65536 gs = isect (ungroup 65536 A) (ungroup 65536 B))).
  { intros A B x out pos Hx E. apply okp_ok. cbn [fst snd]. split; auto. exists []. split; [apply gone_nil|].
    split; [apply sorted_nil|]. split; [constructor|]. split; [intros h []|]. now rewrite E. }
  induction fuel as [|f IH]; intros A B itl itr x out pos Hf Va Vb Hx Hp; cbn [pairwise_intersection_loop];
    rewrite (id_view_has_next _ _ _ (proj1 Va)), (id_view_has_next _ _ _ (proj1 Vb)).
  all: destruct A as [|[i a] A]; [apply DONE; auto|].
  all: destruct B as [|[j b] B]; [cbn [andb]; apply DONE; auto; cbn [ungroup flat_map]; now rewrite isect_nil_r|].
  { cbn [length] in Hf. lia. }
  cbn [andb]. pose proof (proj1 (proj1 Va)) as WA. pose proof (proj1 (proj1 Vb)) as WB.
  destruct (chunk_base _ _ _ _ _ (proj1 Va)) as (Ei & Ebi & Hi).
  destruct (chunk_base _ _ _ _ _ (proj1 Vb)) as (Ej & Ebj & Hj).
  rewrite Ei, Ej. cbn [bind]. rewrite !u16_id by lia. cbn [length] in Hf.
  destruct (Z.eqb_spec i j) as [E|E].
  - subst j. rewrite Ebi.
    eapply okp_seq; [eapply intersect_chunks_got; eauto|]. intros [[x1 o1] n1] [Hx1 G]. cbn [fst snd] in Hx1, G.
    destruct (part_next _ _ _ _ _ _ _ Va) as (itl1 & -> & Va1). cbn [bind].
    destruct (part_next _ _ _ _ _ _ _ Vb) as (itr1 & -> & Vb1). cbn [bind].
    eapply okp_mono; [apply (IH A B); auto; [lia|eapply got_room; eauto]|]. cbn beta. intros [[x2 o2] p2] (Hx2 & gs & G2 & SG & RG & IG & UG).
    cbn [fst snd] in *. split; auto. exists ((i, isect a b) :: gs). split; [eapply gone_cons; eauto|].
    pose proof WA as WA0. apply wf_cons in WA0 as (WA1 & WA2 & FA). rewrite Forall_forall in FA. cbn [fst] in FA.
    split; [|split; [|split]].
    + cbn [map fst]. constructor; auto. apply Forall_forall. intros h Hh. destruct (IG h Hh) as [Hh' _].
      apply in_map_iff in Hh' as (g & <- & Hg). auto.
    + constructor; auto. cbn [snd]. destruct WA1 as (_ & _ & _ & RA). apply Forall_isect, RA.
    + cbn [map fst In]. intros h [<-|Hh]; [auto|]. destruct (IG h Hh). auto.
    + rewrite ungroup_cons, UG. rewrite (isect_groups_eq 65536 65535 Hk i i a b A B); auto.
  - destruct (Z.ltb_spec i j).
    + destruct (part_advance 0 ok mem itl ((i, a) :: A) j Va) as (itl1 & pre & suf & -> & D & Va1); [lia|].
      cbn [bind]. pose proof (dropped_dropg _ _ _ _ D) as Es.
      rewrite (isect_dropg 65536 65535 ((i, a) :: A) j b B Hk WA WB). rewrite <- Es.
      eapply okp_mono; [apply (IH suf ((j, b) :: B)); auto|].
      2:{ cbn beta. intros r (Hx2 & gs & G2 & SG & RG & IG & UG). split; auto. exists gs. do 3 (split; auto). split; auto.
          intros h Hh. destruct (IG h Hh). split; auto. rewrite (proj1 D), map_app. apply in_or_app. now right. }
      destruct D as (D & F & G). apply (f_equal (@length _)) in D. rewrite app_length in D.
      cbn [length] in *. destruct pre as [|? pre]; [|cbn [length] in D; lia].
      exfalso. destruct suf as [|? suf]; [discriminate|]. cbn [dropg fst] in Es.
      destruct (Z.ltb_spec i j); [|lia]. clear IH DONE.
      assert (Ls : (length (dropg j A) <= length A)%nat).
      { destruct (dropg_split j A) as (pp & Ep & _). rewrite Ep at 2. rewrite app_length. lia. }
      rewrite <- Es in Ls. cbn [length] in *. lia.
    + destruct (part_advance 0 ok mem itr ((j, b) :: B) i Vb) as (itr1 & pre & suf & -> & D & Vb1); [lia|].
      cbn [bind]. pose proof (dropped_dropg _ _ _ _ D) as Es.
      assert (SA : sorted (ungroup 65536 ((i, a) :: A))) by (apply (sorted_ungroup 65536 65535); auto).
      assert (SB : sorted (ungroup 65536 ((j, b) :: B))) by (apply (sorted_ungroup 65536 65535); auto).
      assert (SB1 : sorted (ungroup 65536 suf)) by (apply (sorted_ungroup 65536 65535); auto; apply Vb1).
      rewrite (isect_comm (ungroup 65536 ((i, a) :: A))) by auto.
      rewrite (isect_dropg 65536 65535 ((j, b) :: B) i a A Hk WB WA). rewrite <- Es.
      rewrite <- (isect_comm (ungroup 65536 ((i, a) :: A))) by auto.
      eapply okp_mono; [apply (IH ((i, a) :: A) suf); auto|].
      2:{ cbn beta. intros r (Hx2 & gs & G2 & SG & RG & IG & UG). split; auto. exists gs. do 3 (split; auto). split; auto.
          intros h Hh. destruct (IG h Hh). split; auto. rewrite (proj1 D), map_app. apply in_or_app. now right. }
      destruct D as (D & F & G). apply (f_equal (@length _)) in D. rewrite app_length in D.
      cbn [length] in *. destruct pre as [|? pre]; [|cbn [length] in D; lia].
      exfalso. destruct suf as [|? suf]; [discriminate|]. cbn [dropg fst] in Es.
      destruct (Z.ltb_spec j i); [|lia]. clear IH DONE.
      assert (Ls : (length (dropg i B) <= length B)%nat).
      { destruct (dropg_split i B) as (pp & Ep & _). rewrite Ep at 2. rewrite app_length. lia. }
      rewrite <- Es in Ls. cbn [length] in *. lia.
Qed.
End Mem.

Lemma c60_decode : forall dbg mem a S ok s out pos out' n,
  valid S -> Forall is_byte mem -> intact 0 ok mem a S -> seq_at mem a = Ok s -> 0 <= pos <= zlen out ->
  decode dbg mem s out pos = Ok (out', n) ->
  exists e, delivered out pos out' n e /\ agrees_on (has_chunk S) ok S e.
Proof.
  intros dbg mem a S ok s out pos out' n H Hb St Es Hp E.
  destruct (intact_seq 0 ok mem a S H St ltac:(lia)) as (s' & Es' & En & V & A). rewrite Es in Es'. injection Es' as <-.
  destruct (valid_chunks S H) as (W & N & U & SC & L). unfold decode in E. rewrite En, <- length_zlen in E.
  destruct (decode_loop (length (chunks_of S)) dbg mem (seq_begin s) out pos) as [[o e]| | | |] eqn:EL; cbn [bind] in E; try discriminate.
  injection E as <- <-. pose proof (decode_loop_gone dbg mem ok Hb _ _ _ _ V Hp _ EL) as G. cbn [fst snd] in G.
  eapply gone_delivered; [apply W|apply wfc_ranged, W| |exact U|exact G].
  intros h Hh. now apply has_chunk_fst.
Qed.

Lemma c60_intersection : forall tbl dbg mem a b S T ok s t x out pos x' out' n I,
  shuffle_table_ok tbl -> valid S -> valid T -> Forall is_byte mem -> intact 0 ok mem a S -> intact 0 ok mem b T ->
  seq_at mem a = Ok s -> seq_at mem b = Ok t -> zlen x = 1024 -> 0 <= pos <= zlen out ->
  pairwise_intersection tbl dbg mem s t x out pos = Ok (x', out', n) ->
  enumerates (fun v => In v S /\ In v T) I ->
  exists e, delivered out pos out' n e /\ agrees_on (fun h => has_chunk S h /\ has_chunk T h) ok I e.
Proof.
  intros tbl dbg mem a b S T ok s t x out pos x' out' n I Ht HS HT Hb IS IT Es Et Hx Hp E En.
  destruct (intact_seq _ _ mem a S HS IS ltac:(lia)) as (s' & Es' & _ & Vs & _). rewrite Es in Es'. apply Ok_val in Es'. subst s'.
  destruct (intact_seq _ _ mem b T HT IT ltac:(lia)) as (t' & Et' & _ & Vt & _). rewrite Et in Et'. apply Ok_val in Et'. subst t'.
  destruct (valid_chunks S HS) as (WS & _ & US & _). destruct (valid_chunks T HT) as (WT & _ & UT & _).
  unfold pairwise_intersection in E.
  destruct (pairwise_intersection_loop _ tbl dbg mem (seq_begin s) (seq_begin t) x out pos) as [[[x1 o] e]| | | |] eqn:EL; cbn [bind] in E; try discriminate.
  injection E as <- <- <-.
  pose proof (intersection_loop_gone dbg mem ok Hb tbl Ht (it_fuel (seq_begin s) + it_fuel (seq_begin t))
    (chunks_of S) (chunks_of T) (seq_begin s) (seq_begin t) x out pos) as G.
  specialize (G ltac:(pose proof (it_fuel_ok _ _ _ (proj1 Vs)); pose proof (it_fuel_ok _ _ _ (proj1 Vt)); lia) Vs Vt Hx Hp _ EL).
  destruct G as (_ & gs & G & SG & RG & IG & UG). cbn [fst snd] in *. rewrite US, UT in UG.
  assert (I = isect S T) as ->.
  { eapply enumerates_unique; [exact En|]. split; [apply sorted_isect, HS|]. intro. apply In_isect. }
  eapply gone_delivered; [exact SG|exact RG| |exact UG|exact G].
  intros h Hh. destruct (IG h Hh). split; now apply has_chunk_fst.
Qed.
