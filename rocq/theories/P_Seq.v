(** Sequences and iterators over an encoding in memory. *)
From Verif Require Import Base Hw Spec Lib L_Bits L_Group Layout M_Util M_Seq P_Build3.

(** the iterator stands before the chunks [cs]: its header pointer is right *)
Definition id_view (mem : list Z) (it : iterator) (cs : list (Z * list Z)) : Prop :=
  wfc cs
  /\ bytes_at mem (i_header it) (bytes_of_u16s (chdrs cs))
  /\ 0 <= i_begin it /\ i_end it = i_begin it + zlen cs /\ i_end it <= 65535
  /\ 0 <= i_pointers it /\ i_pointers it + 8 * (zlen cs / 32) <= zlen mem.
(** ... and its data pointer is right *)
Definition it_view (slack : Z) (mem : list Z) (it : iterator) (cs : list (Z * list Z)) : Prop :=
  id_view mem it cs
  /\ bytes_at mem (i_data it) (cdatas cs)
  /\ 0 <= i_data it /\ i_data it + zlen (cdatas cs) + slack <= zlen mem.
(** ... and its pointer into the skip pointers is right *)
Definition aligned (mem : list Z) (it : iterator) (cs : list (Z * list Z)) : Prop :=
  bytes_at mem (i_pointers it) (ptrs (Z.to_nat (zlen cs / 32)) cs).

Lemma seq_at_ok slack mem a cs :
  wfc cs -> cs <> [] -> bytes_at mem a (layout cs) -> a + zlen (layout cs) + slack <= zlen mem ->
  0 <= slack ->
  exists s, seq_at mem a = Ok s /\ s_chunks s = zlen cs
    /\ it_view slack mem (seq_begin s) cs /\ aligned mem (seq_begin s) cs
    /\ i_begin (seq_begin s) = 0.
Proof.
  intros Hw Hne B L Hsl. pose proof (chunks_le _ Hw) as Hn. pose proof (zlen_layout cs) as HL.
  assert (H1 : 0 < zlen cs) by (destruct cs; [easy|zl]).
  assert (BN : layout cs <> []) by (intro E; rewrite E in HL; zpos; change (zlen (@nil Z)) with 0 in HL; lia).
  pose proof (bytes_at_bound _ _ _ B BN) as [Ha _].
  unfold layout in B. apply bytes_at_app in B as [B0 B]. apply bytes_at_app in B as [B1 B].
  apply bytes_at_app in B as [B2 B3].
  rewrite zlen_le_bytes in *. rewrite zlen_ptrs in *. rewrite zlen_bytes_of_u16s, zlen_chdrs in *.
  rewrite Z2Nat.id in * by lia.
  unfold seq_at. rewrite (rd16_at mem a (zlen cs - 1)) by (auto; lia). cbn [bind].
  replace (1 + (zlen cs - 1)) with (zlen cs) by lia. change M_Util.associativity with 32.
  eexists. split; [reflexivity|]. cbn [s_chunks seq_begin s_pointers s_header s_data i_begin i_pointers].
  split; [reflexivity|].
  replace (a + 2 + 2 * (zlen cs / 32 * 4 * 2 / 2)) with (a + Z.of_nat 2 + 8 * (zlen cs / 32)) by lia.
  replace (a + 2 + zlen cs / 32 * 4 * 2 + zlen cs * 4 * 2)
    with (a + Z.of_nat 2 + 8 * (zlen cs / 32) + 2 * (4 * zlen cs)) by lia.
  split; [|split; [exact B1|reflexivity]].
  zpos.
  split; [split; [exact Hw|]|split; [exact B3|]]; unfold seq_begin;
    cbn [i_header i_begin i_end i_pointers i_data s_chunks s_pointers s_header s_data]; [|lia].
  split; [exact B2|]. lia.
Qed.

(** ** reading the head *)
Lemma chunk_type_range id c : wfc1 (id, c) -> 0 <= chunk_type c < 65536.
Proof.
  intro H. pose proof (blocks_count _ _ H). unfold chunk_type. destruct (kind_of c); lia.
Qed.
Lemma hdr_at mem a id c cs :
  bytes_at mem a (bytes_of_u16s (chdrs ((id, c) :: cs))) -> wfc1 (id, c) ->
  rd16 mem a = Ok id /\ rd16 mem (a + 2 * 1) = Ok (zlen c - 1)
  /\ rd16 mem (a + 2 * 2) = Ok (chunk_type c) /\ rd16 mem (a + 2 * 3) = Ok (zlen (chunk_data c))
  /\ bytes_at mem (a + 8) (bytes_of_u16s (chdrs cs)).
Proof.
  intros B Hw. pose proof (chunk_type_range _ _ Hw). pose proof (chunk_card _ _ Hw).
  pose proof (zlen_chunk_data _ _ Hw). pose proof (zlen_nonneg _ (chunk_data c)).
  rewrite chdrs_cons, u16s_app in B. apply bytes_at_app in B as [B B'].
  rewrite zlen_bytes_of_u16s in B'. change (2 * zlen (chunk_hdr (id, c))) with 8 in B'.
  unfold chunk_hdr in B. cbn [fst snd] in B. unfold bytes_of_u16s in B. cbn [flat_map] in B.
  apply bytes_at_app in B as [B0 B]. apply bytes_at_app in B as [B1 B].
  apply bytes_at_app in B as [B2 B]. apply bytes_at_app in B as [B3 _].
  rewrite !zlen_le_bytes in *.
  destruct Hw as (Hid & _). cbn [fst] in Hid.
  replace (a + 2 * 2) with (a + Z.of_nat 2 + Z.of_nat 2) by lia.
  replace (a + 2 * 3) with (a + Z.of_nat 2 + Z.of_nat 2 + Z.of_nat 2) by lia.
  repeat split; auto; apply rd16_at; auto; lia.
Qed.

Lemma id_view_wf mem it ch cs : id_view mem it (ch :: cs) -> wfc1 ch.
Proof. intros [H _]. apply wf_cons in H. apply H. Qed.
Lemma view_wf slack mem it ch cs : it_view slack mem it (ch :: cs) -> wfc1 ch.
Proof. intros [H _]. eapply id_view_wf; eauto. Qed.
Lemma id_view_has_next mem it cs :
  id_view mem it cs -> it_has_next it = match cs with [] => false | _ => true end.
Proof.
  intros (_ & _ & H1 & H2 & _). unfold it_has_next. destruct cs.
  - apply Z.ltb_ge. rewrite H2, zlen_nil. lia.
  - apply Z.ltb_lt. rewrite H2. zl.
Qed.
Lemma id_view_id mem it cs :
  id_view mem it cs -> it_id mem it = Ok (match cs with [] => 65536 | ch :: _ => fst ch end).
Proof.
  intro H. unfold it_id. rewrite (id_view_has_next _ _ _ H). destruct cs as [|[id c] cs]; auto.
  pose proof (id_view_wf _ _ _ _ H) as Hw. destruct H as (_ & B & _).
  apply hdr_at in B; auto. apply B.
Qed.
Lemma id_view_base mem it cs :
  id_view mem it cs ->
  it_base mem it = Ok (match cs with [] => 0 | ch :: _ => fst ch * 65536 end).
Proof.
  intro H. unfold it_base. rewrite (id_view_id _ _ _ H). cbn [bind]. f_equal.
  destruct cs as [|ch cs]; [reflexivity|].
  pose proof (id_view_wf _ _ _ _ H) as (Hi & _). rewrite Z.shiftl_mul_pow2 by lia.
  change (2 ^ 16) with 65536. apply u32_id. lia.
Qed.
Lemma id_view_cardinality mem it id c cs :
  id_view mem it ((id, c) :: cs) -> it_cardinality mem it = Ok (zlen c).
Proof.
  intro H. unfold it_cardinality. pose proof (id_view_wf _ _ _ _ H) as Hw.
  destruct H as (_ & B & _). apply hdr_at in B as (_ & -> & _); auto. cbn [bind]. f_equal. lia.
Qed.
Lemma id_view_type mem it id c cs :
  id_view mem it ((id, c) :: cs) ->
  it_type mem it = Ok (match kind_of c with KSparse => t_sparse | KDense => t_dense | KFull => t_full end).
Proof.
  intro H. unfold it_type. pose proof (id_view_wf _ _ _ _ H) as Hw.
  destruct H as (_ & B & _). apply hdr_at in B as (_ & _ & -> & _); auto. cbn [bind]. f_equal.
  pose proof (blocks_count _ _ Hw) as Hb.
  unfold chunk_type. destruct (kind_of c); try reflexivity.
  change 255 with (Z.ones 8). rewrite Z.land_ones by lia. change (2 ^ 8) with 256. unfold t_sparse. lia.
Qed.
Lemma id_view_blocks mem it id c cs :
  id_view mem it ((id, c) :: cs) -> kind_of c = KSparse -> it_blocks mem it = Ok (zlen (blocks_of c)).
Proof.
  intros H K. unfold it_blocks. pose proof (id_view_wf _ _ _ _ H) as Hw.
  destruct H as (_ & B & _). apply hdr_at in B as (_ & _ & -> & _); auto. cbn [bind]. f_equal.
  unfold chunk_type. rewrite K. rewrite Z.shiftr_div_pow2 by lia. change (2 ^ 8) with 256. lia.
Qed.
Lemma id_view_next mem it id c cs :
  id_view mem it ((id, c) :: cs) ->
  exists it', it_next mem it = Ok it' /\ id_view mem it' cs /\ i_begin it' = i_begin it + 1
    /\ i_pointers it' = i_pointers it /\ i_data it' = i_data it + zlen (chunk_data c)
    /\ i_end it' = i_end it.
Proof.
  intro H. unfold it_next, it_offset. pose proof (id_view_wf _ _ _ _ H) as Hw.
  destruct H as (W & B & H1 & H2 & H3 & H4 & H5). apply hdr_at in B as (_ & _ & _ & -> & B); auto.
  cbn [bind]. rewrite zlen_cons in *. zpos. rewrite u32_id by lia.
  eexists. split; [reflexivity|].
  apply wf_cons in W as (_ & W & _).
  split; [|cbn; auto].
  split; [exact W|]. cbn [i_header i_begin i_end i_pointers].
  split; [exact B|]. lia.
Qed.
Lemma view_next slack mem it id c cs :
  it_view slack mem it ((id, c) :: cs) ->
  exists it', it_next mem it = Ok it' /\ it_view slack mem it' cs /\ i_begin it' = i_begin it + 1
    /\ i_pointers it' = i_pointers it /\ i_data it' = i_data it + zlen (chunk_data c)
    /\ i_end it' = i_end it.
Proof.
  intros (H & B & D & L). destruct (id_view_next _ _ _ _ _ H) as (it' & E & V & E1 & E2 & E3 & E4).
  exists it'. split; auto. split; auto. split; auto.
  rewrite cdatas_cons in *. rewrite zlen_app in L. cbn [snd] in *. apply bytes_at_app in B as [_ B].
  rewrite E3. zpos. split; auto. lia.
Qed.

(** ** advancing *)
(** [suf] is what remains of [cs] from the first chunk with identifier >= lb *)
Definition dropped (lb : Z) (cs pre suf : list (Z * list Z)) : Prop :=
  cs = pre ++ suf /\ Forall (fun ch => fst ch < lb) pre /\ Forall (fun ch => lb <= fst ch) suf.

Lemma dropped_cons lb ch cs pre suf :
  fst ch < lb -> dropped lb cs pre suf -> dropped lb (ch :: cs) (ch :: pre) suf.
Proof. intros H (-> & H1 & H2). repeat split; auto. Qed.
Lemma dropped_app lb cs1 cs pre suf :
  Forall (fun ch => fst ch < lb) cs1 -> dropped lb cs pre suf -> dropped lb (cs1 ++ cs) (cs1 ++ pre) suf.
Proof.
  intros H (-> & H1 & H2). repeat split; auto; [now rewrite app_assoc|]. apply Forall_app; auto.
Qed.
Lemma dropped_nil lb ch cs :
  wfc (ch :: cs) -> lb <= fst ch -> dropped lb (ch :: cs) [] (ch :: cs).
Proof.
  intros H E. apply wf_cons in H as (_ & _ & H). repeat split; auto. constructor; auto.
  eapply Forall_impl; [|exact H]. cbn. intros; lia.
Qed.

Lemma advance_loop_ok lb mem cs : forall fuel it,
  (length cs <= fuel)%nat -> id_view mem it cs -> lb <= 65536 ->
  exists it' pre suf, advance_loop fuel mem it lb = Ok it' /\ dropped lb cs pre suf
    /\ id_view mem it' suf /\ i_begin it' = i_begin it + zlen pre
    /\ i_pointers it' = i_pointers it /\ i_data it' = i_data it + zlen (cdatas pre)
    /\ i_end it' = i_end it.
Proof.
  induction cs as [|[id c] cs IH]; intros fuel it Hf V Hlb.
  - exists it, [], []. split; [|repeat split; auto; try apply V; zl].
    destruct fuel; cbn [advance_loop]; rewrite (id_view_id _ _ _ V), (id_view_has_next _ _ _ V);
      cbn [bind]; rewrite andb_false_r; reflexivity.
  - assert (E : forall f, advance_loop f mem it lb
      = if id <? lb then match f with O => Fuel | S f => let! it := it_next mem it in advance_loop f mem it lb end else Ok it).
    { intro f. destruct f; cbn [advance_loop]; rewrite (id_view_id _ _ _ V), (id_view_has_next _ _ _ V);
        cbn [bind fst]; rewrite andb_true_r; reflexivity. }
    rewrite E. destruct (Z.ltb_spec id lb).
    + cbn [length] in Hf. destruct fuel as [|f]; [lia|].
      destruct (id_view_next _ _ _ _ _ V) as (it1 & -> & V1 & B1 & P1 & D1 & N1). cbn [bind].
      destruct (IH f it1 ltac:(lia) V1 Hlb) as (it2 & pre & suf & E2 & D & V2 & B2 & P2 & D2 & N2).
      exists it2, ((id, c) :: pre), suf. split; auto. split; [apply dropped_cons; auto|].
      split; auto. rewrite cdatas_cons. cbn [snd]. zl.
    + exists it, [], ((id, c) :: cs). split; auto. split; [|split; auto].
      * apply dropped_nil; auto. apply V.
      * cbn [cdatas flat_map]. zl.
Qed.

Lemma it_fuel_ok mem it cs : id_view mem it cs -> (length cs <= it_fuel it)%nat.
Proof.
  intros (_ & _ & H1 & H2 & _). unfold it_fuel. rewrite H2, length_zlen. lia.
Qed.

Lemma it_advance_id mem it cs lb :
  id_view mem it cs -> lb <= 65536 ->
  exists it' pre suf, it_advance mem it lb = Ok it' /\ dropped lb cs pre suf
    /\ id_view mem it' suf /\ i_begin it' = i_begin it + zlen pre
    /\ i_pointers it' = i_pointers it /\ i_data it' = i_data it + zlen (cdatas pre)
    /\ i_end it' = i_end it.
Proof. intros V Hlb. apply advance_loop_ok; auto. eapply it_fuel_ok; eauto. Qed.

Lemma view_sub slack mem it it' pre suf :
  it_view slack mem it (pre ++ suf) -> id_view mem it' suf ->
  i_data it' = i_data it + zlen (cdatas pre) -> it_view slack mem it' suf.
Proof.
  intros (V & B & D & L) V' E. split; auto. rewrite cdatas_app in *.
  apply bytes_at_app in B as [_ B]. rewrite zlen_app in L. rewrite E. zpos. split; auto. lia.
Qed.

Lemma it_advance_ok slack mem it cs lb :
  it_view slack mem it cs -> lb <= 65536 ->
  exists it' pre suf, it_advance mem it lb = Ok it' /\ dropped lb cs pre suf
    /\ it_view slack mem it' suf /\ i_begin it' = i_begin it + zlen pre /\ i_end it' = i_end it.
Proof.
  intros V Hlb. destruct (it_advance_id mem it cs lb) as (it' & pre & suf & E & D & V' & B & P & T & N);
    auto. { apply V. }
  exists it', pre, suf. repeat split; auto; try apply D; try apply V'.
  all: destruct D as (-> & _); destruct (view_sub _ _ _ _ _ _ V V' T) as (_ & ? & ? & ?); auto.
Qed.

(** ** skipping *)
Lemma skip_pos mem it cs : id_view mem it cs -> skip_position it = i_begin it + 32.
Proof.
  intros (_ & _ & H1 & H2 & H3 & _). zpos. unfold skip_position. change M_Util.associativity with 32.
  apply u32_id. lia.
Qed.

Lemma bytes_u16s_skip cs n :
  zlen (bytes_of_u16s (chdrs (firstn n cs))) = 8 * Z.min (Z.of_nat n) (zlen cs).
Proof. rewrite zlen_bytes_of_u16s, zlen_chdrs, zlen_firstn. lia. Qed.

(** one skip over 32 chunks *)
Lemma it_skip_id mem it cs :
  id_view mem it cs -> 32 < zlen cs ->
  exists id c cs2 it' o, skipn 32 cs = (id, c) :: cs2
    /\ rd16 mem (skip_header it) = Ok id
    /\ rd32 mem (i_pointers it + 4 * 1) = Ok o
    /\ it_skip mem it = Ok it' /\ id_view mem it' (skipn 32 cs)
    /\ i_begin it' = i_begin it + 32 /\ i_data it' = i_data it + o
    /\ i_pointers it' = i_pointers it + 8 /\ i_end it' = i_end it.
Proof.
  intros V Hl. pose proof (skip_pos _ _ _ V) as SP.
  assert (SK : zlen (skipn 32 cs) = zlen cs - 32) by (rewrite zlen_skipn; lia).
  destruct (skipn 32 cs) as [|[id c] cs2] eqn:ES; [zl|].
  destruct V as (W & B & H1 & H2 & H3 & H4 & H5).
  assert (W2 : wfc ((id, c) :: cs2)).
  { rewrite <- ES. rewrite <- (firstn_skipn 32 cs) in W. apply wf_app in W. apply W. }
  assert (B2 : bytes_at mem (skip_header it) (bytes_of_u16s (chdrs ((id, c) :: cs2)))).
  { rewrite <- ES. rewrite <- (firstn_skipn 32 cs) in B. rewrite chdrs_app, u16s_app in B.
    apply bytes_at_app in B as [_ B]. rewrite bytes_u16s_skip in B.
    unfold skip_header. change (2 * (4 * M_Util.associativity)) with 256.
    replace (8 * Z.min (Z.of_nat 32) (zlen cs)) with 256 in B by lia. exact B. }
  destruct (rd_bytes_ok mem (i_pointers it + 4 * 1) 4) as (bs & Eb & _ & _); [lia|lia|].
  unfold it_skip. unfold rd32, rd_le. rewrite Eb. cbn [bind].
  exists id, c, cs2. eexists. exists (le_val bs).
  split; auto. split.
  { apply hdr_at in B2 as (E & _). exact E. apply wf_cons in W2. apply W2. }
  split; [reflexivity|]. split; [reflexivity|].
  cbn [i_begin i_data i_pointers i_end]. split; [|repeat split; auto; lia].
  split; [exact W2|]. cbn [i_header i_begin i_end i_pointers].
  split; [exact B2|]. rewrite SP. rewrite SK. lia.
Qed.

Lemma skip_loop_id lb mem : forall fuel cs it,
  (length cs <= fuel)%nat -> id_view mem it cs ->
  exists it' pre suf, skip_to_value_loop fuel mem it lb = Ok it' /\ cs = pre ++ suf
    /\ Forall (fun ch => fst ch < lb) pre /\ id_view mem it' suf
    /\ i_begin it' = i_begin it + zlen pre /\ i_end it' = i_end it.
Proof.
  induction fuel; intros cs it Hf V.
  - assert (cs = []) by (destruct cs; [auto|cbn in Hf; lia]). subst.
    exists it, [], []. split; [|repeat split; auto; try apply V; zl].
    cbn [skip_to_value_loop]. rewrite (skip_pos _ _ _ V).
    destruct V as (_ & _ & H1 & H2 & _). rewrite zlen_nil in H2.
    destruct (Z.ltb_spec (i_begin it + 32) (i_end it)); [lia|reflexivity].
  - cbn [skip_to_value_loop]. rewrite (skip_pos _ _ _ V).
    assert (HE : i_end it = i_begin it + zlen cs) by apply V.
    destruct (Z.ltb_spec (i_begin it + 32) (i_end it)) as [L|L].
    + destruct (it_skip_id mem it cs V) as (id & c & cs2 & it1 & o & ES & -> & _ & E1 & V1 & B1 & D1 & P1 & N1);
        [lia|]. cbn [bind].
      destruct (Z.leb_spec id lb).
      * rewrite E1. cbn [bind].
        destruct (IHfuel (skipn 32 cs) it1) as (it2 & pre & suf & E2 & C2 & F2 & V2 & B2 & N2); auto.
        { rewrite skipn_length. lia. }
        exists it2, (firstn 32 cs ++ pre), suf. split; auto. split.
        { rewrite <- app_assoc, <- C2, firstn_skipn. reflexivity. }
        split; [|split; auto].
        -- apply Forall_app. split; auto. apply Forall_forall. intros ch Hch.
           assert (W : wfc (firstn 32 cs ++ skipn 32 cs)) by (rewrite firstn_skipn; apply V).
           assert (fst ch < fst (id, c)); [|cbn [fst] in *; lia].
           eapply wf_app_lt; [exact W|exact Hch|]. rewrite ES. apply in_eq.
        -- rewrite zlen_app, zlen_firstn. split; [|congruence]. lia.
      * exists it, [], cs. repeat split; auto; try apply V; zl.
    + exists it, [], cs. repeat split; auto; try apply V; zl.
Qed.

(** skip_to_value on an iterator of which only the header part is known to be right *)
Lemma skip_to_value_id mem it cs lb :
  id_view mem it cs -> lb <= 65536 ->
  exists it' pre suf, skip_to_value mem it lb = Ok it' /\ dropped lb cs pre suf
    /\ id_view mem it' suf /\ i_begin it' = i_begin it + zlen pre /\ i_end it' = i_end it.
Proof.
  intros V Hlb. unfold skip_to_value.
  destruct (skip_loop_id lb mem (it_fuel it) cs it) as (it1 & pre1 & suf1 & -> & -> & F1 & V1 & B1 & N1); auto.
  { eapply it_fuel_ok; eauto. }
  cbn [bind].
  destruct (it_advance_id mem it1 suf1 lb V1 Hlb) as (it2 & pre2 & suf2 & E & D & V2 & B2 & _ & _ & N2).
  exists it2, (pre1 ++ pre2), suf2. split; auto. split; [apply dropped_app; auto|].
  split; auto. rewrite zlen_app. split; [lia|congruence].
Qed.

(** on an aligned iterator the data pointer follows *)
Lemma aligned_skip slack mem it cs it' :
  it_view slack mem it cs -> aligned mem it cs -> 32 < zlen cs -> it_skip mem it = Ok it' ->
  it_view slack mem it' (skipn 32 cs) /\ aligned mem it' (skipn 32 cs)
  /\ rd32 mem (i_pointers it) = Ok (sum_card (firstn 32 cs))
  /\ i_begin it' = i_begin it + 32 /\ i_end it' = i_end it.
Proof.
  intros V A Hl E. destruct (it_skip_id mem it cs (proj1 V) Hl)
    as (id & c & cs2 & it1 & o & ES & _ & Eo & E1 & V1 & B1 & D1 & P1 & N1).
  rewrite E1 in E. injection E as <-.
  assert (W : Forall wfc1 (firstn 32 cs)).
  { assert (W : Forall wfc1 (firstn 32 cs ++ skipn 32 cs)) by (rewrite firstn_skipn; apply V).
    apply Forall_app in W. apply W. }
  unfold aligned in A. replace (Z.to_nat (zlen cs / 32)) with (S (Z.to_nat (zlen (skipn 32 cs) / 32))) in A.
  2:{ rewrite zlen_skipn. lia. }
  cbn [ptrs] in A. apply bytes_at_app in A as [A1 A]. apply bytes_at_app in A as [A2 A].
  rewrite !zlen_le_bytes in *.
  pose proof (zlen_cdatas_le _ W) as HD. pose proof (sum_card_le _ W) as HC.
  pose proof (sum_card_nonneg (firstn 32 cs)). pose proof (zlen_nonneg _ (cdatas (firstn 32 cs))).
  rewrite zlen_firstn in *.
  assert (Eo' : rd32 mem (i_pointers it + 4 * 1) = Ok (zlen (cdatas (firstn 32 cs)))).
  { apply rd32_at; [exact A2|]. lia. }
  rewrite Eo' in Eo. injection Eo as <-.
  split; [|split; [|split; [|split; auto]]].
  - rewrite <- (firstn_skipn 32 cs) in V. eapply view_sub; eauto.
  - unfold aligned. rewrite P1. replace (i_pointers it + 8) with (i_pointers it + Z.of_nat 4 + Z.of_nat 4) by lia.
    exact A.
  - apply rd32_at; auto. lia.
Qed.

Lemma skip_loop_aligned slack lb mem : forall fuel cs it,
  (length cs <= fuel)%nat -> it_view slack mem it cs -> aligned mem it cs ->
  exists it' pre suf, skip_to_value_loop fuel mem it lb = Ok it' /\ cs = pre ++ suf
    /\ Forall (fun ch => fst ch < lb) pre /\ it_view slack mem it' suf
    /\ i_begin it' = i_begin it + zlen pre /\ i_end it' = i_end it.
Proof.
  induction fuel; intros cs it Hf V A.
  - assert (cs = []) by (destruct cs; [auto|cbn in Hf; lia]). subst.
    exists it, [], []. split; [|split; auto; split; auto; split; auto; zl].
    cbn [skip_to_value_loop]. rewrite (skip_pos _ _ _ (proj1 V)).
    destruct V as ((_ & _ & H1 & H2 & _) & _). rewrite zlen_nil in H2.
    destruct (Z.ltb_spec (i_begin it + 32) (i_end it)); [lia|reflexivity].
  - cbn [skip_to_value_loop]. rewrite (skip_pos _ _ _ (proj1 V)).
    assert (HE : i_end it = i_begin it + zlen cs) by apply V.
    destruct (Z.ltb_spec (i_begin it + 32) (i_end it)) as [L|L].
    + destruct (it_skip_id mem it cs (proj1 V)) as (id & c & cs2 & it1 & o & ES & -> & _ & E1 & _);
        [lia|]. cbn [bind].
      destruct (Z.leb_spec id lb).
      * rewrite E1. cbn [bind].
        destruct (aligned_skip _ _ _ _ _ V A ltac:(lia) E1) as (V1 & A1 & _ & B1 & N1).
        destruct (IHfuel (skipn 32 cs) it1) as (it2 & pre & suf & E2 & C2 & F2 & V2 & B2 & N2); auto.
        { rewrite skipn_length. lia. }
        exists it2, (firstn 32 cs ++ pre), suf. split; auto. split.
        { rewrite <- app_assoc, <- C2, firstn_skipn. reflexivity. }
        split; [|split; auto].
        -- apply Forall_app. split; auto. apply Forall_forall. intros ch Hch.
           assert (W : wfc (firstn 32 cs ++ skipn 32 cs)) by (rewrite firstn_skipn; apply V).
           assert (fst ch < fst (id, c)); [|cbn [fst] in *; lia].
           eapply wf_app_lt; [exact W|exact Hch|]. rewrite ES. apply in_eq.
        -- rewrite zlen_app, zlen_firstn. split; [|congruence]. lia.
      * exists it, [], cs. split; auto. split; auto. split; auto. split; auto. zl.
    + exists it, [], cs. split; auto. split; auto. split; auto. split; auto. zl.
Qed.

(** the skip loop does nothing when no skip target is at or below the bound *)
Lemma skip_loop_none lb mem cs it fuel :
  id_view mem it cs ->
  (zlen cs <= 32 \/ exists ch r, cs = ch :: r /\ lb < fst ch + 32) ->
  skip_to_value_loop fuel mem it lb = Ok it.
Proof.
  intros V Hc.
  assert (E : skip_to_value_loop fuel mem it lb =
     if skip_position it <? i_end it then
       let! h := rd16 mem (skip_header it) in
       if h <=? lb then match fuel with O => Fuel | S f => let! it := it_skip mem it in skip_to_value_loop f mem it lb end
       else Ok it
     else Ok it) by (destruct fuel; reflexivity).
  rewrite E. clear E. rewrite (skip_pos _ _ _ V).
  assert (HE : i_end it = i_begin it + zlen cs) by apply V.
  destruct (Z.ltb_spec (i_begin it + 32) (i_end it)) as [L|L]; auto.
  destruct (it_skip_id mem it cs V) as (id & c & cs2 & it1 & o & ES & -> & _); [lia|].
  cbn [bind]. destruct (Z.leb_spec id lb); auto. exfalso.
  destruct Hc as [Hc|(ch & r & -> & Hc)]; [lia|].
  assert (W : wfc (firstn 32 (ch :: r) ++ (id, c) :: cs2)) by (rewrite <- ES, firstn_skipn; apply V).
  (* 32 strictly increasing identifiers separate ch and (id,c) *)
  assert (G : forall n l, (n < length l)%nat -> sorted l -> forall x y, nth_error l 0 = Some x ->
            nth_error l n = Some y -> x + Z.of_nat n <= y).
  { clear. induction n; intros l Hn Hs x y Hx Hy.
    - rewrite Hx in Hy. injection Hy as ->. lia.
    - destruct l as [|a l]; [easy|]. cbn in Hx, Hn. injection Hx as ->. cbn in Hy.
      apply sorted_inv in Hs as [Hs Ha]. destruct l as [|b l]; [cbn in Hn; lia|].
      specialize (IHn (b :: l) ltac:(lia) Hs b y eq_refl Hy). inversion Ha; subst. lia. }
  destruct W as [W _].
  assert (LF : length (firstn 32 (ch :: r)) = 32%nat).
  { rewrite firstn_length. rewrite length_zlen. lia. }
  specialize (G 32%nat (map fst (firstn 32 (ch :: r) ++ (id, c) :: cs2))).
  rewrite map_length, app_length, LF in G. cbn [length] in G.
  specialize (G ltac:(lia) W (fst ch) id eq_refl).
  rewrite nth_error_map, nth_error_app2, LF, Nat.sub_diag in G by lia.
  specialize (G eq_refl). lia.
Qed.

Lemma skip_to_value_ok slack mem it cs lb :
  it_view slack mem it cs -> lb <= 65536 ->
  (aligned mem it cs \/ zlen cs <= 32 \/ exists ch r, cs = ch :: r /\ lb < fst ch + 32) ->
  exists it' pre suf, skip_to_value mem it lb = Ok it' /\ dropped lb cs pre suf
    /\ it_view slack mem it' suf /\ i_begin it' = i_begin it + zlen pre /\ i_end it' = i_end it.
Proof.
  intros V Hlb Hc. unfold skip_to_value.
  assert (S1 : exists it' pre suf, skip_to_value_loop (it_fuel it) mem it lb = Ok it' /\ cs = pre ++ suf
    /\ Forall (fun ch => fst ch < lb) pre /\ it_view slack mem it' suf
    /\ i_begin it' = i_begin it + zlen pre /\ i_end it' = i_end it).
  { destruct Hc as [A|Hc].
    - apply skip_loop_aligned; auto. eapply it_fuel_ok; apply V.
    - exists it, [], cs. rewrite (skip_loop_none _ _ cs) by (auto; apply V).
      split; auto. split; auto. split; auto. split; auto. zl. }
  destruct S1 as (it1 & pre1 & suf1 & -> & -> & F1 & V1 & B1 & N1). cbn [bind].
  destruct (it_advance_ok slack mem it1 suf1 lb V1 Hlb) as (it2 & pre2 & suf2 & E & D & V2 & B2 & N2).
  exists it2, (pre1 ++ pre2), suf2. split; auto. split; [apply dropped_app; auto|].
  split; auto. rewrite zlen_app. split; [lia|congruence].
Qed.

(** ** skip_to_position *)
Lemma skip_pos_loop1_ok slack mem rank : forall fuel cs it elements,
  (length cs <= fuel)%nat -> it_view slack mem it cs -> aligned mem it cs ->
  0 <= elements -> elements <= rank -> elements + sum_card cs < 4294967296 ->
  exists it' pre suf, skip_to_position_loop1 fuel mem it elements rank
      = Ok (elements + sum_card pre, it')
    /\ cs = pre ++ suf /\ it_view slack mem it' suf /\ elements + sum_card pre <= rank.
Proof.
  induction fuel; intros cs it elements Hf V A He Hr Hs.
  - assert (cs = []) by (destruct cs; [auto|cbn in Hf; lia]). subst.
    exists it, [], []. split; [|repeat split; auto; try apply V; cbn; lia].
    cbn [skip_to_position_loop1]. rewrite (skip_pos _ _ _ (proj1 V)).
    destruct V as ((_ & _ & H1 & H2 & _) & _). rewrite zlen_nil in H2.
    destruct (Z.ltb_spec (i_begin it + 32) (i_end it)); [lia|]. cbn. do 2 f_equal; lia.
  - cbn [skip_to_position_loop1]. rewrite (skip_pos _ _ _ (proj1 V)).
    assert (HE : i_end it = i_begin it + zlen cs) by apply V.
    assert (Stop : exists it' pre suf, Ok (elements, it) = Ok (elements + sum_card pre, it')
      /\ cs = pre ++ suf /\ it_view slack mem it' suf /\ elements + sum_card pre <= rank).
    { exists it, [], cs. split; [cbn; do 2 f_equal; lia|]. repeat split; auto; try apply V; cbn; lia. }
    destruct (Z.ltb_spec (i_begin it + 32) (i_end it)) as [L|L]; auto.
    destruct (it_skip_id mem it cs (proj1 V)) as (id & c & cs2 & it1 & o & ES & _ & _ & E1 & _); [lia|].
    destruct (aligned_skip _ _ _ _ _ V A ltac:(lia) E1) as (V1 & A1 & -> & B1 & N1).
    cbn [bind].
    assert (SC : sum_card cs = sum_card (firstn 32 cs) + sum_card (skipn 32 cs)).
    { rewrite <- sum_card_app, firstn_skipn. reflexivity. }
    pose proof (sum_card_nonneg (firstn 32 cs)). pose proof (sum_card_nonneg (skipn 32 cs)).
    rewrite u32_id by lia.
    destruct (Z.ltb_spec rank (elements + sum_card (firstn 32 cs))); auto.
    rewrite E1. cbn [bind].
    destruct (IHfuel (skipn 32 cs) it1 (elements + sum_card (firstn 32 cs)))
      as (it2 & pre & suf & E2 & C2 & V2 & R2); auto; try lia.
    { rewrite skipn_length. lia. }
    exists it2, (firstn 32 cs ++ pre), suf. rewrite E2. rewrite sum_card_app.
    split; [do 2 f_equal; lia|]. split; [|split; auto; lia].
    rewrite <- app_assoc, <- C2, firstn_skipn. reflexivity.
Qed.

Lemma skip_pos_loop2_ok slack mem rank cs : forall fuel it elements,
  (length cs <= fuel)%nat -> it_view slack mem it cs ->
  0 <= elements -> elements <= rank -> elements + sum_card cs < 4294967296 ->
  exists it' pre suf, skip_to_position_loop2 fuel mem it elements rank
      = Ok (elements + sum_card pre, it')
    /\ cs = pre ++ suf /\ it_view slack mem it' suf /\ elements + sum_card pre <= rank
    /\ match suf with [] => True | ch :: _ => rank < elements + sum_card pre + zlen (snd ch) end.
Proof.
  induction cs as [|[id c] cs IH]; intros fuel it elements Hf V He Hr Hs.
  - exists it, [], []. split; [|repeat split; auto; try apply V; cbn; lia].
    destruct fuel; cbn [skip_to_position_loop2]; rewrite (id_view_has_next _ _ _ (proj1 V));
      cbn; do 2 f_equal; lia.
  - assert (SC : sum_card ((id, c) :: cs) = zlen c + sum_card cs) by reflexivity.
    pose proof (sum_card_nonneg cs). pose proof (zlen_nonneg _ c).
    assert (E : forall f, skip_to_position_loop2 f mem it elements rank
      = if rank <? elements + zlen c then Ok (elements, it)
        else match f with O => Fuel | S f => let! it := it_next mem it in
             skip_to_position_loop2 f mem it (elements + zlen c) rank end).
    { intro f. destruct f; cbn [skip_to_position_loop2]; rewrite (id_view_has_next _ _ _ (proj1 V));
        rewrite (id_view_cardinality _ _ _ _ _ (proj1 V)); cbn [bind]; rewrite u32_id by lia; reflexivity. }
    rewrite E. destruct (Z.ltb_spec rank (elements + zlen c)).
    + exists it, [], ((id, c) :: cs). split; [cbn; do 2 f_equal; lia|].
      repeat split; auto; try apply V; cbn [sum_card fold_right snd]; lia.
    + cbn [length] in Hf. destruct fuel as [|f]; [lia|].
      destruct (view_next _ _ _ _ _ _ V) as (it1 & -> & V1 & _). cbn [bind].
      destruct (IH f it1 (elements + zlen c)) as (it2 & pre & suf & E2 & -> & V2 & R2 & M2); auto; try lia.
      exists it2, ((id, c) :: pre), suf. rewrite E2.
      assert (SP : sum_card ((id, c) :: pre) = zlen c + sum_card pre) by reflexivity.
      split; [do 2 f_equal; lia|]. split; auto. split; auto. split; [lia|].
      destruct suf; auto. lia.
Qed.

Lemma skip_to_position_ok slack mem it cs rank :
  it_view slack mem it cs -> aligned mem it cs -> 0 <= rank -> sum_card cs < 4294967296 ->
  exists it' pre suf, skip_to_position mem it rank = Ok (sum_card pre, it')
    /\ cs = pre ++ suf /\ it_view slack mem it' suf /\ sum_card pre <= rank
    /\ match suf with [] => True | ch :: _ => rank < sum_card pre + zlen (snd ch) end.
Proof.
  intros V A Hr Hs. unfold skip_to_position.
  destruct (skip_pos_loop1_ok slack mem rank (it_fuel it) cs it 0)
    as (it1 & pre1 & suf1 & -> & -> & V1 & R1); auto; try lia.
  { eapply it_fuel_ok; apply V. }
  cbn [bind]. rewrite sum_card_app in Hs. pose proof (sum_card_nonneg pre1). rewrite Z.add_0_l in *.
  destruct (skip_pos_loop2_ok slack mem rank suf1 (it_fuel it1) it1 (sum_card pre1))
    as (it2 & pre2 & suf2 & -> & -> & V2 & R2 & M2); auto; try lia.
  { eapply it_fuel_ok; apply V1. }
  exists it2, (pre1 ++ pre2), suf2. rewrite sum_card_app.
  split; auto. split; [now rewrite app_assoc|]. split; auto.
Qed.

(** ** cardinality *)
Lemma cardinality_loop_ok mem cs : forall h c,
  wfc cs -> bytes_at mem h (bytes_of_u16s (chdrs cs)) -> 0 <= c -> c + sum_card cs < 4294967296 ->
  cardinality_loop (length cs) mem h c = Ok (c + sum_card cs).
Proof.
  induction cs as [|[id v] cs IH]; intros h c Hw B Hc Hs; cbn [length cardinality_loop].
  - cbn. f_equal; lia.
  - apply wf_cons in Hw as (W1 & W & _). apply hdr_at in B as (_ & -> & _ & _ & B); auto.
    assert (SC : sum_card ((id, v) :: cs) = zlen v + sum_card cs) by reflexivity.
    pose proof (sum_card_nonneg cs). pose proof (chunk_card _ _ W1).
    cbn [bind]. rewrite u32_id by lia. rewrite IH; auto; try lia. f_equal. lia.
Qed.
Lemma cardinality_ok slack mem s cs :
  s_chunks s = zlen cs -> it_view slack mem (seq_begin s) cs -> sum_card cs < 4294967296 ->
  cardinality mem s = Ok (sum_card cs).
Proof.
  intros E V H. unfold cardinality. rewrite E, <- length_zlen. rewrite cardinality_loop_ok; auto; try lia.
  all: apply V.
Qed.

(** ** a stored list *)
Lemma valid_chunks S :
  valid S -> wfc (chunks_of S) /\ chunks_of S <> [] /\ ungroup 65536 (chunks_of S) = S
             /\ sum_card (chunks_of S) = zlen S /\ zlen S < 4294967296.
Proof.
  intros (H1 & H2 & H3). split; [now apply chunks_wf|].
  split; [intro E; apply H1; eapply group_nil; eauto|].
  assert (U : ungroup 65536 (chunks_of S) = S) by (apply ungroup_group; lia).
  split; auto. rewrite <- (sum_card_ungroup 65536), U. split; auto.
  replace 4294901760 with (Z.of_nat (Z.to_nat 4294901760)) in H3 by lia.
  pose proof (sorted_zlen_le _ _ H2 H3). lia.
Qed.
Lemma stored_seq slack mem a S :
  valid S -> stored slack mem a S -> 0 <= slack ->
  exists s, seq_at mem a = Ok s /\ s_chunks s = zlen (chunks_of S)
    /\ it_view slack mem (seq_begin s) (chunks_of S) /\ aligned mem (seq_begin s) (chunks_of S)
    /\ i_begin (seq_begin s) = 0.
Proof.
  intros H St Hsl. apply stored_layout in St as [B L]; auto.
  destruct (valid_chunks S H) as (W & N & _). apply seq_at_ok; auto.
Qed.
