(** decode and the pieces shared with other readers. *)
From Verif Require Import Base Hw Spec Lib L_Bits L_Group Layout M_Util M_Seq M_Decode P_Build1 P_Build2 P_Build3 P_Seq.

(** ** blocks of a sparse chunk in memory *)
Definition blocks_at (mem : list Z) (begin data : Z) (bs : list (Z * list Z)) : Prop :=
  wfb bs /\ bytes_at mem begin (hdrs bs) /\ bytes_at mem data (datas bs).

Lemma blocks_at_cons mem begin data id vs bs :
  blocks_at mem begin data ((id, vs) :: bs) ->
  wfb1 (id, vs) /\ rd8 mem begin = Ok id /\ rd8 mem (begin + 1) = Ok (zlen vs - 1)
  /\ bytes_at mem data (block_data vs)
  /\ blocks_at mem (begin + 2) (data + bytes_by_cardinality (zlen vs)) bs
  /\ Forall (fun b => id < fst b) bs.
Proof.
  intros (W & B & D). apply wf_cons in W as (W1 & W & Hid).
  rewrite hdrs_cons in B. apply bytes_at_app in B as [B1 B]. change (zlen (block_hdr (id, vs))) with 2 in B.
  unfold block_hdr in B1. cbn [fst snd] in *. apply bytes_at_cons in B1 as [B1 B2].
  apply bytes_at_cons in B2 as [B2 _].
  rewrite datas_cons in D. apply bytes_at_app in D as [D1 D]. rewrite zlen_block_data in D. cbn [snd] in *.
  split; auto. split; [now apply rd8_znth|]. split; [now apply rd8_znth|].
  split; auto. split; auto. split; auto.
Qed.
Lemma blocks_wf1_zlen id vs : wfb1 (id, vs) -> 1 <= zlen vs <= 256.
Proof. intro H. apply wf1_zlen in H; cbn [snd] in H; lia. Qed.

Lemma view_sparse slack mem it id c cs :
  it_view slack mem it ((id, c) :: cs) -> kind_of c = KSparse ->
  let bs := blocks_of c in
  let data := i_data it + 2 * zlen bs in
  blocks_at mem (i_data it) data bs /\ 1 <= zlen bs <= 256
  /\ 0 <= i_data it /\ data + zlen (datas bs) + slack <= zlen mem.
Proof.
  intros V K bs data. pose proof (view_wf _ _ _ _ _ V) as W.
  destruct V as (_ & B & D & L). rewrite cdatas_cons in B, L. cbn [snd] in *.
  apply bytes_at_app in B as [B _]. unfold chunk_data in B, L. rewrite K in B, L.
  unfold sparse_data in B, L. apply bytes_at_app in B as [B1 B2].
  rewrite !zlen_app in L. rewrite zlen_hdrs in *. fold bs in B1, B2, L.
  split; [|split; [|split]].
  - split; [eapply blocks_wf; eauto|]. split; auto.
  - eapply blocks_count; eauto.
  - auto.
  - zpos. unfold data. lia.
Qed.
Lemma view_dense slack mem it id c cs :
  it_view slack mem it ((id, c) :: cs) -> kind_of c = KDense ->
  bm_at (words_mem mem (i_data it)) 1024 (memb c).
Proof.
  intros V K. destruct V as (_ & B & _ & _). rewrite cdatas_cons in B. cbn [snd] in *.
  apply bytes_at_app in B as [B _]. unfold chunk_data in B. rewrite K in B.
  apply bm_bitmap in B. rewrite Z2Nat.id in B by lia. exact B.
Qed.
Lemma block_dense mem data vs :
  bytes_at mem data (block_data vs) -> 31 <= zlen vs -> bm_at (words_mem mem data) 4 (memb vs).
Proof.
  intros B H. unfold block_data in B. destruct (Z.ltb_spec (zlen vs) 31); [lia|].
  apply bm_bitmap in B. exact B.
Qed.
Lemma block_sparse mem data vs :
  bytes_at mem data (block_data vs) -> zlen vs < 31 -> bytes_at mem data vs.
Proof. intros B H. unfold block_data in B. destruct (Z.ltb_spec (zlen vs) 31); [auto|lia]. Qed.

(** ** one vector step *)
Definition addb (base : Z) := fun x => base + x.

Lemma decode_step_ok mem begin base out pos off w :
  bytes_at mem (begin + off) w -> zlen w = 8 -> 0 <= begin + off -> begin + off + 16 <= zlen mem ->
  0 <= pos + off -> pos + off + 8 <= zlen out ->
  exists out', decode_step mem begin base out pos off = Ok out'
    /\ wrote 0 out (pos + off) (map (fun x => u32 (base + x)) w) out'.
Proof.
  intros B Hw H1 H2 H3 H4. unfold decode_step, load128.
  destruct (rd_bytes_ok mem (begin + off) 16) as (bs & -> & Lb & Bb); [lia|lia|]. cbn [bind].
  assert (E : firstn 8 bs = w).
  { apply znth_ext.
    - rewrite zlen_firstn. unfold zlen at 1. rewrite Lb. lia.
    - intros i Hi. rewrite zlen_firstn in Hi. unfold zlen in Hi at 1. rewrite Lb in Hi.
      rewrite znth_firstn by lia. rewrite <- B by lia. symmetry. apply Bb. unfold zlen. rewrite Lb. lia. }
  unfold cvt_add. rewrite E. apply store_ok; [lia|]. rewrite zlen_map. lia.
Qed.

Lemma split_le A (l : list A) n : Z.of_nat n <= zlen l -> exists l1 l2, l = l1 ++ l2 /\ zlen l1 = Z.of_nat n.
Proof.
  intro H. exists (firstn n l), (skipn n l). rewrite firstn_skipn, zlen_firstn. split; auto. lia.
Qed.

Lemma decode_sparse_block_ok mem data vs base out pos :
  bytes_at mem data vs -> 1 <= zlen vs <= 30 -> 0 <= data -> data + zlen vs + 31 <= zlen mem ->
  0 <= pos -> pos + zlen vs + 23 <= zlen out ->
  exists out', decode_sparse_block mem data (zlen vs) base out pos = Ok (out', zlen vs)
    /\ wrote 23 out pos (map (fun x => u32 (base + x)) vs) out'.
Proof.
  intros B Hv Hd Hm Hp Ho. unfold decode_sparse_block.
  set (f := fun x => u32 (base + x)).
  assert (PRE : forall w n, bytes_at mem data w -> zlen w = n -> zlen vs <= n ->
            exists g, w = vs ++ g /\ zlen g = n - zlen vs).
  { intros w n Bw Lw Hn. exists (skipn (length vs) w). split.
    - rewrite <- (firstn_skipn (length vs) w) at 1. f_equal. apply znth_ext.
      + rewrite zlen_firstn. unfold zlen in *. lia.
      + intros i Hi. rewrite zlen_firstn in Hi. rewrite znth_firstn by (unfold zlen in *; lia).
        rewrite <- Bw by lia. apply B. unfold zlen in *. lia.
    - rewrite zlen_skipn. unfold zlen in *. lia. }
  destruct (rd_bytes_ok mem data 8) as (w0 & _ & L0 & B0); [lia|lia|].
  assert (Z0 : zlen w0 = 8) by (unfold zlen; rewrite L0; reflexivity).
  destruct (decode_step_ok mem data base out pos 0 w0) as (out1 & -> & W1); rewrite ?Z.add_0_r; auto; try lia.
  cbn [bind]. rewrite Z.add_0_r in W1.
  destruct (Z.leb_spec (zlen vs) 8).
  - exists out1. split; auto.
    destruct (PRE w0 8 B0 Z0) as (g & -> & Lg); [lia|].
    rewrite map_app in W1. eapply wrote_prefix; eauto. rewrite zlen_map. lia.
  - destruct (rd_bytes_ok mem (data + 8) 8) as (w1 & _ & L1 & B1); [lia|lia|].
    assert (Z1 : zlen w1 = 8) by (unfold zlen; rewrite L1; reflexivity).
    destruct (rd_bytes_ok mem (data + 16) 8) as (w2 & _ & L2 & B2); [lia|lia|].
    assert (Z2 : zlen w2 = 8) by (unfold zlen; rewrite L2; reflexivity).
    destruct (rd_bytes_ok mem (data + 24) 8) as (w3 & _ & L3 & B3); [lia|lia|].
    assert (Z3 : zlen w3 = 8) by (unfold zlen; rewrite L3; reflexivity).
    pose proof (wrote_zlen _ _ _ _ _ W1) as O1.
    destruct (decode_step_ok mem data base out1 pos 8 w1) as (out2 & -> & W2); auto; try lia.
    cbn [bind]. pose proof (wrote_zlen _ _ _ _ _ W2) as O2.
    destruct (decode_step_ok mem data base out2 pos 16 w2) as (out3 & -> & W3); auto; try lia.
    cbn [bind]. pose proof (wrote_zlen _ _ _ _ _ W3) as O3.
    destruct (decode_step_ok mem data base out3 pos 24 w3) as (out4 & -> & W4); auto; try lia.
    cbn [bind]. exists out4. split; auto.
    assert (W : wrote 0 out pos (map f (w0 ++ w1 ++ w2 ++ w3)) out4).
    { rewrite !map_app. eapply wrote_app; [lia|exact W1|]. rewrite zlen_map, Z0.
      eapply wrote_app; [lia|exact W2|]. rewrite zlen_map, Z1. rewrite <- Z.add_assoc.
      eapply wrote_app; [lia|exact W3|]. rewrite zlen_map, Z2. rewrite <- Z.add_assoc. exact W4. }
    destruct (PRE (w0 ++ w1 ++ w2 ++ w3) 32) as (g & E & Lg).
    { apply bytes_at_app. split; auto. rewrite Z0. apply bytes_at_app. split; auto. rewrite Z1.
      rewrite <- Z.add_assoc. apply bytes_at_app. split; auto. rewrite Z2. rewrite <- Z.add_assoc. exact B3. }
    { rewrite !zlen_app. lia. } { lia. }
    rewrite E, map_app in W. eapply wrote_prefix; eauto. rewrite zlen_map. lia.
Qed.

(** ** bitmaps *)
Lemma map_u32_add base l lim :
  Forall (fun x => 0 <= x < lim) l -> 0 <= base -> base + lim <= 4294967296 ->
  map (fun x => u32 (x + base)) l = map (addb base) l /\ map (fun x => u32 (base + x)) l = map (addb base) l.
Proof.
  intros H H1 H2. rewrite Forall_forall in H.
  split; apply map_ext_in; intros x Hx; specialize (H x Hx); cbn beta in H; unfold addb; rewrite u32_id; lia.
Qed.

Lemma decode_bitmap_ok word (n : nat) vs base out pos :
  bm_at word (Z.of_nat n) (memb vs) -> sorted vs -> Forall (fun x => 0 <= x < 64 * Z.of_nat n) vs ->
  64 * Z.of_nat n <= 65536 ->
  0 <= base -> base + 64 * Z.of_nat n <= 4294967296 ->
  0 <= pos -> pos + zlen vs <= zlen out ->
  exists out', decode_bitmap word (Z.of_nat n) base out pos = Ok (out', zlen vs)
    /\ wrote 0 out pos (map (addb base) vs) out'.
Proof.
  intros Hb Hs Hr Hn Hb0 Hb1 Hp Ho. unfold decode_bitmap. rewrite Nat2Z.id.
  assert (E : filter (memb vs) (zrange 0 (64 * n)) = vs).
  { apply filter_memb; auto. eapply Forall_impl; [|exact Hr]. cbn beta; intros; lia. }
  destruct (bitmap_loop_0 n word (memb vs) base out pos) as (out' & E1 & W); auto.
  { rewrite E. auto. }
  rewrite E in *. rewrite E1. cbn [bind]. exists out'.
  assert (zlen vs <= 64 * Z.of_nat n).
  { replace (64 * Z.of_nat n) with (Z.of_nat (64 * n)) in * by lia. apply sorted_zlen_le; auto. }
  zpos. rewrite u32_id by lia. split; auto.
  destruct (map_u32_add base vs (64 * Z.of_nat n)) as [E2 _]; auto. rewrite E2 in W. auto.
Qed.

(** ** a block *)
Lemma decode_block_ok mem data id vs base out pos :
  wfb1 (id, vs) -> bytes_at mem data (block_data vs) -> 0 <= data ->
  data + bytes_by_cardinality (zlen vs) + 31 <= zlen mem ->
  0 <= base -> base + 65536 <= 4294967296 ->
  0 <= pos -> pos + zlen vs + 23 <= zlen out ->
  exists out',
    (if block_type (zlen vs) =? t_sparse
     then decode_sparse_block mem data (zlen vs) (u32 (base + id * 256)) out pos
     else decode_bitmap (words_mem mem data) block_size_in_64bit_words (u32 (base + id * 256)) out pos)
    = Ok (out', zlen vs)
    /\ wrote 23 out pos (map (addb base) (ungroup1 256 (id, vs))) out'.
Proof.
  intros W B Hd Hm Hb0 Hb1 Hp Ho. pose proof (blocks_wf1_zlen _ _ W) as Hz.
  destruct W as (Hid & _ & Hs & Hr). cbn [fst snd] in *.
  assert (E : map (addb base) (ungroup1 256 (id, vs)) = map (addb (base + id * 256)) vs).
  { unfold ungroup1. rewrite map_map. apply map_ext. intro x. unfold addb. cbn [fst]. lia. }
  rewrite E. rewrite (u32_id (base + id * 256)) by lia.
  unfold block_type, bytes_by_cardinality in *. destruct (Z.ltb_spec (zlen vs) 31) as [Hl|Hl].
  - rewrite Z.eqb_refl. apply block_sparse in B; auto.
    destruct (decode_sparse_block_ok mem data vs (base + id * 256) out pos) as (out' & E1 & W); auto; try lia.
    exists out'. split; auto.
    destruct (map_u32_add (base + id * 256) vs 256) as [_ E2]; auto; try lia. now rewrite <- E2.
  - cbn [t_dense t_sparse Z.eqb Pos.eqb]. apply block_dense in B; auto.
    destruct (decode_bitmap_ok (words_mem mem data) 4 vs (base + id * 256) out pos) as (out' & E1 & W);
      auto; try lia.
    exists out'. split; auto. eapply wrote_weaken; eauto. lia.
Qed.

Lemma decode_blocks_ok mem end_ base bs : forall fuel begin data out tmp,
  (length bs <= fuel)%nat -> blocks_at mem begin data bs -> end_ = begin + 2 * zlen bs ->
  0 <= data -> data + zlen (datas bs) + 31 <= zlen mem ->
  0 <= base -> base + 65536 <= 4294967296 ->
  0 <= tmp -> tmp + zlen (ungroup 256 bs) + 23 <= zlen out ->
  exists out',
    decode_sparse_chunk_loop fuel mem begin end_ data base out tmp
    = Ok (out', tmp + zlen (ungroup 256 bs))
    /\ wrote 23 out tmp (map (addb base) (ungroup 256 bs)) out'.
Proof.
  induction bs as [|[id vs] bs IH]; intros fuel begin data out tmp Hf B He Hd Hm Hb0 Hb1 Ht Ho.
  - rewrite zlen_nil in He. exists out. split; [|apply wrote_nil; lia].
    cbn. rewrite Z.add_0_r. destruct fuel; cbn [decode_sparse_chunk_loop];
      destruct (Z.eqb_spec begin end_); auto; lia.
  - cbn [length] in Hf. destruct fuel as [|f]; [lia|].
    apply blocks_at_cons in B as (W1 & E1 & E2 & D & B & _).
    rewrite zlen_cons in He. rewrite ungroup_cons, zlen_app, zlen_ungroup1 in *. cbn [snd] in *.
    rewrite zlen_datas_cons in Hm. cbn [snd] in Hm. zpos.
    cbn [decode_sparse_chunk_loop]. destruct (Z.eqb_spec begin end_); [lia|].
    rewrite E1. cbn [bind]. rewrite E2. cbn [bind].
    replace (zlen vs - 1 + 1) with (zlen vs) by lia.
    destruct (decode_block_ok mem data id vs base out tmp) as (out1 & -> & W); auto; try lia.
    cbn [bind]. pose proof (wrote_zlen _ _ _ _ _ W).
    assert (0 <= bytes_by_cardinality (zlen vs)) by (unfold bytes_by_cardinality; destruct (zlen vs <? 31); lia).
    destruct (IH f (begin + 2) (data + bytes_by_cardinality (zlen vs)) out1 (tmp + zlen vs))
      as (out2 & -> & W2); auto; try lia.
    exists out2. split; [do 2 f_equal; lia|]. rewrite map_app. eapply wrote_app; eauto; [lia|].
    rewrite zlen_map, zlen_ungroup1. exact W2.
Qed.

Lemma decode_full_loop_ok n : forall i base out pos,
  0 <= i -> 0 <= base -> base + i + Z.of_nat n <= 4294967296 ->
  0 <= pos -> pos + i + Z.of_nat n <= zlen out ->
  exists out', decode_full_loop n i base out pos = Ok out'
    /\ wrote 0 out (pos + i) (map (addb base) (zrange i n)) out'.
Proof.
  induction n; intros i base out pos Hi Hb Hb1 Hp Ho; cbn [decode_full_loop zrange map].
  - exists out. split; auto. apply wrote_nil; lia.
  - rewrite u32_id by lia.
    destruct (vset_ok out (pos + i) (i + base)) as (out1 & -> & W1); [lia|]. cbn [bind].
    pose proof (wrote_zlen _ _ _ _ _ W1).
    destruct (IHn (i + 1) base out1 pos) as (out2 & -> & W2); try lia.
    exists out2. split; auto. eapply wrote_cons; [lia| |].
    + replace (addb base i) with (i + base) by (unfold addb; lia). exact W1.
    + replace (pos + i + 1) with (pos + (i + 1)) by lia. exact W2.
Qed.

Lemma chunk_base mem it id c cs :
  id_view mem it ((id, c) :: cs) ->
  it_id mem it = Ok id /\ u32 (Z.shiftl id 16) = id * 65536 /\ 0 <= id < 65535.
Proof.
  intro V. pose proof (id_view_wf _ _ _ _ V) as (Hi & _). cbn [fst] in Hi.
  rewrite (id_view_id _ _ _ V). split; auto. split; auto.
  rewrite Z.shiftl_mul_pow2 by lia. change (2 ^ 16) with 65536. apply u32_id. lia.
Qed.

Lemma decode_chunk_ok dbg mem it id c cs out pos :
  it_view 31 mem it ((id, c) :: cs) ->
  0 <= pos -> pos + zlen c <= zlen out -> (kind_of c = KSparse -> pos + zlen c + 23 <= zlen out) ->
  exists out', decode_chunk dbg mem it out pos = Ok (out', zlen c)
    /\ wrote 23 out pos (ungroup1 65536 (id, c)) out'.
Proof.
  intros V Hp Ho Hsp. pose proof (view_wf _ _ _ _ _ V) as W. pose proof (chunk_card _ _ W) as Hc.
  destruct (chunk_base _ _ _ _ _ (proj1 V)) as (Ei & Eb & Hi).
  unfold decode_chunk. rewrite Ei. cbn [bind]. rewrite Eb.
  rewrite (id_view_type _ _ _ _ _ (proj1 V)). cbn [bind].
  change (ungroup1 65536 (id, c)) with (map (addb (id * 65536)) c).
  destruct W as (_ & Hne & Hs & Hr). cbn [snd] in *.
  destruct (kind_of c) eqn:K.
  - rewrite Z.eqb_refl. rewrite (id_view_blocks _ _ _ _ _ (proj1 V) K). cbn [bind].
    destruct (view_sparse _ _ _ _ _ _ V K) as (B & Hn & Hd & Hm).
    unfold decode_sparse_chunk.
    rewrite assert_ok by (apply andb_true_intro; split; apply Z.leb_le; lia). cbn [bind].
    destruct (decode_blocks_ok mem (i_data it + zlen (blocks_of c) * 2) (id * 65536) (blocks_of c)
      (S (Z.to_nat (zlen (blocks_of c)))) (i_data it) (i_data it + zlen (blocks_of c) * 2) out pos)
      as (out' & E & W); auto; try lia.
    { rewrite length_zlen. lia. }
    { replace (zlen (blocks_of c) * 2) with (2 * zlen (blocks_of c)) by lia. exact B. }
    { rewrite blocks_ungroup. auto. }
    rewrite E. cbn [bind]. rewrite blocks_ungroup in *. exists out'.
    replace (pos + zlen c - pos) with (zlen c) by lia. rewrite u32_id by lia. auto.
  - cbn [t_dense t_sparse Z.eqb Pos.eqb].
    pose proof (view_dense _ _ _ _ _ _ V K) as B.
    destruct (decode_bitmap_ok (words_mem mem (i_data it)) (Z.to_nat 1024) c (id * 65536) out pos)
      as (out' & E & W); rewrite ?Z2Nat.id in * by lia; auto; try lia.
    exists out'. split; auto. eapply wrote_weaken; eauto. lia.
  - cbn [t_full t_dense t_sparse Z.eqb Pos.eqb]. unfold decode_full_chunk.
    pose proof (kind_full _ _ (view_wf _ _ _ _ _ V) K) as EC.
    assert (LC : zlen c = 65536) by (rewrite EC, zlen_zrange; lia).
    change M_Util.chunk_size with 65536.
    destruct (decode_full_loop_ok (Z.to_nat 65536) 0 (id * 65536) out pos) as (out' & -> & W); try lia.
    cbn [bind]. exists out'. rewrite LC. split; auto. rewrite Z.add_0_r in W. rewrite EC.
    eapply wrote_weaken; eauto. lia.
Qed.

Lemma decode_loop_ok dbg mem cs : forall it out pos,
  it_view 31 mem it cs -> 0 <= pos -> pos + sum_card cs + 23 <= zlen out ->
  exists out' it', decode_loop (length cs) dbg mem it out pos = Ok (out', pos + sum_card cs)
    /\ wrote 23 out pos (ungroup 65536 cs) out' /\ it_view 31 mem it' [].
Proof.
  induction cs as [|[id c] cs IH]; intros it out pos V Hp Ho; cbn [length decode_loop].
  - exists out, it. split; [cbn; do 2 f_equal; lia|]. split; auto. apply wrote_nil; lia.
  - assert (SC : sum_card ((id, c) :: cs) = zlen c + sum_card cs) by reflexivity.
    pose proof (sum_card_nonneg cs). pose proof (zlen_nonneg _ c).
    destruct (decode_chunk_ok dbg mem it id c cs out pos V) as (out1 & -> & W1); auto; try lia.
    cbn [bind]. pose proof (wrote_zlen _ _ _ _ _ W1).
    destruct (view_next _ _ _ _ _ _ V) as (it1 & -> & V1 & _). cbn [bind].
    destruct (IH it1 out1 (pos + zlen c)) as (out2 & it2 & -> & W2 & V2); auto; try lia.
    exists out2, it2. split; [do 2 f_equal; lia|]. split; auto.
    rewrite ungroup_cons. eapply wrote_app; eauto; [lia|]. rewrite zlen_ungroup1. exact W2.
Qed.

Lemma decode_ok dbg mem a S out pos :
  valid S -> stored 31 mem a S -> 0 <= pos -> pos + zlen S + 23 <= zlen out ->
  exists s out', seq_at mem a = Ok s /\ decode dbg mem s out pos = Ok (out', zlen S)
    /\ wrote 23 out pos S out'.
Proof.
  intros H St Hp Ho. destruct (stored_seq 31 mem a S H St ltac:(lia)) as (s & Es & En & V & A & B0).
  destruct (valid_chunks S H) as (W & N & U & SC & L).
  exists s. unfold decode. rewrite En, <- length_zlen.
  destruct (decode_loop_ok dbg mem (chunks_of S) (seq_begin s) out pos V Hp) as (out' & it' & -> & W' & _).
  { lia. }
  cbn [bind]. exists out'. split; auto. split; [do 2 f_equal; lia|]. now rewrite U in W'.
Qed.
