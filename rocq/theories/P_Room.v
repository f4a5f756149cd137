(** Exact size of the output buffer of decode. *)
From Verif Require Import Base Hw Spec Format Room Lib L_Bits L_Group Layout M_Util M_Seq M_Decode M_Uncompress
  P_Build1 P_Build2 P_Build3 P_Seq P_Decode P_Query P_Uncompress P_Format P_Conc P_Short P_Stats.
From Coq Require Import Lia.

Definition bneed (n : Z) : Z := if n <? 31 then (if n <=? 8 then 8 else 32) else n.
Fixpoint blocks_need (t : Z) (bs : list (Z * list Z)) : Z :=
  match bs with
  | [] => t
  | (_, vs) :: bs => Z.max (t + bneed (zlen vs)) (blocks_need (t + zlen vs) bs)
  end.
Definition chunk_need (t : Z) (c : list Z) : Z :=
  match kind_of c with KSparse => blocks_need t (blocks_of c) | _ => t + zlen c end.
Fixpoint chunks_need (t : Z) (cs : list (Z * list Z)) : Z :=
  match cs with
  | [] => t
  | (_, c) :: cs => Z.max (chunk_need t c) (chunks_need (t + zlen c) cs)
  end.

Lemma bneed_ge n : n <= bneed n <= n + 23 \/ n < 1.
Proof. unfold bneed. destruct (Z.ltb_spec n 31), (Z.leb_spec n 8); lia. Qed.
Lemma blocks_need_ge : forall bs t, t + sum_card bs <= blocks_need t bs.
Proof.
  induction bs as [|[id vs] bs IH]; intro t; cbn [blocks_need]; [cbn; lia|].
  change (sum_card ((id, vs) :: bs)) with (zlen vs + sum_card bs). specialize (IH (t + zlen vs)). lia.
Qed.
Lemma chunk_need_ge t c : t + zlen c <= chunk_need t c.
Proof.
  unfold chunk_need. destruct (kind_of c); try lia.
  pose proof (blocks_need_ge (blocks_of c) t). rewrite <- (sum_card_ungroup 256), blocks_ungroup in H. lia.
Qed.
Lemma chunks_need_ge : forall cs t, t + sum_card cs <= chunks_need t cs.
Proof.
  induction cs as [|[id vs] cs IH]; intro t; cbn [chunks_need]; [cbn; lia|].
  change (sum_card ((id, vs) :: cs)) with (zlen vs + sum_card cs). specialize (IH (t + zlen vs)). lia.
Qed.

(** ** pieces *)
Lemma decode_step_short mem begin base out pos off :
  0 <= begin + off -> begin + off + 16 <= zlen mem -> zlen out < pos + off + 8 ->
  decode_step mem begin base out pos off = UB.
Proof.
  intros H1 H2 H3. unfold decode_step, load128.
  destruct (rd_bytes_ok mem (begin + off) 16) as (bs & -> & Lb & Bb); [lia|lia|]. cbn [bind].
  unfold cvt_add. apply store_short. rewrite zlen_map, zlen_firstn. unfold zlen at 2. rewrite Lb. lia.
Qed.
Lemma decode_step_len mem begin base out pos off :
  0 <= begin + off -> begin + off + 16 <= zlen mem -> 0 <= pos + off -> pos + off + 8 <= zlen out ->
  exists out', decode_step mem begin base out pos off = Ok out' /\ zlen out' = zlen out.
Proof.
  intros H1 H2 H3 H4. destruct (rd_bytes_ok mem (begin + off) 8) as (w & _ & L0 & B0); [lia|lia|].
  destruct (decode_step_ok mem begin base out pos off w) as (out' & E & W); auto.
  { unfold zlen. rewrite L0. reflexivity. }
  exists out'. split; auto. eapply wrote_zlen; eauto.
Qed.

Lemma decode_sparse_block_room mem data vs base out pos :
  bytes_at mem data vs -> 1 <= zlen vs <= 30 -> 0 <= data -> data + zlen vs + 31 <= zlen mem ->
  0 <= pos -> pos + bneed (zlen vs) <= zlen out ->
  exists out', decode_sparse_block mem data (zlen vs) base out pos = Ok (out', zlen vs)
    /\ wrote 23 out pos (map (fun x => u32 (base + x)) vs) out'.
Proof.
  intros B Hv Hd Hm Hp Ho. unfold decode_sparse_block.
  assert (Ho8 : pos + 8 <= zlen out).
  { unfold bneed in Ho. destruct (Z.ltb_spec (zlen vs) 31); [|lia]. destruct (zlen vs <=? 8); lia. }
  set (f := fun x => u32 (base + x)).
  assert (PRE : forall w n, bytes_at mem data w -> zlen w = n -> zlen vs <= n ->
            exists g, w = vs ++ g /\ zlen g = n - zlen vs).
  { intros w n Bw Lw Hn. exists (skipn (length vs) w). split.
    - rewrite <- (firstn_skipn (length vs) w) at 1. f_equal. apply znth_ext.
      + rewrite zlen_firstn. unfold zlen in *. lia.
      + intros i Hi. rewrite zlen_firstn in Hi. rewrite znth_firstn by (unfold zlen in *; lia).
        rewrite <- Bw by lia. apply B. unfold zlen in *. lia.
    - rewrite zlen_skipn. unfold zlen in *. lia. }
  destruct (rd_bytes_ok mem data 8) as (w0 & _ & L0 & B0); [lia|lia|].
  assert (Z0 : zlen w0 = 8) by (unfold zlen; rewrite L0; reflexivity).
  destruct (decode_step_ok mem data base out pos 0 w0) as (out1 & -> & W1); rewrite ?Z.add_0_r; auto; try lia.
  cbn [bind]. rewrite Z.add_0_r in W1.
  destruct (Z.leb_spec (zlen vs) 8).
  - exists out1. split; auto.
    destruct (PRE w0 8 B0 Z0) as (g & -> & Lg); [lia|].
    rewrite map_app in W1. eapply wrote_prefix; eauto. rewrite zlen_map. lia.
  - assert (Ho32 : pos + 32 <= zlen out).
    { unfold bneed in Ho. destruct (Z.ltb_spec (zlen vs) 31); [|lia]. destruct (Z.leb_spec (zlen vs) 8); lia. }
    destruct (rd_bytes_ok mem (data + 8) 8) as (w1 & _ & L1 & B1); [lia|lia|].
    assert (Z1 : zlen w1 = 8) by (unfold zlen; rewrite L1; reflexivity).
    destruct (rd_bytes_ok mem (data + 16) 8) as (w2 & _ & L2 & B2); [lia|lia|].
    assert (Z2 : zlen w2 = 8) by (unfold zlen; rewrite L2; reflexivity).
    destruct (rd_bytes_ok mem (data + 24) 8) as (w3 & _ & L3 & B3); [lia|lia|].
    assert (Z3 : zlen w3 = 8) by (unfold zlen; rewrite L3; reflexivity).
    pose proof (wrote_zlen _ _ _ _ _ W1) as O1.
    destruct (decode_step_ok mem data base out1 pos 8 w1) as (out2 & -> & W2); auto; try lia.
    cbn [bind]. pose proof (wrote_zlen _ _ _ _ _ W2) as O2.
    destruct (decode_step_ok mem data base out2 pos 16 w2) as (out3 & -> & W3); auto; try lia.
    cbn [bind]. pose proof (wrote_zlen _ _ _ _ _ W3) as O3.
    destruct (decode_step_ok mem data base out3 pos 24 w3) as (out4 & -> & W4); auto; try lia.
    cbn [bind]. exists out4. split; auto.
    assert (W : wrote 0 out pos (map f (w0 ++ w1 ++ w2 ++ w3)) out4).
    { rewrite !map_app. eapply wrote_app; [lia|exact W1|]. rewrite zlen_map, Z0.
      eapply wrote_app; [lia|exact W2|]. rewrite zlen_map, Z1. rewrite <- Z.add_assoc.
      eapply wrote_app; [lia|exact W3|]. rewrite zlen_map, Z2. rewrite <- Z.add_assoc. exact W4. }
    destruct (PRE (w0 ++ w1 ++ w2 ++ w3) 32) as (g & E & Lg).
    { apply bytes_at_app. split; auto. rewrite Z0. apply bytes_at_app. split; auto. rewrite Z1.
      rewrite <- Z.add_assoc. apply bytes_at_app. split; auto. rewrite Z2. rewrite <- Z.add_assoc. exact B3. }
    { rewrite !zlen_app. lia. } { lia. }
    rewrite E, map_app in W. eapply wrote_prefix; eauto. rewrite zlen_map. lia.
Qed.
Lemma decode_sparse_block_short mem data n base out pos :
  1 <= n <= 30 -> 0 <= data -> data + n + 31 <= zlen mem -> 0 <= pos -> zlen out < pos + bneed n ->
  decode_sparse_block mem data n base out pos = UB.
Proof.
  intros Hv Hd Hm Hp Ho. unfold decode_sparse_block. unfold bneed in Ho. destruct (Z.ltb_spec n 31); [|lia].
  destruct (Z_lt_le_dec (zlen out) (pos + 8)).
  { rewrite decode_step_short; auto; lia. }
  destruct (decode_step_len mem data base out pos 0) as (o1 & -> & E1); try lia. cbn [bind].
  destruct (Z.leb_spec n 8); [lia|].
  destruct (Z_lt_le_dec (zlen out) (pos + 16)).
  { rewrite decode_step_short; auto; lia. }
  destruct (decode_step_len mem data base o1 pos 8) as (o2 & -> & E2); try lia. cbn [bind].
  destruct (Z_lt_le_dec (zlen out) (pos + 24)).
  { rewrite decode_step_short; auto; lia. }
  destruct (decode_step_len mem data base o2 pos 16) as (o3 & -> & E3); try lia. cbn [bind].
  rewrite decode_step_short; auto; lia.
Qed.

Lemma word_loop_short : forall fuel w base buf pos size,
  w64 w -> (length (bits w) <= fuel)%nat -> 0 <= pos + size -> pos + size <= zlen buf ->
  zlen buf < pos + size + zlen (bits w) -> word_loop fuel w base buf pos size = UB.
Proof.
  induction fuel; intros w base buf pos size Hw Hf Hp Hb Hl; cbn [word_loop].
  - destruct (bits w); [rewrite zlen_nil in Hl; lia|cbn in Hf; lia].
  - destruct (Z.eqb_spec w 0) as [->|]; [rewrite bits_0, zlen_nil in Hl; lia|].
    assert (0 < w) by (unfold w64 in Hw; lia).
    destruct (bits_step w) as [E Hw']; auto. rewrite E in Hf, Hl. cbn [length] in Hf. rewrite zlen_cons in Hl.
    rewrite lowest_bit by auto. destruct (Z_lt_le_dec (pos + size) (zlen buf)).
    + destruct (vset_ok buf (pos + size) (u32 (ctzll w + base))) as (buf1 & -> & W1); [lia|].
      cbn [bind]. pose proof (wrote_zlen _ _ _ _ _ W1). apply IHfuel; auto; lia.
    + unfold vset. rewrite store_short; auto. zl.
Qed.
Lemma bitmap_loop_short word f : forall n i base buf pos size,
  (forall k, 0 <= i <= k -> k < i + Z.of_nat n ->
     exists w, word k = Ok w /\ w64 w /\ forall j, 0 <= j < 64 -> Z.testbit w j = f (64 * k + j)) ->
  0 <= i -> 0 <= pos + size -> pos + size <= zlen buf ->
  zlen buf < pos + size + zlen (filter f (zrange (64 * i) (64 * n))) ->
  bitmap_loop n word i base buf pos size = UB.
Proof.
  induction n; intros i base buf pos size Hw Hi Hp Hb Hl; cbn [bitmap_loop].
  - cbn [Nat.mul zrange filter] in Hl. rewrite zlen_nil in Hl. lia.
  - destruct (Hw i) as (w & -> & W64 & Hbw); [lia|lia|]. cbn [bind].
    replace (64 * S n)%nat with (64 + 64 * n)%nat in * by lia.
    rewrite zrange_app, filter_app, zlen_app in *.
    rewrite (bits_filter w f i) in * by auto. rewrite zlen_map in *.
    replace (64 * i + Z.of_nat 64) with (64 * (i + 1)) in * by lia.
    destruct (Z_lt_le_dec (zlen buf) (pos + size + zlen (bits w))).
    + rewrite word_loop_short; auto using bits_length.
    + pose proof (zlen_nonneg _ (bits w)).
      destruct (word_loop_ok 64 w base buf pos size) as (buf1 & -> & W1); auto using bits_length. cbn [bind].
      pose proof (wrote_zlen _ _ _ _ _ W1). apply IHn; try lia. intros k H1 H2. apply Hw; lia.
Qed.
Lemma decode_bitmap_short word (n : nat) vs base out pos :
  bm_at word (Z.of_nat n) (memb vs) -> sorted vs -> Forall (fun x => 0 <= x < 64 * Z.of_nat n) vs ->
  0 <= pos -> pos <= zlen out -> zlen out < pos + zlen vs ->
  decode_bitmap word (Z.of_nat n) base out pos = UB.
Proof.
  intros Hb Hs Hr Hp Hp' Ho. unfold decode_bitmap. rewrite Nat2Z.id.
  assert (E : filter (memb vs) (zrange 0 (64 * n)) = vs).
  { apply filter_memb; auto. eapply Forall_impl; [|exact Hr]. cbn beta; intros; lia. }
  rewrite (bitmap_loop_short word (memb vs)); auto; try lia.
  - intros k H1 H2. apply Hb. lia.
  - change (64 * 0) with 0. rewrite E. lia.
Qed.

(** ** a block *)
Lemma decode_block_room mem data id vs base out pos :
  wfb1 (id, vs) -> bytes_at mem data (block_data vs) -> 0 <= data ->
  data + bytes_by_cardinality (zlen vs) + 31 <= zlen mem ->
  0 <= base -> base + 65536 <= 4294967296 -> 0 <= pos -> pos <= zlen out ->
  let r := (if block_type (zlen vs) =? t_sparse
     then decode_sparse_block mem data (zlen vs) (u32 (base + id * 256)) out pos
     else decode_bitmap (words_mem mem data) block_size_in_64bit_words (u32 (base + id * 256)) out pos) in
  if pos + bneed (zlen vs) <=? zlen out
  then exists out', r = Ok (out', zlen vs) /\ wrote 23 out pos (map (addb base) (ungroup1 256 (id, vs))) out'
  else r = UB.
Proof.
  intros W B Hd Hm Hb0 Hb1 Hp Hp'. pose proof (blocks_wf1_zlen _ _ W) as Hz.
  destruct W as (Hid & _ & Hs & Hr). cbn [fst snd] in *. cbn zeta.
  assert (E : map (addb base) (ungroup1 256 (id, vs)) = map (addb (base + id * 256)) vs).
  { unfold ungroup1. rewrite map_map. apply map_ext. intro x. unfold addb. cbn [fst]. lia. }
  rewrite E. rewrite (u32_id (base + id * 256)) by lia.
  unfold block_type, bytes_by_cardinality in *. destruct (Z.ltb_spec (zlen vs) 31) as [Hl|Hl].
  - rewrite Z.eqb_refl. apply block_sparse in B; auto. destruct (Z.leb_spec (pos + bneed (zlen vs)) (zlen out)).
    + destruct (decode_sparse_block_room mem data vs (base + id * 256) out pos) as (out' & E1 & W); auto; try lia.
      exists out'. split; auto.
      destruct (map_u32_add (base + id * 256) vs 256) as [_ E2]; auto; try lia. now rewrite <- E2.
    + apply decode_sparse_block_short; auto; lia.
  - cbn [t_dense t_sparse Z.eqb Pos.eqb]. apply block_dense in B; auto.
    assert (EN : bneed (zlen vs) = zlen vs) by (unfold bneed; destruct (Z.ltb_spec (zlen vs) 31); lia). rewrite EN.
    destruct (Z.leb_spec (pos + zlen vs) (zlen out)).
    + destruct (decode_bitmap_ok (words_mem mem data) 4 vs (base + id * 256) out pos) as (out' & E1 & W);
        auto; try lia.
      exists out'. split; auto. eapply wrote_weaken; eauto. lia.
    + apply (decode_bitmap_short (words_mem mem data) 4 vs); auto.
Qed.

Lemma decode_blocks_room mem end_ base bs : forall fuel begin data out tmp,
  (length bs <= fuel)%nat -> blocks_at mem begin data bs -> end_ = begin + 2 * zlen bs ->
  0 <= data -> data + zlen (datas bs) + 31 <= zlen mem ->
  0 <= base -> base + 65536 <= 4294967296 -> 0 <= tmp -> tmp <= zlen out ->
  let r := decode_sparse_chunk_loop fuel mem begin end_ data base out tmp in
  if blocks_need tmp bs <=? zlen out
  then exists out', r = Ok (out', tmp + zlen (ungroup 256 bs)) /\ wrote 23 out tmp (map (addb base) (ungroup 256 bs)) out'
  else r = UB.
Proof.
  induction bs as [|[id vs] bs IH]; intros fuel begin data out tmp Hf B He Hd Hm Hb0 Hb1 Ht Ht'; cbn zeta.
  - cbn [blocks_need]. destruct (Z.leb_spec tmp (zlen out)); [|lia].
    rewrite zlen_nil in He. exists out. split; [|apply wrote_nil; lia].
    cbn. rewrite Z.add_0_r. destruct fuel; cbn [decode_sparse_chunk_loop];
      destruct (Z.eqb_spec begin end_); auto; lia.
  - cbn [length] in Hf. destruct fuel as [|f]; [lia|].
    apply blocks_at_cons in B as (W1 & E1 & E2 & D & B & _). pose proof (blocks_wf1_zlen _ _ W1) as Hz.
    rewrite zlen_cons in He. rewrite ungroup_cons, zlen_app, zlen_ungroup1 in *. cbn [snd] in *.
    rewrite zlen_datas_cons in Hm. cbn [snd] in Hm. zpos.
    cbn [decode_sparse_chunk_loop]. destruct (Z.eqb_spec begin end_); [lia|].
    rewrite E1. cbn [bind]. rewrite E2. cbn [bind].
    replace (zlen vs - 1 + 1) with (zlen vs) by lia.
    assert (0 <= bytes_by_cardinality (zlen vs)) by (unfold bytes_by_cardinality; destruct (zlen vs <? 31); lia).
    pose proof (decode_block_room mem data id vs base out tmp W1 D Hd ltac:(lia) Hb0 Hb1 Ht Ht') as R. cbn zeta in R.
    cbn [blocks_need]. destruct (Z.leb_spec (tmp + bneed (zlen vs)) (zlen out)).
    + destruct R as (out1 & -> & W). cbn [bind]. pose proof (wrote_zlen _ _ _ _ _ W) as EL.
      pose proof (bneed_ge (zlen vs)) as BN.
      pose proof (IH f (begin + 2) (data + bytes_by_cardinality (zlen vs)) out1 (tmp + zlen vs) ltac:(lia) B
        ltac:(lia) ltac:(lia) ltac:(lia) Hb0 Hb1 ltac:(lia) ltac:(lia)) as R2. cbn zeta in R2. rewrite EL in R2.
      destruct (Z.leb_spec (blocks_need (tmp + zlen vs) bs) (zlen out)).
      * destruct (Z.leb_spec (Z.max (tmp + bneed (zlen vs)) (blocks_need (tmp + zlen vs) bs)) (zlen out)); [|lia].
        destruct R2 as (out2 & -> & W2). exists out2. split; [do 2 f_equal; lia|].
        rewrite map_app. eapply wrote_app; eauto; [lia|]. rewrite zlen_map, zlen_ungroup1. exact W2.
      * destruct (Z.leb_spec (Z.max (tmp + bneed (zlen vs)) (blocks_need (tmp + zlen vs) bs)) (zlen out)); [lia|]. exact R2.
    + destruct (Z.leb_spec (Z.max (tmp + bneed (zlen vs)) (blocks_need (tmp + zlen vs) bs)) (zlen out)); [lia|].
      now rewrite R.
Qed.

Lemma decode_full_short : forall n i base out pos,
  0 <= pos + i -> pos + i <= zlen out -> zlen out < pos + i + Z.of_nat n -> decode_full_loop n i base out pos = UB.
Proof.
  induction n; intros i base out pos H1 H2 H3; [lia|]. cbn [decode_full_loop].
  destruct (Z_lt_le_dec (pos + i) (zlen out)).
  - destruct (vset_ok out (pos + i) (u32 (i + base))) as (out1 & -> & W1); [lia|]. cbn [bind].
    apply IHn; rewrite ?(wrote_zlen _ _ _ _ _ W1); lia.
  - unfold vset. rewrite store_short; auto. zl.
Qed.

Lemma decode_chunk_room dbg mem it id c cs out pos :
  it_view 31 mem it ((id, c) :: cs) -> 0 <= pos -> pos <= zlen out ->
  let r := decode_chunk dbg mem it out pos in
  if chunk_need pos c <=? zlen out
  then exists out', r = Ok (out', zlen c) /\ wrote 23 out pos (ungroup1 65536 (id, c)) out'
  else r = UB.
Proof.
  intros V Hp Hp'. pose proof (view_wf _ _ _ _ _ V) as W. pose proof (chunk_card _ _ W) as Hc.
  destruct (chunk_base _ _ _ _ _ (proj1 V)) as (Ei & Eb & Hi). cbn zeta. unfold chunk_need.
  destruct (kind_of c) eqn:K.
  - unfold decode_chunk. rewrite Ei. cbn [bind]. rewrite Eb.
    rewrite (id_view_type _ _ _ _ _ (proj1 V)), K. cbn [bind]. rewrite Z.eqb_refl.
    change (ungroup1 65536 (id, c)) with (map (addb (id * 65536)) c).
    rewrite (id_view_blocks _ _ _ _ _ (proj1 V) K). cbn [bind].
    destruct (view_sparse _ _ _ _ _ _ V K) as (B & Hn & Hd & Hm).
    unfold decode_sparse_chunk.
    rewrite assert_ok by (apply andb_true_intro; split; apply Z.leb_le; lia). cbn [bind].
    replace (i_data it + zlen (blocks_of c) * 2) with (i_data it + 2 * zlen (blocks_of c)) by lia.
    pose proof (decode_blocks_room mem (i_data it + 2 * zlen (blocks_of c)) (id * 65536) (blocks_of c)
      (S (Z.to_nat (zlen (blocks_of c)))) (i_data it) (i_data it + 2 * zlen (blocks_of c)) out pos
      ltac:(rewrite length_zlen; lia) B eq_refl ltac:(lia) ltac:(lia) ltac:(lia) ltac:(lia) Hp Hp') as R. cbn zeta in R.
    destruct (Z.leb_spec (blocks_need pos (blocks_of c)) (zlen out)).
    + destruct R as (out' & -> & WR). cbn [bind]. rewrite blocks_ungroup in *. exists out'.
      replace (pos + zlen c - pos) with (zlen c) by lia. rewrite u32_id by lia. auto.
    + now rewrite R.
  - destruct (Z.leb_spec (pos + zlen c) (zlen out)); [apply decode_chunk_ok with (cs := cs); auto; congruence|].
    unfold decode_chunk. rewrite Ei. cbn [bind]. rewrite Eb.
    rewrite (id_view_type _ _ _ _ _ (proj1 V)), K. cbn [bind]. cbn [t_dense t_sparse Z.eqb Pos.eqb].
    pose proof (view_dense _ _ _ _ _ _ V K) as B. destruct W as (_ & _ & Hs & Hr). cbn [snd] in *.
    change chunk_size_in_64bit_words with (Z.of_nat (Z.to_nat 1024)).
    rewrite (decode_bitmap_short _ _ c); rewrite ?Z2Nat.id by lia; auto.
  - destruct (Z.leb_spec (pos + zlen c) (zlen out)); [apply decode_chunk_ok with (cs := cs); auto; congruence|].
    unfold decode_chunk. rewrite Ei. cbn [bind]. rewrite Eb.
    rewrite (id_view_type _ _ _ _ _ (proj1 V)), K. cbn [bind]. cbn [t_full t_dense t_sparse Z.eqb Pos.eqb].
    unfold decode_full_chunk. pose proof (kind_full _ _ W K) as EC.
    assert (LC : zlen c = 65536) by (rewrite EC, zlen_zrange; lia).
    change M_Util.chunk_size with 65536. rewrite decode_full_short; auto; lia.
Qed.

Lemma decode_loop_room dbg mem cs : forall it out pos,
  it_view 31 mem it cs -> 0 <= pos -> pos <= zlen out ->
  let r := decode_loop (length cs) dbg mem it out pos in
  if chunks_need pos cs <=? zlen out
  then exists out', r = Ok (out', pos + sum_card cs) /\ wrote 23 out pos (ungroup 65536 cs) out'
  else r = UB.
Proof.
  induction cs as [|[id c] cs IH]; intros it out pos V Hp Hp'; cbn zeta; cbn [length decode_loop chunks_need].
  - destruct (Z.leb_spec pos (zlen out)); [|lia].
    exists out. split; [cbn; do 2 f_equal; lia|]. apply wrote_nil; lia.
  - assert (SC : sum_card ((id, c) :: cs) = zlen c + sum_card cs) by reflexivity.
    pose proof (zlen_nonneg _ c).
    pose proof (decode_chunk_room dbg mem it id c cs out pos V Hp Hp') as R. cbn zeta in R.
    destruct (Z.leb_spec (chunk_need pos c) (zlen out)).
    + destruct R as (out1 & -> & W1). cbn [bind]. pose proof (wrote_zlen _ _ _ _ _ W1) as EL.
      destruct (view_next _ _ _ _ _ _ V) as (it1 & -> & V1 & _). cbn [bind].
      pose proof (chunk_need_ge pos c).
      pose proof (IH it1 out1 (pos + zlen c) V1 ltac:(lia) ltac:(lia)) as R2. cbn zeta in R2. rewrite EL in R2.
      destruct (Z.leb_spec (chunks_need (pos + zlen c) cs) (zlen out)).
      * destruct (Z.leb_spec (Z.max (chunk_need pos c) (chunks_need (pos + zlen c) cs)) (zlen out)); [|lia].
        destruct R2 as (out2 & -> & W2). exists out2. split; [do 2 f_equal; lia|].
        rewrite ungroup_cons. eapply wrote_app; eauto; [lia|]. rewrite zlen_ungroup1. exact W2.
      * destruct (Z.leb_spec (Z.max (chunk_need pos c) (chunks_need (pos + zlen c) cs)) (zlen out)); [lia|]. exact R2.
    + destruct (Z.leb_spec (Z.max (chunk_need pos c) (chunks_need (pos + zlen c) cs)) (zlen out)); [lia|].
      now rewrite R.
Qed.

(** ** the requirement in terms of the list *)
Lemma blocks_need_iff n : forall bs t,
  blocks_need t bs <= n <->
  t + sum_card bs <= n
  /\ forall pre id vs suf, bs = pre ++ (id, vs) :: suf -> t + sum_card pre + bneed (zlen vs) <= n.
Proof.
  induction bs as [|[id vs] bs IH]; intro t; cbn [blocks_need].
  - cbn. rewrite Z.add_0_r. split; [|tauto]. intro H. split; auto. intros [|? ?]; discriminate.
  - change (sum_card ((id, vs) :: bs)) with (zlen vs + sum_card bs). rewrite Z.max_lub_iff, IH. split.
    + intros (H1 & H2 & H3). split; [lia|]. intros [|[i v] pre] id' vs' suf E.
      * injection E as <- <- <-. cbn. lia.
      * injection E as <- <- E. specialize (H3 pre id' vs' suf E).
        change (sum_card ((id, vs) :: pre)) with (zlen vs + sum_card pre). lia.
    + intros (H1 & H2). split; [specialize (H2 [] id vs bs eq_refl); cbn in H2; lia|]. split; [lia|].
      intros pre id' vs' suf ->. specialize (H2 ((id, vs) :: pre) id' vs' suf eq_refl).
      change (sum_card ((id, vs) :: pre)) with (zlen vs + sum_card pre) in H2. lia.
Qed.
Lemma chunks_need_iff n : forall cs t,
  chunks_need t cs <= n <->
  t + sum_card cs <= n
  /\ forall pre id c suf, cs = pre ++ (id, c) :: suf -> chunk_need (t + sum_card pre) c <= n.
Proof.
  induction cs as [|[id c] cs IH]; intro t; cbn [chunks_need].
  - cbn. rewrite Z.add_0_r. split; [|tauto]. intro H. split; auto. intros [|? ?]; discriminate.
  - change (sum_card ((id, c) :: cs)) with (zlen c + sum_card cs). rewrite Z.max_lub_iff, IH. split.
    + intros (H1 & H2 & H3). split; [lia|]. intros [|[i v] pre] id' vs' suf E.
      * injection E as <- <- <-. cbn. now rewrite Z.add_0_r.
      * injection E as <- <- E. specialize (H3 pre id' vs' suf E).
        change (sum_card ((id, c) :: pre)) with (zlen c + sum_card pre). now rewrite Z.add_assoc.
    + intros (H1 & H2). split; [specialize (H2 [] id c cs eq_refl); cbn in H2; now rewrite Z.add_0_r in H2|]. split; [lia|].
      intros pre id' vs' suf ->. specialize (H2 ((id, c) :: pre) id' vs' suf eq_refl).
      change (sum_card ((id, c) :: pre)) with (zlen c + sum_card pre) in H2. now rewrite Z.add_assoc in H2.
Qed.

Lemma blocks_need_shift d : forall bs t, blocks_need (d + t) bs = d + blocks_need t bs.
Proof.
  induction bs as [|[id vs] bs IH]; intro t; cbn [blocks_need]; auto. rewrite <- !Z.add_assoc, IH. lia.
Qed.
Lemma chunks_need_shift d cs : chunks_need d cs = d + chunks_need 0 cs.
Proof.
  rewrite <- (Z.add_0_r d) at 1. generalize 0.
  induction cs as [|[id c] cs IH]; intro t; cbn [chunks_need]; auto. rewrite <- !Z.add_assoc, IH.
  unfold chunk_need. rewrite blocks_need_shift. destruct (kind_of c); lia.
Qed.

Lemma filter_none (f : Z -> bool) l : (forall x, In x l -> f x = false) -> filter f l = [].
Proof.
  induction l as [|a l IH]; intro H; auto. cbn [filter]. rewrite (H a) by (now left). apply IH.
  intros x Hx. apply H. now right.
Qed.
Lemma below_split A B x : Forall (fun v => v < x) A -> Forall (fun v => x <= v) B -> below (A ++ B) x = zlen A.
Proof.
  intros HA HB. rewrite Forall_forall in HA, HB. unfold below. rewrite filter_app, zlen_app.
  rewrite (filter_all _ A), (filter_none _ B), zlen_nil; [lia| |].
  - intros v Hv. specialize (HB v Hv). apply Z.ltb_ge. lia.
  - intros v Hv. specialize (HA v Hv). apply Z.ltb_lt. lia.
Qed.

Lemma ungroup_lt k lim g h : wf k lim (g ++ h) -> 0 < k -> forall a, In a h ->
  Forall (fun v => v < fst a * k) (ungroup k g).
Proof.
  intros W Hk a Ha. apply Forall_forall. intros v Hv. unfold ungroup in Hv. apply in_flat_map in Hv as (g1 & I1 & Iv).
  pose proof (wf_app_lt k lim g h g1 a W I1 Ha) as L. destruct W as [_ W]. apply Forall_app in W as [W _].
  rewrite Forall_forall in W. specialize (W _ I1). destruct (proj1 (In_ungroup1 k lim g1 v Hk W) Iv) as [E _].
  pose proof (Z.mod_pos_bound v k Hk). pose proof (Z.div_mod v k). nia.
Qed.
Lemma ungroup_ge k lim a h : wf k lim (a :: h) -> 0 < k -> Forall (fun v => fst a * k <= v) (ungroup k (a :: h)).
Proof.
  intros W Hk. apply Forall_forall. intros v Hv. unfold ungroup in Hv. apply in_flat_map in Hv as (g1 & I1 & Iv).
  assert (L : fst a <= fst g1).
  { destruct I1 as [->|I1]; [lia|]. pose proof (wf_app_lt k lim [a] h a g1 W (or_introl eq_refl) I1). lia. }
  destruct W as [_ W]. rewrite Forall_forall in W. specialize (W _ I1).
  destruct (proj1 (In_ungroup1 k lim g1 v Hk W) Iv) as [E _].
  pose proof (Z.mod_pos_bound v k Hk). pose proof (Z.div_mod v k). nia.
Qed.

Lemma below_block S pre h c suf bpre b vs bsuf : valid S ->
  chunks_of S = pre ++ (h, c) :: suf -> blocks_of c = bpre ++ (b, vs) :: bsuf ->
  below S (256 * (256 * h + b)) = sum_card pre + sum_card bpre
  /\ zlen vs = card 256 S (256 * h + b) /\ 0 <= b < 256 /\ 1 <= zlen vs.
Proof.
  intros V EC EB. destruct (valid_chunks S V) as (W & _ & EU & _).
  assert (HI : In (h, c) (chunks_of S)) by (rewrite EC; apply in_app_iff; right; now left).
  destruct (part_of S h c V HI) as [Ep Wc]. pose proof (blocks_wf h c Wc) as Wb.
  assert (HB : In (b, vs) (blocks_of c)) by (rewrite EB; apply in_app_iff; right; now left).
  assert (Wv : wfb1 (b, vs)). { destruct Wb as [_ Wb]. rewrite Forall_forall in Wb. now apply Wb. }
  pose proof (blocks_wf1_zlen _ _ Wv) as Hz. assert (Hb : 0 <= b < 256) by apply Wv.
  split; [|split; [|split; [auto|lia]]].
  - rewrite <- EU, EC, ungroup_app, ungroup_cons.
    change (ungroup1 65536 (h, c)) with (map (addb (h * 65536)) c).
    rewrite <- (blocks_ungroup c) at 1. rewrite EB, ungroup_app, map_app, <- app_assoc, app_assoc.
    rewrite below_split.
    + now rewrite zlen_app, zlen_map, !sum_card_ungroup.
    + rewrite EC in W. apply Forall_app. split.
      * pose proof (ungroup_lt _ _ _ _ W ltac:(lia) (h, c) (or_introl eq_refl)) as F. cbn [fst] in F.
        eapply Forall_impl; [|exact F]. cbn beta; intros; lia.
      * rewrite EB in Wb. pose proof (ungroup_lt _ _ _ _ Wb ltac:(lia) (b, vs) (or_introl eq_refl)) as F. cbn [fst] in F.
        apply Forall_map. eapply Forall_impl; [|exact F]. unfold addb. cbn beta; intros; lia.
    + rewrite EC in W. apply Forall_app. split.
      * rewrite EB in Wb. assert (Wb' : wf 256 256 ((b, vs) :: bsuf)).
        { destruct Wb as [Ws Wf]. rewrite map_app in Ws. apply sorted_app_inv in Ws as (_ & Ws & _).
          apply Forall_app in Wf as [_ Wf]. split; auto. }
        pose proof (ungroup_ge _ _ _ _ Wb' ltac:(lia)) as F. cbn [fst] in F.
        apply Forall_map. eapply Forall_impl; [|exact F]. unfold addb. cbn beta; intros; lia.
      * apply Forall_forall. intros v Hv. unfold ungroup in Hv. apply in_flat_map in Hv as (g1 & I1 & Iv).
        assert (L : h < fst g1).
        { change (pre ++ (h, c) :: suf) with (pre ++ [(h, c)] ++ suf) in W. rewrite app_assoc in W.
          apply (wf_app_lt _ _ _ _ (h, c) g1 W); auto. apply in_app_iff. right. now left. }
        destruct W as [_ W]. rewrite Forall_forall in W. specialize (W g1).
        destruct (proj1 (In_ungroup1 65536 _ g1 v ltac:(lia) (W ltac:(apply in_app_iff; right; now right))) Iv) as [E _].
        pose proof (Z.mod_pos_bound v 65536). pose proof (Z.div_mod v 65536). lia.
  - rewrite (blocks_format h c Wc) in HB. apply in_map_iff in HB as (b' & E & _). injection E as -> <-.
    rewrite card_part, Ep. now apply card_sub.
Qed.

Lemma find_block S b : valid S -> as_blocks S (b / 256) = true -> 0 < card 256 S b ->
  exists pre c suf bpre vs bsuf, chunks_of S = pre ++ (b / 256, c) :: suf /\ kind_of c = KSparse
    /\ blocks_of c = bpre ++ (b mod 256, vs) :: bsuf.
Proof.
  intros V Ab Cb. set (h := b / 256) in *. pose proof (Z.mod_pos_bound b 256 ltac:(lia)) as Hm.
  assert (Eb : b = 256 * h + b mod 256) by (unfold h; pose proof (Z.div_mod b 256); lia).
  assert (HC : exists c, In (h, c) (chunks_of S)).
  { unfold card in Cb. destruct (filter (fun v => v / 256 =? b) S) as [|v l] eqn:F; [rewrite zlen_nil in Cb; lia|].
    assert (I : In v (filter (fun v => v / 256 =? b) S)) by (rewrite F; now left).
    apply filter_In in I as [I E]. apply Z.eqb_eq in E.
    destruct (valid_chunks S V) as (W & _ & EU & _). rewrite <- EU in I. unfold ungroup in I.
    apply in_flat_map in I as ((h', c') & I1 & Iv). destruct W as [_ W]. rewrite Forall_forall in W.
    destruct (proj1 (In_ungroup1 65536 _ (h', c') v ltac:(lia) (W _ I1)) Iv) as [E1 _]. cbn [fst] in E1.
    exists c'. replace h with h'; auto. unfold h. rewrite <- E, E1, Z.div_div by lia. reflexivity. }
  destruct HC as (c & HC). destruct (part_of S h c V HC) as [Ep Wc].
  assert (HB : In (b mod 256, part 256 c (b mod 256)) (blocks_of c)).
  { rewrite (blocks_format h c Wc). apply in_map_iff. exists (b mod 256). split; auto. apply card_ids; [|lia].
    rewrite Ep, card_sub by auto. rewrite <- Eb. lia. }
  destruct (in_split _ _ HC) as (pre & suf & E1). destruct (in_split _ _ HB) as (bpre & bsuf & E2).
  exists pre, c, suf, bpre, (part 256 c (b mod 256)), bsuf. split; auto. split; auto.
  now apply (rep_kind S h c V HC).
Qed.

Lemma decode_fits_iff S n : valid S -> (decode_fits S n <-> chunks_need 0 (chunks_of S) <= n).
Proof.
  intro V. destruct (valid_chunks S V) as (W & _ & EU & _).
  assert (ES : zlen S = sum_card (chunks_of S)) by (rewrite <- EU at 1; apply sum_card_ungroup).
  rewrite chunks_need_iff, Z.add_0_l, <- ES. unfold decode_fits. split; intros (HL & H); split; auto.
  - intros pre h c suf EC. rewrite Z.add_0_l. unfold chunk_need.
    assert (HI : In (h, c) (chunks_of S)) by (rewrite EC; apply in_app_iff; right; now left).
    pose proof (sum_card_nonneg suf) as Hs.
    assert (LE : zlen S = sum_card pre + zlen c + sum_card suf).
    { rewrite ES, EC, sum_card_app. change (sum_card ((h, c) :: suf)) with (zlen c + sum_card suf). lia. }
    destruct (kind_of c) eqn:K; try lia. apply blocks_need_iff.
    rewrite <- (sum_card_ungroup 256 (blocks_of c)), blocks_ungroup. split; [lia|].
    intros bpre b vs bsuf EB. destruct (below_block S pre h c suf bpre b vs bsuf V EC EB) as (E1 & E2 & Hb & Hv).
    assert (Q : (256 * h + b) / 256 = h).
    { rewrite Z.mul_comm, Z.div_add_l by lia. rewrite Z.div_small by lia. lia. }
    pose proof (kind_rep S h c V HI) as KR. rewrite K in KR.
    destruct (H (256 * h + b)) as [H8 H30]; [now rewrite Q|lia|]. rewrite E1, <- E2 in *.
    unfold bneed. destruct (Z.ltb_spec (zlen vs) 31), (Z.leb_spec (zlen vs) 8); try lia.
    pose proof (sum_card_nonneg bsuf). assert (zlen c = sum_card bpre + zlen vs + sum_card bsuf); [|lia].
    { rewrite <- (blocks_ungroup c) at 1. rewrite sum_card_ungroup, EB, sum_card_app.
      change (sum_card ((b, vs) :: bsuf)) with (zlen vs + sum_card bsuf). lia. }
  - intros b Ab Cb. destruct (find_block S b V Ab Cb) as (pre & c & suf & bpre & vs & bsuf & EC & K & EB).
    specialize (H pre (b / 256) c suf EC). unfold chunk_need in H. rewrite K in H. apply blocks_need_iff in H as [_ H].
    specialize (H bpre (b mod 256) vs bsuf EB).
    destruct (below_block S pre _ c suf bpre _ vs bsuf V EC EB) as (E1 & E2 & Hb & Hv).
    replace (256 * (b / 256) + b mod 256) with b in * by (pose proof (Z.div_mod b 256); lia).
    unfold bneed in H. rewrite E2 in *. rewrite E1.
    destruct (Z.ltb_spec (card 256 S b) 31), (Z.leb_spec (card 256 S b) 8); lia.
Qed.

(** ** the whole sequence *)
Lemma decode_room dbg mem a S out pos :
  valid S -> stored 31 mem a S -> 0 <= pos <= zlen out ->
  exists s, seq_at mem a = Ok s
    /\ (decode_fits S (zlen out - pos) ->
          exists out', decode dbg mem s out pos = Ok (out', zlen S) /\ wrote 23 out pos S out')
    /\ (~ decode_fits S (zlen out - pos) -> decode dbg mem s out pos = UB).
Proof.
  intros H St Hp. destruct (stored_seq 31 mem a S H St ltac:(lia)) as (s & Es & En & V & A & B0).
  exists s. split; auto. rewrite (decode_fits_iff S _ H). unfold decode. rewrite En, <- length_zlen.
  destruct (valid_chunks S H) as (W & N & U & SC & L).
  pose proof (decode_loop_room dbg mem (chunks_of S) (seq_begin s) out pos V ltac:(lia) ltac:(lia)) as R. cbn zeta in R.
  rewrite chunks_need_shift in R.
  destruct (Z.leb_spec (pos + chunks_need 0 (chunks_of S)) (zlen out)); split; intro F; try lia.
  - destruct R as (out' & -> & W'). cbn [bind]. exists out'. split; [do 2 f_equal; lia|]. now rewrite U in W'.
  - now rewrite R.
Qed.

Lemma c34_decode dbg mem a S out pos :
  valid S -> stored 31 mem a S -> 0 <= pos <= zlen out ->
  exists s, seq_at mem a = Ok s
    /\ (decode_fits S (zlen out - pos) ->
          exists out', decode dbg mem s out pos = Ok (out', zlen S) /\ zlen out' = zlen out
            /\ (forall i, 0 <= i < zlen S -> znth out' (pos + i) = znth S i)
            /\ (forall i, i < pos \/ pos + zlen S + 23 <= i -> znth out' i = znth out i))
    /\ (~ decode_fits S (zlen out - pos) -> decode dbg mem s out pos = UB).
Proof.
  intros H St Hp. destruct (decode_room dbg mem a S out pos H St Hp) as (s & Es & F & N). exists s.
  exact (conj Es (conj F N)).
Qed.
Lemma c34_uncompress dbg mem a S out pos :
  valid S -> stored 0 mem a S -> 0 <= pos ->
  exists s, seq_at mem a = Ok s
    /\ (uncompress_fits S (zlen out - pos) -> exists out', uncompress dbg mem s out pos = Ok (out', zlen S))
    /\ (~ uncompress_fits S (zlen out - pos) -> uncompress dbg mem s out pos = UB).
Proof.
  intros H St Hp. destruct (stored_seq 0 mem a S H St ltac:(lia)) as (s & Es & _). exists s. split; auto.
  unfold uncompress_fits. split; intro F.
  - destruct (uncompress_ok dbg mem a S out pos H St Hp) as (s' & out' & E1 & E2 & _); [lia|].
    assert (s' = s) by congruence. subst s'. eauto.
  - destruct (uncompress_short dbg mem a S out pos H St Hp) as (s' & E1 & E2); [lia|].
    assert (s' = s) by congruence. now subst s'.
Qed.
Lemma c34_enough S n : valid S -> zlen S + 23 <= n -> decode_fits S n.
Proof.
  intros V H. split; [lia|]. intros b Ab Cb.
  destruct (find_block S b V Ab Cb) as (pre & c & suf & bpre & vs & bsuf & EC & K & EB).
  destruct (below_block S pre _ c suf bpre _ vs bsuf V EC EB) as (E1 & E2 & Hb & Hv).
  replace (256 * (b / 256) + b mod 256) with b in * by (pose proof (Z.div_mod b 256); lia).
  assert (below S (256 * b) + card 256 S b <= zlen S); [|lia].
  destruct (valid_chunks S V) as (W & _ & EU & _).
  assert (ES : zlen S = sum_card (chunks_of S)) by (rewrite <- EU at 1; apply sum_card_ungroup).
  rewrite E1, ES, EC, sum_card_app. change (sum_card ((b / 256, c) :: suf)) with (zlen c + sum_card suf).
  pose proof (sum_card_nonneg suf). pose proof (sum_card_nonneg bsuf).
  assert (zlen c = sum_card bpre + zlen vs + sum_card bsuf); [|lia].
  rewrite <- (blocks_ungroup c) at 1. rewrite sum_card_ungroup, EB, sum_card_app.
  change (sum_card ((b mod 256, vs) :: bsuf)) with (zlen vs + sum_card bsuf). lia.
Qed.
