(** Exactly which bytes after an encoding decode needs. *)
From Verif Require Import Base Hw Spec Format Room Reads Lib L_Bits L_Group Layout M_Util M_Seq M_Decode
  P_Build1 P_Build2 P_Build3 P_Seq P_Decode P_Enum P_Query P_Format P_Conc P_Short P_Stats P_Print P_Jumps P_Ex P_Room.
From Coq Require Import Lia.

Definition bread (n : Z) : Z := if n <? 31 then (if n <=? 8 then 16 else 40) else 32.
(** end of the furthest read of the blocks [bs] whose data start at [d] *)
Fixpoint blocks_reach (d : Z) (bs : list (Z * list Z)) : Z :=
  match bs with
  | [] => d
  | (_, vs) :: bs => Z.max (d + bread (zlen vs)) (blocks_reach (d + bytes_by_cardinality (zlen vs)) bs)
  end.
Definition chunk_reach (d : Z) (c : list Z) : Z :=
  match kind_of c with
  | KSparse => blocks_reach (d + 2 * zlen (blocks_of c)) (blocks_of c)
  | _ => d + zlen (chunk_data c)
  end.
Fixpoint chunks_reach (d : Z) (cs : list (Z * list Z)) : Z :=
  match cs with
  | [] => d
  | (_, c) :: cs => Z.max (chunk_reach d c) (chunks_reach (d + zlen (chunk_data c)) cs)
  end.

(** ** pieces *)
Lemma rd_bytes_cases mem : forall n a, 0 <= a ->
  rd_bytes mem a n = UB \/ (exists bs, rd_bytes mem a n = Ok bs /\ length bs = n /\ (n = O \/ a + Z.of_nat n <= zlen mem)).
Proof.
  induction n; intros a Ha; cbn [rd_bytes].
  - right. exists []. auto.
  - unfold rd8, vget. destruct (znth mem a) as [x|] eqn:E; cbn [bind].
    + apply znth_lt in E.
      destruct (IHn (a + 1) ltac:(lia)) as [-> | (bs & -> & L & H)]; [now left|]. right. exists (x :: bs).
      cbn [bind length]. split; auto. split; lia.
    + now left.
Qed.
Lemma decode_step_cases mem begin base out pos off :
  0 <= begin + off -> 0 <= pos + off ->
  decode_step mem begin base out pos off = UB
  \/ (begin + off + 16 <= zlen mem /\ pos + off + 8 <= zlen out
      /\ exists out', decode_step mem begin base out pos off = Ok out' /\ zlen out' = zlen out).
Proof.
  intros H1 H2. unfold decode_step, load128.
  destruct (rd_bytes_cases mem 16 (begin + off) H1) as [-> | (bs & -> & L & H)]; [now left|]. cbn [bind].
  destruct H; [discriminate|]. unfold cvt_add.
  assert (LB : zlen (map (fun x => u32 (base + x)) (firstn 8 bs)) = 8).
  { rewrite zlen_map, zlen_firstn. unfold zlen. rewrite L. lia. }
  destruct (Z_lt_le_dec (zlen out) (pos + off + 8)).
  - left. apply store_short. lia.
  - right. split; [lia|]. split; [lia|].
    destruct (store_ok out (pos + off) (map (fun x => u32 (base + x)) (firstn 8 bs))) as (o & -> & W); [lia|lia|].
    exists o. split; auto. eapply wrote_zlen; eauto.
Qed.

Lemma decode_sparse_block_reach mem data vs base out pos :
  bytes_at mem data vs -> 1 <= zlen vs <= 30 -> 0 <= data -> data + bread (zlen vs) <= zlen mem ->
  0 <= pos -> pos + bneed (zlen vs) <= zlen out ->
  exists out', decode_sparse_block mem data (zlen vs) base out pos = Ok (out', zlen vs)
    /\ wrote 23 out pos (map (fun x => u32 (base + x)) vs) out'.
Proof.
  intros B Hv Hd Hm Hp Ho. unfold decode_sparse_block.
  assert (Ho8 : pos + 8 <= zlen out).
  { unfold bneed in Ho. destruct (Z.ltb_spec (zlen vs) 31); [|lia]. destruct (zlen vs <=? 8); lia. }
  assert (Hm8 : data + 16 <= zlen mem).
  { unfold bread in Hm. destruct (Z.ltb_spec (zlen vs) 31); [|lia]. destruct (zlen vs <=? 8); lia. }
  set (f := fun x => u32 (base + x)).
  assert (PRE : forall w n, bytes_at mem data w -> zlen w = n -> zlen vs <= n ->
            exists g, w = vs ++ g /\ zlen g = n - zlen vs).
  { intros w n Bw Lw Hn. exists (skipn (length vs) w). split.
    - rewrite <- (firstn_skipn (length vs) w) at 1. f_equal. apply znth_ext.
      + rewrite zlen_firstn. unfold zlen in *. lia.
      + intros i Hi. rewrite zlen_firstn in Hi. rewrite znth_firstn by (unfold zlen in *; lia).
        rewrite <- Bw by lia. apply B. unfold zlen in *. lia.
    - rewrite zlen_skipn. unfold zlen in *. lia. }
  destruct (rd_bytes_ok mem data 8) as (w0 & _ & L0 & B0); [lia|lia|].
  assert (Z0 : zlen w0 = 8) by (unfold zlen; rewrite L0; reflexivity).
  destruct (decode_step_ok mem data base out pos 0 w0) as (out1 & -> & W1); rewrite ?Z.add_0_r; auto; try lia.
  cbn [bind]. rewrite Z.add_0_r in W1.
  destruct (Z.leb_spec (zlen vs) 8).
  - exists out1. split; auto.
    destruct (PRE w0 8 B0 Z0) as (g & -> & Lg); [lia|].
    rewrite map_app in W1. eapply wrote_prefix; eauto. rewrite zlen_map. lia.
  - assert (Ho32 : pos + 32 <= zlen out).
    { unfold bneed in Ho. destruct (Z.ltb_spec (zlen vs) 31); [|lia]. destruct (Z.leb_spec (zlen vs) 8); lia. }
    assert (Hm40 : data + 40 <= zlen mem).
    { unfold bread in Hm. destruct (Z.ltb_spec (zlen vs) 31); [|lia]. destruct (Z.leb_spec (zlen vs) 8); lia. }
    destruct (rd_bytes_ok mem (data + 8) 8) as (w1 & _ & L1 & B1); [lia|lia|].
    assert (Z1 : zlen w1 = 8) by (unfold zlen; rewrite L1; reflexivity).
    destruct (rd_bytes_ok mem (data + 16) 8) as (w2 & _ & L2 & B2); [lia|lia|].
    assert (Z2 : zlen w2 = 8) by (unfold zlen; rewrite L2; reflexivity).
    destruct (rd_bytes_ok mem (data + 24) 8) as (w3 & _ & L3 & B3); [lia|lia|].
    assert (Z3 : zlen w3 = 8) by (unfold zlen; rewrite L3; reflexivity).
    pose proof (wrote_zlen _ _ _ _ _ W1) as O1.
    destruct (decode_step_ok mem data base out1 pos 8 w1) as (out2 & -> & W2); auto; try lia.
    cbn [bind]. pose proof (wrote_zlen _ _ _ _ _ W2) as O2.
    destruct (decode_step_ok mem data base out2 pos 16 w2) as (out3 & -> & W3); auto; try lia.
    cbn [bind]. pose proof (wrote_zlen _ _ _ _ _ W3) as O3.
    destruct (decode_step_ok mem data base out3 pos 24 w3) as (out4 & -> & W4); auto; try lia.
    cbn [bind]. exists out4. split; auto.
    assert (W : wrote 0 out pos (map f (w0 ++ w1 ++ w2 ++ w3)) out4).
    { rewrite !map_app. eapply wrote_app; [lia|exact W1|]. rewrite zlen_map, Z0.
      eapply wrote_app; [lia|exact W2|]. rewrite zlen_map, Z1. rewrite <- Z.add_assoc.
      eapply wrote_app; [lia|exact W3|]. rewrite zlen_map, Z2. rewrite <- Z.add_assoc. exact W4. }
    destruct (PRE (w0 ++ w1 ++ w2 ++ w3) 32) as (g & E & Lg).
    { apply bytes_at_app. split; auto. rewrite Z0. apply bytes_at_app. split; auto. rewrite Z1.
      rewrite <- Z.add_assoc. apply bytes_at_app. split; auto. rewrite Z2. rewrite <- Z.add_assoc. exact B3. }
    { rewrite !zlen_app. lia. } { lia. }
    rewrite E, map_app in W. eapply wrote_prefix; eauto. rewrite zlen_map. lia.
Qed.
Lemma decode_sparse_block_far mem data n base out pos :
  1 <= n <= 30 -> 0 <= data -> 0 <= pos -> zlen out < pos + bneed n \/ zlen mem < data + bread n ->
  decode_sparse_block mem data n base out pos = UB.
Proof.
  intros Hv Hd Hp Ho. unfold decode_sparse_block. unfold bneed, bread in Ho. destruct (Z.ltb_spec n 31); [|lia].
  destruct (decode_step_cases mem data base out pos 0) as [-> | (M1 & O1 & o1 & -> & E1)]; [lia|lia|reflexivity|].
  cbn [bind]. destruct (Z.leb_spec n 8); [lia|].
  destruct (decode_step_cases mem data base o1 pos 8) as [-> | (M2 & O2 & o2 & -> & E2)]; [lia|lia|reflexivity|].
  cbn [bind].
  destruct (decode_step_cases mem data base o2 pos 16) as [-> | (M3 & O3 & o3 & -> & E3)]; [lia|lia|reflexivity|].
  cbn [bind].
  destruct (decode_step_cases mem data base o3 pos 24) as [-> | (M4 & O4 & o4 & -> & E4)]; [lia|lia|reflexivity|].
  lia.
Qed.

(** ** a block *)
Lemma decode_block_reach mem data id vs base out pos :
  wfb1 (id, vs) -> bytes_at mem data (block_data vs) -> 0 <= data ->
  data + bytes_by_cardinality (zlen vs) <= zlen mem ->
  0 <= base -> base + 65536 <= 4294967296 -> 0 <= pos -> pos <= zlen out ->
  let r := (if block_type (zlen vs) =? t_sparse
     then decode_sparse_block mem data (zlen vs) (u32 (base + id * 256)) out pos
     else decode_bitmap (words_mem mem data) block_size_in_64bit_words (u32 (base + id * 256)) out pos) in
  if (pos + bneed (zlen vs) <=? zlen out) && (data + bread (zlen vs) <=? zlen mem)
  then exists out', r = Ok (out', zlen vs) /\ wrote 23 out pos (map (addb base) (ungroup1 256 (id, vs))) out'
  else r = UB.
Proof.
  intros W B Hd Hm Hb0 Hb1 Hp Hp'. pose proof (blocks_wf1_zlen _ _ W) as Hz.
  destruct W as (Hid & _ & Hs & Hr). cbn [fst snd] in *. cbn zeta.
  assert (E : map (addb base) (ungroup1 256 (id, vs)) = map (addb (base + id * 256)) vs).
  { unfold ungroup1. rewrite map_map. apply map_ext. intro x. unfold addb. cbn [fst]. lia. }
  rewrite E. rewrite (u32_id (base + id * 256)) by lia.
  unfold block_type, bytes_by_cardinality in *. destruct (Z.ltb_spec (zlen vs) 31) as [Hl|Hl].
  - rewrite Z.eqb_refl. apply block_sparse in B; auto. destruct (Z.leb_spec (pos + bneed (zlen vs)) (zlen out)),
      (Z.leb_spec (data + bread (zlen vs)) (zlen mem)); cbn [andb].
    + destruct (decode_sparse_block_reach mem data vs (base + id * 256) out pos) as (out' & E1 & W); auto; try lia.
      exists out'. split; auto.
      destruct (map_u32_add (base + id * 256) vs 256) as [_ E2]; auto; try lia. now rewrite <- E2.
    + apply decode_sparse_block_far; auto; lia.
    + apply decode_sparse_block_far; auto; lia.
    + apply decode_sparse_block_far; auto; lia.
  - cbn [t_dense t_sparse Z.eqb Pos.eqb]. apply block_dense in B; auto.
    assert (EN : bneed (zlen vs) = zlen vs) by (unfold bneed; destruct (Z.ltb_spec (zlen vs) 31); lia). rewrite EN.
    assert (ER : bread (zlen vs) = 32) by (unfold bread; destruct (Z.ltb_spec (zlen vs) 31); lia). rewrite ER.
    destruct (Z.leb_spec (data + 32) (zlen mem)); [|lia]. rewrite andb_true_r.
    destruct (Z.leb_spec (pos + zlen vs) (zlen out)).
    + destruct (decode_bitmap_ok (words_mem mem data) 4 vs (base + id * 256) out pos) as (out' & E1 & W);
        auto; try lia.
      exists out'. split; auto. eapply wrote_weaken; eauto. lia.
    + apply (decode_bitmap_short (words_mem mem data) 4 vs); auto.
Qed.

Lemma decode_blocks_reach mem end_ base bs : forall fuel begin data out tmp,
  (length bs <= fuel)%nat -> blocks_at mem begin data bs -> end_ = begin + 2 * zlen bs ->
  0 <= data -> data + zlen (datas bs) <= zlen mem ->
  0 <= base -> base + 65536 <= 4294967296 -> 0 <= tmp -> tmp <= zlen out ->
  let r := decode_sparse_chunk_loop fuel mem begin end_ data base out tmp in
  if (blocks_need tmp bs <=? zlen out) && (blocks_reach data bs <=? zlen mem)
  then exists out', r = Ok (out', tmp + zlen (ungroup 256 bs)) /\ wrote 23 out tmp (map (addb base) (ungroup 256 bs)) out'
  else r = UB.
Proof.
  induction bs as [|[id vs] bs IH]; intros fuel begin data out tmp Hf B He Hd Hm Hb0 Hb1 Ht Ht'; cbn zeta.
  - cbn [blocks_need blocks_reach]. change (zlen (datas [])) with 0 in Hm.
    destruct (Z.leb_spec tmp (zlen out)); [|lia]. destruct (Z.leb_spec data (zlen mem)); [|lia]. cbn [andb].
    rewrite zlen_nil in He. exists out. split; [|apply wrote_nil; lia].
    cbn. rewrite Z.add_0_r. destruct fuel; cbn [decode_sparse_chunk_loop];
      destruct (Z.eqb_spec begin end_); auto; lia.
  - cbn [length] in Hf. destruct fuel as [|f]; [lia|].
    apply blocks_at_cons in B as (W1 & E1 & E2 & D & B & _). pose proof (blocks_wf1_zlen _ _ W1) as Hz.
    rewrite zlen_cons in He. rewrite ungroup_cons, zlen_app, zlen_ungroup1 in *. cbn [snd] in *.
    rewrite zlen_datas_cons in Hm. cbn [snd] in Hm. zpos.
    cbn [decode_sparse_chunk_loop]. destruct (Z.eqb_spec begin end_); [lia|].
    rewrite E1. cbn [bind]. rewrite E2. cbn [bind].
    replace (zlen vs - 1 + 1) with (zlen vs) by lia.
    assert (0 <= bytes_by_cardinality (zlen vs)) by (unfold bytes_by_cardinality; destruct (zlen vs <? 31); lia).
    pose proof (decode_block_reach mem data id vs base out tmp W1 D Hd ltac:(lia) Hb0 Hb1 Ht Ht') as R. cbn zeta in R.
    cbn [blocks_need blocks_reach]. revert R.
    destruct (Z.leb_spec (tmp + bneed (zlen vs)) (zlen out)), (Z.leb_spec (data + bread (zlen vs)) (zlen mem)); cbn [andb]; intro R.
    2-4: replace ((Z.max (tmp + bneed (zlen vs)) (blocks_need (tmp + zlen vs) bs) <=? zlen out)
      && (Z.max (data + bread (zlen vs)) (blocks_reach (data + bytes_by_cardinality (zlen vs)) bs) <=? zlen mem)) with false;
      [now rewrite R|symmetry; apply andb_false_iff; rewrite !Z.leb_gt; lia].
    destruct R as (out1 & -> & W). cbn [bind]. pose proof (wrote_zlen _ _ _ _ _ W) as EL.
    pose proof (bneed_ge (zlen vs)) as BN.
    pose proof (IH f (begin + 2) (data + bytes_by_cardinality (zlen vs)) out1 (tmp + zlen vs) ltac:(lia) B
      ltac:(lia) ltac:(lia) ltac:(lia) Hb0 Hb1 ltac:(lia) ltac:(lia)) as R2. cbn zeta in R2. rewrite EL in R2.
    replace (Z.max (tmp + bneed (zlen vs)) (blocks_need (tmp + zlen vs) bs) <=? zlen out)
      with (blocks_need (tmp + zlen vs) bs <=? zlen out)
      by (apply eq_true_iff_eq; rewrite !Z.leb_le; lia).
    replace (Z.max (data + bread (zlen vs)) (blocks_reach (data + bytes_by_cardinality (zlen vs)) bs) <=? zlen mem)
      with (blocks_reach (data + bytes_by_cardinality (zlen vs)) bs <=? zlen mem)
      by (apply eq_true_iff_eq; rewrite !Z.leb_le; lia).
    destruct ((blocks_need (tmp + zlen vs) bs <=? zlen out)
      && (blocks_reach (data + bytes_by_cardinality (zlen vs)) bs <=? zlen mem)); auto.
    destruct R2 as (out2 & -> & W2). exists out2. split; [do 2 f_equal; lia|].
    rewrite map_app. eapply wrote_app; eauto; [lia|]. rewrite zlen_map, zlen_ungroup1. exact W2.
Qed.

Lemma decode_chunk_reach dbg mem it id c cs out pos :
  it_view 0 mem it ((id, c) :: cs) -> 0 <= pos -> pos <= zlen out ->
  let r := decode_chunk dbg mem it out pos in
  if (chunk_need pos c <=? zlen out) && (chunk_reach (i_data it) c <=? zlen mem)
  then exists out', r = Ok (out', zlen c) /\ wrote 23 out pos (ungroup1 65536 (id, c)) out'
  else r = UB.
Proof.
  intros V Hp Hp'. pose proof (view_wf _ _ _ _ _ V) as W. pose proof (chunk_card _ _ W) as Hc.
  destruct (chunk_base _ _ _ _ _ (proj1 V)) as (Ei & Eb & Hi). cbn zeta. unfold chunk_need, chunk_reach.
  assert (DL : i_data it + zlen (chunk_data c) <= zlen mem).
  { destruct V as (_ & _ & _ & L). rewrite cdatas_cons, zlen_app in L. cbn [snd] in L.
    pose proof (zlen_nonneg _ (cdatas cs)). lia. }
  unfold decode_chunk. rewrite Ei. cbn [bind]. rewrite Eb.
  rewrite (id_view_type _ _ _ _ _ (proj1 V)). cbn [bind].
  change (ungroup1 65536 (id, c)) with (map (addb (id * 65536)) c).
  destruct (kind_of c) eqn:K.
  - rewrite Z.eqb_refl. rewrite (id_view_blocks _ _ _ _ _ (proj1 V) K). cbn [bind].
    destruct (view_sparse _ _ _ _ _ _ V K) as (B & Hn & Hd & Hm).
    unfold decode_sparse_chunk.
    rewrite assert_ok by (apply andb_true_intro; split; apply Z.leb_le; lia). cbn [bind].
    replace (i_data it + zlen (blocks_of c) * 2) with (i_data it + 2 * zlen (blocks_of c)) by lia.
    pose proof (decode_blocks_reach mem (i_data it + 2 * zlen (blocks_of c)) (id * 65536) (blocks_of c)
      (S (Z.to_nat (zlen (blocks_of c)))) (i_data it) (i_data it + 2 * zlen (blocks_of c)) out pos
      ltac:(rewrite length_zlen; lia) B eq_refl ltac:(lia) ltac:(lia) ltac:(lia) ltac:(lia) Hp Hp') as R. cbn zeta in R.
    destruct ((blocks_need pos (blocks_of c) <=? zlen out)
      && (blocks_reach (i_data it + 2 * zlen (blocks_of c)) (blocks_of c) <=? zlen mem)).
    + destruct R as (out' & -> & WR). cbn [bind]. rewrite blocks_ungroup in *. exists out'.
      replace (pos + zlen c - pos) with (zlen c) by lia. rewrite u32_id by lia. auto.
    + now rewrite R.
  - destruct (Z.leb_spec (i_data it + zlen (chunk_data c)) (zlen mem)); [|lia]. rewrite andb_true_r.
    cbn [t_dense t_sparse Z.eqb Pos.eqb].
    pose proof (view_dense _ _ _ _ _ _ V K) as B. destruct W as (_ & _ & Hs & Hr). cbn [snd] in *.
    change chunk_size_in_64bit_words with (Z.of_nat (Z.to_nat 1024)).
    destruct (Z.leb_spec (pos + zlen c) (zlen out)).
    + destruct (decode_bitmap_ok (words_mem mem (i_data it)) (Z.to_nat 1024) c (id * 65536) out pos)
        as (out' & E & W); rewrite ?Z2Nat.id in * by lia; auto; try lia.
      exists out'. split; auto. eapply wrote_weaken; eauto. lia.
    + rewrite (decode_bitmap_short _ _ c); rewrite ?Z2Nat.id by lia; auto.
  - destruct (Z.leb_spec (i_data it + zlen (chunk_data c)) (zlen mem)); [|lia]. rewrite andb_true_r.
    cbn [t_full t_dense t_sparse Z.eqb Pos.eqb].
    unfold decode_full_chunk. pose proof (kind_full _ _ W K) as EC.
    assert (LC : zlen c = 65536) by (rewrite EC, zlen_zrange; lia).
    change M_Util.chunk_size with 65536.
    destruct (Z.leb_spec (pos + zlen c) (zlen out)).
    + destruct (decode_full_loop_ok (Z.to_nat 65536) 0 (id * 65536) out pos) as (out' & -> & WR); try lia.
      cbn [bind]. exists out'. rewrite LC. split; auto. rewrite Z.add_0_r in WR. rewrite EC.
      eapply wrote_weaken; eauto. lia.
    + rewrite decode_full_short; auto; lia.
Qed.

Lemma decode_loop_reach dbg mem cs : forall it out pos,
  it_view 0 mem it cs -> 0 <= pos -> pos <= zlen out ->
  let r := decode_loop (length cs) dbg mem it out pos in
  if (chunks_need pos cs <=? zlen out) && (chunks_reach (i_data it) cs <=? zlen mem)
  then exists out', r = Ok (out', pos + sum_card cs) /\ wrote 23 out pos (ungroup 65536 cs) out'
  else r = UB.
Proof.
  induction cs as [|[id c] cs IH]; intros it out pos V Hp Hp'; cbn zeta; cbn [length decode_loop chunks_need chunks_reach].
  - destruct V as (_ & _ & _ & L). change (zlen (cdatas [])) with 0 in L.
    destruct (Z.leb_spec pos (zlen out)); [|lia]. destruct (Z.leb_spec (i_data it) (zlen mem)); [|lia]. cbn [andb].
    exists out. split; [cbn; do 2 f_equal; lia|]. apply wrote_nil; lia.
  - assert (SC : sum_card ((id, c) :: cs) = zlen c + sum_card cs) by reflexivity.
    pose proof (zlen_nonneg _ c).
    pose proof (decode_chunk_reach dbg mem it id c cs out pos V Hp Hp') as R. cbn zeta in R. revert R.
    destruct (Z.leb_spec (chunk_need pos c) (zlen out)), (Z.leb_spec (chunk_reach (i_data it) c) (zlen mem)); cbn [andb]; intro R.
    2-4: replace ((Z.max (chunk_need pos c) (chunks_need (pos + zlen c) cs) <=? zlen out)
      && (Z.max (chunk_reach (i_data it) c) (chunks_reach (i_data it + zlen (chunk_data c)) cs) <=? zlen mem)) with false;
      [now rewrite R|symmetry; apply andb_false_iff; rewrite !Z.leb_gt; lia].
    destruct R as (out1 & -> & W1). cbn [bind]. pose proof (wrote_zlen _ _ _ _ _ W1) as EL.
    destruct (view_next _ _ _ _ _ _ V) as (it1 & -> & V1 & _ & _ & ED & _). cbn [bind].
    pose proof (chunk_need_ge pos c).
    pose proof (IH it1 out1 (pos + zlen c) V1 ltac:(lia) ltac:(lia)) as R2. cbn zeta in R2. rewrite EL, ED in R2.
    replace (Z.max (chunk_need pos c) (chunks_need (pos + zlen c) cs) <=? zlen out)
      with (chunks_need (pos + zlen c) cs <=? zlen out) by (apply eq_true_iff_eq; rewrite !Z.leb_le; lia).
    replace (Z.max (chunk_reach (i_data it) c) (chunks_reach (i_data it + zlen (chunk_data c)) cs) <=? zlen mem)
      with (chunks_reach (i_data it + zlen (chunk_data c)) cs <=? zlen mem) by (apply eq_true_iff_eq; rewrite !Z.leb_le; lia).
    destruct ((chunks_need (pos + zlen c) cs <=? zlen out)
      && (chunks_reach (i_data it + zlen (chunk_data c)) cs <=? zlen mem)); auto.
    destruct R2 as (out2 & -> & W2). exists out2. split; [do 2 f_equal; lia|].
    rewrite ungroup_cons. eapply wrote_app; eauto; [lia|]. rewrite zlen_ungroup1. exact W2.
Qed.

(** ** the requirement in terms of the list *)
Lemma blocks_reach_iff n : forall bs d,
  blocks_reach d bs <= n <->
  d + zlen (datas bs) <= n
  /\ forall pre id vs suf, bs = pre ++ (id, vs) :: suf -> d + zlen (datas bs) - zlen (datas ((id, vs) :: suf)) + bread (zlen vs) <= n.
Proof.
  induction bs as [|[id vs] bs IH]; intro d; cbn [blocks_reach].
  - change (zlen (datas [])) with 0. rewrite Z.add_0_r. split; [|tauto]. intro H. split; auto. intros [|? ?]; discriminate.
  - rewrite Z.max_lub_iff, IH, !(zlen_datas_cons (id, vs) bs). cbn [snd]. split.
    + intros (H1 & H2 & H3). split; [lia|]. intros [|[i v] pre] id' vs' suf E.
      * injection E as <- <- <-. rewrite zlen_datas_cons. cbn [snd]. lia.
      * injection E as <- <- E. specialize (H3 pre id' vs' suf E). lia.
    + intros (H1 & H2). split; [specialize (H2 [] id vs bs eq_refl); rewrite zlen_datas_cons in H2; cbn [snd] in H2; lia|].
      split; [lia|]. intros pre id' vs' suf ->. specialize (H2 ((id, vs) :: pre) id' vs' suf eq_refl). lia.
Qed.
Lemma zlen_cdatas_cons id c cs : zlen (cdatas ((id, c) :: cs)) = zlen (chunk_data c) + zlen (cdatas cs).
Proof. rewrite cdatas_cons, zlen_app. reflexivity. Qed.
Lemma chunks_reach_iff n : forall cs d,
  chunks_reach d cs <= n <->
  d + zlen (cdatas cs) <= n
  /\ forall pre id c suf, cs = pre ++ (id, c) :: suf -> chunk_reach (d + zlen (cdatas cs) - zlen (cdatas ((id, c) :: suf))) c <= n.
Proof.
  induction cs as [|[id c] cs IH]; intro d; cbn [chunks_reach].
  - change (zlen (cdatas [])) with 0. rewrite Z.add_0_r. split; [|tauto]. intro H. split; auto. intros [|? ?]; discriminate.
  - rewrite Z.max_lub_iff, IH, !(zlen_cdatas_cons id c cs). split.
    + intros (H1 & H2 & H3). split; [lia|]. intros [|[i v] pre] id' vs' suf E.
      * injection E as <- <- <-. rewrite zlen_cdatas_cons.
        replace (d + _ - _) with d by lia. exact H1.
      * injection E as <- <- E. specialize (H3 pre id' vs' suf E). now rewrite Z.add_assoc.
    + intros (H1 & H2). split; [specialize (H2 [] id c cs eq_refl); rewrite zlen_cdatas_cons in H2;
        replace (d + _ - _) with d in H2 by lia; exact H2|].
      split; [lia|]. intros pre id' vs' suf ->. specialize (H2 ((id, c) :: pre) id' vs' suf eq_refl).
      now rewrite Z.add_assoc in H2.
Qed.

(** sum over the elements from one on, in a sorted list of pairs *)
Lemma total_from k lim (f : Z -> Z) (p : Z -> bool) pre suf :
  wf k lim (pre ++ suf) -> (forall x, In x pre -> p (fst x) = false) -> (forall x, In x suf -> p (fst x) = true) ->
  total (fun y => if p (fst y) then f (fst y) else 0) (pre ++ suf) = total (fun y => f (fst y)) suf.
Proof.
  intros W H1 H2. rewrite total_app.
  rewrite (total_ext _ _ (fun _ => 0) pre), total_0 by (intros x Hx; now rewrite (H1 x Hx)).
  rewrite Z.add_0_l. apply total_ext. intros x Hx. now rewrite (H2 x Hx).
Qed.
Lemma datas_total bs : zlen (datas bs) = total (fun b => bytes_by_cardinality (zlen (snd b))) bs.
Proof. induction bs as [|b bs IH]; auto. now rewrite zlen_datas_cons, total_cons, IH. Qed.

Lemma bytes_left_eq S pre h c suf bpre b vs bsuf : valid S ->
  chunks_of S = pre ++ (h, c) :: suf -> blocks_of c = bpre ++ (b, vs) :: bsuf ->
  bytes_left S (256 * h + b) = zlen (datas ((b, vs) :: bsuf)) + zlen (cdatas suf).
Proof.
  intros V EC EB. destruct (valid_chunks S V) as (W & _ & EU & _).
  destruct (below_block S pre h c suf bpre b vs bsuf V EC EB) as (_ & _ & Hb & _).
  assert (HI : In (h, c) (chunks_of S)) by (rewrite EC; apply in_app_iff; right; now left).
  destruct (part_of S h c V HI) as [Ep Wc]. pose proof (blocks_wf h c Wc) as Wb.
  unfold bytes_left.
  replace ((256 * h + b) / 256) with h by (rewrite Z.mul_comm, Z.div_add_l by lia; rewrite Z.div_small by lia; lia).
  replace ((256 * h + b) mod 256) with b by (rewrite Z.add_comm, Z.mul_comm, Z.mod_add by lia; rewrite Z.mod_small; lia).
  f_equal.
  - rewrite <- total_if.
    rewrite (total_ext _ _ (fun i => if b <=? i then data_bytes (card 256 c i) else 0)).
    2:{ intros i Hi. apply In_zrange in Hi. rewrite Ep, card_sub by lia. reflexivity. }
    rewrite <- (total_ids 256 256 c).
    2:{ intros i E. rewrite E. destruct (b <=? i); reflexivity. }
    transitivity (total (fun y => if b <=? fst y then data_bytes (card 256 c (fst y)) else 0) (blocks_of c)).
    { rewrite (blocks_format h c Wc), total_map. reflexivity. }
    rewrite EB in *. rewrite (total_from 256 256 (fun i => data_bytes (card 256 c i)) (fun i => b <=? i)); auto.
    + rewrite datas_total. apply total_ext. intros [i v] Hi.
      assert (I : In (i, v) (blocks_of c)) by (rewrite EB; apply in_app_iff; now right).
      rewrite (blocks_format h c Wc) in I. apply in_map_iff in I as (j & E & _). injection E as -> <-.
      cbn [fst snd]. now rewrite card_part.
    + intros x Hx. apply Z.leb_gt. exact (wf_app_lt _ _ _ _ x (b, vs) Wb Hx (in_eq _ _)).
    + intros x [<-|Hx]; apply Z.leb_le; [cbn; lia|].
      change (bpre ++ (b, vs) :: bsuf) with (bpre ++ [(b, vs)] ++ bsuf) in Wb. rewrite app_assoc in Wb.
      pose proof (wf_app_lt _ _ _ _ (b, vs) x Wb) as L. cbn [fst] in L.
      specialize (L ltac:(apply in_app_iff; right; now left) Hx). lia.
  - rewrite <- total_if.
    rewrite <- (total_ids 65536 (Z.to_nat 65536) S).
    2:{ intros i E. pose proof (chunk_cost_bound S i). destruct (h <? i); lia. }
    transitivity (total (fun y => if h <? fst y then chunk_cost S (fst y) else 0) (chunks_of S)).
    { rewrite (chunks_format S V), total_map. reflexivity. }
    rewrite EC in W. rewrite EC at 1.
    change (pre ++ (h, c) :: suf) with (pre ++ [(h, c)] ++ suf) in *. rewrite app_assoc in *.
    rewrite (total_from 65536 65535 (chunk_cost S) (fun i => h <? i)); auto.
    + rewrite cdatas_total. apply total_ext. intros [i v] Hi. cbn [fst snd]. apply cost_data; auto.
      rewrite EC. apply in_app_iff. now right.
    + intros x Hx. apply Z.ltb_ge. apply in_app_iff in Hx as [Hx|[<-|[]]]; [|cbn; lia].
      rewrite <- app_assoc in W. pose proof (wf_app_lt _ _ _ _ x (h, c) W Hx (in_eq _ _)). cbn [fst] in *. lia.
    + intros x Hx. apply Z.ltb_lt. apply (wf_app_lt _ _ _ _ (h, c) x W); auto. apply in_app_iff. right. now left.
Qed.

Lemma chunk_reach_iff S pre h c suf n d : valid S -> chunks_of S = pre ++ (h, c) :: suf ->
  d + zlen (chunk_data c) <= n ->
  (chunk_reach d c <= n <->
   forall b, 0 <= b < 256 -> block_reads S (n - (d + zlen (chunk_data c) + zlen (cdatas suf))) (256 * h + b)).
Proof.
  intros V EC HD.
  assert (HI : In (h, c) (chunks_of S)) by (rewrite EC; apply in_app_iff; right; now left).
  assert (Q : forall b, 0 <= b < 256 -> (256 * h + b) / 256 = h /\ (256 * h + b) mod 256 = b).
  { intros b Hb. split.
    - rewrite Z.mul_comm, Z.div_add_l by lia. rewrite Z.div_small by lia. lia.
    - rewrite Z.add_comm, Z.mul_comm, Z.mod_add by lia. apply Z.mod_small. lia. }
  unfold chunk_reach. destruct (kind_of c) eqn:K.
  - assert (EL : zlen (chunk_data c) = 2 * zlen (blocks_of c) + zlen (datas (blocks_of c))).
    { unfold chunk_data. rewrite K. unfold sparse_data. now rewrite zlen_app, zlen_hdrs. }
    rewrite blocks_reach_iff. split.
    + intros (_ & H) b Hb Ab Cb. destruct (Q b Hb) as [Q1 Q2].
      destruct (find_block S (256 * h + b) V Ab Cb) as (pre' & c' & suf' & bpre & vs & bsuf & EC' & _ & EB).
      rewrite Q1, Q2 in *.
      assert (HI' : In (h, c') (chunks_of S)) by (rewrite EC'; apply in_app_iff; right; now left).
      assert (c' = c) by (destruct (part_of S h c V HI), (part_of S h c' V HI'); congruence). subst c'.
      destruct (below_block S pre h c suf bpre b vs bsuf V EC EB) as (_ & E2 & _ & Hv).
      rewrite (bytes_left_eq S pre h c suf bpre b vs bsuf V EC EB), <- E2.
      specialize (H bpre b vs bsuf EB). unfold bread in H.
      destruct (Z.ltb_spec (zlen vs) 31), (Z.leb_spec (zlen vs) 8); lia.
    + intro H. split; [lia|]. intros bpre b vs bsuf EB.
      destruct (below_block S pre h c suf bpre b vs bsuf V EC EB) as (_ & E2 & Hb & Hv).
      destruct (Q b Hb) as [Q1 Q2]. specialize (H b Hb). unfold block_reads in H. rewrite Q1 in H.
      pose proof (kind_rep S h c V HI) as KR. rewrite K in KR. specialize (H KR ltac:(lia)).
      rewrite (bytes_left_eq S pre h c suf bpre b vs bsuf V EC EB), <- E2 in H.
      unfold bread. destruct (Z.ltb_spec (zlen vs) 31), (Z.leb_spec (zlen vs) 8); try lia.
      rewrite zlen_datas_cons in *. cbn [snd] in *. pose proof (zlen_nonneg _ (datas bsuf)).
      unfold bytes_by_cardinality in *. destruct (Z.ltb_spec (zlen vs) 31); lia.
  - split; [|lia]. intros _ b Hb Ab. destruct (Q b Hb) as [Q1 _]. rewrite Q1 in Ab.
    apply (proj1 (rep_kind S h c V HI)) in Ab. congruence.
  - split; [|lia]. intros _ b Hb Ab. destruct (Q b Hb) as [Q1 _]. rewrite Q1 in Ab.
    apply (proj1 (rep_kind S h c V HI)) in Ab. congruence.
Qed.

Lemma decode_reads_iff S n d : valid S -> d + zlen (cdatas (chunks_of S)) <= n ->
  (decode_reads S (n - (d + zlen (cdatas (chunks_of S)))) <-> chunks_reach d (chunks_of S) <= n).
Proof.
  intros V HD. rewrite chunks_reach_iff. split.
  - intro H. split; auto. intros pre h c suf EC.
    set (e := d + zlen (cdatas (chunks_of S))) in *.
    apply (chunk_reach_iff S pre h c suf); auto.
    { rewrite zlen_cdatas_cons. pose proof (zlen_nonneg _ (cdatas suf)). lia. }
    intros b Hb. rewrite zlen_cdatas_cons. replace (n - _) with (n - e) by lia. apply H.
  - intros (_ & H) b Ab Cb.
    destruct (find_block S b V Ab Cb) as (pre & c & suf & bpre & vs & bsuf & EC & K & EB).
    specialize (H pre (b / 256) c suf EC).
    set (e := d + zlen (cdatas (chunks_of S))) in *.
    rewrite (chunk_reach_iff S pre (b / 256) c suf) in H; auto.
    2:{ rewrite zlen_cdatas_cons. pose proof (zlen_nonneg _ (cdatas suf)). lia. }
    specialize (H (b mod 256) ltac:(apply Z.mod_pos_bound; lia)). rewrite zlen_cdatas_cons in H.
    replace (256 * (b / 256) + b mod 256) with b in H by (pose proof (Z.div_mod b 256); lia).
    replace (n - _) with (n - e) in H by lia. exact (H Ab Cb).
Qed.

(** ** the whole sequence *)
Lemma seq_begin_end mem a S s : valid S -> stored 0 mem a S -> seq_at mem a = Ok s ->
  i_data (seq_begin s) + zlen (cdatas (chunks_of S)) = a + zlen (f_sequence S).
Proof.
  intros V St E1. destruct (stored_seq 0 mem a S V St ltac:(lia)) as (s' & Es & En & _).
  rewrite E1 in Es. injection Es as <-.
  unfold seq_at in E1. destruct (rd16 mem a) as [n| | | |] eqn:ER; cbn [bind] in E1; try easy.
  injection E1 as <-. cbn [s_chunks seq_begin i_data s_data] in *.
  rewrite <- layout_format, zlen_layout by auto. change associativity with 32. rewrite En. lia.
Qed.
Lemma c39_decode dbg mem a S out pos :
  valid S -> stored 0 mem a S -> 0 <= pos <= zlen out ->
  let extra := zlen mem - (a + zlen (f_sequence S)) in
  exists s, seq_at mem a = Ok s
    /\ (decode_fits S (zlen out - pos) -> decode_reads S extra ->
          exists out', decode dbg mem s out pos = Ok (out', zlen S) /\ zlen out' = zlen out
            /\ (forall i, 0 <= i < zlen S -> znth out' (pos + i) = znth S i)
            /\ (forall i, i < pos \/ pos + zlen S + 23 <= i -> znth out' i = znth out i))
    /\ (~ (decode_fits S (zlen out - pos) /\ decode_reads S extra) -> decode dbg mem s out pos = UB).
Proof.
  intros H St Hp extra. destruct (stored_seq 0 mem a S H St ltac:(lia)) as (s & Es & En & V & A & B0).
  exists s. split; auto. pose proof (seq_begin_end mem a S s H St Es) as EE. unfold extra. rewrite <- EE.
  rewrite (decode_fits_iff S _ H). assert (HD : i_data (seq_begin s) + zlen (cdatas (chunks_of S)) <= zlen mem).
  { destruct V as (_ & _ & _ & L). lia. }
  rewrite (decode_reads_iff S (zlen mem) (i_data (seq_begin s)) H HD).
  unfold decode. rewrite En, <- length_zlen.
  destruct (valid_chunks S H) as (W & N & U & SC & L).
  pose proof (decode_loop_reach dbg mem (chunks_of S) (seq_begin s) out pos V ltac:(lia) ltac:(lia)) as R. cbn zeta in R.
  rewrite chunks_need_shift in R. revert R.
  destruct (Z.leb_spec (pos + chunks_need 0 (chunks_of S)) (zlen out)),
    (Z.leb_spec (chunks_reach (i_data (seq_begin s)) (chunks_of S)) (zlen mem)); cbn [andb]; intro R.
  2-4: split; [lia|intros _; now rewrite R].
  split; [|lia]. intros _ _. destruct R as (out' & -> & W'). cbn [bind]. exists out'.
  split; [do 2 f_equal; lia|]. now rewrite U in W'.
Qed.
Lemma c39_enough S n : valid S -> 31 <= n -> decode_reads S n.
Proof.
  intros V H b Ab Cb.
  destruct (find_block S b V Ab Cb) as (pre & c & suf & bpre & vs & bsuf & EC & K & EB).
  destruct (below_block S pre _ c suf bpre _ vs bsuf V EC EB) as (_ & E2 & Hb & Hv).
  pose proof (bytes_left_eq S pre _ c suf bpre _ vs bsuf V EC EB) as EL.
  replace (256 * (b / 256) + b mod 256) with b in * by (pose proof (Z.div_mod b 256); lia).
  rewrite zlen_datas_cons in EL. cbn [snd] in EL. pose proof (zlen_nonneg _ (datas bsuf)).
  pose proof (zlen_nonneg _ (cdatas suf)). unfold bytes_by_cardinality in EL.
  rewrite E2 in *. destruct (Z.ltb_spec (card 256 S b) 31); lia.
Qed.

(** ** enumerator *)
Fixpoint visited (cs : list (Z * list Z)) (j : Z) : list (Z * list Z) :=
  match cs with
  | [] => []
  | (id, c) :: cs => if j <? 0 then [] else (id, c) :: visited cs (j - zlen c)
  end.
Definition en_inv0 (mem : list Z) (p : Z) (e : enumerator) (id : Z) (c : list Z) (cs : list (Z * list Z)) (rest : list Z) : Prop :=
  it_view 0 mem (en_it e) ((id, c) :: cs)
    /\ 0 <= en_chunk e /\ en_chunks e = en_chunk e + 1 + zlen cs /\ en_chunks e <= 65535
    /\ en_cardinality e = zlen c /\ 0 <= en_i e < zlen c
    /\ en_past_the_end e = p /\ en_has_next e = true
    /\ zlen (en_buf e) = 65536
    /\ (forall j, 0 <= j < zlen c -> znth (en_buf e) j = znth (ungroup1 65536 (id, c)) j)
    /\ rest = skipn (Z.to_nat (en_i e)) (ungroup1 65536 (id, c)) ++ ungroup 65536 cs.

Lemma blocks_need_le n : forall bs t, Forall wfb1 bs -> t + sum_card bs + 23 <= n -> t <= n -> blocks_need t bs <= n.
Proof.
  induction bs as [|[id vs] bs IH]; intros t W H Ht; cbn [blocks_need]; auto.
  inversion W as [|? ? W1 W2]; subst. pose proof (blocks_wf1_zlen _ _ W1) as Hz.
  change (sum_card ((id, vs) :: bs)) with (zlen vs + sum_card bs) in H. pose proof (sum_card_nonneg bs).
  pose proof (bneed_ge (zlen vs)). specialize (IH (t + zlen vs) W2 ltac:(lia) ltac:(lia)). lia.
Qed.
Lemma chunk_need_buf id c : wfc1 (id, c) -> chunk_need 0 c <= 65536.
Proof.
  intro W. pose proof (chunk_card _ _ W). unfold chunk_need. destruct (kind_of c) eqn:K; try lia.
  apply kind_sparse_card in K. apply blocks_need_le; [apply (blocks_wf _ _ W)| |lia].
  rewrite <- (sum_card_ungroup 256), blocks_ungroup. lia.
Qed.

Lemma enum_start_reach dbg mem it id c cs buf p chunk chunks :
  it_view 0 mem it ((id, c) :: cs) -> zlen buf = 65536 -> 0 <= chunk -> chunks = chunk + 1 + zlen cs ->
  chunks <= 65535 ->
  let r := (let! k := it_cardinality mem it in
     let! (buf, _) := decode_chunk dbg mem it buf 0 in
     Ok (mkEnum it chunk chunks 0 k p true buf)) in
  if chunk_reach (i_data it) c <=? zlen mem then
    exists e', r = Ok e' /\ en_it e' = it /\ en_i e' = 0 /\ en_inv0 mem p e' id c cs (ungroup 65536 ((id, c) :: cs))
  else r = UB.
Proof.
  intros V Hb Hc Hn Hm. pose proof (view_wf _ _ _ _ _ V) as W1. pose proof (chunk_card _ _ W1) as Hcc. cbn zeta.
  rewrite (id_view_cardinality _ _ _ _ _ (proj1 V)). cbn [bind].
  pose proof (decode_chunk_reach dbg mem it id c cs buf 0 V ltac:(lia) ltac:(lia)) as R. cbn zeta in R.
  pose proof (chunk_need_buf id c W1). destruct (Z.leb_spec (chunk_need 0 c) (zlen buf)); [|lia]. cbn [andb] in R.
  destruct (chunk_reach (i_data it) c <=? zlen mem); [|now rewrite R].
  destruct R as (buf' & -> & Wr). cbn [bind]. eexists. split; [reflexivity|]. unfold en_inv0.
  cbn [en_it en_chunk en_chunks en_i en_cardinality en_past_the_end en_has_next en_buf].
  split; auto. split; auto. split; auto. split; auto. split; auto. split; auto. split; auto. split; [lia|]. split; auto. split; auto.
  split; [now rewrite (wrote_zlen _ _ _ _ _ Wr)|]. split.
  - intros j Hj. destruct Wr as (_ & Wr & _). apply (Wr j). rewrite zlen_ungroup1. exact Hj.
  - reflexivity.
Qed.

Lemma enum_value_inv0 mem p e id c cs x rest : en_inv0 mem p e id c cs (x :: rest) -> enum_value e = Ok x.
Proof.
  intros (V & _ & _ & _ & _ & Hi & _ & Hh & _ & Hb & E).
  unfold enum_value. rewrite Hh. apply vget_ok. rewrite Hb by auto.
  destruct (znth_Some _ (ungroup1 65536 (id, c)) (en_i e)) as (y & Ey).
  { now rewrite zlen_ungroup1. }
  rewrite (skipn_znth _ _ _ Ey) in E. injection E as -> _. exact Ey.
Qed.

Lemma enum_steps_reach dbg mem p : forall k e id c cs rest,
  en_inv0 mem p e id c cs rest -> Z.of_nat k < zlen rest + 4294967296 ->
  let r := enum_steps k dbg mem e in
  if chunks_reach (i_data (en_it e) + zlen (chunk_data c)) (visited cs (Z.of_nat k - (zlen c - en_i e))) <=? zlen mem
  then exists e', r = Ok e'
    /\ (if Z.of_nat k <? zlen rest then exists id c cs, en_inv0 mem p e' id c cs (skipn k rest)
        else en_done p e' (Z.of_nat k - zlen rest))
  else r = UB.
Proof.
  induction k; intros e id c cs rest H Hk; cbn zeta; cbn [enum_steps]; pose proof H as H';
    destruct H as (V & Hc0 & Hc1 & Hc2 & Hcard & Hi & Hp & Hh & Hl & Hb & E);
    destruct (znth_Some _ (ungroup1 65536 (id, c)) (en_i e)) as (y & Ey); try (now rewrite zlen_ungroup1);
    rewrite (skipn_znth _ _ _ Ey) in E; cbn [app] in E; pose proof (zlen_nonneg _ cs);
    assert (DL : i_data (en_it e) + zlen (chunk_data c) + zlen (cdatas cs) <= zlen mem)
      by (destruct V as (_ & _ & _ & L); rewrite zlen_cdatas_cons in L; lia);
    pose proof (zlen_nonneg _ (cdatas cs)).
  - assert (VN : visited cs (Z.of_nat 0 - (zlen c - en_i e)) = []).
    { destruct cs as [|[i v] l]; auto. cbn [visited]. destruct (Z.ltb_spec (Z.of_nat 0 - (zlen c - en_i e)) 0); [auto|lia]. }
    rewrite VN. cbn [chunks_reach]. destruct (Z.leb_spec (i_data (en_it e) + zlen (chunk_data c)) (zlen mem)); [|lia].
    exists e. split; auto. rewrite E, zlen_cons. match goal with |- context [zlen ?l + 1] => pose proof (zlen_nonneg _ l) end.
    destruct (Z.ltb_spec (Z.of_nat 0) (zlen (skipn (Z.to_nat (en_i e + 1)) (ungroup1 65536 (id, c)) ++ ungroup 65536 cs) + 1)); [|lia].
    exists id, c, cs. cbn [skipn]. rewrite <- E. exact H'.
  - pose proof (view_wf _ _ _ _ _ V) as W1. pose proof (chunk_card _ _ W1) as Hcc. cbn [snd] in *.
    rewrite E in Hk |- *. cbn [skipn]. rewrite zlen_cons in *.
    unfold enum_next. rewrite Hcard. rewrite u32_id by lia.
    destruct (Z.eqb_spec (en_i e + 1) (zlen c)).
    + rewrite skipn_all2 in * by (rewrite length_zlen, zlen_ungroup1; cbn [snd]; lia). cbn [app] in *.
      rewrite u32_id by lia. rewrite Hc1.
      destruct cs as [|[id2 c2] cs].
      * rewrite zlen_nil. destruct (Z.eqb_spec (en_chunk e + 1) (en_chunk e + 1 + 0)); [|lia]. cbn [bind visited chunks_reach].
        destruct (Z.leb_spec (i_data (en_it e) + zlen (chunk_data c)) (zlen mem)); [|lia].
        change (zlen (ungroup 65536 [])) with 0 in *. cbn [ungroup flat_map].
        match goal with |- context [enum_steps k dbg mem ?x] =>
          destruct (enum_steps_done dbg mem p k x 0) as (e' & Ee & Hd) end; try lia.
        { repeat split; cbn [en_has_next en_past_the_end en_cardinality en_i en_buf]; auto; try lia. rewrite u32_id; lia. }
        exists e'. split; auto. destruct (Z.ltb_spec (Z.of_nat (S k)) (0 + 1)); [lia|].
        replace (Z.of_nat (S k) - (0 + 1)) with (0 + Z.of_nat k) by lia. exact Hd.
      * rewrite zlen_cons in *. zpos.
        destruct (Z.eqb_spec (en_chunk e + 1) (en_chunk e + 1 + (zlen cs + 1))); [lia|].
        destruct (view_next _ _ _ _ _ _ V) as (it' & -> & V2 & _ & _ & ED & _). cbn [bind visited].
        destruct (Z.ltb_spec (Z.of_nat (S k) - (zlen c - en_i e)) 0); [lia|]. cbn [chunks_reach].
        pose proof (enum_start_reach dbg mem it' id2 c2 cs (en_buf e) p (en_chunk e + 1)
          (en_chunk e + 1 + (zlen cs + 1)) V2 Hl ltac:(lia) ltac:(lia) ltac:(lia)) as R. cbn zeta in R.
        rewrite Hh, Hp. rewrite <- ED in *.
        destruct (Z.leb_spec (chunk_reach (i_data it') c2) (zlen mem)).
        -- destruct R as (e' & -> & E1 & E2 & I). cbn [bind].
           specialize (IHk e' id2 c2 cs _ I ltac:(lia)). cbn zeta in IHk. rewrite E1, E2 in IHk.
           replace (Z.of_nat (S k) - (zlen c - en_i e) - zlen c2) with (Z.of_nat k - (zlen c2 - 0)) by lia.
           set (v := visited cs _) in *.
           replace (Z.max (chunk_reach (i_data it') c2) (chunks_reach (i_data it' + zlen (chunk_data c2)) v) <=? zlen mem)
             with (chunks_reach (i_data it' + zlen (chunk_data c2)) v <=? zlen mem)
             by (apply eq_true_iff_eq; rewrite !Z.leb_le; lia).
           destruct (chunks_reach (i_data it' + zlen (chunk_data c2)) v <=? zlen mem); auto.
           destruct IHk as (e'' & -> & HH). exists e''. split; auto.
           destruct (Z.ltb_spec (Z.of_nat k) (zlen (ungroup 65536 ((id2, c2) :: cs)))),
             (Z.ltb_spec (Z.of_nat (S k)) (zlen (ungroup 65536 ((id2, c2) :: cs)) + 1)); try lia; auto.
           replace (Z.of_nat (S k) - (zlen (ungroup 65536 ((id2, c2) :: cs)) + 1))
             with (Z.of_nat k - zlen (ungroup 65536 ((id2, c2) :: cs))) by lia. exact HH.
        -- match goal with |- context [?x <=? zlen mem] => destruct (Z.leb_spec x (zlen mem)); [lia|] end.
           now rewrite R.
    + cbn [bind]. set (rest' := skipn (Z.to_nat (en_i e + 1)) (ungroup1 65536 (id, c)) ++ ungroup 65536 cs) in *.
      assert (I : en_inv0 mem p (mkEnum (en_it e) (en_chunk e) (en_chunks e) (en_i e + 1) (zlen c) (en_past_the_end e)
        (en_has_next e) (en_buf e)) id c cs rest').
      { unfold en_inv0. cbn [en_it en_chunk en_chunks en_i en_cardinality en_past_the_end en_has_next en_buf].
        split; auto. split; auto. split; auto. split; auto. split; auto. split; [lia|]. do 4 (split; auto). }
      specialize (IHk _ id c cs rest' I ltac:(lia)). cbn zeta in IHk. cbn [en_it en_i] in IHk.
      replace (Z.of_nat (S k) - (zlen c - en_i e)) with (Z.of_nat k - (zlen c - (en_i e + 1))) by lia.
      destruct (chunks_reach (i_data (en_it e) + zlen (chunk_data c)) (visited cs (Z.of_nat k - (zlen c - (en_i e + 1)))) <=? zlen mem); auto.
      destruct IHk as (e'' & -> & HH). exists e''. split; auto.
      destruct (Z.ltb_spec (Z.of_nat k) (zlen rest')), (Z.ltb_spec (Z.of_nat (S k)) (zlen rest' + 1)); try lia; auto.
      replace (Z.of_nat (S k) - (zlen rest' + 1)) with (Z.of_nat k - zlen rest') by lia. exact HH.
Qed.

Lemma visited_prefix : forall cs j, exists later, cs = visited cs j ++ later.
Proof.
  induction cs as [|[id c] cs IH]; intro j; [now exists []|]. cbn [visited]. destruct (j <? 0).
  - now exists ((id, c) :: cs).
  - destruct (IH (j - zlen c)) as (l & E). exists l. cbn [app]. now rewrite <- E.
Qed.
Lemma visited_in lim : forall cs j x, wf 65536 lim cs -> cs <> [] -> 0 <= j ->
  znth (ungroup 65536 cs) (Z.min j (zlen (ungroup 65536 cs) - 1)) = Some x ->
  forall g, In g (visited cs j) <-> In g cs /\ fst g <= x / 65536.
Proof.
  induction cs as [|[id c] cs IH]; intros j x W N Hj Ex g; [easy|].
  apply wf_cons in W as (W1 & W & Hlt). cbn [visited]. destruct (Z.ltb_spec j 0); [lia|].
  rewrite ungroup_cons, zlen_app, zlen_ungroup1 in Ex. cbn [snd fst] in *.
  rewrite Forall_forall in Hlt. pose proof (zlen_nonneg _ (ungroup 65536 cs)) as Hu.
  assert (Hc : 1 <= zlen c).
  { destruct W1 as (_ & N1 & _). cbn [snd] in N1. destruct c; [easy|]. rewrite zlen_cons. zpos. lia. }
  destruct (Z_lt_le_dec (Z.min j (zlen c + zlen (ungroup 65536 cs) - 1)) (zlen c)) as [L|L].
  - rewrite znth_app_l in Ex by (rewrite zlen_ungroup1; exact L).
    apply znth_In in Ex. apply (In_ungroup1 65536 lim (id, c) x ltac:(lia) W1) in Ex as [Ex _]. cbn [fst] in Ex.
    rewrite Ex. assert (VN : visited cs (j - zlen c) = []).
    { destruct cs as [|[i v] l]; auto. cbn [visited]. destruct (Z.ltb_spec (j - zlen c) 0); auto.
      rewrite ungroup_cons, zlen_app, zlen_ungroup1 in L. cbn [snd] in L. pose proof (zlen_nonneg _ (ungroup 65536 l)).
      apply wf_cons in W as ((_ & N1 & _) & _). cbn [snd] in N1. destruct v; [easy|]. rewrite zlen_cons in L. zpos. lia. }
    rewrite VN. split.
    + intros [<-|[]]. split; [now left|]. cbn [fst]. lia.
    + intros [[<-|Hg] Hl]; [now left|]. specialize (Hlt _ Hg). cbn beta in Hlt. lia.
  - rewrite znth_app_r in Ex by (rewrite zlen_ungroup1; exact L). rewrite zlen_ungroup1 in Ex. cbn [snd] in Ex.
    assert (NE : cs <> []) by (intros ->; change (zlen (ungroup 65536 [])) with 0 in L; lia).
    replace (Z.min j (zlen c + zlen (ungroup 65536 cs) - 1) - zlen c)
      with (Z.min (j - zlen c) (zlen (ungroup 65536 cs) - 1)) in Ex by lia.
    specialize (IH (j - zlen c) x W NE ltac:(lia) Ex g). cbn [In]. rewrite IH. split.
    + intros [<-|[H1 H2]]; [|tauto]. split; [now left|]. cbn [fst].
      apply znth_In in Ex. unfold ungroup in Ex. apply in_flat_map in Ex as (g1 & I1 & Iv).
      specialize (Hlt _ I1). cbn beta in Hlt. destruct W as [_ W]. rewrite Forall_forall in W.
      apply (In_ungroup1 65536 lim g1 x ltac:(lia) (W _ I1)) in Iv as [Iv _]. lia.
    + intros [[<-|H1] H2]; tauto.
Qed.

Lemma cdatas_app g h : zlen (cdatas (g ++ h)) = zlen (cdatas g) + zlen (cdatas h).
Proof. unfold cdatas. now rewrite flat_map_app, zlen_app. Qed.

Lemma enum_reads_iff S n d k : valid S -> 0 <= k -> d + zlen (cdatas (chunks_of S)) <= n ->
  (enum_reads S k (n - (d + zlen (cdatas (chunks_of S)))) <-> chunks_reach d (visited (chunks_of S) k) <= n).
Proof.
  intros V Hk HD. destruct (valid_chunks S V) as (W & N & U & SC & L).
  destruct (visited_prefix (chunks_of S) k) as (later & EP).
  destruct (znth_Some _ S (Z.min k (zlen S - 1))) as (x & Ex).
  { assert (1 <= zlen S) by (destruct V as (NV & _); destruct S; [easy|]; rewrite zlen_cons; zpos; lia). lia. }
  pose proof Ex as Ex'. rewrite <- U in Ex' at 1. rewrite <- U in Ex' at 2.
  pose proof (visited_in _ _ k x W N Hk Ex') as VI. clear Ex'.
  assert (LE : zlen (cdatas (chunks_of S)) = zlen (cdatas (visited (chunks_of S) k)) + zlen (cdatas later)).
  { rewrite EP at 1. apply cdatas_app. }
  pose proof (zlen_nonneg _ (cdatas later)).
  rewrite chunks_reach_iff. set (e := d + zlen (cdatas (chunks_of S))) in *. split.
  - intro H1. split; [lia|]. intros pre h c suf EC.
    assert (EC2 : chunks_of S = pre ++ (h, c) :: (suf ++ later)).
    { rewrite EP, EC, <- app_assoc. reflexivity. }
    rewrite zlen_cdatas_cons. pose proof (zlen_nonneg _ (cdatas suf)).
    apply (chunk_reach_iff S pre h c (suf ++ later)); auto; [lia|].
    intros b Hb. rewrite cdatas_app. replace (n - _) with (n - e) by lia. apply (H1 _ x Ex).
    replace ((256 * h + b) / 256) with h by (rewrite Z.mul_comm, Z.div_add_l by lia; rewrite Z.div_small by lia; lia).
    apply (VI (h, c)). rewrite EC. apply in_app_iff. right. now left.
  - intros (_ & H1) b x' Ex2 Hx Ab Cb. rewrite Ex in Ex2. injection Ex2 as <-.
    destruct (find_block S b V Ab Cb) as (pre0 & c & suf0 & bpre & vs & bsuf & EC0 & K & EB).
    assert (I : In (b / 256, c) (visited (chunks_of S) k)).
    { apply VI. split; [|exact Hx]. rewrite EC0. apply in_app_iff. right. now left. }
    destruct (in_split _ _ I) as (pre & suf & EC). specialize (H1 pre (b / 256) c suf EC).
    assert (EC2 : chunks_of S = pre ++ (b / 256, c) :: (suf ++ later)).
    { rewrite EP, EC, <- app_assoc. reflexivity. }
    rewrite zlen_cdatas_cons in H1. pose proof (zlen_nonneg _ (cdatas suf)).
    rewrite (chunk_reach_iff S pre (b / 256) c (suf ++ later)) in H1; auto; [|lia].
    specialize (H1 (b mod 256) ltac:(apply Z.mod_pos_bound; lia)). rewrite cdatas_app in H1.
    replace (256 * (b / 256) + b mod 256) with b in H1 by (pose proof (Z.div_mod b 256); lia).
    replace (n - _) with (n - e) in H1 by lia. exact (H1 Ab Cb).
Qed.

Lemma c39_enumerator dbg mem a S p buf k :
  valid S -> stored 0 mem a S -> zlen buf = 65536 -> Z.of_nat k < zlen S + 4294967296 ->
  let extra := zlen mem - (a + zlen (f_sequence S)) in
  exists s, seq_at mem a = Ok s
    /\ (enum_reads S (Z.of_nat k) extra ->
          exists e, (let! e := enum_init dbg mem buf s p in enum_steps k dbg mem e) = Ok e
            /\ (en_has_next e = true <-> Z.of_nat k < zlen S)
            /\ (forall x, znth S (Z.of_nat k) = Some x -> enum_value e = Ok x)
            /\ (zlen S <= Z.of_nat k -> enum_value e = Ok p))
    /\ (~ enum_reads S (Z.of_nat k) extra -> (let! e := enum_init dbg mem buf s p in enum_steps k dbg mem e) = UB).
Proof.
  intros H St Hb Hk extra. destruct (stored_seq 0 mem a S H St ltac:(lia)) as (s & Es & En & V & A & B0).
  exists s. split; auto. pose proof (seq_begin_end mem a S s H St Es) as EE. unfold extra. rewrite <- EE.
  assert (HD : i_data (seq_begin s) + zlen (cdatas (chunks_of S)) <= zlen mem).
  { destruct V as (_ & _ & _ & L). lia. }
  rewrite (enum_reads_iff S (zlen mem) (i_data (seq_begin s)) (Z.of_nat k) H ltac:(lia) HD). clear extra EE.
  destruct (valid_chunks S H) as (W & N & U & SC & L). unfold enum_init.
  destruct (chunks_of S) as [|[id c] cs] eqn:EC; [easy|]. rewrite zlen_cons in En.
  assert (LC : s_chunks s <= 65535).
  { rewrite En. pose proof (chunks_le _ W) as LC. rewrite zlen_cons in LC. exact LC. }
  cbn [visited]. destruct (Z.ltb_spec (Z.of_nat k) 0); [lia|]. cbn [chunks_reach].
  pose proof (enum_start_reach dbg mem (seq_begin s) id c cs buf p 0 (s_chunks s) V Hb ltac:(lia) ltac:(lia) LC) as R.
  cbn zeta in R. set (init := let! k := it_cardinality mem (seq_begin s) in _) in *.
  change (let! c := it_cardinality mem (seq_begin s) in
     let! (buf0, _) := decode_chunk dbg mem (seq_begin s) buf 0 in Ok (mkEnum (seq_begin s) 0 (s_chunks s) 0 c p true buf0)) with init.
  destruct (Z.leb_spec (chunk_reach (i_data (seq_begin s)) c) (zlen mem)).
  2:{ rewrite R. cbn [bind]. split; [lia|auto]. }
  destruct R as (e0 & -> & E1 & E2 & I). cbn [bind].
  rewrite U in I. pose proof (enum_steps_reach dbg mem p k e0 id c cs S I Hk) as R. cbn zeta in R. rewrite E1, E2 in R.
  rewrite Z.sub_0_r in R.
  destruct (Z.leb_spec (chunks_reach (i_data (seq_begin s) + zlen (chunk_data c)) (visited cs (Z.of_nat k - zlen c))) (zlen mem)).
  2:{ split; [lia|auto]. }
  split; [|lia]. intros _. destruct R as (e & Ek & I2). exists e. split; auto.
  destruct (Z.ltb_spec (Z.of_nat k) (zlen S)) as [HL|HL].
  - destruct I2 as (id' & c' & cs' & I2). destruct (znth_Some _ S (Z.of_nat k)) as (x & Ex); [lia|].
    pose proof (skipn_znth S (Z.of_nat k) x Ex) as Es2. rewrite Nat2Z.id in Es2. rewrite Es2 in I2.
    pose proof (enum_value_inv0 _ _ _ _ _ _ _ _ I2) as EV.
    destruct I2 as (_ & _ & _ & _ & _ & _ & _ & Hh & _). rewrite Hh. split; [tauto|]. split; [|lia].
    intros y Ey. congruence.
  - destruct I2 as (Q1 & Q2 & _). unfold enum_value. rewrite Q1. split; [split; [easy|lia]|]. split.
    + intros x Ex. apply znth_lt in Ex. lia.
    + intros _. now rewrite Q2.
Qed.

(** ** examples *)
Definition short_mem (n : nat) : list Z := encA ++ repeat 9 n.
Lemma stored_short n : stored 0 (short_mem n) 0 exA.
Proof.
  exists false, encA. split; [exact encoding_A|]. split.
  - intros i Hi. unfold short_mem. rewrite Z.add_0_l. apply znth_app_l. lia.
  - unfold short_mem. rewrite zlen_app. pose proof (zlen_nonneg _ (repeat 9 n)). lia.
Qed.
Lemma ex_left : bytes_left exA (196608 / 256) = 1.
Proof.
  change (196608 / 256) with (256 * 3 + 0).
  rewrite (bytes_left_eq exA (firstn 2 (chunks_of exA)) 3 [0] [] [] 0 [0] []).
  - reflexivity.
  - exact valid_A.
  - vm_compute. reflexivity.
  - vm_compute. reflexivity.
Qed.
Lemma ex_left' : bytes_left exA (131081 / 256) = 4.
Proof.
  change (131081 / 256) with (256 * 2 + 0).
  rewrite (bytes_left_eq exA (firstn 1 (chunks_of exA)) 2 [9] [(3, [0])] [] 0 [9] []).
  - vm_compute. reflexivity.
  - exact valid_A.
  - vm_compute. reflexivity.
  - vm_compute. reflexivity.
Qed.
Lemma ex_reads : decode_reads exA 15.
Proof.
  assert (E : zlen (cdatas (chunks_of exA)) = 47) by (vm_compute; reflexivity).
  pose proof (decode_reads_iff exA 62 0 valid_A) as R. rewrite E in R.
  apply R; [lia|]. vm_compute. discriminate.
Qed.
Lemma valid_9 : valid (zrange 0 9).
Proof.
  split; [discriminate|]. split.
  - cbn. repeat constructor.
  - repeat constructor; lia.
Qed.
Lemma ex_31 : ~ decode_reads (zrange 0 9) 30.
Proof.
  intro H. specialize (H 0 ltac:(vm_compute; reflexivity) ltac:(vm_compute; reflexivity)) as (_ & H).
  specialize (H ltac:(vm_compute; split; reflexivity)).
  pose proof (bytes_left_eq (zrange 0 9) [] 0 (zrange 0 9) [] [] 0 (zrange 0 9) [] valid_9
    ltac:(vm_compute; reflexivity) ltac:(vm_compute; reflexivity)) as E.
  change (256 * 0 + 0) with 0 in E. rewrite E in H. revert H. vm_compute. congruence.
Qed.
