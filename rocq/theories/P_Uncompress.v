(** uncompress, and the chunk-wise intersection and merge with a bitmap. *)
From Verif Require Import Base Hw Spec Lib L_Bits L_Group Layout M_Util M_Seq M_Uncompress
  P_Build1 P_Build2 P_Build3 P_Seq P_Decode P_Query.

(** [out'] is [out] except for the words pos .. pos+n-1 *)
Definition same_outside (out out' : list Z) (pos n : Z) : Prop :=
  zlen out' = zlen out /\ forall i, i < pos \/ pos + n <= i -> znth out' i = znth out i.

Lemma same_outside_refl out pos n : same_outside out out pos n.
Proof. split; auto. Qed.
Lemma same_outside_trans out1 out2 out3 pos n :
  same_outside out1 out2 pos n -> same_outside out2 out3 pos n -> same_outside out1 out3 pos n.
Proof. intros [L1 H1] [L2 H2]. split; [congruence|]. intros i Hi. now rewrite H2, H1. Qed.
Lemma same_outside_sub out out' pos n pos' n' :
  same_outside out out' pos n -> pos' <= pos -> pos + n <= pos' + n' -> same_outside out out' pos' n'.
Proof. intros [L H] H1 H2. split; auto. intros i Hi. apply H. lia. Qed.

Lemma memb_map_add k l x : memb (map (fun v => k + v) l) x = memb l (x - k).
Proof.
  apply memb_iff. rewrite in_map_iff. split.
  - intros (y & <- & Hy). now replace (k + y - k) with y by lia.
  - intro H. exists (x - k). split; auto. lia.
Qed.

(** ** blocks *)
Lemma uncompress_sparse_block_loop_ok mem vs : forall data out pos n f off,
  vs <> [] -> bytes_at mem data vs -> Forall (fun x => 0 <= x < 256) vs ->
  0 <= pos -> pos + n <= zlen out -> 0 <= off -> off + 4 <= n -> bm_at (reg out pos) n f ->
  exists out', uncompress_sparse_block_loop (length vs) mem data (data + zlen vs) out (pos + off) = Ok out'
    /\ bm_at (reg out' pos) n (fun x => f x || memb (map (fun v => 64 * off + v) vs) x)
    /\ same_outside out out' pos n.
Proof.
  induction vs as [|v vs IH]; intros data out pos n f off N B R Hp Hl Ho Hn Hb; [easy|].
  apply bytes_at_cons in B as [B0 B]. inversion R as [|? ? Hv R']; subst.
  cbn [length uncompress_sparse_block_loop]. rewrite (rd8_znth _ _ _ B0). cbn [bind].
  unfold shrx. change (6 mod 64) with 6. rewrite Z.shiftr_div_pow2 by lia. change (2 ^ 6) with 64.
  destruct (reg_set out pos n f (64 * off + v)) as (w & out1 & E1 & E2 & E3 & E4 & E5); auto; [lia|].
  replace (pos + (64 * off + v) / 64) with (pos + off + v / 64) in E1, E2 by lia.
  replace ((64 * off + v) mod 64) with (v mod 64) in E2 by lia.
  rewrite E1. cbn [bind]. unfold bts. rewrite Z.shiftl_1_l, E2. cbn [bind].
  rewrite zlen_cons. destruct vs as [|v2 vs].
  - rewrite zlen_nil. destruct (Z.eqb_spec (data + 1) (data + (0 + 1))); [|lia].
    exists out1. split; auto. split; [|split; auto].
    eapply bm_at_ext; [exact E3|]. intros x _. cbn beta. f_equal. cbn. now rewrite orb_false_r.
  - assert (0 < zlen (v2 :: vs)) by zl. destruct (Z.eqb_spec (data + 1) (data + (zlen (v2 :: vs) + 1))); [lia|].
    destruct (IH (data + 1) out1 pos n _ off ltac:(easy) B R' Hp ltac:(lia) Ho Hn E3) as (out2 & E & B2 & S2).
    replace (data + (zlen (v2 :: vs) + 1)) with (data + 1 + zlen (v2 :: vs)) by lia.
    exists out2. split; auto. split.
    + eapply bm_at_ext; [exact B2|]. intros x _. cbn beta. rewrite <- orb_assoc. f_equal.
    + eapply same_outside_trans; eauto. split; auto.
Qed.
Lemma uncompress_sparse_block_ok mem vs data out pos n f off :
  vs <> [] -> bytes_at mem data vs -> Forall (fun x => 0 <= x < 256) vs ->
  0 <= pos -> pos + n <= zlen out -> 0 <= off -> off + 4 <= n -> bm_at (reg out pos) n f ->
  exists out', uncompress_sparse_block mem data (zlen vs) out (pos + off) = Ok out'
    /\ bm_at (reg out' pos) n (fun x => f x || memb vs (x - 64 * off))
    /\ same_outside out out' pos n.
Proof.
  intros. unfold uncompress_sparse_block. rewrite <- length_zlen.
  destruct (uncompress_sparse_block_loop_ok mem vs data out pos n f off) as (out' & E & B & S); auto.
  exists out'. split; auto. split; auto. eapply bm_at_ext; [exact B|].
  intros x _. cbn beta. now rewrite memb_map_add.
Qed.

Lemma load_words_ok mem g : forall (k : nat) a,
  (forall i, 0 <= i < Z.of_nat k -> exists w, rd64 mem (a + 8 * i) = Ok w /\ w64 w
     /\ forall j, 0 <= j < 64 -> Z.testbit w j = g (64 * i + j)) ->
  exists ws, load_words k mem a = Ok ws /\ zlen ws = Z.of_nat k
    /\ forall i, 0 <= i < Z.of_nat k -> exists w, znth ws i = Some w /\ rd64 mem (a + 8 * i) = Ok w.
Proof.
  intros k a H. assert (H' : forall i, 0 <= i < Z.of_nat k -> exists w, rd64 mem (a + 8 * i) = Ok w).
  { intros i Hi. destruct (H i Hi) as (w & E & _). eauto. }
  clear H. revert a H'. induction k; intros a H; cbn [load_words].
  - exists []. split; auto. split; auto. lia.
  - destruct (H 0 ltac:(lia)) as (w & E). replace (a + 8 * 0) with a in E by lia. rewrite E. cbn [bind].
    destruct (IHk (a + 8)) as (ws & -> & L & W).
    { intros i Hi. destruct (H (i + 1) ltac:(lia)) as (w' & E'). exists w'. rewrite <- E'. f_equal. lia. }
    cbn [bind]. exists (w :: ws). split; auto. split; [zl|].
    intros i Hi. destruct (Z.eq_dec i 0) as [->|].
    + exists w. split; auto. now replace (a + 8 * 0) with a by lia.
    + destruct (W (i - 1) ltac:(lia)) as (w' & E1 & E2). exists w'. rewrite znth_cons_pos by lia. split; auto.
      rewrite <- E2. f_equal. lia.
Qed.

Lemma memcpy_words_ok mem a k g out pos :
  bm_at (words_mem mem a) k g -> 0 <= k -> 0 <= pos -> pos + k <= zlen out ->
  exists out', memcpy_words mem a k out pos = Ok out' /\ bm_at (reg out' pos) k g
    /\ same_outside out out' pos k.
Proof.
  intros B Hk Hp Hl. unfold memcpy_words.
  destruct (load_words_ok mem g (Z.to_nat k) a) as (ws & -> & L & W).
  { intros i Hi. apply (B i). lia. }
  cbn [bind]. rewrite Z2Nat.id in * by lia.
  destruct (store_ok out pos ws) as (out' & E & W1 & W2 & W3); auto; [lia|].
  exists out'. split; auto. split; [|split; auto; rewrite <- L; intros i Hi; apply W3; lia].
  intros i Hi. destruct (B i Hi) as (w & E1 & H64 & T). exists w. split; auto.
  destruct (W i Hi) as (w' & E2 & E3). unfold reg. apply vget_ok. rewrite W2 by lia. rewrite E2.
  unfold words_mem in E1. congruence.
Qed.

(** replacing [k] words inside a region *)
Lemma bm_at_sub out out' pos n f k off g :
  bm_at (reg out pos) n f -> bm_at (reg out' (pos + off)) k g -> same_outside out out' (pos + off) k ->
  0 <= off -> off + k <= n ->
  bm_at (reg out' pos) n (fun x => if (64 * off <=? x) && (x <? 64 * (off + k)) then g (x - 64 * off) else f x).
Proof.
  intros B G [L Sm] Ho Hn i Hi.
  destruct (Z_lt_le_dec i off).
  - destruct (B i Hi) as (w & E & H64 & T). exists w. unfold reg, vget in *. rewrite Sm by lia.
    split; auto. split; auto. intros j Hj. rewrite T by lia.
    destruct (Z.leb_spec (64 * off) (64 * i + j)); [lia|reflexivity].
  - destruct (Z_lt_le_dec i (off + k)).
    + destruct (G (i - off) ltac:(lia)) as (w & E & H64 & T). exists w. unfold reg in *.
      replace (pos + off + (i - off)) with (pos + i) in E by lia. split; auto. split; auto.
      intros j Hj. rewrite T by lia.
      destruct (Z.leb_spec (64 * off) (64 * i + j)); [|lia].
      destruct (Z.ltb_spec (64 * i + j) (64 * (off + k))); [|lia]. cbn [andb]. f_equal. lia.
    + destruct (B i Hi) as (w & E & H64 & T). exists w. unfold reg, vget in *. rewrite Sm by lia.
      split; auto. split; auto. intros j Hj. rewrite T by lia.
      destruct (Z.ltb_spec (64 * i + j) (64 * (off + k))); [lia|]. now rewrite andb_false_r.
Qed.

(** ** a sparse chunk *)
Lemma uncompress_sparse_chunk_loop_ok mem bs : forall begin data prev out pos f,
  blocks_at mem begin data bs -> 0 <= pos -> pos + 1024 <= zlen out ->
  bm_at (reg out pos) 1024 f ->
  (forall b x, In b bs -> x / 256 = fst b -> f x = false) ->
  exists out', uncompress_sparse_chunk_loop (length bs) mem begin data (pos + 4 * prev) prev out = Ok out'
    /\ bm_at (reg out' pos) 1024 (fun x => f x || memb (ungroup 256 bs) x)
    /\ same_outside out out' pos 1024.
Proof.
  induction bs as [|[id vs] bs IH]; intros begin data prev out pos f B Hp Hl Hb Hf.
  - exists out. split; auto. split; auto using same_outside_refl.
    eapply bm_at_ext; eauto. intros x _. cbn. now rewrite orb_false_r.
  - pose proof (proj1 B) as W.
    apply blocks_at_cons in B as (W1 & E1 & E2 & D & B & HF).
    pose proof (blocks_wf1_zlen _ _ W1) as Hz. pose proof W1 as (Hid & N & Hs & Hr). cbn [fst snd] in *.
    cbn [length uncompress_sparse_chunk_loop]. rewrite E1. cbn [bind]. rewrite E2. cbn [bind].
    replace (zlen vs - 1 + 1) with (zlen vs) by lia.
    replace (pos + 4 * prev + (id - prev) * block_size_in_64bit_words) with (pos + 4 * id)
      by (change block_size_in_64bit_words with 4; lia).
    assert (R : exists out1,
      (if block_type (zlen vs) =? t_sparse
       then uncompress_sparse_block mem data (zlen vs) out (pos + 4 * id)
       else uncompress_dense_block mem data out (pos + 4 * id)) = Ok out1
      /\ bm_at (reg out1 pos) 1024 (fun x => f x || memb (ungroup1 256 (id, vs)) x)
      /\ same_outside out out1 pos 1024).
    { unfold block_type. destruct (Z.ltb_spec (zlen vs) 31) as [L31|L31].
      - rewrite Z.eqb_refl.
        destruct (uncompress_sparse_block_ok mem vs data out pos 1024 f (4 * id)) as (out1 & E & B1 & S1);
          auto; try lia. { apply block_sparse; auto. }
        exists out1. split; auto. split; auto. eapply bm_at_ext; [exact B1|].
        intros x _. cbn beta. f_equal. unfold ungroup1. cbn [fst snd]. rewrite memb_map_add. f_equal. lia.
      - cbn [t_dense t_sparse Z.eqb Pos.eqb]. unfold uncompress_dense_block.
        change (block_size / 8 / 8) with 4.
        destruct (memcpy_words_ok mem data 4 (memb vs) out (pos + 4 * id)) as (out1 & E & B1 & S1); try lia.
        { apply block_dense; auto. }
        exists out1. split; auto. split; [|eapply same_outside_sub; eauto; lia].
        pose proof (bm_at_sub _ _ _ _ _ _ _ _ Hb B1 S1 ltac:(lia) ltac:(lia)) as B2.
        eapply bm_at_ext; [exact B2|]. intros x _. cbn beta. unfold ungroup1. cbn [fst snd].
        rewrite memb_map_add.
        destruct (Z.leb_spec (64 * (4 * id)) x), (Z.ltb_spec x (64 * (4 * id + 4))); cbn [andb].
        + rewrite (Hf (id, vs) x); [|cbn; auto|cbn [fst]; lia]. cbn [orb]. f_equal. lia.
        + replace (memb vs (x - id * 256)) with false; [now rewrite orb_false_r|].
          symmetry. apply memb_false. intro Hi. rewrite Forall_forall in Hr. specialize (Hr _ Hi). lia.
        + replace (memb vs (x - id * 256)) with false; [now rewrite orb_false_r|].
          symmetry. apply memb_false. intro Hi. rewrite Forall_forall in Hr. specialize (Hr _ Hi). lia.
        + lia. }
    destruct R as (out1 & -> & B1 & S1). cbn [bind].
    destruct (IH (begin + 2) (data + bytes_by_cardinality (zlen vs)) id out1 pos _ B Hp ltac:(destruct S1; lia) B1)
      as (out2 & E & B2 & S2).
    { intros b x Hbi Hx. cbn beta. rewrite (Hf b x); [|cbn; auto|auto]. cbn [orb].
      rewrite (memb_ungroup1 256 256) by (auto; lia). cbn [fst].
      rewrite Forall_forall in HF. specialize (HF b Hbi). destruct (Z.eqb_spec id (x / 256)); auto; lia. }
    exists out2. split; auto. split; [|eapply same_outside_trans; eauto].
    eapply bm_at_ext; [exact B2|]. intros x _. cbn beta.
    rewrite ungroup_cons, memb_app, orb_assoc. reflexivity.
Qed.

Lemma uncompress_sparse_chunk_ok dbg mem slack it id c cs out pos :
  it_view slack mem it ((id, c) :: cs) -> kind_of c = KSparse ->
  0 <= pos -> pos + 1024 <= zlen out -> bm_at (reg out pos) 1024 (fun _ => false) ->
  exists out', uncompress_sparse_chunk dbg mem (i_data it) (zlen (blocks_of c)) out pos = Ok out'
    /\ bm_at (reg out' pos) 1024 (memb c) /\ same_outside out out' pos 1024.
Proof.
  intros V K Hp Hl Hb. destruct (view_sparse _ _ _ _ _ _ V K) as (B & Hn & Hd & Hm).
  unfold uncompress_sparse_chunk.
  rewrite assert_ok by (apply andb_true_intro; split; apply Z.leb_le; lia). cbn [bind].
  rewrite <- length_zlen.
  replace (i_data it + zlen (blocks_of c) * 2) with (i_data it + 2 * zlen (blocks_of c)) by lia.
  destruct (uncompress_sparse_chunk_loop_ok mem (blocks_of c) (i_data it) (i_data it + 2 * zlen (blocks_of c))
    0 out pos (fun _ => false)) as (out' & E & B' & S'); auto.
  replace (pos + 4 * 0) with pos in E by lia. exists out'. split; auto. split; auto.
  eapply bm_at_ext; [exact B'|]. intros x _. cbn beta. now rewrite blocks_ungroup.
Qed.

Lemma fill_loop_ok x : forall n i out pos,
  0 <= pos + i -> pos + i + Z.of_nat n <= zlen out ->
  exists out', fill_loop n i x out pos = Ok out' /\ wrote 0 out (pos + i) (repeat x n) out'.
Proof.
  induction n; intros i out pos H1 H2; cbn [fill_loop repeat].
  - exists out. split; auto. apply wrote_nil. lia.
  - destruct (vset_ok out (pos + i) x) as (out1 & -> & W1); [lia|]. cbn [bind].
    destruct (IHn (i + 1) out1 pos) as (out2 & E & W2); try (rewrite ?(wrote_zlen _ _ _ _ _ W1); lia).
    exists out2. split; auto. eapply wrote_cons; eauto; [lia|].
    now replace (pos + i + 1) with (pos + (i + 1)) by lia.
Qed.
Lemma fill_ok x b n out pos :
  w64 x -> (forall j, 0 <= j < 64 -> Z.testbit x j = b) ->
  0 <= pos -> pos + Z.of_nat n <= zlen out ->
  exists out', fill_loop n 0 x out pos = Ok out' /\ bm_at (reg out' pos) (Z.of_nat n) (fun _ => b)
    /\ same_outside out out' pos (Z.of_nat n).
Proof.
  intros H64 T Hp Hl. destruct (fill_loop_ok x n 0 out pos) as (out' & E & W1 & W2 & W3); try lia.
  rewrite Z.add_0_r, ?zlen_repeat in *. exists out'. split; auto. split.
  - intros i Hi. exists x. split; auto. unfold reg. apply vget_ok. rewrite W2 by lia. now apply znth_repeat.
  - split; auto. intros i Hi. apply W3. lia.
Qed.
Lemma testbit_ones64 j : 0 <= j < 64 -> Z.testbit (u64 (-1)) j = true.
Proof. intro H. change (u64 (-1)) with (Z.ones 64). apply Z.ones_spec_low. lia. Qed.

Lemma full_memb id c x : wfc1 (id, c) -> kind_of c = KFull -> 0 <= x < 65536 -> memb c x = true.
Proof. intros W K H. apply memb_In. rewrite (kind_full _ _ W K). apply In_zrange. lia. Qed.

Lemma uncompress_chunk_ok dbg mem slack it id c cs out pos :
  it_view slack mem it ((id, c) :: cs) -> 0 <= pos -> pos + 1024 <= zlen out ->
  exists out', uncompress_chunk dbg mem it out pos = Ok (out', zlen c)
    /\ bm_at (reg out' pos) 1024 (memb c) /\ same_outside out out' pos 1024.
Proof.
  intros V Hp Hl. pose proof (view_wf _ _ _ _ _ V) as W1.
  unfold uncompress_chunk. rewrite (id_view_type _ _ _ _ _ (proj1 V)). cbn [bind].
  rewrite (id_view_cardinality _ _ _ _ _ (proj1 V)).
  destruct (kind_of c) eqn:K.
  - rewrite Z.eqb_refl.
    destruct (fill_ok 0 false (Z.to_nat 1024) out pos) as (out1 & -> & B1 & S1);
      rewrite ?Z2Nat.id in * by lia; auto; try lia; [unfold w64; lia|intros; apply Z.bits_0|].
    cbn [bind]. rewrite (id_view_blocks _ _ _ _ _ (proj1 V) K). cbn [bind].
    destruct (uncompress_sparse_chunk_ok dbg mem slack it id c cs out1 pos) as (out2 & -> & B2 & S2);
      auto; [destruct S1; lia|].
    cbn [bind]. exists out2. split; auto. split; auto. eapply same_outside_trans; eauto.
  - cbn [t_dense t_sparse Z.eqb Pos.eqb]. unfold uncompress_dense_chunk.
    change (M_Util.chunk_size / 8 / 8) with 1024.
    destruct (memcpy_words_ok mem (i_data it) 1024 (memb c) out pos) as (out1 & -> & B1 & S1); auto; try lia.
    { eapply view_dense; eauto. }
    cbn [bind]. exists out1. auto.
  - cbn [t_full t_dense t_sparse Z.eqb Pos.eqb]. unfold uncompress_full_chunk.
    change (Z.to_nat M_Util.chunk_size_in_64bit_words) with (Z.to_nat 1024).
    destruct (fill_ok (u64 (-1)) true (Z.to_nat 1024) out pos) as (out1 & -> & B1 & S1);
      rewrite ?Z2Nat.id in * by lia; auto; try lia.
    { unfold w64, u64. apply Z.mod_pos_bound. lia. }
    { apply testbit_ones64. }
    cbn [bind]. exists out1. split; auto. split; auto. eapply bm_at_ext; [exact B1|].
    intros x Hx. symmetry. eapply full_memb; eauto.
Qed.

(** ** the whole sequence *)
Definition last_id (cs : list (Z * list Z)) : Z := fst (last cs (0, [])).

Lemma last_id_cons ch cs : wfc (ch :: cs) -> fst ch <= last_id (ch :: cs).
Proof.
  revert ch. induction cs as [|ch2 cs IH]; intros ch W; [reflexivity|].
  apply wf_cons in W as (_ & W & F). specialize (IH ch2 W). inversion F; subst.
  unfold last_id in *. cbn [last] in *. lia.
Qed.

Lemma uncompress_loop_ok dbg mem slack cs : forall it prev u out pos0,
  it_view slack mem it cs -> 0 <= pos0 -> (cs <> [] -> pos0 + 1024 * (last_id cs + 1) <= zlen out) ->
  exists out', uncompress_loop (length cs) dbg mem it prev u out (pos0 + 1024 * prev)
      = Ok (out', u + sum_card cs)
    /\ zlen out' = zlen out
    /\ (forall id c, In (id, c) cs -> bm_at (reg out' (pos0 + 1024 * id)) 1024 (memb c))
    /\ (forall i, (forall id c, In (id, c) cs -> i < pos0 + 1024 * id \/ pos0 + 1024 * id + 1024 <= i) ->
          znth out' i = znth out i).
Proof.
  induction cs as [|[id c] cs IH]; intros it prev u out pos0 V Hp Hl.
  - exists out. cbn [length uncompress_loop]. rewrite Z.add_0_r. repeat split; auto. easy.
  - cbn [length uncompress_loop]. rewrite (id_view_id _ _ _ (proj1 V)). cbn [bind fst].
    pose proof (proj1 (proj1 V)) as W. pose proof W as W0. apply wf_cons in W as (W1 & W & F). pose proof W1 as (Hid & _).
    cbn [fst] in *. rewrite u16_id by lia.
    change M_Util.chunk_size_in_64bit_words with 1024.
    replace (pos0 + 1024 * prev + (id - prev) * 1024) with (pos0 + 1024 * id) by lia.
    specialize (Hl ltac:(easy)). pose proof (last_id_cons _ _ W0) as Hli. cbn [fst] in Hli.
    destruct (uncompress_chunk_ok dbg mem slack it id c cs out (pos0 + 1024 * id)) as (out1 & -> & B1 & L1 & S1);
      auto; try lia.
    cbn [bind]. destruct (view_next _ _ _ _ _ _ V) as (it' & -> & V' & _). cbn [bind].
    destruct (IH it' id (u + zlen c) out1 pos0 V' Hp) as (out2 & -> & L2 & B2 & S2).
    { intro N. rewrite L1. destruct cs; [easy|]. exact Hl. }
    exists out2. split; [cbn [sum_card fold_right snd]; f_equal; f_equal; unfold sum_card; lia|].
    split; [congruence|]. rewrite Forall_forall in F. split.
    + intros id' c' [[= <- <-]|Hi]; [|auto].
      intros k Hk. destruct (B1 k Hk) as (w & E & Hw). exists w. split; auto.
      unfold reg, vget in *. rewrite S2; auto.
      intros id2 c2 Hi2. specialize (F _ Hi2). cbn [fst] in F. lia.
    + intros i Hi. rewrite S2, S1; auto.
      * apply (Hi id c). cbn; auto.
      * intros. eapply Hi. cbn; eauto.
Qed.

Lemma last_id_max S m : valid S -> last S 0 = m -> last_id (chunks_of S) = m / 65536.
Proof.
  intros H E. destruct (valid_chunks S H) as (W & N & U & _).
  destruct (exists_last N) as (pre & [id c] & EC). unfold last_id. rewrite EC, last_last. cbn [fst].
  rewrite EC in U, W. rewrite ungroup_app in U. cbn [ungroup flat_map] in U.
  apply wf_app in W as [_ W]. apply wf_cons in W as (W1 & _). pose proof W1 as (_ & Nc & _ & R).
  cbn [snd] in *. destruct (exists_last Nc) as (c0 & x & ->).
  unfold ungroup1 in U. cbn [fst snd] in U. rewrite map_app, app_nil_r, app_assoc in U. cbn [map] in U.
  rewrite <- U, last_last in E. apply Forall_app in R as [_ R]. inversion R; subst. lia.
Qed.

(** the words of the result, described without chunks *)
Lemma uncompress_ok dbg mem a S out pos :
  valid S -> stored 0 mem a S -> 0 <= pos -> pos + 1024 * (last S 0 / 65536 + 1) <= zlen out ->
  exists s out', seq_at mem a = Ok s /\ uncompress dbg mem s out pos = Ok (out', zlen S)
    /\ zlen out' = zlen out
    /\ forall i,
         if (0 <=? i) && existsb (fun v => v / 65536 =? i / 1024) S
         then exists w, znth out' (pos + i) = Some w /\ 0 <= w < 2 ^ 64
              /\ forall j, 0 <= j < 64 -> Z.testbit w j = existsb (Z.eqb (64 * i + j)) S
         else znth out' (pos + i) = znth out (pos + i).
Proof.
  intros H St Hp Hl. destruct (stored_seq 0 mem a S H St ltac:(lia)) as (s & Es & En & V & A & B0).
  destruct (valid_chunks S H) as (W & N & U & SC & L). unfold uncompress.
  destruct (uncompress_loop_ok dbg mem 0 (chunks_of S) (seq_begin s) 0 0 out pos V Hp) as (out' & E & L' & B & F).
  { intros _. rewrite (last_id_max S (last S 0)); auto. }
  replace (pos + 1024 * 0) with pos in E by lia.
  exists s, out'. split; auto. rewrite En, <- length_zlen. rewrite E. cbn [bind]. rewrite assert_ok.
  2:{ apply Z.ltb_lt. destruct H as (NS & _). rewrite Z.add_0_l, SC. destruct S; [easy|zl]. }
  cbn [bind]. split; [do 2 f_equal; lia|]. split; auto. intro i.
  destruct ((0 <=? i) && existsb (fun v => v / 65536 =? i / 1024) S) eqn:Ei.
  - apply andb_prop in Ei as [Hi Ei]. apply Z.leb_le in Hi.
    apply existsb_exists in Ei as (v & Hv & Ev). apply Z.eqb_eq in Ev.
    pose proof Hv as Hv0. rewrite <- U in Hv0. apply (In_ungroup_id 65536 65535) in Hv0; auto; [|lia].
    apply in_map_iff in Hv0 as ((id & c) & Eid & Hc). cbn [fst] in Eid. subst id.
    destruct (B _ _ Hc (i mod 1024)) as (w & Ew & H64 & T); [lia|].
    unfold reg in Ew. rewrite Ev in Ew. replace (pos + 1024 * (i / 1024) + i mod 1024) with (pos + i) in Ew by lia.
    exists w. unfold vget in Ew. destruct (znth out' (pos + i)) as [w'|]; [|easy]. injection Ew as ->.
    split; auto. split; [exact H64|]. intros j Hj. rewrite T by lia.
    rewrite <- U. fold (memb (ungroup 65536 (chunks_of S)) (64 * i + j)).
    apply in_split in Hc as (pre & suf & EC). rewrite EC in W |- *.
    rewrite ungroup_app, memb_app.
    assert (Ed : (64 * i + j) / 65536 = i / 1024) by lia.
    rewrite (memb_ungroup_none 65536 65535 pre); [|lia|now apply wf_app in W|].
    2:{ apply Forall_forall. intros b Hb. pose proof (wf_app_lt _ _ _ _ b _ W Hb (in_eq _ _)) as Hlt.
        cbn [fst] in Hlt. lia. }
    cbn [orb]. apply wf_app in W as [_ W]. rewrite (memb_ungroup_cons 65536 65535) by (auto; lia).
    rewrite (memb_ungroup_none 65536 65535 suf); [|lia|apply wf_cons in W; apply W|].
    2:{ apply wf_cons in W as (_ & _ & W). eapply Forall_impl; [|exact W]. cbn [fst]. intros b Hb. lia. }
    rewrite orb_false_r. cbn [fst snd]. rewrite Ed, Ev, Z.eqb_refl. cbn [andb]. f_equal. lia.
  - apply F. intros id c Hc. destruct (Z_lt_le_dec (pos + i) (pos + 1024 * id)); auto.
    destruct (Z_lt_le_dec (pos + i) (pos + 1024 * id + 1024)); auto. exfalso.
    assert (W1 : wf1 65536 65535 (id, c)) by (destruct W as [_ W]; rewrite Forall_forall in W; auto).
    destruct W1 as (Hid & Nc & _ & R). cbn [fst snd] in *. destruct c as [|x c]; [easy|]. inversion R; subst.
    apply andb_false_iff in Ei as [Ei|Ei]; [apply Z.leb_gt in Ei; lia|].
    assert (E1 : existsb (fun v => v / 65536 =? i / 1024) S = true); [|congruence].
    apply existsb_exists. exists (id * 65536 + x). split; [|apply Z.eqb_eq; lia].
    rewrite <- U. unfold ungroup. apply in_flat_map. exists (id, x :: c). split; auto. cbn. auto.
Qed.

(** ** word-wise and / or with a chunk *)
Lemma and_words_loop_ok word g : forall (n : nat) i c out f,
  (forall k, i <= k < i + Z.of_nat n -> exists w, word k = Ok w /\ w64 w
     /\ forall j, 0 <= j < 64 -> Z.testbit w j = g (64 * k + j)) ->
  bm_at (reg out 0) (i + Z.of_nat n) f -> 0 <= i -> i + Z.of_nat n <= zlen out ->
  0 <= c -> c + 64 * Z.of_nat n < 4294967296 ->
  exists out', and_words_loop n word i c out
      = Ok (out', c + zlen (filter (fun x => f x && g x) (zrange (64 * i) (64 * n))))
    /\ bm_at (reg out' 0) (i + Z.of_nat n) (fun x => if x <? 64 * i then f x else f x && g x)
    /\ same_outside out out' i (Z.of_nat n).
Proof.
  induction n; intros i c out f Hw B Hi Hl Hc Hb.
  - exists out. cbn [and_words_loop]. rewrite zlen_nil, Z.add_0_r. split; auto. split.
    + eapply bm_at_ext; eauto. intros x Hx. destruct (Z.ltb_spec x (64 * i)); auto; lia.
    + apply same_outside_refl.
  - replace (64 * S n)%nat with (64 + 64 * n)%nat by lia. rewrite zrange_app, filter_app.
    replace (64 * i + Z.of_nat 64) with (64 * (i + 1)) by lia.
    cbn [and_words_loop]. destruct (B i ltac:(lia)) as (o & Eo & Ho & To). unfold reg in Eo.
    cbn [Z.add] in Eo. rewrite Eo. cbn [bind].
    destruct (Hw i ltac:(lia)) as (w & -> & H64 & T). cbn [bind].
    assert (A64 : w64 (Z.land o w)).
    { apply w64_of_bits; [apply Z.land_nonneg; left; apply Ho|].
      intros j Hj. rewrite Z.land_spec, (w64_testbit_high o) by auto. reflexivity. }
    assert (TA : forall j, 0 <= j < 64 -> Z.testbit (Z.land o w) j = f (64 * i + j) && g (64 * i + j)).
    { intros j Hj. now rewrite Z.land_spec, To, T. }
    destruct (vset_ok out i (Z.land o w)) as (out1 & -> & L1 & W1 & W1'); [lia|]. cbn [bind].
    rewrite (bits_filter (Z.land o w) (fun x => f x && g x) i A64 TA).
    rewrite popcount_bits by auto.
    pose proof (bits_length (Z.land o w)) as BL. assert (BZ : 0 <= zlen (bits (Z.land o w)) <= 64) by (unfold zlen; lia).
    rewrite u32_id by lia.
    destruct (IHn (i + 1) (c + zlen (bits (Z.land o w))) out1 (fun x => if x <? 64 * (i + 1) then (if x <? 64 * i then f x else f x && g x) else f x))
      as (out2 & -> & B2 & S2); try lia.
    { intros k Hk. apply Hw. lia. }
    { intros k Hk. unfold reg, vget in *. cbn [Z.add] in *. destruct (Z.eq_dec k i) as [->|].
      - exists (Z.land o w). specialize (W1 0 ltac:(zl)). rewrite Z.add_0_r in W1. rewrite W1.
        split; auto. split; auto. intros j Hj. rewrite TA by auto.
        destruct (Z.ltb_spec (64 * i + j) (64 * (i + 1))); [|lia].
        destruct (Z.ltb_spec (64 * i + j) (64 * i)); [lia|reflexivity].
      - destruct (B k ltac:(lia)) as (o' & Eo' & Ho' & To'). exists o'. rewrite W1' by zl. cbn [Z.add] in Eo'.
        split; auto. split; auto. intros j Hj. rewrite To' by auto.
        destruct (Z.ltb_spec (64 * k + j) (64 * (i + 1))), (Z.ltb_spec (64 * k + j) (64 * i)); auto; lia. }
    exists out2. split.
    { rewrite zlen_app, zlen_map, Z.add_assoc.
      rewrite (filter_ext_in _ (fun x => f x && g x)); [reflexivity|].
      intros x Hx%In_zrange. destruct (Z.ltb_spec x (64 * (i + 1))); [lia|]. reflexivity. }
    split.
    + replace (i + Z.of_nat (S n)) with (i + 1 + Z.of_nat n) by lia.
      eapply bm_at_ext; [exact B2|]. intros x Hx. cbn beta.
      destruct (Z.ltb_spec x (64 * (i + 1))), (Z.ltb_spec x (64 * i)); auto; lia.
    + destruct S2 as [L2 S2]. split; [congruence|]. intros k Hk. rewrite S2, W1'; auto; zl.
Qed.

Lemma or_words_loop_ok word g : forall (n : nat) i out f,
  (forall k, i <= k < i + Z.of_nat n -> exists w, word k = Ok w /\ w64 w
     /\ forall j, 0 <= j < 64 -> Z.testbit w j = g (64 * k + j)) ->
  bm_at (reg out 0) (i + Z.of_nat n) f -> 0 <= i -> i + Z.of_nat n <= zlen out ->
  exists out', or_words_loop n word i out = Ok out'
    /\ bm_at (reg out' 0) (i + Z.of_nat n) (fun x => if x <? 64 * i then f x else f x || g x)
    /\ same_outside out out' i (Z.of_nat n).
Proof.
  induction n; intros i out f Hw B Hi Hl.
  - exists out. cbn [or_words_loop]. split; auto. split.
    + eapply bm_at_ext; eauto. intros x Hx. destruct (Z.ltb_spec x (64 * i)); auto; lia.
    + apply same_outside_refl.
  - cbn [or_words_loop]. destruct (B i ltac:(lia)) as (o & Eo & Ho & To). unfold reg in Eo.
    cbn [Z.add] in Eo. rewrite Eo. cbn [bind].
    destruct (Hw i ltac:(lia)) as (w & -> & H64 & T). cbn [bind].
    assert (A64 : w64 (Z.lor o w)).
    { apply w64_of_bits; [apply Z.lor_nonneg; split; [apply Ho|apply H64]|].
      intros j Hj. rewrite Z.lor_spec, !w64_testbit_high by auto. reflexivity. }
    assert (TA : forall j, 0 <= j < 64 -> Z.testbit (Z.lor o w) j = f (64 * i + j) || g (64 * i + j)).
    { intros j Hj. now rewrite Z.lor_spec, To, T. }
    destruct (vset_ok out i (Z.lor o w)) as (out1 & -> & L1 & W1 & W1'); [lia|]. cbn [bind].
    destruct (IHn (i + 1) out1 (fun x => if x <? 64 * (i + 1) then (if x <? 64 * i then f x else f x || g x) else f x))
      as (out2 & -> & B2 & S2); try lia.
    { intros k Hk. apply Hw. lia. }
    { intros k Hk. unfold reg, vget in *. cbn [Z.add] in *. destruct (Z.eq_dec k i) as [->|].
      - exists (Z.lor o w). specialize (W1 0 ltac:(zl)). rewrite Z.add_0_r in W1. rewrite W1.
        split; auto. split; auto. intros j Hj. rewrite TA by auto.
        destruct (Z.ltb_spec (64 * i + j) (64 * (i + 1))); [|lia].
        destruct (Z.ltb_spec (64 * i + j) (64 * i)); [lia|reflexivity].
      - destruct (B k ltac:(lia)) as (o' & Eo' & Ho' & To'). exists o'. rewrite W1' by zl. cbn [Z.add] in Eo'.
        split; auto. split; auto. intros j Hj. rewrite To' by auto.
        destruct (Z.ltb_spec (64 * k + j) (64 * (i + 1))), (Z.ltb_spec (64 * k + j) (64 * i)); auto; lia. }
    exists out2. split; auto. split.
    + replace (i + Z.of_nat (S n)) with (i + 1 + Z.of_nat n) by lia.
      eapply bm_at_ext; [exact B2|]. intros x Hx. cbn beta.
      destruct (Z.ltb_spec x (64 * (i + 1))), (Z.ltb_spec x (64 * i)); auto; lia.
    + destruct S2 as [L2 S2]. split; [congruence|]. intros k Hk. rewrite S2, W1'; auto; zl.
Qed.
