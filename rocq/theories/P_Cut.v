(** Sequences and index files that end early. *)
From Verif Require Import Base Hw Spec Lib L_Bits L_Group Layout Format Damage Cut M_Util M_Build M_Seq M_Decode M_Uncompress
  M_Index M_Query P_Build1 P_Build2 P_Build3 P_Seq P_Decode P_Uncompress P_Query P_Format P_Index P_Fin1 P_Total P_Reads P_Damage P_Damage2.
From Coq Require Import Lia.

Notation wp := (wpd false).

Lemma wp_ub A (r : res A) (P : A -> Prop) : wp r P -> (forall x, ~ P x) -> r = UB.
Proof. destruct r; cbn; intros H N; try easy. now apply N in H. Qed.

(** ** reading *)
Lemma znth_cut n mem a x : znth (cut n mem) a = Some x -> znth mem a = Some x /\ 0 <= a < n.
Proof.
  intro E. pose proof (znth_lt _ _ _ _ E) as L. unfold cut in *. rewrite zlen_firstn in L.
  rewrite znth_firstn in E by lia. split; auto. lia.
Qed.
Lemma cut_znth n mem a : a < n -> znth (cut n mem) a = znth mem a.
Proof.
  intro H. destruct (Z_lt_le_dec a 0); [now rewrite !znth_neg by lia|]. unfold cut. apply znth_firstn. lia.
Qed.
Lemma zlen_cut n mem : 0 <= n <= zlen mem -> zlen (cut n mem) = n.
Proof. intro H. unfold cut. rewrite zlen_firstn. lia. Qed.

Section Cut.
Variables (n : Z) (mem : list Z).
Let m := cut n mem.

Lemma rd8_cut a : wp (rd8 m a) (fun x => rd8 mem a = Ok x /\ a + 1 <= n).
Proof.
  unfold rd8, vget. destruct (znth m a) eqn:E; cbn; auto. apply znth_cut in E as [-> L]. split; auto. lia.
Qed.
Lemma rd_bytes_cut : forall k a, wp (rd_bytes m a k) (fun x => rd_bytes mem a k = Ok x /\ (k = O \/ a + Z.of_nat k <= n)).
Proof.
  induction k as [|k IH]; intro a; cbn [rd_bytes]; [cbn; auto|].
  eapply wp_seq; [apply rd8_cut|]. intros b [-> Hb]. eapply wp_seq; [apply IH|]. intros r [-> Hr].
  cbn [bind wpd]. split; auto. right. lia.
Qed.
Lemma rd_le_cut k a : (k > 0)%nat -> wp (rd_le m k a) (fun x => rd_le mem k a = Ok x /\ a + Z.of_nat k <= n).
Proof.
  intro Hk. unfold rd_le. eapply wp_seq; [apply rd_bytes_cut|]. intros b [-> Hb]. cbn [bind wpd]. split; auto. lia.
Qed.
Lemma rd16_cut a : wp (rd16 m a) (fun x => rd16 mem a = Ok x /\ a + 2 <= n).
Proof. apply (rd_le_cut 2). lia. Qed.
Lemma rd64_cut a : wp (rd64 m a) (fun x => rd64 mem a = Ok x /\ a + 8 <= n).
Proof. apply (rd_le_cut 8). lia. Qed.

(** ** bitmaps *)
Lemma bitmap_loop_cut f : forall k a i base buf pos size,
  bm_at (words_mem mem a) (i + Z.of_nat k) f -> 0 <= i ->
  wp (bitmap_loop k (words_mem m a) i base buf pos size) (fun _ => k = O \/ a + 8 * (i + Z.of_nat k) <= n).
Proof.
  induction k as [|k IH]; intros a i base buf pos size B Hi; cbn [bitmap_loop]; [cbn; auto|].
  eapply wp_seq; [apply rd64_cut|]. intros w [Ew Hw].
  destruct (B i ltac:(lia)) as (w' & E' & W & _). unfold words_mem in E'. rewrite Ew in E'. injection E' as <-.
  eapply wp_seq; [apply (word_loop_wp false 64); auto using bits_length|]. intros [b s] _.
  eapply wp_mono; [apply IH; [|lia]|].
  - intros j Hj. apply B. lia.
  - cbn beta. intros _ H. right. lia.
Qed.
Lemma decode_bitmap_cut f k a base out pos :
  bm_at (words_mem mem a) (Z.of_nat k) f -> (k > 0)%nat ->
  wp (decode_bitmap (words_mem m a) (Z.of_nat k) base out pos) (fun _ => a + 8 * Z.of_nat k <= n).
Proof.
  intros B Hk. unfold decode_bitmap. rewrite Nat2Z.id.
  eapply wp_seq; [apply (bitmap_loop_cut f); [exact B|lia]|]. intros [o s] H. cbn [wpd]. lia.
Qed.
Lemma load_words_cut : forall k a, (k > 0)%nat -> wp (load_words k m a) (fun _ => a + 8 * Z.of_nat k <= n).
Proof.
  induction k as [|k IH]; intros a Hk; [lia|]. cbn [load_words].
  eapply wp_seq; [apply rd64_cut|]. intros w [_ Hw]. destruct k as [|k].
  - cbn [load_words bind wpd]. lia.
  - eapply wp_seq; [apply IH; lia|]. intros r Hr. cbn beta in Hr. cbn [wpd]. lia.
Qed.

(** ** blocks *)
Lemma decode_step_cut a base out pos off :
  wp (decode_step m a base out pos off) (fun _ => a + off + 16 <= n).
Proof.
  unfold decode_step, load128. eapply wp_seq; [apply rd_bytes_cut|]. intros b [_ Hb].
  eapply wp_mono; [apply store_any|]. cbn beta. intros. lia.
Qed.
Lemma decode_sparse_block_cut a k base out pos : k <= 30 ->
  wp (decode_sparse_block m a k base out pos) (fun _ => a + k <= n).
Proof.
  intro Hk. unfold decode_sparse_block. eapply wp_seq; [apply decode_step_cut|]. intros o1 H1. cbn beta in H1.
  destruct (Z.leb_spec k 8); [cbn; lia|].
  eapply wp_seq; [apply decode_step_cut|]. intros o2 H2. eapply wp_seq; [apply decode_step_cut|]. intros o3 H3.
  eapply wp_seq; [apply decode_step_cut|]. intros o4 H4. cbn beta in *. cbn [wpd]. lia.
Qed.
Lemma decode_blocks_cut end_ base bs : forall fuel begin data out tmp,
  (length bs <= fuel)%nat -> blocks_at mem begin data bs -> end_ = begin + 2 * zlen bs ->
  wp (decode_sparse_chunk_loop fuel m begin end_ data base out tmp)
     (fun _ => bs = [] \/ data + zlen (datas bs) <= n).
Proof.
  induction bs as [|[id vs] bs IH]; intros fuel begin data out tmp Hf B He.
  - change (zlen []) with 0 in He. destruct fuel; cbn [decode_sparse_chunk_loop];
      (destruct (Z.eqb_spec begin end_); [|lia]); cbn; auto.
  - cbn [length] in Hf. destruct fuel as [|f]; [lia|].
    apply blocks_at_cons in B as (W1 & E1 & E2 & D & B & _). pose proof (blocks_wf1_zlen _ _ W1) as Hz.
    rewrite zlen_cons in He. rewrite zlen_datas_cons. cbn [snd]. zpos.
    cbn [decode_sparse_chunk_loop]. destruct (Z.eqb_spec begin end_); [lia|].
    eapply wp_seq; [apply rd8_cut|]. intros x [E _]. rewrite E1 in E. injection E as <-.
    eapply wp_seq; [apply rd8_cut|]. intros y [E _]. rewrite E2 in E. injection E as <-. cbv zeta.
    replace (zlen vs - 1 + 1) with (zlen vs) by lia.
    apply wp_seq with (P := fun _ => data + bytes_by_cardinality (zlen vs) <= n).
    + unfold block_type, bytes_by_cardinality.
      change block_sparseness_threshold with 31. destruct (Z.ltb_spec (zlen vs) 31).
      * rewrite Z.eqb_refl. apply decode_sparse_block_cut. lia.
      * cbn [t_dense t_sparse Z.eqb Pos.eqb].
        eapply wp_mono; [apply (decode_bitmap_cut (memb vs) 4); [|lia]|].
        -- apply block_dense; auto.
        -- cbn beta. intros. change (block_size / 8) with 32. lia.
    + intros [o k] Hb1. cbn beta in Hb1. eapply wp_mono; [apply IH; [lia|exact B|lia]|]. cbn beta.
      intros _ [->|Hb2]; right; [change (zlen (datas [])) with 0|]; lia.
Qed.

Lemma uncompress_sparse_block_cut : forall k begin end_ out pos,
  (k > 0)%nat -> end_ = begin + Z.of_nat k ->
  wp (uncompress_sparse_block_loop k m begin end_ out pos) (fun _ => end_ <= n).
Proof.
  induction k as [|k IH]; intros begin end_ out pos Hk He; [lia|]. cbn [uncompress_sparse_block_loop].
  eapply wp_seq; [apply rd8_cut|]. intros p [_ Hp]. cbv zeta.
  eapply wp_seq; [apply vget_any|]. intros l _. eapply wp_seq; [apply vset_any|]. intros o _.
  destruct (Z.eqb_spec (begin + 1) end_); [cbn; lia|]. apply IH; lia.
Qed.
Lemma memcpy_cut begin k out pos : 0 < k -> wp (memcpy_words m begin k out pos) (fun _ => begin + 8 * k <= n).
Proof.
  intro Hk. unfold memcpy_words. eapply wp_seq; [apply load_words_cut; lia|]. intros ws Hw. cbn beta in Hw.
  rewrite Z2Nat.id in Hw by lia. eapply wp_mono; [apply store_any|]. auto.
Qed.
Lemma uncompress_blocks_cut bs : forall begin data bitmap prev out,
  blocks_at mem begin data bs ->
  wp (uncompress_sparse_chunk_loop (length bs) m begin data bitmap prev out)
     (fun _ => bs = [] \/ data + zlen (datas bs) <= n).
Proof.
  induction bs as [|[id vs] bs IH]; intros begin data bitmap prev out B; cbn [length uncompress_sparse_chunk_loop];
    [cbn; auto|].
  apply blocks_at_cons in B as (W1 & E1 & E2 & D & B & _). pose proof (blocks_wf1_zlen _ _ W1) as Hz.
  rewrite zlen_datas_cons. cbn [snd]. zpos.
  eapply wp_seq; [apply rd8_cut|]. intros x [E _]. rewrite E1 in E. injection E as <-.
  eapply wp_seq; [apply rd8_cut|]. intros y [E _]. rewrite E2 in E. injection E as <-. cbv zeta.
  replace (zlen vs - 1 + 1) with (zlen vs) by lia.
  apply wp_seq with (P := fun _ => data + bytes_by_cardinality (zlen vs) <= n).
  + unfold block_type, bytes_by_cardinality. destruct (Z.ltb_spec (zlen vs) 31).
    * rewrite Z.eqb_refl. apply uncompress_sparse_block_cut; lia.
    * cbn [t_dense t_sparse Z.eqb Pos.eqb]. unfold uncompress_dense_block. change (block_size / 8 / 8) with 4.
      apply memcpy_cut. lia.
  + intros o Hb1. cbn beta in Hb1. eapply wp_mono; [apply IH; exact B|]. cbn beta.
    intros _ [->|Hb2]; right; [change (zlen (datas [])) with 0|]; lia.
Qed.

(** ** chunks *)
Lemma it_id_cut it id c cs : id_view mem it ((id, c) :: cs) -> wp (it_id m it) (eq id).
Proof.
  intro V. pose proof (id_view_id _ _ _ V) as E. cbn [fst] in E. pose proof (id_view_has_next _ _ _ V) as H.
  unfold it_id in *. rewrite H in *. eapply wp_mono; [apply rd16_cut|]. intros x [Ex _]. congruence.
Qed.
Lemma it_type_cut it id c cs : id_view mem it ((id, c) :: cs) ->
  wp (it_type m it) (eq (match kind_of c with KSparse => t_sparse | KDense => t_dense | KFull => t_full end)).
Proof.
  intro V. pose proof (id_view_type _ _ _ _ _ V) as E. unfold it_type in *.
  eapply wp_seq; [apply rd16_cut|]. intros x [Ex _]. rewrite Ex in E. cbn [bind wpd] in *. congruence.
Qed.
Lemma it_blocks_cut it id c cs : id_view mem it ((id, c) :: cs) -> kind_of c = KSparse ->
  wp (it_blocks m it) (eq (zlen (blocks_of c))).
Proof.
  intros V K. pose proof (id_view_blocks _ _ _ _ _ V K) as E. unfold it_blocks in *.
  eapply wp_seq; [apply rd16_cut|]. intros x [Ex _]. rewrite Ex in E. cbn [bind wpd] in *. congruence.
Qed.
Lemma it_next_cut it : wp (it_next m it) (fun it' => it_next mem it = Ok it' /\ i_header it + 8 <= n).
Proof.
  unfold it_next, it_offset. eapply wp_seq; [apply rd16_cut|]. intros x [-> Hx]. cbn [bind wpd]. split; auto. lia.
Qed.
Lemma it_cardinality_cut it : wp (it_cardinality m it) (fun _ => True).
Proof. unfold it_cardinality. eapply wp_seq; [apply rd16_cut|]. intros; exact I. Qed.

Definition has_data (d : Z) (bs : list Z) : Prop := zlen bs = 0 \/ d + zlen bs <= n.

Lemma sparse_data c : kind_of c = KSparse -> blocks_of c <> [] ->
  forall d, d + 2 * zlen (blocks_of c) + zlen (datas (blocks_of c)) <= n -> has_data d (chunk_data c).
Proof.
  intros K N d H. right. unfold chunk_data. rewrite K. unfold sparse_data. rewrite zlen_app, zlen_hdrs. lia.
Qed.

Lemma zlen_dense c : kind_of c = KDense -> zlen (chunk_data c) = 8192.
Proof. intro K. unfold chunk_data. rewrite K, zlen_bytes_of_u64s, zlen_bitmap_words. lia. Qed.
Lemma fill_loop_any : forall k i x out pos, wp (fill_loop k i x out pos) (fun _ => True).
Proof.
  induction k as [|k IH]; intros; cbn [fill_loop]; [exact I|]. eapply wp_seq; [apply vset_any|]. intros o _. apply IH.
Qed.

Lemma decode_chunk_cut dbg it id c cs out pos :
  it_view 0 mem it ((id, c) :: cs) -> wp (decode_chunk dbg m it out pos) (fun _ => has_data (i_data it) (chunk_data c)).
Proof.
  intro V. pose proof (view_wf _ _ _ _ _ V) as W. unfold decode_chunk.
  eapply wp_seq; [apply (it_id_cut _ _ _ _ (proj1 V))|]. intros x <-. cbv zeta.
  eapply wp_seq; [apply (it_type_cut _ _ _ _ (proj1 V))|]. intros x <-.
  destruct (kind_of c) eqn:K.
  - rewrite Z.eqb_refl. eapply wp_seq; [apply (it_blocks_cut _ _ _ _ (proj1 V) K)|]. intros x <-.
    destruct (view_sparse _ _ _ _ _ _ V K) as (B & Hn & Hd & Hm). unfold decode_sparse_chunk.
    rewrite assert_ok by (apply andb_true_intro; split; apply Z.leb_le; lia). cbn [bind].
    replace (i_data it + zlen (blocks_of c) * 2) with (i_data it + 2 * zlen (blocks_of c)) by lia.
    eapply wp_seq; [apply (decode_blocks_cut _ _ (blocks_of c)); [rewrite length_zlen; lia|exact B|reflexivity]|].
    intros [o k] H. cbn beta in H. cbn [wpd]. apply sparse_data; auto.
    + intro E. rewrite E in Hn. change (zlen []) with 0 in Hn. lia.
    + destruct H as [E|H]; [rewrite E in Hn; change (zlen []) with 0 in Hn; lia|exact H].
  - cbn [t_dense t_sparse Z.eqb Pos.eqb]. pose proof (view_dense _ _ _ _ _ _ V K) as B.
    change chunk_size_in_64bit_words with (Z.of_nat (Z.to_nat 1024)).
    eapply wp_mono; [apply (decode_bitmap_cut (memb c)); rewrite ?Z2Nat.id by lia; [exact B|lia]|]. cbn beta.
    rewrite Z2Nat.id by lia. intros _ H. right. rewrite (zlen_dense c K). lia.
  - cbn [t_full t_dense t_sparse Z.eqb Pos.eqb]. eapply wp_mono.
    + apply (decode_full_chunk_wp false).
    + intros _ _. left. unfold chunk_data. rewrite K. reflexivity.
Qed.

Definition has_chunks (it : iterator) (cs : list (Z * list Z)) : Prop :=
  cs = [] \/ (i_header it + 8 * zlen cs <= n /\ has_data (i_data it) (cdatas cs)).

Lemma has_chunks_cons it it' id c cs : it_view 0 mem it ((id, c) :: cs) ->
  it_next mem it = Ok it' -> i_header it + 8 <= n -> has_data (i_data it) (chunk_data c) -> has_chunks it' cs ->
  has_chunks it ((id, c) :: cs).
Proof.
  intros V E Hh Hd H. right. destruct (view_next _ _ _ _ _ _ V) as (it2 & E2 & _ & _ & _ & ED & _).
  rewrite E in E2. injection E2 as <-. unfold it_next in E. destruct (it_offset mem it) as [o| | | |]; try discriminate.
  cbn [bind] in E. injection E as <-. cbn [i_data i_header] in *.
  unfold has_data in *. rewrite cdatas_cons, zlen_app, zlen_cons. cbn [snd].
  destruct H as [->|[H1 H2]]; cbn [i_header i_data] in *.
  - change (zlen (cdatas [])) with 0. change (zlen []) with 0. lia.
  - zpos. unfold has_data in H2. lia.
Qed.

Lemma decode_loop_cut dbg cs : forall it out pos,
  it_view 0 mem it cs -> wp (decode_loop (length cs) dbg m it out pos) (fun _ => has_chunks it cs).
Proof.
  induction cs as [|[id c] cs IH]; intros it out pos V; cbn [length decode_loop]; [cbn; now left|].
  eapply wp_seq; [apply (decode_chunk_cut _ _ _ _ _ _ _ V)|]. intros [o k] Hd. cbn beta in Hd.
  eapply wp_seq; [apply it_next_cut|]. intros it' [E Hh].
  destruct (view_next _ _ _ _ _ _ V) as (it2 & E2 & V2 & _). rewrite E in E2. injection E2 as <-.
  eapply wp_mono; [apply IH; exact V2|]. cbn beta. intros _ H. eapply has_chunks_cons; eauto.
Qed.

Lemma uncompress_chunk_cut dbg it id c cs out pos :
  it_view 0 mem it ((id, c) :: cs) -> wp (uncompress_chunk dbg m it out pos) (fun _ => has_data (i_data it) (chunk_data c)).
Proof.
  intro V. unfold uncompress_chunk.
  eapply wp_seq; [apply (it_type_cut _ _ _ _ (proj1 V))|]. intros x <-.
  apply wp_seq with (P := fun _ => has_data (i_data it) (chunk_data c)).
  2:{ intros o H. eapply wp_seq; [apply it_cardinality_cut|]. intros; exact H. }
  destruct (kind_of c) eqn:K.
  - rewrite Z.eqb_refl. eapply wp_seq; [apply fill_loop_any|]. intros o _.
    eapply wp_seq; [apply (it_blocks_cut _ _ _ _ (proj1 V) K)|]. intros x <-.
    destruct (view_sparse _ _ _ _ _ _ V K) as (B & Hn & Hd & Hm). unfold uncompress_sparse_chunk.
    rewrite assert_ok by (apply andb_true_intro; split; apply Z.leb_le; lia). cbn [bind].
    rewrite <- length_zlen.
    replace (i_data it + zlen (blocks_of c) * 2) with (i_data it + 2 * zlen (blocks_of c)) by lia.
    eapply wp_mono; [apply uncompress_blocks_cut; exact B|]. cbn beta.
    intros _ H. apply sparse_data; auto.
    + intro E. rewrite E in Hn. change (zlen []) with 0 in Hn. lia.
    + destruct H as [E|H]; [rewrite E in Hn; change (zlen []) with 0 in Hn; lia|exact H].
  - cbn [t_dense t_sparse Z.eqb Pos.eqb]. unfold uncompress_dense_chunk. change (chunk_size / 8 / 8) with 1024.
    eapply wp_mono; [apply memcpy_cut; lia|]. cbn beta. intros _ H. right. rewrite (zlen_dense c K). lia.
  - cbn [t_full t_dense t_sparse Z.eqb Pos.eqb]. unfold uncompress_full_chunk.
    eapply wp_mono; [apply fill_loop_any|]. intros _ _. left. unfold chunk_data. rewrite K. reflexivity.
Qed.

Lemma uncompress_loop_cut dbg cs : forall it prev u out pos,
  it_view 0 mem it cs -> wp (uncompress_loop (length cs) dbg m it prev u out pos) (fun _ => has_chunks it cs).
Proof.
  induction cs as [|[id c] cs IH]; intros it prev u out pos V; cbn [length uncompress_loop]; [cbn; now left|].
  eapply wp_seq; [apply (it_id_cut _ _ _ _ (proj1 V))|]. intros x <-. cbv zeta.
  eapply wp_seq; [apply (uncompress_chunk_cut _ _ _ _ _ _ _ V)|]. intros [o k] Hd. cbn beta in Hd.
  eapply wp_seq; [apply it_next_cut|]. intros it' [E Hh].
  destruct (view_next _ _ _ _ _ _ V) as (it2 & E2 & V2 & _). rewrite E in E2. injection E2 as <-.
  eapply wp_mono; [apply IH; exact V2|]. cbn beta. intros _ H. eapply has_chunks_cons; eauto.
Qed.
End Cut.

(** ** reading what is left *)
Lemma rd_bytes_same n mem : forall k a, a + Z.of_nat k <= n -> rd_bytes (cut n mem) a k = rd_bytes mem a k.
Proof.
  induction k as [|k IH]; intros a H; auto. cbn [rd_bytes]. unfold rd8, vget.
  rewrite cut_znth by lia. rewrite IH by lia. reflexivity.
Qed.
Lemma rd16_same n mem a : a + 2 <= n -> rd16 (cut n mem) a = rd16 mem a.
Proof. intro H. unfold rd16, rd_le. rewrite rd_bytes_same by lia. reflexivity. Qed.
Lemma rd64_same n mem a : a + 8 <= n -> rd64 (cut n mem) a = rd64 mem a.
Proof. intro H. unfold rd64, rd_le. rewrite rd_bytes_same by lia. reflexivity. Qed.

Lemma seq_at_same n mem a : a + 2 <= n -> seq_at (cut n mem) a = seq_at mem a.
Proof. intro H. unfold seq_at. now rewrite rd16_same by lia. Qed.
Lemma seq_at_cut n mem a : wp (seq_at (cut n mem) a) (fun _ => a + 2 <= n).
Proof. unfold seq_at. eapply wp_seq; [apply rd16_cut|]. intros x [_ H]. exact H. Qed.

Lemma c55_open : forall n mem a,
  (a + 2 <= n -> seq_at (cut n mem) a = seq_at mem a) /\ (n < a + 2 -> seq_at (cut n mem) a = UB).
Proof.
  intros n mem a. split; [apply seq_at_same|]. intro H. eapply wp_ub; [apply seq_at_cut|]. cbn beta. intros. lia.
Qed.

Lemma cardinality_same n mem : forall k h c, h + 8 * Z.of_nat k - 4 <= n ->
  cardinality_loop k (cut n mem) h c = cardinality_loop k mem h c.
Proof.
  induction k as [|k IH]; intros h c H; auto. cbn [cardinality_loop]. rewrite rd16_same by lia.
  destruct (rd16 mem (h + 2 * 1)); cbn [bind]; auto. apply IH. lia.
Qed.
Lemma cardinality_cut n mem : forall k h c,
  wp (cardinality_loop k (cut n mem) h c) (fun _ => k = O \/ h + 8 * Z.of_nat k - 4 <= n).
Proof.
  induction k as [|k IH]; intros h c; cbn [cardinality_loop]; [cbn; auto|].
  eapply wp_seq; [apply rd16_cut|]. intros x [_ Hx]. eapply wp_mono; [apply IH|]. cbn beta. intros _ H. lia.
Qed.

(** ** sequences *)
Lemma Ok_inj A (x y : A) : Ok x = Ok y -> x = y.
Proof. congruence. Qed.
Lemma stored_whole slack mem a S : valid S -> stored slack mem a S -> a + zlen (f_sequence S) + slack <= zlen mem
  /\ bytes_at mem a (f_sequence S).
Proof.
  intros V (dbg & enc & E & B & L). apply encoding_layout in E; auto. subst enc. rewrite <- (layout_format S V). auto.
Qed.

Lemma c55_whole : forall slack mem a S n,
  valid S -> stored slack mem a S -> 0 <= slack -> a + zlen (f_sequence S) + slack <= n -> stored slack (cut n mem) a S.
Proof.
  intros slack mem a S n V (dbg & enc & E & B & L) Hs Hn. exists dbg, enc. split; auto.
  assert (EL : zlen enc = zlen (f_sequence S)) by (apply encoding_layout in E; auto; subst; now rewrite (layout_format S V)).
  split.
  - intros i Hi. rewrite <- B by auto. apply cut_znth. lia.
  - unfold cut. rewrite zlen_firstn. lia.
Qed.

Lemma c55_part : forall slack mem a S n,
  valid S -> stored slack mem a S -> 0 <= slack -> a + head_size S <= n ->
  intact slack (fun h => a + chunk_start S h + chunk_cost S h + slack <= n) (cut n mem) a S.
Proof.
  intros slack mem a S n V St Hs Hn. apply (c52_whole slack mem a S V) in St.
  destruct St as (dbg & enc & E & B & L). exists dbg, enc. split; auto. split.
  - intros i Hi. rewrite <- B.
    + apply cut_znth. destruct Hi as [Hi|(h & Ho & Hi)]; [unfold in_head in Hi; lia|].
      destruct Hi as [_ Hi]. lia.
    + destruct Hi as [Hi|(h & _ & Hi)]; [left; exact Hi|right; exists h; auto].
  - intros h Ho Hc. specialize (L h I Hc). unfold cut. rewrite zlen_firstn. lia.
Qed.

Lemma seq_ends mem a S s : valid S -> stored 0 mem a S -> seq_at mem a = Ok s ->
  s_chunks s = zlen (chunks_of S) /\ it_view 0 mem (seq_begin s) (chunks_of S)
  /\ 0 < zlen (chunks_of S)
  /\ s_header s + 8 * zlen (chunks_of S) = a + head_size S /\ i_data (seq_begin s) = a + head_size S
  /\ zlen (f_sequence S) = head_size S + zlen (cdatas (chunks_of S)).
Proof.
  intros V St Es. destruct (stored_seq 0 mem a S V St) as (s' & Es' & En & Vw & _); [lia|].
  rewrite Es in Es'. injection Es' as <-. split; auto. split; auto.
  destruct (valid_chunks S V) as (W & N & _).
  assert (0 < zlen (chunks_of S)) by (destruct (chunks_of S); [easy|zl]). split; auto.
  rewrite (head_size_chunks S V). rewrite <- (layout_format S V), zlen_layout.
  revert Es En. unfold seq_at. destruct (rd16 mem a) as [x| | | |]; try discriminate. cbn [bind].
  intro Es. apply Ok_inj in Es. subst s. cbn [s_chunks s_header seq_begin s_data i_data].
  change M_Util.associativity with 32. intros <-. split; [|split]; lia.
Qed.

Lemma c55_size : forall mem a S n s,
  valid S -> stored 0 mem a S -> seq_at mem a = Ok s ->
  (a + head_size S - 4 <= n -> seq_size (cut n mem) s = Ok (zlen S))
  /\ (n < a + head_size S - 4 -> seq_size (cut n mem) s = UB).
Proof.
  intros mem a S n s V St Es. destruct (seq_ends mem a S s V St Es) as (En & _ & Hc & Hh & _ & _).
  unfold seq_size, cardinality. rewrite En. split; intro H.
  - rewrite cardinality_same by (rewrite Z2Nat.id; lia).
    destruct (c52_size mem a S V) as (s' & Es' & E & _).
    { apply (intact_mono 0 (fun _ => True)); [now apply (c52_whole 0 mem a S V)|auto]. }
    rewrite Es in Es'. injection Es' as <-. unfold seq_size, cardinality in E. rewrite En in E. exact E.
  - eapply wp_ub; [apply cardinality_cut|]. cbn beta. intros _ K. lia.
Qed.

Lemma has_all n S a s : zlen (f_sequence S) = head_size S + zlen (cdatas (chunks_of S)) ->
  s_header s + 8 * zlen (chunks_of S) = a + head_size S -> i_data (seq_begin s) = a + head_size S ->
  0 < zlen (chunks_of S) -> n < a + zlen (f_sequence S) -> ~ has_chunks n (seq_begin s) (chunks_of S).
Proof.
  intros E1 E2 E3 Hc Hn [E|[H1 H2]]; [rewrite E in Hc; zl|]. unfold has_data in H2.
  change (i_header (seq_begin s)) with (s_header s) in H1. rewrite E1 in Hn. lia.
Qed.

Lemma c55_all : forall dbg mem a S n s out pos,
  valid S -> stored 0 mem a S -> seq_at mem a = Ok s -> n < a + zlen (f_sequence S) ->
  decode dbg (cut n mem) s out pos = UB /\ uncompress dbg (cut n mem) s out pos = UB.
Proof.
  intros dbg mem a S n s out pos V St Es Hn.
  destruct (seq_ends mem a S s V St Es) as (En & Vw & Hc & Hh & Hd & El).
  pose proof (has_all n S a s El Hh Hd Hc Hn) as N. split.
  - eapply wp_ub with (P := fun _ => has_chunks n (seq_begin s) (chunks_of S)); auto. unfold decode.
    rewrite En, <- length_zlen. eapply wp_seq; [apply decode_loop_cut; exact Vw|]. intros [o e] H. exact H.
  - eapply wp_ub with (P := fun _ => has_chunks n (seq_begin s) (chunks_of S)); auto. unfold uncompress.
    rewrite En, <- length_zlen. eapply wp_seq; [apply uncompress_loop_cut; exact Vw|]. intros [o e] H. contradiction.
Qed.

(** ** indexes *)
Lemma c55_mmap : forall n mem f,
  (f + 16 <= n -> index_mmap (cut n mem) f = index_mmap mem f) /\ (n < f + 16 -> index_mmap (cut n mem) f = UB).
Proof.
  intros n mem f. split; intro H.
  - unfold index_mmap. rewrite !rd64_same by lia. reflexivity.
  - eapply wp_ub with (P := fun _ => f + 16 <= n); [|intros; lia]. unfold index_mmap.
    eapply wp_seq; [apply rd64_cut|]. intros x _. eapply wp_seq; [apply rd64_cut|]. intros y [_ Hy]. cbn [wpd]. lia.
Qed.

Lemma seq_at_inj mem a b s : seq_at mem a = Ok s -> seq_at mem b = Ok s -> a = b.
Proof.
  unfold seq_at. destruct (rd16 mem a); try discriminate. destruct (rd16 mem b); try discriminate. cbn [bind].
  intros H1 H2. apply Ok_inj in H1, H2. subst s. apply (f_equal s_pointers) in H2. cbn [s_pointers] in H2. lia.
Qed.

Lemma c55_index : forall dbg params u Ls,
  is_u32 u ->
  let kept := filter (fun L => pass params (zlen L) (last L 0)) Ls in
  Forall valid kept -> Forall short Ls ->
  exists stats offsets sequences,
    index_build dbg params (collection u Ls) = Ok (stats, offsets, sequences)
    /\ forall mem f slack,
         0 <= f -> 0 <= slack -> bytes_at mem f (index_file offsets sequences) ->
         f + zlen (index_file offsets sequences) + slack <= zlen mem -> zlen mem <= 2 ^ 64 ->
         exists ix, ix_size ix = zlen kept /\ ix_universe ix = u
           /\ (forall n, f + 16 <= n -> index_mmap (cut n mem) f = Ok ix)
           /\ (forall n, n < f + 16 -> index_mmap (cut n mem) f = UB)
           /\ forall i S, znth kept i = Some S ->
                exists a s, seq_at mem a = Ok s /\ stored slack mem a S
                  /\ forall dbg' n, (a + 2 <= n -> index_get dbg' (cut n mem) ix i = Ok s)
                       /\ (n < a + 2 -> index_get dbg' (cut n mem) ix i = UB).
Proof.
  intros dbg params u Ls Hu kept V HS.
  destruct (index_build_ok dbg params u Ls V HS) as (st & E & _).
  exists st, (u :: starts 0 kept), (lays kept). split; [exact E|].
  intros mem f slack Hf Hs B L HM.
  destruct (index_mmap_ok u kept mem f slack) as (ix & E1 & E2 & E3 & G); auto.
  { unfold is_u32 in Hu. lia. }
  exists ix. split; auto. split; auto.
  split; [intros n Hn; rewrite <- E1; now apply c55_mmap|]. split; [intros n Hn; now apply c55_mmap|].
  intros i S Hi. destruct (G i S Hi) as (s & Hs' & St & EG). exists (addr kept f i), s. split; auto. split; auto.
  intros dbg' n. pose proof (znth_lt _ _ _ _ Hi) as Hr. specialize (EG dbg').
  assert (O1 : ix_offsets ix = f + 16).
  { revert E1. unfold index_mmap. destruct (rd64 mem f); try discriminate. destruct (rd64 mem (f + 8)); try discriminate.
    cbn [bind]. intros [= <-]. reflexivity. }
  assert (HA : f + 24 + 8 * zlen kept <= addr kept f i).
  { unfold addr. pose proof (zlen_nonneg _ (lays (firstn (Z.to_nat i) kept))). lia. }
  unfold index_get in *. rewrite E2 in *. rewrite assert_ok in * by (apply Z.ltb_lt; lia). cbn [bind] in *.
  rewrite O1 in *. destruct (rd64 mem (f + 16 + 8 * i)) as [o| | | |] eqn:Eo; try discriminate. cbn [bind] in EG.
  pose proof (seq_at_inj _ _ _ _ EG Hs') as EA. split; intro Hn.
  - rewrite rd64_same by lia. rewrite Eo. cbn [bind]. rewrite EA. rewrite seq_at_same by lia. exact Hs'.
  - eapply wp_ub with (P := fun _ => addr kept f i + 2 <= n); [|intros; lia].
    eapply wp_seq; [apply rd64_cut|]. intros x [Ex _]. rewrite Eo in Ex. injection Ex as <-. rewrite EA. apply seq_at_cut.
Qed.

(** ** queries on what is left *)
Lemma cost_present S h : chunk_cost S h <> 0 -> has_chunk S h.
Proof.
  intro N. pose proof (chunk_cost_bound S h) as [[H1 _] H2]. assert (C : 0 < card 65536 S h) by lia.
  unfold card in C. destruct (filter (fun v => v / 65536 =? h) S) as [|x r] eqn:E; [zl|].
  assert (HI : In x (x :: r)) by apply in_eq. rewrite <- E in HI. apply filter_In in HI as [HI Hx].
  exists x. split; auto. now apply Z.eqb_eq.
Qed.
Lemma intact_present slack (ok ok' : Z -> Prop) mem a S : valid S ->
  intact slack ok mem a S -> (forall h, ok' h -> has_chunk S h -> ok h) -> intact slack ok' mem a S.
Proof.
  intros V (dbg & enc & E & B & L) H. exists dbg, enc. split; auto. split.
  - intros i [Hi|(h & Ho & Hi)]; apply B; [left; exact Hi|]. right. exists h. split; auto. apply H; auto.
    apply cost_present. destruct Hi as [_ Hi]. lia.
  - intros h Ho Hc. apply L; auto.
Qed.

Lemma left_intact mem a S n (ok : Z -> Prop) : valid S -> stored 0 mem a S -> a + head_size S <= n ->
  (forall h, ok h -> kept_chunk n a S h) -> intact 0 ok (cut n mem) a S.
Proof.
  intros V St Hn H. eapply intact_present; [exact V|apply c55_part; auto; lia|]. intros h Ho Hc. cbn beta.
  specialize (H h Ho Hc). lia.
Qed.

Lemma c55_contains : forall dbg mem a S n s v,
  valid S -> stored 0 mem a S -> seq_at mem a = Ok s -> a + head_size S <= n ->
  is_u32 v -> kept_chunk n a S (v / 65536) ->
  exists b, contains dbg (cut n mem) s v = Ok b /\ (b = true <-> In v S).
Proof.
  intros dbg mem a S n s v V St Es Hn Hv Hk.
  destruct (c52_contains dbg (cut n mem) a S v V Hv) as (s' & b & Es' & H).
  { apply left_intact; auto. now intros h <-. }
  assert (0 <= head_size S) by (rewrite (head_size_chunks S V); zpos; lia).
  rewrite seq_at_same in Es' by (rewrite (head_size_chunks S V) in *; zpos; lia).
  rewrite Es in Es'. injection Es' as <-. eauto.
Qed.
Lemma c55_select : forall dbg mem a S n s i x value,
  valid S -> stored 0 mem a S -> seq_at mem a = Ok s -> a + head_size S <= n ->
  is_u32 i -> znth S i = Some x -> kept_chunk n a S (x / 65536) -> select dbg (cut n mem) s i value = Ok (true, x).
Proof.
  intros dbg mem a S n s i x value V St Es Hn Hv Hx Hk.
  destruct (c52_select dbg (cut n mem) a S i value V Hv) as (s' & Es' & H & _).
  { apply left_intact; auto. intros h (y & Ey & <-). rewrite Hx in Ey. now injection Ey as <-. }
  rewrite seq_at_same in Es' by (rewrite (head_size_chunks S V) in *; zpos; lia).
  rewrite Es in Es'. injection Es' as <-. auto.
Qed.
Lemma c55_next_geq : forall dbg mem a S n s v r,
  valid S -> stored 0 mem a S -> seq_at mem a = Ok s -> a + head_size S <= n -> is_u32 v ->
  (In r S /\ v <= r /\ (forall x, In x S -> v <= x -> r <= x)) \/ (r = 4294967295 /\ forall x, In x S -> x < v) ->
  kept_chunk n a S (v / 65536) -> kept_chunk n a S (r / 65536) -> next_geq dbg (cut n mem) s v = Ok r.
Proof.
  intros dbg mem a S n s v r V St Es Hn Hv Hr Hk1 Hk2.
  destruct (c52_next_geq dbg (cut n mem) a S v r V Hv Hr) as (s' & Es' & H).
  { apply left_intact; auto. now intros h [->| ->]. }
  rewrite seq_at_same in Es' by (rewrite (head_size_chunks S V) in *; zpos; lia).
  rewrite Es in Es'. injection Es' as <-. auto.
Qed.
