(** contains and select. *)
From Verif Require Import Base Hw Spec Lib L_Bits L_Group Layout M_Util M_Seq M_Query
  P_Build1 P_Build2 P_Build3 P_Seq P_Decode.

(** ** membership through groups *)
Lemma memb_iff l l' x y : (In x l <-> In y l') -> memb l x = memb l' y.
Proof.
  intro H. destruct (memb l x) eqn:E1, (memb l' y) eqn:E2; auto.
  - apply memb_In in E1. apply memb_false in E2. tauto.
  - apply memb_false in E1. apply memb_In in E2. tauto.
Qed.
Lemma memb_ungroup1 k lim b x :
  0 < k -> wf1 k lim b -> memb (ungroup1 k b) x = (fst b =? x / k) && memb (snd b) (x mod k).
Proof.
  intros Hk W. pose proof (In_ungroup1 k lim b x Hk W) as H.
  destruct (memb (ungroup1 k b) x) eqn:E.
  - apply memb_In in E. apply H in E as [E1 E2]. apply memb_In in E2. rewrite E2.
    symmetry. apply andb_true_intro. split; auto. now apply Z.eqb_eq.
  - apply memb_false in E. destruct (Z.eqb_spec (fst b) (x / k)); auto.
    destruct (memb (snd b) (x mod k)) eqn:E2; auto. apply memb_In in E2. tauto.
Qed.
Lemma memb_ungroup_cons k lim b g x :
  0 < k -> wf k lim (b :: g) ->
  memb (ungroup k (b :: g)) x = ((fst b =? x / k) && memb (snd b) (x mod k)) || memb (ungroup k g) x.
Proof.
  intros Hk W. apply wf_cons in W as (W & _). rewrite ungroup_cons, memb_app.
  now rewrite (memb_ungroup1 k lim).
Qed.
Lemma memb_ungroup_none k lim g x :
  0 < k -> wf k lim g -> Forall (fun b => fst b <> x / k) g -> memb (ungroup k g) x = false.
Proof.
  intros Hk W H. apply memb_false. intro Hx. apply (In_ungroup_id k lim) in Hx; auto.
  apply in_map_iff in Hx as (b & E & Hb). rewrite Forall_forall in H. apply (H b Hb). exact E.
Qed.

(** ** bitmap_contains *)
Lemma bitmap_contains_ok word n f v :
  bm_at word n f -> 0 <= v < 64 * n -> bitmap_contains word v = Ok (f v).
Proof.
  intros B H. unfold bitmap_contains. rewrite Z.shiftr_div_pow2 by lia. change (2 ^ 6) with 64.
  destruct (B (v / 64) ltac:(lia)) as (w & -> & _ & T). cbn [bind]. unfold bt. rewrite T by lia.
  do 2 f_equal. lia.
Qed.

(** ** contains *)
Lemma sparse_block_contains_ok mem begin value vs : forall i,
  bytes_at mem (begin + i) vs -> sorted vs ->
  sparse_block_contains_loop (length vs) mem begin i value = Ok (memb vs value).
Proof.
  induction vs as [|v vs IH]; intros i B Hs; cbn [length sparse_block_contains_loop]; auto.
  apply bytes_at_cons in B as [B0 B]. rewrite (rd8_znth _ _ _ B0). cbn [bind].
  apply sorted_inv in Hs as [Hs Hv].
  unfold memb. cbn [existsb]. fold (memb vs value).
  destruct (Z.ltb_spec value v).
  - destruct (Z.eqb_spec value v); [lia|]. cbn [orb]. f_equal. symmetry. apply memb_false.
    intro Hi. rewrite Forall_forall in Hv. specialize (Hv value Hi). lia.
  - destruct (Z.eqb_spec v value), (Z.eqb_spec value v); try lia; auto.
    cbn [orb]. apply IH; auto. now rewrite Z.add_assoc.
Qed.

Lemma contains_blocks_ok dbg mem end_ value bs : forall fuel begin data,
  (length bs <= fuel)%nat -> blocks_at mem begin data bs -> end_ = begin + 2 * zlen bs ->
  0 <= value < 65536 ->
  contains_sparse_chunk_loop fuel dbg mem begin end_ data (value / 256) value
  = Ok (memb (ungroup 256 bs) value).
Proof.
  induction bs as [|[id vs] bs IH]; intros fuel begin data Hf B He Hv.
  - rewrite zlen_nil in He. destruct fuel; cbn [contains_sparse_chunk_loop];
      destruct (Z.eqb_spec begin end_); auto; lia.
  - pose proof (proj1 B) as W.
    cbn [length] in Hf. destruct fuel as [|f]; [lia|].
    apply blocks_at_cons in B as (W1 & E1 & E2 & D & B & HF).
    rewrite zlen_cons in He. zpos. pose proof (blocks_wf1_zlen _ _ W1) as Hz.
    rewrite (memb_ungroup_cons 256 256) by (auto; lia). cbn [fst snd].
    cbn [contains_sparse_chunk_loop]. destruct (Z.eqb_spec begin end_); [lia|].
    rewrite E1. cbn [bind].
    destruct (Z.ltb_spec (value / 256) id).
    { destruct (Z.eqb_spec id (value / 256)); [lia|]. cbn [andb orb]. f_equal. symmetry.
      apply (memb_ungroup_none 256 256); [lia|apply B|].
      eapply Forall_impl; [|exact HF]. cbn. intros; lia. }
    rewrite E2. cbn [bind]. replace (zlen vs - 1 + 1) with (zlen vs) by lia.
    destruct (Z.eqb_spec id (value / 256)) as [->|].
    + rewrite assert_ok by (apply Z.leb_le; lia). cbn [bind].
      rewrite (memb_ungroup_none 256 256 bs); [|lia|apply B|].
      2:{ eapply Forall_impl; [|exact HF]. cbn. intros; lia. }
      cbn [andb]. rewrite orb_false_r.
      replace (value - value / 256 * 256) with (value mod 256) by lia. rewrite u32_id by lia.
      destruct W1 as (_ & _ & Hs & Hr). cbn [snd] in *.
      unfold block_type. destruct (Z.ltb_spec (zlen vs) 31) as [Hl|Hl].
      * rewrite Z.eqb_refl. unfold sparse_block_contains. rewrite <- length_zlen.
        apply sparse_block_contains_ok; auto. rewrite Z.add_0_r. apply block_sparse; auto.
      * cbn [t_dense t_sparse Z.eqb Pos.eqb]. apply (bitmap_contains_ok _ 4); [|lia].
        apply block_dense; auto.
    + cbn [andb orb]. apply IH; auto; lia.
Qed.

Lemma land_65535 v : 0 <= v -> Z.land v 65535 = v mod 65536.
Proof. intro. change 65535 with (Z.ones 16). rewrite Z.land_ones by lia. reflexivity. Qed.
Lemma land_255 v : 0 <= v -> Z.land v 255 = v mod 256.
Proof. intro. change 255 with (Z.ones 8). rewrite Z.land_ones by lia. reflexivity. Qed.
Lemma shiftr_16 v : Z.shiftr v 16 = v / 65536.
Proof. rewrite Z.shiftr_div_pow2 by lia. reflexivity. Qed.
Lemma shiftr_8 v : Z.shiftr v 8 = v / 256.
Proof. rewrite Z.shiftr_div_pow2 by lia. reflexivity. Qed.

Lemma dropped_memb lb cs pre suf x :
  wfc cs -> dropped lb cs pre suf -> lb = x / 65536 ->
  memb (ungroup 65536 cs) x
  = match suf with
    | ch :: _ => (fst ch =? lb) && memb (snd ch) (x mod 65536)
    | [] => false
    end.
Proof.
  intros W (-> & F1 & F2) ->. rewrite ungroup_app, memb_app.
  pose proof (wf_app _ _ _ _ W) as [W1 W2].
  rewrite (memb_ungroup_none 65536 65535 pre); auto; [|lia|].
  2:{ eapply Forall_impl; [|exact F1]. cbn. intros; lia. }
  cbn [orb]. destruct suf as [|ch suf]; auto.
  rewrite (memb_ungroup_cons 65536 65535) by (auto; lia).
  rewrite (memb_ungroup_none 65536 65535 suf); auto; [|lia| |].
  - now rewrite orb_false_r.
  - apply wf_cons in W2. apply W2.
  - apply wf_cons in W2 as (_ & _ & W2). inversion F2; subst.
    eapply Forall_impl; [|exact W2]. cbn. intros; lia.
Qed.

Lemma contains_ok dbg mem a S v :
  valid S -> stored 0 mem a S -> is_u32 v ->
  exists s, seq_at mem a = Ok s /\ contains dbg mem s v = Ok (memb S v).
Proof.
  intros H St Hv. destruct (stored_seq 0 mem a S H St ltac:(lia)) as (s & Es & En & V & A & B0).
  destruct (valid_chunks S H) as (W & N & U & SC & L). unfold is_u32 in Hv.
  exists s. split; auto. unfold contains. rewrite shiftr_16.
  destruct (skip_to_value_ok 0 mem (seq_begin s) (chunks_of S) (v / 65536)) as
    (it & pre & suf & -> & D & V' & _); auto; [lia|]. cbn [bind].
  rewrite <- U. rewrite (dropped_memb _ _ _ _ _ W D eq_refl).
  rewrite (id_view_id _ _ _ (proj1 V')). cbn [bind].
  destruct suf as [|[id c] suf].
  - destruct (Z.eqb_spec 65536 (v / 65536)); [lia|reflexivity].
  - cbn [fst snd]. destruct (Z.eqb_spec id (v / 65536)); [|reflexivity]. cbn [andb].
    rewrite land_65535 by lia. rewrite (id_view_type _ _ _ _ _ (proj1 V')). cbn [bind].
    destruct (kind_of c) eqn:K.
    + rewrite Z.eqb_refl. rewrite (id_view_blocks _ _ _ _ _ (proj1 V') K). cbn [bind].
      destruct (view_sparse _ _ _ _ _ _ V' K) as (B & Hn & Hd & Hm).
      unfold contains_sparse_chunk.
      rewrite assert_ok by (apply andb_true_intro; split; apply Z.leb_le; lia). cbn [bind].
      rewrite shiftr_8. rewrite (contains_blocks_ok dbg mem _ _ (blocks_of c)).
      * now rewrite blocks_ungroup.
      * rewrite length_zlen. lia.
      * replace (zlen (blocks_of c) * 2) with (2 * zlen (blocks_of c)) by lia. exact B.
      * lia.
      * lia.
    + cbn [t_dense t_sparse Z.eqb Pos.eqb].
      apply (bitmap_contains_ok _ 1024); [eapply view_dense; eauto|lia].
    + cbn [t_full t_dense t_sparse Z.eqb Pos.eqb]. f_equal. symmetry. apply memb_In.
      rewrite (kind_full _ _ (view_wf _ _ _ _ _ V') K). apply In_zrange. lia.
Qed.

(** ** select *)
Lemma select_bitmap_loop_ok dbg word f n : forall i elements rank,
  (forall k, i <= k < i + Z.of_nat n ->
     exists w, word k = Ok w /\ w64 w /\ forall j, 0 <= j < 64 -> Z.testbit w j = f (64 * k + j)) ->
  0 <= i -> 64 * (i + Z.of_nat n) <= 65536 -> 0 <= elements <= rank -> rank < 4294960000 ->
  rank - elements < zlen (filter f (zrange (64 * i) (64 * n))) ->
  exists p, select_bitmap_loop n dbg word i elements rank = Ok p
    /\ znth (filter f (zrange (64 * i) (64 * n))) (rank - elements) = Some p.
Proof.
  induction n; intros i elements rank Hw Hi Hn He Hr Hl.
  - cbn in Hl. lia.
  - replace (64 * S n)%nat with (64 + 64 * n)%nat in * by lia.
    rewrite zrange_app, filter_app in *. replace (64 * i + Z.of_nat 64) with (64 * (i + 1)) in * by lia.
    destruct (Hw i ltac:(lia)) as (w & E & H64 & T).
    cbn [select_bitmap_loop]. rewrite E. cbn [bind].
    rewrite (bits_filter w f i H64 T) in *. rewrite popcount_bits by auto.
    assert (L64 : zlen (bits w) <= 64).
    { pose proof (bits_length w). unfold zlen. lia. }
    pose proof (zlen_nonneg _ (bits w)). rewrite u32_id by lia.
    rewrite zlen_app, zlen_map in Hl.
    destruct (Z.ltb_spec rank (elements + zlen (bits w))).
    + rewrite assert_ok by (apply Z.leb_le; lia). cbn [bind].
      rewrite (u32_id (rank - elements)) by lia.
      destruct (znth_Some _ (bits w) (rank - elements)) as (p & Ep); [lia|].
      rewrite (select_word w (rank - elements) p); auto; [|lia].
      pose proof (znth_In _ _ _ _ Ep) as [Hp _]%In_bits.
      rewrite (u32_id (i * 64)) by lia. rewrite u32_id by lia.
      exists (p + i * 64). split; auto.
      rewrite znth_app_l by (rewrite zlen_map; lia). rewrite znth_map, Ep. cbn [option_map]. f_equal. lia.
    + destruct (IHn (i + 1) (elements + zlen (bits w)) rank) as (p & Ep & Np); auto; try lia.
      { intros k Hk. apply Hw. lia. }
      exists p. split; auto. rewrite znth_app_r by (rewrite zlen_map; lia). rewrite zlen_map.
      rewrite <- Np. f_equal. lia.
Qed.
Lemma select_bitmap_ok dbg word (n : nat) vs rank :
  bm_at word (Z.of_nat n) (memb vs) -> sorted vs -> Forall (fun x => 0 <= x < 64 * Z.of_nat n) vs ->
  64 * Z.of_nat n <= 65536 -> 0 <= rank < zlen vs ->
  exists p, select_bitmap dbg word (Z.of_nat n) rank = Ok p /\ znth vs rank = Some p.
Proof.
  intros B Hs Hr Hn Hk. unfold select_bitmap. rewrite Nat2Z.id.
  assert (E : filter (memb vs) (zrange (64 * 0) (64 * n)) = vs).
  { apply filter_memb; auto. eapply Forall_impl; [|exact Hr]. cbn beta; intros; lia. }
  assert (LV : zlen vs <= 64 * Z.of_nat n).
  { replace (64 * Z.of_nat n) with (Z.of_nat (64 * n)) in * by lia. apply sorted_zlen_le; auto. }
  destruct (select_bitmap_loop_ok dbg word (memb vs) n 0 0 rank) as (p & Ep & Np); auto; try lia.
  { rewrite E. lia. }
  exists p. split; auto. rewrite E, Z.sub_0_r in Np. exact Np.
Qed.

Lemma znth_ungroup1 k b j :
  znth (ungroup1 k b) j = option_map (fun x => fst b * k + x) (znth (snd b) j).
Proof. apply znth_map. Qed.

Lemma select_blocks_ok dbg mem end_ rank bs : forall fuel begin data elements,
  (length bs <= fuel)%nat -> blocks_at mem begin data bs -> end_ = begin + 2 * zlen bs ->
  0 <= elements <= rank -> rank < 4294960000 -> rank - elements < zlen (ungroup 256 bs) ->
  exists p, select_sparse_chunk_loop fuel dbg mem begin end_ data elements rank = Ok p
    /\ znth (ungroup 256 bs) (rank - elements) = Some p.
Proof.
  induction bs as [|[id vs] bs IH]; intros fuel begin data elements Hf B He Hel Hr Hl.
  - cbn in Hl. lia.
  - cbn [length] in Hf. destruct fuel as [|f]; [lia|].
    apply blocks_at_cons in B as (W1 & E1 & E2 & D & B & HF).
    rewrite zlen_cons in He. zpos. pose proof (blocks_wf1_zlen _ _ W1) as Hz.
    rewrite ungroup_cons, zlen_app, zlen_ungroup1 in *. cbn [snd] in *.
    cbn [select_sparse_chunk_loop]. destruct (Z.eqb_spec begin end_); [lia|].
    rewrite E1. cbn [bind]. rewrite E2. cbn [bind].
    replace (zlen vs - 1 + 1) with (zlen vs) by lia. rewrite u32_id by lia.
    destruct W1 as (Hid & _ & Hs & Hrg). cbn [fst snd] in *.
    destruct (Z.ltb_spec rank (elements + zlen vs)).
    + rewrite u32_id by lia. rewrite assert_ok by (apply Z.ltb_lt; lia). cbn [bind].
      rewrite znth_app_l by (rewrite zlen_ungroup1; cbn [snd]; lia). rewrite znth_ungroup1. cbn [fst snd].
      assert (G : forall x, znth vs (rank - elements) = Some x -> 0 <= x < 256).
      { intros x Hx. apply znth_In in Hx. rewrite Forall_forall in Hrg. auto. }
      unfold block_type. destruct (Z.ltb_spec (zlen vs) 31) as [L31|L31].
      * rewrite Z.eqb_refl. apply block_sparse in D; auto.
        destruct (znth_Some _ vs (rank - elements)) as (x & Ex); [lia|].
        rewrite (rd8_at _ _ _ _ _ D Ex). cbn [bind]. rewrite Ex. specialize (G x Ex).
        rewrite u32_id by lia. eexists. split; [reflexivity|]. cbn [option_map]. f_equal. lia.
      * cbn [t_dense t_sparse Z.eqb Pos.eqb]. apply block_dense in D; auto.
        destruct (select_bitmap_ok dbg (words_mem mem data) 4 vs (rank - elements)) as (x & E & Ex);
          auto; try lia.
        change (Z.of_nat 4) with block_size_in_64bit_words in E. rewrite E. cbn [bind].
        rewrite Ex. specialize (G x Ex). rewrite u32_id by lia.
        eexists. split; [reflexivity|]. cbn [option_map]. f_equal. lia.
    + destruct (IH f (begin + 2) (data + bytes_by_cardinality (zlen vs)) (elements + zlen vs))
        as (p & Ep & Np); auto; try lia.
      exists p. split; auto. rewrite znth_app_r by (rewrite zlen_ungroup1; cbn [snd]; lia).
      rewrite zlen_ungroup1. cbn [snd]. rewrite <- Np. f_equal. lia.
Qed.

Lemma select_ok dbg mem a S rank value :
  valid S -> stored 0 mem a S -> is_u32 rank ->
  exists s, seq_at mem a = Ok s
    /\ select dbg mem s rank value
       = Ok (match znth S rank with Some x => (true, x) | None => (false, value) end).
Proof.
  intros H St Hv. destruct (stored_seq 0 mem a S H St ltac:(lia)) as (s & Es & En & V & A & B0).
  destruct (valid_chunks S H) as (W & N & U & SC & L). unfold is_u32 in Hv.
  exists s. split; auto. unfold select.
  destruct (skip_to_position_ok 0 mem (seq_begin s) (chunks_of S) rank) as
    (it & pre & suf & -> & C & V' & R1 & R2); auto; try lia. cbn [bind].
  rewrite (id_view_has_next _ _ _ (proj1 V')).
  rewrite <- U at 1. rewrite C. rewrite ungroup_app.
  pose proof (sum_card_nonneg pre) as SP.
  rewrite znth_app_r by (rewrite sum_card_ungroup; lia). rewrite sum_card_ungroup.
  destruct suf as [|[id c] suf].
  - cbn [ungroup flat_map]. rewrite znth_nil. reflexivity.
  - cbn [snd] in R2. pose proof (view_wf _ _ _ _ _ V') as W1. pose proof (chunk_card _ _ W1) as Hc.
    destruct (chunk_base _ _ _ _ _ (proj1 V')) as (Ei & Eb & Hi).
    rewrite u32_id by lia. rewrite assert_ok by (apply Z.ltb_lt; unfold M_Util.chunk_size; lia).
    cbn [bind]. rewrite (id_view_type _ _ _ _ _ (proj1 V')). cbn [bind].
    rewrite ungroup_cons. rewrite znth_app_l by (rewrite zlen_ungroup1; cbn [snd]; lia).
    rewrite znth_ungroup1. cbn [fst snd].
    destruct (znth_Some _ c (rank - sum_card pre)) as (x & Ex); [lia|]. rewrite Ex. cbn [option_map].
    destruct W1 as (_ & _ & Hs & Hr). cbn [snd] in *.
    assert (Hx : 0 <= x < 65536). { apply znth_In in Ex. rewrite Forall_forall in Hr. auto. }
    assert (EE : forall y, y = Ok x ->
      (let! value := y in let! id := it_id mem it in Ok (true, u32 (value + u32 (Z.shiftl id 16))))
      = Ok (true, id * 65536 + x)).
    { intros y ->. cbn [bind]. rewrite Ei. cbn [bind]. rewrite Eb. rewrite u32_id by lia. do 2 f_equal. lia. }
    apply EE. destruct (kind_of c) eqn:K.
    + rewrite Z.eqb_refl. rewrite (id_view_blocks _ _ _ _ _ (proj1 V') K). cbn [bind].
      destruct (view_sparse _ _ _ _ _ _ V' K) as (B & Hn & Hd & Hm).
      unfold select_sparse_chunk.
      rewrite assert_ok by (apply andb_true_intro; split; apply Z.leb_le; lia). cbn [bind].
      destruct (select_blocks_ok dbg mem (i_data it + zlen (blocks_of c) * 2) (rank - sum_card pre) (blocks_of c)
         (Datatypes.S (Z.to_nat (zlen (blocks_of c)))) (i_data it) (i_data it + zlen (blocks_of c) * 2) 0)
         as (p & -> & Np); auto; try lia.
      * rewrite length_zlen. lia.
      * replace (zlen (blocks_of c) * 2) with (2 * zlen (blocks_of c)) by lia. exact B.
      * rewrite blocks_ungroup. lia.
      * rewrite blocks_ungroup, Z.sub_0_r in Np. congruence.
    + cbn [t_dense t_sparse Z.eqb Pos.eqb].
      destruct (select_bitmap_ok dbg (words_mem mem (i_data it)) (Z.to_nat 1024) c (rank - sum_card pre))
        as (p & E & Np); rewrite ?Z2Nat.id in * by lia; auto; try lia.
      { eapply view_dense; eauto. }
      change 1024 with M_Util.chunk_size_in_64bit_words in E. rewrite E. congruence.
    + cbn [t_full t_dense t_sparse Z.eqb Pos.eqb]. f_equal.
      rewrite (kind_full _ _ (view_wf _ _ _ _ _ V') K) in Ex.
      rewrite znth_zrange in Ex by lia. injection Ex. lia.
Qed.
