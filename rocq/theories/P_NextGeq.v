(** next_geq. *)
From Verif Require Import Base Hw Spec Lib L_Bits L_Group Layout M_Util M_Seq M_Query
  P_Build1 P_Build2 P_Build3 P_Seq P_Decode P_Query.

(** ** the first element >= v *)
Definition fg (l : list Z) (v : Z) : option Z := find (fun x => v <=? x) l.
Definition nf (o : option Z) : Z := match o with Some x => x | None => not_found end.

Lemma fg_spec l v : spec_next_geq l v = nf (fg l v).
Proof. induction l as [|x l IH]; auto. cbn. destruct (v <=? x); auto. Qed.
Lemma fg_app l r v : fg (l ++ r) v = match fg l v with Some x => Some x | None => fg r v end.
Proof. unfold fg. induction l as [|x l IH]; cbn; auto. destruct (v <=? x); auto. Qed.
Lemma fg_none l v : Forall (fun x => x < v) l -> fg l v = None.
Proof.
  unfold fg. induction 1 as [|x l H _ IH]; cbn; auto. destruct (Z.leb_spec v x); [lia|auto].
Qed.
Lemma fg_None l v : fg l v = None -> Forall (fun x => x < v) l.
Proof.
  unfold fg. induction l as [|x l IH]; cbn; auto. destruct (Z.leb_spec v x); [easy|auto].
Qed.
Lemma fg_Some l v x : fg l v = Some x -> In x l /\ v <= x.
Proof. unfold fg. intro H. apply find_some in H as [H1 H2]. split; auto. now apply Z.leb_le. Qed.
Lemma fg_hd x l v : v <= x -> fg (x :: l) v = Some x.
Proof. unfold fg. cbn. destruct (Z.leb_spec v x); auto; lia. Qed.
Lemma fg_least l v x :
  sorted l -> In x l -> v <= x -> (forall y, In y l -> v <= y -> x <= y) -> fg l v = Some x.
Proof.
  unfold fg. induction l as [|z l IH]; intros Hs Hi Hv Hm; [easy|].
  cbn [find]. apply sorted_inv in Hs as [Hs Hz]. destruct (Z.leb_spec v z).
  - f_equal. assert (x <= z) by (apply Hm; cbn; auto). destruct Hi as [->|Hi]; auto.
    rewrite Forall_forall in Hz. specialize (Hz x Hi). lia.
  - destruct Hi as [->|Hi]; [lia|]. apply IH; auto. intros; apply Hm; cbn; auto.
Qed.
Lemma fg_map b l v : fg (map (fun x => b + x) l) v = option_map (fun x => b + x) (fg l (v - b)).
Proof.
  unfold fg. induction l as [|x l IH]; cbn; auto.
  destruct (Z.leb_spec v (b + x)), (Z.leb_spec (v - b) x); auto; lia.
Qed.

Lemma fg_pre k lim pre suf v :
  0 < k -> wf k lim pre -> Forall (fun b => fst b < v / k) pre ->
  fg (ungroup k (pre ++ suf)) v = fg (ungroup k suf) v.
Proof.
  intros Hk W H. rewrite ungroup_app, fg_app, fg_none; auto.
  apply Forall_forall. intros x Hx. apply (In_ungroup_id k lim) in Hx; auto.
  apply in_map_iff in Hx as (b & E & Hb). rewrite Forall_forall in H. specialize (H b Hb). rewrite E in H.
  destruct (Z_lt_le_dec x v); auto. assert (v / k <= x / k) by (apply Z.div_le_mono; lia). lia.
Qed.
Lemma wf_snd_cons k lim id c g : wf k lim ((id, c) :: g) -> exists x r, c = x :: r /\ 0 <= x < k.
Proof.
  intros (W & _)%wf_cons. destruct W as (_ & N & _ & R). cbn [snd] in *.
  destruct c as [|x r]; [easy|]. exists x, r. split; auto. inversion R; auto.
Qed.
Lemma fg_head k lim id x r suf v :
  0 < k -> wf k lim ((id, x :: r) :: suf) -> v <= id * k ->
  fg (ungroup k ((id, x :: r) :: suf)) v = Some (id * k + x).
Proof.
  intros Hk W Hv. apply wf_snd_cons in W as (x' & r' & [= <- <-] & Hx).
  rewrite ungroup_cons. unfold ungroup1. cbn [fst snd map app]. apply fg_hd. lia.
Qed.
Lemma fg_same k lim id c suf v :
  0 < k -> wf k lim ((id, c) :: suf) -> id = v / k ->
  fg (ungroup k ((id, c) :: suf)) v
  = match fg c (v mod k) with Some x => Some (id * k + x) | None => fg (ungroup k suf) v end.
Proof.
  intros Hk W ->. rewrite ungroup_cons, fg_app. unfold ungroup1. cbn [fst snd].
  rewrite fg_map. replace (v - v / k * k) with (v mod k) by (rewrite Z.mod_eq; lia).
  destruct (fg c (v mod k)); auto.
Qed.

(** ** bitmaps *)
Lemma next_geq_bitmap_loop_ok word (N : Z) vs v : forall fuel k w,
  bm_at word N (memb vs) -> sorted vs -> Forall (fun x => 0 <= x < 64 * N) vs -> 64 * N <= 65536 ->
  0 <= k < N -> N - k <= Z.of_nat fuel -> w64 w -> v < 64 * (k + 1) ->
  (forall j, 0 <= j < 64 -> Z.testbit w j = memb vs (64 * k + j) && (v <=? 64 * k + j)) ->
  (forall x, In x vs -> v <= x -> 64 * k <= x) ->
  next_geq_bitmap_loop fuel word N k w = Ok (nf (fg vs v)).
Proof.
  induction fuel; intros k w B Hs Hr HN Hk Hf H64 Hv T Hlow; [lia|]. cbn [next_geq_bitmap_loop].
  destruct (Z.eqb_spec w 0) as [->|Hw].
  - assert (Hlow' : forall x, In x vs -> v <= x -> 64 * (k + 1) <= x).
    { intros x Hx Hvx. pose proof (Hlow x Hx Hvx). destruct (Z_lt_le_dec x (64 * (k + 1))); auto.
      specialize (T (x - 64 * k) ltac:(lia)). rewrite Z.testbit_0_l in T.
      replace (64 * k + (x - 64 * k)) with x in T by lia.
      rewrite (proj2 (memb_In vs x) Hx) in T. destruct (Z.leb_spec v x); [easy|lia]. }
    rewrite u32_id by lia. destruct (Z.eqb_spec (k + 1) N).
    + rewrite fg_none; auto. apply Forall_forall. intros x Hx.
      destruct (Z_lt_le_dec x v); auto. specialize (Hlow' x Hx ltac:(lia)).
      rewrite Forall_forall in Hr. specialize (Hr x Hx). lia.
    + destruct (B (k + 1) ltac:(lia)) as (w' & -> & H64' & T'). cbn [bind].
      apply IHfuel; auto; try lia.
      intros j Hj. rewrite T' by lia. destruct (Z.leb_spec v (64 * (k + 1) + j)); [|lia].
      now rewrite andb_true_r.
  - assert (Hp : 0 < w) by (unfold w64 in H64; lia).
    pose proof (ctz_bound w Hp H64) as Hb. rewrite u32_id by lia.
    pose proof (ctz_bit w Hp) as Ht. rewrite T in Ht by lia. apply andb_prop in Ht as [Ht1 Ht2].
    apply memb_In in Ht1. apply Z.leb_le in Ht2.
    rewrite (fg_least vs v (64 * k + ctzll w)); auto. { cbn [nf]. f_equal. lia. }
    intros y Hy Hvy. pose proof (Hlow y Hy Hvy).
    destruct (Z_lt_le_dec y (64 * k + ctzll w)); auto. exfalso.
    pose proof (ctz_below w (y - 64 * k) Hp ltac:(lia)) as Hf'. rewrite T in Hf' by lia.
    replace (64 * k + (y - 64 * k)) with y in Hf' by lia.
    rewrite (proj2 (memb_In vs y) Hy) in Hf'. destruct (Z.leb_spec v y); [easy|lia].
Qed.

Lemma mask_low w d j :
  w64 w -> 0 <= d < 64 -> 0 <= j < 64 ->
  Z.testbit (u64 (Z.shiftl (Z.shiftr w d) d)) j = Z.testbit w j && (d <=? j).
Proof.
  intros Hw Hd Hj. unfold u64. rewrite Z.mod_pow2_bits_low by lia.
  rewrite Z.shiftl_spec by lia. destruct (Z.leb_spec d j).
  - rewrite Z.shiftr_spec by lia. rewrite andb_true_r. f_equal. lia.
  - rewrite andb_false_r. apply Z.testbit_neg_r. lia.
Qed.
Lemma u64_w64 x : w64 (u64 x).
Proof. unfold w64, u64. apply Z.mod_pos_bound. lia. Qed.

Lemma next_geq_bitmap_ok word N vs v :
  bm_at word N (memb vs) -> sorted vs -> Forall (fun x => 0 <= x < 64 * N) vs -> 64 * N <= 65536 ->
  0 <= v < 64 * N -> next_geq_bitmap word N v = Ok (nf (fg vs v)).
Proof.
  intros B Hs Hr HN Hv. unfold next_geq_bitmap.
  destruct (B (v / 64) ltac:(lia)) as (w & -> & H64 & T). cbn [bind].
  apply next_geq_bitmap_loop_ok; auto; try lia.
  - apply u64_w64.
  - intros j Hj. rewrite mask_low by (auto; lia). rewrite T by lia. f_equal.
    destruct (Z.leb_spec (v - v / 64 * 64) j), (Z.leb_spec v (64 * (v / 64) + j)); auto; lia.
Qed.

Lemma min_value_in_bitmap_loop_ok word x vs : forall n i,
  bm_at word (i + Z.of_nat n) (memb (x :: vs)) -> sorted (x :: vs) -> 0 <= i ->
  64 * (i + Z.of_nat n) <= 65536 -> 64 * i <= x < 64 * (i + Z.of_nat n) ->
  min_value_in_bitmap_loop n word i = Ok x.
Proof.
  induction n; intros i B Hs Hi Hn Hx; [lia|]. cbn [min_value_in_bitmap_loop].
  destruct (B i ltac:(lia)) as (w & -> & H64 & T). cbn [bind].
  apply sorted_inv in Hs as [Hs Hl].
  destruct (Z.eqb_spec w 0) as [->|Hw]; cbn [negb].
  - apply IHn; try lia.
    + replace (i + 1 + Z.of_nat n) with (i + Z.of_nat (S n)) by lia. exact B.
    + constructor; auto.
    + destruct (Z_lt_le_dec x (64 * (i + 1))); [|lia].
      specialize (T (x - 64 * i) ltac:(lia)). rewrite Z.testbit_0_l in T.
      replace (64 * i + (x - 64 * i)) with x in T by lia. symmetry in T. apply memb_false in T.
      exfalso. apply T. cbn. auto.
  - assert (Hp : 0 < w) by (unfold w64 in H64; lia).
    pose proof (ctz_bound w Hp H64) as Hb. rewrite u32_id by lia. f_equal.
    pose proof (ctz_bit w Hp) as Ht. rewrite T in Ht by lia. apply memb_In in Ht.
    destruct Ht as [Ht|Ht]; [lia|]. rewrite Forall_forall in Hl. specialize (Hl _ Ht). cbn beta in Hl.
    exfalso. pose proof (ctz_below w (x - 64 * i) Hp ltac:(lia)) as Hf. rewrite T in Hf by lia.
    replace (64 * i + (x - 64 * i)) with x in Hf by lia. apply memb_false in Hf. apply Hf. cbn. auto.
Qed.
Lemma min_value_in_bitmap_ok word (n : nat) x vs :
  bm_at word (Z.of_nat n) (memb (x :: vs)) -> sorted (x :: vs) -> 64 * Z.of_nat n <= 65536 ->
  0 <= x < 64 * Z.of_nat n -> min_value_in_bitmap word (Z.of_nat n) = Ok x.
Proof.
  intros B Hs Hn Hx. unfold min_value_in_bitmap. rewrite Nat2Z.id.
  apply (min_value_in_bitmap_loop_ok word x vs); auto; lia.
Qed.

Lemma max_value_in_bitmap_loop_ok word vs : forall n,
  bm_at word (Z.of_nat n) (memb vs) -> vs <> [] -> 64 * Z.of_nat n <= 65536 ->
  Forall (fun x => 0 <= x < 64 * Z.of_nat n) vs ->
  exists m, max_value_in_bitmap_loop n word = Ok m /\ In m vs /\ Forall (fun x => x <= m) vs.
Proof.
  induction n; intros B N Hn Hr.
  - destruct vs as [|x vs]; [easy|]. inversion Hr; lia.
  - cbn [max_value_in_bitmap_loop]. destruct (B (Z.of_nat n) ltac:(lia)) as (w & -> & H64 & T). cbn [bind].
    rewrite Forall_forall in Hr. destruct (Z.eqb_spec w 0) as [->|Hw]; cbn [negb].
    + apply IHn; auto; try lia.
      * intros i Hi. apply B. lia.
      * apply Forall_forall. intros x Hx. specialize (Hr x Hx).
        destruct (Z_lt_le_dec x (64 * Z.of_nat n)); [lia|]. specialize (T (x - 64 * Z.of_nat n) ltac:(lia)).
        rewrite Z.testbit_0_l in T.
        replace (64 * Z.of_nat n + (x - 64 * Z.of_nat n)) with x in T by lia.
        symmetry in T. now apply memb_false in T.
    + assert (Hp : 0 < w) by (unfold w64 in H64; lia).
      destruct (clz_spec w Hp H64) as (Hh & Hb & Ha).
      rewrite u32_id by lia. eexists. split; [reflexivity|].
      rewrite T in Hb by lia. apply memb_In in Hb.
      replace (Z.of_nat n * 64 + 63 - clzll w) with (64 * Z.of_nat n + (63 - clzll w)) by lia.
      split; auto. apply Forall_forall. intros x Hx.
      destruct (Z_lt_le_dec (64 * Z.of_nat n + (63 - clzll w)) x); auto.
      specialize (Ha (x - 64 * Z.of_nat n) ltac:(lia)). specialize (Hr x Hx).
      rewrite T in Ha by lia. replace (64 * Z.of_nat n + (x - 64 * Z.of_nat n)) with x in Ha by lia.
      now apply memb_false in Ha.
Qed.

(** ** blocks *)
Lemma next_geq_sparse_block_ok mem begin v vs : forall i,
  bytes_at mem (begin + i) vs -> next_geq_sparse_block_loop (length vs) mem begin i v = Ok (nf (fg vs v)).
Proof.
  induction vs as [|x vs IH]; intros i B; cbn [length next_geq_sparse_block_loop]; auto.
  apply bytes_at_cons in B as [B0 B]. rewrite (rd8_znth _ _ _ B0). cbn [bind].
  destruct (Z.leb_spec v x).
  - rewrite fg_hd; auto.
  - unfold fg. cbn [find]. destruct (Z.leb_spec v x); [lia|]. apply IH. now rewrite Z.add_assoc.
Qed.

Lemma block_min_ok mem begin data id x vs bs base :
  blocks_at mem begin data ((id, x :: vs) :: bs) -> 0 <= base <= 65280 ->
  block_min mem begin data base = Ok (base + x).
Proof.
  intros B Hb. apply blocks_at_cons in B as (W1 & _ & E2 & D & _). unfold block_min. rewrite E2. cbn [bind].
  pose proof (blocks_wf1_zlen _ _ W1). destruct W1 as (_ & _ & Hs & Hr). cbn [snd] in *.
  assert (Hx : 0 <= x < 256) by (inversion Hr; auto).
  destruct (Z.ltb_spec (zlen (x :: vs) - 1) 30).
  - apply block_sparse in D; [|lia]. apply bytes_at_cons in D as [D _]. rewrite (rd8_znth _ _ _ D).
    cbn [bind]. rewrite u32_id by lia. f_equal; lia.
  - apply block_dense in D; [|lia].
    pose proof (min_value_in_bitmap_ok _ 4 x vs D Hs ltac:(lia) ltac:(lia)) as E.
    change (Z.of_nat 4) with block_size_in_64bit_words in E. rewrite E.
    cbn [bind]. rewrite u32_id by lia. f_equal; lia.
Qed.

Lemma last_zlen vs : sorted vs -> vs <> [] ->
  exists m, znth vs (zlen vs - 1) = Some m /\ In m vs /\ Forall (fun x => x <= m) vs.
Proof.
  intros Hs N. assert (0 < zlen vs) by (destruct vs; [easy|zl]).
  destruct (znth_Some _ vs (zlen vs - 1)) as (m & E); [lia|]. exists m. split; auto. split.
  - now apply znth_In in E.
  - destruct (exists_last N) as (l & y & ->). rewrite zlen_app in E.
    change (zlen [y]) with 1 in E. rewrite znth_app_r in E by lia.
    replace (zlen l + 1 - 1 - zlen l) with 0 in E by lia. injection E as ->.
    apply sorted_app_inv in Hs as (_ & _ & Hs). apply Forall_app. split; [|repeat constructor; lia].
    apply Forall_forall. intros x Hx. specialize (Hs x m Hx ltac:(cbn; auto)). lia.
Qed.

Lemma max_value_in_block_ok mem begin data id vs bs :
  blocks_at mem begin data ((id, vs) :: bs) ->
  exists m, max_value_in_block mem begin data = Ok m /\ In m vs /\ Forall (fun x => x <= m) vs.
Proof.
  intros B. apply blocks_at_cons in B as (W1 & _ & E2 & D & _). unfold max_value_in_block. rewrite E2.
  cbn [bind]. pose proof (blocks_wf1_zlen _ _ W1). destruct W1 as (_ & N & Hs & Hr). cbn [snd] in *.
  destruct (Z.ltb_spec (zlen vs - 1) 30).
  - apply block_sparse in D; [|lia]. destruct (last_zlen vs Hs N) as (m & E & Hm).
    exists m. split; auto. eapply rd8_at; eauto.
  - apply block_dense in D; [|lia]. apply (max_value_in_bitmap_loop_ok _ vs 4); auto. lia.
Qed.

Lemma blocks_at_app mem begin data pre suf :
  blocks_at mem begin data (pre ++ suf) ->
  exists data', blocks_at mem (begin + 2 * zlen pre) data' suf.
Proof.
  revert begin data. induction pre as [|[id vs] pre IH]; intros begin data B.
  - exists data. cbn [app] in B. rewrite zlen_nil. replace (begin + 2 * 0) with begin by lia. exact B.
  - cbn [app] in B. apply blocks_at_cons in B as (_ & _ & _ & _ & B & _).
    destruct (IH _ _ B) as (d & B'). exists d. rewrite zlen_cons.
    replace (begin + 2 * (zlen pre + 1)) with (begin + 2 + 2 * zlen pre) by lia. exact B'.
Qed.

Lemma find_block_ok mem end_ block_id bs : forall fuel begin data id,
  (length bs <= fuel)%nat -> blocks_at mem begin data bs -> end_ = begin + 2 * zlen bs ->
  0 <= end_ < zlen mem -> (forall b r, bs = b :: r -> id = fst b) ->
  exists pre suf data' id', find_block_loop fuel mem begin end_ data id block_id
      = Ok (begin + 2 * zlen pre, data', id')
    /\ bs = pre ++ suf /\ Forall (fun b => fst b < block_id) pre
    /\ blocks_at mem (begin + 2 * zlen pre) data' suf
    /\ (forall b r, suf = b :: r -> id' = fst b /\ block_id <= fst b).
Proof.
  induction bs as [|[i vs] bs IH]; intros fuel begin data id Hf B He Hm Hid.
  - rewrite zlen_nil in He.
    assert (E : (id <? block_id) && negb (begin =? end_) = false).
    { destruct (Z.eqb_spec begin end_); [|lia]. apply andb_false_r. }
    exists [], [], data, id. rewrite zlen_nil. replace (begin + 2 * 0) with begin by lia.
    destruct fuel; cbn [find_block_loop]; rewrite E; auto 10 with datatypes.
    all: repeat split; auto; try apply B; easy.
  - pose proof B as B1. apply blocks_at_cons in B as (W1 & E1 & E2 & D & B & HF).
    pose proof (blocks_wf1_zlen _ _ W1). rewrite zlen_cons in He. zpos.
    cbn [length] in Hf. destruct fuel as [|f]; [lia|]. cbn [find_block_loop].
    pose proof (Hid _ _ eq_refl) as ->. cbn [fst].
    destruct (Z.ltb_spec i block_id).
    + destruct (Z.eqb_spec begin end_); [lia|]. cbn [negb andb].
      rewrite E2. cbn [bind]. replace (zlen vs - 1 + 1) with (zlen vs) by lia.
      assert (R : exists id', rd8 mem (begin + 2) = Ok id' /\ (forall b r, bs = b :: r -> id' = fst b)).
      { destruct bs as [|[i2 v2] bs].
        - destruct (rd8_ok mem (begin + 2)) as (x & E); [rewrite zlen_nil in *; lia|].
          exists x. split; auto. easy.
        - exists i2. apply blocks_at_cons in B as (_ & E & _). split; auto. now intros b r [= <- <-]. }
      destruct R as (id' & -> & Hid'). cbn [bind].
      destruct (IH f (begin + 2) (data + bytes_by_cardinality (zlen vs)) id') as
        (pre & suf & d & id2 & -> & -> & F & B2 & L); auto; try lia.
      exists ((i, vs) :: pre), suf, d, id2. rewrite zlen_cons.
      replace (begin + 2 * (zlen pre + 1)) with (begin + 2 + 2 * zlen pre) by lia.
      repeat split; auto; try apply B2; now apply (L b r).
    + exists [], ((i, vs) :: bs), data, i. rewrite zlen_nil.
      replace (begin + 2 * 0) with begin by lia. cbn [andb].
      split; auto. split; auto. split; auto. split; auto.
      intros b r [= <- <-]. auto.
Qed.

Lemma wfb_id id vs bs : wfb ((id, vs) :: bs) -> 0 <= id < 256.
Proof. intros (W & _)%wf_cons. destruct W as (W & _). exact W. Qed.

(** the search inside the block reached *)
Lemma block_search mem begin data id vs bs v :
  blocks_at mem begin data ((id, vs) :: bs) -> 0 <= v < 256 ->
  rd8 mem (begin + 1) = Ok (zlen vs - 1)
  /\ (zlen vs < 31 -> next_geq_sparse_block mem data (zlen vs) v = Ok (nf (fg vs v)))
  /\ (31 <= zlen vs -> next_geq_bitmap (words_mem mem data) block_size_in_64bit_words v = Ok (nf (fg vs v))).
Proof.
  intros B Hv. apply blocks_at_cons in B as (W1 & _ & E2 & D & _). split; auto.
  destruct W1 as (_ & _ & Hs & Hr). cbn [snd] in *. split; intro H.
  - unfold next_geq_sparse_block. rewrite <- length_zlen. apply next_geq_sparse_block_ok.
    rewrite Z.add_0_r. now apply block_sparse.
  - change block_size_in_64bit_words with 4. apply next_geq_bitmap_ok; auto; try lia. now apply block_dense.
Qed.

Lemma next_geq_sparse_chunk_ok dbg mem begin bs v :
  blocks_at mem begin (begin + 2 * zlen bs) bs -> 1 <= zlen bs <= 256 -> 0 <= v < 65536 ->
  0 <= begin -> begin + 2 * zlen bs < zlen mem ->
  next_geq_sparse_chunk dbg mem begin (zlen bs) v = Ok (nf (fg (ungroup 256 bs) v)).
Proof.
  intros B Hn Hv Hb Hm. unfold next_geq_sparse_chunk.
  rewrite assert_ok by (apply andb_true_intro; split; apply Z.leb_le; lia). cbn [bind].
  rewrite shiftr_8. replace (begin + zlen bs * 2) with (begin + 2 * zlen bs) by lia.
  assert (R : exists id, rd8 mem begin = Ok id /\ forall b r, bs = b :: r -> id = fst b).
  { destruct bs as [|[i vs] bs]; [rewrite zlen_nil in *; lia|].
    apply blocks_at_cons in B as (_ & E & _). exists i. split; auto. now intros b r [= <- <-]. }
  destruct R as (id & -> & Hid). cbn [bind].
  destruct (find_block_ok mem (begin + 2 * zlen bs) (v / 256) bs (S (Z.to_nat (zlen bs))) begin
    (begin + 2 * zlen bs) id) as (pre & suf & d & id2 & -> & E & F & B2 & L); auto; try lia.
  { rewrite length_zlen. lia. }
  pose proof (proj1 B) as W. cbn [bind]. rewrite E in W |- *. rewrite zlen_app in *.
  rewrite (fg_pre 256 256) by (auto; try lia; apply wf_app in W; apply W).
  apply wf_app in W as [_ W].
  destruct suf as [|[i vs] suf].
  - rewrite zlen_nil. destruct (Z.eqb_spec (begin + 2 * zlen pre) (begin + 2 * (zlen pre + 0))); [|lia].
    reflexivity.
  - destruct (L _ _ eq_refl) as [-> Hi]. cbn [fst] in Hi |- *. rewrite zlen_cons in *. zpos.
    destruct (Z.eqb_spec (begin + 2 * zlen pre) (begin + 2 * (zlen pre + (zlen suf + 1)))); [lia|].
    cbn [negb]. pose proof (wfb_id _ _ _ W) as Hi2.
    destruct (wf_snd_cons _ _ _ _ _ W) as (x & r & -> & Hx).
    destruct (Z.leb_spec v (i * 256)).
    + rewrite (fg_head 256 256) by (auto; lia). cbn [nf]. eapply block_min_ok; eauto; lia.
    + assert (Ei : i = v / 256) by lia. rewrite land_255 by lia.
      rewrite (fg_same 256 256) by (auto; lia).
      destruct (max_value_in_block_ok _ _ _ _ _ _ B2) as (m & -> & Hm1 & Hm2). cbn [bind].
      destruct (block_search _ _ _ _ _ _ (v mod 256) B2 ltac:(lia)) as (E2 & S1 & S2).
      destruct (Z.ltb_spec m (v mod 256)).
      * rewrite (fg_none (x :: r)).
        2:{ eapply Forall_impl; [|exact Hm2]. cbn beta; intros; lia. }
        apply blocks_at_cons in B2 as (W1 & _ & _ & _ & B3 & HF).
        destruct suf as [|[i2 v2] suf].
        -- rewrite zlen_nil. destruct (Z.eqb_spec (begin + 2 * zlen pre + 2) (begin + 2 * (zlen pre + (0 + 1)))); [|lia].
           reflexivity.
        -- rewrite zlen_cons. zpos.
           destruct (Z.eqb_spec (begin + 2 * zlen pre + 2) (begin + 2 * (zlen pre + (zlen suf + 1 + 1)))); [lia|].
           rewrite E2. cbn [bind]. replace (zlen (x :: r) - 1 + 1) with (zlen (x :: r)) by lia.
           pose proof (proj1 B3) as W3. pose proof (wfb_id _ _ _ W3) as Hi3.
           destruct (wf_snd_cons _ _ _ _ _ W3) as (y & r2 & -> & Hy).
           inversion HF; subst. cbn [fst] in *.
           rewrite (fg_head 256 256) by (auto; lia). cbn [nf].
           pose proof B3 as B4. apply blocks_at_cons in B4 as (_ & -> & _). cbn [bind].
           eapply block_min_ok; eauto. lia.
      * destruct (fg (x :: r) (v mod 256)) as [z|] eqn:Ez.
        2:{ apply fg_None in Ez. rewrite Forall_forall in Ez. specialize (Ez m Hm1). lia. }
        assert (Hz : 0 <= z < 256).
        { apply fg_Some in Ez as [Ez _]. apply wf_cons in W as (W & _). destruct W as (_ & _ & _ & W).
          rewrite Forall_forall in W. auto. }
        rewrite E2. cbn [bind]. replace (zlen (x :: r) - 1 + 1) with (zlen (x :: r)) by lia.
        destruct (Z.ltb_spec (zlen (x :: r)) 31).
        -- rewrite S1 by lia. cbn [bind nf]. rewrite u32_id by lia. f_equal. lia.
        -- rewrite S2 by lia. cbn [bind nf]. rewrite u32_id by lia. f_equal. lia.
Qed.

(** ** chunks *)
Lemma view_blocks mem slack it id c cs :
  it_view slack mem it ((id, c) :: cs) -> 0 <= slack -> kind_of c = KSparse ->
  blocks_at mem (i_data it) (i_data it + 2 * zlen (blocks_of c)) (blocks_of c)
  /\ 1 <= zlen (blocks_of c) <= 256 /\ 0 <= i_data it
  /\ i_data it + 2 * zlen (blocks_of c) < zlen mem /\ ungroup 256 (blocks_of c) = c.
Proof.
  intros V Hs K. destruct (view_sparse _ _ _ _ _ _ V K) as (B & Hn & Hd & Hm).
  split; auto. split; auto. split; auto. split; [|apply blocks_ungroup].
  destruct (blocks_of c) as [|[i vs] bs] eqn:E; [rewrite zlen_nil in *; lia|].
  destruct B as (W & _). apply wf_cons in W as (W & _). pose proof (blocks_wf1_zlen _ _ W) as Hz.
  rewrite (zlen_datas_cons (i, vs) bs) in Hm. cbn [snd] in Hm.
  pose proof (zlen_nonneg _ (datas bs)). unfold bytes_by_cardinality in Hm.
  destruct (zlen vs <? 31); lia.
Qed.

Lemma min_sparse_chunk_ok dbg mem slack it id c cs x r :
  it_view slack mem it ((id, c) :: cs) -> 0 <= slack -> kind_of c = KSparse -> c = x :: r ->
  min_value_in_sparse_chunk dbg mem (i_data it) (zlen (blocks_of c)) = Ok x.
Proof.
  intros V Hs K E. destruct (view_blocks _ _ _ _ _ _ V Hs K) as (B & Hn & Hd & Hm & U).
  unfold min_value_in_sparse_chunk.
  rewrite assert_ok by (apply andb_true_intro; split; apply Z.leb_le; lia). cbn [bind].
  destruct (blocks_of c) as [|[i vs] bs]; [rewrite zlen_nil in *; lia|].
  pose proof (proj1 B) as W. destruct (wf_snd_cons _ _ _ _ _ W) as (y & r2 & -> & Hy).
  pose proof (wfb_id _ _ _ W).
  pose proof B as B4. apply blocks_at_cons in B4 as (_ & -> & _). cbn [bind].
  replace (zlen ((i, y :: r2) :: bs) * 2) with (2 * zlen ((i, y :: r2) :: bs)) by lia.
  rewrite (block_min_ok _ _ _ _ _ _ _ (i * 256) B) by lia.
  rewrite E in U. rewrite ungroup_cons in U. unfold ungroup1 in U. cbn [fst snd map app] in U.
  injection U as -> _. reflexivity.
Qed.

Lemma chunk_min_ok dbg mem slack it id x r cs :
  it_view slack mem it ((id, x :: r) :: cs) -> 0 <= slack ->
  chunk_min dbg mem it = Ok (id * 65536 + x).
Proof.
  intros V Hs. unfold chunk_min. rewrite (id_view_type _ _ _ _ _ (proj1 V)). cbn [bind].
  destruct (chunk_base _ _ _ _ _ (proj1 V)) as (Ei & Eb & Hi).
  pose proof (view_wf _ _ _ _ _ V) as W1. destruct W1 as (Hid & _ & Hso & Hr). cbn [fst snd] in *.
  assert (Hx : 0 <= x < 65536) by (inversion Hr; auto).
  assert (EE : forall y, y = Ok x ->
    (let! value := y in let! base := it_base mem it in Ok (u32 (value + base))) = Ok (id * 65536 + x)).
  { intros y ->. cbn [bind]. unfold it_base. rewrite Ei. cbn [bind].
    rewrite Eb. rewrite u32_id by lia. f_equal. lia. }
  apply EE. destruct (kind_of (x :: r)) eqn:K.
  - rewrite Z.eqb_refl. rewrite (id_view_blocks _ _ _ _ _ (proj1 V) K). cbn [bind].
    eapply min_sparse_chunk_ok; eauto.
  - cbn [t_dense t_sparse Z.eqb Pos.eqb].
    pose proof (min_value_in_bitmap_ok (words_mem mem (i_data it)) (Z.to_nat 1024) x r) as E.
    rewrite Z2Nat.id in E by lia. apply E; auto; try lia. eapply view_dense; eauto.
  - cbn [t_full t_dense t_sparse Z.eqb Pos.eqb]. f_equal.
    pose proof (kind_full _ _ (view_wf _ _ _ _ _ V) K) as E.
    assert (znth (x :: r) 0 = Some 0) as E0 by (rewrite E; apply znth_zrange; lia).
    injection E0; auto.
Qed.

(** the search inside one chunk *)
Lemma chunk_search dbg mem slack it id c cs v :
  it_view slack mem it ((id, c) :: cs) -> 0 <= slack -> 0 <= v < 65536 ->
  (let! t := it_type mem it in
   if t =? t_sparse then
     let! blocks := it_blocks mem it in next_geq_sparse_chunk dbg mem (i_data it) blocks v
   else if t =? t_dense then next_geq_bitmap (words_mem mem (i_data it)) M_Util.chunk_size_in_64bit_words v
   else if t =? t_full then Ok v else UB)
  = Ok (nf (fg c v)).
Proof.
  intros V Hs Hv. rewrite (id_view_type _ _ _ _ _ (proj1 V)). cbn [bind].
  pose proof (view_wf _ _ _ _ _ V) as (_ & _ & Hso & Hr). cbn [snd] in *.
  destruct (kind_of c) eqn:K.
  - rewrite Z.eqb_refl. rewrite (id_view_blocks _ _ _ _ _ (proj1 V) K). cbn [bind].
    destruct (view_blocks _ _ _ _ _ _ V Hs K) as (B & Hn & Hd & Hm & U).
    rewrite <- U at 2. apply next_geq_sparse_chunk_ok; auto; lia.
  - cbn [t_dense t_sparse Z.eqb Pos.eqb]. change M_Util.chunk_size_in_64bit_words with 1024.
    apply next_geq_bitmap_ok; auto; try lia. eapply view_dense; eauto.
  - cbn [t_full t_dense t_sparse Z.eqb Pos.eqb].
    pose proof (kind_full _ _ (view_wf _ _ _ _ _ V) K) as E.
    rewrite (fg_least c v v); auto; try lia.
    rewrite E. apply In_zrange. lia.
Qed.

Lemma wfc_id id c cs : wfc ((id, c) :: cs) -> 0 <= id < 65535.
Proof. intros (W & _)%wf_cons. destruct W as (W & _). exact W. Qed.

Lemma next_geq_ok dbg mem a S v :
  valid S -> stored 0 mem a S -> is_u32 v ->
  exists s, seq_at mem a = Ok s /\ next_geq dbg mem s v = Ok (spec_next_geq S v).
Proof.
  intros H St Hv. destruct (stored_seq 0 mem a S H St ltac:(lia)) as (s & Es & En & V & A & B0).
  destruct (valid_chunks S H) as (W & N & U & SC & L). unfold is_u32 in Hv.
  exists s. split; auto. unfold next_geq. rewrite shiftr_16.
  destruct (skip_to_value_ok 0 mem (seq_begin s) (chunks_of S) (v / 65536)) as
    (it & pre & suf & -> & D & V' & _); auto; [lia|]. cbn [bind].
  rewrite fg_spec. rewrite <- U. destruct D as (E & F1 & F2). rewrite E in W |- *.
  rewrite (fg_pre 65536 65535); auto; [|lia|now apply wf_app in W].
  apply wf_app in W as [_ W].
  destruct suf as [|[id c] suf].
  - rewrite (id_view_base _ _ _ (proj1 V')). cbn [bind].
    destruct pre as [|ch pre]; [now rewrite E in N|].
    assert (0 < v).
    { inversion F1; subst. pose proof (valid_chunks S H) as (W' & _). rewrite E in W'.
      destruct ch as [i c]. apply wfc_id in W'. cbn [fst] in *. lia. }
    destruct (Z.leb_spec v 0); [lia|].
    rewrite (id_view_has_next _ _ _ (proj1 V')). reflexivity.
  - rewrite (id_view_base _ _ _ (proj1 V')). cbn [bind fst].
    rewrite (id_view_has_next _ _ _ (proj1 V')).
    pose proof (wfc_id _ _ _ W) as Hid. inversion F2; subst. cbn [fst] in *.
    destruct (Z.leb_spec v (id * 65536)).
    + destruct (wf_snd_cons _ _ _ _ _ W) as (x & r & -> & Hx).
      rewrite (fg_head 65536 65535) by (auto; lia). cbn [nf]. eapply chunk_min_ok; eauto. lia.
    + assert (Ei : id = v / 65536) by lia. rewrite (fg_same 65536 65535) by (auto; lia).
      rewrite land_65535 by lia.
      pose proof (chunk_search dbg mem 0 it id c suf (v mod 65536) V' ltac:(lia) ltac:(lia)) as CS.
      pose proof (view_wf _ _ _ _ _ V') as (_ & _ & _ & Hr). cbn [snd] in Hr.
      revert CS. rewrite (id_view_type _ _ _ _ _ (proj1 V')). cbn [bind]. intros ->. cbn [bind].
      destruct (fg c (v mod 65536)) as [x|] eqn:Ex; cbn [nf].
      * apply fg_Some in Ex as [Ex _]. rewrite Forall_forall in Hr. specialize (Hr x Ex).
        change not_found with 4294967295. destruct (Z.eqb_spec x 4294967295); [lia|]. cbn [negb bind].
        rewrite u32_id by lia. f_equal. lia.
      * rewrite Z.eqb_refl. cbn [negb]. destruct (view_next _ _ _ _ _ _ V') as (it' & -> & V2 & _).
        cbn [bind]. rewrite (id_view_has_next _ _ _ (proj1 V2)).
        destruct suf as [|[id2 c2] suf]; [reflexivity|].
        pose proof W as W0. apply wf_cons in W as (_ & W2 & F). inversion F; subst. cbn [fst] in *.
        destruct (wf_snd_cons _ _ _ _ _ W2) as (x & r & -> & Hx).
        rewrite (fg_head 65536 65535) by (auto; lia). cbn [nf]. eapply chunk_min_ok; eauto. lia.
Qed.
