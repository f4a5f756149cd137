(** Decoding, uncompressing and enumerating damaged sequences is defined if enough memory is readable. *)
From Verif Require Import Base Hw Spec Outcome Lib L_Bits L_Group Layout Format Damage M_Util M_Build M_Seq M_Decode M_Uncompress
  M_Query P_Build1 P_Build2 P_Build3 P_Seq P_Decode P_Uncompress P_Query P_Enum P_Format P_Fin1 P_Total P_Reads
  P_Damage P_Damage2 P_Cut P_Ex P_Spoil.
From Coq Require Import Lia.

Definition fin {A} (r : res A) (P : A -> Prop) : Prop := exists x, r = Ok x /\ P x.
Lemma fin_ok A (x : A) (P : A -> Prop) : P x -> fin (Ok x) P.
Proof. intro H. exists x. auto. Qed.
Lemma fin_seq A B (a : res A) (f : A -> res B) P Q : fin a P -> (forall x, P x -> fin (f x) Q) -> fin (bind a f) Q.
Proof. intros (x & -> & H) K. cbn [bind]. auto. Qed.
Lemma fin_mono A (a : res A) (P Q : A -> Prop) : fin a P -> (forall x, P x -> Q x) -> fin a Q.
Proof. intros (x & E & H) K. exists x. auto. Qed.
Lemma fin_and A (a : res A) (P Q : A -> Prop) : fin a P -> okp a Q -> fin a (fun x => P x /\ Q x).
Proof. intros (x & E & H) K. exists x. auto. Qed.

Lemma store_fin buf pos vals : 0 <= pos -> pos + zlen vals <= zlen buf -> fin (store buf pos vals) (fun b => zlen b = zlen buf).
Proof. intros H1 H2. destruct (store_ok buf pos vals H1 H2) as (b & E & W). exists b. split; auto. now apply wrote_zlen in W. Qed.
Lemma vset_fin buf pos x : 0 <= pos < zlen buf -> fin (vset buf pos x) (fun b => zlen b = zlen buf).
Proof. intro H. apply store_fin; zl. Qed.

Section Mem.
Variable mem : list Z.
Hypothesis Hb : Forall is_byte mem.

Lemma rd8_fin a : 0 <= a < zlen mem -> fin (rd8 mem a) is_byte.
Proof.
  intro H. destruct (znth_Some _ mem a H) as (x & E). exists x. unfold rd8, vget. rewrite E. split; auto.
  apply znth_In in E. rewrite Forall_forall in Hb. auto.
Qed.
Lemma rd_bytes_fin : forall n a, 0 <= a -> a + Z.of_nat n <= zlen mem ->
  fin (rd_bytes mem a n) (fun l => length l = n /\ Forall is_byte l).
Proof.
  induction n as [|n IH]; intros a H1 H2; cbn [rd_bytes]; [apply fin_ok; auto|].
  eapply fin_seq; [apply rd8_fin; lia|]. intros x Hx. eapply fin_seq; [apply IH; lia|]. intros l [L F].
  apply fin_ok. cbn [length]. auto.
Qed.
Lemma rd64_fin a : 0 <= a -> a + 8 <= zlen mem -> fin (rd64 mem a) w64.
Proof.
  intros H1 H2. unfold rd64, rd_le. eapply fin_seq; [apply (rd_bytes_fin 8 a); lia|]. intros l [L F]. apply fin_ok.
  pose proof (le_val_range l F) as R. unfold zlen in R. rewrite L in R. exact R.
Qed.
(** any readable bytes are a bitmap *)
Definition bm (a x : Z) : bool := match rd64 mem (a + 8 * (x / 64)) with Ok w => Z.testbit w (x mod 64) | _ => false end.
Lemma bm_any a n : 0 <= a -> a + 8 * n <= zlen mem -> bm_at (words_mem mem a) n (bm a).
Proof.
  intros H1 H2 i Hi. destruct (rd64_fin (a + 8 * i)) as (w & E & W); [lia..|]. exists w. unfold words_mem. split; auto.
  split; auto. intros j Hj. unfold bm. replace ((64 * i + j) / 64) with i by lia. replace ((64 * i + j) mod 64) with j by lia.
  now rewrite E.
Qed.
Lemma decode_bitmap_fin a n base out pos : 0 <= n <= 1024 -> 0 <= a -> a + 8 * n <= zlen mem -> 0 <= pos -> pos + 64 * n <= zlen out ->
  fin (decode_bitmap (words_mem mem a) n base out pos) (fun r => zlen (fst r) = zlen out /\ 0 <= snd r <= 64 * n).
Proof.
  intros Hn H1 H2 H3 H4. unfold decode_bitmap.
  assert (L : zlen (filter (bm a) (zrange (64 * 0) (64 * Z.to_nat n))) <= 64 * n).
  { unfold zlen. pose proof (filter_length_le _ (bm a) (zrange (64 * 0) (64 * Z.to_nat n))) as F.
    pose proof (zlen_zrange (64 * 0) (64 * Z.to_nat n)) as ZL. unfold zlen in ZL. lia. }
  pose proof (zlen_nonneg _ (filter (bm a) (zrange (64 * 0) (64 * Z.to_nat n)))) as P.
  destruct (bitmap_loop_ok (Z.to_nat n) (words_mem mem a) (bm a) 0 base out pos 0) as (b & -> & W); try lia.
  { intros k K1 K2. apply (bm_any a n); lia. }
  cbn [bind]. apply fin_ok. cbn [fst snd]. rewrite (wrote_zlen _ _ _ _ _ W). split; auto. rewrite u32_id by lia. lia.
Qed.
Lemma decode_step_fin begin base out pos off :
  0 <= begin + off -> begin + off + 16 <= zlen mem -> 0 <= pos + off -> pos + off + 8 <= zlen out ->
  fin (decode_step mem begin base out pos off) (fun o => zlen o = zlen out).
Proof.
  intros H1 H2 H3 H4. unfold decode_step, load128. eapply fin_seq; [apply rd_bytes_fin; lia|]. intros l [L _].
  apply store_fin; auto. unfold cvt_add. rewrite zlen_map, zlen_firstn. unfold zlen at 1. rewrite L. lia.
Qed.
Lemma decode_sparse_block_fin begin card base out pos :
  0 <= begin -> begin + 40 <= zlen mem -> 0 <= pos -> pos + 32 <= zlen out ->
  fin (decode_sparse_block mem begin card base out pos) (fun r => zlen (fst r) = zlen out /\ snd r = card).
Proof.
  intros H1 H2 H3 H4. unfold decode_sparse_block. eapply fin_seq; [apply decode_step_fin; lia|]. intros o1 L1. cbn beta in L1.
  destruct (card <=? 8); [apply fin_ok; auto|].
  eapply fin_seq; [apply decode_step_fin; lia|]. intros o2 L2. cbn beta in L2.
  eapply fin_seq; [apply decode_step_fin; lia|]. intros o3 L3. cbn beta in L3.
  eapply fin_seq; [apply decode_step_fin; lia|]. intros o4 L4. cbn beta in L4.
  apply fin_ok. cbn [fst snd]. split; [congruence|auto].
Qed.
Lemma decode_sparse_chunk_fin end_ base : forall n fuel begin data out tmp,
  (n <= fuel)%nat -> end_ = begin + 2 * Z.of_nat n -> 0 <= begin -> end_ <= zlen mem ->
  0 <= data -> data + 32 * Z.of_nat n + 8 <= zlen mem -> 0 <= tmp -> tmp + 256 * Z.of_nat n <= zlen out ->
  fin (decode_sparse_chunk_loop fuel mem begin end_ data base out tmp)
    (fun r => zlen (fst r) = zlen out /\ tmp <= snd r <= tmp + 256 * Z.of_nat n).
Proof.
  induction n as [|n IH]; intros fuel begin data out tmp Hf He H1 H2 H3 H4 H5 H6.
  - destruct fuel; cbn [decode_sparse_chunk_loop]; (destruct (Z.eqb_spec begin end_); [|lia]); apply fin_ok; cbn [fst snd]; lia.
  - destruct fuel as [|f]; [lia|]. cbn [decode_sparse_chunk_loop]. destruct (Z.eqb_spec begin end_); [lia|].
    eapply fin_seq; [apply rd8_fin; lia|]. intros id Hid. eapply fin_seq; [apply rd8_fin; lia|]. intros c Hc.
    unfold is_byte in Hc. cbv zeta.
    assert (HB : 0 <= bytes_by_cardinality (c + 1) <= 32).
    { unfold bytes_by_cardinality. change block_sparseness_threshold with 31. change (block_size / 8) with 32.
      destruct (Z.ltb_spec (c + 1) 31); lia. }
    apply fin_seq with (P := fun r => zlen (fst r) = zlen out /\ 0 <= snd r <= 256).
    + destruct (block_type (c + 1) =? t_sparse).
      * eapply fin_mono; [apply decode_sparse_block_fin; lia|]. cbn beta. intros r [L E]. split; auto. lia.
      * apply (decode_bitmap_fin data 4); lia.
    + intros [o k] [L K]. cbn [fst snd] in *. eapply fin_mono; [apply (IH f (begin + 2) (data + bytes_by_cardinality (c + 1)) o (tmp + k)); lia|].
      cbn beta. intros r [L2 K2]. split; [congruence|lia].
Qed.
Lemma decode_full_fin base pos : forall n i out, 0 <= pos + i -> pos + i + Z.of_nat n <= zlen out ->
  fin (decode_full_loop n i base out pos) (fun o => zlen o = zlen out).
Proof.
  induction n as [|n IH]; intros i out H1 H2; cbn [decode_full_loop]; [now apply fin_ok|].
  eapply fin_seq; [apply vset_fin; lia|]. intros o L. cbn beta in L. eapply fin_mono; [apply IH; lia|]. cbn beta. intros; congruence.
Qed.

(** 34 bytes per block *)
Lemma decode_chunk_fin dbg it id c cs out pos :
  id_view mem it ((id, c) :: cs) -> 0 <= i_data it -> i_data it + 8712 <= zlen mem -> 0 <= pos -> pos + 65536 <= zlen out ->
  fin (decode_chunk dbg mem it out pos) (fun r => zlen (fst r) = zlen out /\ 0 <= snd r <= 65536).
Proof.
  intros V D1 D2 P1 P2. pose proof (id_view_wf _ _ _ _ V) as W1. unfold decode_chunk.
  rewrite (id_view_id _ _ _ V). cbn [bind fst]. rewrite (id_view_type _ _ _ _ _ V). cbn [bind].
  destruct (kind_of c) eqn:K; cbn [t_full t_dense t_sparse Z.eqb Pos.eqb].
  - rewrite (id_view_blocks _ _ _ _ _ V K). cbn [bind]. unfold decode_sparse_chunk.
    pose proof (blocks_count _ _ W1) as BC.
    rewrite assert_ok by (apply andb_true_intro; split; apply Z.leb_le; lia). cbn [bind]. cbv zeta.
    eapply fin_seq; [apply (decode_sparse_chunk_fin _ _ (Z.to_nat (zlen (blocks_of c)))); lia|].
    intros [o t] [L T]. cbn [fst snd] in *. apply fin_ok. cbn [fst snd]. split; auto. rewrite u32_id by lia. lia.
  - change chunk_size_in_64bit_words with 1024. apply (decode_bitmap_fin (i_data it) 1024); lia.
  - unfold decode_full_chunk. eapply fin_seq.
    + apply (decode_full_fin _ _ (Z.to_nat chunk_size) 0); [lia|]. change chunk_size with 65536. rewrite Z2Nat.id by lia. lia.
    + intros o L. cbn beta in L. apply fin_ok. cbn [fst snd]. change chunk_size with 65536. split; [auto|lia].
Qed.

(** ** uncompress *)
Lemma fill_fin x pos : forall n i out, 0 <= pos + i -> pos + i + Z.of_nat n <= zlen out ->
  fin (fill_loop n i x out pos) (fun o => zlen o = zlen out).
Proof.
  induction n as [|n IH]; intros i out H1 H2; cbn [fill_loop]; [now apply fin_ok|].
  eapply fin_seq; [apply vset_fin; lia|]. intros o L. cbn beta in L. eapply fin_mono; [apply IH; lia|]. cbn beta. intros; congruence.
Qed.
Lemma memcpy_fin a n out pos : 0 <= n -> 0 <= a -> a + 8 * n <= zlen mem -> 0 <= pos -> pos + n <= zlen out ->
  fin (memcpy_words mem a n out pos) (fun o => zlen o = zlen out).
Proof.
  intros Hn H1 H2 H3 H4. destruct (memcpy_words_ok mem a n (bm a) out pos) as (o & E & _ & L & _); auto using bm_any.
  exists o. auto.
Qed.
Lemma sparse_block_fin pos : forall n begin end_ out, (n > 0)%nat -> end_ = begin + Z.of_nat n ->
  0 <= begin -> end_ <= zlen mem -> 0 <= pos -> pos + 4 <= zlen out ->
  fin (uncompress_sparse_block_loop n mem begin end_ out pos) (fun o => zlen o = zlen out).
Proof.
  induction n as [|n IH]; intros begin end_ out Hn He H1 H2 H3 H4; [lia|]. cbn [uncompress_sparse_block_loop].
  eapply fin_seq; [apply rd8_fin; lia|]. intros p Hp. unfold is_byte in Hp. cbv zeta.
  assert (HS : 0 <= shrx 6 p < 4).
  { unfold shrx. rewrite Z.shiftr_div_pow2 by (apply Z.mod_pos_bound; lia). change (2 ^ (6 mod 64)) with 64. lia. }
  apply fin_seq with (P := fun _ => True).
  { destruct (znth_Some _ out (pos + shrx 6 p)) as (w & E); [lia|]. exists w. split; auto. unfold vget. now rewrite E. }
  intros w _. eapply fin_seq; [apply vset_fin; lia|]. intros o L. cbn beta in L.
  destruct (Z.eqb_spec (begin + 1) end_); [now apply fin_ok|].
  eapply fin_mono; [apply IH; lia|]. cbn beta. intros; congruence.
Qed.
Lemma sparse_chunk_fin pos : forall n begin data prev out,
  0 <= begin -> begin + 2 * Z.of_nat n <= zlen mem -> 0 <= data -> data + 32 * Z.of_nat n <= zlen mem ->
  0 <= pos -> pos + 1024 <= zlen out ->
  fin (uncompress_sparse_chunk_loop n mem begin data (pos + 4 * prev) prev out) (fun o => zlen o = zlen out).
Proof.
  induction n as [|n IH]; intros begin data prev out H1 H2 H3 H4 H5 H6; cbn [uncompress_sparse_chunk_loop]; [now apply fin_ok|].
  eapply fin_seq; [apply rd8_fin; lia|]. intros id Hid. eapply fin_seq; [apply rd8_fin; lia|]. intros c Hc.
  unfold is_byte in *. cbv zeta. change block_size_in_64bit_words with 4.
  replace (pos + 4 * prev + (id - prev) * 4) with (pos + 4 * id) by lia.
  assert (HB : 0 <= bytes_by_cardinality (c + 1) <= 32).
  { unfold bytes_by_cardinality. change block_sparseness_threshold with 31. change (block_size / 8) with 32.
    destruct (Z.ltb_spec (c + 1) 31); lia. }
  apply fin_seq with (P := fun o => zlen o = zlen out).
  - unfold block_type. change block_sparseness_threshold with 31. destruct (Z.ltb_spec (c + 1) 31) as [L|L].
    + rewrite Z.eqb_refl. unfold uncompress_sparse_block. apply sparse_block_fin; lia.
    + cbn [t_dense t_sparse Z.eqb Pos.eqb]. apply (memcpy_fin data 4); lia.
  - intros o L. cbn beta in L. eapply fin_mono; [apply IH; lia|]. cbn beta. intros; congruence.
Qed.
Lemma uncompress_chunk_fin dbg it id c cs out pos :
  id_view mem it ((id, c) :: cs) -> 0 <= i_data it -> i_data it + 8712 <= zlen mem -> 0 <= pos -> pos + 1024 <= zlen out ->
  fin (uncompress_chunk dbg mem it out pos) (fun r => zlen (fst r) = zlen out /\ snd r = zlen c).
Proof.
  intros V D1 D2 P1 P2. pose proof (id_view_wf _ _ _ _ V) as W1. unfold uncompress_chunk.
  rewrite (id_view_type _ _ _ _ _ V). cbn [bind]. rewrite (id_view_cardinality _ _ _ _ _ V).
  apply fin_seq with (P := fun o => zlen o = zlen out); [|intros o L; cbn [bind]; apply fin_ok; auto].
  destruct (kind_of c) eqn:K; cbn [t_full t_dense t_sparse Z.eqb Pos.eqb].
  - pose proof (blocks_count _ _ W1) as BC.
    eapply fin_seq; [apply (fill_fin 0 pos (Z.to_nat 1024) 0); rewrite ?Z2Nat.id by lia; lia|]. intros o L. cbn beta in L.
    rewrite (id_view_blocks _ _ _ _ _ V K). cbn [bind]. unfold uncompress_sparse_chunk.
    rewrite assert_ok by (apply andb_true_intro; split; apply Z.leb_le; lia). cbn [bind].
    pose proof (sparse_chunk_fin pos (Z.to_nat (zlen (blocks_of c))) (i_data it) (i_data it + zlen (blocks_of c) * 2) 0 o) as F.
    replace (pos + 4 * 0) with pos in F by lia. eapply fin_mono; [apply F; lia|]. cbn beta. intros; congruence.
  - apply (memcpy_fin (i_data it) 1024); lia.
  - unfold uncompress_full_chunk. change (Z.to_nat chunk_size_in_64bit_words) with (Z.to_nat 1024).
    apply fill_fin; rewrite ?Z2Nat.id by lia; lia.
Qed.
End Mem.

Lemma decode_loop_fin dbg mem : Forall is_byte mem -> forall cs it out pos,
  id_view mem it cs -> 0 <= i_data it -> i_data it + zlen (cdatas cs) + 8712 <= zlen mem ->
  0 <= pos -> pos + 65536 * zlen cs <= zlen out ->
  fin (decode_loop (length cs) dbg mem it out pos) (fun _ => True).
Proof.
  intro Hb. induction cs as [|[id c] cs IH]; intros it out pos V D1 D2 P1 P2; cbn [length decode_loop]; [now apply fin_ok|].
  rewrite cdatas_cons, zlen_app in D2. rewrite zlen_cons in P2. cbn [snd] in D2.
  pose proof (zlen_nonneg _ (cdatas cs)). pose proof (zlen_nonneg _ (chunk_data c)). pose proof (zlen_nonneg _ cs).
  eapply fin_seq; [apply (decode_chunk_fin mem Hb dbg it id c cs); auto; lia|]. intros [o k] [L K]. cbn [fst snd] in *.
  destruct (id_view_next _ _ _ _ _ V) as (it' & -> & V' & _ & _ & D & _). cbn [bind]. apply IH; auto; lia.
Qed.
Lemma uncompress_loop_fin dbg mem : Forall is_byte mem -> forall cs it prev u out pos0,
  id_view mem it cs -> 0 <= i_data it -> i_data it + zlen (cdatas cs) + 8712 <= zlen mem ->
  0 <= pos0 -> (forall id c, In (id, c) cs -> pos0 + 1024 * (id + 1) <= zlen out) ->
  fin (uncompress_loop (length cs) dbg mem it prev u out (pos0 + 1024 * prev)) (fun r => snd r = u + sum_card cs).
Proof.
  intro Hb. induction cs as [|[id c] cs IH]; intros it prev u out pos0 V D1 D2 P1 P2; cbn [length uncompress_loop].
  { apply fin_ok. cbn [snd]. change (sum_card []) with 0. lia. }
  rewrite cdatas_cons, zlen_app in D2. cbn [snd] in D2.
  pose proof (zlen_nonneg _ (cdatas cs)). pose proof (zlen_nonneg _ (chunk_data c)).
  rewrite (id_view_id _ _ _ V). cbn [bind fst].
  pose proof (proj1 V) as W. apply wf_cons in W as ((Hid & _) & _). cbn [fst] in Hid.
  rewrite u16_id by lia. change M_Util.chunk_size_in_64bit_words with 1024.
  replace (pos0 + 1024 * prev + (id - prev) * 1024) with (pos0 + 1024 * id) by lia.
  pose proof (P2 id c (in_eq _ _)).
  eapply fin_seq; [apply (uncompress_chunk_fin mem Hb dbg it id c cs); auto; lia|]. intros [o k] [L K]. cbn [fst snd] in L, K. subst k.
  destruct (id_view_next _ _ _ _ _ V) as (it' & -> & V' & _ & _ & D & _). cbn [bind].
  eapply fin_mono; [apply (IH it' id (u + zlen c) o pos0 V'); auto; try lia|].
  - intros id2 c2 H2. rewrite L. apply (P2 id2 c2). now right.
  - cbn beta. intros r ->. unfold sum_card. cbn [fold_right snd]. lia.
Qed.

(** ** the enumerator *)
Definition en_inv2 (mem : list Z) (e : enumerator) (n : Z) (cs : list (Z * list Z)) : Prop :=
  exists id c, n = zlen c - en_i e + sum_card cs /\ id_view mem (en_it e) ((id, c) :: cs)
    /\ 0 <= i_data (en_it e) /\ i_data (en_it e) + zlen (cdatas ((id, c) :: cs)) + 8712 <= zlen mem
    /\ 0 <= en_chunk e /\ en_chunks e = en_chunk e + 1 + zlen cs /\ en_chunks e <= 65535
    /\ en_cardinality e = zlen c /\ 0 <= en_i e < zlen c /\ zlen (en_buf e) = 65536.

Lemma enum_start_fin dbg mem it id c cs buf p chunk chunks hn : Forall is_byte mem ->
  id_view mem it ((id, c) :: cs) -> 0 <= i_data it -> i_data it + zlen (cdatas ((id, c) :: cs)) + 8712 <= zlen mem ->
  zlen buf = 65536 -> 0 <= chunk -> chunks = chunk + 1 + zlen cs -> chunks <= 65535 ->
  fin (let! k := it_cardinality mem it in
       let! (buf, _) := decode_chunk dbg mem it buf 0 in
       Ok (mkEnum it chunk chunks 0 k p hn buf)) (fun e => en_inv2 mem e (sum_card ((id, c) :: cs)) cs).
Proof.
  intros Hb V D1 D2 Hl Hc Hn Hm. pose proof (id_view_wf _ _ _ _ V) as W1. pose proof (chunk_card _ _ W1) as Hcc.
  rewrite (id_view_cardinality _ _ _ _ _ V). cbn [bind]. pose proof (zlen_nonneg _ (cdatas ((id, c) :: cs))).
  eapply fin_seq; [apply (decode_chunk_fin mem Hb dbg it id c cs); auto; lia|]. intros [b k] [L _]. cbn [fst] in L.
  apply fin_ok. exists id, c. cbn [en_it en_chunk en_chunks en_i en_cardinality en_buf].
  split; [unfold sum_card; cbn [fold_right snd]; lia|].
  split; auto. split; auto. split; auto. split; auto. split; auto. split; auto. split; auto. split; [lia|]. congruence.
Qed.
Lemma enum_steps_fin dbg mem : Forall is_byte mem -> forall k e n cs,
  en_inv2 mem e n cs -> Z.of_nat k < n + 4294967296 -> fin (enum_steps k dbg mem e) (fun _ => True).
Proof.
  intro Hb. induction k as [|k IH]; intros e n cs (id & c & -> & V & D1 & D2 & C0 & C1 & C2 & C3 & Hi & Hl) Hk; cbn [enum_steps]; [now apply fin_ok|].
  pose proof (id_view_wf _ _ _ _ V) as W1. pose proof (chunk_card _ _ W1) as Hcc. pose proof (zlen_nonneg _ cs).
  pose proof (sum_card_nonneg cs). unfold enum_next. rewrite u32_id by lia. rewrite C3. destruct (Z.eqb_spec (en_i e + 1) (zlen c)) as [E|E].
  - rewrite u32_id by lia. rewrite C1. destruct cs as [|[id2 c2] cs].
    + rewrite zlen_nil. destruct (Z.eqb_spec (en_chunk e + 1) (en_chunk e + 1 + 0)); [|lia]. cbn [bind].
      match goal with |- context [enum_steps k dbg mem ?x] =>
        destruct (enum_steps_done dbg mem (en_past_the_end e) k x 0) as (e' & Ee & _) end; change (sum_card []) with 0 in *; try lia; [|exists e'; auto].
      repeat split; cbn [en_has_next en_past_the_end en_cardinality en_i en_buf]; auto; try lia. rewrite u32_id; lia.
    + rewrite zlen_cons in *. pose proof (zlen_nonneg _ cs).
      destruct (Z.eqb_spec (en_chunk e + 1) (en_chunk e + 1 + (zlen cs + 1))); [lia|].
      destruct (id_view_next _ _ _ _ _ V) as (it' & -> & V' & _ & _ & D & _). cbn [bind].
      rewrite cdatas_cons, zlen_app in D2. cbn [snd] in D2. pose proof (zlen_nonneg _ (chunk_data c)).
      eapply fin_seq; [apply (enum_start_fin dbg mem it' id2 c2 cs (en_buf e)); auto; lia|].
      intros e' I. cbn beta in I. apply (IH e' _ cs I).
      unfold sum_card in *. cbn [fold_right snd] in *. lia.
  - cbn [bind]. apply (IH _ (zlen c - (en_i e + 1) + sum_card cs) cs); [|lia]. exists id, c. cbn [en_it en_chunk en_chunks en_i en_cardinality en_buf].
    split; auto. split; auto. split; auto. split; auto. split; auto. split; auto. split; auto. split; auto. split; [lia|exact Hl].
Qed.

Lemma c56_defined : forall dbg mem a S s,
  valid S -> Forall is_byte mem -> intact 0 (fun _ => False) mem a S -> seq_at mem a = Ok s ->
  a + zlen (f_sequence S) + 8712 <= zlen mem ->
  (forall out pos, 0 <= pos -> (forall v, In v S -> pos + 1024 * (v / 65536 + 1) <= zlen out) ->
     exists r, uncompress dbg mem s out pos = Ok r)
  /\ (forall out pos, 0 <= pos -> pos + 65536 * zlen (ids 65536 (Z.to_nat 65536) S) <= zlen out ->
     exists r, decode dbg mem s out pos = Ok r)
  /\ (forall buf p k, zlen buf = 65536 -> Z.of_nat k < zlen S + 4294967296 ->
     exists e, (let! e := enum_init dbg mem buf s p in enum_steps k dbg mem e) = Ok e).
Proof.
  intros dbg mem a S s H Hb St Es HL.
  destruct (intact_seq 0 _ mem a S H St ltac:(lia)) as (s' & Es' & En & V & A). rewrite Es in Es'. apply Ok_inj in Es'. subst s'.
  destruct (valid_chunks S H) as (W & N & U & SC & L). destruct V as (V & D1 & _).
  assert (D2 : i_data (seq_begin s) + zlen (cdatas (chunks_of S)) + 8712 <= zlen mem).
  { rewrite <- (layout_format S H), zlen_layout in HL.
    revert Es En. unfold seq_at. destruct (rd16 mem a) as [x| | | |]; try discriminate. cbn [bind].
    intro Es. apply Ok_inj in Es. rewrite <- Es. cbn [s_chunks seq_begin s_data i_data].
    change M_Util.associativity with 32. intros ->. lia. }
  rewrite (zlen_ids_chunks S H). split; [|split].
  - intros out pos Hp Hr. unfold uncompress. rewrite En, <- length_zlen.
    destruct (uncompress_loop_fin dbg mem Hb (chunks_of S) (seq_begin s) 0 0 out pos V D1 D2 Hp) as ([o e] & E & C).
    { intros id c Hc. assert (HC : has_chunk S id).
      { apply has_chunk_fst; [exact H|]. apply in_map_iff. exists (id, c). split; [reflexivity|exact Hc]. }
      destruct HC as (v & Hv & <-). auto. }
    replace (pos + 1024 * 0) with pos in E by lia. rewrite E. cbn [bind snd] in *. rewrite assert_ok; [cbn [bind]; eauto|].
    apply Z.ltb_lt. destruct H as (NS & _). rewrite C, SC. destruct S; [easy|zl].
  - intros out pos Hp Hr. unfold decode. rewrite En, <- length_zlen.
    destruct (decode_loop_fin dbg mem Hb (chunks_of S) (seq_begin s) out pos V D1 D2 Hp Hr) as ([o e] & -> & _).
    cbn [bind]. eauto.
  - intros buf p k Hl Hk. unfold enum_init. rewrite <- SC in Hk.
    destruct (chunks_of S) as [|[id c] cs] eqn:EC; [easy|]. rewrite zlen_cons in En.
    assert (LC : s_chunks s <= 65535).
    { rewrite En. pose proof (chunks_le _ W) as LC. rewrite zlen_cons in LC. exact LC. }
    assert (F : fin (let! e := enum_init dbg mem buf s p in enum_steps k dbg mem e) (fun _ => True)).
    { unfold enum_init. eapply fin_seq; [apply (enum_start_fin dbg mem (seq_begin s) id c cs buf p 0 (s_chunks s) true Hb V D1 D2 Hl); lia|].
      intros e I. exact (enum_steps_fin dbg mem Hb k e _ cs I Hk). }
    destruct F as (e & E & _). exists e. exact E.
Qed.

(** ** examples: [mem_first] of P_Damage2, and the same with 8712 more bytes *)
Definition mem_far : list Z := [1; 2; 3] ++ overwrite encA 26 (repeat 255 41) ++ rest ++ repeat 0 (Z.to_nat 8712).
Lemma intact_far : intact 31 (fun h => h <> 0) mem_far ex_a exA.
Proof.
  unfold mem_far. replace 26 with (chunk_start exA 0) by (rewrite chunk_start_def, head_A; vm_compute; reflexivity).
  apply (c52_overwritten false exA encA 0 (repeat 255 41) [1; 2; 3] (rest ++ repeat 0 (Z.to_nat 8712)) 31 valid_A encoding_A).
  - lia.
  - vm_compute. reflexivity.
  - vm_compute. discriminate.
Qed.
Lemma bytes_all l : forallb (fun x => (0 <=? x) && (x <? 256)) l = true -> Forall is_byte l.
Proof.
  intro H. apply Forall_forall. intros x Hx. rewrite forallb_forall in H. specialize (H x Hx). unfold is_byte. lia.
Qed.
Lemma bytes_first : Forall is_byte mem_first.
Proof. apply bytes_all. vm_compute. reflexivity. Qed.
Lemma bytes_far : Forall is_byte mem_far.
Proof. apply bytes_all. vm_compute. reflexivity. Qed.
