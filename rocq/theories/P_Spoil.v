(** Decoding, uncompressing and enumerating sequences of which only some chunks are intact. *)
From Verif Require Import Base Hw Spec Outcome Lib L_Bits L_Group Layout Format Damage M_Util M_Build M_Seq M_Decode M_Uncompress
  M_Query P_Build1 P_Build2 P_Build3 P_Seq P_Decode P_Uncompress P_Query P_Enum P_Format P_Fin1 P_Total P_Reads
  P_Damage P_Damage2.
From Coq Require Import Lia.

(** a condition on the result, if there is one *)
Definition okp {A} (r : res A) (P : A -> Prop) : Prop := forall x, r = Ok x -> P x.
Lemma okp_ok A (x : A) (P : A -> Prop) : P x -> okp (Ok x) P.
Proof. intros H y [= <-]. exact H. Qed.
Lemma okp_seq A B (a : res A) (f : A -> res B) P Q :
  okp a P -> (forall x, P x -> okp (f x) Q) -> okp (bind a f) Q.
Proof. intros H K y E. destruct a as [x| | | |]; cbn [bind] in E; try discriminate. exact (K x (H x eq_refl) y E). Qed.
Lemma okp_any A (a : res A) : okp a (fun _ => True).
Proof. intros x _. exact I. Qed.
Lemma okp_mono A (a : res A) (P Q : A -> Prop) : okp a P -> (forall x, P x -> Q x) -> okp a Q.
Proof. intros H K x E. auto. Qed.

(** ** what is written where, whatever the bytes *)
Lemma store_outside buf pos vals : okp (store buf pos vals) (fun b => same_outside buf b pos (zlen vals)).
Proof.
  intros b E. unfold store in E. destruct (Z.leb_spec 0 pos); [|discriminate].
  destruct (Z.leb_spec (pos + zlen vals) (zlen buf)); [|discriminate].
  destruct (store_ok buf pos vals) as (b' & E' & W); auto. unfold store in E'.
  destruct (Z.leb_spec 0 pos); [|lia]. destruct (Z.leb_spec (pos + zlen vals) (zlen buf)); [|lia].
  cbn [andb] in E, E'. rewrite E in E'. injection E' as <-. destruct W as (L & _ & O).
  split; auto. intros i Hi. apply O. lia.
Qed.
Lemma vset_outside buf pos x : okp (vset buf pos x) (fun b => same_outside buf b pos 1).
Proof. apply (store_outside buf pos [x]). Qed.

Definition below (out out' : list Z) (p : Z) : Prop :=
  zlen out' = zlen out /\ forall i, i < p -> znth out' i = znth out i.
Lemma below_refl out p : below out out p.
Proof. split; auto. Qed.
Lemma below_trans out o1 o2 p q : below out o1 p -> below o1 o2 q -> p <= q -> below out o2 p.
Proof. intros [L1 H1] [L2 H2] H. split; [congruence|]. intros i Hi. rewrite H2, H1; auto. lia. Qed.
Lemma below_outside out o p n q : same_outside out o p n -> q <= p -> below out o q.
Proof. intros [L H] Hq. split; auto. intros i Hi. apply H. lia. Qed.

Lemma word_loop_below : forall fuel w base buf pos size,
  okp (word_loop fuel w base buf pos size) (fun r => below buf (fst r) (pos + size) /\ size <= snd r).
Proof.
  induction fuel as [|f IH]; intros w base buf pos size; cbn [word_loop]; destruct (w =? 0);
    try (apply okp_ok; cbn [fst snd]; split; [apply below_refl|lia]); [intros x E; discriminate|].
  eapply okp_seq; [apply vset_outside|]. intros b Hb. cbn beta in Hb.
  eapply okp_mono; [apply IH|]. cbn beta. intros r [B L]. split; [|lia].
  eapply below_trans; [eapply below_outside; [exact Hb|reflexivity]|exact B|lia].
Qed.
Lemma bitmap_loop_below word : forall n i base buf pos size,
  okp (bitmap_loop n word i base buf pos size) (fun r => below buf (fst r) (pos + size) /\ size <= snd r).
Proof.
  induction n as [|n IH]; intros i base buf pos size; cbn [bitmap_loop].
  - apply okp_ok. cbn [fst snd]. split; [apply below_refl|lia].
  - eapply okp_seq; [apply okp_any|]. intros w _. eapply okp_seq; [apply word_loop_below|].
    intros [b s] [B L]. cbn [fst snd] in *. eapply okp_mono; [apply IH|]. cbn beta. intros r [B2 L2].
    split; [|lia]. eapply below_trans; eauto. lia.
Qed.
Lemma decode_bitmap_below word n base out pos :
  okp (decode_bitmap word n base out pos) (fun r => below out (fst r) pos /\ 0 <= snd r).
Proof.
  unfold decode_bitmap. eapply okp_seq; [apply bitmap_loop_below|]. intros [b s] [B L]. cbn [fst snd] in *.
  apply okp_ok. cbn [fst snd]. split; [now rewrite Z.add_0_r in B|]. unfold u32. apply Z.mod_pos_bound. lia.
Qed.
Lemma decode_step_below mem begin base out pos off : 0 <= off ->
  okp (decode_step mem begin base out pos off) (fun o => below out o pos).
Proof.
  intro H. unfold decode_step. eapply okp_seq; [apply okp_any|]. intros v _.
  eapply okp_mono; [apply store_outside|]. cbn beta. intros o Ho. eapply below_outside; eauto. lia.
Qed.
Lemma decode_sparse_block_below mem begin card base out pos : 0 <= card ->
  okp (decode_sparse_block mem begin card base out pos) (fun r => below out (fst r) pos /\ 0 <= snd r).
Proof.
  intro H. unfold decode_sparse_block. eapply okp_seq; [apply decode_step_below; lia|]. intros o1 B1. cbn beta in B1.
  destruct (card <=? 8); [apply okp_ok; auto|].
  eapply okp_seq; [apply decode_step_below; lia|]. intros o2 B2. cbn beta in B2.
  eapply okp_seq; [apply decode_step_below; lia|]. intros o3 B3. cbn beta in B3.
  eapply okp_seq; [apply decode_step_below; lia|]. intros o4 B4. cbn beta in B4.
  apply okp_ok. cbn [fst snd]. split; auto.
  eapply below_trans; [|exact B4|reflexivity]. eapply below_trans; [|exact B3|reflexivity].
  eapply below_trans; [exact B1|exact B2|reflexivity].
Qed.

Lemma rd8_byte mem a : Forall is_byte mem -> okp (rd8 mem a) is_byte.
Proof.
  intros H x E. unfold rd8, vget in E. destruct (znth mem a) eqn:Z; [|discriminate]. injection E as <-.
  apply znth_In in Z. rewrite Forall_forall in H. auto.
Qed.

Lemma decode_sparse_chunk_loop_below mem base end_ : Forall is_byte mem -> forall fuel begin data out tmp,
  okp (decode_sparse_chunk_loop fuel mem begin end_ data base out tmp) (fun r => below out (fst r) tmp /\ tmp <= snd r).
Proof.
  intro Hb. induction fuel as [|f IH]; intros begin data out tmp; cbn [decode_sparse_chunk_loop]; destruct (begin =? end_);
    try (apply okp_ok; cbn [fst snd]; split; [apply below_refl|lia]); [intros x E; discriminate|].
  eapply okp_seq; [apply rd8_byte, Hb|]. intros id Hid. eapply okp_seq; [apply rd8_byte, Hb|]. intros c Hc.
  unfold is_byte in Hc. cbv zeta.
  apply okp_seq with (P := fun r => below out (fst r) tmp /\ 0 <= snd r).
  - destruct (block_type (c + 1) =? t_sparse); [apply decode_sparse_block_below; lia|apply decode_bitmap_below].
  - intros [o n] [B L]. cbn [fst snd] in *. eapply okp_mono; [apply IH|]. cbn beta. intros r [B2 L2].
    split; [|lia]. eapply below_trans; eauto. lia.
Qed.
Lemma decode_full_below : forall n i base out pos, 0 <= i ->
  okp (decode_full_loop n i base out pos) (fun o => below out o pos).
Proof.
  induction n as [|n IH]; intros i base out pos Hi; cbn [decode_full_loop]; [apply okp_ok, below_refl|].
  eapply okp_seq; [apply vset_outside|]. intros o Ho. cbn beta in Ho.
  eapply okp_mono; [apply IH; lia|]. cbn beta. intros o2 B2.
  eapply below_trans; [eapply below_outside; [exact Ho|]|exact B2|reflexivity]. lia.
Qed.
Lemma decode_chunk_below dbg mem it out pos : Forall is_byte mem ->
  okp (decode_chunk dbg mem it out pos) (fun r => below out (fst r) pos /\ 0 <= snd r).
Proof.
  intro Hb. unfold decode_chunk. eapply okp_seq; [apply okp_any|]. intros id _. cbv zeta.
  eapply okp_seq; [apply okp_any|]. intros t _.
  destruct (t =? t_sparse); [|destruct (t =? t_dense); [|destruct (t =? t_full)]].
  - eapply okp_seq; [apply okp_any|]. intros bl _. unfold decode_sparse_chunk. eapply okp_seq; [apply okp_any|]. intros _ _.
    cbv zeta. eapply okp_seq; [apply decode_sparse_chunk_loop_below, Hb|]. intros [o t2] [B L]. cbn [fst snd] in *.
    apply okp_ok. cbn [fst snd]. split; auto. unfold u32. apply Z.mod_pos_bound. lia.
  - apply decode_bitmap_below.
  - unfold decode_full_chunk. eapply okp_seq; [apply decode_full_below; lia|]. intros o B. apply okp_ok. cbn [fst snd].
    split; [exact B|]. change chunk_size with 65536. lia.
  - intros x E. discriminate.
Qed.
Lemma decode_loop_below dbg mem : Forall is_byte mem -> forall n it out pos,
  okp (decode_loop n dbg mem it out pos) (fun r => below out (fst r) pos /\ pos <= snd r).
Proof.
  intro Hb. induction n as [|n IH]; intros it out pos; cbn [decode_loop].
  - apply okp_ok. cbn [fst snd]. split; [apply below_refl|lia].
  - eapply okp_seq; [apply decode_chunk_below, Hb|]. intros [o k] [B L]. cbn [fst snd] in *.
    eapply okp_seq; [apply okp_any|]. intros it' _. eapply okp_mono; [apply IH|]. cbn beta. intros r [B2 L2].
    split; [|lia]. eapply below_trans; eauto. lia.
Qed.

(** ** uncompressing a chunk stays within its 1024 words *)
Lemma fill_loop_outside x : forall n i out pos,
  okp (fill_loop n i x out pos) (fun o => same_outside out o (pos + i) (Z.of_nat n)).
Proof.
  induction n as [|n IH]; intros i out pos; cbn [fill_loop]; [apply okp_ok, same_outside_refl|].
  eapply okp_seq; [apply vset_outside|]. intros o Ho. cbn beta in Ho. eapply okp_mono; [apply IH|]. cbn beta. intros o2 H2.
  eapply same_outside_trans; [eapply same_outside_sub; [exact Ho| |]|eapply same_outside_sub; [exact H2| |]]; lia.
Qed.
Lemma load_words_zlen mem : forall n a, okp (load_words n mem a) (fun ws => zlen ws = Z.of_nat n).
Proof.
  induction n as [|n IH]; intro a; cbn [load_words]; [now apply okp_ok|].
  eapply okp_seq; [apply okp_any|]. intros w _. eapply okp_seq; [apply IH|]. intros r Hr. cbn beta in Hr.
  apply okp_ok. rewrite zlen_cons. lia.
Qed.
Lemma memcpy_outside mem begin n out pos : 0 <= n ->
  okp (memcpy_words mem begin n out pos) (fun o => same_outside out o pos n).
Proof.
  intro H. unfold memcpy_words. eapply okp_seq; [apply load_words_zlen|]. intros ws Hw. cbn beta in Hw.
  rewrite Z2Nat.id in Hw by lia. rewrite <- Hw. apply store_outside.
Qed.
Lemma sparse_block_outside mem end_ pos : Forall is_byte mem -> forall fuel begin out,
  okp (uncompress_sparse_block_loop fuel mem begin end_ out pos) (fun o => same_outside out o pos 4).
Proof.
  intro Hb. induction fuel as [|f IH]; intros begin out; cbn [uncompress_sparse_block_loop]; [intros x E; discriminate|].
  eapply okp_seq; [apply rd8_byte, Hb|]. intros p Hp. unfold is_byte in Hp. cbv zeta.
  assert (HS : 0 <= shrx 6 p < 4).
  { unfold shrx. rewrite Z.shiftr_div_pow2 by (apply Z.mod_pos_bound; lia).
    change (2 ^ (6 mod 64)) with 64. lia. }
  eapply okp_seq; [apply okp_any|]. intros l _. eapply okp_seq; [apply vset_outside|]. intros o Ho. cbn beta in Ho.
  assert (S4 : same_outside out o pos 4) by (eapply same_outside_sub; [exact Ho| |]; lia).
  destruct (begin + 1 =? end_); [now apply okp_ok|].
  eapply okp_mono; [apply IH|]. cbn beta. intros o2 H2. eapply same_outside_trans; eauto.
Qed.
Lemma sparse_chunk_outside mem pos : Forall is_byte mem -> forall n begin data prev out,
  okp (uncompress_sparse_chunk_loop n mem begin data (pos + 4 * prev) prev out) (fun o => same_outside out o pos 1024).
Proof.
  intro Hb. induction n as [|n IH]; intros begin data prev out; cbn [uncompress_sparse_chunk_loop];
    [apply okp_ok, same_outside_refl|].
  eapply okp_seq; [apply rd8_byte, Hb|]. intros id Hid. eapply okp_seq; [apply rd8_byte, Hb|]. intros c Hc.
  unfold is_byte in *. cbv zeta. change block_size_in_64bit_words with 4.
  replace (pos + 4 * prev + (id - prev) * 4) with (pos + 4 * id) by lia.
  apply okp_seq with (P := fun o => same_outside out o (pos + 4 * id) 4).
  - destruct (block_type (c + 1) =? t_sparse); [apply sparse_block_outside, Hb|].
    apply (memcpy_outside mem data 4). lia.
  - intros o Ho. eapply okp_mono; [apply IH|]. cbn beta. intros o2 H2.
    eapply same_outside_trans; [eapply same_outside_sub; [exact Ho| |]|exact H2]; lia.
Qed.
Lemma uncompress_chunk_outside dbg mem it id c cs out pos : Forall is_byte mem -> id_view mem it ((id, c) :: cs) ->
  okp (uncompress_chunk dbg mem it out pos) (fun r => same_outside out (fst r) pos 1024 /\ snd r = zlen c).
Proof.
  intros Hb V. unfold uncompress_chunk. eapply okp_seq; [apply okp_any|]. intros t _.
  apply okp_seq with (P := fun o => same_outside out o pos 1024).
  - destruct (t =? t_sparse); [|destruct (t =? t_dense); [|destruct (t =? t_full)]].
    + eapply okp_seq; [apply fill_loop_outside|]. intros o Ho. cbn beta in Ho. rewrite Z.add_0_r, Z2Nat.id in Ho by lia.
      eapply okp_seq; [apply okp_any|]. intros bl _. unfold uncompress_sparse_chunk.
      eapply okp_seq; [apply okp_any|]. intros _ _.
      pose proof (sparse_chunk_outside mem pos Hb (Z.to_nat bl) (i_data it) (i_data it + bl * 2) 0 o) as H.
      replace (pos + 4 * 0) with pos in H by lia. eapply okp_mono; [exact H|]. cbn beta. intros o2 H2.
      eapply same_outside_trans; eauto.
    + apply (memcpy_outside mem (i_data it) 1024). lia.
    + unfold uncompress_full_chunk. change (Z.to_nat chunk_size_in_64bit_words) with (Z.to_nat 1024).
      eapply okp_mono; [apply fill_loop_outside|]. cbn beta. intros o Ho. now rewrite Z.add_0_r, Z2Nat.id in Ho by lia.
    + intros x E. discriminate.
  - intros o Ho. rewrite (id_view_cardinality _ _ _ _ _ V). cbn [bind]. apply okp_ok. auto.
Qed.

Lemma store_room buf pos vals : okp (store buf pos vals) (fun _ => pos + zlen vals <= zlen buf).
Proof.
  intros b E. unfold store in E. destruct (0 <=? pos); [|discriminate].
  destruct (Z.leb_spec (pos + zlen vals) (zlen buf)); [auto|discriminate].
Qed.
Lemma fill_loop_room x : forall n i out pos, okp (fill_loop n i x out pos) (fun _ => n = O \/ pos + i + Z.of_nat n <= zlen out).
Proof.
  induction n as [|n IH]; intros i out pos; cbn [fill_loop]; [apply okp_ok; auto|].
  intros o E. destruct (vset out (pos + i) x) as [o1| | | |] eqn:E1; cbn [bind] in E; try discriminate.
  pose proof (store_room _ _ _ _ E1) as R1. cbn beta in R1. change (zlen [x]) with 1 in R1.
  pose proof (vset_outside _ _ _ _ E1) as [L1 _]. pose proof (IH _ _ _ _ E) as R2. cbn beta in R2. rewrite L1 in R2.
  right. destruct R2 as [->|R2]; lia.
Qed.
Lemma memcpy_room mem begin n out pos : 0 <= n -> okp (memcpy_words mem begin n out pos) (fun _ => pos + n <= zlen out).
Proof.
  intro H. unfold memcpy_words. eapply okp_seq; [apply load_words_zlen|]. intros ws Hw. cbn beta in Hw.
  rewrite Z2Nat.id in Hw by lia. rewrite <- Hw. apply store_room.
Qed.
Lemma uncompress_room dbg mem it out pos : okp (uncompress_chunk dbg mem it out pos) (fun _ => pos + 1024 <= zlen out).
Proof.
  unfold uncompress_chunk. eapply okp_seq; [apply okp_any|]. intros t _.
  apply okp_seq with (P := fun _ => pos + 1024 <= zlen out); [|intros o Ho; intros r _; exact Ho].
  destruct (t =? t_sparse); [|destruct (t =? t_dense); [|destruct (t =? t_full)]].
  - eapply okp_seq; [apply fill_loop_room|]. intros o Ho. cbn beta in Ho. intros r _. rewrite Z2Nat.id in Ho by lia.
    destruct Ho as [Ho|Ho]; [discriminate|lia].
  - apply (memcpy_room mem (i_data it) 1024). lia.
  - unfold uncompress_full_chunk. change (Z.to_nat chunk_size_in_64bit_words) with (Z.to_nat 1024).
    eapply okp_mono; [apply fill_loop_room|]. cbn beta. intros _ Ho. rewrite Z2Nat.id in Ho by lia.
    destruct Ho as [Ho|Ho]; [discriminate|lia].
  - intros x E. discriminate.
Qed.

(** ** the chunk an iterator is at does not depend on where it ends *)
Lemma one_decode slack ok dbg mem it id c cs out pos :
  part_view slack ok mem it ((id, c) :: cs) -> ok id -> 0 <= slack ->
  decode_chunk dbg mem it out pos = decode_chunk dbg mem (one it) out pos.
Proof.
  intros V Ho Hs. pose proof (part_one _ _ _ _ _ _ _ V Ho Hs) as V1. unfold decode_chunk.
  rewrite (id_view_id _ _ _ (proj1 V)), (id_view_id _ _ _ (proj1 V1)). reflexivity.
Qed.

Lemma decode_good ok dbg mem it id c cs out pos :
  part_view 0 ok mem it ((id, c) :: cs) -> ok id -> 0 <= pos <= zlen out ->
  okp (decode_chunk dbg mem it out pos) (fun r => snd r = zlen c /\ wrote 23 out pos (ungroup1 65536 (id, c)) (fst r)).
Proof.
  intros V Ho Hp. rewrite (one_decode _ _ _ _ _ _ _ _ _ _ V Ho ltac:(lia)).
  pose proof (decode_chunk_reach dbg mem (one it) id c [] out pos (part_one _ _ _ _ _ _ _ V Ho ltac:(lia)) ltac:(lia) ltac:(lia)) as R.
  cbn zeta in R. intros r E. destruct (_ && _).
  - destruct R as (o & E' & W). rewrite E' in E. injection E as <-. auto.
  - rewrite E in R. discriminate.
Qed.

(** ** decode *)
Lemma decode_loop_part ok dbg mem x h0 : Forall is_byte mem -> x / 65536 = h0 -> forall cs it out pos i,
  part_view 0 ok mem it cs -> (forall id c, In (id, c) cs -> id <= h0 -> ok id) -> 0 <= pos <= zlen out ->
  znth (ungroup 65536 cs) i = Some x ->
  okp (decode_loop (length cs) dbg mem it out pos) (fun r => below out (fst r) pos /\ znth (fst r) (pos + i) = Some x).
Proof.
  intros Hb Hx. induction cs as [|[id c] cs IH]; intros it out pos i V Ho Hp Hi.
  { apply znth_lt in Hi. change (zlen (ungroup 65536 [])) with 0 in Hi. lia. }
  pose proof (proj1 (proj1 V)) as W. pose proof W as W0. apply wf_cons in W as (W1 & W & F).
  rewrite Forall_forall in F. cbn [fst] in F.
  pose proof Hi as HI. apply znth_In in HI. apply (In_ungroup_id 65536 65535) in HI; auto; [|lia].
  assert (Hid : id <= h0).
  { apply in_map_iff in HI as (g & Eg & [<-|Ig]); [cbn [fst] in Eg; lia|]. specialize (F g Ig). cbn beta in F. lia. }
  pose proof (zlen_nonneg _ c) as Hc0.
  cbn [length decode_loop]. eapply okp_seq; [apply (decode_good ok dbg mem it id c cs out pos V); auto|].
  { apply (Ho id c); auto. apply in_eq. }
  intros [o k] [Ek Wr]. cbn [fst snd] in Ek, Wr. subst k. pose proof Wr as (WL & Wv & Wo). rewrite zlen_ungroup1 in Wv, Wo. cbn [snd] in Wv, Wo |- *.
  assert (B1 : below out o pos) by (split; auto; intros j Hj; apply Wo; lia).
  destruct (part_next _ _ _ _ _ _ _ V) as (it' & -> & V'). cbn [bind].
  rewrite ungroup_cons in Hi. destruct (Z_lt_le_dec i (zlen c)) as [L|L].
  - rewrite znth_app_l in Hi by (rewrite zlen_ungroup1; exact L). pose proof (znth_lt _ _ _ _ Hi) as Li.
    eapply okp_mono; [apply decode_loop_below, Hb|]. cbn beta. intros r [[BL B] _]. split.
    + eapply below_trans; [exact B1|split; [exact BL|exact B]|lia].
    + rewrite B by lia. rewrite Wv by lia. exact Hi.
  - rewrite znth_app_r in Hi by (rewrite zlen_ungroup1; exact L). rewrite zlen_ungroup1 in Hi. cbn [snd] in Hi.
    assert (Hlen : pos + zlen c <= zlen o).
    { rewrite WL. destruct (Z.eq_dec (zlen c) 0) as [E0|E0]; [lia|].
      destruct (znth_Some _ (ungroup1 65536 (id, c)) (zlen c - 1)) as (y & Ey); [rewrite zlen_ungroup1; cbn [snd]; lia|].
      rewrite <- Wv in Ey by lia. apply znth_lt in Ey. lia. }
    eapply okp_mono; [apply (IH it' o (pos + zlen c) (i - zlen c) V')|]; auto; [|lia|].
    { intros id2 c2 H2. apply Ho with (c := c2). now right. }
    cbn beta. intros r [B2 E2]. split; [eapply below_trans; eauto; lia|].
    replace (pos + zlen c + (i - zlen c)) with (pos + i) in E2 by lia. exact E2.
Qed.

Lemma c56_decode : forall dbg mem a S ok s out pos out' n,
  valid S -> Forall is_byte mem -> intact 0 ok mem a S -> seq_at mem a = Ok s -> 0 <= pos <= zlen out ->
  decode dbg mem s out pos = Ok (out', n) ->
  zlen out' = zlen out /\ 0 <= n /\ (forall i, i < pos -> znth out' i = znth out i)
  /\ forall i x, znth S i = Some x -> (forall h, h <= x / 65536 -> has_chunk S h -> ok h) -> znth out' (pos + i) = Some x.
Proof.
  intros dbg mem a S ok s out pos out' n H Hb St Es Hp E.
  destruct (intact_seq 0 ok mem a S H St ltac:(lia)) as (s' & Es' & En & V & A). rewrite Es in Es'. injection Es' as <-.
  destruct (valid_chunks S H) as (W & N & U & SC & L). unfold decode in E. rewrite En, <- length_zlen in E.
  destruct (decode_loop (length (chunks_of S)) dbg mem (seq_begin s) out pos) as [[o e]| | | |] eqn:EL; cbn [bind] in E; try discriminate.
  injection E as <- <-. pose proof (decode_loop_below dbg mem Hb _ _ _ _ _ EL) as [[BL B] Le]. cbn [fst snd] in *.
  split; auto. split; [lia|]. split; auto. intros i x Hi Ho. rewrite <- U in Hi.
  pose proof (decode_loop_part ok dbg mem x (x / 65536) Hb eq_refl (chunks_of S) (seq_begin s) out pos i V) as P.
  specialize (P ltac:(intros id c Hc Hle; apply Ho; [exact Hle|]; apply has_chunk_fst; [exact H|];
    apply in_map_iff; exists (id, c); split; [reflexivity|exact Hc]) Hp Hi _ EL). apply P.
Qed.

(** ** uncompress *)
Lemma uncompress_loop_part ok dbg mem : Forall is_byte mem -> forall cs it prev u out pos0,
  part_view 0 ok mem it cs -> 0 <= pos0 ->
  okp (uncompress_loop (length cs) dbg mem it prev u out (pos0 + 1024 * prev)) (fun r =>
    snd r = u + sum_card cs /\ zlen (fst r) = zlen out
    /\ (forall id c, In (id, c) cs -> ok id -> bm_at (reg (fst r) (pos0 + 1024 * id)) 1024 (memb c))
    /\ (forall i, (forall id c, In (id, c) cs -> i < pos0 + 1024 * id \/ pos0 + 1024 * id + 1024 <= i) ->
          znth (fst r) i = znth out i)).
Proof.
  intros Hb. induction cs as [|[id c] cs IH]; intros it prev u out pos0 V Hp.
  - cbn [length uncompress_loop]. apply okp_ok. cbn [fst snd]. change (sum_card []) with 0. rewrite Z.add_0_r.
    split; auto. split; auto. split; [intros ? ? []|auto].
  - cbn [length uncompress_loop]. rewrite (id_view_id _ _ _ (proj1 V)). cbn [bind fst].
    pose proof (proj1 (proj1 V)) as W. apply wf_cons in W as (W1 & W & F). pose proof W1 as (Hid & _).
    cbn [fst] in *. rewrite u16_id by lia. change M_Util.chunk_size_in_64bit_words with 1024.
    replace (pos0 + 1024 * prev + (id - prev) * 1024) with (pos0 + 1024 * id) by lia.
    apply okp_seq with (P := fun r => same_outside out (fst r) (pos0 + 1024 * id) 1024 /\ snd r = zlen c
      /\ (ok id -> bm_at (reg (fst r) (pos0 + 1024 * id)) 1024 (memb c))).
    + intros r E. pose proof (uncompress_chunk_outside dbg mem it id c cs out (pos0 + 1024 * id) Hb (proj1 V) r E) as [S1 C1].
      split; auto. split; auto. intro Ho. pose proof (part_one _ _ _ _ _ _ _ V Ho ltac:(lia)) as V1.
      assert (HL : pos0 + 1024 * id + 1024 <= zlen out) by exact (uncompress_room dbg mem it out (pos0 + 1024 * id) r E).
      destruct (uncompress_chunk_ok dbg mem 0 (one it) id c [] out (pos0 + 1024 * id) V1 ltac:(lia) HL) as (o & Eo & B1 & _).
      change (uncompress_chunk dbg mem (one it) out (pos0 + 1024 * id)) with (uncompress_chunk dbg mem it out (pos0 + 1024 * id)) in Eo.
      rewrite Eo in E. injection E as <-. exact B1.
    + intros [o k] ([L1 S1] & Ek & B1). cbn [fst snd] in *. subst k.
      destruct (part_next _ _ _ _ _ _ _ V) as (it' & -> & V'). cbn [bind].
      eapply okp_mono; [apply (IH it' id (u + zlen c) o pos0 V' Hp)|]. cbn beta. intros r (C2 & L2 & B2 & S2).
      rewrite Forall_forall in F. split; [rewrite C2; unfold sum_card; cbn [fold_right snd]; lia|].
      split; [congruence|]. split.
      * intros id' c' [[= <- <-]|Hi] Ho; [|auto].
        intros k Hk. destruct (B1 Ho k Hk) as (w & E & Hw). exists w. split; auto.
        unfold reg, vget in *. rewrite S2; auto. intros id2 c2 Hi2. specialize (F _ Hi2). cbn [fst] in F. lia.
      * intros i Hi. rewrite S2, S1; auto.
        -- apply (Hi id c). apply in_eq.
        -- intros id2 c2 H2. apply (Hi id2 c2). now right.
Qed.

Lemma c56_uncompress : forall dbg mem a S ok s out pos out' n,
  valid S -> Forall is_byte mem -> intact 0 ok mem a S -> seq_at mem a = Ok s -> 0 <= pos ->
  uncompress dbg mem s out pos = Ok (out', n) ->
  n = zlen S /\ zlen out' = zlen out
  /\ (forall i, 0 <= i -> has_chunk S (i / 1024) -> ok (i / 1024) ->
        exists w, znth out' (pos + i) = Some w /\ 0 <= w < 2 ^ 64
          /\ forall j, 0 <= j < 64 -> (Z.testbit w j = true <-> In (64 * i + j) S))
  /\ (forall i, ~ (0 <= i /\ has_chunk S (i / 1024)) -> znth out' (pos + i) = znth out (pos + i)).
Proof.
  intros dbg mem a S ok s out pos out' n H Hb St Es Hp E.
  destruct (intact_seq 0 ok mem a S H St ltac:(lia)) as (s' & Es' & En & V & A). rewrite Es in Es'. injection Es' as <-.
  destruct (valid_chunks S H) as (W & N & U & SC & L). unfold uncompress in E. rewrite En, <- length_zlen in E.
  destruct (uncompress_loop (length (chunks_of S)) dbg mem (seq_begin s) 0 0 out pos) as [[o e]| | | |] eqn:EL; cbn [bind] in E; try discriminate.
  pose proof (uncompress_loop_part ok dbg mem Hb (chunks_of S) (seq_begin s) 0 0 out pos V Hp) as P.
  replace (pos + 1024 * 0) with pos in P by lia. destruct (P _ EL) as (P1 & P2 & P3 & P4). cbn [fst snd] in *.
  assert (HE : out' = o /\ n = e).
  { destruct (assert_ dbg _) as [[]| | | |] in E; cbn [bind] in E; try discriminate. injection E as <- <-. auto. }
  destruct HE as [-> ->]. clear E. split; [lia|]. split; auto. split.
  - intros i Hi Hc Ho. apply has_chunk_fst in Hc; auto.
    apply in_map_iff in Hc as ((id & c) & Eid & Hc). cbn [fst] in Eid. subst id.
    destruct (P3 _ _ Hc Ho (i mod 1024)) as (w & Ew & H64 & T); [lia|].
    unfold reg in Ew. replace (pos + 1024 * (i / 1024) + i mod 1024) with (pos + i) in Ew by lia.
    exists w. unfold vget in Ew. destruct (znth o (pos + i)) as [w'|]; [|easy]. injection Ew as ->.
    split; auto. split; [exact H64|]. intros j Hj. rewrite T by lia.
    rewrite <- (memb_In S). enough (Q : memb c (64 * (i mod 1024) + j) = memb S (64 * i + j)) by now rewrite Q.
    rewrite <- U. apply in_split in Hc as (pre & suf & EC). rewrite EC in W |- *.
    rewrite ungroup_app, memb_app.
    assert (Ed : (64 * i + j) / 65536 = i / 1024) by lia.
    rewrite (memb_ungroup_none 65536 65535 pre); [|lia|now apply wf_app in W|].
    2:{ apply Forall_forall. intros b Hb2. pose proof (wf_app_lt _ _ _ _ b _ W Hb2 (in_eq _ _)) as Hlt.
        cbn [fst] in Hlt. lia. }
    cbn [orb]. apply wf_app in W as [_ W]. rewrite (memb_ungroup_cons 65536 65535) by (auto; lia).
    rewrite (memb_ungroup_none 65536 65535 suf); [|lia|apply wf_cons in W; apply W|].
    2:{ apply wf_cons in W as (_ & _ & W). eapply Forall_impl; [|exact W]. cbn [fst]. intros b Hb2. lia. }
    rewrite orb_false_r. cbn [fst snd]. rewrite Ed, Z.eqb_refl. cbn [andb]. f_equal. lia.
  - intros i Hi. apply P4. intros id c Hc. destruct (Z_lt_le_dec (pos + i) (pos + 1024 * id)); auto.
    destruct (Z_lt_le_dec (pos + i) (pos + 1024 * id + 1024)); auto. exfalso. apply Hi.
    assert (W1 : wf1 65536 65535 (id, c)) by (destruct W as [_ W]; rewrite Forall_forall in W; auto).
    destruct W1 as (Hid & _). cbn [fst] in Hid. split; [lia|]. apply has_chunk_fst; auto.
    apply in_map_iff. exists (id, c). split; [cbn [fst]; lia|exact Hc].
Qed.

(** ** the enumerator *)
Definition en_inv1 (ok : Z -> Prop) (mem : list Z) (p : Z) (e : enumerator) (id : Z) (c : list Z) (cs : list (Z * list Z))
    (rest : list Z) : Prop :=
  part_view 0 ok mem (en_it e) ((id, c) :: cs)
    /\ 0 <= en_chunk e /\ en_chunks e = en_chunk e + 1 + zlen cs /\ en_chunks e <= 65535
    /\ en_cardinality e = zlen c /\ 0 <= en_i e < zlen c
    /\ en_past_the_end e = p /\ en_has_next e = true
    /\ zlen (en_buf e) = 65536
    /\ (ok id -> forall j, 0 <= j < zlen c -> znth (en_buf e) j = znth (ungroup1 65536 (id, c)) j)
    /\ rest = skipn (Z.to_nat (en_i e)) (ungroup1 65536 (id, c)) ++ ungroup 65536 cs.

Lemma enum_start_part ok dbg mem it id c cs buf p chunk chunks : Forall is_byte mem ->
  part_view 0 ok mem it ((id, c) :: cs) -> zlen buf = 65536 -> 0 <= chunk -> chunks = chunk + 1 + zlen cs ->
  chunks <= 65535 ->
  okp (let! k := it_cardinality mem it in
       let! (buf, _) := decode_chunk dbg mem it buf 0 in
       Ok (mkEnum it chunk chunks 0 k p true buf))
    (fun e => en_inv1 ok mem p e id c cs (ungroup 65536 ((id, c) :: cs))).
Proof.
  intros Hb V Hl Hc Hn Hm. pose proof (proj1 (proj1 V)) as W. apply wf_cons in W as (W1 & _). pose proof (chunk_card _ _ W1) as Hcc.
  rewrite (id_view_cardinality _ _ _ _ _ (proj1 V)). cbn [bind].
  apply okp_seq with (P := fun r => below buf (fst r) 0
    /\ (ok id -> wrote 23 buf 0 (ungroup1 65536 (id, c)) (fst r))).
  - intros r E. split; [apply (decode_chunk_below dbg mem it buf 0 Hb r E)|].
    intro Ho. apply (decode_good ok dbg mem it id c cs buf 0 V Ho ltac:(lia) r E).
  - intros [b k] [[BL _] Wr]. cbn [fst] in *. apply okp_ok. unfold en_inv1.
    cbn [en_it en_chunk en_chunks en_i en_cardinality en_past_the_end en_has_next en_buf].
    split; auto. split; auto. split; auto. split; auto. split; auto. split; [lia|]. split; auto. split; auto.
    split; [congruence|]. split.
    + intros Ho j Hj. destruct (Wr Ho) as (_ & Wv & _). apply (Wv j). rewrite zlen_ungroup1. exact Hj.
    + reflexivity.
Qed.

Lemma enum_steps_part ok dbg mem p : Forall is_byte mem -> forall k e id c cs rest,
  en_inv1 ok mem p e id c cs rest -> Z.of_nat k < zlen rest + 4294967296 ->
  okp (enum_steps k dbg mem e) (fun e' =>
    if Z.of_nat k <? zlen rest then exists id c cs, en_inv1 ok mem p e' id c cs (skipn k rest)
    else en_done p e' (Z.of_nat k - zlen rest)).
Proof.
  intro Hby. induction k; intros e id c cs rest H Hk; cbn [enum_steps]; pose proof H as H';
    destruct H as (V & Hc0 & Hc1 & Hc2 & Hcard & Hi & Hp & Hh & Hl & Hb & E);
    destruct (znth_Some _ (ungroup1 65536 (id, c)) (en_i e)) as (y & Ey); try (now rewrite zlen_ungroup1);
    rewrite (skipn_znth _ _ _ Ey) in E; cbn [app] in E; pose proof (zlen_nonneg _ cs).
  - apply okp_ok. rewrite E, zlen_cons. match goal with |- context [zlen ?l + 1] => pose proof (zlen_nonneg _ l) end.
    destruct (Z.ltb_spec (Z.of_nat 0) (zlen (skipn (Z.to_nat (en_i e + 1)) (ungroup1 65536 (id, c)) ++ ungroup 65536 cs) + 1)); [|lia].
    exists id, c, cs. cbn [skipn]. rewrite <- E. exact H'.
  - pose proof (proj1 (proj1 V)) as W. apply wf_cons in W as (W1 & _). pose proof (chunk_card _ _ W1) as Hcc. cbn [snd] in *.
    rewrite E in Hk |- *. cbn [skipn]. rewrite zlen_cons in *.
    unfold enum_next. rewrite Hcard. rewrite u32_id by lia.
    destruct (Z.eqb_spec (en_i e + 1) (zlen c)).
    + rewrite skipn_all2 in * by (rewrite length_zlen, zlen_ungroup1; cbn [snd]; lia). cbn [app] in *.
      rewrite u32_id by lia. rewrite Hc1.
      destruct cs as [|[id2 c2] cs].
      * rewrite zlen_nil. destruct (Z.eqb_spec (en_chunk e + 1) (en_chunk e + 1 + 0)); [|lia]. cbn [bind].
        change (zlen (ungroup 65536 [])) with 0 in *. cbn [ungroup flat_map].
        match goal with |- context [enum_steps k dbg mem ?x] =>
          destruct (enum_steps_done dbg mem p k x 0) as (e' & Ee & Hd) end; try lia.
        { repeat split; cbn [en_has_next en_past_the_end en_cardinality en_i en_buf]; auto; try lia. rewrite u32_id; lia. }
        rewrite Ee. apply okp_ok. destruct (Z.ltb_spec (Z.of_nat (S k)) (0 + 1)); [lia|].
        replace (Z.of_nat (S k) - (0 + 1)) with (0 + Z.of_nat k) by lia. exact Hd.
      * rewrite zlen_cons in *. zpos.
        destruct (Z.eqb_spec (en_chunk e + 1) (en_chunk e + 1 + (zlen cs + 1))); [lia|].
        destruct (part_next _ _ _ _ _ _ _ V) as (it' & -> & V2). cbn [bind].
        rewrite Hh, Hp.
        eapply okp_seq; [apply (enum_start_part ok dbg mem it' id2 c2 cs (en_buf e) p (en_chunk e + 1)
          (en_chunk e + 1 + (zlen cs + 1)) Hby V2 Hl); lia|].
        intros e' I. eapply okp_mono; [apply (IHk e' id2 c2 cs _ I); lia|]. cbn beta. intros e'' HH.
        destruct (Z.ltb_spec (Z.of_nat k) (zlen (ungroup 65536 ((id2, c2) :: cs)))),
          (Z.ltb_spec (Z.of_nat (S k)) (zlen (ungroup 65536 ((id2, c2) :: cs)) + 1)); try lia; auto.
        replace (Z.of_nat (S k) - (zlen (ungroup 65536 ((id2, c2) :: cs)) + 1))
          with (Z.of_nat k - zlen (ungroup 65536 ((id2, c2) :: cs))) by lia. exact HH.
    + cbn [bind]. set (rest' := skipn (Z.to_nat (en_i e + 1)) (ungroup1 65536 (id, c)) ++ ungroup 65536 cs) in *.
      assert (I : en_inv1 ok mem p (mkEnum (en_it e) (en_chunk e) (en_chunks e) (en_i e + 1) (zlen c) (en_past_the_end e)
        (en_has_next e) (en_buf e)) id c cs rest').
      { unfold en_inv1. cbn [en_it en_chunk en_chunks en_i en_cardinality en_past_the_end en_has_next en_buf].
        split; auto. split; auto. split; auto. split; auto. split; auto. split; [lia|]. do 4 (split; auto). }
      eapply okp_mono; [apply (IHk _ id c cs rest' I); lia|]. cbn beta. intros e'' HH.
      destruct (Z.ltb_spec (Z.of_nat k) (zlen rest')), (Z.ltb_spec (Z.of_nat (S k)) (zlen rest' + 1)); try lia; auto.
      replace (Z.of_nat (S k) - (zlen rest' + 1)) with (Z.of_nat k - zlen rest') by lia. exact HH.
Qed.

Lemma c56_enumerator : forall dbg mem a S ok s p buf k e,
  valid S -> Forall is_byte mem -> intact 0 ok mem a S -> seq_at mem a = Ok s -> zlen buf = 65536 ->
  Z.of_nat k < zlen S + 4294967296 ->
  (let! e := enum_init dbg mem buf s p in enum_steps k dbg mem e) = Ok e ->
  (en_has_next e = true <-> Z.of_nat k < zlen S)
  /\ (forall x, znth S (Z.of_nat k) = Some x -> ok (x / 65536) -> enum_value e = Ok x)
  /\ (zlen S <= Z.of_nat k -> enum_value e = Ok p).
Proof.
  intros dbg mem a S ok s p buf k e H Hby St Es Hb Hk E.
  destruct (intact_seq 0 ok mem a S H St ltac:(lia)) as (s' & Es' & En & V & A). rewrite Es in Es'. injection Es' as <-.
  destruct (valid_chunks S H) as (W & N & U & SC & L).
  assert (P : okp (let! e := enum_init dbg mem buf s p in enum_steps k dbg mem e) (fun e' =>
    if Z.of_nat k <? zlen S then exists id c cs, en_inv1 ok mem p e' id c cs (skipn k S)
    else en_done p e' (Z.of_nat k - zlen S))).
  { unfold enum_init. destruct (chunks_of S) as [|[id c] cs] eqn:EC; [easy|]. rewrite zlen_cons in En.
    assert (LC : s_chunks s <= 65535).
    { rewrite En. pose proof (chunks_le _ W) as LC. rewrite zlen_cons in LC. exact LC. }
    eapply okp_seq; [apply (enum_start_part ok dbg mem (seq_begin s) id c cs buf p 0 (s_chunks s) Hby V Hb); lia|].
    intros e0 I. cbn beta in I. rewrite U in I. exact (enum_steps_part ok dbg mem p Hby k e0 id c cs S I Hk). }
  specialize (P e E). cbn beta in P. destruct (Z.ltb_spec (Z.of_nat k) (zlen S)) as [HL|HL].
  - destruct P as (id & c & cs & I2). destruct (znth_Some _ S (Z.of_nat k)) as (x & Ex); [lia|].
    pose proof (skipn_znth S (Z.of_nat k) x Ex) as Es2. rewrite Nat2Z.id in Es2. rewrite Es2 in I2.
    destruct I2 as (V2 & _ & _ & _ & _ & Hi & _ & Hh & _ & Hbuf & E2). split; [tauto|]. split; [|lia].
    intros y Ey Ho. assert (y = x) by congruence. subst y. unfold enum_value. rewrite Hh. apply vget_ok.
    destruct (znth_Some _ (ungroup1 65536 (id, c)) (en_i e)) as (y & Ey2); [now rewrite zlen_ungroup1|].
    rewrite (skipn_znth _ _ _ Ey2) in E2. injection E2 as <- _.
    assert (EI : x / 65536 = id).
    { apply znth_In in Ey2. pose proof (proj1 (proj1 V2)) as W2. apply wf_cons in W2 as (W2 & _).
      apply (In_ungroup1 65536 65535 (id, c) x ltac:(lia) W2) in Ey2 as [Ey2 _]. symmetry. exact Ey2. }
    rewrite EI in Ho. now rewrite Hbuf.
  - destruct P as (Q1 & Q2 & _). unfold enum_value. rewrite Q1. split; [split; [easy|lia]|]. split.
    + intros x Ex. apply znth_lt in Ex. lia.
    + intros _. now rewrite Q2.
Qed.
