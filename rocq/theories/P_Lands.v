(** What a kernel writes for a chunk lies in that chunk, whatever bytes it reads. *)
From Verif Require Import Base Hw Spec Outcome Lib L_Bits M_Util M_Seq M_Decode M_Uncompress
  M_Intersect M_Union M_Many P_Build1 P_Inter P_Total P_Spoil.
From Coq Require Import Lia.

Definition inside (b w : Z) (out : list Z) (pos n : Z) : Prop :=
  forall i, pos <= i < pos + n -> exists v, znth out i = Some v /\ b <= v < b + w.
Definition lands (b w : Z) (out : list Z) (pos : Z) (o : list Z) (n : Z) : Prop :=
  below out o pos /\ 0 <= n /\ inside b w o pos n.

Lemma inside_keep b w o1 o2 pos n : inside b w o1 pos n -> below o1 o2 (pos + n) -> inside b w o2 pos n.
Proof. intros H [_ K] i Hi. rewrite K by lia. auto. Qed.
Lemma inside_app b w o pos n m : inside b w o pos n -> inside b w o (pos + n) m -> inside b w o pos (n + m).
Proof. intros H K i Hi. destruct (Z_lt_le_dec i (pos + n)); [apply H|apply K]; lia. Qed.
Lemma inside_sub b w b' w' o pos n : inside b w o pos n -> b' <= b -> b + w <= b' + w' -> inside b' w' o pos n.
Proof. intros H H1 H2 i Hi. destruct (H i Hi) as (v & E & R). exists v. split; auto. lia. Qed.
Lemma lands_nil b w out pos : lands b w out pos out 0.
Proof. split; [apply below_refl|]. split; [lia|]. intros i Hi. lia. Qed.
Lemma lands_then b w out pos o1 n1 o2 n2 :
  lands b w out pos o1 n1 -> lands b w o1 (pos + n1) o2 n2 -> lands b w out pos o2 (n1 + n2).
Proof.
  intros (B1 & N1 & I1) (B2 & N2 & I2). split; [eapply below_trans; eauto; lia|]. split; [lia|].
  apply inside_app; auto. eapply inside_keep; eauto.
Qed.
Lemma lands_sub b w b' w' out pos o n : lands b w out pos o n -> b' <= b -> b + w <= b' + w' -> lands b' w' out pos o n.
Proof. intros (B & N & I) H1 H2. split; auto. split; auto. eapply inside_sub; eauto. Qed.
Lemma lands_less b w out pos o n m : lands b w out pos o n -> 0 <= m <= n -> lands b w out pos o m.
Proof. intros (B & N & I) H. split; auto. split; [lia|]. intros i Hi. apply I. lia. Qed.
Lemma lands_u32 b w out pos o n : lands b w out pos o n -> lands b w out pos o (u32 n).
Proof. intro H. pose proof H as (_ & N & _). eapply lands_less; [exact H|]. unfold u32. split; [apply Z.mod_pos_bound; lia|]. apply Z.mod_le; lia. Qed.

Lemma vset_lands b w buf pos x : b <= x < b + w -> okp (vset buf pos x) (fun o => lands b w buf pos o 1).
Proof.
  intros Hx o E. pose proof (vset_outside buf pos x o E) as [L H]. split; [split; auto; intros i Hi; apply H; lia|].
  split; [lia|]. intros i Hi. replace i with pos by lia. exists x. split; auto.
  unfold vset, store in E. change (zlen [x]) with 1 in E.
  destruct ((0 <=? pos) && (pos + 1 <=? zlen buf)) eqn:C; [|discriminate]. apply andb_prop in C as [C1 C2].
  apply Z.leb_le in C1, C2. injection E as <-. rewrite znth_app_r by (rewrite zlen_firstn; lia).
  rewrite zlen_firstn. replace (pos - _) with 0 by lia. reflexivity.
Qed.
Lemma store_lands b w buf pos vals : Forall (fun x => b <= x < b + w) vals ->
  okp (store buf pos vals) (fun o => lands b w buf pos o (zlen vals)).
Proof.
  intros Hx o E. pose proof (store_outside buf pos vals o E) as [L H].
  split; [split; auto; intros i Hi; apply H; lia|]. pose proof (zlen_nonneg _ vals).
  split; [lia|]. intros i Hi. unfold store in E.
  destruct ((0 <=? pos) && (pos + zlen vals <=? zlen buf)) eqn:C; [|discriminate]. apply andb_prop in C as [C1 C2].
  apply Z.leb_le in C1, C2. injection E as <-. rewrite znth_app_r by (rewrite zlen_firstn; lia).
  rewrite zlen_firstn. replace (i - _) with (i - pos) by lia. rewrite znth_app_l by lia.
  destruct (znth_Some _ vals (i - pos)) as (v & Ev); [lia|]. exists v. split; auto.
  apply znth_In in Ev. rewrite Forall_forall in Hx. auto.
Qed.
Lemma okp_wp A dbg (r : res A) P : wpd dbg r P -> okp r P.
Proof. intros H x ->. exact H. Qed.

(** ** bitmaps *)
Definition oks (bm : Z -> res Z) : Prop := forall i, okp (bm i) w64.
Lemma word_loop_lands base : 0 <= base -> base + 64 <= 4294967296 -> forall fuel w buf pos size, w64 w ->
  okp (word_loop fuel w base buf pos size) (fun r => lands base 64 buf (pos + size) (fst r) (snd r - size)).
Proof.
  intros H0 H1. induction fuel as [|f IH]; intros w buf pos size Hw; cbn [word_loop]; destruct (Z.eqb_spec w 0).
  1,3: apply okp_ok; cbn [fst snd]; rewrite Z.sub_diag; apply lands_nil.
  { intros x E. discriminate. }
  cbv zeta. assert (0 < w) by (unfold w64 in Hw; lia). pose proof (ctz_bound w ltac:(lia) Hw) as Hc.
  eapply okp_seq; [apply (vset_lands base 64); rewrite u32_id; lia|]. intros b Hb. cbn beta in Hb.
  rewrite lowest_bit by auto. destruct (bits_step w) as [E W]; auto.
  eapply okp_mono; [apply IH, W|]. cbn beta. intros r Hr. replace (snd r - size) with (1 + (snd r - (size + 1))) by lia.
  eapply lands_then; [exact Hb|]. rewrite Z.add_assoc in Hr. exact Hr.
Qed.
Lemma bitmap_loop_lands word : oks word -> forall n i base buf pos size,
  0 <= base -> base + 64 * Z.of_nat n < 4294967296 ->
  okp (bitmap_loop n word i base buf pos size) (fun r => lands base (64 * Z.of_nat n) buf (pos + size) (fst r) (snd r - size)).
Proof.
  intro Hw. induction n as [|n IH]; intros i base buf pos size H0 H1; cbn [bitmap_loop].
  - apply okp_ok. cbn [fst snd]. rewrite Z.sub_diag. apply lands_nil.
  - eapply okp_seq; [apply Hw|]. intros w W. eapply okp_seq; [apply word_loop_lands; auto; lia|].
    intros [b s] L. cbn [fst snd] in L. rewrite u32_id by lia. eapply okp_mono; [apply IH; lia|]. cbn beta.
    intros r Hr. replace (snd r - size) with ((s - size) + (snd r - s)) by lia.
    eapply lands_then; [eapply lands_sub; [exact L|lia|lia]|].
    replace (pos + size + (s - size)) with (pos + s) by lia. eapply lands_sub; [exact Hr|lia|lia].
Qed.
Lemma decode_bitmap_lands word n base out pos : oks word -> 0 <= n -> 0 <= base -> base + 64 * n < 4294967296 ->
  okp (decode_bitmap word n base out pos) (fun r => lands base (64 * n) out pos (fst r) (snd r)).
Proof.
  intros Hw Hn H0 H1. unfold decode_bitmap. eapply okp_seq; [apply bitmap_loop_lands; auto; rewrite Z2Nat.id; lia|].
  rewrite Z2Nat.id by lia. intros [b s] L. cbn [fst snd] in L. apply okp_ok. cbn [fst snd]. rewrite Z.add_0_r, Z.sub_0_r in L.
  apply lands_u32, L.
Qed.
Lemma and_bitmaps_lands l r n base out pos : oks l -> oks r -> 0 <= n -> 0 <= base -> base + 64 * n < 4294967296 ->
  okp (and_bitmaps l r n base out pos) (fun r => lands base (64 * n) out pos (fst r) (snd r)).
Proof.
  intros L R Hn H0 H1. unfold and_bitmaps. eapply okp_mono; [apply bitmap_loop_lands; auto; try (rewrite Z2Nat.id; lia)|].
  - intro i. eapply okp_seq; [apply L|]. intros a A. eapply okp_seq; [apply R|]. intros b B. apply okp_ok. now apply land_w64.
  - cbn beta. rewrite Z2Nat.id by lia. intros [b s] K. cbn [fst snd] in *. rewrite Z.add_0_r, Z.sub_0_r in K. exact K.
Qed.
Lemma or_bitmaps_lands l r n base out pos : oks l -> oks r -> 0 <= n -> 0 <= base -> base + 64 * n < 4294967296 ->
  okp (or_bitmaps l r n base out pos) (fun r => lands base (64 * n) out pos (fst r) (snd r)).
Proof.
  intros L R Hn H0 H1. unfold or_bitmaps. eapply okp_mono; [apply bitmap_loop_lands; auto; try (rewrite Z2Nat.id; lia)|].
  - intro i. eapply okp_seq; [apply L|]. intros a A. eapply okp_seq; [apply R|]. intros b B. apply okp_ok. now apply lor_w64.
  - cbn beta. rewrite Z2Nat.id by lia. intros [b s] K. cbn [fst snd] in *. rewrite Z.add_0_r, Z.sub_0_r in K. exact K.
Qed.

Section Mem.
Variables (dbg : bool) (mem : list Z).
Hypothesis Bytes : Forall is_byte mem.

Lemma oks_mem a : oks (words_mem mem a).
Proof. intro i. apply (okp_wp _ true), words_mem_words, Bytes. Qed.
Lemma oks_vec v : Forall w64 v -> oks (words_vec v).
Proof. intros H i. apply (okp_wp _ true). now apply words_vec_words. Qed.
Lemma load_bytes a : okp (load128 mem a) (fun l => zlen l = 16 /\ Forall is_byte l).
Proof.
  eapply okp_mono; [apply (okp_wp _ true), (rd_bytes_wp true mem Bytes 16)|]. cbn beta. intros l [L F]. split; auto.
  unfold zlen. rewrite L. reflexivity.
Qed.

(** ** blocks of at most 30 values *)
Lemma cvt_inside b v : Forall is_byte v -> 0 <= b -> b + 256 <= 4294967296 ->
  Forall (fun x => b <= x < b + 256) (cvt_add b v).
Proof.
  intros F H0 H1. unfold cvt_add. apply Forall_map. apply Forall_firstn. eapply Forall_impl; [|exact F].
  unfold is_byte. intros x Hx. rewrite u32_id; lia.
Qed.
Lemma zlen_cvt b v : 8 <= zlen v -> zlen (cvt_add b v) = 8.
Proof. intro H. unfold cvt_add. rewrite zlen_map, zlen_firstn. lia. Qed.
Lemma decode_step_lands begin b out pos off : 0 <= b -> b + 256 <= 4294967296 ->
  okp (decode_step mem begin b out pos off) (fun o => lands b 256 out (pos + off) o 8).
Proof.
  intros H0 H1. unfold decode_step. eapply okp_seq; [apply load_bytes|]. intros v [L F].
  eapply okp_mono; [apply (store_lands b 256), cvt_inside; auto|]. cbn beta. rewrite zlen_cvt by lia. auto.
Qed.
Lemma decode_sparse_block_lands begin c b out pos : 0 <= c <= 32 -> 0 <= b -> b + 256 <= 4294967296 ->
  okp (decode_sparse_block mem begin c b out pos) (fun r => lands b 256 out pos (fst r) (snd r)).
Proof.
  intros Hc H0 H1. unfold decode_sparse_block. eapply okp_seq; [apply decode_step_lands; auto|]. intros o1 B1. cbn beta in B1.
  rewrite Z.add_0_r in B1. destruct (Z.leb_spec c 8); [apply okp_ok; cbn [fst snd]; eapply lands_less; [exact B1|lia]|].
  eapply okp_seq; [apply decode_step_lands; auto|]. intros o2 B2. cbn beta in B2.
  eapply okp_seq; [apply decode_step_lands; auto|]. intros o3 B3. cbn beta in B3.
  eapply okp_seq; [apply decode_step_lands; auto|]. intros o4 B4. cbn beta in B4.
  apply okp_ok. cbn [fst snd]. eapply lands_less with (n := 8 + 8 + 8 + 8); [|lia].
  eapply lands_then; [eapply lands_then; [eapply lands_then; [exact B1|exact B2]|]|].
  - replace (pos + (8 + 8)) with (pos + 16) by lia. exact B3.
  - replace (pos + (8 + 8 + 8)) with (pos + 24) by lia. exact B4.
Qed.

(** ** decoding a chunk *)
Lemma block_sparse_30 c : block_type c = t_sparse -> c <= 30.
Proof. rewrite block_type_val. destruct (Z.ltb_spec c 31); [lia|discriminate]. Qed.

Lemma decode_block_lands data c b out pos : 1 <= c -> 0 <= b -> b + 256 < 4294967296 ->
  okp (decode_block mem data (block_type c) c b out pos) (fun r => lands b 256 out pos (fst r) (snd r)).
Proof.
  intros Hc H0 H1. unfold decode_block. destruct (Z.eqb_spec (block_type c) t_sparse) as [E|E].
  - apply block_sparse_30 in E. apply decode_sparse_block_lands; lia.
  - change block_size_in_64bit_words with 4. eapply okp_mono; [apply decode_bitmap_lands; auto using oks_mem; lia|]. auto.
Qed.
Lemma decode_sparse_chunk_loop_lands base end_ : 0 <= base -> base + 65536 < 4294967296 -> forall fuel begin data out tmp,
  okp (decode_sparse_chunk_loop fuel mem begin end_ data base out tmp) (fun r => lands base 65536 out tmp (fst r) (snd r - tmp)).
Proof.
  intros H0 H1. induction fuel as [|f IH]; intros begin data out tmp; cbn [decode_sparse_chunk_loop]; destruct (begin =? end_).
  1,3: apply okp_ok; cbn [fst snd]; rewrite Z.sub_diag; apply lands_nil.
  { intros x E. discriminate. }
  eapply okp_seq; [apply rd8_byte, Bytes|]. intros id Hid. eapply okp_seq; [apply rd8_byte, Bytes|]. intros c Hc.
  unfold is_byte in Hc, Hid. cbv zeta. rewrite u32_id by lia.
  eapply okp_seq; [apply (decode_block_lands data (c + 1)); lia|].
  intros [o n] L. cbn [fst snd] in *. eapply okp_mono; [apply IH|]. cbn beta. intros r Hr.
  replace (snd r - tmp) with (n + (snd r - (tmp + n))) by lia. eapply lands_then; [|exact Hr].
  eapply lands_sub; [exact L|lia|lia].
Qed.
Lemma decode_sparse_chunk_lands begin bl base out pos : 0 <= base -> base + 65536 < 4294967296 ->
  okp (decode_sparse_chunk dbg mem begin bl base out pos) (fun r => lands base 65536 out pos (fst r) (snd r)).
Proof.
  intros H0 H1. unfold decode_sparse_chunk. eapply okp_seq; [apply okp_any|]. intros _ _.
  cbv zeta. eapply okp_seq; [apply decode_sparse_chunk_loop_lands; auto|]. intros [o t2] L. cbn [fst snd] in *.
  apply okp_ok. cbn [fst snd]. apply lands_u32, L.
Qed.
Lemma decode_full_loop_lands base pos : 0 <= base -> base + 65536 <= 4294967296 -> forall n i out,
  0 <= i -> i + Z.of_nat n <= 65536 ->
  okp (decode_full_loop n i base out pos) (fun o => lands base 65536 out (pos + i) o (Z.of_nat n)).
Proof.
  intros H0 H1. induction n as [|n IH]; intros i out Hi Hn; cbn [decode_full_loop]; [apply okp_ok, lands_nil|].
  eapply okp_seq; [apply (vset_lands base 65536); rewrite u32_id; lia|]. intros o Ho. cbn beta in Ho.
  eapply okp_mono; [apply IH; lia|]. cbn beta. intros o2 B2. replace (Z.of_nat (S n)) with (1 + Z.of_nat n) by lia.
  eapply lands_then; [exact Ho|]. now rewrite <- Z.add_assoc.
Qed.
Lemma decode_full_chunk_lands base out pos : 0 <= base -> base + 65536 <= 4294967296 ->
  okp (decode_full_chunk base out pos) (fun r => lands base 65536 out pos (fst r) (snd r)).
Proof.
  intros H0 H1. unfold decode_full_chunk. change chunk_size with 65536.
  pose proof (decode_full_loop_lands base pos H0 H1 (Z.to_nat 65536) 0 out) as D. rewrite Z2Nat.id, Z.add_0_r in D by lia.
  specialize (D ltac:(lia) ltac:(lia)). revert D. generalize (decode_full_loop (Z.to_nat 65536) 0 base out pos). intros r D.
  eapply okp_seq; [exact D|]. intros o L. apply okp_ok. exact L.
Qed.
Lemma decode_bitmap_chunk_lands word base out pos : oks word -> 0 <= base -> base + 65536 < 4294967296 ->
  okp (decode_bitmap word chunk_size_in_64bit_words base out pos) (fun r => lands base 65536 out pos (fst r) (snd r)).
Proof.
  intros Hw H0 H1. change chunk_size_in_64bit_words with 1024. eapply okp_mono; [apply decode_bitmap_lands; auto; lia|]. auto.
Qed.
Lemma and_chunk_lands l r base out pos : oks l -> oks r -> 0 <= base -> base + 65536 < 4294967296 ->
  okp (and_bitmaps l r chunk_size_in_64bit_words base out pos) (fun r => lands base 65536 out pos (fst r) (snd r)).
Proof.
  intros L R H0 H1. change chunk_size_in_64bit_words with 1024. eapply okp_mono; [apply and_bitmaps_lands; auto; lia|]. auto.
Qed.
Lemma or_chunk_lands l r base out pos : oks l -> oks r -> 0 <= base -> base + 65536 < 4294967296 ->
  okp (or_bitmaps l r chunk_size_in_64bit_words base out pos) (fun r => lands base 65536 out pos (fst r) (snd r)).
Proof.
  intros L R H0 H1. change chunk_size_in_64bit_words with 1024. eapply okp_mono; [apply or_bitmaps_lands; auto; lia|]. auto.
Qed.
Lemma decode_chunk_lands it id out pos : it_id mem it = Ok id -> 0 <= id < 65535 ->
  okp (decode_chunk dbg mem it out pos) (fun r => lands (id * 65536) 65536 out pos (fst r) (snd r)).
Proof.
  intros Ei Hi. unfold decode_chunk. rewrite Ei. cbn [bind]. cbv zeta.
  rewrite Z.shiftl_mul_pow2 by lia. change (2 ^ 16) with 65536. rewrite u32_id by lia.
  eapply okp_seq; [apply okp_any|]. intros t _.
  destruct (t =? t_sparse); [|destruct (t =? t_dense); [|destruct (t =? t_full)]].
  - eapply okp_seq; [apply okp_any|]. intros bl _. apply decode_sparse_chunk_lands; lia.
  - apply decode_bitmap_chunk_lands; auto using oks_mem; lia.
  - apply decode_full_chunk_lands; lia.
  - intros x E. discriminate.
Qed.

(** ** intersection *)
Variables (tbl : Z -> list Z) (Ht : shuffle_table_ok tbl).

Lemma mask_range set : forall b, 0 <= equal_any_mask set b < 2 ^ zlen b.
Proof.
  induction b as [|x b IH]; cbn [equal_any_mask]; [rewrite zlen_nil; lia|].
  rewrite zlen_cons. zpos. rewrite Z.pow_add_r, Z.pow_1_r by lia. destruct (existsb _ _); lia.
Qed.
Lemma popcount_range m : forall n, 0 <= n -> 0 <= m < 2 ^ n -> 0 <= popcount m <= n.
Proof.
  intros n Hn Hm. destruct m as [|p|p]; cbn [popcount]; [lia| |lia]. revert n Hn Hm.
  induction p as [p IH|p IH|]; intros n Hn Hm; cbn [pos_popcount].
  - destruct (Z.eq_dec n 0) as [->|]; [lia|]. specialize (IH (n - 1) ltac:(lia)).
    replace n with (1 + (n - 1)) in Hm by lia. rewrite Z.pow_add_r, Z.pow_1_r in Hm by lia. lia.
  - destruct (Z.eq_dec n 0) as [->|]; [lia|]. specialize (IH (n - 1) ltac:(lia)).
    replace n with (1 + (n - 1)) in Hm by lia. rewrite Z.pow_add_r, Z.pow_1_r in Hm by lia. lia.
  - destruct (Z.eq_dec n 0) as [->|]; [cbn in Hm; lia|lia].
Qed.
Lemma INTERSECT_lands v_l cl v_r cr b out pos size : Forall is_byte v_r -> 0 <= b -> b + 256 <= 4294967296 ->
  okp (INTERSECT tbl v_l cl v_r cr b out pos size) (fun r => lands b 256 out pos (fst r) (snd r - size)).
Proof.
  intros F H0 H1. unfold INTERSECT. cbv zeta. set (mask := cmpestrm v_l cl v_r cr).
  assert (Hm : 0 <= mask < 65536).
  { unfold mask, cmpestrm. pose proof (mask_range (firstn (Z.to_nat (Z.min 16 (Z.abs cl))) v_l) (firstn (Z.to_nat (Z.min 16 (Z.abs cr))) v_r)) as H.
    split; [lia|]. eapply Z.lt_le_trans; [apply H|]. change 65536 with (2 ^ 16). apply Z.pow_le_mono_r; [lia|].
    rewrite zlen_firstn. lia. }
  pose proof (popcount_range mask 16 ltac:(lia) ltac:(lia)) as Hp.
  destruct (Ht mask Hm) as [L16 _]. set (p := pshufb v_r (tbl mask)).
  assert (Fp : Forall is_byte p).
  { unfold p, pshufb. apply Forall_map. apply Forall_forall. intros c _. destruct (128 <=? c); [unfold is_byte; lia|].
    destruct (nth_in_or_default (Z.to_nat (c mod 16)) v_r 0) as [I| ->]; [|unfold is_byte; lia]. rewrite Forall_forall in F. auto. }
  assert (Lp : zlen p = 16) by (unfold p, pshufb; rewrite zlen_map; exact L16).
  eapply okp_seq; [apply (store_lands b 256), cvt_inside; auto|]. intros o1 S1. cbn beta in S1. rewrite zlen_cvt in S1 by lia.
  destruct (Z.ltb_spec 8 (popcount mask)).
  - eapply okp_seq; [apply (store_lands b 256), cvt_inside; auto|].
    { unfold bsrli8. apply Forall_app. split; [now apply Forall_skipn|]. apply Forall_forall. intros x Hx. apply repeat_spec in Hx. subst. unfold is_byte. lia. }
    intros o2 S2. cbn beta in S2. rewrite zlen_cvt in S2 by (unfold bsrli8; rewrite zlen_app; change (zlen (repeat 0 8)) with 8; zpos; lia).
    apply okp_ok. cbn [fst snd]. eapply lands_less; [eapply lands_then; [exact S1|exact S2]|lia].
  - apply okp_ok. cbn [fst snd]. eapply lands_less; [exact S1|lia].
Qed.
Lemma scalar_intersect_loop_lands b end_l end_r pos : 0 <= b -> b + 256 <= 4294967296 -> forall fuel l r out size,
  okp (scalar_intersect_loop fuel mem l end_l r end_r b out pos size)
    (fun x => lands b 256 out (pos + size) (fst x) (snd x - size)).
Proof.
  intros H0 H1. induction fuel as [|f IH]; intros l r out size; cbn [scalar_intersect_loop]; [intros x E; discriminate|].
  eapply okp_seq; [apply okp_any|]. intros ol _. destruct ol as [l1|]; [|apply okp_ok; cbn [fst snd]; rewrite Z.sub_diag; apply lands_nil].
  eapply okp_seq; [apply okp_any|]. intros or_ _. destruct or_ as [r1|]; [|apply okp_ok; cbn [fst snd]; rewrite Z.sub_diag; apply lands_nil].
  eapply okp_seq; [apply rd8_byte, Bytes|]. intros a Ha. eapply okp_seq; [apply rd8_byte, Bytes|]. intros c Hc.
  unfold is_byte in Ha, Hc. destruct (a =? c); [|apply IH].
  eapply okp_seq; [apply (vset_lands b 256); rewrite u32_id; lia|]. intros o L. cbn beta in L.
  assert (D : okp (Ok (o, size + 1)) (fun x => lands b 256 out (pos + size) (fst x) (snd x - size))).
  { apply okp_ok. cbn [fst snd]. replace (size + 1 - size) with 1 by lia. exact L. }
  destruct (l1 + 1 =? end_l); [exact D|]. destruct (r1 + 1 =? end_r); [exact D|].
  eapply okp_mono; [apply IH|]. cbn beta. intros x Hx. replace (snd x - size) with (1 + (snd x - (size + 1))) by lia.
  eapply lands_then; [exact L|]. now rewrite <- Z.add_assoc.
Qed.
Lemma ss_intersect_block_lands l r cl cr b out pos : 0 <= b -> b + 256 <= 4294967296 ->
  okp (ss_intersect_block tbl dbg mem l r cl cr b out pos) (fun x => lands b 256 out pos (fst x) (snd x)).
Proof.
  intros H0 H1. unfold ss_intersect_block. eapply okp_seq; [apply okp_any|]. intros _ _.
  eapply okp_seq; [apply okp_any|]. intros _ _.
  assert (I1 : forall v_l c v_r d o p, Forall is_byte v_r ->
    okp (INTERSECT tbl v_l c v_r d b o p 0) (fun x => lands b 256 o p (fst x) (snd x))).
  { intros. eapply okp_mono; [apply INTERSECT_lands; auto|]. cbn beta. intro x. now rewrite Z.sub_0_r. }
  destruct (_ && _); [|destruct (_ && _); [|destruct (_ && _)]].
  - eapply okp_seq; [apply okp_any|]. intros v_l _. eapply okp_seq; [apply load_bytes|]. intros v_r [_ F]. now apply I1.
  - eapply okp_seq; [apply okp_any|]. intros v_l _. eapply okp_seq; [apply load_bytes|]. intros v_r [_ F].
    eapply okp_seq; [apply I1, F|]. intros [o s] L. cbn [fst snd] in L.
    eapply okp_seq; [apply load_bytes|]. intros v2 [_ F2]. eapply okp_mono; [apply INTERSECT_lands; auto|]. cbn beta.
    intros x Hx. replace (snd x) with (s + (snd x - s)) by lia. eapply lands_then; eauto.
  - eapply okp_seq; [apply okp_any|]. intros v_l _. eapply okp_seq; [apply load_bytes|]. intros v_r [_ F].
    eapply okp_seq; [apply I1, F|]. intros [o s] L. cbn [fst snd] in L.
    eapply okp_seq; [apply okp_any|]. intros v2 _. eapply okp_mono; [apply INTERSECT_lands; auto|]. cbn beta.
    intros x Hx. replace (snd x) with (s + (snd x - s)) by lia. eapply lands_then; eauto.
  - eapply okp_mono; [apply scalar_intersect_loop_lands; auto|]. cbn beta. intro x. now rewrite Z.sub_0_r, Z.add_0_r.
Qed.
Lemma ds_loop_lands bm r b pos : 0 <= b -> b + 256 <= 4294967296 -> forall n i out k, 0 <= k -> k + Z.of_nat n < 4294967296 ->
  okp (ds_intersect_block_loop n mem bm r i b out pos k) (fun x => lands b 256 out (pos + k) (fst x) (snd x - k)).
Proof.
  intros H0 H1. induction n as [|n IH]; intros i out k Hk Hn; cbn [ds_intersect_block_loop].
  { apply okp_ok. cbn [fst snd]. rewrite Z.sub_diag. apply lands_nil. }
  eapply okp_seq; [apply rd8_byte, Bytes|]. intros key Hy. unfold is_byte in Hy.
  eapply okp_seq; [apply (vset_lands b 256); rewrite u32_id; lia|]. intros o L. cbn beta in L.
  eapply okp_seq; [apply okp_any|]. intros [|] _.
  - rewrite u32_id by lia. eapply okp_mono; [apply IH; lia|]. cbn beta. intros x Hx.
    replace (snd x - k) with (1 + (snd x - (k + 1))) by lia. eapply lands_then; [exact L|]. now rewrite <- Z.add_assoc.
  - eapply okp_mono; [apply IH; lia|]. cbn beta. intros x (B & N & I). split; auto.
    eapply below_trans; [exact (proj1 L)|exact B|lia].
Qed.
Lemma ds_intersect_block_lands l r c b out pos : c <= 30 -> 0 <= b -> b + 256 <= 4294967296 ->
  okp (ds_intersect_block mem l r c b out pos) (fun x => lands b 256 out pos (fst x) (snd x)).
Proof.
  intros Hc H0 H1. unfold ds_intersect_block. eapply okp_mono; [apply ds_loop_lands; lia|]. cbn beta.
  intro x. now rewrite Z.sub_0_r, Z.add_0_r.
Qed.
Lemma intersect_blocks_lands dl dr cl cr b out pos : 0 <= b -> b + 256 < 4294967296 ->
  okp (intersect_blocks tbl dbg mem dl dr cl cr b out pos) (fun x => lands b 256 out pos (fst x) (snd x)).
Proof.
  intros H0 H1. unfold intersect_blocks. rewrite !block_type_val.
  destruct (Z.ltb_spec cl 31) as [Ka|Ka]; destruct (Z.ltb_spec cr 31) as [Kb|Kb]; cbv zeta.
  - rewrite Z.eqb_refl. apply ss_intersect_block_lands; lia.
  - change (block_pair t_sparse t_dense =? block_pair t_sparse t_sparse) with false. cbv iota.
    rewrite Z.eqb_refl. apply ds_intersect_block_lands; lia.
  - change (block_pair t_dense t_sparse =? block_pair t_sparse t_sparse) with false.
    change (block_pair t_dense t_sparse =? block_pair t_sparse t_dense) with false. cbv iota.
    rewrite Z.eqb_refl. apply ds_intersect_block_lands; lia.
  - change (block_pair t_dense t_dense =? block_pair t_sparse t_sparse) with false.
    change (block_pair t_dense t_dense =? block_pair t_sparse t_dense) with false.
    change (block_pair t_dense t_dense =? block_pair t_dense t_sparse) with false. cbv iota.
    rewrite Z.eqb_refl. change block_size_in_64bit_words with 4.
    eapply okp_mono; [apply and_bitmaps_lands; auto using oks_mem; lia|]. auto.
Qed.
Lemma ss_intersect_chunk_loop_lands base end_l end_r : 0 <= base -> base + 65536 < 4294967296 -> forall fuel l r dl dr out tmp,
  okp (ss_intersect_chunk_loop fuel tbl dbg mem l r end_l end_r dl dr base out tmp)
    (fun x => lands base 65536 out tmp (fst x) (snd x - tmp)).
Proof.
  intros H0 H1. induction fuel as [|f IH]; intros l r dl dr out tmp; cbn [ss_intersect_chunk_loop]; [intros x E; discriminate|].
  eapply okp_seq; [apply okp_any|]. intros ol _. destruct ol as [[l1 dl1]|]; [|apply okp_ok; cbn [fst snd]; rewrite Z.sub_diag; apply lands_nil].
  eapply okp_seq; [apply okp_any|]. intros or_ _. destruct or_ as [[r1 dr1]|]; [|apply okp_ok; cbn [fst snd]; rewrite Z.sub_diag; apply lands_nil].
  eapply okp_seq; [apply rd8_byte, Bytes|]. intros id Hid. eapply okp_seq; [apply rd8_byte, Bytes|]. intros id_r Hr.
  unfold is_byte in Hid. destruct (id =? id_r); [|apply IH].
  eapply okp_seq; [apply okp_any|]. intros c1 _. eapply okp_seq; [apply okp_any|]. intros c2 _. cbv zeta. rewrite u32_id by lia.
  eapply okp_seq; [apply intersect_blocks_lands; lia|]. intros [o n] L. cbn [fst snd] in L.
  eapply lands_sub with (b' := base) (w' := 65536) in L; [|lia|lia]. apply lands_u32 in L.
  destruct (_ || _).
  - apply okp_ok. cbn [fst snd]. replace (tmp + u32 n - tmp) with (u32 n) by lia. exact L.
  - eapply okp_mono; [apply IH|]. cbn beta. intros x Hx. replace (snd x - tmp) with (u32 n + (snd x - (tmp + u32 n))) by lia.
    eapply lands_then; eauto.
Qed.
Lemma ss_intersect_chunk_lands l r bl br base out pos : 0 <= base -> base + 65536 < 4294967296 ->
  okp (ss_intersect_chunk tbl dbg mem l r bl br base out pos) (fun x => lands base 65536 out pos (fst x) (snd x)).
Proof.
  intros H0 H1. unfold ss_intersect_chunk. eapply okp_seq; [apply okp_any|]. intros _ _. eapply okp_seq; [apply okp_any|]. intros _ _.
  cbv zeta. eapply okp_seq; [apply ss_intersect_chunk_loop_lands; auto|]. intros [o t] L. apply okp_ok. exact L.
Qed.
Lemma ds_intersect_chunk_lands l r br base x out pos : 0 <= base -> base + 65536 < 4294967296 ->
  okp (ds_intersect_chunk dbg mem l r br base x out pos) (fun y => lands base 65536 out pos (snd (fst y)) (snd y)).
Proof.
  intros H0 H1. unfold ds_intersect_chunk. cbv zeta.
  eapply okp_seq; [apply (okp_wp _ dbg), uncompress_sparse_chunk_wp; [exact Bytes|apply zeros_w64]|]. intros x' Hx.
  eapply okp_seq; [apply and_chunk_lands; auto using oks_mem, oks_vec|]. intros [o n] L. apply okp_ok. exact L.
Qed.
Lemma intersect_chunks_lands itl itr base x out pos : 0 <= base -> base + 65536 < 4294967296 ->
  okp (intersect_chunks tbl dbg mem itl itr base x out pos) (fun y => lands base 65536 out pos (snd (fst y)) (snd y)).
Proof.
  intros H0 H1. unfold intersect_chunks. cbv zeta.
  assert (K : forall y : res (list Z * Z), okp y (fun r => lands base 65536 out pos (fst r) (snd r)) ->
    okp (let! p := y in let '(out, n) := p in Ok (x, out, n)) (fun y => lands base 65536 out pos (snd (fst y)) (snd y))).
  { intros y Hy. eapply okp_seq; [exact Hy|]. intros [o n] L. apply okp_ok. exact L. }
  eapply okp_seq; [apply okp_any|]. intros tl _. eapply okp_seq; [apply okp_any|]. intros tr _.
  assert (NB : forall it (f : Z -> res (list Z * list Z * Z)), (forall b, okp (f b) (fun y => lands base 65536 out pos (snd (fst y)) (snd y))) ->
    okp (bind (it_blocks mem it) f) (fun y => lands base 65536 out pos (snd (fst y)) (snd y))).
  { intros it f Hf. eapply okp_seq; [apply okp_any|]. intros b _. apply Hf. }
  destruct (_ =? _).
  { apply NB. intro bl. apply NB. intro br. destruct (_ <? _); apply K, ss_intersect_chunk_lands; lia. }
  destruct (_ =? _). { apply NB. intro bl. apply ds_intersect_chunk_lands; lia. }
  destruct (_ =? _). { apply NB. intro bl. apply K, decode_sparse_chunk_lands; lia. }
  destruct (_ =? _). { apply NB. intro bl. apply ds_intersect_chunk_lands; lia. }
  destruct (_ =? _). { apply K, and_chunk_lands; auto using oks_mem. }
  destruct (_ =? _). { apply K, decode_bitmap_chunk_lands; auto using oks_mem. }
  destruct (_ =? _). { apply NB. intro bl. apply K, decode_sparse_chunk_lands; lia. }
  destruct (_ =? _). { apply K, decode_bitmap_chunk_lands; auto using oks_mem. }
  destruct (_ =? _). { apply K, decode_full_chunk_lands; lia. }
  intros y E. discriminate.
Qed.

(** ** union *)
Lemma ss_union_block_loop_lands b pos : 0 <= b -> b + 256 <= 4294967296 -> forall fuel l r end_l end_r out size,
  l < end_l -> r < end_r ->
  okp (ss_union_block_loop fuel mem l r end_l end_r b out pos size) (fun x => let '(o, s, l', r') := x in
    lands b 256 out (pos + size) o (s - size) /\ l <= l' <= end_l /\ r <= r' <= end_r).
Proof.
  intros H0 H1. induction fuel as [|f IH]; intros l r end_l end_r out size Hl Hr; cbn [ss_union_block_loop]; [intros x E; discriminate|].
  eapply okp_seq; [apply rd8_byte, Bytes|]. intros a Ha. eapply okp_seq; [apply rd8_byte, Bytes|]. intros c Hc.
  unfold is_byte in Ha, Hc.
  assert (ST : forall o x l1 r1, l <= l1 -> r <= r1 -> lands b 256 out (pos + size) o 1 ->
     (let '(o2, s, l', r') := x in lands b 256 o (pos + (size + 1)) o2 (s - (size + 1)) /\ l1 <= l' <= end_l /\ r1 <= r' <= end_r) ->
     (let '(o2, s, l', r') := x in lands b 256 out (pos + size) o2 (s - size) /\ l <= l' <= end_l /\ r <= r' <= end_r)).
  { intros o [[[o2 s] l'] r'] l1 r1 L1 R1 L (L2 & X & Y). split; [|lia].
    replace (s - size) with (1 + (s - (size + 1))) by lia. eapply lands_then; [exact L|]. now rewrite <- Z.add_assoc. }
  assert (EN : forall o l1 r1, l <= l1 <= end_l -> r <= r1 <= end_r -> lands b 256 out (pos + size) o 1 ->
     okp (Ok (o, size + 1, l1, r1)) (fun x => let '(o2, s, l', r') := x in
       lands b 256 out (pos + size) o2 (s - size) /\ l <= l' <= end_l /\ r <= r' <= end_r)).
  { intros o l1 r1 L1 R1 L. apply okp_ok. replace (size + 1 - size) with 1 by lia. auto. }
  destruct (a <? c); [|destruct (c <? a)].
  - eapply okp_seq; [apply (vset_lands b 256); rewrite u32_id; lia|]. intros o L. cbn beta in L.
    destruct (Z.eqb_spec (l + 1) end_l); [apply EN; auto; lia|].
    eapply okp_mono; [apply IH; lia|]. intros x Hx. apply (ST o x (l + 1) r); auto; lia.
  - eapply okp_seq; [apply (vset_lands b 256); rewrite u32_id; lia|]. intros o L. cbn beta in L.
    destruct (Z.eqb_spec (r + 1) end_r); [apply EN; auto; lia|].
    eapply okp_mono; [apply IH; lia|]. intros x Hx. apply (ST o x l (r + 1)); auto; lia.
  - eapply okp_seq; [apply (vset_lands b 256); rewrite u32_id; lia|]. intros o L. cbn beta in L.
    destruct (Z.eqb_spec (l + 1) end_l); [apply EN; auto; lia|]. destruct (Z.eqb_spec (r + 1) end_r); [apply EN; auto; lia|]. cbn [orb].
    eapply okp_mono; [apply IH; lia|]. intros x Hx. apply (ST o x (l + 1) (r + 1)); auto; lia.
Qed.
Lemma ss_union_block_lands l r cl cr b out pos : 1 <= cl <= 30 -> 1 <= cr <= 30 -> 0 <= b -> b + 256 <= 4294967296 ->
  okp (ss_union_block dbg mem l r cl cr b out pos) (fun x => lands b 256 out pos (fst x) (snd x)).
Proof.
  intros Hl Hr H0 H1. unfold ss_union_block. eapply okp_seq; [apply okp_any|]. intros _ _. eapply okp_seq; [apply okp_any|]. intros _ _.
  cbv zeta. eapply okp_seq; [apply ss_union_block_loop_lands; lia|]. intros [[[o s] l'] r'] (L & X & Y).
  rewrite Z.add_0_r, Z.sub_0_r in L.
  assert (ST : forall p c o1 s1 (y : bool), 0 <= c <= 30 -> lands b 256 out pos o1 s1 ->
    okp (if y then let! (out, n) := decode_sparse_block mem p c b o1 (pos + s1) in Ok (out, s1 + n) else Ok (o1, s1))
      (fun x => lands b 256 out pos (fst x) (snd x))).
  { intros p c o1 s1 [|] Hc L1; [|apply okp_ok; exact L1]. eapply okp_seq; [apply decode_sparse_block_lands; lia|].
    intros [o2 n] L2. apply okp_ok. cbn [fst snd] in *. eapply lands_then; eauto. }
  eapply okp_seq; [apply ST; [lia|exact L]|]. intros [o1 s1] L1. cbn [fst snd] in L1. apply ST; [lia|exact L1].
Qed.
Lemma ds_union_block_lands l r c b x out pos : 1 <= c -> Forall w64 x -> 0 <= b -> b + 256 < 4294967296 ->
  okp (ds_union_block mem l r c b x out pos) (fun y => Forall w64 (fst (fst y)) /\ lands b 256 out pos (snd (fst y)) (snd y)).
Proof.
  intros Hc Hx H0 H1. unfold ds_union_block.
  eapply okp_seq; [apply (okp_wp _ true), memcpy_words_wp; [exact Bytes|exact Hx]|]. intros x1 X1.
  eapply okp_seq; [apply (okp_wp _ true), uncompress_sparse_block_wp; [lia|exact X1]|]. intros x2 X2.
  change block_size_in_64bit_words with 4. eapply okp_seq; [apply or_bitmaps_lands; auto using oks_mem, oks_vec; lia|].
  intros [o n] L. apply okp_ok. auto.
Qed.
Lemma DECODE_lands ptr data base out pos : 0 <= base -> base + 65536 < 4294967296 ->
  okp (DECODE mem ptr data base out pos) (fun x => let '(_, _, o, p) := x in lands base 65536 out pos o (p - pos)).
Proof.
  intros H0 H1. unfold DECODE. eapply okp_seq; [apply rd8_byte, Bytes|]. intros id Hid. eapply okp_seq; [apply rd8_byte, Bytes|]. intros c Hc.
  unfold is_byte in Hc, Hid. cbv zeta. rewrite u32_id by lia.
  eapply okp_seq; [apply (decode_block_lands data (c + 1)); lia|]. intros [o n] L. cbn [fst snd] in L. apply okp_ok.
  replace (pos + n - pos) with n by lia. eapply lands_sub; [exact L|lia|lia].
Qed.
Lemma union_blocks_lands dl dr cl cr b x out pos : 1 <= cl -> 1 <= cr -> Forall w64 x -> 0 <= b -> b + 256 < 4294967296 ->
  okp (union_blocks dbg mem dl dr cl cr b x out pos) (fun y => Forall w64 (fst (fst y)) /\ lands b 256 out pos (snd (fst y)) (snd y)).
Proof.
  intros Hl Hr Hx H0 H1. unfold union_blocks. rewrite !block_type_val.
  assert (K : forall y : res (list Z * Z), okp y (fun r => lands b 256 out pos (fst r) (snd r)) ->
    okp (let! p := y in let '(out, n) := p in Ok (x, out, n)) (fun y => Forall w64 (fst (fst y)) /\ lands b 256 out pos (snd (fst y)) (snd y))).
  { intros y Hy. eapply okp_seq; [exact Hy|]. intros [o n] L. apply okp_ok. auto. }
  destruct (Z.ltb_spec cl 31) as [Ka|Ka]; destruct (Z.ltb_spec cr 31) as [Kb|Kb]; cbv zeta.
  - rewrite Z.eqb_refl. apply K, ss_union_block_lands; lia.
  - change (block_pair t_sparse t_dense =? block_pair t_sparse t_sparse) with false. cbv iota.
    rewrite Z.eqb_refl. apply ds_union_block_lands; auto.
  - change (block_pair t_dense t_sparse =? block_pair t_sparse t_sparse) with false.
    change (block_pair t_dense t_sparse =? block_pair t_sparse t_dense) with false. cbv iota.
    rewrite Z.eqb_refl. apply ds_union_block_lands; auto.
  - change (block_pair t_dense t_dense =? block_pair t_sparse t_sparse) with false.
    change (block_pair t_dense t_dense =? block_pair t_sparse t_dense) with false.
    change (block_pair t_dense t_dense =? block_pair t_dense t_sparse) with false. cbv iota.
    rewrite Z.eqb_refl. change block_size_in_64bit_words with 4.
    apply K. eapply okp_mono; [apply or_bitmaps_lands; auto using oks_mem; lia|]. auto.
Qed.
Lemma ss_union_chunk_loop_lands base end_l end_r : 0 <= base -> base + 65536 < 4294967296 -> forall fuel l r dl dr x out pos,
  Forall w64 x ->
  okp (ss_union_chunk_loop fuel dbg mem l r end_l end_r dl dr base x out pos) (fun y => let '(_, _, _, _, x', o, p) := y in
    Forall w64 x' /\ lands base 65536 out pos o (p - pos)).
Proof.
  intros H0 H1. induction fuel as [|f IH]; intros l r dl dr x out pos Hx; cbn [ss_union_chunk_loop]; [intros y E; discriminate|].
  assert (ST : forall o p y, lands base 65536 out pos o (p - pos) ->
    (let '(_, _, _, _, x', o', p') := y : Z * Z * Z * Z * list Z * list Z * Z in Forall w64 x' /\ lands base 65536 o p o' (p' - p)) ->
    (let '(_, _, _, _, x', o', p') := y in Forall w64 x' /\ lands base 65536 out pos o' (p' - pos))).
  { intros o p [[[[[[? ?] ?] ?] x'] o'] p'] L [X L']. split; auto. replace (p' - pos) with (p - pos + (p' - p)) by lia.
    eapply lands_then; [exact L|]. now replace (pos + (p - pos)) with p by lia. }
  eapply okp_seq; [apply rd8_byte, Bytes|]. intros a Ha. eapply okp_seq; [apply okp_any|]. intros c _. unfold is_byte in Ha.
  destruct (a <? c); [|destruct (c <? a)].
  - eapply okp_seq; [apply DECODE_lands; auto|]. intros [[[l1 dl1] o] p] L. destruct (l1 =? end_l); [apply okp_ok; auto|].
    eapply okp_mono; [apply IH, Hx|]. intros y Hy. exact (ST o p y L Hy).
  - eapply okp_seq; [apply DECODE_lands; auto|]. intros [[[r1 dr1] o] p] L. destruct (r1 =? end_r); [apply okp_ok; auto|].
    eapply okp_mono; [apply IH, Hx|]. intros y Hy. exact (ST o p y L Hy).
  - eapply okp_seq; [apply rd8_byte, Bytes|]. intros c1 C1. eapply okp_seq; [apply rd8_byte, Bytes|]. intros c2 C2.
    unfold is_byte in C1, C2. cbv zeta. rewrite u32_id by lia.
    eapply okp_seq; [apply union_blocks_lands; auto; lia|]. intros [[x1 o] n] [X1 L]. cbn [fst snd] in X1, L.
    eapply lands_sub with (b' := base) (w' := 65536) in L; [|lia|lia]. apply lands_u32 in L.
    replace (u32 n) with (pos + u32 n - pos) in L at 1 by lia.
    destruct (_ || _); [apply okp_ok; auto|]. eapply okp_mono; [apply IH, X1|]. intros y Hy. exact (ST o (pos + u32 n) y L Hy).
Qed.
Lemma decode_blocks_loop_lands base end_ : 0 <= base -> base + 65536 < 4294967296 -> forall fuel ptr data out pos,
  okp (decode_blocks_loop fuel mem ptr end_ data base out pos) (fun x => lands base 65536 out pos (fst x) (snd x - pos)).
Proof.
  intros H0 H1. induction fuel as [|f IH]; intros ptr data out pos; cbn [decode_blocks_loop]; destruct (negb _).
  2,4: apply okp_ok; cbn [fst snd]; rewrite Z.sub_diag; apply lands_nil.
  { intros x E. discriminate. }
  eapply okp_seq; [apply DECODE_lands; auto|]. intros [[[l1 dl1] o] p] L.
  eapply okp_mono; [apply IH|]. cbn beta. intros y Hy. replace (snd y - pos) with (p - pos + (snd y - p)) by lia.
  eapply lands_then; [exact L|]. now replace (pos + (p - pos)) with p by lia.
Qed.
Lemma ss_union_chunk_lands l r bl br base x out pos : Forall w64 x -> 0 <= base -> base + 65536 < 4294967296 ->
  okp (ss_union_chunk dbg mem l r bl br base x out pos) (fun y => Forall w64 (fst (fst y)) /\ lands base 65536 out pos (snd (fst y)) (snd y)).
Proof.
  intros Hx H0 H1. unfold ss_union_chunk. eapply okp_seq; [apply okp_any|]. intros _ _. eapply okp_seq; [apply okp_any|]. intros _ _.
  cbv zeta. eapply okp_seq; [apply ss_union_chunk_loop_lands; auto|]. intros [[[[[[l1 r1] dl] dr] x1] o1] p1] [X1 L1].
  eapply okp_seq; [apply decode_blocks_loop_lands; auto|]. intros [o2 p2] L2. cbn [fst snd] in L2.
  eapply okp_seq; [apply decode_blocks_loop_lands; auto|]. intros [o3 p3] L3. cbn [fst snd] in L3.
  apply okp_ok. cbn [fst snd]. split; auto. replace (p3 - pos) with ((p1 - pos) + (p2 - p1) + (p3 - p2)) by lia.
  eapply lands_then; [eapply lands_then; [exact L1|]|].
  - replace (pos + (p1 - pos)) with p1 by lia. exact L2.
  - replace (pos + (p1 - pos + (p2 - p1))) with p2 by lia. exact L3.
Qed.
Lemma ds_union_chunk_lands l r br base y out pos : 0 <= base -> base + 65536 < 4294967296 ->
  okp (ds_union_chunk dbg mem l r br base y out pos) (fun z => lands base 65536 out pos (snd (fst z)) (snd z)).
Proof.
  intros H0 H1. unfold ds_union_chunk. cbv zeta.
  eapply okp_seq; [apply (okp_wp _ dbg), uncompress_sparse_chunk_wp; [exact Bytes|apply zeros_w64]|]. intros x' Hx.
  eapply okp_seq; [apply or_chunk_lands; auto using oks_mem, oks_vec|]. intros [o n] L. apply okp_ok. exact L.
Qed.
Lemma union_chunks_lands itl itr base x y out pos : Forall w64 x -> 0 <= base -> base + 65536 < 4294967296 ->
  okp (union_chunks dbg mem itl itr base x y out pos) (fun z => let '(x', _, o, n) := z in
    Forall w64 x' /\ lands base 65536 out pos o n).
Proof.
  intros Hx H0 H1. unfold union_chunks. cbv zeta.
  set (P := fun z : list Z * list Z * list Z * Z => let '(x', _, o, n) := z in Forall w64 x' /\ lands base 65536 out pos o n).
  assert (K : forall z : res (list Z * Z), okp z (fun r => lands base 65536 out pos (fst r) (snd r)) ->
    okp (let! p := z in let '(out, n) := p in Ok (x, y, out, n)) P).
  { intros z Hz. eapply okp_seq; [exact Hz|]. intros [o n] L. apply okp_ok. split; auto. }
  assert (KX : forall z : res (list Z * list Z * Z), okp z (fun r => lands base 65536 out pos (snd (fst r)) (snd r)) ->
    okp (let! p := z in let '(y, out, n) := p in Ok (x, y, out, n)) P).
  { intros z Hz. eapply okp_seq; [exact Hz|]. intros [[y' o] n] L. apply okp_ok. split; auto. }
  assert (KY : forall z : res (list Z * list Z * Z), okp z (fun r => Forall w64 (fst (fst r)) /\ lands base 65536 out pos (snd (fst r)) (snd r)) ->
    okp (let! p := z in let '(x, out, n) := p in Ok (x, y, out, n)) P).
  { intros z Hz. eapply okp_seq; [exact Hz|]. intros [[x' o] n] L. apply okp_ok. exact L. }
  eapply okp_seq; [apply okp_any|]. intros tl _. eapply okp_seq; [apply okp_any|]. intros tr _.
  assert (NB : forall it (f : Z -> res (list Z * list Z * list Z * Z)), (forall b, okp (f b) P) -> okp (bind (it_blocks mem it) f) P).
  { intros it f Hf. eapply okp_seq; [apply okp_any|]. intros b _. apply Hf. }
  destruct (_ =? _).
  { apply NB. intro bl. apply NB. intro br. destruct (_ <? _); apply KY, ss_union_chunk_lands; auto. }
  destruct (_ =? _). { apply NB. intro bl. apply KX, ds_union_chunk_lands; auto. }
  destruct (_ =? _). { apply K, decode_full_chunk_lands; lia. }
  destruct (_ =? _). { apply NB. intro bl. apply KX, ds_union_chunk_lands; auto. }
  destruct (_ =? _). { apply K, or_chunk_lands; auto using oks_mem. }
  destruct (_ =? _). { apply K, decode_full_chunk_lands; lia. }
  destruct (_ =? _). { apply K, decode_full_chunk_lands; lia. }
  destruct (_ =? _). { apply K, decode_full_chunk_lands; lia. }
  destruct (_ =? _). { apply K, decode_full_chunk_lands; lia. }
  intros z E. discriminate.
Qed.
End Mem.
