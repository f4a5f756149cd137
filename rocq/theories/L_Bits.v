(** Bit-level lemmas: ctz, lowest set bit, popcount, clz, pdep, and the bitmap
    decoding loop. *)
From Verif Require Import Base Hw Spec Lib M_Util.

Definition w64 (w : Z) : Prop := 0 <= w < 18446744073709551616.

(** positions of the set bits of a word *)
Definition bits (w : Z) : list Z := filter (Z.testbit w) (zrange 0 64).

Lemma In_bits w x : In x (bits w) <-> 0 <= x < 64 /\ Z.testbit w x = true.
Proof. unfold bits. rewrite filter_In, In_zrange. change (Z.of_nat 64) with 64. tauto. Qed.
Lemma sorted_bits w : sorted (bits w).
Proof. apply sorted_filter, sorted_zrange. Qed.

Lemma w64_testbit_high w i : w64 w -> 64 <= i -> Z.testbit w i = false.
Proof.
  intros H Hi. destruct (Z.eq_dec w 0) as [->|]; [apply Z.bits_0|].
  apply Z.bits_above_log2; [unfold w64 in H; lia|].
  assert (Z.log2 w < 64); [|lia]. apply Z.log2_lt_pow2; unfold w64 in H; [lia|].
  change (2^64) with 18446744073709551616. lia.
Qed.
Lemma w64_of_bits w : 0 <= w -> (forall i, 64 <= i -> Z.testbit w i = false) -> w64 w.
Proof.
  intros H Hb. split; auto. destruct (Z.eq_dec w 0); [lia|].
  change 18446744073709551616 with (2^64). apply Z.log2_lt_pow2; [lia|].
  destruct (Z_lt_le_dec (Z.log2 w) 64); auto.
  assert (Z.testbit w (Z.log2 w) = true) by (apply Z.bit_log2; lia).
  rewrite Hb in *; auto. easy.
Qed.

Lemma pos_ctz_spec p : exists q, Zpos p = 2 ^ pos_ctz p * (2 * q + 1) /\ 0 <= q /\ 0 <= pos_ctz p.
Proof.
  induction p as [p IH|p (q & E & Hq & Hc)|].
  - exists (Zpos p). cbn [pos_ctz]. rewrite Z.pow_0_r. lia.
  - exists q. cbn [pos_ctz]. rewrite Pos2Z.inj_xO, E.
    rewrite Z.pow_add_r, Z.pow_1_r by lia. lia.
  - exists 0. cbn. lia.
Qed.
Lemma ctz_spec w : 0 < w -> exists q, w = 2 ^ ctzll w * (2 * q + 1) /\ 0 <= q /\ 0 <= ctzll w.
Proof. destruct w; try lia. intros _. apply pos_ctz_spec. Qed.

Lemma ctz_below w i : 0 < w -> i < ctzll w -> Z.testbit w i = false.
Proof.
  intros H Hi. destruct (ctz_spec w H) as (q & E & Hq & Hc).
  destruct (Z_lt_le_dec i 0). { now apply Z.testbit_neg_r. }
  rewrite E, Z.mul_comm, Z.mul_pow2_bits by lia. apply Z.testbit_neg_r. lia.
Qed.
Lemma ctz_bit w : 0 < w -> Z.testbit w (ctzll w) = true.
Proof.
  intro H. destruct (ctz_spec w H) as (q & E & Hq & Hc).
  rewrite E at 1. rewrite Z.mul_comm, Z.mul_pow2_bits by lia.
  rewrite Z.sub_diag. apply Z.testbit_odd_0.
Qed.
Lemma ctz_bound w : 0 < w -> w64 w -> 0 <= ctzll w < 64.
Proof.
  intros H Hw. destruct (ctz_spec w H) as (q & E & Hq & Hc). split; auto.
  destruct (Z_lt_le_dec (ctzll w) 64); auto.
  pose proof (ctz_bit w H). rewrite w64_testbit_high in *; auto. easy.
Qed.
(** the least set bit *)
Lemma ctz_unique w i :
  0 < w -> 0 <= i -> Z.testbit w i = true -> (forall j, 0 <= j < i -> Z.testbit w j = false) ->
  ctzll w = i.
Proof.
  intros H Hi Hb Hl. destruct (ctz_spec w H) as (q & E & Hq & Hc).
  destruct (Z_lt_le_dec i (ctzll w)).
  - rewrite ctz_below in Hb; easy.
  - destruct (Z.eq_dec (ctzll w) i); auto.
    specialize (Hl (ctzll w) ltac:(lia)). rewrite ctz_bit in Hl; easy.
Qed.

Lemma testbit_pow2 r i : 0 <= r -> Z.testbit (2 ^ r) i = (i =? r).
Proof.
  intro Hr. destruct (Z.eqb_spec i r) as [->|].
  - now apply Z.pow2_bits_true.
  - apply Z.pow2_bits_false; lia.
Qed.

(** w & (~w + 1) is the lowest set bit *)
Lemma lowest_bit w :
  0 < w -> w64 w -> Z.land w (u64 (u64 (Z.lnot w) + 1)) = 2 ^ ctzll w.
Proof.
  intros H Hw. destruct (ctz_spec w H) as (q & E & Hq & Hc).
  pose proof (ctz_bound w H Hw) as Hb.
  assert (E1 : u64 (u64 (Z.lnot w) + 1) = 2 ^ 64 - w).
  { unfold w64 in Hw. change (2^64) with 18446744073709551616.
    assert (u64 (Z.lnot w) = 18446744073709551615 - w) as ->.
    { unfold u64, Z.lnot. change (2^64) with 18446744073709551616.
      symmetry; apply Z.mod_unique with (q := -1); lia. }
    rewrite u64_id; lia. }
  rewrite E1. apply Z.bits_inj'. intros i Hi.
  rewrite Z.land_spec, testbit_pow2 by lia.
  destruct (Z_lt_le_dec i (ctzll w)).
  { rewrite ctz_below by auto. destruct (Z.eqb_spec i (ctzll w)); auto; lia. }
  destruct (Z.eqb_spec i (ctzll w)) as [->|].
  { rewrite ctz_bit by auto. cbn [andb].
    assert (E2 : 2 ^ 64 - w = (2 * (2 ^ (63 - ctzll w) - q - 1) + 1) * 2 ^ ctzll w).
    { assert (2 ^ 64 = 2 * 2 ^ (63 - ctzll w) * 2 ^ ctzll w) as ->.
      { rewrite <- Z.mul_assoc, <- Z.pow_add_r by lia.
        replace (63 - ctzll w + ctzll w) with 63 by lia. reflexivity. }
      transitivity (2 * 2 ^ (63 - ctzll w) * 2 ^ ctzll w - 2 ^ ctzll w * (2 * q + 1));
        [now rewrite <- E | ring]. }
    rewrite E2, Z.mul_pow2_bits, Z.sub_diag by lia. apply Z.testbit_odd_0. }
  destruct (Z_lt_le_dec i 64).
  2:{ rewrite w64_testbit_high; auto. }
  assert (E3 : Z.testbit (w - 1) i = Z.testbit w i).
  { assert (E4 : w - 1 = (2 * q) * 2 ^ ctzll w + (2 ^ ctzll w - 1)) by lia.
    assert (P : 0 < 2 ^ ctzll w) by (apply Z.pow_pos_nonneg; lia).
    rewrite <- (Z.sub_add (ctzll w) i), <- !Z.div_pow2_bits by lia.
    assert (D1 : (w - 1) / 2 ^ ctzll w = 2 * q).
    { rewrite E4. rewrite Z.div_add_l by lia. rewrite Z.div_small; lia. }
    assert (D2 : w / 2 ^ ctzll w = 2 * q + 1).
    { rewrite E at 1. rewrite Z.mul_comm. apply Z.div_mul. lia. }
    rewrite D1, D2. replace (i - ctzll w) with (Z.succ (i - ctzll w - 1)) by lia.
    rewrite Z.testbit_even_succ, Z.testbit_odd_succ by lia. reflexivity. }
  assert (E5 : Z.testbit (2 ^ 64 - w) i = negb (Z.testbit (w - 1) i)).
  { replace (2 ^ 64 - w) with (Z.lnot (w - 1) + 1 * 2 ^ 64) by (unfold Z.lnot; lia).
    rewrite <- (Z.mod_pow2_bits_low _ 64) by lia.
    rewrite Z_mod_plus_full. rewrite Z.mod_pow2_bits_low by lia.
    apply Z.lnot_spec; lia. }
  rewrite E5, E3. apply andb_negb_r.
Qed.

Lemma clear_lowest_w64 w : 0 < w -> w64 w -> w64 (Z.lxor w (2 ^ ctzll w)).
Proof.
  intros H Hw. pose proof (ctz_bound w H Hw) as Hb.
  apply w64_of_bits.
  - apply Z.lxor_nonneg. unfold w64 in Hw. split; intros _; [apply Z.pow_nonneg|]; lia.
  - intros i Hi. rewrite Z.lxor_spec, testbit_pow2, w64_testbit_high by (auto; lia).
    destruct (Z.eqb_spec i (ctzll w)); [exfalso; lia | reflexivity].
Qed.
Lemma clear_lowest_sorted w :
  0 < w -> w64 w -> sorted (ctzll w :: bits (Z.lxor w (2 ^ ctzll w))).
Proof.
  intros H Hw. pose proof (ctz_bound w H Hw) as Hb.
  constructor; [apply sorted_bits|]. apply Forall_forall. intros x [Hx E]%In_bits.
  rewrite Z.lxor_spec, testbit_pow2 in E by lia.
  destruct (Z.eqb_spec x (ctzll w)) as [->|].
  - rewrite ctz_bit in E by auto. easy.
  - rewrite xorb_false_r in E. destruct (Z_lt_le_dec x (ctzll w)); [|lia].
    rewrite ctz_below in E by auto. easy.
Qed.
Lemma clear_lowest_In w x :
  0 < w -> w64 w -> In x (bits w) <-> In x (ctzll w :: bits (Z.lxor w (2 ^ ctzll w))).
Proof.
  intros H Hw. pose proof (ctz_bound w H Hw) as Hb.
  assert (T : Z.testbit (Z.lxor w (2 ^ ctzll w)) x = xorb (Z.testbit w x) (x =? ctzll w)).
  { rewrite Z.lxor_spec, testbit_pow2 by lia. reflexivity. }
  split; intro Hx.
  - apply In_bits in Hx as [H1 H2]. rewrite H2 in T.
    destruct (Z.eqb_spec x (ctzll w)) as [E|E].
    + rewrite E. apply in_eq.
    + apply in_cons. apply In_bits. split; [exact H1|exact T].
  - apply in_inv in Hx. destruct Hx as [E|Hx].
    + subst x. apply In_bits. split; [exact Hb|]. now apply ctz_bit.
    + apply In_bits in Hx as [H1 H2]. rewrite H2 in T. apply In_bits. split; [exact H1|].
      destruct (Z.eqb_spec x (ctzll w)) as [E|E].
      * rewrite E. now apply ctz_bit.
      * rewrite xorb_false_r in T. now symmetry.
Qed.
Lemma bits_step w :
  0 < w -> w64 w ->
  bits w = ctzll w :: bits (Z.lxor w (2 ^ ctzll w)) /\ w64 (Z.lxor w (2 ^ ctzll w)).
Proof.
  intros H Hw. split; [|now apply clear_lowest_w64].
  apply sorted_ext; [apply sorted_bits | now apply clear_lowest_sorted |].
  intro x. now apply clear_lowest_In.
Qed.

Lemma bits_length w : (length (bits w) <= 64)%nat.
Proof.
  unfold bits. pose proof (filter_length_le _ (Z.testbit w) (zrange 0 64)) as H.
  rewrite (length_zlen _ (zrange 0 64)), zlen_zrange, Nat2Z.id in H. exact H.
Qed.
Lemma bits_unfold w : bits w = filter (Z.testbit w) (zrange 0 64).
Proof. reflexivity. Qed.

Global Opaque bits.

Lemma bits_0 : bits 0 = [].
Proof. reflexivity. Qed.
Lemma bits_nil w : w64 w -> bits w = [] -> w = 0.
Proof.
  intros Hw E. destruct (Z.eq_dec w 0); auto.
  destruct (bits_step w) as [E' _]; auto; [unfold w64 in Hw; lia|]. congruence.
Qed.
(** ** the bitmap loops *)

(** the getter [word] reads [n] words whose bits are given by [f] *)
Definition bm_at (word : Z -> res Z) (n : Z) (f : Z -> bool) : Prop :=
  forall i, 0 <= i < n ->
    exists w, word i = Ok w /\ w64 w /\ forall j, 0 <= j < 64 -> Z.testbit w j = f (64 * i + j).

Lemma word_loop_ok fuel w base buf pos size :
  w64 w -> (length (bits w) <= fuel)%nat ->
  0 <= pos + size -> pos + size + zlen (bits w) <= zlen buf ->
  exists buf',
    word_loop fuel w base buf pos size = Ok (buf', size + zlen (bits w))
    /\ wrote 0 buf (pos + size) (map (fun x => u32 (x + base)) (bits w)) buf'.
Proof.
  revert w buf size; induction fuel; intros w buf size Hw Hf Hp Hl; cbn [word_loop].
  - assert (E : bits w = []) by (destruct (bits w); auto; cbn in Hf; lia).
    assert (w = 0) by (now apply bits_nil). subst w. cbn [Z.eqb].
    exists buf. rewrite E, zlen_nil, Z.add_0_r. split; auto. now apply wrote_nil.
  - destruct (Z.eqb_spec w 0) as [->|].
    + exists buf. rewrite bits_0, zlen_nil, Z.add_0_r.
      split; auto. now apply wrote_nil.
    + assert (0 < w) by (unfold w64 in Hw; lia).
      destruct (bits_step w) as [E Hw']; auto.
      rewrite E in Hf, Hl. cbn [length] in Hf. rewrite zlen_cons in Hl.
      pose proof (zlen_nonneg _ (bits (Z.lxor w (2 ^ ctzll w)))).
      rewrite lowest_bit by auto.
      destruct (vset_ok buf (pos + size) (u32 (ctzll w + base))) as (buf1 & -> & W1); [lia|].
      cbn [bind]. pose proof (wrote_zlen _ _ _ _ _ W1).
      destruct (IHfuel (Z.lxor w (2 ^ ctzll w)) buf1 (size + 1)) as (buf2 & -> & W2);
        auto; try lia.
      exists buf2. rewrite E, zlen_cons. split; [do 2 f_equal; lia|].
      rewrite map_cons. apply wrote_cons with (buf1 := buf1); [lia|exact W1|].
      rewrite <- Z.add_assoc. exact W2.
Qed.

Lemma filter_zrange_shift f a n :
  filter f (zrange a n) = map (fun x => x + a) (filter (fun x => f (x + a)) (zrange 0 n)).
Proof.
  assert (G : forall b, filter f (zrange (b + a) n)
              = map (fun x => x + a) (filter (fun x => f (x + a)) (zrange b n))).
  { induction n; intro b; cbn [zrange filter map]; auto.
    replace (b + a + 1) with (b + 1 + a) by lia. rewrite IHn.
    destruct (f (b + a)); reflexivity. }
  apply (G 0).
Qed.

Lemma bits_filter w f i :
  w64 w -> (forall j, 0 <= j < 64 -> Z.testbit w j = f (64 * i + j)) ->
  filter f (zrange (64 * i) 64) = map (fun x => x + 64 * i) (bits w).
Proof.
  intros Hw H. rewrite filter_zrange_shift. rewrite bits_unfold. f_equal.
  apply filter_ext_in. intros x Hx%In_zrange. rewrite H by lia. f_equal; lia.
Qed.

Lemma u32_add_l x y : u32 (u32 x + y) = u32 (x + y).
Proof. unfold u32. apply Zplus_mod_idemp_l. Qed.
Lemma u32_add_r x y : u32 (x + u32 y) = u32 (x + y).
Proof. unfold u32. apply Zplus_mod_idemp_r. Qed.

Lemma bitmap_loop_ok n word f i base buf pos size :
  (forall k, 0 <= i <= k -> k < i + Z.of_nat n ->
     exists w, word k = Ok w /\ w64 w /\ forall j, 0 <= j < 64 -> Z.testbit w j = f (64 * k + j)) ->
  0 <= i -> 0 <= pos + size ->
  pos + size + zlen (filter f (zrange (64 * i) (64 * n))) <= zlen buf ->
  exists buf',
    bitmap_loop n word i base buf pos size
      = Ok (buf', size + zlen (filter f (zrange (64 * i) (64 * n))))
    /\ wrote 0 buf (pos + size)
         (map (fun x => u32 (x - 64 * i + base)) (filter f (zrange (64 * i) (64 * n)))) buf'.
Proof.
  revert i base buf size; induction n; intros i base buf size Hw Hi Hp Hl; cbn [bitmap_loop].
  - exists buf. cbn [Nat.mul zrange filter map]. rewrite zlen_nil, Z.add_0_r.
    split; auto. now apply wrote_nil.
  - destruct (Hw i) as (w & -> & W64 & Hb); [lia|lia|]. cbn [bind].
    replace (64 * S n)%nat with (64 + 64 * n)%nat in * by lia.
    rewrite zrange_app, filter_app, zlen_app in *.
    rewrite (bits_filter w f i) in * by auto. rewrite zlen_map in *.
    replace (64 * i + Z.of_nat 64) with (64 * (i + 1)) in * by lia.
    pose proof (zlen_nonneg _ (filter f (zrange (64 * (i + 1)) (64 * n)))).
    pose proof (zlen_nonneg _ (bits w)).
    destruct (word_loop_ok 64 w base buf pos size) as (buf1 & -> & W1);
      auto using bits_length; [lia|]. cbn [bind].
    pose proof (wrote_zlen _ _ _ _ _ W1).
    destruct (IHn (i + 1) (u32 (base + 64)) buf1 (size + zlen (bits w)))
      as (buf2 & -> & W2); try lia.
    { intros k Hk1 Hk2. apply Hw; lia. }
    exists buf2. split; [do 2 f_equal; lia|].
    rewrite map_app. apply wrote_app with (buf1 := buf1); [lia| |].
    + rewrite map_map. erewrite map_ext; [exact W1|]. intro x; cbn beta. f_equal; lia.
    + rewrite !zlen_map. replace (pos + size + zlen (bits w)) with (pos + (size + zlen (bits w))) by lia.
      erewrite map_ext; [exact W2|]. intro x; cbn beta. rewrite u32_add_r. f_equal; lia.
Qed.

Lemma bitmap_loop_0 n word f base buf pos :
  bm_at word (Z.of_nat n) f -> 0 <= pos ->
  pos + zlen (filter f (zrange 0 (64 * n))) <= zlen buf ->
  exists buf',
    bitmap_loop n word 0 base buf pos 0 = Ok (buf', zlen (filter f (zrange 0 (64 * n))))
    /\ wrote 0 buf pos (map (fun x => u32 (x + base)) (filter f (zrange 0 (64 * n)))) buf'.
Proof.
  intros Hb Hp Hl.
  destruct (bitmap_loop_ok n word f 0 base buf pos 0) as (buf' & E & W); try lia.
  { intros k H1 H2. apply Hb. lia. }
  { change (64 * 0) with 0. lia. }
  exists buf'. change (64 * 0) with 0 in *. rewrite Z.add_0_l in E. rewrite Z.add_0_r in W.
  split; auto. erewrite map_ext; [exact W|]. intro x; cbn beta. f_equal; lia.
Qed.

(** ** popcount *)
Lemma filter_testbit_double w n b :
  filter (Z.testbit (2 * w + (if b : bool then 1 else 0))) (zrange 0 (S n))
  = (if b then [0] else []) ++ map (fun x => x + 1) (filter (Z.testbit w) (zrange 0 n)).
Proof.
  cbn [zrange filter]. rewrite filter_zrange_shift.
  erewrite filter_ext_in.
  2:{ intros x Hx%In_zrange. change (0 + 1) with 1.
      replace (x + 1) with (Z.succ x) by lia.
      instantiate (1 := Z.testbit w). cbn beta.
      destruct b; [apply Z.testbit_odd_succ|rewrite Z.add_0_r; apply Z.testbit_even_succ]; lia. }
  change (0 + 1) with 1. destruct b.
  - now rewrite Z.testbit_odd_0.
  - now rewrite Z.add_0_r, Z.testbit_even_0.
Qed.
Lemma filter_testbit_0 n : filter (Z.testbit 0) (zrange 0 n) = [].
Proof.
  assert (G : forall a, filter (Z.testbit 0) (zrange a n) = []).
  { induction n; intro a; cbn [zrange filter]; auto. rewrite Z.bits_0. auto. }
  apply G.
Qed.
Lemma popcount_n n w : 0 <= w < 2 ^ Z.of_nat n -> popcount w = zlen (filter (Z.testbit w) (zrange 0 n)).
Proof.
  revert w; induction n; intros w Hw.
  - cbn in *. assert (w = 0) by lia. subst. reflexivity.
  - rewrite Nat2Z.inj_succ, Z.pow_succ_r in Hw by lia.
    assert (B : w = 2 * Z.div2 w + (if Z.odd w then 1 else 0)).
    { rewrite (Z.div2_odd w) at 1. destruct (Z.odd w); reflexivity. }
    rewrite B at 2. rewrite filter_testbit_double, zlen_app, zlen_map.
    rewrite <- IHn by (rewrite Z.div2_div; split; [apply Z.div_pos|apply Z.div_lt_upper_bound]; lia).
    destruct w as [|p|p]; [reflexivity| |lia].
    destruct p; cbn [Z.odd Z.div2 popcount pos_popcount]; auto; try reflexivity.
Qed.
Lemma popcount_bits w : w64 w -> popcount w = zlen (bits w).
Proof. intro H. rewrite bits_unfold. now apply popcount_n. Qed.

(** ** clz *)
Lemma clz_spec w :
  0 < w -> w64 w ->
  let h := 63 - clzll w in
  0 <= h < 64 /\ Z.testbit w h = true /\ forall i, h < i -> Z.testbit w i = false.
Proof.
  intros H Hw h. unfold clzll in h. replace h with (Z.log2 w) by (subst h; lia).
  pose proof (Z.log2_nonneg w). split; [split; auto|split].
  - apply Z.log2_lt_pow2; auto. unfold w64 in Hw. change (2 ^ 64) with 18446744073709551616. lia.
  - apply Z.bit_log2; lia.
  - intros i Hi. apply Z.bits_above_log2; lia.
Qed.

(** ** pdep of a single bit selects a set bit *)
Lemma pdep_loop_done n m k s w dest :
  0 <= s < k -> pdep_loop n m k (2 ^ s) w dest = dest.
Proof.
  revert m k; induction n; intros m k Hk; cbn [pdep_loop]; auto.
  rewrite testbit_pow2 by lia.
  destruct (Z.eqb_spec k s); [lia|]. destruct (Z.testbit w m); apply IHn; lia.
Qed.
Lemma pdep_loop_one n m k s w :
  0 <= m -> 0 <= k <= s ->
  pdep_loop n m k (2 ^ s) w 0
  = match znth (filter (Z.testbit w) (zrange m n)) (s - k) with
    | Some p => 2 ^ p
    | None => 0
    end.
Proof.
  revert m k; induction n; intros m k Hm Hk; cbn [pdep_loop zrange filter].
  - now rewrite znth_nil.
  - rewrite testbit_pow2 by lia.
    destruct (Z.testbit w m) eqn:E.
    + destruct (Z.eqb_spec k s) as [->|].
      * rewrite Z.sub_diag, znth_cons_0. rewrite pdep_loop_done by lia.
        rewrite Z.lor_0_l, Z.shiftl_1_l. reflexivity.
      * rewrite IHn by lia. rewrite znth_cons_pos by lia.
        replace (s - k - 1) with (s - (k + 1)) by lia. reflexivity.
    + apply IHn; lia.
Qed.
Lemma select_word w s p :
  0 <= s < 64 -> znth (bits w) s = Some p -> tzcnt (pdep (u64 (Z.shiftl 1 s)) w) = p.
Proof.
  intros Hs E. rewrite Z.shiftl_1_l.
  assert (P : 0 < 2 ^ s) by (apply Z.pow_pos_nonneg; lia).
  assert (2 ^ s < 2 ^ 64) by (apply Z.pow_lt_mono_r; lia).
  rewrite u64_id by (change 18446744073709551616 with (2 ^ 64); lia).
  unfold pdep. rewrite pdep_loop_one by lia. rewrite <- bits_unfold. rewrite Z.sub_0_r, E.
  apply znth_In, In_bits in E as [Hp Hb].
  unfold tzcnt. apply ctz_unique; [apply Z.pow_pos_nonneg; lia | lia | |].
  - rewrite testbit_pow2 by lia. apply Z.eqb_refl.
  - intros j Hj. rewrite testbit_pow2 by lia. apply Z.eqb_neq; lia.
Qed.
