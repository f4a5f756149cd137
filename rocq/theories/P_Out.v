(** Proofs for C49: how numbers are printed. *)
From Coq Require Import Lia String Ascii QArith Qpower Qabs Floats.SpecFloat.
From Verif Require Import Base Spec Lib M_Util M_Build M_Index M_Print M_Text M_Out Shown Typed Printed P_Text2.
Local Open Scope Z_scope.

(** ** digits *)
Lemma value_of_fold ds : forall v, fold_left (fun v d => 10 * v + d) ds v = v * 10 ^ zlen ds + value_of ds.
Proof.
  unfold value_of. induction ds as [|d ds IH]; intro v; cbn [fold_left].
  - change (zlen (@nil Z)) with 0. change (10 ^ 0) with 1. lia.
  - rewrite IH, (IH (10 * 0 + d)). rewrite zlen_cons, Z.pow_add_r by (pose proof (zlen_nonneg _ ds); lia).
    change (10 ^ 1) with 10. ring.
Qed.
Lemma value_of_app a b : value_of (a ++ b) = value_of a * 10 ^ zlen b + value_of b.
Proof. unfold value_of. rewrite fold_left_app. apply value_of_fold. Qed.
Lemma value_of_one d : value_of [d] = d.
Proof. unfold value_of. cbn [fold_left]. lia. Qed.
Lemma value_of_cons d b : value_of (d :: b) = d * 10 ^ zlen b + value_of b.
Proof. change (d :: b) with ([d] ++ b). now rewrite value_of_app, value_of_one. Qed.
Lemma value_of_zeros n : value_of (repeat 0 n) = 0.
Proof. induction n as [|n IH]; [reflexivity|]. cbn [repeat]. rewrite value_of_cons, IH. lia. Qed.
Lemma pow10 n : 0 < 10 ^ n \/ n < 0.
Proof. destruct (Z.lt_ge_cases n 0); [auto|left; now apply Z.pow_pos_nonneg]. Qed.
Lemma pow10_pos A (l : list A) : 0 < 10 ^ zlen l.
Proof. apply Z.pow_pos_nonneg; [lia|apply zlen_nonneg]. Qed.
Lemma value_of_range ds : is_digits ds -> 0 <= value_of ds < 10 ^ zlen ds.
Proof.
  induction 1 as [|d ds Hd _ IH]; [now compute|].
  rewrite value_of_cons, zlen_cons, Z.pow_add_r by (pose proof (zlen_nonneg _ ds); lia).
  change (10 ^ 1) with 10. nia.
Qed.
Lemma digits_app a b : is_digits (a ++ b) <-> is_digits a /\ is_digits b.
Proof. apply Forall_app. Qed.

Lemma last_digits_ok n : forall d, 0 <= d < 10 ^ Z.of_nat n ->
  is_digits (last_digits n d) /\ zlen (last_digits n d) = Z.of_nat n /\ value_of (last_digits n d) = d.
Proof.
  induction n as [|n IH]; intros d Hd; cbn [last_digits].
  - change (10 ^ Z.of_nat 0) with 1 in Hd. repeat split; [constructor|]. unfold value_of. cbn [fold_left]. lia.
  - rewrite Nat2Z.inj_succ, Z.pow_succ_r in Hd by lia.
    destruct (IH (d / 10)) as (A & B & C); [split; [apply Z.div_pos; lia|apply Z.div_lt_upper_bound; lia]|].
    pose proof (Z.mod_pos_bound d 10 ltac:(lia)). split; [|split].
    + apply digits_app. split; [auto|constructor; [lia|constructor]].
    + rewrite zlen_app, B. change (zlen [d mod 10]) with 1. lia.
    + rewrite value_of_snoc, C. pose proof (Z.div_mod d 10 ltac:(lia)). lia.
Qed.

Lemma strip_ok ds : is_digits ds -> neat (strip ds) /\ exists k, ds = strip ds ++ repeat 0 k.
Proof.
  induction 1 as [|d ds Hd Hs IH]; cbn [strip].
  - split; [|exists O; reflexivity]. split; [constructor|]. intros b' E. destruct b'; discriminate.
  - destruct IH as ((I1 & I2) & k & I3). destruct (strip ds) as [|d1 ds1] eqn:E.
    + destruct (Z.eqb_spec d 0) as [->|N].
      * split; [|exists (S k); cbn [repeat app] in *; now f_equal].
        split; [constructor|]. intros b' E'. destruct b'; discriminate.
      * split; [|exists k; cbn [app] in *; now f_equal]. split; [constructor; [auto|constructor]|].
        intros b' E'. destruct b' as [|? [|? ?]]; cbn [app] in E'; injection E'; intros; subst; try discriminate; try congruence.
    + split; [|exists k; cbn [app] in *; now f_equal]. split; [constructor; auto|].
      intros b' E'. destruct b' as [|x b']; cbn [app] in E'; [discriminate|].
      injection E'; intros E1 E2. now apply (I2 b').
Qed.
Lemma neat_app a b : is_digits a -> neat b -> b <> [] -> neat (a ++ b).
Proof.
  intros Ha (Hb & Hn) H0. split; [now apply digits_app|]. intros b' E.
  destruct (exists_last H0) as (b0 & x & ->). rewrite app_assoc in E. apply app_inj_tail in E as (_ & ->).
  now apply (Hn b0).
Qed.

Lemma zlen_zeros k : zlen (repeat 0 k) = Z.of_nat k.
Proof. unfold zlen. now rewrite repeat_length. Qed.

(** ** integers *)
Lemma show_loop_lean fuel : forall n after, 0 <= n < 2 ^ Z.of_nat fuel -> (fuel <> 0)%nat ->
  exists ds, lean ds /\ show_loop fuel n after = in_ascii ds ++ after /\ value_of ds = n.
Proof.
  induction fuel as [|fuel IH]; intros n after Hn Hf; [lia|]. cbn [show_loop].
  pose proof (Z.mod_pos_bound n 10 ltac:(lia)) as Hm.
  destruct (n <? 10) eqn:E.
  - apply Z.ltb_lt in E. rewrite Z.mod_small by lia. exists [n].
    split; [|split; [reflexivity|apply value_of_one]].
    split; [constructor; [lia|constructor]|]. destruct (Z.eq_dec n 0) as [->|N]; [now left|right; now exists n, []].
  - apply Z.ltb_ge in E. rewrite Nat2Z.inj_succ, Z.pow_succ_r in Hn by lia.
    destruct (IH (n / 10) ((48 + n mod 10) :: after)) as (ds & (H1 & H2) & H3 & H4).
    + split; [apply Z.div_pos; lia|]. apply Z.div_lt_upper_bound; lia.
    + intros ->. cbn in Hn. lia.
    + exists (ds ++ [n mod 10]). split; [|split].
      * split; [apply digits_app; split; [auto|constructor; [lia|constructor]]|].
        right. destruct H2 as [->|(d & ds' & -> & Hd)].
        -- rewrite value_of_one in H4. pose proof (Z.div_mod n 10 ltac:(lia)). lia.
        -- now exists d, (ds' ++ [n mod 10]).
      * rewrite H3. unfold in_ascii. now rewrite map_app, <- app_assoc.
      * rewrite value_of_snoc, H4. pose proof (Z.div_mod n 10 ltac:(lia)). lia.
Qed.
Lemma show_natural n : 0 <= n -> natural n (show n).
Proof.
  intro H. unfold show. destruct (show_loop_lean (S (Z.to_nat (Z.log2 n))) n []) as (ds & H1 & H2 & H3); [|lia|].
  - split; [auto|]. rewrite Nat2Z.inj_succ, Z2Nat.id by apply Z.log2_nonneg.
    destruct (Z.eq_dec n 0) as [->|N]; [now compute|]. apply Z.log2_spec. lia.
  - exists ds. rewrite H2, app_nil_r. auto.
Qed.

(** ** powers of ten and quotients *)
Local Open Scope Q_scope.
Definition p10 (x : Z) : Q := Qpower 10 x.
Lemma ten0 : ~ 10 == 0.
Proof. discriminate. Qed.
Lemma p10_pos x : 0 < p10 x.
Proof. apply Qpower_0_lt. reflexivity. Qed.
Lemma p10_ne x : ~ p10 x == 0.
Proof. intro H. pose proof (p10_pos x) as P. rewrite H in P. now apply Qlt_irrefl in P. Qed.
Lemma p10_add x y : p10 (x + y) == p10 x * p10 y.
Proof. apply Qpower_plus. discriminate. Qed.
Lemma p10_opp x : p10 (- x) == / p10 x.
Proof. apply Qpower_opp. Qed.
Lemma p10_Z n : (0 <= n)%Z -> p10 n == inject_Z (10 ^ n).
Proof. intro H. unfold p10. rewrite Zpower_Qpower by auto. reflexivity. Qed.

Lemma Zne_inj z : z <> 0%Z -> ~ inject_Z z == 0.
Proof. intros H E. apply H. apply (proj1 (inject_Z_injective z 0)). exact E. Qed.

Lemma scale_ok fuel : forall num den x, (0 < num)%Z -> (0 < den)%Z ->
  (Z.abs (Z.log2 num - Z.log2 den) + 1 < Z.of_nat fuel)%Z ->
  let '(num', den', x') := scale fuel num den x in
  (0 < den')%Z /\ (den' <= num' < 10 * den')%Z
  /\ inject_Z num' / inject_Z den' * p10 x' == inject_Z num / inject_Z den * p10 x.
Proof.
  assert (LG : forall a, (0 < a)%Z -> (Z.log2 (10 * a) = Z.log2 a + 3 \/ Z.log2 (10 * a) = Z.log2 a + 4)%Z).
  { intros a Ha. assert (A := Z.log2_spec a Ha). assert (L := Z.log2_nonneg a).
    assert (B : (2 ^ (Z.log2 a + 3) <= 10 * a < 2 ^ (Z.log2 a + 5))%Z).
    { rewrite !Z.pow_add_r by lia. change (2 ^ 3)%Z with 8%Z. change (2 ^ 5)%Z with 32%Z.
      rewrite Z.pow_succ_r in A by lia. lia. }
    assert (C1 := Z.log2_le_mono _ _ (proj1 B)). rewrite Z.log2_pow2 in C1 by lia.
    assert (C2 : (Z.log2 (10 * a) < Z.log2 a + 5)%Z) by (apply Z.log2_lt_pow2; lia). lia. }
  induction fuel as [|fuel IH]; intros num den x Hn Hd Hf; [lia|]. cbn [scale].
  destruct (Z.ltb_spec num den) as [H|H].
  - assert (M := Z.log2_le_mono _ _ (Z.lt_le_incl _ _ H)). destruct (LG num Hn) as [G|G].
    + specialize (IH (10 * num)%Z den (x - 1)%Z ltac:(lia) Hd).
      destruct fuel as [|fuel]; [lia|].
      destruct (Z.le_gt_cases den (10 * num)) as [K|K].
      * cbn [scale]. rewrite (proj2 (Z.ltb_ge _ _) K). rewrite (proj2 (Z.leb_gt _ _)) by lia.
        split; [auto|]. split; [lia|].
        unfold Z.sub. rewrite inject_Z_mult, p10_add. change (p10 (-(1))) with (1 # 10).
        field. now apply Zne_inj; lia.
      * assert (M2 := Z.log2_le_mono _ _ (Z.lt_le_incl _ _ K)).
        assert (HH : (Z.abs (Z.log2 (10 * num) - Z.log2 den) + 1 < Z.of_nat (S fuel))%Z) by lia.
        specialize (IH HH). destruct (scale (S fuel) (10 * num) den (x - 1)) as [[num' den'] x'].
        destruct IH as (I1 & I2 & I3). split; [auto|]. split; [auto|]. rewrite I3.
        unfold Z.sub. rewrite inject_Z_mult, p10_add. change (p10 (-(1))) with (1 # 10).
        field. now apply Zne_inj; lia.
    + specialize (IH (10 * num)%Z den (x - 1)%Z ltac:(lia) Hd).
      destruct fuel as [|fuel]; [lia|].
      destruct (Z.le_gt_cases den (10 * num)) as [K|K].
      * cbn [scale]. rewrite (proj2 (Z.ltb_ge _ _) K). rewrite (proj2 (Z.leb_gt _ _)) by lia.
        split; [auto|]. split; [lia|].
        unfold Z.sub. rewrite inject_Z_mult, p10_add. change (p10 (-(1))) with (1 # 10).
        field. now apply Zne_inj; lia.
      * assert (M2 := Z.log2_le_mono _ _ (Z.lt_le_incl _ _ K)).
        assert (HH : (Z.abs (Z.log2 (10 * num) - Z.log2 den) + 1 < Z.of_nat (S fuel))%Z) by lia.
        specialize (IH HH). destruct (scale (S fuel) (10 * num) den (x - 1)) as [[num' den'] x'].
        destruct IH as (I1 & I2 & I3). split; [auto|]. split; [auto|]. rewrite I3.
        unfold Z.sub. rewrite inject_Z_mult, p10_add. change (p10 (-(1))) with (1 # 10).
        field. now apply Zne_inj; lia.
  - destruct (Z.leb_spec (10 * den) num) as [K|K].
    + assert (M := Z.log2_le_mono _ _ K). destruct (LG den Hd) as [G|G];
      (specialize (IH num (10 * den)%Z (x + 1)%Z Hn ltac:(lia));
       assert (HH : (Z.abs (Z.log2 num - Z.log2 (10 * den)) + 1 < Z.of_nat fuel)%Z) by lia;
       specialize (IH HH); destruct (scale fuel num (10 * den) (x + 1)) as [[num' den'] x'];
       destruct IH as (I1 & I2 & I3); split; [auto|]; split; [auto|]; rewrite I3;
       rewrite inject_Z_mult, p10_add; change (p10 1) with 10;
       field; apply Zne_inj; lia).
    + split; [auto|]. split; [lia|]. reflexivity.
Qed.

(** ** decimal fractions *)
Lemma fraction_ok a b k v : value_of (a ++ b ++ repeat 0%Z k) = v ->
  fraction a b == inject_Z v * p10 (- (zlen b + Z.of_nat k)).
Proof.
  intros <-. unfold fraction. rewrite app_assoc, (value_of_app (a ++ b)), value_of_zeros, zlen_zeros, Z.add_0_r.
  change (Qpower 10 (zlen b)) with (p10 (zlen b)).
  rewrite inject_Z_mult, <- p10_Z by lia. rewrite p10_opp, p10_add. field. split; apply p10_ne.
Qed.

Lemma point_chars a b : chars a ++ dot b = point a b.
Proof. unfold point, dot. destruct b; reflexivity. Qed.

Lemma lean_small ds : lean ds -> (value_of ds < 10)%Z -> exists d, ds = [d] /\ (0 <= d <= 9)%Z.
Proof.
  intros (Hd & [->|(d & ds' & -> & H0)]) H; [exists 0%Z; split; [reflexivity|lia]|].
  inversion Hd as [|? ? H1 H2]; subst. destruct ds' as [|d' ds']; [now exists d|exfalso].
  rewrite value_of_cons, zlen_cons, Z.pow_add_r in H by (pose proof (zlen_nonneg _ ds'); lia).
  pose proof (value_of_range _ H2). pose proof (pow10_pos _ ds'). change (10 ^ 1)%Z with 10%Z in H. nia.
Qed.
Lemma lean_big ds : lean ds -> (10 <= value_of ds)%Z -> (2 <= zlen ds)%Z.
Proof.
  intros (Hd & _) H. pose proof (value_of_range _ Hd) as R. pose proof (zlen_nonneg _ ds).
  destruct (Z.le_gt_cases 2 (zlen ds)) as [|L]; [auto|].
  assert (10 ^ zlen ds <= 10 ^ 1)%Z by (apply Z.pow_le_mono_r; lia). change (10 ^ 1)%Z with 10%Z in *. lia.
Qed.

Lemma show_decimal_ok d x : (100000 <= d < 1000000)%Z ->
  let r := inject_Z d * p10 (x - 5) in
  ((-4 <= x < 6)%Z -> plain r (show_decimal d x)) /\ (~ (-4 <= x < 6)%Z -> scientific r (show_decimal d x)).
Proof.
  intros Hd r. subst r. unfold show_decimal.
  destruct (last_digits_ok 6 d) as (D1 & D2 & D3). { change (10 ^ Z.of_nat 6)%Z with 1000000%Z. lia. }
  change (Z.of_nat 6) with 6%Z in D2. set (ds := last_digits 6 d) in *. clearbody ds.
  assert (D4 : exists c ds', ds = c :: ds' /\ (1 <= c <= 9)%Z /\ is_digits ds' /\ zlen ds' = 5%Z).
  { destruct ds as [|c ds']; [discriminate|]. exists c, ds'. split; [reflexivity|].
    inversion D1 as [|? ? C1 C2]; subst. rewrite zlen_cons in D2. assert (D5 : zlen ds' = 5%Z) by lia.
    rewrite value_of_cons, D5 in *. pose proof (value_of_range _ C2) as R. rewrite D5 in R.
    change (10 ^ 5)%Z with 100000%Z in *. split; [lia|auto]. }
  split; intro Hx.
  - rewrite (proj2 (Z.ltb_ge x (-4))), (proj2 (Z.leb_gt 6 x)) by lia. cbn [orb].
    destruct (Z.leb_spec 0 x) as [H0|H0].
    + rewrite point_chars. set (n := Z.to_nat (x + 1)).
      assert (S1 := firstn_skipn n ds). assert (S2 := zlen_skipn _ ds n). assert (S0 := zlen_firstn _ ds n).
      rewrite D2 in S2, S0.
      assert (S3 : is_digits (firstn n ds) /\ is_digits (skipn n ds)) by (apply digits_app; now rewrite S1).
      destruct (strip_ok _ (proj2 S3)) as (N1 & k & N2).
      assert (S4 : (zlen (strip (skipn n ds)) + Z.of_nat k = 5 - x)%Z).
      { rewrite <- zlen_zeros, <- zlen_app, <- N2, S2. lia. }
      exists (firstn n ds), (strip (skipn n ds)). split; [|split; [exact N1|split; [reflexivity|]]].
      * split; [apply S3|]. right. destruct D4 as (c & ds' & -> & C & _).
        exists c, (firstn (Z.to_nat x) ds'). split; [|lia]. unfold n.
        replace (Z.to_nat (x + 1)) with (S (Z.to_nat x)) by lia. reflexivity.
      * rewrite (fraction_ok _ _ k d); [|now rewrite <- N2, S1].
        rewrite S4. replace (- (5 - x))%Z with (x - 5)%Z by ring. reflexivity.
    + rewrite point_chars. destruct (strip_ok _ D1) as (N1 & k & N2).
      assert (S4 : (zlen (strip ds) + Z.of_nat k = 6)%Z) by now rewrite <- zlen_zeros, <- zlen_app, <- N2.
      exists [0%Z], (repeat 0%Z (Z.to_nat (- x - 1)) ++ strip ds).
      split; [|split; [|split; [reflexivity|]]].
      * split; [constructor; [lia|constructor]|now left].
      * apply neat_app; [|exact N1|].
        -- apply Forall_forall. intros y Hy. apply repeat_spec in Hy. lia.
        -- intro E. rewrite E in N2. cbn [app] in N2. rewrite N2, value_of_zeros in D3. lia.
      * rewrite (fraction_ok _ _ k d).
        -- rewrite zlen_app, zlen_zeros. replace (- (Z.of_nat (Z.to_nat (- x - 1)) + zlen (strip ds) + Z.of_nat k))%Z with (x - 5)%Z by lia.
           reflexivity.
        -- rewrite <- app_assoc, <- N2. rewrite value_of_app, value_of_one, value_of_app, value_of_zeros, D3. ring.
  - assert (E : ((x <? -4) || (6 <=? x))%Z = true).
    { apply orb_true_iff. rewrite Z.ltb_lt, Z.leb_le. lia. }
    rewrite E. destruct D4 as (c & ds' & -> & C & C1 & C2). cbn [firstn skipn].
    destruct (strip_ok _ C1) as (N1 & k & N2).
    assert (S4 : (zlen (strip ds') + Z.of_nat k = 5)%Z) by now rewrite <- zlen_zeros, <- zlen_app, <- N2.
    destruct (show_natural (Z.abs x) (Z.abs_nonneg x)) as (es & E1 & E2 & E3).
    set (full := if (Z.abs x <? 10)%Z then 0%Z :: es else es).
    exists c, (strip ds'), x, full. split; [auto|]. split; [auto|]. split; [|split; [|split]].
    + unfold full. destruct (Z.ltb_spec (Z.abs x) 10) as [L|L].
      * right. destruct (lean_small es E1) as (e & -> & He); [lia|]. exists e. auto.
      * left. split; [auto|]. apply lean_big; [auto|lia].
    + rewrite app_assoc, point_chars. unfold full. rewrite E2. destruct (Z.abs x <? 10)%Z; reflexivity.
    + unfold full. destruct (Z.abs x <? 10)%Z; [|auto]. rewrite value_of_cons. lia.
    + rewrite (fraction_ok _ _ k d).
      * rewrite S4. rewrite <- Qmult_assoc. change (Qpower 10 x) with (p10 x). rewrite <- p10_add.
        replace (- (5) + x)%Z with (x - 5)%Z by ring. reflexivity.
      * rewrite <- N2. exact D3.
Qed.

(** ** rounding *)
Lemma round_even_ok num den : (0 < den)%Z -> let d := round_even num den in
  (2 * Z.abs (num - d * den) < den \/ 2 * Z.abs (num - d * den) = den /\ Z.even d = true)%Z.
Proof.
  intros Hd. cbn zeta. unfold round_even. pose proof (Z.div_mod num den ltac:(lia)) as D.
  pose proof (Z.mod_pos_bound num den Hd) as M. set (q := (num / den)%Z) in *. set (r := (num mod den)%Z) in *.
  destruct (Z.ltb_spec (2 * r) den); [left; replace (num - q * den)%Z with r by lia; lia|].
  destruct (Z.ltb_spec den (2 * r)); [left; replace (num - (q + 1) * den)%Z with (r - den)%Z by lia; lia|].
  right. destruct (Z.even q) eqn:E; [split; [replace (num - q * den)%Z with r by lia; lia|auto]|].
  split; [replace (num - (q + 1) * den)%Z with (r - den)%Z by lia; lia|].
  rewrite Z.add_1_r, Z.even_succ, <- Z.negb_even, E. reflexivity.
Qed.
Lemma round_even_range num den a b : (0 < den)%Z -> (a * den <= num <= b * den)%Z ->
  (a <= round_even num den <= b)%Z.
Proof.
  intros Hd H. destruct (round_even_ok num den Hd) as [K|(K & _)]; cbn zeta in K;
    set (d := round_even num den) in *; split.
  - destruct (Z.le_gt_cases a d); [auto|nia].
  - destruct (Z.le_gt_cases d b); [auto|nia].
  - destruct (Z.le_gt_cases a d); [auto|nia].
  - destruct (Z.le_gt_cases d b); [auto|nia].
Qed.

Lemma inj_pos z : (0 < z)%Z -> 0 < inject_Z z.
Proof. intro H. unfold Qlt. cbn. lia. Qed.
Lemma p10_lt x y : (x < y)%Z -> p10 x < p10 y.
Proof. intro H. apply Qpower_lt_compat_l; [auto|reflexivity]. Qed.
Lemma p10_le x y : (x <= y)%Z -> p10 x <= p10 y.
Proof. intro H. apply Qpower_le_compat_l; [auto|discriminate]. Qed.

Lemma exponent_range d x : (100000 <= d < 1000000)%Z ->
  p10 x <= inject_Z d * p10 (x - 5) /\ inject_Z d * p10 (x - 5) < p10 (x + 1).
Proof.
  intro H. replace (p10 x) with (p10 (5 + (x - 5))) by (f_equal; ring).
  replace (x + 1)%Z with (6 + (x - 5))%Z by ring. rewrite !p10_add.
  change (p10 5) with (inject_Z 100000). change (p10 6) with (inject_Z 1000000). pose proof (p10_pos (x - 5)). split.
  - apply Qmult_le_r; [auto|]. rewrite <- Zle_Qle. lia.
  - apply Qmult_lt_r; [auto|]. rewrite <- Zlt_Qlt. lia.
Qed.
Lemma plain_iff d x : (100000 <= d < 1000000)%Z ->
  ((1 # 10000) <= inject_Z d * p10 (x - 5) /\ inject_Z d * p10 (x - 5) < 1000000 <-> (-4 <= x < 6)%Z).
Proof.
  intro H. destruct (exponent_range d x H) as (A & B). set (r := inject_Z d * p10 (x - 5)) in *.
  change (1 # 10000) with (p10 (-4)). change 1000000 with (p10 6). split.
  - intros (C & D). split.
    + apply Z.le_ngt. intro L. apply (Qlt_irrefl r). apply Qlt_le_trans with (p10 (x + 1)); [auto|].
      apply Qle_trans with (p10 (-4)); [apply p10_le; lia|auto].
    + apply Z.lt_nge. intro L. apply (Qlt_irrefl r). apply Qlt_le_trans with (p10 6); [auto|].
      apply Qle_trans with (p10 x); [apply p10_le; lia|auto].
  - intros (C & D). split.
    + apply Qle_trans with (p10 x); [apply p10_le; lia|auto].
    + apply Qlt_le_trans with (p10 (x + 1)); [auto|apply p10_le; lia].
Qed.

Lemma plain_ext q r t : q == r -> plain q t -> plain r t.
Proof. intros E (a & b & A & B & C & D). exists a, b. now rewrite <- E. Qed.
Lemma scientific_ext q r t : q == r -> scientific q t -> scientific r t.
Proof. intros E (d & b & x & ds & A & B & C & D & F & G). exists d, b, x, ds. now rewrite <- E. Qed.

Lemma value_split m e :
  inject_Z (Zpos m * 2 ^ Z.max 0 e) / inject_Z (2 ^ Z.max 0 (- e)) == inject_Z (Zpos m) * Qpower 2 e.
Proof.
  rewrite inject_Z_mult, !Zpower_Qpower by lia. change (inject_Z 2) with 2.
  destruct (Z.le_gt_cases 0 e) as [H|H].
  - rewrite (Z.max_r 0 e), (Z.max_l 0 (- e)) by lia. change (Qpower 2 0) with 1. field.
  - rewrite (Z.max_l 0 e), (Z.max_r 0 (- e)) by lia. rewrite Qpower_opp. change (Qpower 2 0) with 1.
    field. apply Qpower_not_0. discriminate.
Qed.

Theorem double_ok : forall nan x, real nan x (show_double nan x).
Proof.
  intros nan [s|s| |s m e]; cbn [real show_double]; try (destruct s; reflexivity); [reflexivity|].
  set (num := (Zpos m * 2 ^ Z.max 0 e)%Z). set (den := (2 ^ Z.max 0 (- e))%Z).
  assert (Hn : (0 < num)%Z) by (apply Z.mul_pos_pos; [lia|apply Z.pow_pos_nonneg; lia]).
  assert (Hd : (0 < den)%Z) by (apply Z.pow_pos_nonneg; lia).
  pose proof (scale_ok (Z.to_nat (Z.log2 num + Z.log2 den + 2)) num den 0 Hn Hd) as SC.
  assert (V : inject_Z num / inject_Z den == inject_Z (Zpos m) * Qpower 2 e) by apply value_split.
  destruct (scale (Z.to_nat (Z.log2 num + Z.log2 den + 2)) num den 0) as [[num' den'] x].
  destruct SC as (S1 & S2 & S3).
  { pose proof (Z.log2_nonneg num). pose proof (Z.log2_nonneg den). lia. }
  change (p10 0) with 1 in S3. rewrite Qmult_1_r, V in S3. clear V Hn Hd. clearbody num den.
  set (d := round_even (num' * 100000) den').
  assert (RE := round_even_ok (num' * 100000) den' S1). cbn zeta in RE. fold d in RE.
  assert (RR : (100000 <= d <= 1000000)%Z) by (apply round_even_range; lia).
  eexists. split; [|reflexivity].
  set (q := inject_Z (Z.pos m) * Qpower 2 e) in *.
  assert (Dp := inj_pos _ S1). assert (Dn : ~ inject_Z den' == 0) by (apply Zne_inj; lia).
  assert (SIX : six_digits q (inject_Z d * p10 (x - 5))).
  { exists x, d. rewrite <- S3. change (Qpower 10) with p10.
    assert (X5 : p10 x == 100000 * p10 (x - 5)).
    { replace (p10 x) with (p10 (5 + (x - 5))) by (f_equal; ring). rewrite p10_add. reflexivity. }
    assert (DIFF : Qabs (inject_Z num' / inject_Z den' * p10 x - inject_Z d * p10 (x - 5))
                   == inject_Z (Z.abs (num' * 100000 - d * den')) / inject_Z den' * p10 (x - 5)).
    { setoid_replace (inject_Z num' / inject_Z den' * p10 x - inject_Z d * p10 (x - 5))
        with (inject_Z (num' * 100000 - d * den') * (/ inject_Z den' * p10 (x - 5))).
      - rewrite Qabs_Qmult. rewrite (Qabs_pos (/ inject_Z den' * p10 (x - 5))).
        + change (Qabs (inject_Z (num' * 100000 - d * den'))) with (inject_Z (Z.abs (num' * 100000 - d * den'))).
          field. auto.
        + apply Qlt_le_weak. apply Qmult_lt_0_compat; [now apply Qinv_lt_0_compat|apply p10_pos].
      - rewrite X5. replace (num' * 100000 - d * den')%Z with (num' * 100000 + - (d * den'))%Z by ring. rewrite inject_Z_plus, inject_Z_opp, !inject_Z_mult. field. auto. }
    split; [|split; [|split; [reflexivity|]]].
    - rewrite <- (Qmult_1_l (p10 x)) at 1. apply Qmult_le_r; [apply p10_pos|].
      apply Qle_shift_div_l; [auto|]. rewrite Qmult_1_l, <- Zle_Qle. lia.
    - rewrite p10_add, Qmult_comm. apply Qmult_lt_l; [apply p10_pos|]. change (p10 1) with (inject_Z 10).
      apply Qlt_shift_div_r; [auto|]. rewrite <- inject_Z_mult, <- Zlt_Qlt. lia.
    - rewrite DIFF. destruct RE as [L|(L & Ev)].
      + left. apply Qmult_lt_r; [apply p10_pos|]. apply Qlt_shift_div_r; [auto|]. unfold Qlt, Qmult, inject_Z. cbn [Qnum Qden]. lia.
      + right. split; [|auto]. apply Qmult_comp; [|reflexivity].
        set (A := Z.abs (num' * 100000 - d * den')) in *. clearbody A.
        assert (L' : inject_Z den' == 2 * inject_Z A) by (rewrite <- L, inject_Z_mult; reflexivity).
        rewrite L'. field. intro E0. rewrite E0 in L'. rewrite L' in Dn. now apply Dn. }
  exists (inject_Z d * p10 (x - 5)). split; [exact SIX|].
  destruct (Z.eqb_spec d 1000000) as [->|N].
  - assert (R1 : inject_Z 1000000 * p10 (x - 5) == inject_Z 100000 * p10 (x + 1 - 5)).
    { replace (x + 1 - 5)%Z with (1 + (x - 5))%Z by ring. rewrite p10_add. change (p10 1) with 10. unfold inject_Z. ring. }
    destruct (show_decimal_ok 100000 (x + 1)) as (P1 & P2); [lia|]. cbn zeta in P1, P2.
    assert (I := plain_iff 100000 (x + 1) ltac:(lia)). rewrite <- R1 in I. split; intro K.
    + apply (plain_ext _ _ _ (Qeq_sym _ _ R1)), P1, I, K.
    + apply (scientific_ext _ _ _ (Qeq_sym _ _ R1)), P2. intro K'. apply K, I, K'.
  - destruct (show_decimal_ok d x) as (P1 & P2); [lia|]. cbn zeta in P1, P2.
    assert (I := plain_iff d x ltac:(lia)). split; intro K.
    + apply P1, I, K.
    + apply P2. intro K'. apply K, I, K'.
Qed.
