(** Proofs for C49: a double has only one printed form. *)
From Coq Require Import Lia Lqa String Ascii QArith Qpower Qabs Floats.SpecFloat.
From Verif Require Import Base Spec Lib M_Util M_Print Shown Typed Printed P_Text2 P_Out.
Local Open Scope Z_scope.

Lemma digits_inj a : forall b, is_digits a -> is_digits b -> zlen a = zlen b -> value_of a = value_of b -> a = b.
Proof.
  induction a as [|x a IH]; intros [|y b] Ha Hb L V; try reflexivity.
  - rewrite zlen_cons in L. pose proof (zlen_nonneg _ b). change (zlen (@nil Z)) with 0 in L. lia.
  - rewrite zlen_cons in L. pose proof (zlen_nonneg _ a). change (zlen (@nil Z)) with 0 in L. lia.
  - inversion Ha as [|? ? A1 A2]; inversion Hb as [|? ? B1 B2]; subst. rewrite !zlen_cons in L.
    assert (L' : zlen a = zlen b) by lia. rewrite !value_of_cons, <- L' in V.
    pose proof (value_of_range _ A2) as R1. pose proof (value_of_range _ B2) as R2. rewrite <- L' in R2.
    assert (x = y) by nia. subst. f_equal. apply IH; auto. lia.
Qed.
Lemma lean_length a : lean a -> a = [0] \/ 1 <= zlen a /\ 10 ^ (zlen a - 1) <= value_of a.
Proof.
  intros (D & [->|(d & ds & -> & N)]); [now left|right]. inversion D as [|? ? A1 A2]; subst.
  pose proof (zlen_nonneg _ ds). rewrite zlen_cons, value_of_cons. replace (zlen ds + 1 - 1) with (zlen ds) by lia.
  pose proof (value_of_range _ A2). split; [lia|]. pose proof (pow10_pos _ ds). nia.
Qed.
Lemma lean_inj a b : lean a -> lean b -> value_of a = value_of b -> a = b.
Proof.
  intros Ha Hb V. destruct (lean_length a Ha) as [->|(A1 & A2)], (lean_length b Hb) as [->|(B1 & B2)]; try reflexivity.
  - rewrite <- V, value_of_one in B2. pose proof (Z.pow_pos_nonneg 10 (zlen b - 1)). lia.
  - rewrite V, value_of_one in A2. pose proof (Z.pow_pos_nonneg 10 (zlen a - 1)). lia.
  - apply digits_inj; [apply Ha|apply Hb| |auto].
    pose proof (value_of_range _ (proj1 Ha)) as R1. pose proof (value_of_range _ (proj1 Hb)) as R2.
    assert (K : forall u v, 1 <= u -> 1 <= v -> 10 ^ (u - 1) < 10 ^ v -> u <= v).
    { intros u v Hu Hv K. apply Z.pow_lt_mono_r_iff in K; lia. }
    assert (zlen a <= zlen b) by (apply K; lia). assert (zlen b <= zlen a) by (apply K; lia). lia.
Qed.

Lemma fraction_cross a b a' b' : (fraction a b == fraction a' b')%Q ->
  value_of (a ++ b) * 10 ^ zlen b' = value_of (a' ++ b') * 10 ^ zlen b.
Proof.
  unfold fraction. change (Qpower 10) with p10. rewrite !p10_Z by apply zlen_nonneg. intro E.
  apply inject_Z_injective. rewrite !inject_Z_mult.
  pose proof (Zne_inj (10 ^ zlen b) ltac:(pose proof (pow10_pos _ b); lia)) as N1.
  pose proof (Zne_inj (10 ^ zlen b') ltac:(pose proof (pow10_pos _ b'); lia)) as N2.
  set (B := inject_Z (10 ^ zlen b)) in *. set (B' := inject_Z (10 ^ zlen b')) in *.
  setoid_replace (inject_Z (value_of (a ++ b))) with (inject_Z (value_of (a ++ b)) / B * B)%Q by (field; auto).
  rewrite E. field. auto.
Qed.

Lemma fraction_long a b a' b' : neat b' -> (fraction a b == fraction a' b')%Q -> zlen b' <= zlen b.
Proof.
  intros (Db & Nb) E. apply fraction_cross in E.
  destruct (Z.le_gt_cases (zlen b') (zlen b)) as [|L]; [auto|exfalso].
  destruct (list_eq_dec Z.eq_dec b' []) as [->|N0]; [pose proof (zlen_nonneg _ b); change (zlen (@nil Z)) with 0 in L; lia|].
  destruct (exists_last N0) as (b0 & y & ->). apply digits_app in Db as (_ & Dy). inversion Dy as [|? ? Y _]; subst.
  assert (y <> 0) by (intros ->; now apply (Nb b0)).
  rewrite app_assoc, value_of_snoc, zlen_app in *. change (zlen [y]) with 1 in *.
  replace (zlen b0 + 1) with ((zlen b0 - zlen b) + zlen b + 1) in E by ring.
  pose proof (zlen_nonneg _ b). rewrite !Z.pow_add_r in E by lia. change (10 ^ 1) with 10 in E.
  pose proof (pow10_pos _ b). set (P := 10 ^ zlen b) in *. set (R := 10 ^ (zlen b0 - zlen b)) in *.
  assert (K : value_of (a ++ b) * R * 10 = 10 * value_of (a' ++ b0) + y).
  { apply (Z.mul_reg_r _ _ P); [lia|]. rewrite <- E. ring. }
  lia.
Qed.
Lemma fraction_inj a b a' b' : lean a -> lean a' -> neat b -> neat b' ->
  (fraction a b == fraction a' b')%Q -> a = a' /\ b = b'.
Proof.
  intros Ha Ha' Hb Hb' E.
  assert (L : zlen b = zlen b').
  { pose proof (fraction_long a b a' b' Hb' E). pose proof (fraction_long a' b' a b Hb (Qeq_sym _ _ E)). lia. }
  apply fraction_cross in E. rewrite <- L in E. pose proof (pow10_pos _ b) as P.
  apply Z.mul_reg_r in E; [|lia]. rewrite !value_of_app, <- L in E.
  pose proof (value_of_range _ (proj1 Hb)). pose proof (value_of_range _ (proj1 Hb')) as R2. rewrite <- L in R2.
  assert (value_of a = value_of a') by nia. split; [now apply lean_inj|].
  apply digits_inj; [apply Hb|apply Hb'|auto|lia].
Qed.

Lemma plain_unique q t t' : plain q t -> plain q t' -> t = t'.
Proof.
  intros (a & b & A & B & -> & E) (a' & b' & A' & B' & -> & E').
  destruct (fraction_inj a b a' b') as (-> & ->); auto. now rewrite <- E, <- E'.
Qed.

Lemma fraction_unit d b : 1 <= d <= 9 -> neat b -> (1 <= fraction [d] b)%Q /\ (fraction [d] b < 10)%Q.
Proof.
  intros Hd (Hb & _). unfold fraction. change (Qpower 10) with p10. rewrite p10_Z by apply zlen_nonneg.
  pose proof (pow10_pos _ b). cbn [app]. rewrite value_of_cons. pose proof (value_of_range _ Hb). split.
  - apply Qle_shift_div_l; [now apply inj_pos|]. rewrite Qmult_1_l, <- Zle_Qle. nia.
  - apply Qlt_shift_div_r; [now apply inj_pos|]. change 10%Q with (inject_Z 10).
    rewrite <- inject_Z_mult, <- Zlt_Qlt. nia.
Qed.
Lemma exponent_le f f' x x' : (1 <= f)%Q -> (f' < 10)%Q -> (f * p10 x == f' * p10 x')%Q -> x <= x'.
Proof.
  intros H1 H2 E. destruct (Z.le_gt_cases x x') as [|L]; [auto|exfalso].
  assert (p10 (x' + 1) <= p10 x)%Q as P by (apply p10_le; lia). rewrite p10_add in P. change (p10 1) with 10%Q in P.
  pose proof (p10_pos x'). pose proof (p10_pos x).
  assert (f' * p10 x' < 10 * p10 x')%Q by (apply Qmult_lt_r; auto).
  assert (1 * p10 x <= f * p10 x)%Q by (apply Qmult_le_r; auto). lra.
Qed.
Lemma scientific_unique q t t' : scientific q t -> scientific q t' -> t = t'.
Proof.
  intros (d & b & x & ds & A & B & C & -> & D & E) (d' & b' & x' & ds' & A' & B' & C' & -> & D' & E').
  change (Qpower 10) with p10 in *.
  destruct (fraction_unit d b A B) as (U1 & U2), (fraction_unit d' b' A' B') as (U1' & U2').
  assert (EE : (fraction [d] b * p10 x == fraction [d'] b' * p10 x')%Q) by now rewrite <- E, <- E'.
  assert (x = x').
  { pose proof (exponent_le _ _ _ _ U1 U2' EE). pose proof (exponent_le _ _ _ _ U1' U2 (Qeq_sym _ _ EE)). lia. }
  subst x'. assert (F : (fraction [d] b == fraction [d'] b')%Q) by (apply Qmult_inj_r in EE; [auto|apply p10_ne]).
  assert (LN : forall c, 1 <= c <= 9 -> lean [c]).
  { intros c Hc. split; [constructor; [lia|constructor]|right; exists c, []; split; [reflexivity|lia]]. }
  destruct (fraction_inj [d] b [d'] b') as (ED & ->); auto. rewrite ED. do 2 f_equal. f_equal.
  assert (BIG : forall es, lean es -> 2 <= zlen es -> 10 <= value_of es).
  { intros es Hl Hz. destruct (lean_length es Hl) as [->|(_ & L)]; [now compute in Hz|].
    assert (10 ^ 1 <= 10 ^ (zlen es - 1)) by (apply Z.pow_le_mono_r; lia). change (10 ^ 1) with 10 in *. lia. }
  f_equal.
  destruct C as [(C1 & C2)|(c & C1 & ->)], C' as [(C1' & C2')|(c' & C1' & ->)].
  - apply lean_inj; [auto|auto|congruence].
  - pose proof (BIG _ C1 C2). rewrite value_of_cons, value_of_one in D'. lia.
  - pose proof (BIG _ C1' C2'). rewrite value_of_cons, value_of_one in D. lia.
  - rewrite value_of_cons, value_of_one in *. change (zlen [c]) with 1 in *. change (zlen [c']) with 1 in *.
    assert (c = c') by lia. now subst.
Qed.

Local Open Scope Q_scope.
Lemma half_close q p n n' : 0 < p ->
  Qabs (q - inject_Z n * p) < (1 # 2) * p \/ Qabs (q - inject_Z n * p) == (1 # 2) * p /\ Z.even n = true ->
  Qabs (q - inject_Z n' * p) < (1 # 2) * p \/ Qabs (q - inject_Z n' * p) == (1 # 2) * p /\ Z.even n' = true ->
  (n <= n')%Z.
Proof.
  intros Hp H H'. destruct (Z.le_gt_cases n n') as [|L]; [auto|exfalso].
  assert (M1 : inject_Z n' * p + p <= inject_Z n * p).
  { setoid_replace (inject_Z n' * p + p) with (inject_Z (n' + 1) * p) by (rewrite inject_Z_plus; unfold inject_Z at 3; ring).
    apply Qmult_le_r; [auto|]. rewrite <- Zle_Qle. lia. }
  assert (M2 : n <> (n' + 1)%Z -> inject_Z n' * p + 2 * p <= inject_Z n * p).
  { intro N. setoid_replace (inject_Z n' * p + 2 * p) with (inject_Z (n' + 2) * p) by (rewrite inject_Z_plus; unfold inject_Z at 3; ring).
    apply Qmult_le_r; [auto|]. rewrite <- Zle_Qle. lia. }
  set (A := inject_Z n * p) in *. set (B := inject_Z n' * p) in *. clearbody A B.
  pose proof (Qle_Qabs (q - B)) as Q1.
  assert (Q2 : A - q <= Qabs (q - A)). { rewrite Qabs_Qminus. apply Qle_Qabs. }
  destruct H as [H|(H & E)], H' as [H'|(H' & E')]; try lra.
  destruct (Z.eq_dec n (n' + 1)) as [->|N]; [|specialize (M2 N); lra].
  rewrite Z.add_1_r, Z.even_succ, <- Z.negb_even, E' in E. discriminate.
Qed.
Lemma six_unique q r r' : six_digits q r -> six_digits q r' -> r == r'.
Proof.
  intros (X & n & A & B & C & D) (X' & n' & A' & B' & C' & D'). change (Qpower 10) with p10 in *.
  assert (K : forall u v, p10 u <= q -> q < p10 (v + 1) -> (u <= v)%Z).
  { intros u v H1 H2. destruct (Z.le_gt_cases u v) as [|L]; [auto|exfalso].
    pose proof (p10_le (v + 1) u ltac:(lia)). lra. }
  pose proof (K _ _ A B'). pose proof (K _ _ A' B). assert (X = X') by lia. subst X'.
  rewrite C in D. rewrite C' in D'. pose proof (p10_pos (X - 5)) as P.
  pose proof (half_close q _ n n' P D D'). pose proof (half_close q _ n' n P D' D).
  assert (n = n') by lia. subst. now rewrite C, C'.
Qed.
Lemma rounded_unique q t t' : rounded q t -> rounded q t' -> t = t'.
Proof.
  intros (r & S & A & B) (r' & S' & A' & B'). pose proof (six_unique q r r' S S') as E.
  destruct (Qlt_le_dec r (1 # 10000)) as [L1|L1]; [|destruct (Qlt_le_dec r 1000000) as [L2|L2]].
  - apply (scientific_unique r'); [apply (scientific_ext r); [auto|apply B]|apply B']; intros (K & _); lra.
  - apply (plain_unique r'); [apply (plain_ext r); [auto|apply A]|apply A']; split; lra.
  - apply (scientific_unique r'); [apply (scientific_ext r); [auto|apply B]|apply B']; intros (_ & K); lra.
Qed.
Theorem real_unique : forall nan x t t', real nan x t -> real nan x t' -> t = t'.
Proof.
  intros nan [s|s| |s m e] t t'; cbn [real]; try congruence.
  intros (u & U & ->) (u' & U' & ->). f_equal. now apply (rounded_unique _ _ _ U).
Qed.
