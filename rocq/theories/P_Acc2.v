(** Proofs for C50: the printed numbers are exact to five digits. *)
From Coq Require Import QArith Qabs Qpower Lqa Floats.SpecFloat.
From Verif Require Import Base M_Util Spec Lib Typed Shown Printed Exact P_Stats P_Float P_Acc P_Out.
Local Open Scope Q_scope.

Lemma near_dbl n : (0 <= n < 2 ^ 53)%Z -> near 0 52 (dbl n) (inject_Z n).
Proof. apply near_int. Qed.

Lemma near_quot x y : (0 <= x < 2 ^ 53)%Z -> (0 < y < 2 ^ 53)%Z -> near 1 158 (quot x y) (inject_Z x / inject_Z y).
Proof.
  intros Hx Hy. apply (near_div 0 52 _ _ 0 52); try lia.
  - now apply near_dbl.
  - apply near_dbl; lia.
  - apply injpos; lia.
Qed.
Lemma near_pct x y : (0 <= x < 2 ^ 53)%Z -> (0 < y < 2 ^ 53)%Z -> near 2 264 (pct x y) (inject_Z (100 * x) / inject_Z y).
Proof.
  intros Hx Hy. apply (near_div 1 158 _ _ 0 52); try lia.
  - apply near_ext with (inject_Z x * inject_Z 100); [rewrite inject_Z_mult; ring|].
    apply (near_mul 0 52 _ _ 0 52); try lia; apply near_dbl; [auto|].
    change (2 ^ 53)%Z with p53. lia.
  - apply near_dbl; lia.
  - apply injpos; lia.
Qed.
Lemma near_share x y : (0 <= x < 2 ^ 53)%Z -> (0 < y < 2 ^ 53)%Z ->
  near 2 264 (SFmul 53 1024 (quot x y) (dbl 100)) (inject_Z (100 * x) / inject_Z y).
Proof.
  intros Hx Hy. pose proof (injpos y ltac:(lia)).
  apply near_ext with (inject_Z x / inject_Z y * inject_Z 100); [rewrite inject_Z_mult; field; lra|].
  apply (near_mul 1 158 _ _ 0 52); try lia; [now apply near_quot|apply near_dbl].
  change (2 ^ 53)%Z with p53. lia.
Qed.

Lemma near_fold y (x : Z -> Z) (p : Z -> spec_float) : (0 < y)%Z -> forall l s a k b,
  (forall i, In i l -> (0 <= i < 2 ^ 53)%Z /\ near 1 158 (p i) (inject_Z (x i) / inject_Z y)) ->
  near k b s (inject_Z a / inject_Z y) -> (2 <= k)%Z -> (264 <= b)%Z -> (b + 2 * zlen l <= 800)%Z ->
  near (k + zlen l) (b + 2 * zlen l)
    (fold_left (fun s i => SFadd 53 1024 s (SFmul 53 1024 (dbl i) (p i))) l s)
    (inject_Z (a + total (fun i => i * x i)%Z l) / inject_Z y).
Proof.
  intro Hy. pose proof (injpos y Hy) as Py.
  induction l as [|i l IH]; intros s a k b H N K B U.
  - change (zlen (@nil Z)) with 0%Z. change (total (fun i => i * x i)%Z []) with 0%Z. cbn [fold_left].
    rewrite Z.mul_0_r, !Z.add_0_r. exact N.
  - rewrite zlen_cons in *. pose proof (zlen_nonneg _ l). destruct (H i (or_introl eq_refl)) as (Hi & Ni). cbn [fold_left].
    rewrite total_cons. replace (a + (i * x i + total (fun i => i * x i) l))%Z with ((a + i * x i) + total (fun i => i * x i) l)%Z by ring.
    replace (k + (zlen l + 1))%Z with (k + 1 + zlen l)%Z by ring.
    replace (b + 2 * (zlen l + 1))%Z with (b + 2 + 2 * zlen l)%Z by ring.
    apply IH; try lia.
    + intros j Hj. apply H. now right.
    + apply near_ext with (inject_Z a / inject_Z y + inject_Z i * (inject_Z (x i) / inject_Z y)).
      { rewrite inject_Z_plus, inject_Z_mult. field. lra. }
      apply near_add; [exact N| |lia]. apply near_weaken with 2%Z 264%Z; try lia.
      apply (near_mul 0 52 _ _ 1 158); try lia; [now apply near_dbl|auto].
Qed.
Lemma near_mean n y (x : Z -> Z) : (Z.of_nat n <= 256)%Z -> (0 < y < 2 ^ 53)%Z ->
  (forall i, (1 <= i <= Z.of_nat n)%Z -> (0 <= x i < 2 ^ 53)%Z) ->
  near 258 776 (mean n (fun i => quot (x i) y)) (inject_Z (total (fun i => i * x i)%Z (zrange 1 n)) / inject_Z y).
Proof.
  intros Hn Hy H. unfold mean.
  assert (L : zlen (zrange 1 n) = Z.of_nat n) by apply zlen_zrange.
  apply near_weaken with (2 + zlen (zrange 1 n))%Z (264 + 2 * zlen (zrange 1 n))%Z; try lia.
  apply (near_fold y x (fun i => quot (x i) y) ltac:(lia) (zrange 1 n) (S754_zero false) 0 2 264); try lia.
  - intros i Hi. apply In_zrange in Hi. split; [|apply near_quot; [apply H; lia|auto]].
    assert (256 < 2 ^ 53)%Z by reflexivity. lia.
  - left. split; [|reflexivity]. unfold Qdiv. change (inject_Z 0) with 0. ring.
Qed.

(** ** from a double to its text *)
Lemma hh_258 : hh 258 <= 1 + (1 # 1000000000).
Proof. vm_compute. discriminate. Qed.

Lemma six_about q v r X n : 0 < q -> within 258 v q -> p10 X <= v ->
  Qabs (v - r) <= (1 # 2) * p10 (X - 5) -> r == inject_Z n * p10 (X - 5) -> Qabs (r - q) <= (51 # 10000000) * q.
Proof.
  intros Pq (W1 & W2) L A E.
  assert (P10 : p10 X == 100000 * p10 (X - 5)).
  { replace X with (5 + (X - 5))%Z at 1 by ring. rewrite p10_add. reflexivity. }
  pose proof (p10_pos (X - 5)) as PP. set (u := p10 (X - 5)) in *. clearbody u.
  pose proof hh_258 as H. assert (Pv : 0 < v) by (rewrite P10 in L; lra).
  assert (V1 : q <= v * (1 + (1 # 1000000000))).
  { apply Qle_trans with (1 := W1). apply Qmult_le_l; auto. }
  assert (V2 : v <= q * (1 + (1 # 1000000000))).
  { apply Qle_trans with (1 := W2). apply Qmult_le_l; auto. }
  rewrite P10 in L. apply Qabs_Qle_condition in A as (A1 & A2). apply Qabs_Qle_condition. split; lra.
Qed.

Lemma real_about nan x q t : near 258 800 x q -> real nan x t -> about q t.
Proof.
  intros [(A & ->)|(A & m & e & -> & B & C & W)] R.
  - left. cbn [real] in R. auto.
  - right. split; [auto|]. cbn [real] in R. destruct R as (u & (r & (X & n & S1 & S2 & S3 & S4) & R1 & R2) & ->).
    cbn [app]. change (Qpower 10) with p10 in *. change (inject_Z (Zpos m) * 2 ^ e) with (val m e) in *. set (v := val m e) in *.
    assert (S4' : Qabs (v - r) <= (1 # 2) * p10 (X - 5)).
    { destruct S4 as [S|(S & _)]; [now apply Qlt_le_weak|rewrite S; apply Qle_refl]. }
    pose proof (six_about q v r X n A W S1 S4' S3) as K.
    assert (P10 : p10 X == 100000 * p10 (X - 5)).
    { replace X with (5 + (X - 5))%Z at 1 by ring. rewrite p10_add. reflexivity. }
    assert (P11 : p10 (X + 1) == 1000000 * p10 (X - 5)).
    { replace (X + 1)%Z with (6 + (X - 5))%Z by ring. rewrite p10_add. reflexivity. }
    pose proof (p10_pos (X - 5)) as PP.
    assert (N : (100000 <= n <= 1000000)%Z).
    { rewrite S3 in S4'. apply Qabs_Qle_condition in S4' as (L & U). rewrite P10 in S1. rewrite P11 in S2. split.
      - apply Z.le_ngt. intro G. assert (G' : inject_Z n <= 99999) by (change 99999 with (inject_Z 99999); rewrite <- Zle_Qle; lia).
        apply (Qmult_le_compat_r _ _ (p10 (X - 5))) in G'; [|lra]. lra.
      - apply Z.le_ngt. intro G. assert (G' : 1000001 <= inject_Z n) by (change 1000001 with (inject_Z 1000001); rewrite <- Zle_Qle; lia).
        apply (Qmult_le_compat_r _ _ (p10 (X - 5))) in G'; [|lra]. lra. }
    destruct (Z.eq_dec n 1000000) as [->|Nn].
    + exists 100000%Z, (X - 4)%Z.
      assert (E : r == inject_Z 100000 * p10 (X - 4)).
      { rewrite S3. replace (X - 4)%Z with (1 + (X - 5))%Z by ring. rewrite p10_add. change (p10 1) with 10.
        change (inject_Z 1000000) with 1000000. change (inject_Z 100000) with 100000. ring. }
      split; [split; reflexivity|]. cbn zeta. change (Qpower 10) with p10. split; [|split].
      * rewrite <- E. exact K.
      * intro H. rewrite <- E in H. apply plain_ext with (1 := E). auto.
      * intro H. rewrite <- E in H. apply scientific_ext with (1 := E). auto.
    + exists n, (X - 5)%Z. change (10 ^ 6)%Z with 1000000%Z.
      split; [lia|]. cbn zeta. change (Qpower 10) with p10. split; [|split].
      * rewrite <- S3. exact K.
      * intro H. rewrite <- S3 in H. apply plain_ext with (1 := S3). auto.
      * intro H. rewrite <- S3 in H. apply scientific_ext with (1 := S3). auto.
Qed.
