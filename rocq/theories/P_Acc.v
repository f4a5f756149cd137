(** Relative errors of double arithmetic on non-negative numbers, as exact rational inequalities. *)
From Coq Require Import QArith Qabs Qpower Lqa Floats.SpecFloat.
From Verif Require Import Base M_Util Spec Lib P_Float.
Local Open Scope Z_scope.

(** a record that stands for q + r/d *)
Definition stands (mrs : shr_record) (q r d : Z) : Prop :=
  shr_m mrs = q /\ 0 <= r < d /\ loc_is r d (loc_of_shr_record mrs).

Lemma record_again mrs : mrs = shr_record_of_loc (shr_m mrs) (loc_of_shr_record mrs).
Proof. destruct mrs as [m [] []]; reflexivity. Qed.

Lemma shr_1_stands mrs q r d : stands mrs q r d -> 1 < q ->
  exists r', stands (shr_1 mrs) (q / 2) r' (2 * d) /\ q / 2 * (2 * d) + r' = q * d + r.
Proof.
  intros (A & B & C) H. pose proof (shr_1_ok q r d _ H B C) as (K1 & K2). cbn zeta in *.
  rewrite <- A, <- record_again in K1, K2. rewrite A in *.
  exists (q mod 2 * d + r). pose proof (Z.mod_pos_bound q 2 ltac:(lia)). pose proof (Z.div_mod q 2 ltac:(lia)).
  split; [split; [auto|split; [nia|auto]]|]. nia.
Qed.

Lemma shr_iter p : forall mrs q r d, stands mrs q r d -> 2 ^ Zpos p <= q ->
  exists r', stands (SpecFloat.iter_pos shr_1 p mrs) (q / 2 ^ Zpos p) r' (2 ^ Zpos p * d)
    /\ q / 2 ^ Zpos p * (2 ^ Zpos p * d) + r' = q * d + r.
Proof.
  assert (Twice : forall p mrs q r d,
    (forall mrs q r d, stands mrs q r d -> 2 ^ Zpos p <= q ->
      exists r', stands (SpecFloat.iter_pos shr_1 p mrs) (q / 2 ^ Zpos p) r' (2 ^ Zpos p * d)
        /\ q / 2 ^ Zpos p * (2 ^ Zpos p * d) + r' = q * d + r) ->
    stands mrs q r d -> 2 ^ (2 * Zpos p) <= q ->
    exists r', stands (SpecFloat.iter_pos shr_1 p (SpecFloat.iter_pos shr_1 p mrs)) (q / 2 ^ (2 * Zpos p)) r' (2 ^ (2 * Zpos p) * d)
        /\ q / 2 ^ (2 * Zpos p) * (2 ^ (2 * Zpos p) * d) + r' = q * d + r).
  { clear p. intros p mrs q r d IH S H.
    assert (P : 0 < 2 ^ Zpos p) by (apply Z.pow_pos_nonneg; lia).
    assert (E2 : 2 ^ (2 * Zpos p) = 2 ^ Zpos p * 2 ^ Zpos p) by (rewrite <- Z.pow_add_r by lia; f_equal; lia).
    rewrite E2 in *. destruct (IH mrs q r d S) as (r1 & S1 & V1); [nia|].
    destruct (IH _ _ _ _ S1) as (r2 & S2 & V2).
    { apply Z.div_le_lower_bound; lia. }
    rewrite Z.div_div in S2, V2 by lia. replace (2 ^ Zpos p * (2 ^ Zpos p * d)) with (2 ^ Zpos p * 2 ^ Zpos p * d) in S2, V2 by ring.
    exists r2. split; [exact S2|]. rewrite V2. exact V1. }
  induction p as [p IH|p IH|]; intros mrs q r d S H; cbn [SpecFloat.iter_pos].
  - assert (P : 0 < 2 ^ (2 * Zpos p)) by (apply Z.pow_pos_nonneg; lia).
    assert (E2 : 2 ^ Zpos p~1 = 2 * 2 ^ (2 * Zpos p)).
    { change (Zpos p~1) with (2 * Zpos p + 1). rewrite Z.pow_add_r by lia. change (2 ^ 1) with 2. lia. }
    rewrite E2 in *. destruct (shr_1_stands mrs q r d S) as (r1 & S1 & V1); [lia|].
    destruct (Twice p _ _ _ _ IH S1) as (r2 & S2 & V2).
    { apply Z.div_le_lower_bound; lia. }
    rewrite Z.div_div in S2, V2 by lia.
    replace (2 ^ (2 * Zpos p) * (2 * d)) with (2 * 2 ^ (2 * Zpos p) * d) in S2, V2 by ring.
    exists r2. split; [exact S2|]. rewrite V2. exact V1.
  - change (Zpos p~0) with (2 * Zpos p) in *. exact (Twice p mrs q r d IH S H).
  - change (2 ^ 1) with 2 in *. exact (shr_1_stands mrs q r d S ltac:(lia)).
Qed.

Lemma shr_fexp_any m e l j : 0 <= j -> 2 ^ (52 + j) <= m < 2 ^ (53 + j) -> -1074 <= e ->
  shr_fexp 53 1024 m e l = shr (shr_record_of_loc m l) e j.
Proof.
  intros Hj Hm He. unfold shr_fexp. rewrite (digits_unique m (53 + j)).
  - rewrite fexp_ok by lia. f_equal. lia.
  - lia.
  - replace (53 + j - 1) with (52 + j) by lia. exact Hm.
Qed.

(** binary_round_aux on q + r/d *)
Lemma round_any q r d e l j : 0 <= j -> 2 ^ (52 + j) <= q < 2 ^ (53 + j) -> 0 <= r < d -> loc_is r d l ->
  -1074 <= e -> e + j <= 900 ->
  exists m e' M, binary_round_aux 53 1024 false q e l = S754_finite false m e'
    /\ p52 <= Zpos m < p53 /\ e + j <= e' <= e + j + 1
    /\ (e' = e + j /\ Zpos m = M \/ e' = e + j + 1 /\ 2 * Zpos m = M)
    /\ - (2 ^ j * d) <= 2 * (M * (2 ^ j * d) - (q * d + r)) <= 2 ^ j * d
    /\ p52 * (2 ^ j * d) <= q * d + r.
Proof.
  intros Hj Hq Hr L He Hu. unfold binary_round_aux. rewrite (shr_fexp_any q e l j) by lia.
  assert (P : 0 < 2 ^ j) by (apply Z.pow_pos_nonneg; lia).
  assert (S : stands (shr_record_of_loc q l) q r d) by (split; [apply m_record|split; [auto|now rewrite loc_record]]).
  rewrite !Z.pow_add_r in Hq by lia. change (2 ^ 52) with p52 in Hq. change (2 ^ 53) with p53 in Hq.
  assert (exists mrs r', shr (shr_record_of_loc q l) e j = (mrs, e + j)
    /\ stands mrs (q / 2 ^ j) r' (2 ^ j * d) /\ q / 2 ^ j * (2 ^ j * d) + r' = q * d + r) as (mrs & r' & -> & S' & V).
  { destruct j as [|p|p]; try lia.
    - eexists _, r. split; [cbn [shr]; rewrite Z.add_0_r; reflexivity|]. change (2 ^ 0) with 1 in *.
      rewrite Z.div_1_r, Z.mul_1_l. auto.
    - destruct (shr_iter p _ q r d S) as (r' & S' & V); [nia|]. eexists _, r'. cbn [shr]. auto. }
  destruct S' as (S1 & S2 & S3). rewrite S1.
  assert (Hd : p52 <= q / 2 ^ j < p53).
  { split; [apply Z.div_le_lower_bound; lia|apply Z.div_lt_upper_bound; lia]. }
  pose proof (round_ok (q / 2 ^ j) r' (2 ^ j * d) _ S2 S3) as R. cbn zeta in R. destruct R as [R1 R2].
  destruct (finish_round (round_nearest_even (q / 2 ^ j) (loc_of_shr_record mrs)) (e + j) ltac:(lia) ltac:(lia))
    as (m & e' & F & Fm & Fe).
  exists m, e', (round_nearest_even (q / 2 ^ j) (loc_of_shr_record mrs)). rewrite F.
  rewrite <- V. repeat split; try lia. nia.
Qed.

(** ** in rational numbers *)
Local Open Scope Q_scope.
Definition p2 (e : Z) : Q := Qpower 2 e.
Definition hh (k : Z) : Q := Qpower (4503599627370497 # 4503599627370496) k.
Definition val (m : positive) (e : Z) : Q := inject_Z (Zpos m) * p2 e.
(** [v] is [q] up to [k] roundings *)
Definition within (k : Z) (v q : Q) : Prop := q <= v * hh k /\ v <= q * hh k.

Lemma p2_pos e : 0 < p2 e.
Proof. apply Qpower_0_lt. reflexivity. Qed.
Lemma p2_ne e : ~ p2 e == 0.
Proof. pose proof (p2_pos e). lra. Qed.
Lemma p2_add x y : p2 (x + y) == p2 x * p2 y.
Proof. apply Qpower_plus. discriminate. Qed.
Lemma p2_Z n : (0 <= n)%Z -> p2 n == inject_Z (2 ^ n).
Proof. intro H. unfold p2. rewrite Zpower_Qpower by auto. reflexivity. Qed.
Lemma hh_pos k : 0 < hh k.
Proof. apply Qpower_0_lt. reflexivity. Qed.
Lemma hh_add x y : hh (x + y) == hh x * hh y.
Proof. apply Qpower_plus. discriminate. Qed.
Lemma hh_le x y : (x <= y)%Z -> hh x <= hh y.
Proof. intro H. apply Qpower_le_compat_l; [auto|discriminate]. Qed.
Lemma hh_1 : hh 1 == 4503599627370497 # 4503599627370496.
Proof. reflexivity. Qed.
Lemma injpos z : (0 < z)%Z -> 0 < inject_Z z.
Proof. intro H. unfold Qlt, inject_Z. cbn [Qnum Qden]. lia. Qed.
Lemma val_pos m e : 0 < val m e.
Proof. apply Qmult_lt_0_compat; [apply injpos; lia|apply p2_pos]. Qed.

Lemma round_Q q r d e l j x : (0 <= j)%Z -> (2 ^ (52 + j) <= q < 2 ^ (53 + j))%Z -> (0 <= r < d)%Z -> loc_is r d l ->
  (-1074 <= e)%Z -> (e + j <= 900)%Z -> x * inject_Z d == inject_Z (q * d + r) * p2 e ->
  exists m e', binary_round_aux 53 1024 false q e l = S754_finite false m e'
    /\ (p52 <= Zpos m < p53)%Z /\ (e + j <= e' <= e + j + 1)%Z /\ within 1 (val m e') x.
Proof.
  intros Hj Hq Hr L He Hu Hx.
  destruct (round_any q r d e l j Hj Hq Hr L He Hu) as (m & e' & M & A & B & C & D & E & F).
  exists m, e'. repeat split; auto; try lia.
  all: assert (V : val m e' * inject_Z d == inject_Z (M * (2 ^ j * d)) * p2 e).
  1, 3: rewrite !inject_Z_mult, <- (p2_Z j) by lia; unfold val;
    setoid_replace (inject_Z M * (p2 j * inject_Z d) * p2 e) with (inject_Z M * (p2 e * p2 j) * inject_Z d) by ring;
    rewrite <- p2_add; destruct D as [(-> & ->)|(-> & D)];
      [ring|rewrite <- D, inject_Z_mult, (p2_add _ 1); change (p2 1) with 2; change (inject_Z 2) with 2; ring].
  all: rewrite hh_1; pose proof (injpos d ltac:(lia)) as Pd; pose proof (p2_pos e) as Pe;
    apply (Qmult_le_r _ _ (inject_Z d) Pd).
  - setoid_replace (val m e' * (4503599627370497 # 4503599627370496) * inject_Z d)
      with (val m e' * inject_Z d * (4503599627370497 # 4503599627370496)) by ring.
    rewrite V, Hx. setoid_replace (inject_Z (M * (2 ^ j * d)) * p2 e * (4503599627370497 # 4503599627370496))
      with (inject_Z (M * (2 ^ j * d)) * (4503599627370497 # 4503599627370496) * p2 e) by ring.
    apply Qmult_le_r; [auto|]. generalize dependent (2 ^ j * d)%Z. intros P E F V.
    set (MP := (M * P)%Z) in *. set (A' := (q * d + r)%Z) in *. clearbody MP A'.
    unfold Qle, Qmult, inject_Z. cbn [Qnum Qden]. rewrite Pos.mul_1_l. lia.
  - setoid_replace (x * (4503599627370497 # 4503599627370496) * inject_Z d)
      with (x * inject_Z d * (4503599627370497 # 4503599627370496)) by ring.
    rewrite V, Hx. setoid_replace (inject_Z (q * d + r) * p2 e * (4503599627370497 # 4503599627370496))
      with (inject_Z (q * d + r) * (4503599627370497 # 4503599627370496) * p2 e) by ring.
    apply Qmult_le_r; [auto|]. generalize dependent (2 ^ j * d)%Z. intros P E F V.
    set (MP := (M * P)%Z) in *. set (A' := (q * d + r)%Z) in *. clearbody MP A'.
    unfold Qle, Qmult, inject_Z. cbn [Qnum Qden]. rewrite Pos.mul_1_l. lia.
Qed.

(** a double is [q] up to [k] roundings, and its exponent is at most [b] in size *)
Definition near (k b : Z) (x : spec_float) (q : Q) : Prop :=
  q == 0 /\ x = S754_zero false
  \/ 0 < q /\ exists m e, x = S754_finite false m e /\ (p52 <= Zpos m < p53)%Z /\ (- b <= e <= b)%Z /\ within k (val m e) q.

Lemma near_ext k b x q q' : q == q' -> near k b x q -> near k b x q'.
Proof.
  intros E [(A & B)|(A & m & e & B & C & D & F & G)].
  - left. now rewrite <- E.
  - right. rewrite <- E. split; [auto|]. exists m, e. unfold within. rewrite <- E. repeat split; auto; lia.
Qed.
Lemma near_weaken k b k' b' x q : (k <= k')%Z -> (b <= b')%Z -> near k b x q -> near k' b' x q.
Proof.
  intros K B [(A & E)|(A & m & e & E & C & D & F & G)]; [left; auto|right].
  split; [auto|]. exists m, e. pose proof (hh_le _ _ K) as H. pose proof (val_pos m e) as P.
  split; [auto|split; [auto|split; [lia|split]]].
  - apply Qle_trans with (1 := F). apply Qmult_le_l; auto.
  - apply Qle_trans with (1 := G). apply Qmult_le_l; auto.
Qed.

(** rounding [x], which is [q] up to [k] roundings *)
Lemma within_trans k l v x q : within k x q -> within l v x -> within (k + l) v q.
Proof.
  intros (A & B) (C & D). unfold within. rewrite hh_add. pose proof (hh_pos k) as Pk. pose proof (hh_pos l) as Pl. split.
  - apply Qle_trans with (1 := A). setoid_replace (v * (hh k * hh l)) with (v * hh l * hh k) by ring.
    apply Qmult_le_r; auto.
  - apply Qle_trans with (1 := D). rewrite Qmult_assoc. apply Qmult_le_r; auto.
Qed.
Lemma within_weaken k k' v q : (k <= k')%Z -> 0 <= v -> 0 <= q -> within k v q -> within k' v q.
Proof.
  intros K Pv Pq (A & B). pose proof (hh_le _ _ K). split.
  - apply Qle_trans with (1 := A). rewrite !(Qmult_comm v). apply Qmult_le_compat_r; auto.
  - apply Qle_trans with (1 := B). rewrite !(Qmult_comm q). apply Qmult_le_compat_r; auto.
Qed.
Lemma within_mult k l v w q r : 0 < v -> 0 < w -> 0 < q -> 0 < r -> within k v q -> within l w r -> within (k + l) (v * w) (q * r).
Proof.
  intros Pv Pw Pq Pr (A & B) (C & D). unfold within. rewrite hh_add. pose proof (hh_pos k) as Pk. pose proof (hh_pos l) as Pl. split.
  - setoid_replace (v * w * (hh k * hh l)) with ((v * hh k) * (w * hh l)) by ring.
    apply Qle_trans with (v * hh k * r); [apply Qmult_le_compat_r; lra|].
    apply Qmult_le_l; [nra|auto].
  - setoid_replace (q * r * (hh k * hh l)) with ((q * hh k) * (r * hh l)) by ring.
    apply Qle_trans with (q * hh k * w); [apply Qmult_le_compat_r; lra|].
    apply Qmult_le_l; [nra|auto].
Qed.
Lemma within_inv k v q : 0 < v -> 0 < q -> within k v q -> within k (/ v) (/ q).
Proof.
  intros Pv Pq (A & B). pose proof (hh_pos k) as Pk. split.
  - apply (Qmult_le_r _ _ (v * q)); [nra|].
    setoid_replace (/ q * (v * q)) with v by (field; lra).
    setoid_replace (/ v * hh k * (v * q)) with (q * hh k) by (field; lra). auto.
  - apply (Qmult_le_r _ _ (v * q)); [nra|].
    setoid_replace (/ v * (v * q)) with q by (field; lra).
    setoid_replace (/ q * hh k * (v * q)) with (v * hh k) by (field; lra). auto.
Qed.
Lemma within_plus k v w q r : within k v q -> within k w r -> within k (v + w) (q + r).
Proof. intros (A & B) (C & D). unfold within. rewrite !Qmult_plus_distr_l. split; lra. Qed.

Lemma near_zero k b : near k b (S754_zero false) 0.
Proof. left. split; reflexivity. Qed.
Lemma near_int n : (0 <= n < 2 ^ 53)%Z -> near 0 52 (binary_normalize 53 1024 n 0 false) (inject_Z n).
Proof.
  intro H. destruct (Z.eq_dec n 0) as [->|N]; [left; split; reflexivity|right].
  destruct (double_of_ok n ltac:(lia)) as (m & k & E & K & B & V). unfold double_of_u32 in E.
  split; [apply injpos; lia|]. exists m, (- k)%Z. split; [exact E|split; [lia|split; [lia|]]].
  assert (X : val m (- k) == inject_Z n).
  { unfold val. rewrite V, inject_Z_mult, <- p2_Z by lia. rewrite <- Qmult_assoc, <- p2_add.
    rewrite Z.add_opp_diag_r. change (p2 0) with 1. ring. }
  unfold within. change (hh 0) with 1. rewrite X. split; lra.
Qed.

Lemma near_mul k b x q l c y r : near k b x q -> near l c y r -> (b + c <= 800)%Z ->
  near (k + l + 1) (b + c + 54) (SFmul 53 1024 x y) (q * r).
Proof.
  intros [(A & ->)|(A & m1 & e1 & -> & B1 & C1 & W1)] [(D & ->)|(D & m2 & e2 & -> & B2 & C2 & W2)] H; cbn [SFmul xorb].
  1, 2, 3: left; split; [rewrite ?A, ?D; ring|reflexivity].
  right. split; [now apply Qmult_lt_0_compat|].
  assert (J : exists j, (j = 52 \/ j = 53)%Z /\ (2 ^ (52 + j) <= Zpos (m1 * m2) < 2 ^ (53 + j))%Z).
  { rewrite Pos2Z.inj_mul. set (M1 := Zpos m1) in *. set (M2 := Zpos m2) in *.
    assert (L : (p52 * p52 <= M1 * M2)%Z) by (apply Z.mul_le_mono_nonneg; lia).
    assert (U : (M1 * M2 < p53 * p53)%Z) by (apply Z.mul_lt_mono_nonneg; lia).
    destruct (Z_lt_le_dec (M1 * M2) (2 ^ 105)) as [S|S].
    - exists 52%Z. change (2 ^ (52 + 52))%Z with (p52 * p52)%Z. change (53 + 52)%Z with 105%Z. lia.
    - exists 53%Z. change (2 ^ (53 + 53))%Z with (p53 * p53)%Z. change (52 + 53)%Z with 105%Z. lia. }
  destruct J as (j & J & Q).
  destruct (round_Q (Zpos (m1 * m2)) 0 1 (e1 + e2) loc_Exact j (val m1 e1 * val m2 e2)) as (m & e & E1 & E2 & E3 & E4);
    try lia; auto; [reflexivity| |].
  { unfold val. rewrite Z.mul_1_r, Z.add_0_r, Pos2Z.inj_mul, inject_Z_mult, p2_add. change (inject_Z 1) with 1. ring. }
  exists m, e. split; [exact E1|split; [lia|split; [lia|]]].
  apply within_trans with (2 := E4). apply within_mult; auto; apply val_pos.
Qed.

Lemma near_div k b x q l c y r : near k b x q -> near l c y r -> 0 < r -> (b + c <= 800)%Z ->
  near (k + l + 1) (b + c + 54) (SFdiv 53 1024 x y) (q / r).
Proof.
  intros [(A & ->)|(A & m1 & e1 & -> & B1 & C1 & W1)] [(D & ->)|(D & m2 & e2 & -> & B2 & C2 & W2)] R H; try lra; cbn [SFdiv xorb].
  1: left; split; [rewrite A; field; lra|reflexivity].
  right. split; [apply Qlt_shift_div_l; lra|].
  unfold SFdiv_core_binary. rewrite !digits53 by lia. rewrite fexp_ok by lia.
  replace (Z.min (53 + e1 - (53 + e2) - 53) (e1 - e2)) with (e1 - e2 - 53)%Z by lia.
  replace (e1 - e2 - (e1 - e2 - 53))%Z with 53%Z by lia.
  rewrite Z.shiftl_mul_pow2 by lia. change (2 ^ 53)%Z with p53.
  pose proof (Z_div_mod (Zpos m1 * p53) (Zpos m2) ltac:(lia)) as DM.
  destruct (Z.div_eucl (Zpos m1 * p53) (Zpos m2)) as [z s]. destruct DM as [DM Hr].
  assert (Hq : (p52 <= z < p54)%Z) by nia.
  assert (J : exists j, (j = 0 \/ j = 1)%Z /\ (2 ^ (52 + j) <= z < 2 ^ (53 + j))%Z).
  { destruct (Z_lt_le_dec z p53) as [S|S]; [exists 0%Z|exists 1%Z].
    - change (2 ^ (52 + 0))%Z with p52. change (2 ^ (53 + 0))%Z with p53. lia.
    - change (2 ^ (52 + 1))%Z with p53. change (2 ^ (53 + 1))%Z with p54. lia. }
  destruct J as (j & J & Q).
  destruct (round_Q z s (Zpos m2) (e1 - e2 - 53) (new_location (Zpos m2) s) j (val m1 e1 * / val m2 e2))
    as (m & e & E1 & E2 & E3 & E4); try lia; auto; [now apply new_location_ok| |].
  { rewrite (Z.mul_comm z), <- DM. unfold val. rewrite inject_Z_mult.
    replace p53 with (2 ^ 53)%Z by reflexivity. rewrite <- p2_Z by lia.
    assert (X : p2 53 * p2 (e1 - e2 - 53) * p2 e2 == p2 e1) by (rewrite <- !p2_add; replace (53 + (e1 - e2 - 53) + e2)%Z with e1 by ring; reflexivity).
    rewrite <- X. field. split; [apply p2_ne|]. pose proof (injpos (Zpos m2) ltac:(lia)). lra. }
  exists m, e. split; [exact E1|split; [lia|split; [lia|]]].
  apply within_trans with (2 := E4). unfold Qdiv. apply within_mult; auto; try apply val_pos.
  - apply Qinv_lt_0_compat, val_pos.
  - now apply Qinv_lt_0_compat.
  - apply within_inv; auto. apply val_pos.
Qed.

Lemma shl_align_ok m e ez : (ez <= e)%Z -> Zpos (fst (shl_align m e ez)) = (Zpos m * 2 ^ (e - ez))%Z.
Proof.
  intro H. unfold shl_align. destruct (ez - e)%Z as [|p|p] eqn:E; try lia; cbn [fst].
  - replace (e - ez)%Z with 0%Z by lia. lia.
  - rewrite shift_pos_correct, Z.mul_comm. replace (e - ez)%Z with (Zpos p) by lia. reflexivity.
Qed.

(** rounding of a sum of at least 53 bits *)
Lemma binary_round_ok M e x : (p52 <= Zpos M)%Z -> (-1074 <= e)%Z ->
  let j := (Z.log2 (Zpos M) - 52)%Z in
  (e + j <= 900)%Z -> x == val M e ->
  exists m e', binary_round 53 1024 false M e = S754_finite false m e'
    /\ (p52 <= Zpos m < p53)%Z /\ (e + j <= e' <= e + j + 1)%Z /\ within 1 (val m e') x.
Proof.
  intros H He j Hj Hx.
  assert (J : (0 <= j)%Z).
  { unfold j. pose proof (Z.log2_le_mono p52 (Zpos M) H) as L. change (Z.log2 p52) with 52%Z in L. lia. }
  pose proof (Z.log2_spec (Zpos M) ltac:(lia)) as B.
  replace (Z.log2 (Zpos M)) with (52 + j)%Z in B by (unfold j; lia).
  replace (Z.succ (52 + j)) with (53 + j)%Z in B by lia.
  unfold binary_round. rewrite digits_log2.
  replace (Z.log2 (Zpos M)) with (52 + j)%Z by (unfold j; lia). rewrite fexp_ok by lia.
  unfold shl_align. replace (52 + j + 1 + e - 53 - e)%Z with j by lia.
  assert (E : match j with Zneg d => (shift_pos d M, (52 + j + 1 + e - 53)%Z) | _ => (M, e) end = (M, e)).
  { destruct j; try lia; reflexivity. }
  rewrite E. clear E. clearbody j. apply (round_Q (Zpos M) 0 1 e loc_Exact j x); auto; try lia; [reflexivity|].
  rewrite Hx, Z.mul_1_r, Z.add_0_r. unfold val. change (inject_Z 1) with 1. ring.
Qed.

Lemma near_add k b x q y r : near k b x q -> near k b y r -> (0 <= b <= 800)%Z ->
  near (k + 1) (b + 2) (SFadd 53 1024 x y) (q + r).
Proof.
  intros X Y H.
  assert (Xw := near_weaken k b (k + 1) (b + 2) _ _ ltac:(lia) ltac:(lia) X).
  assert (Yw := near_weaken k b (k + 1) (b + 2) _ _ ltac:(lia) ltac:(lia) Y).
  destruct X as [(A & ->)|(A & m1 & e1 & -> & B1 & C1 & W1)]; destruct Y as [(D & ->)|(D & m2 & e2 & -> & B2 & C2 & W2)]; cbn [SFadd].
  - left. split; [rewrite A, D; ring|reflexivity].
  - apply near_ext with (2 := Yw). rewrite A. ring.
  - apply near_ext with (2 := Xw). rewrite D. ring.
  - clear Xw Yw. right. split; [lra|]. cbn [cond_Zopp]. set (ez := Z.min e1 e2).
    rewrite !shl_align_ok by lia. set (M := (Zpos m1 * 2 ^ (e1 - ez) + Zpos m2 * 2 ^ (e2 - ez))%Z).
    assert (P1 : (0 < 2 ^ (e1 - ez))%Z) by (apply Z.pow_pos_nonneg; lia).
    assert (P2 : (0 < 2 ^ (e2 - ez))%Z) by (apply Z.pow_pos_nonneg; lia).
    assert (ML : (p52 <= M)%Z) by (unfold M; nia).
    assert (MU : (M < 2 ^ (54 + (Z.max e1 e2 - ez)))%Z).
    { rewrite Z.pow_add_r by lia. change (2 ^ 54)%Z with (p53 + p53)%Z. unfold M.
      assert (2 ^ (e1 - ez) <= 2 ^ (Z.max e1 e2 - ez))%Z by (apply Z.pow_le_mono_r; lia).
      assert (2 ^ (e2 - ez) <= 2 ^ (Z.max e1 e2 - ez))%Z by (apply Z.pow_le_mono_r; lia). nia. }
    assert (V : inject_Z M * p2 ez == val m1 e1 + val m2 e2).
    { unfold M, val. rewrite inject_Z_plus, !inject_Z_mult, <- !p2_Z by lia. rewrite Qmult_plus_distr_l, <- !Qmult_assoc, <- !p2_add.
      replace (e1 - ez + ez)%Z with e1 by ring. replace (e2 - ez + ez)%Z with e2 by ring. reflexivity. }
    clearbody M. destruct M as [|M|M]; try lia. cbn [binary_normalize].
    assert (Z.log2 (Zpos M) < 54 + (Z.max e1 e2 - ez))%Z by (apply Z.log2_lt_pow2; lia).
    assert (L52 : (52 <= Z.log2 (Zpos M))%Z).
    { pose proof (Z.log2_le_mono p52 (Zpos M) ML) as L. change (Z.log2 p52) with 52%Z in L. exact L. }
    destruct (binary_round_ok M ez (val m1 e1 + val m2 e2)) as (m & e & E1 & E2 & E3 & E4); try lia.
    { now rewrite <- V. }
    exists m, e. split; [exact E1|split; [lia|split; [lia|]]].
    apply within_trans with (2 := E4). now apply within_plus.
Qed.
