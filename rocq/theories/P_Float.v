(** The double-precision quotient of two 32-bit integers, as computed by Coq's SpecFloat. *)
From Coq Require Import Floats.SpecFloat Znumtheory Zpow_facts.
From Verif Require Import Base M_Util Spec Lib.
Local Open Scope Z_scope.

Lemma digits_log2 : forall p, Zpos (digits2_pos p) = Z.log2 (Zpos p) + 1.
Proof.
  induction p as [p IH|p IH|]; cbn [digits2_pos].
  - rewrite Pos2Z.inj_succ, IH. change (Zpos p~1) with (2 * Zpos p + 1).
    rewrite Z.log2_succ_double by lia. lia.
  - rewrite Pos2Z.inj_succ, IH. change (Zpos p~0) with (2 * Zpos p).
    rewrite Z.log2_double by lia. lia.
  - reflexivity.
Qed.

Lemma digits_unique : forall m d, 0 < d -> 2 ^ (d - 1) <= m < 2 ^ d -> Zdigits2 m = d.
Proof.
  intros m d Hd H. assert (0 < 2 ^ (d - 1)) by (apply Z.pow_pos_nonneg; lia).
  destruct m as [|p|p]; try lia. cbn [Zdigits2]. rewrite digits_log2.
  rewrite (Z.log2_unique (Zpos p) (d - 1)); try lia.
  replace (Z.succ (d - 1)) with d by lia. lia.
Qed.

Lemma digits_bounds : forall p, let d := Zpos (digits2_pos p) in 2 ^ (d - 1) <= Zpos p < 2 ^ d.
Proof.
  intros p. cbn zeta. rewrite digits_log2. pose proof (Z.log2_spec (Zpos p) ltac:(lia)) as H.
  replace (Z.log2 (Zpos p) + 1 - 1) with (Z.log2 (Zpos p)) by lia.
  replace (Z.log2 (Zpos p) + 1) with (Z.succ (Z.log2 (Zpos p))) by lia. exact H.
Qed.

Notation p52 := 4503599627370496.
Notation p53 := 9007199254740992.
Notation p54 := 18014398509481984.

Lemma digits53 : forall m, p52 <= m < p53 -> Zdigits2 m = 53.
Proof. intros. apply digits_unique; [lia|]. change (2 ^ (53 - 1)) with p52. change (2 ^ 53) with p53. lia. Qed.
Lemma digits54 : forall m, p53 <= m < p54 -> Zdigits2 m = 54.
Proof. intros. apply digits_unique; [lia|]. change (2 ^ (54 - 1)) with p53. change (2 ^ 54) with p54. lia. Qed.

Lemma fexp_ok : forall e, -1021 <= e -> fexp 53 1024 e = e - 53.
Proof. intros. unfold fexp, emin. lia. Qed.

Lemma shr_fexp_53 : forall m e l, p52 <= m < p53 -> -1074 <= e ->
  shr_fexp 53 1024 m e l = (shr_record_of_loc m l, e).
Proof.
  intros m e l Hm He. unfold shr_fexp. rewrite digits53 by lia. rewrite fexp_ok by lia.
  replace (53 + e - 53 - e) with 0 by lia. reflexivity.
Qed.

Lemma shr_fexp_54 : forall m e l, p53 <= m < p54 -> -1074 <= e ->
  shr_fexp 53 1024 m e l = (shr_1 (shr_record_of_loc m l), e + 1).
Proof.
  intros m e l Hm He. unfold shr_fexp. rewrite digits54 by lia. rewrite fexp_ok by lia.
  replace (54 + e - 53 - e) with 1 by lia. reflexivity.
Qed.

(** finishing: the mantissa is already rounded to [p52 .. p53] *)
Lemma finish_round : forall M e, p52 <= M <= p53 -> -1074 <= e <= 900 ->
  exists m e', (let '(mrs'', e'') := shr_fexp 53 1024 M e loc_Exact in
     match shr_m mrs'' with
     | Z0 => S754_zero false
     | Zpos m => if Zle_bool e'' (1024 - 53) then S754_finite false m e'' else S754_infinity false
     | _ => S754_nan
     end) = S754_finite false m e'
  /\ p52 <= Zpos m < p53 /\ (e' = e /\ Zpos m = M \/ e' = e + 1 /\ 2 * Zpos m = M).
Proof.
  intros M e HM He. destruct (Z.eq_dec M p53) as [->|N].
  - rewrite shr_fexp_54 by lia. cbn [shr_record_of_loc shr_1 shr_m].
    exists 4503599627370496%positive, (e + 1).
    rewrite (proj2 (Z.leb_le (e + 1) (1024 - 53))) by lia. repeat split; try lia.
  - rewrite shr_fexp_53 by lia. cbn [shr_record_of_loc shr_m].
    destruct M as [|p|p]; try lia. exists p, e.
    rewrite (proj2 (Z.leb_le e (1024 - 53))) by lia. repeat split; try lia.
Qed.

(** where a remainder lies *)
Definition loc_is (r d : Z) (l : location) : Prop :=
  match l with loc_Exact => r = 0 | loc_Inexact c => 0 < r /\ (2 * r ?= d) = c end.

Lemma new_location_ok : forall d r, 0 <= r < d -> loc_is r d (new_location d r).
Proof.
  intros d r H. unfold new_location. destruct (Z.even d) eqn:E.
  - unfold new_location_even. destruct (Zeq_bool r 0) eqn:Z0.
    + apply Zeq_bool_eq in Z0. exact Z0.
    + apply Zeq_bool_neq in Z0. cbn [loc_is]. split; [lia|reflexivity].
  - unfold new_location_odd. destruct (Zeq_bool r 0) eqn:Z0.
    + apply Zeq_bool_eq in Z0. exact Z0.
    + apply Zeq_bool_neq in Z0. cbn [loc_is].
      assert (O : Z.odd d = true) by (rewrite <- Z.negb_even, E; reflexivity).
      apply Z.odd_spec in O. destruct O as [k ->]. split; [lia|].
      destruct (Z.compare_spec (2 * r + 1) (2 * k + 1)), (Z.compare_spec (2 * r) (2 * k + 1)); try lia; reflexivity.
Qed.

(** rounding of q + r/d: [M] with 2 |M d - (q d + r)| <= d *)
Lemma round_ok : forall q r d l, 0 <= r < d -> loc_is r d l ->
  let M := round_nearest_even q l in
  q <= M <= q + 1 /\ - d <= 2 * (M * d - (q * d + r)) <= d.
Proof.
  intros q r d l H L. cbn zeta. destruct l as [|c]; cbn [loc_is round_nearest_even] in *.
  - subst. lia.
  - destruct L as [L C]. destruct c.
    + apply Z.compare_eq in C. destruct (Z.even q); lia.
    + rewrite Z.compare_lt_iff in C. lia.
    + rewrite Z.compare_gt_iff in C. lia.
Qed.

Lemma loc_record : forall m l, loc_of_shr_record (shr_record_of_loc m l) = l.
Proof. intros m [|[]]; reflexivity. Qed.
Lemma m_record : forall m l, shr_m (shr_record_of_loc m l) = m.
Proof. intros m [|[]]; reflexivity. Qed.

Lemma shr_1_ok : forall q r d l, 1 < q -> 0 <= r < d -> loc_is r d l ->
  let mrs := shr_1 (shr_record_of_loc q l) in
  shr_m mrs = q / 2 /\ loc_is ((q mod 2) * d + r) (2 * d) (loc_of_shr_record mrs).
Proof.
  intros q r d l Hq H L. cbn zeta. destruct q as [|p|p]; try lia.
  destruct p as [p|p|]; try lia.
  - change (Zpos p~1) with (2 * Zpos p + 1) in *.
    assert (E1 : (2 * Zpos p + 1) / 2 = Zpos p) by (symmetry; apply Z.div_unique with 1; lia).
    assert (E2 : (2 * Zpos p + 1) mod 2 = 1) by (symmetry; apply Z.mod_unique with (Zpos p); lia).
    rewrite E1, E2. change (2 * Zpos p + 1) with (Zpos p~1).
    destruct l as [|[]]; cbn [loc_is] in L;
      cbn [shr_record_of_loc shr_1 shr_m loc_of_shr_record orb loc_is];
      rewrite ?Z.compare_eq_iff, ?Z.compare_lt_iff, ?Z.compare_gt_iff in *; (split; [reflexivity|]); lia.
  - change (Zpos p~0) with (2 * Zpos p) in *.
    assert (E1 : (2 * Zpos p) / 2 = Zpos p) by (symmetry; apply Z.div_unique with 0; lia).
    assert (E2 : (2 * Zpos p) mod 2 = 0) by (symmetry; apply Z.mod_unique with (Zpos p); lia).
    rewrite E1, E2. change (2 * Zpos p) with (Zpos p~0).
    destruct l as [|[]]; cbn [loc_is] in L;
      cbn [shr_record_of_loc shr_1 shr_m loc_of_shr_record orb loc_is];
      rewrite ?Z.compare_eq_iff, ?Z.compare_lt_iff, ?Z.compare_gt_iff in *; (split; [reflexivity|]); lia.
Qed.

(** binary_round_aux on a quotient q + r/d with 53 or 54 bits *)
Lemma round_aux_ok : forall q r d e l, p52 <= q < p54 -> 0 <= r < d -> loc_is r d l -> -1074 <= e <= 800 ->
  exists m e' M j, binary_round_aux 53 1024 false q e l = S754_finite false m e'
    /\ p52 <= Zpos m < p53
    /\ (j = 0 \/ j = 1) /\ p52 * 2 ^ j <= q
    /\ p52 <= M <= p53
    /\ - (2 ^ j * d) <= 2 * (M * (2 ^ j * d) - (q * d + r)) <= 2 ^ j * d
    /\ (e' = e + j /\ Zpos m = M \/ e' = e + j + 1 /\ 2 * Zpos m = M).
Proof.
  intros q r d e l Hq H L He. unfold binary_round_aux.
  destruct (Z_lt_le_dec q p53) as [S|B].
  - rewrite shr_fexp_53 by lia. rewrite m_record, loc_record.
    pose proof (round_ok q r d l H L) as R. cbn zeta in R. destruct R as [R1 R2].
    destruct (finish_round (round_nearest_even q l) e ltac:(lia) ltac:(lia)) as (m & e' & F & Fm & Fe).
    exists m, e', (round_nearest_even q l), 0. rewrite F. change (2 ^ 0) with 1.
    repeat split; try lia.
  - rewrite shr_fexp_54 by lia.
    pose proof (shr_1_ok q r d l ltac:(lia) H L) as [S1 S2]. cbn zeta in S2.
    set (mrs := shr_1 (shr_record_of_loc q l)) in *. rewrite S1.
    pose proof (Z.mod_pos_bound q 2 ltac:(lia)) as Hb. pose proof (Z.div_mod q 2 ltac:(lia)) as Eq.
    assert (Hr : 0 <= q mod 2 * d + r < 2 * d) by nia.
    pose proof (round_ok (q / 2) _ (2 * d) _ Hr S2) as R. cbn zeta in R. destruct R as [R1 R2].
    destruct (finish_round (round_nearest_even (q / 2) (loc_of_shr_record mrs)) (e + 1) ltac:(lia) ltac:(lia))
      as (m & e' & F & Fm & Fe).
    exists m, e', (round_nearest_even (q / 2) (loc_of_shr_record mrs)), 1. rewrite F. change (2 ^ 1) with 2.
    repeat split; try lia; nia.
Qed.

(** conversion of an integer below 2^53 is exact and normalised *)
Lemma double_of_ok : forall n, 0 < n < 2 ^ 53 ->
  exists m k, double_of_u32 n = S754_finite false m (- k) /\ 0 <= k <= 52
    /\ p52 <= Zpos m < p53 /\ Zpos m = n * 2 ^ k.
Proof.
  intros n Hn. change (2 ^ 53) with p53 in Hn. destruct n as [|p|p]; try lia.
  unfold double_of_u32. cbn [binary_normalize]. unfold binary_round.
  pose proof (digits_bounds p) as D. cbn zeta in D. set (d := Zpos (digits2_pos p)) in *.
  assert (Hd : 1 <= d <= 53).
  { split; [unfold d; lia|]. apply Z.nlt_ge. intros C.
    assert (2 ^ 53 <= 2 ^ (d - 1)) by (apply Z.pow_le_mono_r; lia).
    change (2 ^ 53) with p53 in *. lia. }
  rewrite Z.add_0_r, fexp_ok by lia. unfold shl_align. rewrite Z.sub_0_r.
  destruct (d - 53) as [|x|x] eqn:E; try lia.
  { assert (Hm : p52 <= Zpos p < p53).
    { replace d with 53 in D by lia. exact D. }
    unfold binary_round_aux. rewrite shr_fexp_53 by lia. rewrite m_record, loc_record.
    cbn [round_nearest_even]. rewrite shr_fexp_53 by lia. rewrite m_record.
    exists p, 0. split; [reflexivity|]. change (2 ^ 0) with 1. lia. }
  assert (Es : Zpos (shift_pos x p) = Zpos p * 2 ^ (53 - d)).
  { rewrite shift_pos_correct, Z.mul_comm. replace (53 - d) with (Zpos x) by lia. reflexivity. }
  assert (Hm : p52 <= Zpos (shift_pos x p) < p53).
  { rewrite Es. assert (0 < 2 ^ (53 - d)) by (apply Z.pow_pos_nonneg; lia).
    split.
    - change p52 with (2 ^ 52). replace 52 with ((d - 1) + (53 - d)) by lia.
      rewrite Z.pow_add_r by lia. apply Z.mul_le_mono_nonneg_r; lia.
    - change p53 with (2 ^ 53). replace (2 ^ 53) with (2 ^ d * 2 ^ (53 - d))
        by (rewrite <- Z.pow_add_r by lia; f_equal; lia).
      apply Z.mul_lt_mono_pos_r; lia. }
  unfold binary_round_aux. rewrite shr_fexp_53 by lia. rewrite m_record, loc_record.
  cbn [round_nearest_even]. rewrite shr_fexp_53 by lia. rewrite m_record.
  rewrite (proj2 (Z.leb_le (Zneg x) (1024 - 53))) by lia.
  exists (shift_pos x p), (53 - d). replace (- (53 - d)) with (Zneg x) by lia.
  repeat split; try lia.
Qed.

(** the quotient: [M * 2 ^ (E - 1074)] with M of 53 bits, at most half a unit away from n/u *)
Lemma div_ok : forall n u, 0 < n < 2 ^ 53 -> 0 < u < 2 ^ 53 ->
  exists m e M E, SFdiv 53 1024 (double_of_u32 n) (double_of_u32 u) = S754_finite false m e
    /\ p52 <= Zpos m < p53 /\ -1074 <= e <= 900
    /\ p52 <= M <= p53 /\ 900 <= E <= 1074
    /\ Zpos m * 2 ^ (e + 1074) = M * 2 ^ E
    /\ p52 * 2 ^ E * u <= n * 2 ^ 1074
    /\ - (2 ^ E * u) <= 2 * (M * 2 ^ E * u - n * 2 ^ 1074) <= 2 ^ E * u.
Proof.
  intros n u Hn Hu.
  destruct (double_of_ok n Hn) as (m1 & k1 & E1 & K1 & B1 & V1).
  destruct (double_of_ok u Hu) as (m2 & k2 & E2 & K2 & B2 & V2).
  rewrite E1, E2. cbn [SFdiv xorb]. unfold SFdiv_core_binary.
  rewrite !digits53 by lia. rewrite fexp_ok by lia.
  replace (Z.min (53 + - k1 - (53 + - k2) - 53) (- k1 - - k2)) with (k2 - k1 - 53) by lia.
  replace (- k1 - - k2 - (k2 - k1 - 53)) with 53 by lia.
  rewrite Z.shiftl_mul_pow2 by lia. change (2 ^ 53) with p53.
  pose proof (Z_div_mod (Zpos m1 * p53) (Zpos m2) ltac:(lia)) as DM.
  destruct (Z.div_eucl (Zpos m1 * p53) (Zpos m2)) as [q r]. destruct DM as [DM Hr].
  assert (Hq : p52 <= q < p54) by nia.
  destruct (round_aux_ok q r (Zpos m2) (k2 - k1 - 53) (new_location (Zpos m2) r) Hq Hr
              (new_location_ok _ _ Hr) ltac:(lia)) as (m & e & M & j & F & Fm & Hj & Hjq & HM & HR & He).
  exists m, e, M, (k2 - k1 - 53 + j + 1074). rewrite F.
  assert (Pj : 0 < 2 ^ j) by (apply Z.pow_pos_nonneg; lia).
  (* everything is stated over m1, m2; bring it back to n, u *)
  assert (X : forall a, a * 2 ^ (k2 - k1 - 53 + j + 1074) * u * (2 ^ k1 * p53) = a * (2 ^ j * Zpos m2) * 2 ^ 1074).
  { intros a. rewrite V2. change p53 with (2 ^ 53).
    replace (a * 2 ^ (k2 - k1 - 53 + j + 1074) * u * (2 ^ k1 * 2 ^ 53))
      with (a * u * (2 ^ (k2 - k1 - 53 + j + 1074) * (2 ^ k1 * 2 ^ 53))) by ring.
    replace (a * (2 ^ j * (u * 2 ^ k2)) * 2 ^ 1074) with (a * u * (2 ^ j * (2 ^ k2 * 2 ^ 1074))) by ring.
    rewrite <- !Z.pow_add_r by lia. do 2 f_equal. lia. }
  assert (Y : n * 2 ^ 1074 * (2 ^ k1 * p53) = (q * Zpos m2 + r) * 2 ^ 1074).
  { replace (q * Zpos m2 + r) with (Zpos m1 * p53) by lia. rewrite V1. ring. }
  assert (Pk : 0 < 2 ^ k1 * p53) by (apply Z.mul_pos_pos; [apply Z.pow_pos_nonneg; lia|lia]).
  assert (PK : 0 < 2 ^ 1074) by (apply Z.pow_pos_nonneg; lia).
  split; [reflexivity|]. split; [lia|]. split; [lia|]. split; [lia|]. split; [lia|].
  generalize dependent (2 ^ 1074). intros K X Y PK.
  set (P := 2 ^ (k2 - k1 - 53 + j + 1074)) in *.
  split; [|split].
  - destruct He as [[-> ->]|[-> He]].
    + reflexivity.
    + rewrite <- He. unfold P. replace (k2 - k1 - 53 + j + 1 + 1074) with (1 + (k2 - k1 - 53 + j + 1074)) by lia.
      rewrite Z.pow_add_r by lia. change (2 ^ 1) with 2. ring.
  - apply Z.mul_le_mono_pos_r with (2 ^ k1 * p53); [exact Pk|]. rewrite X, Y.
    apply Z.mul_le_mono_pos_r; [exact PK|].
    apply Z.le_trans with (q * Zpos m2); [|lia].
    rewrite Z.mul_assoc. apply Z.mul_le_mono_nonneg_r; lia.
  - pose proof (X 1) as X1. pose proof (X M) as XM. rewrite !Z.mul_1_l in X1.
    split.
    + apply Z.mul_le_mono_pos_r with (2 ^ k1 * p53); [exact Pk|].
      replace (- (P * u) * (2 ^ k1 * p53)) with (- (P * u * (2 ^ k1 * p53))) by ring.
      replace (2 * (M * P * u - n * K) * (2 ^ k1 * p53))
        with (2 * (M * P * u * (2 ^ k1 * p53) - n * K * (2 ^ k1 * p53))) by ring.
      rewrite X1, XM, Y.
      replace (- (2 ^ j * Zpos m2 * K)) with (- (2 ^ j * Zpos m2) * K) by ring.
      replace (2 * (M * (2 ^ j * Zpos m2) * K - (q * Zpos m2 + r) * K))
        with (2 * (M * (2 ^ j * Zpos m2) - (q * Zpos m2 + r)) * K) by ring.
      apply Z.mul_le_mono_pos_r; lia.
    + apply Z.mul_le_mono_pos_r with (2 ^ k1 * p53); [exact Pk|].
      replace (2 * (M * P * u - n * K) * (2 ^ k1 * p53))
        with (2 * (M * P * u * (2 ^ k1 * p53) - n * K * (2 ^ k1 * p53))) by ring.
      rewrite X1, XM, Y.
      replace (2 * (M * (2 ^ j * Zpos m2) * K - (q * Zpos m2 + r) * K))
        with (2 * (M * (2 ^ j * Zpos m2) - (q * Zpos m2 + r)) * K) by ring.
      apply Z.mul_le_mono_pos_r; lia.
Qed.

Lemma no_tie : forall o j n u, 0 < n < 2 ^ 32 -> 2 ^ 32 <= 2 * o + 1 -> 0 <= j -> (2 * o + 1) * u = n * 2 ^ j -> False.
Proof.
  intros o j n u Hn Ho Hj E.
  assert (D : (2 * o + 1 | 2 ^ j * n)) by (exists u; lia).
  assert (R : rel_prime (2 * o + 1) (2 ^ j)).
  { apply rel_prime_Zpower_r; [lia|]. apply bezout_rel_prime.
    apply Bezout_intro with 1 (- o). lia. }
  pose proof (Gauss _ _ _ D R) as D'. apply Z.divide_pos_le in D'; lia.
Qed.

Lemma nearest_ok : forall n u M E, 0 < n < 2 ^ 32 -> 0 < u -> p52 <= M <= p53 -> 900 <= E <= 1074 ->
  p52 * 2 ^ E * u <= n * 2 ^ 1074 ->
  - (2 ^ E * u) <= 2 * (M * 2 ^ E * u - n * 2 ^ 1074) <= 2 ^ E * u ->
  nearest n u (M * 2 ^ E).
Proof.
  intros n u M E Hn Hu HM HE Hlow Hh.
  assert (PE : 0 < 2 ^ E) by (apply Z.pow_pos_nonneg; lia).
  assert (T : 2 * (M * 2 ^ E * u - n * 2 ^ 1074) <> 2 ^ E * u
              /\ 2 * (M * 2 ^ E * u - n * 2 ^ 1074) <> - (2 ^ E * u)).
  { assert (Ek : 2 * (n * 2 ^ 1074) = n * 2 ^ (1075 - E) * 2 ^ E).
    { rewrite <- Z.mul_assoc, <- Z.pow_add_r by lia.
      replace (1075 - E + E) with (1 + 1074) by lia. rewrite (Z.pow_add_r 2 1 1074) by lia.
      change (2 ^ 1) with 2. ring. }
    assert (P32 : 2 ^ 32 <= p52 - 1) by (vm_compute; congruence).
    split; intros C.
    - apply (no_tie (M - 1) (1075 - E) n u); try lia.
      apply Z.mul_cancel_r with (2 ^ E); [lia|].
      rewrite <- Ek. replace ((2 * (M - 1) + 1) * u * 2 ^ E) with (2 * (M * 2 ^ E * u) - 2 ^ E * u) by ring. lia.
    - apply (no_tie M (1075 - E) n u); try lia.
      apply Z.mul_cancel_r with (2 ^ E); [lia|].
      rewrite <- Ek. replace ((2 * M + 1) * u * 2 ^ E) with (2 * (M * 2 ^ E * u) + 2 ^ E * u) by ring. lia. }
  unfold nearest. generalize dependent (n * 2 ^ 1074). intros X Hlow Hh [T1 T2].
  assert (Hs : Z.abs (2 * (M * 2 ^ E * u - X)) < 2 ^ E * u) by lia.
  (* doubles which are multiples of 2^E *)
  assert (Mult : forall A, A <> M -> Z.abs (M * 2 ^ E * u - X) < Z.abs (A * 2 ^ E * u - X)).
  { intros A HA. assert (G : 2 ^ E * u <= Z.abs (A * 2 ^ E * u - M * 2 ^ E * u)).
    { replace (A * 2 ^ E * u - M * 2 ^ E * u) with ((A - M) * (2 ^ E * u)) by ring.
      rewrite Z.abs_mul, (Z.abs_eq (2 ^ E * u)) by nia. nia. }
    lia. }
  split.
  - destruct (Z.eq_dec M p53) as [->|N].
    + exists p52, (E + 1). split; [vm_compute; split; congruence|]. split; [lia|].
      rewrite Z.pow_add_r by lia. change (2 ^ 1) with 2. change p53 with (p52 * 2). ring.
    + exists M, E. change (2 ^ 53) with p53. repeat split; lia.
  - intros Q' (m & e & Hm & He & ->) NQ. change (2 ^ 53) with p53 in Hm.
    destruct (Z_lt_le_dec e E) as [L|G].
    + (* below p52 * 2^E *)
      assert (PP : 0 < 2 ^ e) by (apply Z.pow_pos_nonneg; lia).
      assert (B : m * 2 ^ e < p52 * 2 ^ E).
      { apply Z.lt_le_trans with (p53 * 2 ^ e); [apply Z.mul_lt_mono_pos_r; lia|].
        replace p53 with (p52 * 2 ^ 1) by reflexivity.
        rewrite <- Z.mul_assoc, <- Z.pow_add_r by lia. apply Z.mul_le_mono_nonneg_l; [lia|].
        apply Z.pow_le_mono_r; lia. }
      assert (B' : m * 2 ^ e * u < p52 * 2 ^ E * u) by (apply Z.mul_lt_mono_pos_r; lia).
      destruct (Z.eq_dec M p52) as [->|N52].
      * lia.
      * pose proof (Mult p52 ltac:(lia)). lia.
    + replace (2 ^ e) with (2 ^ (e - E) * 2 ^ E) in * by (rewrite <- Z.pow_add_r by lia; f_equal; lia).
      rewrite Z.mul_assoc in *. apply Mult. intros C. apply NQ. rewrite C. reflexivity.
Qed.

Lemma nearest_unique : forall n u Q Q', nearest n u Q -> nearest n u Q' -> Q = Q'.
Proof.
  intros n u Q Q' [D H] [D' H']. destruct (Z.eq_dec Q Q') as [|N]; [assumption|].
  specialize (H Q' D' ltac:(congruence)). specialize (H' Q D N). lia.
Qed.

(** comparison of a valid double with a normalised one is comparison of values *)
Lemma valid_finite : forall m e, valid_binary 53 1024 (S754_finite false m e) = true ->
  Zpos m < p53 /\ -1074 <= e <= 971 /\ (e = -1074 \/ p52 <= Zpos m).
Proof.
  intros m e H. cbn [valid_binary] in H. unfold bounded, canonical_mantissa in H.
  apply andb_prop in H as [C B]. apply Zeq_bool_eq in C. apply Zle_bool_imp_le in B.
  pose proof (digits_bounds m) as D. cbn zeta in D. set (d := Zpos (digits2_pos m)) in *.
  unfold fexp, emin in C.
  assert (Hd : d <= 53) by lia.
  assert (P : 2 ^ d <= 2 ^ 53) by (apply Z.pow_le_mono_r; lia). change (2 ^ 53) with p53 in P.
  repeat split; try lia.
  destruct (Z.eq_dec e (-1074)); [now left|right].
  replace d with 53 in D by lia. change (2 ^ (53 - 1)) with p52 in D. lia.
Qed.

Lemma ltb_finite : forall m e mq eq, valid_binary 53 1024 (S754_finite false m e) = true ->
  p52 <= Zpos mq < p53 -> -1074 <= eq ->
  SFltb (S754_finite false m e) (S754_finite false mq eq) = true
  <-> Zpos m * 2 ^ (e + 1074) < Zpos mq * 2 ^ (eq + 1074).
Proof.
  intros m e mq eq V Hq He. destruct (valid_finite m e V) as (V1 & V2 & V3).
  unfold SFltb. cbn [SFcompare].
  assert (P1 : 0 < 2 ^ (e + 1074)) by (apply Z.pow_pos_nonneg; lia).
  assert (P2 : 0 < 2 ^ (eq + 1074)) by (apply Z.pow_pos_nonneg; lia).
  assert (S : forall a b x y, 0 <= x < p53 -> p52 <= y -> 0 <= a -> a < b -> x * 2 ^ a < y * 2 ^ b).
  { intros a b x y Hx Hy Ha Hab. assert (0 < 2 ^ a) by (apply Z.pow_pos_nonneg; lia).
    apply Z.lt_le_trans with (p53 * 2 ^ a); [apply Z.mul_lt_mono_pos_r; lia|].
    apply Z.le_trans with (p52 * 2 ^ b).
    - replace p53 with (p52 * 2 ^ 1) by reflexivity. rewrite <- Z.mul_assoc, <- Z.pow_add_r by lia.
      apply Z.mul_le_mono_nonneg_l; [lia|]. apply Z.pow_le_mono_r; lia.
    - apply Z.mul_le_mono_nonneg_r; [|lia]. apply Z.pow_nonneg; lia. }
  destruct (Z.compare_spec e eq) as [E|L|G].
  - subst eq. change (Pos.compare_cont Eq m mq) with (Pos.compare m mq).
    rewrite <- Z.mul_lt_mono_pos_r by exact P1.
    destruct (Pos.compare_spec m mq); split; intros; try discriminate; try lia; reflexivity.
  - split; [intros _|reflexivity]. apply S; lia.
  - split; [discriminate|]. intros C. exfalso.
    pose proof (S (eq + 1074) (e + 1074) (Zpos mq) (Zpos m) ltac:(lia) ltac:(lia) ltac:(lia) ltac:(lia)). lia.
Qed.

Theorem c16_pass : forall params n u,
  is_u32 n -> is_u32 u -> valid_binary 53 1024 (p_density params) = true ->
  pass params n u = true
  <-> p_size params < n
      \/ 0 < n /\ exists D, dval (p_density params) = Some D
           /\ (u = 0 \/ exists Q, nearest n u Q /\ D < Q).
Proof.
  intros params n u Hn Hu V. unfold is_u32 in *. unfold pass.
  set (d := p_density params) in *.
  assert (K : SFleb double_zero d && SFltb d (SFdiv 53 1024 (double_of_u32 n) (double_of_u32 u)) = true
    <-> 0 < n /\ exists D, dval d = Some D /\ (u = 0 \/ exists Q, nearest n u Q /\ D < Q)).
  { destruct (Z.eq_dec n 0) as [->|Nn].
    { split; [|lia]. intros C. exfalso. apply andb_prop in C as [C1 C2].
      assert (Z : SFdiv 53 1024 (double_of_u32 0) (double_of_u32 u) = S754_nan
                  \/ SFdiv 53 1024 (double_of_u32 0) (double_of_u32 u) = S754_zero false).
      { destruct (Z.eq_dec u 0) as [->|Nu]; [left; reflexivity|right].
        destruct (double_of_ok u ltac:(lia)) as (m & k & E & _). rewrite E. reflexivity. }
      destruct d as [s|s| |s m e]; destruct Z as [Z|Z]; rewrite Z in C2;
        try destruct s; vm_compute in C1, C2; congruence. }
    destruct (double_of_ok n ltac:(lia)) as (mn & kn & En & _).
    destruct (Z.eq_dec u 0) as [->|Nu].
    { rewrite En. change (double_of_u32 0) with (S754_zero false). cbn [SFdiv xorb].
      destruct d as [s|s| |s m e]; try destruct s; cbn;
        (split; [intros C; first [discriminate | (split; [lia|eexists; split; [reflexivity|now left]])]
                |intros (_ & D & C & _); first [discriminate | reflexivity]]). }
    destruct (div_ok n u ltac:(lia) ltac:(lia)) as (m & e & M & E & F & Bm & Be & BM & BE & EV & Hlow & Hh).
    rewrite F.
    pose proof (nearest_ok n u M E ltac:(lia) ltac:(lia) BM BE Hlow Hh) as NQ.
    rewrite <- EV in NQ.
    assert (PV : 0 < Zpos m * 2 ^ (e + 1074)) by (apply Z.mul_pos_pos; [lia|apply Z.pow_pos_nonneg; lia]).
    assert (W : forall D, (u = 0 \/ exists Q, nearest n u Q /\ D < Q) <-> D < Zpos m * 2 ^ (e + 1074)).
    { intros D. split.
      - intros [C|(Q & HQ & L)]; [lia|]. rewrite (nearest_unique _ _ _ _ NQ HQ). exact L.
      - intros L. right. eexists. split; [exact NQ|exact L]. }
    destruct d as [s|s| |s md ed].
    - replace (SFleb double_zero (S754_zero s)) with true by reflexivity.
      replace (SFltb (S754_zero s) (S754_finite false m e)) with true by reflexivity.
      split; [|reflexivity]. intros _. split; [lia|]. exists 0. split; [reflexivity|]. apply W. exact PV.
    - split; [|intros (_ & D & C & _); discriminate]. destruct s; intros C; discriminate.
    - split; [|intros (_ & D & C & _); discriminate]. intros C; discriminate.
    - destruct s.
      + split; [|intros (_ & D & C & _); discriminate]. intros C; discriminate.
      + replace (SFleb double_zero (S754_finite false md ed)) with true by reflexivity.
        rewrite andb_true_l, (ltb_finite md ed m e V Bm ltac:(lia)).
        split.
        * intros L. split; [lia|]. eexists. split; [reflexivity|]. apply W. exact L.
        * intros (_ & D & ED & L). cbn [dval] in ED. injection ED as <-. apply W. exact L. }
  destruct (SFleb double_zero d && SFltb d (SFdiv 53 1024 (double_of_u32 n) (double_of_u32 u))).
  - split; [intros _; right; apply K; reflexivity|reflexivity].
  - destruct (Z.ltb_spec (p_size params) n).
    + split; [intros _; now left|reflexivity].
    + split; [discriminate|]. intros [C|C]; [lia|]. apply K in C. discriminate.
Qed.

(** consequences over the exact quotient n / u, without any rounding *)
Theorem c16_density : forall params n u D,
  0 < n -> is_u32 n -> 0 < u -> is_u32 u -> valid_binary 53 1024 (p_density params) = true ->
  dval (p_density params) = Some D -> n <= p_size params ->
  (n * 2 ^ 1074 <= D * u -> pass params n u = false)
  /\ (forall D', is_double D' -> D < D' -> D' * u <= n * 2 ^ 1074 -> pass params n u = true).
Proof.
  intros params n u D Pn Hn Pu Hu V ED Hs.
  pose proof (c16_pass params n u Hn Hu V) as P.
  assert (Dd : is_double D).
  { destruct (p_density params) as [s|s| |[] m e]; cbn [dval] in ED; try discriminate; injection ED as <-.
    - exists 0, 0. split; [split; [lia|reflexivity]|]. lia.
    - destruct (valid_finite m e V) as (V1 & V2 & _). exists (Zpos m), (e + 1074).
      change (2 ^ 53) with p53. repeat split; lia. }
  unfold is_u32 in *. split.
  - intros L. destruct (pass params n u); [|reflexivity]. exfalso.
    destruct (proj1 P eq_refl) as [C|(_ & D0 & E0 & [C|(Q & [DQ HQ] & LQ)])]; try lia.
    assert (D0 = D) by congruence. subst D0. specialize (HQ D Dd ltac:(lia)).
    assert (D * u < Q * u) by (apply Z.mul_lt_mono_pos_r; lia). lia.
  - intros D' DD' LD L'. apply P. right. split; [lia|]. exists D. split; [exact ED|]. right.
    destruct (div_ok n u ltac:(lia) ltac:(lia)) as (m & e & M & E & F & Bm & Be & BM & BE & EV & Hlow & Hh).
    pose proof (nearest_ok n u M E ltac:(lia) ltac:(lia) BM BE Hlow Hh) as NQ.
    eexists. split; [exact NQ|]. apply Z.nle_gt. intros C. destruct NQ as [DQ HQ].
    specialize (HQ D' DD' ltac:(lia)).
    assert (M * 2 ^ E * u <= D * u) by (apply Z.mul_le_mono_nonneg_r; lia).
    assert (D * u < D' * u) by (apply Z.mul_lt_mono_pos_r; lia). lia.
Qed.

(** the default size 0: --density filters nothing but empty lists *)
Theorem c16_size0 : forall params n u, p_size params = 0 -> is_u32 n -> is_u32 u -> pass params n u = (0 <? n).
Proof.
  intros params n u Hs Hn Hu. unfold is_u32 in *. unfold pass. rewrite Hs.
  destruct (Z.ltb_spec 0 n) as [L|L].
  - destruct (_ && _); reflexivity.
  - replace n with 0 by lia.
    assert (Z : SFdiv 53 1024 (double_of_u32 0) (double_of_u32 u) = S754_nan
                  \/ SFdiv 53 1024 (double_of_u32 0) (double_of_u32 u) = S754_zero false).
    { destruct (Z.eq_dec u 0) as [->|Nu]; [left; reflexivity|right].
      destruct (double_of_ok u ltac:(lia)) as (m & k & E & _). rewrite E. reflexivity. }
    destruct (_ && _) eqn:C; [|reflexivity]. exfalso. apply andb_prop in C as [C1 C2].
    destruct (p_density params) as [s|s| |s m e]; destruct Z as [Z|Z]; rewrite Z in C2;
        try destruct s; vm_compute in C1, C2; congruence.
Qed.
