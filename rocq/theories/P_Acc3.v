(** Proofs for C50: the lines of build with exact fractions. *)
From Coq Require Import QArith Floats.SpecFloat.
From Verif Require Import Base M_Util Spec Lib Format Typed Shown Printed Exact Counts
  P_Stats P_Format P_Print P_Counts P_Float P_Acc P_Acc2 P_Out P_Out3.
Local Open Scope Z_scope.

(** the text of a double is the text of a fraction *)
Definition prints (s : spec_float) (x y : Z) : Prop := forall nan t, real nan s t -> ratio_text nan x y t.

Lemma prints_near s x y : y <> 0 -> near 258 800 s (inject_Z x / inject_Z y)%Q -> prints s x y.
Proof.
  intros H N nan t R. unfold ratio_text. rewrite (proj2 (Z.eqb_neq y 0) H). exact (real_about nan s _ t N R).
Qed.
Lemma dbl_pos n : 0 < n < 2 ^ 53 -> exists m e, dbl n = S754_finite false m e.
Proof. intro H. destruct (double_of_ok n H) as (m & k & E & _). eauto. Qed.
Lemma prints_nan y : y = 0 -> prints S754_nan 0 y.
Proof. intros -> nan t R. exact R. Qed.
Lemma prints_inf x y : y = 0 -> x <> 0 -> prints (S754_infinity false) x y.
Proof. intros -> H nan t R. unfold ratio_text. rewrite (proj2 (Z.eqb_neq x 0) H). exact R. Qed.

Lemma prints_quot x y : 0 <= x < 2 ^ 53 -> 0 <= y < 2 ^ 53 -> prints (quot x y) x y.
Proof.
  intros Hx Hy. destruct (Z.eq_dec y 0) as [->|N].
  - unfold quot. change (dbl 0) with (S754_zero false). destruct (Z.eq_dec x 0) as [->|Nx]; [now apply prints_nan|].
    destruct (dbl_pos x ltac:(lia)) as (m & e & ->). now apply prints_inf.
  - apply prints_near; [auto|]. apply near_weaken with 1 158; try lia. apply near_quot; lia.
Qed.
Lemma prints_pct x y : 0 <= x < 2 ^ 53 -> 0 <= y < 2 ^ 53 -> prints (pct x y) (100 * x) y.
Proof.
  intros Hx Hy. destruct (Z.eq_dec y 0) as [->|N].
  - unfold pct. change (dbl 0) with (S754_zero false). destruct (Z.eq_dec x 0) as [->|Nx]; [now apply prints_nan|].
    assert (H100 : 0 <= 100 < 2 ^ 53) by (split; [lia|reflexivity]).
    destruct (near_mul 0 52 _ _ 0 52 _ _ (near_dbl x Hx) (near_dbl 100 H100) ltac:(lia)) as [(A & _)|(_ & m & e & -> & _)].
    + exfalso. pose proof (injpos x ltac:(lia)). pose proof (Qmult_lt_0_compat _ _ H (injpos 100 ltac:(lia))) as P.
      rewrite A in P. now apply Qlt_irrefl in P.
    + cbn [SFdiv xorb]. apply prints_inf; lia.
  - apply prints_near; [auto|]. apply near_weaken with 2 264; try lia. apply near_pct; lia.
Qed.
Lemma prints_share x y : 0 <= x < 2 ^ 53 -> 0 <= y < 2 ^ 53 ->
  prints (SFmul 53 1024 (quot x y) (dbl 100)) (100 * x) y.
Proof.
  intros Hx Hy. destruct (Z.eq_dec y 0) as [->|N].
  - unfold quot. change (dbl 0) with (S754_zero false). destruct (Z.eq_dec x 0) as [->|Nx]; [now apply prints_nan|].
    destruct (dbl_pos x ltac:(lia)) as (m & e & ->). cbn [SFdiv xorb].
    change (SFmul 53 1024 (S754_infinity false) (dbl 100)) with (S754_infinity false). apply prints_inf; lia.
  - apply prints_near; [auto|]. apply near_weaken with 2 264; try lia. apply near_share; lia.
Qed.
Lemma fold_nan (p : Z -> spec_float) l :
  fold_left (fun s i => SFadd 53 1024 s (SFmul 53 1024 (dbl i) (p i))) l S754_nan = S754_nan.
Proof. induction l as [|i l IH]; [reflexivity|]. cbn [fold_left]. exact IH. Qed.
Lemma prints_mean n y (x : Z -> Z) : 1 <= Z.of_nat n <= 256 -> 0 <= y < 2 ^ 53 ->
  (forall i, 1 <= i <= Z.of_nat n -> 0 <= x i < 2 ^ 53) -> (y = 0 -> forall i, 1 <= i <= Z.of_nat n -> x i = 0) ->
  prints (mean n (fun i => quot (x i) y)) (total (fun i => i * x i) (zrange 1 n)) y.
Proof.
  intros Hn Hy H Z0. destruct (Z.eq_dec y 0) as [E|N].
  - specialize (Z0 E).
    assert (T : total (fun i => i * x i) (zrange 1 n) = 0).
    { rewrite (total_ext _ _ (fun _ => 0)); [apply total_0|]. intros i Hi. apply In_zrange in Hi. rewrite Z0 by lia. lia. }
    rewrite T. replace (mean n (fun i => quot (x i) y)) with S754_nan; [now apply prints_nan|].
    unfold mean. destruct n as [|n]; [lia|]. cbn [zrange fold_left]. rewrite (Z0 1) by lia. rewrite E.
    change (SFadd 53 1024 (S754_zero false) (SFmul 53 1024 (dbl 1) (quot 0 0))) with S754_nan. now rewrite fold_nan.
  - apply prints_near; [auto|]. apply near_weaken with 258 776; try lia. apply near_mean; auto; lia.
Qed.

(** ** lines *)
Definition agrees (p : piece) (i : item) : Prop := forall nan t, written nan p t -> put nan i t.
Lemma agrees_text s : agrees (W s) (Text s).
Proof. intros nan t H. exact H. Qed.
Lemma agrees_int n : agrees (N n) (Int n).
Proof. intros nan t H. exact H. Qed.
Lemma agrees_frac s x y : prints s x y -> agrees (R s) (Frac x y).
Proof. intros H nan t. apply H. Qed.

Lemma Forall2_through A B C (P : A -> B -> Prop) (Q : B -> C -> Prop) (P' : A -> C -> Prop) l m :
  (forall a b c, P a b -> P' a c -> Q b c) -> Forall2 P l m -> forall ts, Forall2 P' l ts -> Forall2 Q m ts.
Proof.
  intros K H. induction H as [|a b l m H1 H2 IH]; intros ts F; inversion F; subst; constructor; eauto.
Qed.
Lemma page_sheet nan ls ms t : Forall2 (Forall2 agrees) ls ms -> page nan ls t -> sheet nan ms t.
Proof.
  intros H (tss & F & E). exists tss. split; [|auto]. revert F. apply Forall2_through with (2 := H).
  intros a b c Hab Hac. revert Hac. apply Forall2_through with (2 := Hab). intros p i u Hp. apply Hp.
Qed.

Lemma Forall2_flat_map A B C (P : B -> C -> Prop) (f : A -> list B) (g : A -> list C) l :
  (forall x, In x l -> Forall2 P (f x) (g x)) -> Forall2 P (flat_map f l) (flat_map g l).
Proof.
  induction l as [|a l IH]; intro H; [constructor|]. cbn [flat_map]. apply Forall2_app; [apply H; now left|].
  apply IH. intros x Hx. apply H. now right.
Qed.
Lemma Forall2_map A B C (P : B -> C -> Prop) (f : A -> B) (g : A -> C) l :
  (forall x, P (f x) (g x)) -> Forall2 P (map f l) (map g l).
Proof. intro H. induction l; constructor; auto. Qed.

Ltac row := repeat (apply Forall2_cons || apply Forall2_nil); try apply agrees_text; try apply agrees_int; apply agrees_frac.

Definition fits (n : Z) : Prop := 0 <= n < 2 ^ 53.

Lemma summary_agree c : (forall f, fits (c f)) -> Forall2 (Forall2 agrees) (summary_lines c) (summary_sheet c).
Proof.
  intro H. unfold summary_lines, summary_sheet. cbn zeta.
  row; first [apply prints_pct; apply H | apply prints_quot; apply H].
Qed.
Lemma statistics_agree c :
  (forall f, fits (c f)) ->
  (forall i, 1 <= i <= 256 -> fits (i * c (F_num_blocks_in_chunks i))) ->
  (forall i, 1 <= i <= 256 -> fits (c (F_num_integers i) / c (F_num_blocks_in_chunks i))) ->
  (forall i, 1 <= i <= 256 -> fits (ef_bits (c (F_num_integers i) / c (F_num_blocks_in_chunks i)))) ->
  (forall i, 1 <= i <= 256 -> fits (total (fun j => c (F_num_integers j)) (zrange 1 (Z.to_nat i)))) ->
  (c F_sparse_blocks = 0 -> forall i, 1 <= i <= 30 -> c (F_sparse_blocks_cardinalities i) = 0) ->
  (c F_sparse_chunks = 0 -> forall i, 1 <= i <= 256 -> c (F_num_blocks_in_chunks i) = 0) ->
  Forall2 (Forall2 agrees) (statistics_lines c) (statistics_sheet c).
Proof.
  intros H H1 H2 H3 H4 Z1 Z2. unfold statistics_lines, statistics_sheet.
  apply Forall2_app; [|apply Forall2_app; [|apply Forall2_app; [|apply Forall2_app; [|apply Forall2_app]]]].
  - apply summary_agree, H.
  - row.
  - apply Forall2_flat_map. intros i Hi. unfold card_lines, card_sheet. row. apply prints_share; apply H.
  - row.
    + apply (prints_mean 30 (c F_sparse_blocks) (fun i => c (F_sparse_blocks_cardinalities i))); [lia|apply H|intros; apply H|exact Z1].
    + apply prints_pct; apply H.
  - apply Forall2_flat_map. intros i Hi. apply In_zrange in Hi. unfold dist_lines, dist_sheet. cbn zeta. unfold average. row.
    + apply prints_share; apply H.
    + apply prints_quot; [apply H|apply H1; lia].
    + apply prints_quot; [apply H3; lia|apply H2; lia].
    + apply prints_pct; [apply H4; lia|apply H].
  - row. apply (prints_mean 256 (c F_sparse_chunks) (fun i => c (F_num_blocks_in_chunks i))); [lia|apply H|intros; apply H|exact Z2].
Qed.
Lemma build_agree u S c : Forall2 (Forall2 agrees) (statistics_lines c) (statistics_sheet c) ->
  Forall2 (Forall2 agrees) (build_lines u S c) (build_sheet u S c).
Proof.
  intro H. unfold build_lines, build_sheet. apply Forall2_app; [row|apply Forall2_app; [|exact H]].
  apply Forall2_map. intro k. row.
Qed.

(** ** sizes of the counters *)
Lemma over_some p w : exists n, Z.of_nat n = 65536 /\ over p w = total w (filter p (zrange 0 n)).
Proof. exists (Z.to_nat 65536). split; [apply Z2Nat.id; lia|unfold over; reflexivity]. Qed.
Lemma over_mono p w w' : (forall h, p h = true -> w h <= w' h) -> over p w <= over p w'.
Proof.
  intro H. unfold over. generalize (Z.to_nat 65536). intro n. apply total_le. intros h Hh. apply filter_In in Hh as (_ & Hh).
  exact (H h Hh).
Qed.
Lemma over_le p w S : valid S -> (forall h, p h = true -> w h <= card 65536 S h) -> over p w <= zlen S.
Proof.
  intros V H. eapply Z.le_trans; [exact (over_mono p w _ H)|].
  destruct (over_some p (card 65536 S)) as (n & Hn & ->).
  eapply Z.le_trans; [apply total_filter_le; intro; apply card_nonneg|].
  rewrite total_card_all; [lia|]. intros v Hv. destruct V as (_ & _ & R). rewrite Forall_forall in R. specialize (R v Hv).
  rewrite Hn. split; [apply Z.div_pos; lia|apply Z.div_lt_upper_bound; lia].
Qed.
Lemma over_scaled p w S k : 0 <= k -> valid S -> (forall h, p h = true -> w h <= k * card 65536 S h) -> over p w <= k * zlen S.
Proof.
  intros K V H. eapply Z.le_trans; [exact (over_mono p w _ H)|].
  pose proof (over_le p (card 65536 S) S V ltac:(intros; lia)) as L. revert L.
  unfold over. generalize (Z.to_nat 65536). intros n L. rewrite total_scale. apply Z.mul_le_mono_nonneg_l; auto.
Qed.
Lemma over_blocks_le S p w : valid S -> (forall n, 0 <= n -> p n = true -> w n <= n) -> over_blocks S p w <= zlen S.
Proof.
  intros V H. unfold over_blocks. apply over_le; [auto|]. intros h _. rewrite <- total_cards.
  apply Z.le_trans with (total (fun b => card 256 S (256 * h + b)) (filter (fun b => p (card 256 S (256 * h + b))) (zrange 0 256))).
  - apply total_le. intros b Hb. apply filter_In in Hb as (_ & Hb). apply H; [apply card_nonneg|auto].
  - apply total_filter_le. intro. apply card_nonneg.
Qed.
Lemma counts_bound S f : valid S -> counts S f <= 65536 * zlen S.
Proof.
  intro V. pose proof V as (N & Hs & HF).
  assert (L1 : 1 <= zlen S) by (destruct S; [easy|rewrite zlen_cons; pose proof (zlen_nonneg _ S); lia]).
  assert (LA : 0 <= last S 0 < 65535 * 65536).
  { rewrite Forall_forall in HF. destruct (exists_last N) as (S' & x & E). rewrite E, last_last.
    assert (In x S) by (rewrite E; apply in_or_app; right; now left). specialize (HF x H). lia. }
  assert (LC : 0 <= last S 0 / 65536 < 65535) by (split; [apply Z.div_pos; lia|apply Z.div_lt_upper_bound; lia]).
  assert (P1 : forall p, (forall h, p h = true -> 0 < card 65536 S h) -> over p one <= zlen S).
  { intros p H. apply over_le; [auto|]. intros h Hh. unfold one. specialize (H h Hh). lia. }
  assert (PC : forall p, over p (card 65536 S) <= zlen S) by (intro p; apply over_le; [auto|lia]).
  assert (B1 : forall p, (forall n, 0 <= n -> p n = true -> 0 < n) -> over_blocks S p one <= zlen S).
  { intros p H. apply over_blocks_le; [auto|]. intros n Hn Hp. unfold one. specialize (H n Hn Hp). lia. }
  assert (BS : forall p, over_blocks S p same <= zlen S) by (intro p; apply over_blocks_le; [auto|unfold same; lia]).
  assert (Kb : forall h, as_blocks S h = true -> 0 < card 65536 S h) by (unfold as_blocks; intro h; lia).
  assert (Km : forall h, as_bitmap S h = true -> 0 < card 65536 S h) by (unfold as_bitmap; intro h; lia).
  assert (Kf : forall h, (card 65536 S h =? 65536) = true -> 0 < card 65536 S h) by (intro h; lia).
  assert (Kl : forall n, 0 <= n -> listed n = true -> 0 < n) by (unfold listed; intro n; lia).
  assert (Kp : forall n, 0 <= n -> bitmapped n = true -> 0 < n) by (unfold bitmapped; intro n; lia).
  pose proof (P1 _ Kb) as Q1. pose proof (P1 _ Km) as Q2. pose proof (P1 _ Kf) as Q3.
  pose proof (B1 _ Kl) as Q4. pose proof (B1 _ Kp) as Q5.
  assert (CI : chunks_in S <= zlen S) by (apply P1; intros h; lia).
  assert (C0 : 0 <= chunks_in S) by (apply over_nonneg; unfold one; lia).
  assert (UB : over (as_blocks S) (blocks_upto S) <= 256 * zlen S).
  { apply over_scaled; [lia|auto|]. intros h Hh. specialize (Kb h Hh). unfold blocks_upto.
    assert (last (part 65536 S h) 0 / 256 < 256); [|lia].
    apply Z.div_lt_upper_bound; [lia|]. unfold part.
    destruct (map (fun v => v mod 65536) (filter (fun v => v / 65536 =? h) S)) as [|a l] eqn:E; [cbn; lia|].
    destruct (exists_last (l := a :: l)) as (l' & z & E'); [discriminate|]. rewrite E', last_last.
    assert (I : In z (a :: l)) by (rewrite E'; apply in_or_app; right; now left).
    rewrite <- E in I. apply in_map_iff in I as (v & <- & _). apply Z.mod_pos_bound. lia. }
  assert (BU : over (as_blocks S) (fun h => blocks_upto S h - blocks_in S h) <= over (as_blocks S) (blocks_upto S)).
  { apply over_mono. intros h _. assert (0 <= blocks_in S h) by apply zlen_nonneg. lia. }
  assert (chunks_in S / 32 <= chunks_in S) by (apply Z.div_le_upper_bound; lia).
  pose proof (BS listed). pose proof (BS bitmapped).
  destruct f; cbn [counts]; try lia.
  - specialize (PC (as_blocks S)). lia.
  - specialize (PC (as_bitmap S)). lia.
  - destruct (listed i) eqn:Li; [|lia]. apply Z.le_trans with (zlen S); [|lia]. apply B1. intros n _ Hn.
    apply Z.eqb_eq in Hn. subst n. unfold listed in Li. lia.
  - apply Z.le_trans with (zlen S); [|lia]. apply P1. intros h Hh. unfold sparse_with in Hh. lia.
  - specialize (PC (sparse_with i S)). lia.
Qed.
