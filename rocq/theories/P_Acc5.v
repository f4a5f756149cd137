(** Proofs for C49: a printed number can be read back. *)
From Coq Require Import QArith Qabs Floats.SpecFloat.
From Verif Require Import Base Spec Lib M_Text M_Out Typed Printed P_Out P_Out2 P_Out3 P_Out4.
Local Open Scope Z_scope.

Lemma in_ascii_digits ds c : is_digits ds -> In c (in_ascii ds) -> 48 <= c <= 57.
Proof.
  intros H I. apply in_map_iff in I as (d & <- & Hd). unfold is_digits in H. rewrite Forall_forall in H.
  specialize (H d Hd). lia.
Qed.
Lemma in_ascii_inj a : forall b, in_ascii a = in_ascii b -> a = b.
Proof.
  induction a as [|x a IH]; intros [|y b] E; try discriminate; [reflexivity|]. inversion E as [[E1 E2]].
  f_equal; [apply (Z.add_reg_l 48); exact E1|]. now apply IH.
Qed.
(** splitting at a character that is no digit *)
Lemma split_at c (a : list Z) : forall a' b b', ~ In c a -> ~ In c a' -> a ++ c :: b = a' ++ c :: b' -> a = a' /\ b = b'.
Proof.
  induction a as [|x a IH]; intros [|y a'] b b' H H' E; cbn [app] in E.
  - injection E as <-. auto.
  - injection E as E _. exfalso. apply H'. now left.
  - injection E as E _. exfalso. apply H. now left.
  - injection E as <- E. destruct (IH a' b b') as (-> & ->); auto.
    + intro I. apply H. now right.
    + intro I. apply H'. now right.
Qed.
Lemma no_char ds c : is_digits ds -> c < 48 \/ 57 < c -> ~ In c (in_ascii ds).
Proof. intros H C I. pose proof (in_ascii_digits ds c H I). lia. Qed.

Lemma point_inj a b a' b' : is_digits a -> is_digits b -> is_digits a' -> is_digits b' ->
  point a b = point a' b' -> a = a' /\ b = b'.
Proof.
  intros A B A' B' E. unfold point in E.
  assert (K : forall x y z w, is_digits x -> is_digits y -> in_ascii x ++ [] = in_ascii y ++ 46 :: in_ascii (w :: z) -> False).
  { intros x y z w X Y F. rewrite app_nil_r in F. apply (no_char x 46 X); [lia|]. rewrite F. apply in_or_app. right. now left. }
  destruct b as [|x b], b' as [|y b']; cbn [app] in E.
  - rewrite !app_nil_r in E. apply in_ascii_inj in E. auto.
  - exfalso. eapply K; [exact A|exact A'|exact E].
  - exfalso. symmetry in E. eapply K; [exact A'|exact A|exact E].
  - apply split_at in E; try (apply no_char; auto; lia). destruct E as (E1 & E2).
    apply in_ascii_inj in E1, E2. auto.
Qed.
Lemma point_chars_of a b c : is_digits a -> is_digits b -> In c (point a b) -> 48 <= c <= 57 \/ c = 46.
Proof.
  intros A B I. unfold point in I. apply in_app_or in I as [I|I]; [left; exact (in_ascii_digits a c A I)|].
  destruct b as [|x b]; [easy|]. destruct I as [I|I]; [auto|left]. exact (in_ascii_digits _ c B I).
Qed.

Lemma plain_reads q r t : plain q t -> plain r t -> (q == r)%Q.
Proof.
  intros (a & b & (A & _) & (B & _) & -> & E) (a' & b' & (A' & _) & (B' & _) & F & E').
  apply point_inj in F as (<- & <-); auto. rewrite E, E'. reflexivity.
Qed.
Lemma digit_one d : 1 <= d <= 9 -> is_digits [d].
Proof. intro H. constructor; [lia|constructor]. Qed.
Lemma lean_or_two ds : (lean ds /\ 2 <= zlen ds \/ exists d', 0 <= d' <= 9 /\ ds = [0; d']) -> is_digits ds.
Proof.
  intros [((H & _) & _)|(d & H & ->)]; [auto|]. repeat constructor; lia.
Qed.
Lemma plain_not_scientific q r t : plain q t -> scientific r t -> False.
Proof.
  intros (a & b & (A & _) & (B & _) & -> & _) (d & b' & x & ds & D & (B' & _) & L & F & _).
  assert (I : In 101 (point a b)) by (rewrite F; apply in_or_app; right; now left).
  apply point_chars_of in I; auto. lia.
Qed.
Lemma scientific_reads q r t : scientific q t -> scientific r t -> (q == r)%Q.
Proof.
  intros (d & b & x & ds & D & (B & _) & L & -> & V & E) (d' & b' & x' & ds' & D' & (B' & _) & L' & F & V' & E').
  apply digit_one in D, D'. apply lean_or_two in L, L'.
  cbn [app] in F. apply split_at in F.
  - destruct F as (F1 & F2). apply point_inj in F1 as (F0 & <-); auto. injection F0 as <-.
    injection F2 as F2 F3. apply in_ascii_inj in F3. subst ds'.
    assert (x = x') by (destruct (Z.ltb_spec x 0), (Z.ltb_spec x' 0); try discriminate; lia). subst x'.
    rewrite E, E'. reflexivity.
  - intro I. apply point_chars_of in I; auto. lia.
  - intro I. apply point_chars_of in I; auto. lia.
Qed.

Lemma c49_reads : forall q r t, (plain q t \/ scientific q t) -> (plain r t \/ scientific r t) -> (q == r)%Q.
Proof.
  intros q r t [P|P] [S|S].
  - exact (plain_reads q r t P S).
  - destruct (plain_not_scientific q r t P S).
  - destruct (plain_not_scientific r q t S P).
  - exact (scientific_reads q r t P S).
Qed.
Lemma c49_natural_reads : forall n m t, natural n t -> natural m t -> n = m.
Proof.
  intros n m t (a & A & -> & ->) (b & B & E & ->). apply in_ascii_inj in E. now subst.
Qed.

Lemma six_digits_eq q r r' : (r == r')%Q -> six_digits q r -> six_digits q r'.
Proof.
  intros E (X & n & A & B & C & D). exists X, n. rewrite <- E. auto.
Qed.
Lemma rounded_or q t : rounded q t -> exists r, six_digits q r /\ (plain r t \/ scientific r t).
Proof.
  intros (r & S & P & F). exists r. split; [exact S|].
  destruct (Qlt_le_dec r (1 # 10000)) as [L|L].
  - right. apply F. intros (H & _). apply (Qlt_not_le _ _ L H).
  - destruct (Qlt_le_dec r 1000000) as [L'|L']; [left; auto|].
    right. apply F. intros (_ & H). apply (Qlt_not_le _ _ H L').
Qed.
Lemma c49_double_read : forall nan s m e m' e',
  show_double nan (S754_finite s m e) = show_double nan (S754_finite s m' e') ->
  exists r, six_digits (inject_Z (Zpos m) * 2 ^ e) r /\ six_digits (inject_Z (Zpos m') * 2 ^ e') r.
Proof.
  intros nan s m e m' e' E.
  pose proof (proj1 (c49_double nan (S754_finite s m e) _) eq_refl) as (u & U & T).
  pose proof (proj1 (c49_double nan (S754_finite s m' e') _) eq_refl) as (u' & U' & T').
  rewrite E, T' in T. apply app_inv_head in T. subst u'.
  apply rounded_or in U as (r & R & P), U' as (r' & R' & P').
  exists r. split; [exact R|]. apply (six_digits_eq _ r' r); [|exact R']. exact (c49_reads r' r u P' P).
Qed.
Lemma c49_integer_read : forall n m, 0 <= n -> 0 <= m -> show n = show m -> n = m.
Proof.
  intros n m N M E. apply (c49_natural_reads n m (show n)).
  - now apply c49_integer.
  - now apply c49_integer.
Qed.
