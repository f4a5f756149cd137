(** Command lines: C48. *)
From Coq Require Import String Ascii Lia Sorted Permutation Floats.SpecFloat.
From Verif Require Import Base Hw Spec Lib Told Typed M_Util M_Build M_Seq M_Many M_Index M_Print M_Calls M_Tests
  M_Drivers M_Tools M_Text P_Text P_Text2.

(** ** words without a number *)
Lemma skip_inv s : exists b, Forall blank b /\ s = b ++ skip_spaces s /\ no_blank (skip_spaces s).
Proof.
  induction s as [|c s (b & Hb & E & N)]; [exists []; repeat split; constructor|]. cbn [skip_spaces].
  destruct (is_space c) eqn:Ec.
  - exists (c :: b). apply is_space_blank in Ec. split; [now constructor|]. split; [cbn [app]; now rewrite <- E|auto].
  - exists []. split; [constructor|]. split; [reflexivity|]. cbn [no_blank]. intro H. apply is_space_blank in H. congruence.
Qed.
Lemma digits_inv s : forall v v' r, digits s v = (v', r) ->
  exists ds, s = map (Z.add 48) ds ++ r /\ Forall (fun d => 0 <= d <= 9) ds /\ no_digit r
    /\ v' = fold_left (fun v d => 10 * v + d) ds v.
Proof.
  induction s as [|c s IH]; intros v v' r H; cbn [digits] in H.
  - injection H as <- <-. exists []. repeat split; constructor.
  - destruct (is_digit c) eqn:E.
    + apply IH in H as (ds & -> & F & N & ->). apply is_digit_iff in E. exists ((c - 48) :: ds).
      cbn [map app fold_left]. split; [f_equal; lia|]. split; [constructor; auto; lia|]. auto.
    + injection H as <- <-. exists []. split; [reflexivity|]. split; [constructor|]. split; [|reflexivity].
      cbn [no_digit]. intro H. apply is_digit_iff in H. congruence.
Qed.
Lemma integer_inv s n r : integer s = (Some n, r) -> exists v, s = v ++ r /\ numeral v n /\ no_digit r.
Proof.
  unfold integer. destruct (sign s) as [neg s'] eqn:Es.
  destruct s' as [|c s']; [discriminate|]. destruct (is_digit c) eqn:Ec; [|discriminate].
  destruct (digits (c :: s') 0) as [v r'] eqn:Ed. intro H. injection H as <- <-.
  destruct (digits_inv _ _ _ _ Ed) as (ds & E & F & N & ->).
  assert (Nn : ds <> []).
  { intros ->. cbn [map app] in E. subst r'. cbn [no_digit] in N. apply is_digit_iff in Ec. tauto. }
  destruct s as [|c0 s]; cbn [sign] in Es; [discriminate|].
  destruct (Z.eqb_spec c0 45) as [->|]; [|destruct (Z.eqb_spec c0 43) as [->|]].
  - assert (neg = true) as -> by congruence. assert (s = c :: s') as Es' by congruence.
    exists (45 :: map (Z.add 48) ds). rewrite Es', E. split; [reflexivity|]. split; [|auto].
    exists ds. repeat split; auto.
  - assert (neg = false) as -> by congruence. assert (s = c :: s') as Es' by congruence.
    exists (43 :: map (Z.add 48) ds). rewrite Es', E. split; [reflexivity|]. split; [|auto].
    exists ds. repeat split; auto.
  - assert (neg = false) as -> by congruence. assert (c0 :: s = c :: s') as Es' by congruence.
    exists (map (Z.add 48) ds). rewrite Es', E. split; [reflexivity|]. split; [|auto].
    exists ds. repeat split; auto.
Qed.
Lemma integer_begins w n r : integer (skip_spaces w) = (Some n, r) -> begins w n.
Proof.
  intro H. apply integer_inv in H as (v & E & Hv & Hr). destruct (skip_inv w) as (b & Hb & Ew & _).
  exists b, v, r. rewrite <- E. auto.
Qed.
Lemma stoull_none w : (forall n, ~ begins w n) -> stoull w = Throw.
Proof.
  intro H. unfold stoull. destruct (integer (skip_spaces w)) as [[n|] r] eqn:E; auto.
  destruct (H n). now apply integer_begins with r.
Qed.
Lemma atoi_word iso w s : int_word iso w s -> atoi iso w = Ok s.
Proof.
  intros [(n & H & Hn & ->)|[H ->]]; [now apply atoi_ok|].
  unfold atoi. destruct (integer (skip_spaces w)) as [[n|] r] eqn:E; auto.
  destruct (H n). now apply integer_begins with r.
Qed.

(** a word is a number or it is not *)
Lemma begins_dec w : (exists n, begins w n) \/ (forall n, ~ begins w n).
Proof.
  destruct (integer (skip_spaces w)) as [[n|] r] eqn:E.
  - left. exists n. now apply integer_begins with r.
  - right. intros n H. apply begins_integer in H as [r' H]. congruence.
Qed.
Lemma begins_unique w n n' : begins w n -> begins w n' -> n = n'.
Proof. intros H H'. apply begins_integer in H as [r H]. apply begins_integer in H' as [r' H']. congruence. Qed.

(** ** options *)
Lemma is_word_eq s : is_word (word s) s = true.
Proof. unfold is_word. change (codes s) with (word s). now destruct (list_eq_dec Z.eq_dec (word s) (word s)). Qed.
Lemma is_word_neq w s : w <> word s -> is_word w s = false.
Proof. intro H. unfold is_word. change (codes s) with (word s). now destruct (list_eq_dec Z.eq_dec w (word s)). Qed.

Section Settled.
Context {B : Type} (says : argument -> B -> Prop).
Lemma settled_nil b : settled says [] b b.
Proof. right. split; auto. Qed.
Lemma settled_cons a x args i b : says a x -> settled says args x b -> settled says (a :: args) i b.
Proof.
  intros Ha [(p & a' & q & -> & H1 & H2)|[-> H]].
  - left. exists (a :: p), a', q. auto.
  - left. exists [], a, args. auto.
Qed.
Lemma settled_skip a args i b : (forall b', ~ says a b') -> settled says args i b -> settled says (a :: args) i b.
Proof.
  intros Ha [(p & a' & q & -> & H1 & H2)|[-> H]].
  - left. exists (a :: p), a', q. auto.
  - right. split; auto. intros a' b' [<-|Hi]; auto.
Qed.
End Settled.

Definition stod_is (stod : list Z -> res spec_float) (v : list Z) (d : spec_float) : Prop := stod v = Ok d.

Lemma build_options_ok stod iso rest : forall args params out,
  Forall (proper iso (stod_is stod)) args ->
  exists d s o,
    settled (says_density (stod_is stod)) args (p_density params) d
    /\ settled (says_size iso) args (p_size params) s
    /\ settled says_out args out o
    /\ build_options stod iso (flat_map spelled args ++ rest) params out = build_options stod iso rest (mkParams d s) o.
Proof.
  induction args as [|a args IH]; intros params out H.
  - exists (p_density params), (p_size params), out. repeat (split; [apply settled_nil|]). now destruct params.
  - inversion H as [|? ? Ha H']; subst. destruct a as [v|v|v|w]; cbn [proper] in Ha.
    + destruct Ha as [d0 Hd]. destruct (IH (mkParams d0 (p_size params)) out H') as (d & s & o & S1 & S2 & S3 & E).
      exists d, s, o. split; [apply settled_cons with d0; auto; exists v; auto|].
      split; [apply settled_skip; auto; intros b' (v' & Hv & _); discriminate|].
      split; [apply settled_skip; auto; intros b' (v' & Hv & _); discriminate|].
      cbn [flat_map spelled app build_options]. rewrite is_word_eq. unfold stod_is in Hd. rewrite Hd. exact E.
    + destruct Ha as [s0 Hs]. destruct (IH (mkParams (p_density params) s0) out H') as (d & s & o & S1 & S2 & S3 & E).
      exists d, s, o. split; [apply settled_skip; auto; intros b' (v' & Hv & _); discriminate|].
      split; [apply settled_cons with s0; auto; exists v; auto|].
      split; [apply settled_skip; auto; intros b' (v' & Hv & _); discriminate|].
      cbn [flat_map spelled app build_options]. rewrite is_word_eq.
      rewrite (is_word_neq (word "--size") "--density") by discriminate.
      rewrite (atoi_word iso v s0 Hs). exact E.
    + destruct (IH params (Some v) H') as (d & s & o & S1 & S2 & S3 & E).
      exists d, s, o. split; [apply settled_skip; auto; intros b' (v' & Hv & _); discriminate|].
      split; [apply settled_skip; auto; intros b' (v' & Hv & _); discriminate|].
      split; [apply settled_cons with (Some v); auto; exists v; auto|].
      cbn [flat_map spelled app build_options]. rewrite is_word_eq.
      rewrite (is_word_neq (word "--out") "--density") by discriminate.
      rewrite (is_word_neq (word "--out") "--size") by discriminate. exact E.
    + destruct (IH params out H') as (d & s & o & S1 & S2 & S3 & E).
      exists d, s, o. split; [apply settled_skip; auto; intros b' (v' & Hv & _); discriminate|].
      split; [apply settled_skip; auto; intros b' (v' & Hv & _); discriminate|].
      split; [apply settled_skip; auto; intros b' (v' & Hv & _); discriminate|].
      cbn [flat_map spelled app build_options]. destruct Ha as (N1 & N2 & N3).
      rewrite (is_word_neq w _ N1), (is_word_neq w _ N2), (is_word_neq w _ N3). exact E.
Qed.

Lemma build_options_dangling stod iso w params out : wants_value w -> build_options stod iso [w] params out = UB.
Proof. intros [->|[->| ->]]; cbn [build_options]; rewrite is_word_eq; reflexivity. Qed.

(** the macro TEST: "--out" is no option there *)
Lemma test_options_ok stod iso rest : forall args params,
  Forall (proper_test iso (stod_is stod)) args ->
  exists d s,
    settled (says_density (stod_is stod)) args (p_density params) d
    /\ settled (says_size iso) args (p_size params) s
    /\ test_options stod iso (flat_map spelled args ++ rest) params = test_options stod iso rest (mkParams d s).
Proof.
  induction args as [|a args IH]; intros params H.
  - exists (p_density params), (p_size params). repeat (split; [apply settled_nil|]). now destruct params.
  - inversion H as [|? ? Ha H']; subst. destruct a as [v|v|v|w]; cbn [proper_test] in Ha.
    + destruct Ha as [d0 Hd]. destruct (IH (mkParams d0 (p_size params)) H') as (d & s & S1 & S2 & E).
      exists d, s. split; [apply settled_cons with d0; auto; exists v; auto|].
      split; [apply settled_skip; auto; intros b' (v' & Hv & _); discriminate|].
      cbn [flat_map spelled app test_options]. rewrite is_word_eq. unfold stod_is in Hd. rewrite Hd. exact E.
    + destruct Ha as [s0 Hs]. destruct (IH (mkParams (p_density params) s0) H') as (d & s & S1 & S2 & E).
      exists d, s. split; [apply settled_skip; auto; intros b' (v' & Hv & _); discriminate|].
      split; [apply settled_cons with s0; auto; exists v; auto|].
      cbn [flat_map spelled app test_options]. rewrite is_word_eq.
      rewrite (is_word_neq (word "--size") "--density") by discriminate.
      rewrite (atoi_word iso v s0 Hs). exact E.
    + destruct (IH params H') as (d & s & S1 & S2 & E).
      exists d, s. split; [apply settled_skip; auto; intros b' (v' & Hv & _); discriminate|].
      split; [apply settled_skip; auto; intros b' (v' & Hv & _); discriminate|].
      cbn [flat_map spelled app test_options].
      rewrite (is_word_neq (word "--out") "--density") by discriminate.
      rewrite (is_word_neq (word "--out") "--size") by discriminate.
      destruct Ha as (N1 & N2). rewrite (is_word_neq v _ N1), (is_word_neq v _ N2). exact E.
    + destruct (IH params H') as (d & s & S1 & S2 & E).
      exists d, s. split; [apply settled_skip; auto; intros b' (v' & Hv & _); discriminate|].
      split; [apply settled_skip; auto; intros b' (v' & Hv & _); discriminate|].
      cbn [flat_map spelled app test_options]. destruct Ha as (N1 & N2).
      rewrite (is_word_neq w _ N1), (is_word_neq w _ N2). exact E.
Qed.
