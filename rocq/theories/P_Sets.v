(** Intersection and union of sorted lists, and of bitmaps. *)
From Verif Require Import Base Hw Spec Lib L_Bits L_Group Layout M_Util M_Seq M_Decode
  P_Build1 P_Build2 P_Build3 P_Seq P_Decode P_Query.

Lemma filter_none (f : Z -> bool) l : (forall x, In x l -> f x = false) -> filter f l = [].
Proof.
  induction l as [|x l IH]; intro H; auto. cbn [filter]. rewrite H by now left. apply IH. intros; apply H; now right.
Qed.

Definition isect (a b : list Z) : list Z := filter (memb b) a.

Fixpoint uni (a : list Z) : list Z -> list Z :=
  fix go (b : list Z) : list Z :=
    match a, b with
    | [], _ => b
    | _, [] => a
    | x :: a', y :: b' =>
        if x <? y then x :: uni a' b
        else if y <? x then y :: go b'
        else x :: uni a' b'
    end.

Lemma uni_nil_l b : uni [] b = b.
Proof. destruct b; reflexivity. Qed.
Lemma uni_nil_r a : uni a [] = a.
Proof. destruct a; reflexivity. Qed.
Lemma uni_cons x a y b :
  uni (x :: a) (y :: b)
  = if x <? y then x :: uni a (y :: b) else if y <? x then y :: uni (x :: a) b else x :: uni a b.
Proof. reflexivity. Qed.

Lemma In_isect a b x : In x (isect a b) <-> In x a /\ In x b.
Proof. unfold isect. rewrite filter_In, memb_In. reflexivity. Qed.
Lemma sorted_isect a b : sorted a -> sorted (isect a b).
Proof. apply sorted_filter. Qed.

Lemma In_uni a : forall b x, In x (uni a b) <-> In x a \/ In x b.
Proof.
  induction a as [|u a IHa]; [intros b x; rewrite uni_nil_l; cbn; tauto|].
  induction b as [|v b IHb]; intro x; [rewrite uni_nil_r; cbn; tauto|].
  rewrite uni_cons. destruct (Z.ltb_spec u v).
  - cbn [In]. rewrite IHa. cbn [In]. tauto.
  - destruct (Z.ltb_spec v u).
    + cbn [In]. rewrite IHb. cbn [In]. tauto.
    + assert (u = v) by lia. subst v. cbn [In]. rewrite IHa. tauto.
Qed.
Lemma sorted_uni a : forall b, sorted a -> sorted b -> sorted (uni a b).
Proof.
  induction a as [|u a IHa]; [intros b _ Hb; now rewrite uni_nil_l|].
  induction b as [|v b IHb]; intros Ha Hb; [now rewrite uni_nil_r|].
  rewrite uni_cons. pose proof (sorted_inv _ _ Ha) as [Ha' Fa]. pose proof (sorted_inv _ _ Hb) as [Hb' Fb].
  rewrite Forall_forall in Fa, Fb.
  destruct (Z.ltb_spec u v).
  - apply sorted_cons; auto. apply Forall_forall. intros x [Hx|[<-|Hx]]%In_uni; auto.
    specialize (Fb x Hx). lia.
  - destruct (Z.ltb_spec v u).
    + apply sorted_cons; auto. apply Forall_forall. intros x [[<-|Hx]|Hx]%In_uni; auto.
      specialize (Fa x Hx). lia.
    + assert (u = v) by lia. subst v. apply sorted_cons; auto.
      apply Forall_forall. intros x [Hx|Hx]%In_uni; auto.
Qed.
Lemma uni_unique a b e :
  sorted a -> sorted b -> sorted e -> (forall x, In x e <-> In x a \/ In x b) -> e = uni a b.
Proof. intros Ha Hb He H. apply sorted_ext; auto using sorted_uni. intro x. now rewrite H, In_uni. Qed.
Lemma isect_unique a b e :
  sorted a -> sorted e -> (forall x, In x e <-> In x a /\ In x b) -> e = isect a b.
Proof. intros Ha He H. apply sorted_ext; auto using sorted_isect. intro x. now rewrite H, In_isect. Qed.

Lemma isect_comm a b : sorted a -> sorted b -> isect a b = isect b a.
Proof. intros. apply isect_unique; auto using sorted_isect. intro. rewrite In_isect. tauto. Qed.
Lemma uni_comm a b : sorted a -> sorted b -> uni a b = uni b a.
Proof. intros. apply uni_unique; auto using sorted_uni. intro. rewrite In_uni. tauto. Qed.
Lemma isect_nil_r a : isect a [] = [].
Proof. unfold isect. induction a; auto. Qed.
Lemma isect_same a : isect a a = a.
Proof.
  unfold isect. rewrite (filter_ext_in _ (fun _ => true)); [|intros; now apply memb_In].
  induction a; cbn; congruence.
Qed.
Lemma uni_same a : sorted a -> uni a a = a.
Proof. intro. symmetry. apply uni_unique; auto. tauto. Qed.
Lemma zlen_isect_le a b : zlen (isect a b) <= zlen a.
Proof. apply zlen_filter_le. Qed.
Lemma zlen_uni a : forall b, zlen a <= zlen (uni a b) /\ zlen b <= zlen (uni a b).
Proof.
  induction a as [|u a IHa]; [intro b; rewrite uni_nil_l; zl|].
  induction b as [|v b IHb]; [rewrite uni_nil_r; zl|].
  rewrite uni_cons. destruct (u <? v); [|destruct (v <? u)].
  - specialize (IHa (v :: b)). rewrite !zlen_cons in *. lia.
  - rewrite !zlen_cons in *. lia.
  - specialize (IHa b). rewrite !zlen_cons in *. lia.
Qed.

(** every element of the first list is below every one of the second *)
Definition below (a b : list Z) : Prop := forall x y, In x a -> In y b -> x < y.

Lemma isect_app a1 a2 b1 b2 :
  below a1 b2 -> below b1 a2 -> isect (a1 ++ a2) (b1 ++ b2) = isect a1 b1 ++ isect a2 b2.
Proof.
  intros H1 H2. unfold isect. rewrite filter_app. f_equal; apply filter_ext_in; intros x Hx; rewrite memb_app.
  - replace (memb b2 x) with false; [apply orb_false_r|]. symmetry. apply memb_false. intro Hi.
    specialize (H1 x x Hx Hi). lia.
  - replace (memb b1 x) with false; [reflexivity|]. symmetry. apply memb_false. intro Hi.
    specialize (H2 x x Hi Hx). lia.
Qed.
Lemma uni_app a1 a2 b1 b2 :
  sorted (a1 ++ a2) -> sorted (b1 ++ b2) -> below a1 b2 -> below b1 a2 ->
  uni (a1 ++ a2) (b1 ++ b2) = uni a1 b1 ++ uni a2 b2.
Proof.
  intros Sa Sb H1 H2. symmetry. apply sorted_app_inv in Sa as (Sa1 & Sa2 & Sa) .
  apply sorted_app_inv in Sb as (Sb1 & Sb2 & Sb).
  apply uni_unique; auto using sorted_app, sorted_uni.
  - apply sorted_app; auto using sorted_uni. intros x y [Hx|Hx]%In_uni [Hy|Hy]%In_uni; auto.
  - intro x. rewrite !in_app_iff, !In_uni. tauto.
Qed.
Lemma below_nil_l b : below [] b.
Proof. intros x y []. Qed.
Lemma below_nil_r a : below a [].
Proof. intros x y _ []. Qed.

Lemma isect_map base a b : isect (map (addb base) a) (map (addb base) b) = map (addb base) (isect a b).
Proof.
  unfold isect. induction a as [|x a IH]; cbn [map filter]; auto.
  assert (E : memb (map (addb base) b) (addb base x) = memb b x).
  { apply memb_iff. unfold addb. rewrite in_map_iff. split.
    - intros (y & Ey & Hy). now replace x with y by lia.
    - eauto. }
  rewrite E. destruct (memb b x); cbn [map]; rewrite IH; auto.
Qed.
Lemma addb_ltb base x y : (addb base x <? addb base y) = (x <? y).
Proof. unfold addb. destruct (Z.ltb_spec (base + x) (base + y)), (Z.ltb_spec x y); auto; lia. Qed.
Lemma uni_map base a : forall b, uni (map (addb base) a) (map (addb base) b) = map (addb base) (uni a b).
Proof.
  induction a as [|x a IHa]; [intro b; cbn [map]; now rewrite !uni_nil_l|].
  induction b as [|y b IHb]; [reflexivity|].
  cbn [map]. rewrite !uni_cons, !addb_ltb.
  destruct (x <? y); [|destruct (y <? x)]; cbn [map]; f_equal; [apply (IHa (y :: b))|exact IHb|apply IHa].
Qed.

(** ** groups *)
Lemma below_groups k lim g h :
  0 < k -> wf k lim g -> wf k lim h -> (forall a b, In a g -> In b h -> fst a < fst b) ->
  below (ungroup k g) (ungroup k h).
Proof.
  intros Hk Wg Wh H x y Hx Hy.
  apply (In_ungroup_id k lim) in Hx; auto. apply (In_ungroup_id k lim) in Hy; auto.
  apply in_map_iff in Hx as (a & Ea & Ha). apply in_map_iff in Hy as (b & Eb & Hb).
  specialize (H a b Ha Hb). destruct (Z_lt_le_dec x y); auto.
  assert (y / k <= x / k) by (apply Z.div_le_mono; lia). lia.
Qed.
Lemma wf_1 k lim b : wf1 k lim b -> wf k lim [b].
Proof. intro. apply wf_cons. split; auto. split; [apply wf_nil|constructor]. Qed.
Lemma ungroup_1 k b : ungroup k [b] = ungroup1 k b.
Proof. cbn [ungroup flat_map]. apply app_nil_r. Qed.
Lemma below_hd k lim b g h :
  0 < k -> wf k lim (b :: g) -> wf k lim h -> Forall (fun c => fst b < fst c) h ->
  below (ungroup1 k b) (ungroup k h).
Proof.
  intros Hk (W1 & _)%wf_cons Wh F. rewrite <- ungroup_1. apply (below_groups k lim); auto using wf_1.
  intros a c [<-|[]] Hc. rewrite Forall_forall in F. auto.
Qed.
Lemma Forall_lt_trans i j (l : list (Z * list Z)) : i < j -> Forall (fun b => j < fst b) l -> Forall (fun b => i < fst b) l.
Proof. intros H F. eapply Forall_impl; [|exact F]. cbn. lia. Qed.

Section Groups.
Variables k lim : Z.
Hypothesis Hk : 0 < k.
Variables (i j : Z) (va vb : list Z) (A B : list (Z * list Z)).
Hypothesis WA : wf k lim ((i, va) :: A).
Hypothesis WB : wf k lim ((j, vb) :: B).

Lemma isect_groups_lt : i < j ->
  isect (ungroup k ((i, va) :: A)) (ungroup k ((j, vb) :: B)) = isect (ungroup k A) (ungroup k ((j, vb) :: B)).
Proof.
  intro H. rewrite (ungroup_cons k (i, va)).
  pose proof (isect_app (ungroup1 k (i, va)) (ungroup k A) [] (ungroup k ((j, vb) :: B))) as E.
  cbn [app] in E. rewrite E.
  - now rewrite isect_nil_r.
  - apply (below_hd k lim _ A); auto. apply wf_cons in WB as (_ & _ & F). constructor; auto.
    cbn [fst] in *. eapply Forall_lt_trans; eauto.
  - apply below_nil_l.
Qed.
Lemma isect_groups_eq : i = j ->
  isect (ungroup k ((i, va) :: A)) (ungroup k ((j, vb) :: B))
  = ungroup1 k (i, isect va vb) ++ isect (ungroup k A) (ungroup k B).
Proof.
  intro H. subst j. rewrite !ungroup_cons, isect_app.
  - f_equal. apply isect_map.
  - apply (below_hd k lim _ A); auto; apply wf_cons in WB as (_ & W & F); auto.
  - apply (below_hd k lim _ B); auto; apply wf_cons in WA as (_ & W & F); auto.
Qed.
Lemma uni_groups_lt : i < j ->
  uni (ungroup k ((i, va) :: A)) (ungroup k ((j, vb) :: B))
  = ungroup1 k (i, va) ++ uni (ungroup k A) (ungroup k ((j, vb) :: B)).
Proof.
  intro H. rewrite (ungroup_cons k (i, va)).
  pose proof (uni_app (ungroup1 k (i, va)) (ungroup k A) [] (ungroup k ((j, vb) :: B))) as E.
  cbn [app] in E. rewrite E.
  - now rewrite uni_nil_r.
  - rewrite <- ungroup_cons. eapply sorted_ungroup; eauto.
  - eapply sorted_ungroup; eauto.
  - apply (below_hd k lim _ A); auto. apply wf_cons in WB as (_ & _ & F). constructor; auto.
    cbn [fst] in *. eapply Forall_lt_trans; eauto.
  - apply below_nil_l.
Qed.
Lemma uni_groups_eq : i = j ->
  uni (ungroup k ((i, va) :: A)) (ungroup k ((j, vb) :: B))
  = ungroup1 k (i, uni va vb) ++ uni (ungroup k A) (ungroup k B).
Proof.
  intro H. subst j. pose proof (sorted_ungroup k lim _ Hk WA) as SA. pose proof (sorted_ungroup k lim _ Hk WB) as SB.
  rewrite !ungroup_cons in *. rewrite uni_app; auto.
  - f_equal. apply uni_map.
  - apply (below_hd k lim _ A); auto; apply wf_cons in WB as (_ & W & F); auto.
  - apply (below_hd k lim _ B); auto; apply wf_cons in WA as (_ & W & F); auto.
Qed.
End Groups.

(** ** bitmaps *)
Lemma bm_and l r n f g :
  bm_at l n f -> bm_at r n g ->
  bm_at (fun i => let! a := l i in let! b := r i in Ok (Z.land a b)) n (fun x => f x && g x).
Proof.
  intros Hl Hr i Hi. destruct (Hl i Hi) as (o & -> & Ho & To). destruct (Hr i Hi) as (w & -> & Hw & Tw).
  cbn [bind]. exists (Z.land o w). split; auto. split.
  - apply w64_of_bits; [apply Z.land_nonneg; left; apply Ho|].
    intros j Hj. rewrite Z.land_spec, (w64_testbit_high o) by auto. reflexivity.
  - intros j Hj. now rewrite Z.land_spec, To, Tw.
Qed.
Lemma bm_or l r n f g :
  bm_at l n f -> bm_at r n g ->
  bm_at (fun i => let! a := l i in let! b := r i in Ok (Z.lor a b)) n (fun x => f x || g x).
Proof.
  intros Hl Hr i Hi. destruct (Hl i Hi) as (o & -> & Ho & To). destruct (Hr i Hi) as (w & -> & Hw & Tw).
  cbn [bind]. exists (Z.lor o w). split; auto. split.
  - apply w64_of_bits; [apply Z.lor_nonneg; split; [apply Ho|apply Hw]|].
    intros j Hj. rewrite Z.lor_spec, !w64_testbit_high by auto. reflexivity.
  - intros j Hj. now rewrite Z.lor_spec, To, Tw.
Qed.

(** listing the bits of a bitmap *)
Lemma bitmap_list_ok word (n : nat) vs base out pos :
  bm_at word (Z.of_nat n) (memb vs) -> sorted vs -> Forall (fun x => 0 <= x < 64 * Z.of_nat n) vs ->
  64 * Z.of_nat n <= 65536 -> 0 <= base -> base + 64 * Z.of_nat n <= 4294967296 ->
  0 <= pos -> pos + zlen vs <= zlen out ->
  exists out', bitmap_loop n word 0 base out pos 0 = Ok (out', zlen vs)
    /\ wrote 0 out pos (map (addb base) vs) out'.
Proof.
  intros Hb Hs Hr Hn Hb0 Hb1 Hp Ho.
  assert (E : filter (memb vs) (zrange 0 (64 * n)) = vs).
  { apply filter_memb; auto. eapply Forall_impl; [|exact Hr]. cbn beta. intros; lia. }
  destruct (bitmap_loop_0 n word (memb vs) base out pos) as (out' & E1 & W); auto; [rewrite E; auto|].
  rewrite E in *. exists out'. split; auto.
  destruct (map_u32_add base vs (64 * Z.of_nat n)) as [E2 _]; auto. now rewrite <- E2.
Qed.
Lemma Forall_isect (P : Z -> Prop) a b : Forall P a -> Forall P (isect a b).
Proof. intro H. rewrite Forall_forall in *. intros x [Hx _]%In_isect. auto. Qed.
Lemma Forall_uni (P : Z -> Prop) a b : Forall P a -> Forall P b -> Forall P (uni a b).
Proof. intros H1 H2. rewrite Forall_forall in *. intros x [Hx|Hx]%In_uni; auto. Qed.
Lemma memb_isect a b x : memb (isect a b) x = memb a x && memb b x.
Proof.
  destruct (memb (isect a b) x) eqn:E.
  - apply memb_In, In_isect in E as [E1 E2]. apply memb_In in E1, E2. now rewrite E1, E2.
  - apply memb_false in E. rewrite In_isect in E. destruct (memb a x) eqn:E1, (memb b x) eqn:E2; auto.
    apply memb_In in E1, E2. tauto.
Qed.
Lemma memb_uni a b x : memb (uni a b) x = memb a x || memb b x.
Proof.
  destruct (memb (uni a b) x) eqn:E.
  - apply memb_In, In_uni in E as [E|E]; apply memb_In in E; rewrite E; auto using orb_true_r.
  - apply memb_false in E. rewrite In_uni in E. destruct (memb a x) eqn:E1, (memb b x) eqn:E2; auto.
    + apply memb_In in E1. tauto.
    + apply memb_In in E1. tauto.
    + apply memb_In in E2. tauto.
Qed.

Section Bitmaps.
Variables (l r : Z -> res Z) (n : nat) (a b : list Z) (base : Z) (out : list Z) (pos : Z).
Hypothesis Ha : bm_at l (Z.of_nat n) (memb a).
Hypothesis Hb : bm_at r (Z.of_nat n) (memb b).
Hypothesis Sa : sorted a.
Hypothesis Sb : sorted b.
Hypothesis Ra : Forall (fun x => 0 <= x < 64 * Z.of_nat n) a.
Hypothesis Rb : Forall (fun x => 0 <= x < 64 * Z.of_nat n) b.
Hypothesis Hn : 64 * Z.of_nat n <= 65536.
Hypothesis Hb0 : 0 <= base.
Hypothesis Hb1 : base + 64 * Z.of_nat n <= 4294967296.
Hypothesis Hp : 0 <= pos.

Lemma and_bitmaps_ok : pos + zlen (isect a b) <= zlen out ->
  exists out', and_bitmaps l r (Z.of_nat n) base out pos = Ok (out', zlen (isect a b))
    /\ wrote 0 out pos (map (addb base) (isect a b)) out'.
Proof.
  intro Ho. unfold and_bitmaps. rewrite Nat2Z.id.
  apply bitmap_list_ok; auto using sorted_isect, Forall_isect.
  eapply bm_at_ext; [apply bm_and; eauto|]. intros x _. symmetry. apply memb_isect.
Qed.
Lemma or_bitmaps_ok : pos + zlen (uni a b) <= zlen out ->
  exists out', or_bitmaps l r (Z.of_nat n) base out pos = Ok (out', zlen (uni a b))
    /\ wrote 0 out pos (map (addb base) (uni a b)) out'.
Proof.
  intro Ho. unfold or_bitmaps. rewrite Nat2Z.id.
  apply bitmap_list_ok; auto using sorted_uni, Forall_uni.
  eapply bm_at_ext; [apply bm_or; eauto|]. intros x _. symmetry. apply memb_uni.
Qed.
End Bitmaps.
