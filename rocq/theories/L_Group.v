(** Grouping a sorted list by quotient: chunks (k = 65536) and blocks (k = 256). *)
From Verif Require Import Base Spec Lib.

Fixpoint group (k : Z) (l : list Z) : list (Z * list Z) :=
  match l with
  | [] => []
  | v :: r =>
      match group k r with
      | (id, vs) :: g =>
          if v / k =? id then (id, v mod k :: vs) :: g
          else (v / k, [v mod k]) :: (id, vs) :: g
      | [] => [(v / k, [v mod k])]
      end
  end.

Definition ungroup1 (k : Z) (b : Z * list Z) : list Z := map (fun x => fst b * k + x) (snd b).
Definition ungroup (k : Z) (g : list (Z * list Z)) : list Z := flat_map (ungroup1 k) g.

(** one well-formed part: identifier below lim, non-empty increasing residues below k *)
Definition wf1 (k lim : Z) (b : Z * list Z) : Prop :=
  0 <= fst b < lim /\ snd b <> [] /\ sorted (snd b) /\ Forall (fun x => 0 <= x < k) (snd b).
Definition wf (k lim : Z) (g : list (Z * list Z)) : Prop :=
  sorted (map fst g) /\ Forall (wf1 k lim) g.

Lemma wf_nil k lim : wf k lim [].
Proof. split; [apply sorted_nil|constructor]. Qed.
Lemma wf_cons k lim b g :
  wf k lim (b :: g) <-> wf1 k lim b /\ wf k lim g /\ Forall (fun b' => fst b < fst b') g.
Proof.
  unfold wf. cbn [map]. split.
  - intros [[H1 H2]%sorted_inv H3]. inversion H3; subst. repeat split; auto; try apply H4.
    rewrite Forall_map in H2. exact H2.
  - intros (H1 & [H2 H3] & H4). split.
    + constructor; auto. now rewrite Forall_map.
    + constructor; auto.
Qed.
Lemma wf_app k lim g h : wf k lim (g ++ h) -> wf k lim g /\ wf k lim h.
Proof.
  unfold wf. rewrite map_app. intros [(H1 & H2 & H3)%sorted_app_inv H4].
  apply Forall_app in H4. tauto.
Qed.
Lemma wf_app_lt k lim g h a b : wf k lim (g ++ h) -> In a g -> In b h -> fst a < fst b.
Proof.
  unfold wf. rewrite map_app. intros [(H1 & H2 & H3)%sorted_app_inv H4] Ha Hb.
  apply H3; now apply in_map.
Qed.

Lemma ungroup_cons k b g : ungroup k (b :: g) = ungroup1 k b ++ ungroup k g.
Proof. reflexivity. Qed.
Lemma ungroup_app k g h : ungroup k (g ++ h) = ungroup k g ++ ungroup k h.
Proof. apply flat_map_app. Qed.
Lemma zlen_ungroup1 k b : zlen (ungroup1 k b) = zlen (snd b).
Proof. apply zlen_map. Qed.

Lemma In_ungroup1 k lim b x :
  0 < k -> wf1 k lim b -> (In x (ungroup1 k b) <-> fst b = x / k /\ In (x mod k) (snd b)).
Proof.
  intros Hk (H1 & H2 & H3 & H4). unfold ungroup1. rewrite in_map_iff.
  rewrite Forall_forall in H4. split.
  - intros (y & <- & Hy). specialize (H4 y Hy).
    rewrite Z.div_add_l, Z.div_small by lia.
    rewrite (Z.add_comm (fst b * k) y), Z_mod_plus_full, Z.mod_small by lia. split; [lia|auto].
  - intros [E Hy]. exists (x mod k). split; auto. rewrite E.
    pose proof (Z.div_mod x k). lia.
Qed.
Lemma In_ungroup k lim g x :
  0 < k -> wf k lim g -> (In x (ungroup k g) <-> exists vs, In (x / k, vs) g /\ In (x mod k) vs).
Proof.
  intros Hk [_ H]. rewrite Forall_forall in H. unfold ungroup. rewrite in_flat_map. split.
  - intros ([id vs] & Hb & Hx). apply (In_ungroup1 k lim) in Hx as [E Hx]; auto.
    cbn in *. subst id. eauto.
  - intros (vs & Hb & Hx). exists (x / k, vs). split; auto.
    apply (In_ungroup1 k lim); auto.
Qed.
Lemma In_ungroup_id k lim g x : 0 < k -> wf k lim g -> In x (ungroup k g) -> In (x / k) (map fst g).
Proof.
  intros Hk Hw Hx. apply (In_ungroup k lim) in Hx as (vs & Hx & _); auto.
  now apply (in_map fst) in Hx.
Qed.

Lemma sorted_ungroup1 k lim b : 0 < k -> wf1 k lim b -> sorted (ungroup1 k b).
Proof. intros Hk (H1 & H2 & H3 & H4). apply sorted_map; auto. intros; lia. Qed.
Lemma sorted_ungroup k lim g : 0 < k -> wf k lim g -> sorted (ungroup k g).
Proof.
  intro Hk. induction g as [|b g IH]; intro H; [apply sorted_nil|].
  apply wf_cons in H as (H1 & H2 & H3). rewrite ungroup_cons. apply sorted_app; auto.
  - eapply sorted_ungroup1; eauto.
  - intros x y Hx Hy. apply (In_ungroup1 k lim) in Hx as [E _]; auto.
    apply (In_ungroup_id k lim) in Hy; auto. apply in_map_iff in Hy as (b' & E' & Hb').
    rewrite Forall_forall in H3. specialize (H3 b' Hb').
    assert (x / k < y / k) by lia.
    destruct (Z_lt_le_dec x y); auto. pose proof (Z.div_le_mono y x k). lia.
Qed.
Lemma ungroup_range k lim g :
  0 < k -> wf k lim g -> Forall (fun v => 0 <= v < lim * k) (ungroup k g).
Proof.
  intros Hk Hw. apply Forall_forall. intros x Hx.
  apply (In_ungroup k lim) in Hx as (vs & Hx & _); auto.
  destruct Hw as [_ Hw]. rewrite Forall_forall in Hw. apply Hw in Hx as [Hx _].
  cbn [fst] in Hx. pose proof (Z.div_mod x k). pose proof (Z.mod_pos_bound x k). nia.
Qed.

Lemma ungroup_group k l : 0 < k -> ungroup k (group k l) = l.
Proof.
  intro Hk. induction l as [|v l IH]; auto. cbn [group].
  destruct (group k l) as [|[id vs] g].
  - cbn in IH. subst l. cbn. f_equal. pose proof (Z.div_mod v k). lia.
  - destruct (Z.eqb_spec (v / k) id) as [<-|].
    + rewrite ungroup_cons in *. cbn [ungroup1 fst snd map] in *. cbn [app]. f_equal.
      * pose proof (Z.div_mod v k). lia.
      * exact IH.
    + rewrite ungroup_cons. cbn [ungroup1 fst snd map app]. f_equal.
      * pose proof (Z.div_mod v k). lia.
      * exact IH.
Qed.

(** the first group of a list is split off *)
Lemma group_split k i p q :
  p <> [] -> Forall (fun v => v / k = i) p -> Forall (fun v => v / k <> i) q ->
  group k (p ++ q) = (i, map (fun v => v mod k) p) :: group k q.
Proof.
  intros Hp H Hq. induction p as [|v p IH]; [easy|].
  inversion H as [|? ? Hv H']; subst. cbn [app group].
  destruct p as [|v' p].
  - cbn [app map]. destruct q as [|w q]; [reflexivity|].
    inversion Hq as [|? ? Hw Hq']; subst. cbn [group].
    destruct (group k q) as [|[id vs] g].
    + destruct (Z.eqb_spec (v / k) (w / k)); [congruence|reflexivity].
    + destruct (Z.eqb_spec (w / k) id).
      * destruct (Z.eqb_spec (v / k) id); [congruence|reflexivity].
      * destruct (Z.eqb_spec (v / k) (w / k)); [congruence|reflexivity].
  - rewrite IH by (auto; discriminate). rewrite Z.eqb_refl. reflexivity.
Qed.

Lemma group_head k v l : exists vs g, group k (v :: l) = (v / k, vs) :: g.
Proof.
  cbn [group]. destruct (group k l) as [|[id vs] g]; eauto.
  destruct (Z.eqb_spec (v / k) id) as [<-|]; eauto.
Qed.

Lemma group_wf k lim l :
  0 < k -> sorted l -> Forall (fun v => 0 <= v < lim * k) l -> wf k lim (group k l).
Proof.
  intro Hk. induction l as [|v l IH]; intros Hs Hr; [apply wf_nil|].
  apply sorted_inv in Hs as [Hs Hv]. inversion Hr as [|? ? Hv' Hr']; subst.
  specialize (IH Hs Hr').
  assert (B : 0 <= v / k < lim).
  { split; [apply Z.div_pos; lia|]. apply Z.div_lt_upper_bound; lia. }
  assert (M : 0 <= v mod k < k) by (apply Z.mod_pos_bound; lia).
  assert (W1 : wf1 k lim (v / k, [v mod k])).
  { repeat split; cbn; try lia; try easy; auto. constructor; constructor. }
  cbn [group]. pose proof (ungroup_group k l Hk) as U.
  destruct (group k l) as [|[id vs] g].
  - apply wf_cons. auto using wf_nil.
  - apply wf_cons in IH as (H1 & H2 & H3).
    assert (G : forall x, In x vs -> v < id * k + x).
    { intros x Hx. rewrite Forall_forall in Hv. apply Hv. rewrite <- U.
      rewrite ungroup_cons. apply in_or_app. left. apply in_map_iff. exists x. auto. }
    destruct H1 as (A1 & A2 & A3 & A4). cbn [fst snd] in *.
    destruct (Z.eqb_spec (v / k) id) as [E|E].
    + apply wf_cons. repeat split; auto; try apply H2; cbn [fst snd]; try lia; try easy.
      * constructor; auto. apply Forall_forall. intros x Hx. specialize (G x Hx).
        pose proof (Z.div_mod v k). nia.
      * constructor; auto.
    + apply wf_cons. split; auto. split.
      * apply wf_cons. split; [|split]; auto. repeat split; cbn [fst snd]; auto; lia.
      * assert (L : v / k < id).
        { destruct vs as [|x vs]; [easy|]. inversion A4; subst.
          specialize (G x (or_introl eq_refl)).
          pose proof (Z.div_mod v k). nia. }
        constructor; auto. cbn [fst] in *.
        eapply Forall_impl; [|exact H3]. cbn. intros; lia.
Qed.

Lemma group_nil k l : group k l = [] -> l = [].
Proof.
  destruct l as [|v l]; auto. destruct (group_head k v l) as (vs & g & E). congruence.
Qed.

(** a full range *)
Lemma full_zrange n l :
  sorted l -> Forall (fun x => 0 <= x < Z.of_nat n) l -> zlen l = Z.of_nat n -> l = zrange 0 n.
Proof.
  intros Hs Hr Hl. apply sorted_ext; auto using sorted_zrange.
  assert (I : incl l (zrange 0 n)).
  { intros x Hx. rewrite Forall_forall in Hr. apply In_zrange. specialize (Hr x Hx). lia. }
  intro x; split; [apply I|].
  apply NoDup_length_incl; auto using sorted_NoDup.
  rewrite (length_zlen _ l), (length_zlen _ (zrange 0 n)), zlen_zrange. lia.
Qed.
Lemma sorted_zlen_le n l :
  sorted l -> Forall (fun x => 0 <= x < Z.of_nat n) l -> zlen l <= Z.of_nat n.
Proof.
  intros Hs Hr.
  assert (I : incl l (zrange 0 n)).
  { intros x Hx. rewrite Forall_forall in Hr. apply In_zrange. specialize (Hr x Hx). lia. }
  pose proof (NoDup_incl_length (sorted_NoDup _ Hs) I) as H.
  rewrite (length_zlen _ (zrange 0 n)), zlen_zrange in H. unfold zlen. lia.
Qed.
Lemma wf_zlen_le k n g : wf k (Z.of_nat n) g -> zlen g <= Z.of_nat n.
Proof.
  intros [H1 H2]. rewrite <- (zlen_map _ _ fst). apply sorted_zlen_le; auto.
  rewrite Forall_map. eapply Forall_impl; [|exact H2]. intros a Ha. apply Ha.
Qed.
Lemma wf1_zlen k lim b : 0 <= k -> wf1 k lim b -> 0 < zlen (snd b) <= k.
Proof.
  intros Hk (_ & H1 & H2 & H3). split.
  - destruct (snd b); [easy|zl].
  - rewrite <- (Z2Nat.id k) by auto. apply sorted_zlen_le; auto.
    now rewrite Z2Nat.id by auto.
Qed.
