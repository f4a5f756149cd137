(** Threads whose calls have no buffer in common. *)
From Verif Require Import Base Hw Spec Format Lib L_Bits L_Group Layout M_Util M_Seq M_Decode M_Union M_Many M_Calls
  M_Conc M_Threads P_Seq P_Decode P_Format P_Sets P_Room P_Scratch P_Conc P_Threads1.
From Coq Require Import Lia.

(** ** which words a program can access *)
Fixpoint uses {A} (P : Z -> Prop) (p : prog A) : Prop :=
  match p with
  | Ret _ => True
  | Get i k => P i /\ forall v, uses P (k v)
  | Put i _ k => P i /\ uses P k
  end.
Lemma uses_impl A (P Q : Z -> Prop) (p : prog A) : (forall i, P i -> Q i) -> uses P p -> uses Q p.
Proof.
  intro H. induction p as [r|i k IH|i v k IH]; cbn [uses]; auto.
  - intros [H1 H2]. auto.
  - intros [H1 H2]. auto.
Qed.
Lemma uses_if A (N : Prop) (P : Z -> Prop) (p : prog A) : (N -> uses P p) -> uses (fun i => N -> P i) p.
Proof.
  induction p as [r|i k IH|i v k IH]; cbn [uses]; auto; intro H.
  - split; [intro n; apply (H n)|]. intro v. apply IH. intro n. apply (H n).
  - split; [intro n; apply (H n)|]. apply IH. intro n. apply (H n).
Qed.
Lemma uses_and A (P Q : Z -> Prop) (p : prog A) : uses P p -> uses Q p -> uses (fun i => P i /\ Q i) p.
Proof.
  induction p as [r|i k IH|i v k IH]; cbn [uses]; auto.
  - intros [H1 H2] [H3 H4]. auto.
  - intros [H1 H2] [H3 H4]. auto.
Qed.
Lemma uses_bind A B P (p : prog A) (f : A -> prog B) :
  uses P p -> (forall a, uses P (f a)) -> uses P (pbind p f).
Proof.
  intros H F. induction p as [r|i k IH|i v k IH]; cbn [uses pbind] in *.
  - destruct r; cbn [uses]; auto.
  - destruct H. auto.
  - destruct H. auto.
Qed.
Lemma uses_ret A B P (r : res A) (f : A -> prog B) : (forall a, r = Ok a -> uses P (f a)) -> uses P (pbind (Ret r) f).
Proof. intro H. destruct r; cbn [pbind uses]; auto. Qed.
Lemma uses_within A lo n (p : prog A) : uses (fun i => lo <= i < lo + n) (within lo n p).
Proof.
  induction p as [r|i k IH|i v k IH]; cbn [within]; [exact I| |];
    destruct ((0 <=? i) && (i <? n)) eqn:E; cbn [uses]; auto;
    apply andb_true_iff in E as [E1%Z.leb_le E2%Z.ltb_lt]; split; auto; lia.
Qed.
Lemma uses_shift A P lo n (p : prog A) : uses P p -> uses (fun i => P (i - lo)) (within lo n p).
Proof.
  induction p as [r|i k IH|i v k IH]; cbn [within uses]; auto; intros [H1 H2];
    destruct ((0 <=? i) && (i <? n)); cbn [uses]; auto;
    (split; [replace (lo + i - lo) with i by lia; exact H1|]); auto.
Qed.
Lemma uses_quiet A P (p : prog A) : quiet p -> uses P p.
Proof. intros [r ->]. exact I. Qed.

Lemma vset_wrote x i v y : vset x i v = Ok y -> wrote 0 x i [v] y.
Proof.
  intro E. destruct ((0 <=? i) && (i <? zlen x)) eqn:B; [|rewrite vset_out in E by exact B; discriminate].
  apply andb_true_iff in B as [B1%Z.leb_le B2%Z.ltb_lt]. destruct (vset_ok x i v ltac:(lia)) as (y' & E' & W).
  rewrite E in E'. injection E' as <-. exact W.
Qed.
Lemma vset_same x i v y : vset x i v = Ok y -> znth y i = Some v.
Proof.
  intro E. apply vset_wrote in E as (_ & W & _). specialize (W 0 ltac:(cbn; lia)).
  rewrite Z.add_0_r in W. rewrite W. reflexivity.
Qed.
Lemma vset_other x i v y j : vset x i v = Ok y -> j <> i -> znth y j = znth x j.
Proof.
  intros E N. apply vset_wrote in E as (_ & _ & W). apply W. change (zlen [v]) with 1. lia.
Qed.
Lemma uses_agree A P (p : prog A) : uses P p -> forall x y, zlen x = zlen y ->
  (forall i, P i -> znth x i = znth y i) -> outcome x p = outcome y p.
Proof.
  unfold outcome. induction p as [r|i k IH|i v k IH]; cbn [uses]; intros H x y L E.
  - destruct r; reflexivity.
  - destruct H as [H1 H2]. rewrite !alone_get. unfold vget. rewrite (E i H1).
    destruct (znth y i); [cbn [bind]|reflexivity]. apply IH; auto.
  - destruct H as [H1 H2]. rewrite !alone_put.
    destruct (vset x i v) as [x'| | | |] eqn:Ex; destruct (vset y i v) as [y'| | | |] eqn:Ey;
      try (revert Ex Ey; unfold vset, store; rewrite L; destruct (_ && _); discriminate);
      try reflexivity; try (revert Ex; unfold vset, store; destruct (_ && _); discriminate).
    cbn [bind]. apply IH; auto.
    + apply vset_len in Ex, Ey. congruence.
    + intros j Hj. destruct (Z.eq_dec j i) as [->|N].
      * rewrite (vset_same _ _ _ _ Ex), (vset_same _ _ _ _ Ey). reflexivity.
      * rewrite (vset_other _ _ _ _ _ Ex N), (vset_other _ _ _ _ _ Ey N). auto.
Qed.

(** ** threads whose footprints are disjoint *)
Lemma uses_step A P x (p : prog A) : uses P p -> uses P (snd (step x p)).
Proof.
  destruct p as [r|i k|i v k]; cbn [step uses]; auto; intros [H1 H2].
  - destruct (vget x i); cbn [snd uses]; auto.
  - destruct (vset x i v); cbn [snd uses]; auto.
Qed.
Lemma step_frame A P x (p : prog A) : uses P p ->
  zlen (fst (step x p)) = zlen x /\ forall j, ~ P j -> znth (fst (step x p)) j = znth x j.
Proof.
  destruct p as [r|i k|i v k]; cbn [step uses]; auto; intros [H1 H2].
  - destruct (vget x i); cbn [fst]; auto.
  - destruct (vset x i v) eqn:E; cbn [fst]; auto. split; [now apply vset_len in E|].
    intros j N. eapply vset_other; eauto. intros ->. auto.
Qed.
Lemma disjoint_threads A (F : nat -> Z -> Prop) : (forall i j k, i <> j -> F i k -> F j k -> False) ->
  forall sched x (ts : list (prog A)) x' ts',
  (forall i p, nth_error ts i = Some p -> uses (F i) p) ->
  interleave x ts sched = (x', ts') ->
  forall j p p', nth_error ts j = Some p -> nth_error ts' j = Some p' -> outcome x' p' = outcome x p.
Proof.
  intro D. induction sched as [|i sched IH]; intros x ts x' ts' U E j p p' Hp Hp'; cbn [interleave] in E.
  - injection E as <- <-. congruence.
  - destruct (nth_error ts i) as [q|] eqn:Q.
    + destruct (step_nth_one A x ts i q Q) as (S1 & S2 & S3).
      destruct (step_nth x ts i) as [x1 ts1]. cbn [fst snd] in *.
      assert (Hj : exists p1, nth_error ts1 j = Some p1 /\ outcome x1 p1 = outcome x p).
      { destruct (Nat.eq_dec j i) as [->|N].
        - exists (snd (step x q)). split; auto. rewrite S1. rewrite Q in Hp. injection Hp as <-.
          unfold outcome. rewrite step_alone. reflexivity.
        - exists p. split; [rewrite S3; auto|]. destruct (step_frame A (F i) x q (U _ _ Q)) as [L X].
          apply (uses_agree A (F j)); auto; rewrite S1; auto.
          intros k Hk. apply X. intro Hi. exact (D i j k ltac:(auto) Hi Hk). }
      destruct Hj as (p1 & Hp1 & <-). apply (IH x1 ts1 x' ts') with (j := j); auto.
      intros k r Hr. destruct (Nat.eq_dec k i) as [->|N].
      * rewrite S2 in Hr. injection Hr as <-. apply uses_step. auto.
      * rewrite S3 in Hr by auto. auto.
    + rewrite step_nth_quiet in E by congruence. eapply IH; eauto.
Qed.

(** ** union.hpp: when the vector, and when the array, is used *)
Definition arr (i : Z) : Prop := 0 <= i < 4.
Definition vec (i : Z) : Prop := 4 <= i < 1028.
Lemma ub_uses (P : Z -> Prop) dbg mem dl dr cl cr b out pos : (forall i, arr i -> P i) ->
  uses P (union_blocks_c dbg mem dl dr cl cr b out pos).
Proof.
  intro H. unfold union_blocks_c. cbv zeta.
  destruct (_ =? _); [exact I|]. destruct (_ =? _).
  { apply (uses_impl _ (fun i => 0 <= i < 0 + 4)); [exact H|]. apply uses_within. }
  destruct (_ =? _).
  { apply (uses_impl _ (fun i => 0 <= i < 0 + 4)); [exact H|]. apply uses_within. }
  destruct (_ =? _); exact I.
Qed.
Lemma suc_loop_uses (P : Z -> Prop) dbg mem el er base : (forall i, arr i -> P i) -> forall fuel l r dl dr out pos,
  uses P (ss_union_chunk_loop_c fuel dbg mem l r el er dl dr base out pos).
Proof.
  intro H. induction fuel as [|f IH]; intros l r dl dr out pos; cbn [ss_union_chunk_loop_c]; [exact I|].
  apply uses_ret. intros a _. apply uses_ret. intros b _. destruct (a <? b).
  - apply uses_ret. intros [[[l1 d1] o1] p1] _. destruct (l1 =? el); [exact I|apply IH].
  - destruct (b <? a).
    + apply uses_ret. intros [[[l1 d1] o1] p1] _. destruct (l1 =? er); [exact I|apply IH].
    + apply uses_ret. intros c1 _. apply uses_ret. intros c2 _. apply uses_bind; [now apply ub_uses|].
      intros [o n]. cbv zeta. destruct (_ || _); [exact I|apply IH].
Qed.
Lemma suc_uses (P : Z -> Prop) dbg mem l r bl br base out pos : (forall i, arr i -> P i) ->
  uses P (ss_union_chunk_c dbg mem l r bl br base out pos).
Proof.
  intro H. unfold ss_union_chunk_c. apply uses_ret. intros _ _. apply uses_ret. intros _ _. cbv zeta.
  apply uses_bind; [now apply suc_loop_uses|]. intros [[[[[l1 r1] d1] d2] o] p].
  apply uses_ret. intros [o1 p1] _. apply uses_ret. intros [o2 p2] _. exact I.
Qed.
(** no block of the two lists has two representations *)
Definition no_mixb (A B : list (Z * list Z)) : Prop := forall i a b, In (i, a) A -> In (i, b) B ->
  block_type (zlen a) = block_type (zlen b).
Lemma ub_quiet dbg mem dl dr cl cr b out pos : block_type cl = block_type cr ->
  quiet (union_blocks_c dbg mem dl dr cl cr b out pos).
Proof.
  intro H. unfold union_blocks_c. rewrite H. cbv zeta. unfold block_type. destruct (cr <? 31).
  - rewrite Z.eqb_refl. eexists; reflexivity.
  - replace (block_pair t_dense t_dense =? block_pair t_sparse t_sparse) with false by reflexivity.
    replace (block_pair t_dense t_dense =? block_pair t_sparse t_dense) with false by reflexivity.
    replace (block_pair t_dense t_dense =? block_pair t_dense t_sparse) with false by reflexivity.
    rewrite Z.eqb_refl. eexists; reflexivity.
Qed.
Lemma suc_loop_quiet dbg mem el er base : forall fuel A B l r dl dr out pos,
  blocks_at mem l dl A -> blocks_at mem r dr B -> el = l + 2 * zlen A -> er = r + 2 * zlen B ->
  A <> [] -> B <> [] -> no_mixb A B ->
  quiet (ss_union_chunk_loop_c fuel dbg mem l r el er dl dr base out pos).
Proof.
  induction fuel as [|f IH]; intros A B l r dl dr out pos BA BB El Er NA NB M; cbn [ss_union_chunk_loop_c]; [eexists; reflexivity|].
  destruct A as [|[i va] A]; [congruence|]. destruct B as [|[j vb] B]; [congruence|].
  pose proof (blocks_at_cons _ _ _ _ _ _ BA) as (Wi & Ei & Eci & Di & BA2 & Fi).
  pose proof (blocks_at_cons _ _ _ _ _ _ BB) as (Wj & Ej & Ecj & Dj & BB2 & Fj).
  rewrite zlen_cons in El, Er. rewrite Ei, Ej. cbn [pbind].
  assert (DL : forall ptr d id (vs : list Z) out pos l1 d1 o1 p1, rd8 mem ptr = Ok id -> rd8 mem (ptr + 1) = Ok (zlen vs - 1) ->
    DECODE mem ptr d base out pos = Ok (l1, d1, o1, p1) -> l1 = ptr + 2 /\ d1 = d + bytes_by_cardinality (zlen vs)).
  { clear. intros ptr d id vs out pos l1 d1 o1 p1 E1 E2 E. unfold DECODE in E. rewrite E1 in E. cbn [bind] in E.
    rewrite E2 in E. cbn [bind] in E. replace (zlen vs - 1 + 1) with (zlen vs) in E by lia.
    cbv zeta in E. apply bind_ok in E as ([o n] & _ & E). injection E as <- <- _ _. auto. }
  destruct (Z.ltb_spec i j).
  - apply quiet_bind. intros [[[l1 d1] o1] p1] E. destruct (DL _ _ _ _ _ _ _ _ _ _ Ei Eci E) as [-> ->].
    destruct (Z.eqb_spec (l + 2) el) as [E1|E1]; [eexists; reflexivity|].
    apply (IH A ((j, vb) :: B)); auto; try lia; try (rewrite zlen_cons; lia).
    + intros ->. rewrite zlen_nil in El. lia.
    + intros k a b Ha Hb. apply (M k a b); auto. now right.
  - destruct (Z.ltb_spec j i).
    + apply quiet_bind. intros [[[l1 d1] o1] p1] E. destruct (DL _ _ _ _ _ _ _ _ _ _ Ej Ecj E) as [-> ->].
      destruct (Z.eqb_spec (r + 2) er) as [E1|E1]; [eexists; reflexivity|].
      apply (IH ((i, va) :: A) B); auto; try lia; try (rewrite zlen_cons; lia).
      * intros ->. rewrite zlen_nil in Er. lia.
      * intros k a b Ha Hb. apply (M k a b); auto. now right.
    + assert (i = j) as <- by lia. rewrite Eci, Ecj. cbn [pbind].
      replace (zlen va - 1 + 1) with (zlen va) by lia. replace (zlen vb - 1 + 1) with (zlen vb) by lia.
      apply quiet_pbind; [apply ub_quiet; apply (M i va vb); now left|]. intros [o n]. cbv zeta.
      destruct ((l + 2 =? el) || (r + 2 =? er)) eqn:E1; [eexists; reflexivity|].
      apply orb_false_iff in E1 as [E1%Z.eqb_neq E2%Z.eqb_neq].
      apply (IH A B); auto; try lia.
      * intros ->. rewrite zlen_nil in El. lia.
      * intros ->. rewrite zlen_nil in Er. lia.
      * intros k a b Ha Hb. apply (M k a b); now right.
Qed.
Lemma suc_quiet dbg mem l r A B base out pos :
  blocks_at mem l (l + 2 * zlen A) A -> blocks_at mem r (r + 2 * zlen B) B -> A <> [] -> B <> [] -> no_mixb A B ->
  quiet (ss_union_chunk_c dbg mem l r (zlen A) (zlen B) base out pos).
Proof.
  intros BA BB NA NB M. unfold ss_union_chunk_c. apply quiet_bind. intros _ _. apply quiet_bind. intros _ _. cbv zeta.
  replace (zlen A * 2) with (2 * zlen A) by lia. replace (zlen B * 2) with (2 * zlen B) by lia.
  apply quiet_pbind; [eapply suc_loop_quiet; eauto|]. intros [[[[[l1 r1] d1] d2] o] p].
  apply quiet_bind. intros [o1 p1] _. apply quiet_bind. intros [o2 p2] _. eexists; reflexivity.
Qed.
Definition no_mixbs (A B : list (Z * list Z)) : Prop := forall h a b, In (h, a) A -> In (h, b) B ->
  kind_of a = KSparse -> kind_of b = KSparse -> no_mixb (blocks_of a) (blocks_of b).
Lemma no_mixb_sym A B : no_mixb A B -> no_mixb B A.
Proof. intros H i a b Ha Hb. symmetry. eauto. Qed.
Ltac pairs := repeat match goal with |- context [chunk_pair ?x ?y =? chunk_pair ?z ?w] =>
      let v := eval vm_compute in (chunk_pair x y =? chunk_pair z w) in
      replace (chunk_pair x y =? chunk_pair z w) with v by reflexivity end; cbv iota.
Lemma uc_uses P dbg mem itl itr il ir a b A B base out pos :
  it_view 31 mem itl ((il, a) :: A) -> it_view 31 mem itr ((ir, b) :: B) ->
  (forall i, vec i -> ~ (kind_of a = KSparse /\ kind_of b = KDense) /\ ~ (kind_of a = KDense /\ kind_of b = KSparse) \/ P i) ->
  (forall i, arr i -> P i) \/ (kind_of a = KSparse -> kind_of b = KSparse -> no_mixb (blocks_of a) (blocks_of b)) ->
  uses P (union_chunks_c dbg mem itl itr base out pos).
Proof.
  intros Va Vb HV HA. unfold union_chunks_c.
  rewrite (id_view_type _ _ _ _ _ (proj1 Va)), (id_view_type _ _ _ _ _ (proj1 Vb)). cbn [pbind].
  destruct (kind_of a) eqn:Ka; destruct (kind_of b) eqn:Kb; pairs; try exact I.
  - destruct HA as [HA|HA].
    + apply uses_ret. intros bl _. apply uses_ret. intros br _. destruct (bl <? br); now apply suc_uses.
    + specialize (HA eq_refl eq_refl).
      rewrite (id_view_blocks _ _ _ _ _ (proj1 Va) Ka), (id_view_blocks _ _ _ _ _ (proj1 Vb) Kb). cbn [pbind].
      destruct (view_sparse _ _ _ _ _ _ Va Ka) as (BA & LA & _). destruct (view_sparse _ _ _ _ _ _ Vb Kb) as (BB & LB & _).
      assert (NA : blocks_of a <> []) by (intro E; rewrite E, zlen_nil in LA; lia).
      assert (NB : blocks_of b <> []) by (intro E; rewrite E, zlen_nil in LB; lia).
      apply uses_quiet. destruct (zlen (blocks_of a) <? zlen (blocks_of b)); apply suc_quiet; auto using no_mixb_sym.
  - apply uses_ret. intros bl _. apply (uses_impl _ (fun i => 4 <= i < 4 + 1024)); [|apply uses_within].
    intros i Hi. destruct (HV i ltac:(unfold vec; lia)) as [[N _]|Hp]; [exfalso; apply N; auto|exact Hp].
  - apply uses_ret. intros bl _. apply (uses_impl _ (fun i => 4 <= i < 4 + 1024)); [|apply uses_within].
    intros i Hi. destruct (HV i ltac:(unfold vec; lia)) as [[_ N]|Hp]; [exfalso; apply N; auto|exact Hp].
Qed.
Lemma pul_uses P dbg mem : forall fuel A B itl itr out pos,
  it_view 31 mem itl A -> it_view 31 mem itr B -> A <> [] -> B <> [] ->
  (forall i, vec i -> no_mix A B \/ P i) -> (forall i, arr i -> P i) \/ no_mixbs A B ->
  uses P (pairwise_union_loop_c fuel dbg mem itl itr out pos).
Proof.
  induction fuel as [|f IH]; intros A B itl itr out pos Va Vb NA NB HV HA; cbn [pairwise_union_loop_c]; [exact I|].
  destruct A as [|[i a] A]; [congruence|]. destruct B as [|[j b] B]; [congruence|].
  destruct (chunk_base _ _ _ _ _ (proj1 Va)) as (Ei & Ebi & Hi).
  destruct (chunk_base _ _ _ _ _ (proj1 Vb)) as (Ej & Ebj & Hj).
  rewrite Ei, Ej. cbn [pbind]. cbv zeta. rewrite !u16_id by lia.
  destruct (view_next _ _ _ _ _ _ Va) as (itl1 & El & Va1 & _).
  destruct (view_next _ _ _ _ _ _ Vb) as (itr1 & Er & Vb1 & _).
  pose proof (id_view_has_next _ _ _ (proj1 Va1)) as Hl. pose proof (id_view_has_next _ _ _ (proj1 Vb1)) as Hr.
  assert (SUB : forall A' B', incl A' ((i, a) :: A) -> incl B' ((j, b) :: B) ->
    (forall i, vec i -> no_mix A' B' \/ P i) /\ ((forall i, arr i -> P i) \/ no_mixbs A' B')).
  { intros A' B' IA IB. split.
    - intros k Hk. destruct (HV k Hk) as [N|N]; [left|right; exact N].
      intros h x y Hx Hy. apply (N h x y); auto.
    - destruct HA as [HA|N]; [left; exact HA|right]. intros h x y Hx Hy. apply (N h x y); auto. }
  destruct (Z.eqb_spec i j) as [E|E].
  - subst j. apply uses_bind.
    + eapply uc_uses; eauto.
      * intros k Hk. destruct (HV k Hk) as [N|N]; [left|right; exact N]. apply (N i a b); now left.
      * destruct HA as [HA|N]; [left; exact HA|right]. apply (N i a b); now left.
    + intros [o n]. rewrite El, Er. cbn [pbind]. rewrite Hl, Hr.
      destruct A as [|p A]; [exact I|]. destruct B as [|q B]; [exact I|]. cbn [negb orb].
      destruct (SUB (p :: A) (q :: B)) as [S1 S2]; try (intros ? ?; now right).
      apply (IH (p :: A) (q :: B)); auto; discriminate.
  - destruct (Z.ltb_spec i j).
    + apply uses_ret. intros [o n] _. rewrite El. cbn [pbind]. rewrite Hl.
      destruct A as [|p A]; [exact I|]. cbn [negb].
      destruct (SUB (p :: A) ((j, b) :: B)) as [S1 S2]; try (intros ? ?; now right); [intros ? ?; assumption|].
      apply (IH (p :: A) ((j, b) :: B)); auto; discriminate.
    + apply uses_ret. intros [o n] _. rewrite Er. cbn [pbind]. rewrite Hr.
      destruct B as [|q B]; [exact I|]. cbn [negb].
      destruct (SUB ((i, a) :: A) (q :: B)) as [S1 S2]; try (intros ? ?; now right); [intros ? ?; assumption|].
      apply (IH ((i, a) :: A) (q :: B)); auto; discriminate.
Qed.
Lemma block_rep S h c b vs : valid S -> In (h, c) (chunks_of S) -> In (b, vs) (blocks_of c) ->
  zlen vs = card 256 S (256 * h + b) /\ 0 <= b < 256 /\ 1 <= zlen vs.
Proof.
  intros V Hc Hb. apply in_split in Hc as (pre & suf & Ec). apply in_split in Hb as (bpre & bsuf & Eb).
  apply (below_block S pre h c suf bpre b vs bsuf V Ec Eb).
Qed.
Lemma unmixed_no_mixbs S T : valid S -> valid T -> unmixed_blocks S T -> no_mixbs (chunks_of S) (chunks_of T).
Proof.
  intros VS VT U h a b Ha Hb Ka Kb i va vb Hi Hj.
  pose proof (kind_rep S h a VS Ha) as KA. pose proof (kind_rep T h b VT Hb) as KB. rewrite Ka in KA. rewrite Kb in KB.
  destruct (block_rep S h a i va VS Ha Hi) as (E1 & R & L1). destruct (block_rep T h b i vb VT Hb Hj) as (E2 & _ & L2).
  assert (D : (256 * h + i) / 256 = h) by (symmetry; apply (Z.div_unique _ 256 h i); lia).
  destruct (U (256 * h + i)) as [U1 U2]; rewrite ?D; auto.
  unfold as_bytes, as_bits in *. rewrite <- E1, <- E2 in *. unfold block_type.
  destruct (Z.ltb_spec 0 (zlen va)); [|lia]. destruct (Z.ltb_spec 0 (zlen vb)); [|lia].
  destruct (Z.ltb_spec (zlen va) 31), (Z.ltb_spec (zlen vb) 31), (Z.leb_spec 31 (zlen va)), (Z.leb_spec 31 (zlen vb));
    cbn [andb] in *; try lia; try discriminate; reflexivity.
Qed.
Lemma pu_uses P dbg mem l r out pos S T : operands (CUnion mem l r out pos) S T ->
  (forall i, vec i -> unmixed S T \/ P i) -> (forall i, arr i -> P i) \/ unmixed_blocks S T ->
  uses P (pairwise_union_c dbg mem l r out pos).
Proof.
  intros (a & b & VS & VT & SS & ST & Es & Et) HV HA.
  destruct (stored_seq 31 mem a S VS SS ltac:(lia)) as (s' & Es' & _ & Vs & _).
  destruct (stored_seq 31 mem b T VT ST ltac:(lia)) as (t' & Et' & _ & Vt & _).
  rewrite Es in Es'. injection Es' as <-. rewrite Et in Et'. injection Et' as <-.
  unfold pairwise_union_c. cbv zeta. apply uses_bind.
  - eapply pul_uses; eauto.
    + apply (valid_chunks S VS).
    + apply (valid_chunks T VT).
    + intros i Hi. destruct (HV i Hi) as [U|U]; [left; now apply unmixed_no_mix|right; exact U].
    + destruct HA as [HA|U]; [left; exact HA|right; now apply unmixed_no_mixbs].
  - intros [[[x y] o] e]. apply uses_ret. intros [o1 e1] _. apply uses_ret. intros [o2 e2] _. exact I.
Qed.

(** ** the words a call can access *)
Definition vectorless (c : call) : Prop := exists S T, operands c S T /\ unmixed S T.
Definition arrayless (c : call) : Prop := exists S T, operands c S T /\ unmixed_blocks S T.
Definition region (c : call) (i : Z) : Prop :=
  match c with
  | CInter _ _ _ _ _ => 0 <= i < 0 + 1024 /\ ~ vectorless c
  | CUnion _ _ _ _ _ => 1024 <= i < 1024 + 1028
      /\ (vectorless c -> 1024 <= i < 1028) /\ (arrayless c -> 1028 <= i < 2052)
  | CInterMany _ _ _ _ => 2052 <= i < 2052 + 67584
  | CUnionMany _ _ _ _ => 69636 <= i < 69636 + 2048
  end.
Lemma call_uses tbl dbg c : uses (region c) (call_c tbl dbg c).
Proof.
  destruct c as [mem l r out pos|mem l r out pos|mem s out pos|mem s out pos]; cbn [region call_c].
  - apply uses_and; [apply uses_within|]. apply (uses_if _ (vectorless (CInter mem l r out pos)) (fun _ => False)).
    intros (S & T & (a & b & VS & VT & SS & ST & Es & Et) & U).
    destruct (pi_quiet tbl dbg mem a b S T l r out pos) as [q ->]; auto. exact I.
  - apply uses_and; [apply uses_within|]. apply uses_and; apply uses_if; intros (S & T & O & U).
    + apply (uses_impl _ (fun i => arr (i - 1024))); [unfold arr; intros; lia|]. apply uses_shift.
      apply (pu_uses _ dbg mem l r out pos S T); auto.
    + apply (uses_impl _ (fun i => vec (i - 1024))); [unfold vec; intros; lia|]. apply uses_shift.
      apply (pu_uses _ dbg mem l r out pos S T); auto.
  - apply uses_within.
  - apply uses_within.
Qed.
Lemma region_apart c d i : independent c d -> region c i -> region d i -> False.
Proof.
  destruct c, d; cbn [independent region]; intros I Hc Hd; try lia; try contradiction.
  - destruct Hc as [_ Hc], Hd as [_ Hd]. unfold vectorless in *. destruct I; auto.
  - destruct Hc as (_ & V1 & A1), Hd as (_ & V2 & A2). unfold vectorless, arrayless in *.
    destruct I as [[I|I] [J|J]]; try apply V1 in I; try apply V2 in I; try apply A1 in J; try apply A2 in J; lia.
Qed.

(** ** threads *)
Lemma calls_uses tbl dbg : forall cs, uses (fun i => exists c, In c cs /\ region c i) (calls_c tbl dbg cs).
Proof.
  induction cs as [|c cs IH]; cbn [calls_c]; [exact I|]. apply uses_bind.
  - eapply uses_impl; [|apply call_uses]. intros i Hi. exists c. split; [now left|exact Hi].
  - intros r. apply uses_bind; [|intros; exact I]. eapply uses_impl; [|exact IH].
    intros i (d & Hd & Hi). exists d. split; [now right|exact Hi].
Qed.
Lemma c45_safe tbl dbg sc (css : list (list call)) sched x' ts i cs r :
  sized sc ->
  (forall i j cs ds c d, i <> j -> nth_error css i = Some cs -> nth_error css j = Some ds ->
     In c cs -> In d ds -> independent c d) ->
  interleave (flat sc) (map (calls_c tbl dbg) css) sched = (x', ts) ->
  nth_error css i = Some cs -> nth_error ts i = Some (Ret r) ->
  r = in_order (map (isolated tbl dbg) cs).
Proof.
  intros Hs I E Hi Hr. rewrite <- (c45_isolated tbl dbg cs sc Hs).
  change (let! (_, rs) := alone (flat sc) (calls_c tbl dbg cs) in Ok rs) with (outcome (flat sc) (calls_c tbl dbg cs)).
  rewrite <- (outcome_ret _ x' r).
  apply (disjoint_threads _ (fun i k => exists cs c, nth_error css i = Some cs /\ In c cs /\ region c k)) with (3 := E) (j := i); auto.
  - intros u v k N (ds & c & Hu & Hc & Rc) (es & d & Hv & Hd & Rd). exact (region_apart c d k (I u v ds es c d N Hu Hv Hc Hd) Rc Rd).
  - intros u p Hp. rewrite nth_error_map in Hp. destruct (nth_error css u) as [ds|] eqn:Eu; [|discriminate].
    injection Hp as <-. eapply uses_impl; [|apply calls_uses]. intros k (c & Hc & Hk). exists ds, c. auto.
  - rewrite nth_error_map, Hi. reflexivity.
Qed.
