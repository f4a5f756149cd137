(** The property theorems C13, C14 in the form in which Prop_Many.v states them. *)
From Verif Require Import Base Hw Spec Lib L_Bits L_Group Layout M_Util M_Build M_Seq M_Decode
  M_Many P_Build1 P_Build2 P_Build3 P_Seq P_Sets P_Many P_Many2 P_Ex P_Fin1.
From Coq Require Import Lia Sorted Permutation.

Definition reads (mem : list Z) (a : Z) (s : s_sequence) : Prop := seq_at mem a = Ok s.

Lemma reads_unique mem addrs : forall s1 s2,
  Forall2 (fun a s => seq_at mem a = Ok s) addrs s1 -> Forall2 (fun a s => seq_at mem a = Ok s) addrs s2 -> s1 = s2.
Proof.
  induction addrs; intros s1 s2 H1 H2; inversion H1; inversion H2; subst; auto. f_equal; [congruence|auto].
Qed.

Lemma F2_perm A B (R : A -> B -> Prop) l1 l1' :
  Permutation l1 l1' -> forall l2, Forall2 R l1 l2 -> exists l2', Permutation l2 l2' /\ Forall2 R l1' l2'.
Proof.
  induction 1 as [|x l1 l1' _ IH|x y l|l l' l'' _ IH1 _ IH2]; intros l2 H2.
  - inversion H2; subst. exists []. auto.
  - inversion H2 as [|? b ? l2' R1 R2]; subst. destruct (IH _ R2) as (m & P & F). exists (b :: m). auto.
  - inversion H2 as [|? b ? l2' R1 R2]; subst. inversion R2 as [|? c ? l2'' R3 R4]; subst.
    exists (c :: b :: l2''). split; [apply perm_swap|auto].
  - destruct (IH1 _ H2) as (m & P & F). destruct (IH2 _ F) as (m' & P' & F'). exists m'.
    split; auto. eapply perm_trans; eauto.
Qed.

Lemma F2_common A B C (R : A -> B -> Prop) (Q : A -> C -> Prop) l : forall m n,
  Forall2 R l m -> Forall2 Q l n -> Forall2 (fun b c => exists a, R a b /\ Q a c) m n.
Proof.
  induction l; intros m n H1 H2; inversion H1; inversion H2; subst; constructor; eauto.
Qed.
Lemma F2_middle A B C (R : A -> B -> Prop) (Q : A -> C -> Prop) m n :
  Forall2 (fun b c => exists a, R a b /\ Q a c) m n -> exists l, Forall2 R l m /\ Forall2 Q l n.
Proof.
  induction 1 as [|b c m n (a & H1 & H2) _ (l & IH1 & IH2)]; [exists []; auto|]. exists (a :: l). auto.
Qed.

(** some outcome exists: insertion sort *)
Fixpoint insert_by (c : Z) (s : s_sequence) (l : list (Z * s_sequence)) : list (Z * s_sequence) :=
  match l with
  | [] => [(c, s)]
  | (d, t) :: l' => if c <=? d then (c, s) :: l else (d, t) :: insert_by c s l'
  end.
Lemma insert_by_ok c s : forall l, StronglySorted Z.le (map fst l) ->
  Permutation ((c, s) :: l) (insert_by c s l) /\ StronglySorted Z.le (map fst (insert_by c s l)).
Proof.
  induction l as [|[d t] l IH]; intro H; cbn [insert_by].
  - split; auto. repeat constructor.
  - cbn [map fst] in H. inversion H as [|? ? H1 H2]; subst. destruct (Z.leb_spec c d).
    + split; auto. cbn [map fst]. constructor; auto. constructor; auto.
      eapply Forall_impl; [|exact H2]. cbn beta. intros. lia.
    + destruct (IH H1) as [P S]. split.
      * eapply perm_trans; [apply perm_swap|]. now constructor.
      * cbn [map fst]. constructor; auto.
        apply Forall_forall. intros x Hx. apply in_map_iff in Hx as ([y u] & <- & Hy). cbn [fst].
        apply (Permutation_in _ (Permutation_sym P)) in Hy. destruct Hy as [Hy|Hy]; [inversion Hy; lia|].
        rewrite Forall_forall in H2. apply H2. apply in_map_iff. exists (y, u). auto.
Qed.
Lemma sort_exists mem seqs cs :
  Forall2 (fun s c => cardinality mem s = Ok c) seqs cs -> exists seqs', sort_outcome mem seqs seqs'.
Proof.
  intro H. enough (X : exists l, Permutation seqs (map snd l) /\ StronglySorted Z.le (map fst l)
     /\ Forall (fun p => cardinality mem (snd p) = Ok (fst p)) l).
  { destruct X as (l & P & S & F). exists (map snd l). split; auto. exists (map fst l). split; auto.
    clear -F. induction F; cbn [map]; constructor; auto. }
  induction H as [|s c seqs cs H1 H2 (l & P & S & F)]; [exists []; cbn; repeat constructor|].
  destruct (insert_by_ok c s l S) as [P' S']. exists (insert_by c s l). split; [|split; auto].
  - apply (Permutation_map snd) in P'. cbn [map snd] in P'. eapply perm_trans; [|exact P']. now constructor.
  - apply Forall_forall. intros p Hp. apply (Permutation_in _ (Permutation_sym P')) in Hp.
    destruct Hp as [<-|Hp]; [exact H1|]. rewrite Forall_forall in F. auto.
Qed.

Lemma c13_intersection_many : forall mem addrs Ss,
  Ss <> [] -> Forall valid Ss -> Forall2 (stored 0 mem) addrs Ss ->
  exists seqs e, Forall2 (fun a s => seq_at mem a = Ok s) addrs seqs
    /\ enumerates (fun v => forall S, In S Ss -> In v S) e
    /\ (exists seqs', sort_outcome mem seqs seqs')
    /\ forall seqs', sort_outcome mem seqs seqs' ->
       forall dbg headers tmp bitmap out pos,
       zlen headers = 65536 -> zlen tmp = 1024 -> zlen bitmap = 1024 -> 0 <= pos -> pos + zlen e <= zlen out ->
       exists headers' tmp' bitmap' out', intersection_sorted dbg mem seqs' headers tmp bitmap out pos
           = Ok (headers', tmp', bitmap', out', zlen e)
         /\ zlen headers' = 65536 /\ zlen tmp' = 1024 /\ zlen bitmap' = 1024 /\ wrote 0 out pos e out'.
Proof.
  intros mem addrs Ss N V St.
  destruct (intersection_sorted_ok mem addrs Ss N V St) as (seqs & e & E & En & _).
  exists seqs, e. split; auto. split; auto. split.
  - apply (sort_exists mem seqs (map zlen Ss)). pose proof (F2_common _ _ _ _ _ _ _ _ E St) as F.
    clear -F V. induction F as [|s S seqs Ss (a & H1 & H2) _ IH]; cbn [map]; constructor; inversion V; subst; auto.
    destruct (c04_size mem a S) as (s' & E1 & _ & E2); auto. congruence.
  - intros seqs' [P _]. pose proof (F2_common _ _ _ _ _ _ _ _ E St) as F.
    destruct (F2_perm _ _ _ _ _ P _ F) as (Ss' & PS & F').
    apply F2_middle in F' as (addrs' & E' & St').
    destruct (intersection_sorted_ok mem addrs' Ss') as (seqs1 & e1 & E1 & En1 & K).
    { intros ->. apply N. apply Permutation_nil. now apply Permutation_sym. }
    { exact (Permutation_Forall PS V). }
    { exact St'. }
    assert (seqs1 = seqs') as -> by exact (reads_unique _ _ _ _ E1 E').
    assert (e1 = e) as ->; [|exact K].
    eapply enumerates_unique; [exact En1|]. destruct En as [X Y]. split; auto.
    intro x. rewrite Y. split; intros H S HS; apply H.
    + exact (Permutation_in S (Permutation_sym PS) HS).
    + exact (Permutation_in S PS HS).
Qed.

Lemma c14_union_many : forall mem addrs Ss,
  Ss <> [] -> Forall valid Ss -> Forall2 (stored 0 mem) addrs Ss ->
  exists seqs e, Forall2 (fun a s => seq_at mem a = Ok s) addrs seqs
    /\ enumerates (fun v => exists S, In S Ss /\ In v S) e
    /\ forall dbg tmp bitmap out pos,
       zlen tmp = 1024 -> zlen bitmap = 1024 -> 0 <= pos -> pos + zlen e <= zlen out ->
       exists tmp' bitmap' out', union_many dbg mem seqs tmp bitmap out pos
           = Ok (tmp', bitmap', out', zlen e)
         /\ zlen tmp' = 1024 /\ zlen bitmap' = 1024 /\ wrote 0 out pos e out'.
Proof.
  intros mem addrs Ss N V St. destruct (union_many_ok mem addrs Ss N V St) as (seqs & E & K).
  exists seqs, (unis Ss). split; auto. split; auto.
  split; [apply sorted_unis, valid_sorted; auto|]. intro x. apply In_unis. now apply valid_sorted.
Qed.
