(** example.cpp on lists that are not increasing. *)
From Verif Require Import Base Hw Spec Format Room Lib L_Group Layout M_Util M_Build M_Seq M_Decode M_Query M_Print M_Drivers
  Disorder Counts Shown Outcome P_Build1 P_Build2 P_Build3 P_Fin1 P_Ex P_Room P_Drivers P_Disorder4 P_Ends P_Release P_Assert.
From Verif Require P_Print P_Index P_Counts.
From Coq Require Import Lia.

Lemma example_fails dbg place L e :
  fst (builder_build dbg [] L) = e -> (forall st, e <> Ok st) ->
  match e with
  | Ok _ => True
  | Throw => example_cpp dbg place L = Throw
  | Abort => example_cpp dbg place L = Abort
  | UB => example_cpp dbg place L = UB
  | Fuel => example_cpp dbg place L = Fuel
  end.
Proof.
  intros E N. unfold example_cpp. destruct (builder_build dbg [] L) as [r m]. cbn [fst] in E. subst r.
  destruct e; auto.
Qed.

Lemma c35_example_invalid : forall place L, Forall is_u32 L -> zlen L < 4294967296 ->
  (forall dbg, L = [] -> example_cpp dbg place L = UB)
  /\ (L <> [] -> forall pre c post, taken L = pre ++ c :: post ->
        (Forall fine pre ->
           (~ no_twins (snd c) -> example_cpp false place L = Throw)
           /\ (no_twins (snd c) -> ~ storable c -> example_cpp false place L = UB))
        /\ (Forall sound pre ->
           (caught c -> example_cpp true place L = Throw)
           /\ (~ caught c -> ~ sound c -> example_cpp true place L = Abort)))
  /\ (L <> [] -> Forall sound (taken L) -> flat_map snd (taken L) <> L -> example_cpp true place L = Abort).
Proof.
  intros place L F HL. split; [|split].
  - intros dbg ->. unfold example_cpp. destruct dbg; reflexivity.
  - intros N pre c post E. destruct (c44_release [] L N F HL) as [_ R]. destruct (c44_debug [] L N F HL) as [_ D].
    specialize (R pre c post E). specialize (D pre c post E). split.
    + intro HF. destruct (R HF) as [R1 R2]. split.
      * intro H. apply (example_fails false place L Throw); [now rewrite (R1 H)|discriminate].
      * intros H1 H2. apply (example_fails false place L UB); [exact (R2 H1 H2)|discriminate].
    + intro HF. destruct (D HF) as [R1 R2]. split.
      * intro H. apply (example_fails true place L Throw); [now rewrite (R1 H)|discriminate].
      * intros H1 H2. apply (example_fails true place L Abort); [now rewrite (R2 H1 H2)|discriminate].
  - intros N S H. destruct (c44_debug [] L N F HL) as [D _]. destruct (D S) as [_ D2].
    apply (example_fails true place L Abort); [now rewrite (D2 H)|discriminate].
Qed.

(** the counters that printing divides by *)
Lemma one_fine dbg S st enc : valid S -> builder_build dbg [] S = (Ok st, enc) ->
  forall i, sparse_chunks i [S] <> [] -> P_Print.fine st i.
Proof.
  intros V EB0 i N. destruct (P_Counts.c18_exact_sequence dbg [] S V) as (st1 & enc1 & EB & C). rewrite EB0 in EB. injection EB as <- _.
  assert (K : filter (fun L => pass default_params (zlen L) (last L 0)) [S] = [S]) by (apply kept_default, V).
  assert (V1 : Forall valid (filter (fun L => pass default_params (zlen L) (last L 0)) [S])) by (rewrite K; auto).
  assert (HSh : Forall short [S]) by (constructor; [now apply P_Index.short_valid|constructor]).
  destruct (P_Counts.c18_exact_index dbg default_params 0 [S] V1 HSh) as (st' & o & q & E' & C'). rewrite K in C'.
  assert (EQ : forall f, f <> F_bits -> st' f = st f).
  { intros f F. rewrite C, C' by auto. cbn. lia. }
  destruct (P_Print.index_stats dbg default_params 0 [S] st' o q V1 HSh E' i) as [I1 I2]. rewrite K in I1, I2.
  rewrite EQ in I1, I2 by discriminate. unfold P_Print.fine. rewrite I1, I2.
  pose proof (P_Print.sparse_bounds i [S]) as [B1 B2]. pose proof (P_Print.ints_bound i [S] ltac:(auto)).
  pose proof (valid_len S V). assert (total zlen [S] < 2 ^ 37) by (cbn [total fold_right]; lia).
  assert (0 < P_Print.n_sparse i [S]).
  { unfold P_Print.n_sparse. destruct (sparse_chunks i [S]); [now destruct N|]. rewrite zlen_cons. pose proof (zlen_nonneg _ l). lia. }
  lia.
Qed.

(** the loop on a list that starts with the one stored *)
Lemma loop_prefix dbg mem ss S more out : forall m i value, 0 <= i -> i + Z.of_nat m <= zlen S ->
  example_loop m dbg mem ss (S ++ more) out i value = example_loop m dbg mem ss S out i value.
Proof.
  induction m as [|m IH]; intros i value Hi HL; cbn [example_loop]; auto.
  replace (vget (S ++ more) i) with (vget S i) by (unfold vget; now rewrite znth_app_l by lia).
  destruct (vget S i) as [x| | | |]; auto. cbn [bind]. destruct (vget out i) as [y| | | |]; auto. cbn [bind].
  destruct (negb (x =? y)); auto. destruct (select dbg mem ss (u32 i) value) as [[b v]| | | |]; auto. cbn [bind].
  destruct (negb (v =? y)); auto. apply IH; lia.
Qed.

Lemma c43_example_cpp : forall place P r R,
  valid P -> let L := P ++ r :: R in
  Forall (fun v => v < 65536 * (last L 0 / 65536 + 1)) P -> 65536 * (last L 0 / 65536 + 1) <= r ->
  0 <= last L 0 < 4294901760 ->
  (forall enc, bytes_at (fst (place enc)) (snd (place enc)) enc
     /\ snd (place enc) + zlen enc + 31 <= zlen (fst (place enc))) ->
  (forall i, 1 <= i <= 256 -> sparse_chunks i [P] <> []) -> decode_fits P (zlen P) ->
  example_cpp true place L = Abort /\ example_cpp false place L = Ok true.
Proof.
  intros place P r R V L HB Hr Hm HP HS HD.
  destruct (c43_tail [] P r R V HB Hr Hm) as (A & st & st' & enc & E & E' & _ & _ & D). fold L in A, E.
  split; [apply (example_fails true place L Abort); [now rewrite A|discriminate]|].
  unfold example_cpp. rewrite E. cbn [app].
  destruct (print_one false P V) as (st2 & enc2 & EB & EE & _ & P2). rewrite E' in EB. injection EB as <- <-.
  assert (PO : exists o, print st = Ok o).
  { destruct (P_Print.print_ok st) as (out & PO & _); [|eauto]. intros i Hi.
    destruct (one_fine false P st' enc V E' i (HS i Hi)) as [X1 X2].
    unfold P_Print.fine. rewrite !D by discriminate. auto. }
  destruct PO as (o & ->). cbn [bind]. destruct (HP enc) as [B HL]. destruct (place enc) as [mem a]. cbn [fst snd] in B, HL.
  assert (St : stored 31 mem a P) by (exists false, enc; auto).
  destruct (example_check_ok false mem a P V St) as [C1 _]. specialize (C1 HD).
  pose proof (stored_weaken _ 0 _ _ _ St ltac:(lia)) as St0.
  destruct (c04_size mem a P V St0) as (s & Es & Ez & _). unfold example_check in *. rewrite Es in *. cbn [bind] in *.
  rewrite Ez in *. cbn [bind] in *. destruct (decode false mem s _ 0) as [[out n]| | | |]; try discriminate. cbn [bind] in *.
  rewrite <- C1. unfold L. apply loop_prefix; [lia|]. pose proof (zlen_nonneg _ P). lia.
Qed.
