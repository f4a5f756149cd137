(** The programs under /repo/src. *)
From Verif Require Import Base Hw Spec Format Room Holds Told Lib L_Bits L_Group Layout M_Util M_Build M_Seq M_Decode M_Uncompress
  M_Query M_Intersect M_Union M_Many M_Index M_Print M_Calls M_Tests M_Drivers P_Build1 P_Build2 P_Build3 P_Seq P_Decode
  P_Query P_NextGeq P_Sets P_Index P_Ex P_Fin1 P_Fin2 P_Fin3 P_Fin5 P_Tests P_Tests2 P_Short P_Tests4 P_Tests5 P_Room P_Laws.
From Verif Require Import Counts Shown P_Counts P_Format P_Shown.
From Verif Require P_Print P_Uncompress P_Stats.
From Coq Require Import Lia.

(** ** loops *)
Lemma times_sum {A} (P : Z -> A -> Prop) (body : A -> res A) d :
  (forall t st, P t st -> exists st', body st = Ok st' /\ P (t + d) st') ->
  forall n t st, P t st -> exists st', times n body st = Ok st' /\ P (t + Z.of_nat n * d) st'.
Proof.
  intro H. induction n; intros t st HP; cbn [times].
  - exists st. split; auto. now rewrite Z.add_0_r.
  - destruct (H t st HP) as (st1 & -> & P1). cbn [bind]. destruct (IHn _ _ P1) as (st2 & E & P2). exists st2.
    split; auto. replace (t + Z.of_nat (S n) * d) with (t + d + Z.of_nat n * d) by lia. auto.
Qed.
Lemma times_ub {A} (body : A -> res A) n st : (0 < n)%nat -> body st = UB -> times n body st = UB.
Proof. destruct n; [lia|]. intros _ E. cbn [times]. now rewrite E. Qed.

Lemma each_sum {A} (P : Z -> A -> Prop) (body : Z -> A -> res A) (g : list Z -> Z) (Ks : list (list Z)) :
  (forall i S t st, znth Ks i = Some S -> P t st -> exists st', body i st = Ok st' /\ P (t + g S) st') ->
  forall t st, P t st -> exists st', each (length Ks) 0 body st = Ok st' /\ P (t + total g Ks) st'.
Proof.
  intros H. assert (X : forall R pre, Ks = pre ++ R -> forall t st, P t st ->
    exists st', each (length R) (zlen pre) body st = Ok st' /\ P (t + total g R) st').
  { induction R as [|S R IH]; intros pre E t st HP; cbn [length each].
    - exists st. split; auto. cbn. now rewrite Z.add_0_r.
    - destruct (H (zlen pre) S t st) as (st1 & -> & P1); auto.
      { rewrite E, znth_app_r by lia. rewrite Z.sub_diag. reflexivity. }
      cbn [bind]. destruct (IH (pre ++ [S])) with (t := t + g S) (st := st1) as (st2 & E2 & P2); auto.
      { now rewrite <- app_assoc. }
      rewrite zlen_app, zlen_cons, zlen_nil in E2. exists st2. split; auto.
      change (total g (S :: R)) with (g S + total g R). now rewrite Z.add_assoc. }
  intros t st HP. apply (X Ks []); auto.
Qed.
Lemma each_ub {A} (P : A -> Prop) (body : Z -> A -> res A) (bad : list Z -> Prop) (Ks : list (list Z)) :
  (forall i S st, znth Ks i = Some S -> P st -> (exists st', body i st = Ok st' /\ P st') \/ body i st = UB) ->
  (forall i S st, znth Ks i = Some S -> bad S -> P st -> body i st = UB) ->
  Exists bad Ks -> forall st, P st -> each (length Ks) 0 body st = UB.
Proof.
  intros H HB HE. assert (X : forall R pre, Ks = pre ++ R -> Exists bad R -> forall st, P st ->
    each (length R) (zlen pre) body st = UB).
  { induction R as [|S R IH]; intros pre E XB st HP; [inversion XB|]. cbn [length each].
    assert (EZ : znth Ks (zlen pre) = Some S).
    { rewrite E, znth_app_r by lia. rewrite Z.sub_diag. reflexivity. }
    destruct (H (zlen pre) S st EZ HP) as [(st1 & E1 & P1)|E1]; [|now rewrite E1].
    inversion XB as [? ? XS|? ? XR]; subst.
    - rewrite (HB _ _ _ EZ XS HP). reflexivity.
    - rewrite E1. cbn [bind]. specialize (IH (pre ++ [S])). rewrite zlen_app, zlen_cons, zlen_nil in IH.
      apply IH; auto. now rewrite <- app_assoc. }
  intros st HP. apply (X Ks []); auto.
Qed.
Lemma queries_sum {Q A} (P : Z -> A -> Prop) (body : Q -> A -> res A) (g : Q -> Z) : forall qs,
  (forall q t st, In q qs -> P t st -> exists st', body q st = Ok st' /\ P (t + g q) st') ->
  forall t st, P t st -> exists st', run_queries body qs st = Ok st' /\ P (t + total g qs) st'.
Proof.
  induction qs as [|q qs IH]; intros H t st HP; cbn [run_queries].
  - exists st. split; auto. cbn. now rewrite Z.add_0_r.
  - destruct (H q t st ltac:(now left) HP) as (st1 & -> & P1). cbn [bind].
    destruct (IH ltac:(intros; apply H; [now right|auto]) _ _ P1) as (st2 & E & P2). exists st2. split; auto.
    change (total g (q :: qs)) with (g q + total g qs). now rewrite Z.add_assoc.
Qed.

Lemma u64_add a b : u64 (u64 a + b) = u64 (a + b).
Proof. unfold u64. apply Zplus_mod_idemp_l. Qed.

(** ** cardinality.cpp *)
Lemma opened_size slack mem f u Ks ix : opened slack mem f u Ks ix -> Z.to_nat (ix_size ix) = length Ks.
Proof. intros (_ & E & _). rewrite E. unfold zlen. lia. Qed.

Lemma cardinality_cpp_ok dbg mem f u Ks ix :
  opened 0 mem f u Ks ix -> cardinality_cpp dbg mem f = Ok (11 * total zlen Ks mod 2 ^ 64 / 11).
Proof.
  intro O. unfold cardinality_cpp. rewrite (proj1 O). cbn [bind]. rewrite (opened_size _ _ _ _ _ _ O).
  destruct (times_sum (fun t st => st = u64 t)
    (each (length Ks) 0 (fun i total => let! s := index_get dbg mem ix i in let! c := cardinality mem s in Ok (u64 (total + c))))
    (total zlen Ks)) with (n := 11%nat) (t := 0) (st := 0) as (st & -> & ->); auto.
  intros t st HP. apply each_sum with (P := fun t st => st = u64 t) (g := zlen); auto.
  intros i S t0 st0 ES ->. destruct O as (O1 & O2 & O3 & O4 & G). destruct (G i S ES) as (s & Es & St & EG).
  rewrite EG. cbn [bind]. rewrite (opened_card mem f u Ks ix 0 i S s); auto; [|split; auto|lia].
  cbn [bind]. eexists. split; [reflexivity|]. apply u64_add.
Qed.

(** ** decode.cpp and uncompress.cpp *)
Lemma decode_fits_dec S n : valid S -> decode_fits S n \/ ~ decode_fits S n.
Proof. intro V. rewrite (decode_fits_iff S n V). lia. Qed.

Lemma decode_cpp_ok dbg mem f u Ks ix :
  0 <= u -> opened 31 mem f u Ks ix ->
  (Forall (fun S => decode_fits S u) Ks -> decode_cpp dbg mem f = Ok (zlen Ks, total zlen Ks mod 2 ^ 64))
  /\ (Exists (fun S => ~ decode_fits S u) Ks -> decode_cpp dbg mem f = UB).
Proof.
  intros Hu O. unfold decode_cpp. rewrite (proj1 O). cbn [bind]. rewrite (opened_size _ _ _ _ _ _ O).
  assert (EU : ix_universe ix = u) by apply O. assert (EZ : ix_size ix = zlen Ks) by apply O. rewrite EU, EZ.
  set (body := fun i st => _).
  assert (HB : forall i S st, znth Ks i = Some S -> zlen (fst st) = u ->
    (decode_fits S u -> exists st', body i st = Ok st' /\ zlen (fst st') = u /\ snd st' = u64 (snd st + zlen S))
    /\ (~ decode_fits S u -> body i st = UB)).
  { intros i S [out n] ES HP. cbn [fst] in HP. pose proof (opened_valid _ _ _ _ _ _ _ _ O ES) as V.
    destruct O as (O1 & O2 & O3 & O4 & G). destruct (G i S ES) as (s & Es & St & EG).
    destruct (decode_room dbg mem _ S out 0 V St ltac:(lia)) as (s' & Es' & F & N).
    rewrite Es in Es'. injection Es' as <-. unfold body. rewrite EG. cbn [bind].
    rewrite HP, Z.sub_0_r in F, N. split; intro X.
    - destruct (F X) as (out' & -> & W). cbn [bind]. eexists. split; [reflexivity|]. cbn [fst snd].
      split; auto. rewrite (wrote_zlen _ _ _ _ _ W). exact HP.
    - now rewrite (N X). }
  set (st0 := (repeat 0 (Z.to_nat u), 0)).
  assert (L0 : zlen (fst st0) = u) by (unfold st0; cbn [fst]; rewrite zlen_repeat; lia). split; intro X.
  - rewrite Forall_forall in X.
    destruct (each_sum (fun t st => zlen (fst st) = u /\ snd st = u64 t) body zlen Ks) with (t := 0) (st := st0)
      as ([out n] & -> & _ & ET); auto; [|cbn [snd] in ET; now rewrite ET].
    intros i S t st ES [HP Ht]. destruct (HB i S st ES HP) as [F _].
    destruct F as (st' & E & L & T); [apply X; eapply znth_In; eauto|]. exists st'. split; auto. split; auto.
    rewrite T, Ht. apply u64_add.
  - rewrite (each_ub (fun st => zlen (fst st) = u) body (fun S => ~ decode_fits S u) Ks); auto.
    + intros i S st ES HP. destruct (HB i S st ES HP) as [F N].
      destruct (decode_fits_dec S u (opened_valid _ _ _ _ _ _ _ _ O ES)) as [D|D]; [left|right; auto].
      destruct (F D) as (st' & E & L & _). eauto.
    + intros i S st ES D HP. now apply (HB i S st ES HP).
Qed.

Definition words_for (u : Z) : Z := if u <? 4294901760 then 1024 * (u / 65536 + 1) else 0.
Lemma uncompress_cpp_ok dbg mem f u Ks ix :
  is_u32 u -> opened 0 mem f u Ks ix ->
  (Forall (fun S => uncompress_fits S (words_for u)) Ks ->
     uncompress_cpp dbg mem f = Ok (zlen Ks, total zlen Ks mod 2 ^ 64))
  /\ (Exists (fun S => ~ uncompress_fits S (words_for u)) Ks -> uncompress_cpp dbg mem f = UB).
Proof.
  intros Hu O. unfold is_u32 in Hu. unfold uncompress_cpp. rewrite (proj1 O). cbn [bind]. rewrite (opened_size _ _ _ _ _ _ O).
  assert (EU : ix_universe ix = u) by apply O. assert (EZ : ix_size ix = zlen Ks) by apply O. rewrite EU, EZ.
  assert (EW : bitmap_words u = words_for u).
  { unfold words_for. destruct (Z.ltb_spec u 4294901760); [apply bitmap_words_ok|apply bitmap_words_wrap]; lia. }
  rewrite EW. set (n := words_for u).
  assert (Hn : 0 <= n) by (unfold n, words_for; destruct (u <? 4294901760); [pose proof (Z.div_pos u 65536)|]; lia).
  clearbody n. set (body := fun i st => _).
  assert (HB : forall i S st, znth Ks i = Some S -> zlen (fst st) = n ->
    (uncompress_fits S n -> exists st', body i st = Ok st' /\ zlen (fst st') = n /\ snd st' = u64 (snd st + zlen S))
    /\ (~ uncompress_fits S n -> body i st = UB)).
  { intros i S [out k] ES HP. cbn [fst] in HP. pose proof (opened_valid _ _ _ _ _ _ _ _ O ES) as V.
    destruct O as (O1 & O2 & O3 & O4 & G). destruct (G i S ES) as (s & Es & St & EG).
    unfold body. rewrite EG. cbn [bind]. unfold uncompress_fits. split; intro X.
    - destruct (P_Uncompress.uncompress_ok dbg mem _ S out 0 V St ltac:(lia)) as (s' & out' & Es' & E & L & _); [lia|].
      rewrite Es in Es'. injection Es' as <-. rewrite E. eexists. split; [reflexivity|]. cbn [fst snd]. split; auto. lia.
    - destruct (uncompress_short dbg mem _ S out 0 V St ltac:(lia)) as (s' & Es' & E); [lia|].
      rewrite Es in Es'. injection Es' as <-. now rewrite E. }
  set (st0 := (repeat 0 (Z.to_nat n), 0)).
  assert (L0 : zlen (fst st0) = n) by (unfold st0; cbn [fst]; rewrite zlen_repeat; lia). split; intro X.
  - rewrite Forall_forall in X.
    destruct (each_sum (fun t st => zlen (fst st) = n /\ snd st = u64 t) body zlen Ks) with (t := 0) (st := st0)
      as ([out k] & -> & _ & ET); auto; [|cbn [snd] in ET; now rewrite ET].
    intros i S t st ES [HP Ht]. destruct (HB i S st ES HP) as [F _].
    destruct F as (st' & E & L & T); [apply X; eapply znth_In; eauto|]. exists st'. split; auto. split; auto.
    rewrite T, Ht. apply u64_add.
  - rewrite (each_ub (fun st => zlen (fst st) = n) body (fun S => ~ uncompress_fits S n) Ks); auto.
    + intros i S st ES HP. destruct (HB i S st ES HP) as [F N].
      assert (D : uncompress_fits S n \/ ~ uncompress_fits S n) by (unfold uncompress_fits; lia).
      destruct D as [D|D]; [left|right; auto]. destruct (F D) as (st' & E & L & _). eauto.
    + intros i S st ES D HP. now apply (HB i S st ES HP).
Qed.

(** ** reading the queries *)
Lemma read_pairs_ok : forall qs i num rest,
  0 <= i -> i <= num -> i < 2 ^ 32 ->
  Forall (fun q => is_u32 (fst q) /\ is_u32 (snd q)) qs ->
  i + zlen qs = num /\ num < 2 ^ 32 \/ i + zlen qs < num /\ zlen rest <= 1 ->
  read_pairs (flat_map (fun q => [fst q; snd q]) qs ++ rest) i num = qs.
Proof.
  assert (X : forall qs i num rest, 0 <= i -> i < 2 ^ 32 ->
    Forall (fun q => is_u32 (fst q) /\ is_u32 (snd q)) qs ->
    i + zlen qs = num /\ num < 2 ^ 32 \/ i + zlen qs < num /\ zlen rest <= 1 ->
    read_pairs (flat_map (fun q => [fst q; snd q]) qs ++ rest) i num = qs).
  { induction qs as [|[a b] qs IH]; intros i num rest H0 H1 HF HN.
    - cbn [flat_map app]. rewrite zlen_nil in HN. destruct rest as [|x [|y rest]]; cbn [read_pairs];
        destruct (Z.eqb_spec i num); auto. rewrite !zlen_cons in HN. pose proof (zlen_nonneg _ rest). lia.
    - cbn [flat_map app fst snd]. cbn [read_pairs]. rewrite zlen_cons in HN. pose proof (zlen_nonneg _ qs).
      destruct (Z.eqb_spec i num); [lia|]. apply Forall_cons_iff in HF as [[Ha Hb] HF]. cbn [fst snd] in Ha, Hb.
      unfold is_u32 in Ha, Hb. rewrite !u32_id by lia. f_equal.
      assert (D : i + 1 < 2 ^ 32 \/ i + 1 = 2 ^ 32) by lia. destruct D as [D|D].
      + rewrite (u32_id (i + 1)) by lia. apply IH; auto; lia.
      + rewrite D. change (u32 (2 ^ 32)) with 0. apply IH; auto; lia. }
  intros. apply X; auto.
Qed.
Lemma pairs_read_ok num input qs : pairs_read num input qs ->
  Forall (fun q => is_u32 (fst q) /\ is_u32 (snd q)) qs -> read_pairs input 0 num = qs.
Proof.
  intros (rest & -> & H) HF. pose proof (zlen_nonneg _ qs). apply read_pairs_ok; auto; lia.
Qed.
Lemma positions_u32 Ks qs : positions Ks qs -> Forall (fun q => is_u32 (fst q) /\ is_u32 (snd q)) qs.
Proof. intro H. eapply Forall_impl; [|exact H]. cbn beta. tauto. Qed.

(** ** contains.cpp *)
Lemma contains_cpp_ok dbg mem f u Ks ix num input qs :
  opened 0 mem f u Ks ix -> pairs_read num input qs -> positions Ks qs ->
  contains_cpp dbg mem f num input
  = Ok (zlen qs, 4 * zlen (filter (fun q => existsb (Z.eqb (snd q)) (list_of Ks (fst q))) qs) mod 2 ^ 64).
Proof.
  intros O HR HQ. unfold contains_cpp, perf_contains. rewrite (pairs_read_ok _ _ _ HR (positions_u32 _ _ HQ)).
  rewrite (proj1 O). cbn [bind]. set (hit := fun q : Z * Z => existsb (Z.eqb (snd q)) (list_of Ks (fst q))).
  assert (EF : total (fun q => if hit q then 1 else 0) qs = zlen (filter hit qs)).
  { rewrite P_Print.total_if, P_Print.total_one. reflexivity. }
  rewrite <- EF. set (body := fun (q : Z * Z) (st : Z) => _).
  destruct (times_sum (fun t st => st = u64 t) (run_queries body qs) (total (fun q => if hit q then 1 else 0) qs))
    with (n := 4%nat) (t := 0) (st := 0) as (st & -> & ->); auto.
  intros t st HP. apply queries_sum with (P := fun t st => st = u64 t); auto.
  intros q t0 st0 Hq ->. unfold positions in HQ. rewrite Forall_forall in HQ. destruct (HQ q Hq) as ((S & ES) & _ & Hv).
  pose proof (opened_valid _ _ _ _ _ _ _ _ O ES) as V.
  destruct O as (O1 & O2 & O3 & O4 & G). destruct (G _ S ES) as (s & Es & St & EG).
  unfold body. rewrite EG. cbn [bind].
  destruct (c05_contains dbg mem _ S (snd q) V St Hv) as (s' & b & Es' & EB & HI).
  rewrite Es in Es'. injection Es' as <-. rewrite EB. cbn [bind]. eexists. split; [reflexivity|].
  assert (hit q = b) as ->; [|apply u64_add].
  unfold hit, list_of. rewrite ES. apply eq_true_iff_eq. rewrite HI, existsb_exists. split.
  - intros (x & Hx & E). apply Z.eqb_eq in E. congruence.
  - intro H. exists (snd q). split; auto. apply Z.eqb_refl.
Qed.

(** ** select.cpp and next_geq.cpp *)
Lemma combine_app_l {A B} : forall (l1 l2 : list A) (q : list B),
  combine (l1 ++ l2) q = combine l1 (firstn (length l1) q) ++ combine l2 (skipn (length l1) q).
Proof.
  induction l1 as [|x l1 IH]; intros l2 q; auto. destruct q as [|y q]; cbn [app length firstn skipn combine].
  - now destruct l2.
  - now rewrite IH.
Qed.
Lemma combine_repeat {A B} (K : A) : forall (q : list B), combine (repeat K (length q)) q = map (pair K) q.
Proof. induction q as [|y q IH]; auto. cbn [length repeat combine map]. now rewrite IH. Qed.
Lemma asked_cons K Ks n q : 0 <= n <= zlen q ->
  asked (K :: Ks) n q = map (pair K) (firstn (Z.to_nat n) q) ++ asked Ks n (skipn (Z.to_nat n) q).
Proof.
  intro H. unfold asked. cbn [flat_map]. rewrite combine_app_l, repeat_length. f_equal.
  rewrite <- combine_repeat. do 2 f_equal. rewrite firstn_length. unfold zlen in H. lia.
Qed.

Section Ask.
Context {B : Type} (dbg : bool) (mem : list Z) (f u : Z) (Ks : list (list Z)) (ix : s_index) (n : Z) (queries : list Z)
  (ask : s_sequence -> Z -> B -> res B) (P : list (list Z * Z) -> B -> Prop).
Hypothesis O : opened 0 mem f u Ks ix.
Hypothesis N : 0 <= n.
Hypothesis L32 : zlen Ks < 2 ^ 32.
Hypothesis Q32 : Forall is_u32 queries.
Hypothesis HA : forall i S s x done b, znth Ks i = Some S -> seq_at mem (addr Ks f i) = Ok s -> is_u32 x -> P done b ->
  exists b', ask s x b = Ok b' /\ P (done ++ [(S, x)]) b'.

Let inner s := loop32 (1 + length queries) 0 n (fun j st =>
        let (q, b) := (st : Z * B) in
        let! x := vget queries q in
        let! b := ask s x b in
        Ok (q + 1, b)).

Lemma inner_step i S s done rq j b fuel : znth Ks i = Some S -> seq_at mem (addr Ks f i) = Ok s ->
  queries = map snd done ++ rq -> P done b -> 0 <= j < 2 ^ 32 -> (length rq < fuel)%nat ->
  let r := loop32 fuel j n (fun j st =>
        let (q, b) := (st : Z * B) in
        let! x := vget queries q in
        let! b := ask s x b in
        Ok (q + 1, b)) (zlen done, b) in
  (j <= n -> n < 2 ^ 32 -> n - j <= zlen rq ->
     exists b', let done' := done ++ map (pair S) (firstn (Z.to_nat (n - j)) rq) in
       r = Ok (zlen done', b') /\ P done' b')
  /\ (zlen rq < n - j \/ 2 ^ 32 <= n -> r = UB).
Proof.
  intros ES Es. revert done j b fuel. induction rq as [|x rq IH]; intros done j b fuel EQ HP Hj HF; cbn zeta.
  - rewrite zlen_nil. destruct fuel as [|fuel]; [cbn in HF; lia|]. cbn [loop32]. split.
    + intros H1 _ H2. destruct (Z.eqb_spec j n); [|lia]. subst j. rewrite Z.sub_diag. cbn. rewrite app_nil_r. eauto.
    + intro H. destruct (Z.eqb_spec j n); [lia|]. rewrite app_nil_r in EQ. unfold vget, znth.
      destruct (Z.ltb_spec (zlen done) 0); [auto|].
      rewrite (proj2 (nth_error_None queries _)); auto. rewrite EQ, map_length. unfold zlen. lia.
  - rewrite zlen_cons. destruct fuel as [|fuel]; [lia|]. cbn [length] in HF. cbn [loop32]. pose proof (zlen_nonneg _ rq) as HR.
    destruct (Z.eqb_spec j n) as [->|NE].
    { split; [|intros [H|H]; lia]. intros _ _ _. rewrite Z.sub_diag. cbn. rewrite app_nil_r. eauto. }
    assert (EV : vget queries (zlen done) = Ok x).
    { apply vget_ok. rewrite EQ, znth_app_r by (rewrite zlen_map; lia). rewrite zlen_map, Z.sub_diag. apply znth_cons_0. }
    rewrite EV. cbn [bind].
    assert (Hx : is_u32 x).
    { rewrite Forall_forall in Q32. apply Q32. rewrite EQ. apply in_app_iff. right. now left. }
    destruct (HA i S s x done b ES Es Hx HP) as (b1 & -> & P1). cbn [bind].
    replace (zlen done + 1) with (zlen (done ++ [(S, x)])) by (rewrite zlen_app, zlen_cons, zlen_nil; lia).
    assert (EQ1 : queries = map snd (done ++ [(S, x)]) ++ rq) by (rewrite map_app, <- app_assoc; exact EQ).
    assert (U1 : 0 <= u32 (j + 1) <= j + 1 /\ u32 (j + 1) < 2 ^ 32).
    { unfold u32. pose proof (Z.mod_pos_bound (j + 1) (2 ^ 32) ltac:(lia)).
      pose proof (Z.mod_le (j + 1) (2 ^ 32) ltac:(lia) ltac:(lia)). lia. }
    destruct (IH (done ++ [(S, x)]) (u32 (j + 1)) b1 fuel EQ1 P1 ltac:(lia) ltac:(lia)) as [I1 I2]. cbn zeta in I1, I2.
    split.
    + intros H1 H2 H3. rewrite u32_id in * by lia. destruct (I1 ltac:(lia) ltac:(lia) ltac:(lia)) as (b2 & E2 & P2).
      exists b2. replace (Z.to_nat (n - j)) with (1 + Z.to_nat (n - (j + 1)))%nat by lia.
      cbn [Nat.add firstn map]. rewrite <- app_assoc in *. auto.
    + intro H. apply I2. lia.
Qed.

Lemma outer_ok : forall R pre done rq b, Ks = pre ++ R -> queries = map snd done ++ rq -> P done b ->
  let r := loop32 (length R) (zlen pre) (zlen Ks) (fun i st => let! s := index_get dbg mem ix i in inner s st) (zlen done, b) in
  (R = [] \/ n < 2 ^ 32 -> zlen R * n <= zlen rq -> exists k b', r = Ok (k, b') /\ P (done ++ asked R n rq) b')
  /\ (zlen rq < zlen R * n \/ R <> [] /\ 2 ^ 32 <= n -> r = UB).
Proof.
  induction R as [|S R IH]; intros pre done rq b EK EQ HP; cbn zeta.
  - cbn [length loop32]. rewrite app_nil_r in EK. subst pre. rewrite Z.eqb_refl. split.
    + intros _ _. exists (zlen done), b. cbn. rewrite app_nil_r. auto.
    + rewrite zlen_nil. pose proof (zlen_nonneg _ rq). intros [H1|[H1 _]]; [lia|now destruct H1].
  - cbn [length loop32]. assert (LK : zlen Ks = zlen pre + 1 + zlen R) by (rewrite EK, zlen_app, zlen_cons; lia).
    pose proof (zlen_nonneg _ R). pose proof (zlen_nonneg _ pre). pose proof (zlen_nonneg _ rq).
    destruct (Z.eqb_spec (zlen pre) (zlen Ks)); [lia|].
    assert (ES : znth Ks (zlen pre) = Some S).
    { rewrite EK, znth_app_r by lia. rewrite Z.sub_diag. reflexivity. }
    pose proof O as (O1 & O2 & O3 & O4 & G). destruct (G _ S ES) as (s & Es & _ & EG). rewrite EG. cbn [bind].
    assert (LQ : (length rq < 1 + length queries)%nat) by (rewrite EQ, app_length, map_length; lia).
    destruct (inner_step (zlen pre) S s done rq 0 b (1 + length queries) ES Es EQ HP ltac:(lia) LQ) as [I1 I2].
    cbn zeta in I1, I2. rewrite Z.sub_0_r in I1, I2. fold (inner s) in I1, I2. rewrite zlen_cons.
    destruct (Z_lt_le_dec (zlen rq) n) as [HS|HS].
    { rewrite (I2 (or_introl HS)). cbn [bind]. split; [nia|auto]. }
    destruct (Z_lt_le_dec n (2 ^ 32)) as [HN|HN].
    2:{ rewrite (I2 (or_intror HN)). cbn [bind]. split; [|auto]. intros [H'|H'] _; [discriminate|lia]. }
    destruct (I1 N HN HS) as (b1 & E1 & P1). rewrite E1. cbn [bind]. rewrite u32_id by lia.
    destruct (IH (pre ++ [S]) (done ++ map (pair S) (firstn (Z.to_nat n) rq)) (skipn (Z.to_nat n) rq) b1) as [J1 J2]; auto.
    { now rewrite <- app_assoc. }
    { rewrite map_app, map_map. cbn [snd]. rewrite map_id, <- app_assoc, firstn_skipn. auto. }
    cbn zeta in J1, J2. replace (zlen (pre ++ [S])) with (zlen pre + 1) in J1, J2 by (rewrite zlen_app, zlen_cons, zlen_nil; lia).
    assert (LS : zlen (skipn (Z.to_nat n) rq) = zlen rq - n) by (unfold zlen in *; rewrite skipn_length; lia).
    rewrite LS in J1, J2. split.
    + intros _ HL. rewrite asked_cons by lia. rewrite app_assoc. apply J1; auto. lia.
    + intros [H'|H']; [|lia]. apply J2. left. lia.
Qed.

Lemma ask_all_ok b : P [] b ->
  (Ks = [] \/ n < 2 ^ 32 -> zlen Ks * n <= zlen queries ->
     exists b', ask_all dbg mem ix n queries ask b = Ok b' /\ P (asked Ks n queries) b')
  /\ (zlen queries < zlen Ks * n \/ Ks <> [] /\ 2 ^ 32 <= n -> ask_all dbg mem ix n queries ask b = UB).
Proof.
  intro HP. unfold ask_all. rewrite (opened_size _ _ _ _ _ _ O), (proj1 (proj2 O)).
  destruct (outer_ok Ks [] [] queries b eq_refl eq_refl HP) as [I1 I2]. cbn zeta in I1, I2. rewrite !zlen_nil in I1, I2.
  unfold inner in I1, I2. cbn [Nat.add app] in I1, I2. split.
  - intros H1 H2. destruct (I1 H1 H2) as (k & b' & E & P'). rewrite E. cbn [bind]. eauto.
  - intro H. rewrite (I2 H). reflexivity.
Qed.
End Ask.

(** the vector of queries *)
Definition queries_read (input : list Z) (total : Z) : list Z :=
  map u32 (if total <? 2 ^ 32 then firstn (Z.to_nat total) input else input).
Lemma read_words_ok : forall input i total, 0 <= i < 2 ^ 32 -> i <= total ->
  read_words input i total = map u32 (if total <? 2 ^ 32 then firstn (Z.to_nat (total - i)) input else input).
Proof.
  induction input as [|q input IH]; intros i total Hi Ht; cbn [read_words].
  - rewrite firstn_nil. destruct (i =? total), (total <? 2 ^ 32); auto.
  - destruct (Z.eqb_spec i total) as [->|NE].
    + destruct (Z.ltb_spec total (2 ^ 32)); [|lia]. rewrite Z.sub_diag. reflexivity.
    + destruct (Z.ltb_spec total (2 ^ 32)).
      * rewrite (u32_id (i + 1)) by lia. rewrite IH by lia. destruct (Z.ltb_spec total (2 ^ 32)); [|lia].
        replace (Z.to_nat (total - i)) with (1 + Z.to_nat (total - (i + 1)))%nat by lia. reflexivity.
      * rewrite IH; [|unfold u32; apply Z.mod_pos_bound; lia|].
        2:{ unfold u32. pose proof (Z.mod_pos_bound (i + 1) (2 ^ 32) ltac:(lia)). lia. }
        destruct (Z.ltb_spec total (2 ^ 32)); [lia|]. reflexivity.
Qed.
Lemma queries_u32 input total : Forall is_u32 (queries_read input total).
Proof.
  unfold queries_read. apply Forall_forall. intros x H. apply in_map_iff in H as (y & <- & _).
  unfold is_u32, u32. apply Z.mod_pos_bound. lia.
Qed.

Lemma last_cons {A} : forall (l : list A) a d, last (a :: l) d = last l a.
Proof.
  induction l as [|y l IH]; intros a d; auto. change (last (a :: y :: l) d) with (last (y :: l) d). now rewrite !IH.
Qed.
Lemma selected_app : forall qs prev K x,
  selected prev (qs ++ [(K, x)]) =
  selected prev qs ++ [match znth K x with Some v => v | None => last (selected prev qs) prev end].
Proof.
  induction qs as [|[K' x'] qs IH]; intros prev K x; cbn [app selected]; auto.
  rewrite IH, last_cons. reflexivity.
Qed.

Lemma combine_firstn_r {A B} : forall (l : list A) (q : list B) k, (length l <= k)%nat -> combine l (firstn k q) = combine l q.
Proof.
  induction l as [|x l IH]; intros q k H; auto. destruct q as [|y q]; [now rewrite firstn_nil|].
  destruct k as [|k]; [cbn in H; lia|]. cbn [firstn combine length] in *. rewrite IH by lia. reflexivity.
Qed.
Lemma length_rep Ks n : 0 <= n -> zlen (flat_map (fun K : list Z => repeat K (Z.to_nat n)) Ks) = zlen Ks * n.
Proof.
  intro H. induction Ks as [|K Ks IH]; auto. cbn [flat_map]. rewrite zlen_app, IH, zlen_cons. unfold zlen at 1.
  rewrite repeat_length. lia.
Qed.
Lemma map_u32_id input : Forall is_u32 input -> map u32 input = input.
Proof.
  intro H. rewrite <- (map_id input) at 2. apply map_ext_in. intros a Ha. rewrite Forall_forall in H.
  apply u32_id. apply (H a Ha).
Qed.
Lemma asked_read Ks n input : 0 <= n -> Forall is_u32 input ->
  asked Ks n (queries_read input (zlen Ks * n)) = asked Ks n input.
Proof.
  intros H HF. unfold queries_read, asked. destruct (zlen Ks * n <? 2 ^ 32).
  - rewrite <- firstn_map, map_u32_id by auto. apply combine_firstn_r. pose proof (length_rep Ks n H) as L. rewrite <- L. unfold zlen. lia.
  - now rewrite map_u32_id.
Qed.
Lemma zlen_read input t : 0 <= t ->
  zlen (queries_read input t) = if t <? 2 ^ 32 then Z.min t (zlen input) else zlen input.
Proof.
  intro H. unfold queries_read. rewrite zlen_map. destruct (t <? 2 ^ 32); auto. unfold zlen. rewrite firstn_length. lia.
Qed.

(** what both programs do with all queries, four times over *)
Lemma perf_ok {B} dbg mem f u Ks ix n input (ask : s_sequence -> Z -> B -> res B) (P : list (list Z * Z) -> B -> Prop) b :
  opened 0 mem f u Ks ix -> 0 <= n < 2 ^ 64 -> zlen Ks < 2 ^ 32 -> Forall is_u32 input -> P [] b ->
  (forall i S s x done b, znth Ks i = Some S -> seq_at mem (addr Ks f i) = Ok s -> is_u32 x -> P done b ->
    exists b', ask s x b = Ok b' /\ P (done ++ [(S, x)]) b') ->
  let queries := read_words input 0 (u64 (ix_size ix * n)) in
  (Ks = [] \/ n < 2 ^ 32 -> zlen Ks * n <= zlen input ->
     zlen queries = (if zlen Ks * n <? 2 ^ 32 then zlen Ks * n else zlen input)
     /\ exists b', ask_all dbg mem ix n queries ask b = Ok b' /\ P (asked Ks n input) b')
  /\ (zlen input < zlen Ks * n \/ Ks <> [] /\ 2 ^ 32 <= n -> ask_all dbg mem ix n queries ask b = UB).
Proof.
  intros O Hn HK HF HP HA. cbn zeta. rewrite (proj1 (proj2 O)). pose proof (zlen_nonneg _ Ks) as K0.
  pose proof (zlen_nonneg _ input) as I0.
  destruct (Z_lt_le_dec n (2 ^ 32)) as [N|N].
  - rewrite (u64_id (zlen Ks * n)) by nia. rewrite read_words_ok by nia. rewrite Z.sub_0_r.
    fold (queries_read input (zlen Ks * n)). rewrite zlen_read by nia.
    destruct (ask_all_ok dbg mem f u Ks ix n (queries_read input (zlen Ks * n)) ask P O ltac:(lia) HK (queries_u32 _ _) HA b HP) as [A1 A2].
    rewrite zlen_read in A1, A2 by nia. rewrite asked_read in A1 by (auto; lia). split.
    + intros _ HL. split.
      * destruct (zlen Ks * n <? 2 ^ 32); auto. lia.
      * apply A1; auto. destruct (zlen Ks * n <? 2 ^ 32); lia.
    + intros [H|H]; [|lia]. apply A2. left. destruct (zlen Ks * n <? 2 ^ 32); lia.
  - split.
    + intros [->|H]; [|lia]. intros _. rewrite zlen_nil. cbn [Z.mul]. change (u64 0) with 0.
      destruct input as [|x input]; cbn [read_words]; rewrite Z.eqb_refl; split; try reflexivity;
      destruct (ask_all_ok dbg mem f u [] ix n [] ask P O ltac:(lia) HK ltac:(constructor) HA b HP) as [A1 _];
      rewrite zlen_nil in A1; apply A1; auto; lia.
    + intro H. apply (ask_all_ok dbg mem f u Ks ix n _ ask P O ltac:(lia) HK) with (b := b) (2 := HA); auto.
      * rewrite read_words_ok; [|lia|unfold u64; apply Z.mod_pos_bound; lia]. rewrite Z.sub_0_r. apply queries_u32.
      * right. split; auto. intros ->. rewrite zlen_nil in H. destruct H as [H|[H _]]; [lia|now apply H].
Qed.

Lemma select_cpp_ok dbg mem f u Ks ix n input :
  opened 0 mem f u Ks ix -> 0 <= n < 2 ^ 64 -> zlen Ks < 2 ^ 32 -> Forall is_u32 input ->
  (Ks = [] \/ n < 2 ^ 32 -> zlen Ks * n <= zlen input ->
     select_cpp dbg mem f n input
     = Ok (if zlen Ks * n <? 2 ^ 32 then zlen Ks * n else zlen input,
           4 * total (fun v => v) (selected 0 (asked Ks n input)) mod 2 ^ 64))
  /\ (zlen input < zlen Ks * n \/ Ks <> [] /\ 2 ^ 32 <= n -> select_cpp dbg mem f n input = UB).
Proof.
  intros O Hn HK HF. unfold select_cpp, perf_select. rewrite (proj1 O). cbn [bind].
  set (queries := read_words _ _ _). set (ask := fun (s : s_sequence) (x : Z) (st : Z * Z) => _).
  assert (X : forall t,
    (Ks = [] \/ n < 2 ^ 32 -> zlen Ks * n <= zlen input ->
     zlen queries = (if zlen Ks * n <? 2 ^ 32 then zlen Ks * n else zlen input)
     /\ exists v, ask_all dbg mem ix n queries ask (0, u64 t)
                  = Ok (v, u64 (t + total (fun v => v) (selected 0 (asked Ks n input)))))
    /\ (zlen input < zlen Ks * n \/ Ks <> [] /\ 2 ^ 32 <= n -> ask_all dbg mem ix n queries ask (0, u64 t) = UB)).
  { intro t. destruct (perf_ok dbg mem f u Ks ix n input ask
      (fun done b => b = (last (selected 0 done) 0, u64 (t + total (fun v => v) (selected 0 done)))) (0, u64 t))
      as [A1 A2]; auto.
    - cbn. now rewrite Z.add_0_r.
    - intros i S s x done b ES Es Hx ->. pose proof (opened_valid _ _ _ _ _ _ _ _ O ES) as V.
      destruct O as (O1 & O2 & O3 & O4 & G). destruct (G _ S ES) as (s1 & Es1 & St & EG).
      destruct (c06_select dbg mem _ S x (last (selected 0 done) 0) V St Hx) as (s' & Es' & C1 & C2).
      rewrite Es in Es'. injection Es' as <-. unfold ask. cbn [bind]. rewrite selected_app, P_Stats.total_app, last_last.
      cbn [total fold_right]. rewrite Z.add_0_r, Z.add_assoc.
      destruct (znth S x) as [v|] eqn:EZ.
      + rewrite (C1 v eq_refl). cbn [bind]. eexists. split; [reflexivity|]. now rewrite u64_add.
      + rewrite (C2 ltac:(apply znth_None in EZ; unfold is_u32 in Hx; lia)). cbn [bind]. eexists. split; [reflexivity|].
        now rewrite u64_add.
    - split; auto. intros H1 H2. destruct (A1 H1 H2) as (E & [v t'] & EA & EP). split; auto. exists v. injection EP as -> E2. rewrite <- E2. exact EA. }
  split.
  - intros H1 H2. destruct (proj1 (X 0) H1 H2) as [EL _].
    destruct (times_sum (fun t st => st = u64 t)
      (fun total0 => let! (_, total0) := ask_all dbg mem ix n queries ask (0, total0) in Ok total0)
      (total (fun v => v) (selected 0 (asked Ks n input)))) with (n := 4%nat) (t := 0) (st := 0) as (st & -> & ->); auto.
    + intros t st ->. destruct (proj1 (X t) H1 H2) as (_ & v & ->). cbn [bind]. eauto.
    + cbn [bind]. now rewrite EL.
  - intro H. rewrite times_ub; auto. now rewrite (proj2 (X 0) H : ask_all dbg mem ix n queries ask (0, 0) = UB).
Qed.

Lemma next_geq_cpp_ok dbg mem f u Ks ix n input :
  opened 0 mem f u Ks ix -> 0 <= n < 2 ^ 64 -> zlen Ks < 2 ^ 32 -> Forall is_u32 input ->
  (Ks = [] \/ n < 2 ^ 32 -> zlen Ks * n <= zlen input ->
     next_geq_cpp dbg mem f n input
     = Ok (if zlen Ks * n <? 2 ^ 32 then zlen Ks * n else zlen input,
           4 * total (fun q => spec_next_geq (fst q) (snd q)) (asked Ks n input) mod 2 ^ 64))
  /\ (zlen input < zlen Ks * n \/ Ks <> [] /\ 2 ^ 32 <= n -> next_geq_cpp dbg mem f n input = UB).
Proof.
  intros O Hn HK HF. unfold next_geq_cpp, perf_next_geq. rewrite (proj1 O). cbn [bind].
  set (queries := read_words _ _ _). set (ask := fun (s : s_sequence) (x : Z) (st : Z) => _).
  set (tot := fun l => total (fun q : list Z * Z => spec_next_geq (fst q) (snd q)) l).
  assert (X : forall t,
    (Ks = [] \/ n < 2 ^ 32 -> zlen Ks * n <= zlen input ->
     zlen queries = (if zlen Ks * n <? 2 ^ 32 then zlen Ks * n else zlen input)
     /\ ask_all dbg mem ix n queries ask (u64 t) = Ok (u64 (t + tot (asked Ks n input))))
    /\ (zlen input < zlen Ks * n \/ Ks <> [] /\ 2 ^ 32 <= n -> ask_all dbg mem ix n queries ask (u64 t) = UB)).
  { intro t. destruct (perf_ok dbg mem f u Ks ix n input ask (fun done b => b = u64 (t + tot done)) (u64 t)) as [A1 A2]; auto.
    - cbn. now rewrite Z.add_0_r.
    - intros i S s x done b ES Es Hx ->. pose proof (opened_valid _ _ _ _ _ _ _ _ O ES) as V.
      destruct O as (O1 & O2 & O3 & O4 & G). destruct (G _ S ES) as (s1 & Es1 & St & EG).
      destruct (next_geq_ok dbg mem _ S x V St Hx) as (s' & Es' & ER).
      rewrite Es in Es'. injection Es' as <-. unfold ask. rewrite ER. cbn [bind]. eexists. split; [reflexivity|].
      unfold tot. rewrite P_Stats.total_app. cbn [total fold_right fst snd]. rewrite Z.add_0_r, Z.add_assoc, u64_add.
      reflexivity.
    - split; auto. intros H1 H2. destruct (A1 H1 H2) as (E & t' & EA & EP). subst t'. auto. }
  split.
  - intros H1 H2. destruct (proj1 (X 0) H1 H2) as [EL _].
    destruct (times_sum (fun t st => st = u64 t) (ask_all dbg mem ix n queries ask) (tot (asked Ks n input)))
      with (n := 4%nat) (t := 0) (st := 0) as (st & -> & ->); auto.
    + intros t st ->. destruct (proj1 (X t) H1 H2) as (_ & ->). eauto.
    + cbn [bind]. now rewrite EL.
  - intro H. rewrite times_ub; auto. exact (proj2 (X 0) H).
Qed.

(** ** intersect.cpp and union.cpp *)
Lemma pairs_of_u32 Ks qs : pairs_of Ks qs -> Forall (fun q => is_u32 (fst q) /\ is_u32 (snd q)) qs.
Proof. intro H. eapply Forall_impl; [|exact H]. cbn beta. tauto. Qed.

Lemma intersect_cpp_ok tbl dbg mem f u Ks ix num input qs :
  shuffle_table_ok tbl -> 0 <= u -> opened 31 mem f u Ks ix -> pairs_read num input qs -> pairs_of Ks qs ->
  Forall (fun q => common (list_of Ks (fst q)) (list_of Ks (snd q)) + 23 <= u) qs ->
  intersect_cpp tbl dbg mem f num input
  = Ok (zlen qs, 11 * total (fun q => common (list_of Ks (fst q)) (list_of Ks (snd q))) qs mod 2 ^ 64).
Proof.
  intros Ht Hu O HR HQ HB. unfold intersect_cpp, perf_intersection. rewrite (pairs_read_ok _ _ _ HR (pairs_of_u32 _ _ HQ)).
  rewrite (proj1 O). cbn [bind]. rewrite (proj1 (proj2 (proj2 O))).
  set (g := fun q : Z * Z => common (list_of Ks (fst q)) (list_of Ks (snd q))).
  set (body := fun (q : Z * Z) (st : scratch * list Z * Z) => _).
  destruct (times_sum (fun t st => sized (fst (fst st)) /\ zlen (snd (fst st)) = u /\ snd st = u64 t) (run_queries body qs) (total g qs))
    with (n := 11%nat) (t := 0) (st := (scratch0, repeat 0 (Z.to_nat u), 0)) as ([[sc out] t] & -> & _ & _ & Et).
  - intros t st HP. apply queries_sum with (P := fun t st => sized (fst (fst st)) /\ zlen (snd (fst st)) = u /\ snd st = u64 t); auto.
    clear t st HP. intros q t [[sc out] t'] Hq (SZ & Lo & Et). cbn [fst snd] in *. subst t'.
    unfold pairs_of in HQ. rewrite Forall_forall in HQ, HB. destruct (HQ q Hq) as ((S & ES) & (T & ET) & _ & _).
    specialize (HB q Hq). cbn beta in HB. unfold g. unfold list_of in *. rewrite ES, ET in *.
    pose proof (opened_valid _ _ _ _ _ _ _ _ O ES) as VS. pose proof (opened_valid _ _ _ _ _ _ _ _ O ET) as VT.
    destruct O as (O1 & O2 & O3 & O4 & G). destruct (G _ S ES) as (s1 & Es1 & StS & EG1).
    destruct (G _ T ET) as (s2 & Es2 & StT & EG2). unfold body. rewrite EG1, EG2. cbn [bind run_call].
    destruct (c11_intersection tbl mem _ _ S T Ht VS VT StS StT) as (e & En & HC).
    assert (e = isect S T) as -> by (apply isect_unique; [apply VS|apply En|apply En]).
    change (common S T) with (zlen (isect S T)) in *.
    destruct SZ as (Z1 & Z2 & Z3 & Z4 & Z5 & Z6 & Z7 & Z8).
    destruct (HC dbg (sc_inter sc) out 0) as (s' & t' & x' & o' & Hs' & Ht' & EC & Hx & W); try lia.
    rewrite Es1 in Hs'. injection Hs' as <-. rewrite Es2 in Ht'. injection Ht' as <-. rewrite EC.
    cbn [bind]. eexists. split; [reflexivity|]. cbn [fst snd]. split.
    { unfold sized. cbn [sc_inter sc_block sc_union sc_and sc_or sc_headers sc_ibitmap sc_ubitmap]. repeat split; auto. }
    split; [|apply u64_add]. rewrite (wrote_zlen _ _ _ _ _ W). lia.
  - cbn [fst snd]. split; [apply sized_scratch0|]. split; auto. rewrite zlen_repeat. lia.
  - cbn [bind]. cbn [fst snd] in Et. rewrite Et. reflexivity.
Qed.

Lemma zlen_filter_split {A} (p : A -> bool) l : zlen (filter p l) + zlen (filter (fun x => negb (p x)) l) = zlen l.
Proof. induction l as [|x l IH]; auto. cbn [filter]. destruct (p x); cbn [negb]; rewrite !zlen_cons; lia. Qed.
Lemma zlen_same (a b : list Z) : NoDup a -> NoDup b -> (forall v, In v a <-> In v b) -> zlen a = zlen b.
Proof.
  intros Ha Hb H. unfold zlen. apply Z.le_antisymm; apply inj_le; apply NoDup_incl_length; auto; intros v; apply H.
Qed.
Lemma NoDup_app_intro {A} (a b : list A) : NoDup a -> NoDup b -> (forall x, In x a -> In x b -> False) -> NoDup (a ++ b).
Proof.
  induction 1 as [|x a Hx Ha IH]; intros Hb HD; auto. cbn [app]. constructor.
  - rewrite in_app_iff. intros [H|H]; auto. apply (HD x); auto. now left.
  - apply IH; auto. intros y H1 H2. apply (HD y); auto. now right.
Qed.
Lemma zlen_uni S T : valid S -> valid T -> zlen (uni S T) = zlen S + zlen T - common S T.
Proof.
  intros VS VT. assert (NS : NoDup S) by apply sorted_NoDup, VS. assert (NT : NoDup T) by apply sorted_NoDup, VT.
  pose proof (zlen_filter_split (memb T) S) as E. change (zlen (filter (memb T) S)) with (common S T) in E.
  assert (EU : zlen (uni S T) = zlen (filter (fun x => negb (memb T x)) S ++ T)).
  { apply zlen_same.
    - apply sorted_NoDup. apply sorted_uni; [apply VS|apply VT].
    - apply NoDup_app_intro; auto. apply NoDup_filter; auto. intros x H1 H2. apply filter_In in H1 as [_ H1].
      apply memb_In in H2. rewrite H2 in H1. discriminate.
    - intro v. rewrite In_uni, in_app_iff, filter_In. split.
      + intros [H|H]; auto. destruct (memb T v) eqn:EM; [right; now apply memb_In|auto].
      + tauto. }
  rewrite EU, zlen_app. lia.
Qed.

Lemma union_cpp_ok tbl dbg mem f u Ks ix num input qs :
  0 <= u -> opened 31 mem f u Ks ix -> pairs_read num input qs -> pairs_of Ks qs ->
  let size q := zlen (list_of Ks (fst q)) + zlen (list_of Ks (snd q)) - common (list_of Ks (fst q)) (list_of Ks (snd q)) in
  Forall (fun q => size q + 23 <= u) qs ->
  union_cpp tbl dbg mem f num input = Ok (zlen qs, 11 * total size qs mod 2 ^ 64).
Proof.
  intros Hu O HR HQ g HB. unfold union_cpp, perf_union. rewrite (pairs_read_ok _ _ _ HR (pairs_of_u32 _ _ HQ)).
  rewrite (proj1 O). cbn [bind]. rewrite (proj1 (proj2 (proj2 O))).
  set (body := fun (q : Z * Z) (st : scratch * list Z * Z) => _).
  destruct (times_sum (fun t st => sized (fst (fst st)) /\ zlen (snd (fst st)) = u /\ snd st = u64 t) (run_queries body qs) (total g qs))
    with (n := 11%nat) (t := 0) (st := (scratch0, repeat 0 (Z.to_nat u), 0)) as ([[sc out] t] & -> & _ & _ & Et).
  - intros t st HP. apply queries_sum with (P := fun t st => sized (fst (fst st)) /\ zlen (snd (fst st)) = u /\ snd st = u64 t); auto.
    clear t st HP. intros q t [[sc out] t'] Hq (SZ & Lo & Et). cbn [fst snd] in *. subst t'.
    unfold pairs_of in HQ. rewrite Forall_forall in HQ, HB. destruct (HQ q Hq) as ((S & ES) & (T & ET) & _ & _).
    specialize (HB q Hq). cbn beta in HB. unfold g in *. unfold list_of in *. rewrite ES, ET in *.
    pose proof (opened_valid _ _ _ _ _ _ _ _ O ES) as VS. pose proof (opened_valid _ _ _ _ _ _ _ _ O ET) as VT.
    destruct O as (O1 & O2 & O3 & O4 & G). destruct (G _ S ES) as (s1 & Es1 & StS & EG1).
    destruct (G _ T ET) as (s2 & Es2 & StT & EG2). unfold body. rewrite EG1, EG2. cbn [bind run_call].
    destruct (c12_union mem _ _ S T VS VT StS StT (addr_apart Ks f _ _ S T O4 ES ET)) as (e & En & HC).
    assert (e = uni S T) as -> by (apply uni_unique; [apply VS|apply VT|apply En|apply En]).
    rewrite <- (zlen_uni S T VS VT) in *.
    destruct SZ as (Z1 & Z2 & Z3 & Z4 & Z5 & Z6 & Z7 & Z8).
    destruct (HC dbg (sc_block sc) (sc_union sc) out 0) as (s' & t' & x' & y' & o' & Hs' & Ht' & EC & Hx & Hy & W); try lia.
    rewrite Es1 in Hs'. injection Hs' as <-. rewrite Es2 in Ht'. injection Ht' as <-. rewrite EC.
    cbn [bind]. eexists. split; [reflexivity|]. cbn [fst snd]. split.
    { unfold sized. cbn [sc_inter sc_block sc_union sc_and sc_or sc_headers sc_ibitmap sc_ubitmap]. repeat split; auto. }
    split; [|apply u64_add]. rewrite (wrote_zlen _ _ _ _ _ W). lia.
  - cbn [fst snd]. split; [apply sized_scratch0|]. split; auto. rewrite zlen_repeat. lia.
  - cbn [bind]. cbn [fst snd] in Et. rewrite Et. reflexivity.
Qed.

(** ** build.cpp *)
Lemma build_cpp_ok dbg params u Ls :
  Forall valid (kept_lists params Ls) -> Forall short Ls -> total zlen (kept_lists params Ls) < 2 ^ 37 ->
  ((forall i, 1 <= i <= 256 -> sparse_chunks i (kept_lists params Ls) <> []) ->
     build_cpp dbg params (collection u Ls)
     = Ok (shown (counters (8 * zlen (f_index u (kept_lists params Ls))) (kept_lists params Ls)),
           f_index u (kept_lists params Ls)))
  /\ ((exists i, 1 <= i <= 256 /\ sparse_chunks i (kept_lists params Ls) = []) ->
     build_cpp dbg params (collection u Ls) = UB).
Proof.
  intros V HSh B. unfold build_cpp. destruct (c29_index dbg params u Ls V HSh) as (st & o & q & E & F). rewrite E. cbn [bind]. split.
  - intro H. rewrite (c28_shown dbg params u Ls st o q V HSh B E H). cbn [bind]. rewrite F. reflexivity.
  - intro H. rewrite (proj1 (P_Print.c28_print dbg params u Ls st o q V HSh B E) H). reflexivity.
Qed.

(** ** example.cpp *)
Lemma kept_default S : S <> [] -> filter (fun L => pass default_params (zlen L) (last L 0)) [S] = [S].
Proof.
  intro N. cbn [filter]. assert (P : pass default_params (zlen S) (last S 0) = true); [|now rewrite P].
  unfold pass. destruct (_ && _); auto. cbn [p_size default_params].
  destruct (Z.ltb_spec 0 (zlen S)); auto. destruct S; [easy|]. rewrite zlen_cons in *. pose proof (zlen_nonneg _ S). lia.
Qed.
Lemma valid_len S : valid S -> zlen S <= 2 ^ 32.
Proof.
  intros V. destruct (valid_chunks S V) as (_ & _ & _ & _ & L). lia.
Qed.
Lemma print_one dbg S : valid S ->
  exists stats enc, builder_build dbg [] S = (Ok stats, enc) /\ encoding dbg S enc
    /\ ((exists i, 1 <= i <= 256 /\ sparse_chunks i [S] = []) -> print stats = UB)
    /\ ((forall i, 1 <= i <= 256 -> sparse_chunks i [S] <> []) -> exists o, print stats = Ok o).
Proof.
  intros V. destruct (c18_exact_sequence dbg [] S V) as (st & enc & EB & C). exists st, enc. split; [exact EB|].
  assert (K : filter (fun L => pass default_params (zlen L) (last L 0)) [S] = [S]) by (apply kept_default, V).
  assert (V1 : Forall valid (filter (fun L => pass default_params (zlen L) (last L 0)) [S])) by (rewrite K; auto).
  assert (HSh : Forall short [S]) by (constructor; [now apply P_Index.short_valid|constructor]).
  destruct (c18_exact_index dbg default_params 0 [S] V1 HSh) as (st' & o & q & E' & C'). rewrite K in C'.
  assert (EQ : forall f, f <> F_bits -> st' f = st f).
  { intros f F. rewrite C, C' by auto. cbn. lia. }
  assert (I : forall i, st (F_num_blocks_in_chunks i) = P_Print.n_sparse i [S] /\ st (F_num_integers i) = P_Print.n_ints i [S]).
  { intro i. pose proof (P_Print.index_stats dbg default_params 0 [S] st' o q V1 HSh E' i) as I. rewrite K in I.
    rewrite <- !EQ by discriminate. exact I. }
  split; [exists st; exact EB|].
  assert (B : total zlen [S] < 2 ^ 37) by (pose proof (valid_len S V); cbn [total fold_right]; lia).
  assert (F : forall i, sparse_chunks i [S] <> [] -> P_Print.fine st i).
  { intros i N. destruct (I i) as [I1 I2]. unfold P_Print.fine. rewrite I1, I2.
    pose proof (P_Print.sparse_bounds i [S]) as [B1 B2]. pose proof (P_Print.ints_bound i [S] ltac:(auto)).
    assert (0 < P_Print.n_sparse i [S]).
    { unfold P_Print.n_sparse. destruct (sparse_chunks i [S]); [now destruct N|]. rewrite zlen_cons. pose proof (zlen_nonneg _ l). lia. }
    lia. }
  assert (X : forall i, sparse_chunks i [S] = [] -> P_Print.void st i).
  { intros i N. destruct (I i) as [I1 I2]. unfold P_Print.void. rewrite I1, I2. unfold P_Print.n_sparse, P_Print.n_ints.
    rewrite N. split; reflexivity. }
  split.
  - intros (i & Hi & Ni). apply P_Print.print_ub; [|exists i; auto].
    intros j _. destruct (sparse_chunks j [S]) eqn:Ej; [right; auto|left]. apply F. rewrite Ej. discriminate.
  - intro H. destruct (P_Print.print_ok st) as (out & P & _); [intros; apply F; auto|]. eauto.
Qed.

Lemma example_loop_ok dbg mem a S ss out :
  valid S -> stored 0 mem a S -> seq_at mem a = Ok ss -> (forall i, 0 <= i < zlen S -> znth out i = znth S i) ->
  forall m i value, 0 <= i -> i + Z.of_nat m = zlen S -> example_loop m dbg mem ss S out i value = Ok true.
Proof.
  intros V St Es HO. induction m as [|m IH]; intros i value Hi HL; cbn [example_loop]; auto.
  destruct (znth S i) as [x|] eqn:EX; [|apply znth_None in EX; lia].
  rewrite (vget_ok _ _ _ EX), (vget_ok out i x) by (rewrite HO by lia; auto). cbn [bind]. rewrite Z.eqb_refl. cbn [negb].
  pose proof (valid_len S V). rewrite u32_id by lia.
  destruct (c06_select dbg mem a S i value V St) as (s' & Es' & C & _); [unfold is_u32; lia|].
  rewrite Es in Es'. injection Es' as <-. rewrite (C x EX). cbn [bind]. rewrite Z.eqb_refl. cbn [negb]. apply IH; lia.
Qed.
Lemma example_check_ok dbg mem a S : valid S -> stored 31 mem a S ->
  (decode_fits S (zlen S) -> example_check dbg mem a S = Ok true)
  /\ (~ decode_fits S (zlen S) -> example_check dbg mem a S = UB).
Proof.
  intros V St. pose proof (stored_weaken _ 0 _ _ _ St ltac:(lia)) as St0.
  destruct (c04_size mem a S V St0) as (s & Es & Ez & _). unfold example_check. rewrite Es. cbn [bind]. rewrite Ez. cbn [bind].
  pose proof (zlen_nonneg _ S) as L0.
  assert (LR : zlen (repeat 0 (Z.to_nat (zlen S))) = zlen S) by (rewrite zlen_repeat; lia).
  destruct (c34_decode dbg mem a S (repeat 0 (Z.to_nat (zlen S))) 0 V St ltac:(lia)) as (s' & Es' & D1 & D2).
  rewrite Es in Es'. injection Es' as <-. rewrite LR, Z.sub_0_r in D1, D2. split.
  - intro H. destruct (D1 H) as (out & ED & _ & HO & _). rewrite ED. cbn [bind].
    apply example_loop_ok with (a := a); auto; lia.
  - intro H. rewrite (D2 H). reflexivity.
Qed.
Lemma example_cpp_ok dbg place S : valid S ->
  (forall enc, bytes_at (fst (place enc)) (snd (place enc)) enc /\ snd (place enc) + zlen enc + 31 <= zlen (fst (place enc))) ->
  ((exists i, 1 <= i <= 256 /\ sparse_chunks i [S] = []) -> example_cpp dbg place S = UB)
  /\ (~ decode_fits S (zlen S) -> example_cpp dbg place S = UB)
  /\ ((forall i, 1 <= i <= 256 -> sparse_chunks i [S] <> []) -> decode_fits S (zlen S) -> example_cpp dbg place S = Ok true).
Proof.
  intros V HP. unfold example_cpp. destruct (print_one dbg S V) as (st & enc & EB & EE & P1 & P2). rewrite EB.
  destruct (HP enc) as [B L]. destruct (place enc) as [mem a]. cbn [fst snd] in B, L.
  destruct (example_check_ok dbg mem a S V ltac:(exists dbg, enc; auto)) as [C1 C2].
  split; [|split].
  - intro H. rewrite (P1 H). reflexivity.
  - intro H. rewrite (C2 H).
    destruct (Forall_Exists_dec (fun i => sparse_chunks i [S] <> [])) with (l := zrange 1 256) as [A|X].
    + intro i. destruct (sparse_chunks i [S]); [right; intro N; now apply N|left; discriminate].
    + rewrite Forall_forall in A. destruct P2 as (o & ->); [|reflexivity]. intros i Hi. apply A, In_zrange. lia.
    + apply Exists_exists in X as (i & Hi & Ni). apply In_zrange in Hi. rewrite P1; auto. exists i. split; [lia|].
      destruct (sparse_chunks i [S]); auto. exfalso. apply Ni. discriminate.
  - intros H1 H2. destruct (P2 H1) as (o & ->). cbn [bind]. auto.
Qed.

(** a sequence for which example.cpp runs to the end: chunk i is stored as i blocks, and the last
    block is a bitmap *)
Definition ladder : list Z :=
  flat_map (fun i => map (Z.add (65536 * i)) (P_Print.comb i)) (zrange 1 256)
  ++ map (Z.add (65536 * 257)) (zrange 0 31).

Lemma card_in_ch w S h b : 0 < w -> (forall v, v / w = b -> v / 65536 = h) -> card w (in_ch S h) b = card w S b.
Proof.
  intros Hw H. unfold card, in_ch. induction S as [|v S IH]; auto. cbn [filter].
  destruct (Z.eqb_spec (v / 65536) h) as [E|E].
  - cbn [filter]. destruct (v / w =? b); [rewrite !zlen_cons; lia|exact IH].
  - destruct (Z.eqb_spec (v / w) b) as [E'|E']; [exfalso; auto|exact IH].
Qed.
Lemma block_in_chunk v h b : 0 <= b < 256 -> v / 256 = 256 * h + b -> v / 65536 = h.
Proof.
  intros Hb E. change 65536 with (256 * 256). rewrite <- Z.div_div by lia. rewrite E. rewrite Z.mul_comm, Z.div_add_l by lia.
  rewrite Z.div_small; lia.
Qed.
Lemma sparse_in_ch i S h : sparse_with i S h = sparse_with i (in_ch S h) h.
Proof.
  assert (C : forall b, In b (zrange 0 256) -> card 256 (in_ch S h) (256 * h + b) = card 256 S (256 * h + b)).
  { intros b Hb. apply In_zrange in Hb. apply card_in_ch; [lia|]. intros v. apply block_in_chunk. lia. }
  unfold sparse_with. rewrite (card_in_ch 65536 S h h) by (auto; lia). f_equal; [f_equal; f_equal|f_equal].
  - unfold blocks_cost. apply P_Stats.total_ext. intros b Hb. now rewrite C.
  - unfold blocks_in. f_equal. apply filter_ext_in. intros b Hb. now rewrite C.
Qed.
Lemma card_shift w L d b : 0 < w -> card w (map (Z.add (w * d)) L) (d + b) = card w L b.
Proof.
  intro Hw. unfold card. rewrite (Z.mul_comm w d). induction L as [|v L IH]; auto. cbn [map filter].
  rewrite Z.div_add_l by lia.
  assert (E : (d + v / w =? d + b) = (v / w =? b)) by (destruct (Z.eqb_spec (d + v / w) (d + b)), (Z.eqb_spec (v / w) b); lia).
  rewrite E. destruct (v / w =? b); [rewrite !zlen_cons; lia|exact IH].
Qed.
Lemma sparse_shift i L h : sparse_with i (map (Z.add (65536 * h)) L) h = sparse_with i L 0.
Proof.
  assert (C : forall b, card 256 (map (Z.add (65536 * h)) L) (256 * h + b) = card 256 L (256 * 0 + b)).
  { intro b. replace (65536 * h) with (256 * (256 * h)) by lia. rewrite card_shift by lia. reflexivity. }
  unfold sparse_with. replace (card 65536 (map (Z.add (65536 * h)) L) h) with (card 65536 L 0)
    by (rewrite <- (card_shift 65536 L h 0) by lia; now rewrite Z.add_0_r).
  f_equal; [f_equal; f_equal|f_equal].
  - unfold blocks_cost. apply P_Stats.total_ext. intros b Hb. now rewrite C.
  - unfold blocks_in. f_equal. apply filter_ext_in. intros b Hb. now rewrite C.
Qed.
Lemma ladder_chunk i : 1 <= i <= 256 -> in_ch ladder i = map (Z.add (65536 * i)) (P_Print.comb i).
Proof.
  intro H. unfold in_ch, ladder. rewrite filter_app.
  assert (T : forall j, 1 <= j <= 256 -> filter (fun v => v / 65536 =? i) (map (Z.add (65536 * j)) (P_Print.comb j))
            = if j =? i then map (Z.add (65536 * j)) (P_Print.comb j) else []).
  { intros j Hj. assert (Q : forall v, In v (map (Z.add (65536 * j)) (P_Print.comb j)) -> v / 65536 = j).
    { intros v Hv. apply in_map_iff in Hv as (x & <- & Hx). apply in_map_iff in Hx as (b & <- & Hb). apply In_zrange in Hb.
      rewrite Z.mul_comm, Z.div_add_l by lia. rewrite Z.div_small; lia. }
    destruct (Z.eqb_spec j i) as [->|NE].
    - apply P_Stats.filter_all. intros v Hv. apply Z.eqb_eq. auto.
    - apply filter_none. intros v Hv. apply Z.eqb_neq. rewrite Q; auto. }
  assert (G : forall n d, (forall j, In j (zrange d n) -> 1 <= j <= 256) ->
     filter (fun v => v / 65536 =? i) (flat_map (fun i => map (Z.add (65536 * i)) (P_Print.comb i)) (zrange d n))
     = if (d <=? i) && (i <? d + Z.of_nat n) then map (Z.add (65536 * i)) (P_Print.comb i) else []).
  { induction n as [|n IH]; intros d Hd.
    - cbn. destruct (Z.leb_spec d i), (Z.ltb_spec i (d + 0)); auto; lia.
    - cbn [zrange flat_map]. rewrite filter_app, T by (apply Hd; now left). rewrite IH by (intros; apply Hd; now right).
      destruct (Z.eqb_spec d i) as [->|NE].
      + replace ((i + 1 <=? i) && _) with false by (destruct (Z.leb_spec (i + 1) i); [lia|reflexivity]).
        rewrite app_nil_r. replace ((i <=? i) && _) with true; auto.
        destruct (Z.leb_spec i i), (Z.ltb_spec i (i + Z.of_nat (Datatypes.S n))); try lia; reflexivity.
      + cbn [app]. replace (d + 1 <=? i) with (d <=? i) by (destruct (Z.leb_spec d i), (Z.leb_spec (d + 1) i); lia).
        now replace (d + Z.of_nat (Datatypes.S n)) with (d + 1 + Z.of_nat n) by lia. }
  rewrite G by (intros j Hj; apply In_zrange in Hj; lia).
  replace ((1 <=? i) && _) with true by (destruct (Z.leb_spec 1 i), (Z.ltb_spec i (1 + Z.of_nat 256)); lia || reflexivity).
  rewrite filter_none, app_nil_r; auto. intros v Hv. apply Z.eqb_neq.
  apply in_map_iff in Hv as (b & <- & Hb). apply In_zrange in Hb. rewrite Z.mul_comm, Z.div_add_l by lia. rewrite Z.div_small; lia.
Qed.
Lemma sparse_here i h S : 0 <= h < 65536 -> sparse_with i S h = true -> sparse_chunks i [S] <> [].
Proof.
  intros H E N. assert (X : In (S, h) (sparse_chunks i [S])); [|rewrite N in X; contradiction].
  unfold sparse_chunks. apply in_flat_map. exists S. split; [now left|].
  apply in_map, filter_In. split; auto. apply In_zrange. rewrite Z2Nat.id; lia.
Qed.
Lemma ladder_sparse i : 1 <= i <= 256 -> sparse_chunks i [ladder] <> [].
Proof.
  intros H. apply (sparse_here i i); [lia|].
  rewrite sparse_in_ch, ladder_chunk, sparse_shift by auto. now apply P_Print.comb_sparse.
Qed.
Lemma ladder_valid : valid ladder.
Proof. apply valid_b_ok. vm_compute. reflexivity. Qed.
Lemma ladder_fits : decode_fits ladder (zlen ladder).
Proof. apply (decode_fits_iff _ _ ladder_valid). vm_compute. discriminate. Qed.

(** ** the theorems *)
Lemma c35_cardinality : forall dbg dbg' params u Ls mem f,
  is_u32 u -> Forall valid (kept_lists params Ls) -> holds_index dbg params u Ls 0 mem f ->
  let Ks := kept_lists params Ls in
  cardinality_cpp dbg' mem f = Ok (11 * total zlen Ks mod 2 ^ 64 / 11).
Proof.
  intros dbg dbg' params u Ls mem f Hu V H Ks. destruct (holds_opened dbg params u Ls 0 mem f Hu ltac:(lia) V H) as (ix & O).
  eapply cardinality_cpp_ok; eauto.
Qed.
Lemma c35_decode : forall dbg dbg' params u Ls mem f,
  is_u32 u -> Forall valid (kept_lists params Ls) -> holds_index dbg params u Ls 31 mem f ->
  let Ks := kept_lists params Ls in
  (Forall (fun S => decode_fits S u) Ks -> decode_cpp dbg' mem f = Ok (zlen Ks, total zlen Ks mod 2 ^ 64))
  /\ (Exists (fun S => ~ decode_fits S u) Ks -> decode_cpp dbg' mem f = UB).
Proof.
  intros dbg dbg' params u Ls mem f Hu V H Ks. destruct (holds_opened dbg params u Ls 31 mem f Hu ltac:(lia) V H) as (ix & O).
  eapply decode_cpp_ok; eauto. apply Hu.
Qed.
Lemma c35_uncompress : forall dbg dbg' params u Ls mem f,
  is_u32 u -> Forall valid (kept_lists params Ls) -> holds_index dbg params u Ls 0 mem f ->
  let Ks := kept_lists params Ls in
  let words := if u <? 4294901760 then 1024 * (u / 65536 + 1) else 0 in
  (Forall (fun S => uncompress_fits S words) Ks -> uncompress_cpp dbg' mem f = Ok (zlen Ks, total zlen Ks mod 2 ^ 64))
  /\ (Exists (fun S => ~ uncompress_fits S words) Ks -> uncompress_cpp dbg' mem f = UB).
Proof.
  intros dbg dbg' params u Ls mem f Hu V H Ks. destruct (holds_opened dbg params u Ls 0 mem f Hu ltac:(lia) V H) as (ix & O).
  eapply uncompress_cpp_ok; eauto.
Qed.
Lemma c35_contains : forall dbg dbg' params u Ls mem f num input qs,
  is_u32 u -> Forall valid (kept_lists params Ls) -> holds_index dbg params u Ls 0 mem f ->
  let Ks := kept_lists params Ls in
  pairs_read num input qs -> positions Ks qs ->
  contains_cpp dbg' mem f num input
  = Ok (zlen qs, 4 * zlen (filter (fun q => existsb (Z.eqb (snd q)) (list_of Ks (fst q))) qs) mod 2 ^ 64).
Proof.
  intros dbg dbg' params u Ls mem f num input qs Hu V H Ks. destruct (holds_opened dbg params u Ls 0 mem f Hu ltac:(lia) V H) as (ix & O).
  eapply contains_cpp_ok; eauto.
Qed.
Lemma c35_select : forall dbg dbg' params u Ls mem f n input,
  is_u32 u -> Forall valid (kept_lists params Ls) -> holds_index dbg params u Ls 0 mem f ->
  let Ks := kept_lists params Ls in
  0 <= n < 2 ^ 64 -> zlen Ks < 2 ^ 32 -> Forall is_u32 input ->
  (Ks = [] \/ n < 2 ^ 32 -> zlen Ks * n <= zlen input ->
     select_cpp dbg' mem f n input
     = Ok (if zlen Ks * n <? 2 ^ 32 then zlen Ks * n else zlen input,
           4 * total (fun v => v) (selected 0 (asked Ks n input)) mod 2 ^ 64))
  /\ (zlen input < zlen Ks * n \/ Ks <> [] /\ 2 ^ 32 <= n -> select_cpp dbg' mem f n input = UB).
Proof.
  intros dbg dbg' params u Ls mem f n input Hu V H Ks. destruct (holds_opened dbg params u Ls 0 mem f Hu ltac:(lia) V H) as (ix & O).
  eapply select_cpp_ok; eauto.
Qed.
Lemma c35_next_geq : forall dbg dbg' params u Ls mem f n input,
  is_u32 u -> Forall valid (kept_lists params Ls) -> holds_index dbg params u Ls 0 mem f ->
  let Ks := kept_lists params Ls in
  0 <= n < 2 ^ 64 -> zlen Ks < 2 ^ 32 -> Forall is_u32 input ->
  (Ks = [] \/ n < 2 ^ 32 -> zlen Ks * n <= zlen input ->
     next_geq_cpp dbg' mem f n input
     = Ok (if zlen Ks * n <? 2 ^ 32 then zlen Ks * n else zlen input,
           4 * total (fun q => spec_next_geq (fst q) (snd q)) (asked Ks n input) mod 2 ^ 64))
  /\ (zlen input < zlen Ks * n \/ Ks <> [] /\ 2 ^ 32 <= n -> next_geq_cpp dbg' mem f n input = UB).
Proof.
  intros dbg dbg' params u Ls mem f n input Hu V H Ks. destruct (holds_opened dbg params u Ls 0 mem f Hu ltac:(lia) V H) as (ix & O).
  eapply next_geq_cpp_ok; eauto.
Qed.
Lemma c35_intersect : forall dbg dbg' tbl params u Ls mem f num input qs,
  is_u32 u -> Forall valid (kept_lists params Ls) -> holds_index dbg params u Ls 31 mem f ->
  let Ks := kept_lists params Ls in
  shuffle_table_ok tbl -> pairs_read num input qs -> pairs_of Ks qs ->
  let size q := common (list_of Ks (fst q)) (list_of Ks (snd q)) in
  Forall (fun q => size q + 23 <= u) qs ->
  intersect_cpp tbl dbg' mem f num input = Ok (zlen qs, 11 * total size qs mod 2 ^ 64).
Proof.
  intros dbg dbg' tbl params u Ls mem f num input qs Hu V H Ks Ht.
  destruct (holds_opened dbg params u Ls 31 mem f Hu ltac:(lia) V H) as (ix & O). intros.
  eapply intersect_cpp_ok; eauto. apply Hu.
Qed.
Lemma c35_union : forall dbg dbg' tbl params u Ls mem f num input qs,
  is_u32 u -> Forall valid (kept_lists params Ls) -> holds_index dbg params u Ls 31 mem f ->
  let Ks := kept_lists params Ls in
  pairs_read num input qs -> pairs_of Ks qs ->
  let size q := zlen (list_of Ks (fst q)) + zlen (list_of Ks (snd q)) - common (list_of Ks (fst q)) (list_of Ks (snd q)) in
  Forall (fun q => size q + 23 <= u) qs ->
  union_cpp tbl dbg' mem f num input = Ok (zlen qs, 11 * total size qs mod 2 ^ 64).
Proof.
  intros dbg dbg' tbl params u Ls mem f num input qs Hu V H Ks.
  destruct (holds_opened dbg params u Ls 31 mem f Hu ltac:(lia) V H) as (ix & O). intros.
  eapply union_cpp_ok; eauto. apply Hu.
Qed.
Lemma c35_example_occurs :
  (valid ladder /\ (forall i, 1 <= i <= 256 -> sparse_chunks i [ladder] <> []) /\ decode_fits ladder (zlen ladder))
  /\ (valid [5] /\ ~ decode_fits [5] (zlen [5])).
Proof.
  split; [exact (conj ladder_valid (conj ladder_sparse ladder_fits))|].
  assert (V : valid [5]) by (apply valid_b_ok; vm_compute; reflexivity). split; [exact V|].
  rewrite (decode_fits_iff _ _ V). vm_compute. intro H. now apply H.
Qed.
Lemma c35_ex :
  kept_lists t_params t_lists = t_kept /\ Forall valid t_kept
  /\ holds_index true t_params 1000 t_lists 31 t_mem 1
  /\ Forall (fun S => zlen S + 23 <= 1000) t_kept
  /\ cardinality_cpp true t_mem 1 = Ok 11
  /\ decode_cpp true t_mem 1 = Ok (3, 11)
  /\ uncompress_cpp true t_mem 1 = Ok (3, 11)
  /\ contains_cpp true t_mem 1 9 [0; 3; 1; 4; 2; 600; 7] = Ok (3, 8)
  /\ select_cpp true t_mem 1 2 [0; 9; 1; 4; 9; 2] = Ok (6, 4 * (1 + 1 + 3 + 71 + 71 + 600))
  /\ select_cpp true t_mem 1 2 [0; 9; 1; 4; 9] = UB
  /\ next_geq_cpp true t_mem 1 1 [2; 6; 601] = Ok (3, 4 * (2 + 70 + 4294967295))
  /\ intersect_cpp ex_tbl true t_mem 1 5 [0; 1; 2; 1] = Ok (2, 11 * (2 + 1))
  /\ union_cpp ex_tbl true t_mem 1 5 [0; 1; 2; 1] = Ok (2, 11 * (6 + 7))
  /\ build_cpp true t_params (collection 1000 t_lists) = UB.
Proof.
  destruct t_example as (E1 & E2 & E3 & E4 & _).
  split; [exact E1|]. split; [exact E2|]. split; [exact E3|].
  split; [eapply Forall_impl; [|exact E4]; cbn beta; tauto|].
  do 9 (split; [vm_compute; reflexivity|]). vm_compute; reflexivity.
Qed.
