(** Proofs for C66, continued: whole programs. *)
From Coq Require Import Lia Sorted String.
From Verif Require Import Base Hw Spec Lib Layout M_Util M_Build M_Seq M_Decode M_Uncompress
  M_Query M_Union M_Many M_Index M_Print M_Calls M_Tests M_Drivers M_Text M_Out M_Say M_Session M_Bench M_Live M_LiveQ
  Holds Format Room RoomSets Shown Typed Printed Told Report Session Bench
  P_Index P_Fin1 P_Room P_Tests P_Tests2 P_Tests4 P_Drivers P_Tools P_Fits P_Text P_Text2 P_Text4 P_Text5 P_Text6 P_Out3 P_Say P_Say2 P_Say3 P_Say4 P_Session P_Session2
  P_Bench P_Bench2 P_Live P_LiveQ.
From Verif Require Import Bench.
Local Open Scope Z_scope.

Definition finish (t : list Z) (d : disk) (x : log * res unit) : list Z * disk * res Z :=
  (t ++ snd (fst x), d, match snd x with Ok _ => Ok 0 | Throw => Throw | Abort => Abort | UB => UB | Fuel => Fuel end).
Lemma then_spoken t d (m : live unit) :
  (let r := then_ (spoken m) (fun _ => quiet (Ok 0)) d in (t ++ fst (fst r), snd (fst r), snd r)) = finish t d (m (true, [])).
Proof.
  unfold then_, spoken, quiet, finish. destruct (m (true, [])) as [[g s] r]. destruct r; cbn [fst snd]; now rewrite ?app_nil_r.
Qed.
Definition ending (k : Z) : list (list piece) := [[W "tested "; N k; W " queries"]; [W "everything good"]].
Lemma ending_text k : say_count "tested " k " queries" ++ codes "everything good" ++ endl = ptext [] (ending k).
Proof. unfold ending. lines. Qed.
Lemma ending_nonneg k : 0 <= k -> Forall (Forall nonneg) (ending k).
Proof. intro. unfold ending. pieces. Qed.

(** ** pairs *)
Section Pairs.
Variables (iso : bool) (what : string) (core : list Z -> s_index -> Z * Z -> qstate -> res (qstate * Z * Z)).
Variables (mapped : list Z -> list Z * Z) (name idx w : list Z) (more : list (list Z)) (d : disk) (num : Z).
Let run t := run_test_pairs iso what core mapped name (idx :: w :: more) t d.
Hypothesis (Hw : count_word w num) (Hn : 0 <= num < 2 ^ 60).

Lemma test_pairs_scan t qs : scan_pairs (S (length t)) iso t 0 num = Ok qs ->
  (no_file d idx -> run t = (say_reading, d, Throw))
  /\ forall u Ks mem f ix, index_on d mapped idx u Ks -> mapped (f_index u Ks) = (mem, f) -> index_mmap mem f = Ok ix ->
     run t = finish say_reading d (live_pairs what (core mem ix) qs ix (true, [])).
Proof.
  intro E. unfold run, run_test_pairs. rewrite (then_quiet _ _ _ num) by now apply stoull_count.
  rewrite (then_quiet _ _ _ tt) by (apply reserve_ok; lia). rewrite then_cout, (then_quiet _ _ _ qs E). split.
  - intro H. rewrite mmap_missing by exact H. cbn [fst snd]. now rewrite app_nil_r.
  - intros u Ks mem f ix H EM EI. rewrite (then_mmap d mapped idx u Ks mem f ix) by assumption. apply then_spoken.
Qed.
Lemma test_pairs_ub t : pairs_main iso (fun _ qs => Ok qs) (idx :: w :: more) t = UB -> run t = (say_reading, d, UB).
Proof.
  rewrite (pairs_main_eq iso _ idx w more num Hw Hn). intro E. unfold run, run_test_pairs.
  rewrite (then_quiet _ _ _ num) by now apply stoull_count.
  rewrite (then_quiet _ _ _ tt) by (apply reserve_ok; lia). rewrite then_cout.
  destruct (scan_pairs _ _ _ _ _); try discriminate E. unfold then_, quiet. cbn [fst snd]. now rewrite app_nil_r.
Qed.
End Pairs.

Theorem c66_pairs : forall iso dbg tbl sort mapped name idx w more num t ns good rest d u Ks,
  index_on d mapped idx u Ks -> sorts_by_cardinality (fst (mapped (f_index u Ks))) sort ->
  count_word w num -> num < 2 ^ 60 -> typed t ns -> Forall (storable_int iso) ns -> pairs_read num ns (good ++ rest) ->
  pairs_of Ks good -> Forall (fun q => is_u32 (fst q) /\ is_u32 (snd q)) rest ->
  let argv := idx :: w :: more in
  let decodes i := exists S, znth Ks i = Some S /\ decode_fits S u in
  let both q := decodes (fst q) /\ decodes (snd q) in
  let joins q := both q /\ (fst q = snd q \/ join_fits (list_of Ks (fst q)) (list_of Ks (snd q)) u) in
  let ends (fits : Z * Z -> Prop) program :=
    Forall fits good ->
    (rest = [] -> reports [] (reading_line ++ [[W "tested "; N (zlen good); W " queries"]; [W "everything good"]]) d program)
    /\ forall q after, rest = q :: after ->
       (fst q < zlen Ks -> ~ decodes (fst q) \/ snd q < zlen Ks /\ ~ fits q -> stops reading_line UB d program)
       /\ (dbg = true -> zlen Ks <= fst q \/ decodes (fst q) /\ zlen Ks <= snd q -> stops reading_line Abort d program) in
  ends both (run_test_intersect iso tbl sort dbg mapped name argv t d)
  /\ ends joins (run_test_union iso tbl dbg mapped name argv t d).
Proof.
  intros iso dbg tbl sort mapped name idx w more num t ns good rest d u Ks H HS Hw Hn HT HF HR HP HU argv decodes both joins ends.
  destruct (mapped (f_index u Ks)) as [mem f] eqn:EM. cbn [fst] in HS.
  destruct (index_on_holds dbg d mapped idx u Ks mem f H EM) as (H31 & H0 & ix & O).
  pose proof (pairs_read_nonneg _ _ _ HR) as N0. assert (OM : index_mmap mem f = Ok ix) by apply O.
  assert (OU : ix_universe ix = u) by apply O. assert (Hu : 0 <= u) by (destruct H as (Hu & _); unfold is_u32 in Hu; lia).
  assert (ES : scan_pairs (S (length t)) iso t 0 num = Ok (good ++ rest)).
  { rewrite (scan_pairs_read iso _ ns t 0 num HT HF) by lia. rewrite (pairs_read_ok num ns (good ++ rest) HR); [reflexivity|].
    apply Forall_app. split; [|exact HU]. eapply Forall_impl; [|exact HP]. cbv beta. tauto. }
  assert (Q0 : q_inv u (qstate0 u)).
  { unfold q_inv, qstate0. cbn [q_good q_sc q_out q_i q_j q_expected]. rewrite zlen_repeat, Z2Nat.id by lia.
    split; [reflexivity|]. split; [apply sized_scratch0|]. auto. }
  assert (X : forall what (core : list Z -> s_index -> Z * Z -> qstate -> res (qstate * Z * Z)) (fits : Z * Z -> Prop),
    (forall q st lg, In q good -> fits q -> q_inv u st ->
       exists st', live_pair_query what (core mem ix) q st lg = (lg, Ok st') /\ q_inv u st') ->
    (forall q st, is_u32 (fst q) /\ is_u32 (snd q) -> q_inv u st ->
       (fst q < zlen Ks -> ~ decodes (fst q) \/ snd q < zlen Ks /\ ~ fits q -> core mem ix q st = UB)
       /\ (dbg = true -> zlen Ks <= fst q \/ decodes (fst q) /\ zlen Ks <= snd q -> core mem ix q st = Abort)) ->
    ends fits (run_test_pairs iso what core mapped name argv t d)).
  { intros what core fits HG HB FG.
    destruct (test_pairs_scan iso what core mapped name idx w more d num Hw (conj N0 Hn) t (good ++ rest) ES) as [_ R].
    specialize (R u Ks mem f ix H EM OM). unfold argv. rewrite R. unfold live_pairs. rewrite OU.
    destruct (pairs_prefix what (core mem ix) (q_inv u) good rest (qstate0 u) (true, [])) as (st & P1 & E1); [|exact Q0|].
    { intros q st lg Hq. rewrite Forall_forall in FG. apply HG; auto. }
    split.
    - intros ->. apply reports_of; [apply Forall_app; split; [apply reading_nonneg|apply ending_nonneg, zlen_nonneg]|].
      cbn [live_queries] in E1. rewrite (go_ok _ _ _ (true, []) st) by exact E1. unfold finish, verdict. cbn [fst snd app].
      change [[W "tested "; N (zlen good); W " queries"]; [W "everything good"]] with (ending (zlen good)).
      now rewrite ptext_app, <- reading_text, <- ending_text, app_nil_r.
    - intros q after ->. pose proof (Forall_inv HU) as UQ. cbv beta in UQ. destruct (HB q st UQ P1) as [B1 B2]. cbn [live_queries] in E1. split.
      + intros L D. apply stops_of; [apply reading_nonneg|]. specialize (B1 L D).
        rewrite (go_ub _ _ _ (true, [])) by (rewrite E1; apply go_ub; now apply pair_fails). unfold finish. cbn [fst snd].
        now rewrite app_nil_r, reading_text.
      + intros L D. apply stops_of; [apply reading_nonneg|]. specialize (B2 L D).
        rewrite (go_abort _ _ _ (true, [])) by (rewrite E1; apply go_abort; now apply pair_fails). unfold finish. cbn [fst snd].
        now rewrite app_nil_r, reading_text. }
  assert (DL : forall i S, znth Ks i = Some S -> (decodes i <-> decode_fits S u)).
  { intros i S E. unfold decodes. split; [intros (S' & E' & D); congruence|eauto]. }
  assert (BD : forall q S T, znth Ks (fst q) = Some S -> znth Ks (snd q) = Some T -> (both_decode Ks u q <-> both q)).
  { intros q S T E1 E2. unfold both, both_decode. rewrite (DL _ S E1), (DL _ T E2). unfold list_of. now rewrite E1, E2. }
  assert (UD : forall q S T, znth Ks (fst q) = Some S -> znth Ks (snd q) = Some T ->
    (both_decode Ks u q /\ unites Ks u q <-> joins q)).
  { intros q S T E1 E2. unfold joins. rewrite <- (BD q S T E1 E2). unfold unites, both_decode.
    destruct (Z.eqb_spec (fst q) (snd q)) as [E|N]; [|tauto]. split; [tauto|]. intros [B _]. split; [exact B|]. apply B. }
  assert (AT : forall i, is_u32 i -> i < zlen Ks -> exists S, znth Ks i = Some S).
  { intros i Hi L. destruct (znth Ks i) as [S|] eqn:E; [eauto|]. apply znth_None in E. unfold is_u32 in Hi. lia. }
  split; apply X.
  - intros q st lg Hq Fq I. unfold pairs_of in HP. rewrite Forall_forall in HP. destruct (HP q Hq) as ((S & E1) & (T & E2) & _).
    destruct (intersect_query_exact tbl sort dbg mem f u Ks ix q S T st O HS E1 E2 I) as [(_ & st' & EQ & I')|(B & _)].
    + exists st'. split; [|exact I']. apply intersect_live; [exact EQ|apply I'].
    + exfalso. apply B. now apply (BD q S T E1 E2).
  - intros q st UQ I. split.
    + intros L D. destruct (AT (fst q) (proj1 UQ) L) as (S & E1). destruct D as [D|[L2 D]].
      * apply (first_unfit tbl sort dbg mem f u Ks ix O q S st E1); [|exact I]. now rewrite <- (DL _ S E1).
      * destruct (AT (snd q) (proj2 UQ) L2) as (T & E2).
        apply (intersect_unfit tbl sort dbg mem f u Ks ix O q S T st E1 E2 I). now rewrite (BD q S T E1 E2).
    + intros D B. apply (pair_missing tbl sort dbg mem f u Ks ix O q st D I). destruct B as [B|[B1 B2]]; [now left|right]. now split.
  - intros q st lg Hq Fq I. unfold pairs_of in HP. rewrite Forall_forall in HP. destruct (HP q Hq) as ((S & E1) & (T & E2) & _).
    destruct (union_query_exact tbl dbg mem f u Ks ix q S T st O E1 E2 I) as [(_ & st' & EQ & I')|(B & _)].
    + exists st'. split; [|exact I']. apply union_live; [exact EQ|apply I'].
    + exfalso. apply B. now apply (UD q S T E1 E2).
  - intros q st UQ I. split.
    + intros L D. destruct (AT (fst q) (proj1 UQ) L) as (S & E1). destruct D as [D|[L2 D]].
      * apply (first_unfit tbl sort dbg mem f u Ks ix O q S st E1); [|exact I]. now rewrite <- (DL _ S E1).
      * destruct (AT (snd q) (proj2 UQ) L2) as (T & E2).
        apply (union_unfit tbl dbg mem f u Ks ix O q S T st E1 E2 I). now rewrite (UD q S T E1 E2).
    + intros D B. apply (pair_missing tbl sort dbg mem f u Ks ix O q st D I). destruct B as [B|[B1 B2]]; [now left|right]. now split.
Qed.

Theorem c66_pairs_stop : forall iso what core mapped name idx w more d,
  let run stdin := run_test_pairs iso what core mapped name (idx :: w :: more) stdin d in
  (bad_count w -> forall stdin, run stdin = ([], d, Throw))
  /\ forall num, count_word w num ->
     (2 ^ 63 <= 8 * num -> forall stdin, run stdin = ([], d, Throw))
     /\ (num < 2 ^ 60 ->
         (forall t ns, no_file d idx -> typed t ns -> Forall (storable_int iso) ns -> stops reading_line Throw d (run t))
         /\ (forall t g qs rest, typed t (in_a_row qs ++ rest) -> zlen qs < num \/ 2 ^ 32 <= num -> zlen rest <= 1 ->
               Forall (storable_int iso) (in_a_row qs ++ rest) -> garbage g -> stops reading_line UB d (run (t ++ g)))
         /\ (forall t g ns n rest, iso = true -> typed t (ns ++ n :: rest) -> no_digit g -> zlen ns < 2 * num ->
               Forall (storable_int iso) ns -> ~ storable_int iso n -> stops reading_line UB d (run (t ++ g)))).
Proof.
  intros iso what core mapped name idx w more d run. split.
  - intros H stdin. apply stoull_bad in H. unfold run, run_test_pairs. now rewrite H.
  - intros num Hw. pose proof (proj1 (count_range _ _ Hw)) as N0. split.
    + intros Hb stdin. apply stoull_count in Hw. unfold run, run_test_pairs. rewrite (then_quiet _ _ _ num Hw).
      now rewrite reserve_over by lia.
    + intro Hn. split; [|split].
      * intros t ns HN HT HF. apply stops_of; [apply reading_nonneg|]. rewrite <- reading_text.
        apply (test_pairs_scan iso what core mapped name idx w more d num Hw (conj N0 Hn) t (read_pairs ns 0 num)); [|exact HN].
        apply scan_pairs_read; [exact HT|exact HF|lia].
      * intros t g qs rest HT HL HR HF HG. apply stops_of; [apply reading_nonneg|]. rewrite <- reading_text. unfold run.
        apply (test_pairs_ub iso what core mapped name idx w more d num Hw (conj N0 Hn)).
        exact (proj2 (proj2 (c47_pairs iso _ idx w more num t g qs rest Hw (conj N0 Hn) HT) HL HR HF) HG).
      * intros t g ns n rest -> HT HG HL HF HO. apply stops_of; [apply reading_nonneg|]. rewrite <- reading_text. unfold run.
        apply (test_pairs_ub true what core mapped name idx w more d num Hw (conj N0 Hn)).
        exact (c47_pairs_over _ idx w more num t g ns n rest Hw (conj N0 Hn) HT HG HF HO HL).
Qed.

(** ** many positions *)
Lemma sizes_text what verb sizes : codes verb = codes what ++ codes " has size " ->
  ptext [] (size_lines verb sizes) = say_reading ++ (codes "running test..." ++ endl) ++ flat_map (size_line what) sizes.
Proof.
  intro EV. unfold size_lines. change (?a :: ?b :: ?l) with ([a; b] ++ l). rewrite ptext_app.
  assert (E : ptext [] (map (fun s => [W verb; N s]) sizes) = flat_map (size_line what) sizes).
  { induction sizes as [|s sizes IH]; [reflexivity|]. cbn [map flat_map]. rewrite <- IH. unfold ptext. cbn [flat_map]. f_equal.
    unfold size_line, ltext. cbn [map text concat]. rewrite EV, ?app_nil_r, <- ?app_assoc. reflexivity. }
  rewrite E. rewrite app_assoc. reflexivity.
Qed.
Lemma sizes_nonneg_lines verb sizes : Forall (fun s => 0 <= s) sizes -> Forall (Forall nonneg) (size_lines verb sizes).
Proof.
  intro H. unfold size_lines. constructor; [pieces|]. constructor; [pieces|]. induction H; cbn [map]; constructor; auto. pieces.
Qed.

Section Many.
Variables (dbg : bool) (what : string) (core : list Z -> s_index -> list Z -> scratch -> list Z -> res (list Z * scratch * list Z * Z)).
Variables (mapped : list Z -> list Z * Z) (name idx w : list Z) (more : list (list Z)) (d : disk) (num : Z).
Let run t := run_test_many dbg what core mapped name (idx :: w :: more) t d.
Hypothesis (Hw : count_word w num).

Lemma test_many_over t : 2 ^ 63 <= 24 * num -> run t = (say_reading, d, Throw).
Proof.
  intro H. unfold run, run_test_many. rewrite (then_quiet _ _ _ num) by now apply stoull_count.
  rewrite then_cout, reserve_over by lia. unfold then_, quiet. cbn [fst snd]. now rewrite app_nil_r.
Qed.
Lemma test_many_abort t : 24 * num < 2 ^ 63 -> read_queries (S (length t)) dbg t 0 num = Abort -> run t = (say_reading, d, Abort).
Proof.
  intros H E. pose proof (proj1 (count_range _ _ Hw)). unfold run, run_test_many. rewrite (then_quiet _ _ _ num) by now apply stoull_count.
  rewrite then_cout, (then_quiet _ _ _ tt) by (apply reserve_ok; lia). rewrite E. unfold then_, quiet. cbn [fst snd]. now rewrite app_nil_r.
Qed.
Lemma test_many_read t qs : 24 * num < 2 ^ 63 -> read_queries (S (length t)) dbg t 0 num = Ok qs ->
  let read := say_reading ++ codes "running test..." ++ endl in
  (no_file d idx -> run t = (read, d, Throw))
  /\ forall u Ks mem f ix, index_on d mapped idx u Ks -> mapped (f_index u Ks) = (mem, f) -> index_mmap mem f = Ok ix ->
     run t = finish read d (live_many what (core mem ix) qs ix (true, [])).
Proof.
  intros H E read. pose proof (proj1 (count_range _ _ Hw)). unfold run, run_test_many. rewrite (then_quiet _ _ _ num) by now apply stoull_count.
  rewrite then_cout, (then_quiet _ _ _ tt) by (apply reserve_ok; lia). rewrite (then_quiet _ _ _ qs E), then_cout. cbn [fst snd]. split.
  - intro HN. rewrite mmap_missing by exact HN. cbn [fst snd]. now rewrite app_nil_r.
  - intros u Ks mem f ix HI EM EI. rewrite (then_mmap d mapped idx u Ks mem f ix) by assumption.
    rewrite <- then_spoken. cbn [fst snd]. unfold read. now rewrite <- !app_assoc.
Qed.
End Many.

Theorem c66_many : forall dbg tbl sort mapped name idx w more num ls e nss ens d u Ks,
  index_on d mapped idx u Ks -> sorts_by_cardinality (fst (mapped (f_index u Ks))) sort ->
  count_word w num -> 24 * num < 2 ^ 63 ->
  Forall2 line_of ls nss -> Forall (Forall fits_word) nss -> last_line e ens ->
  let read := firstn (Z.to_nat num) (nss ++ ens) in
  (dbg = true -> Forall (fun ns => ns <> []) read) ->
  let argv := idx :: w :: more in
  exists queries, Forall2 (fun q ns => enumerates (fun v => In v (map low ns)) q) queries read
  /\ forall good rest, queries = good ++ rest ->
     let ends verb (result : list Z -> list Z -> Prop) program :=
       Forall (fun q => 2 <= zlen q -> exists r, result q r /\ zlen r <= u) good ->
       exists sizes,
         Forall2 (fun q s => exists r, result q r /\ s = zlen r) (filter (fun q => 2 <=? zlen q) good) sizes
         /\ (rest = [] -> reports [] (size_lines verb sizes ++ [[W "tested "; N (zlen sizes); W " queries"]; [W "everything good"]]) d program)
         /\ forall q after, rest = q :: after -> 2 <= zlen q ->
            (forall r, result q r -> u < zlen r -> stops (size_lines verb sizes) UB d program)
            /\ (dbg = true -> Exists (fun i => zlen Ks <= i) q -> stops (size_lines verb sizes) Abort d program) in
     ends "intersection has size "%string (fun q r => exists Ss, named Ks q Ss /\ enumerates (fun v => forall S, In S Ss -> In v S) r)
       (run_test_intersect_many tbl sort dbg mapped name argv (lines ls ++ e) d)
     /\ ends "union has size "%string (fun q r => exists Ss, named Ks q Ss /\ enumerates (fun v => exists S, In S Ss /\ In v S) r)
       (run_test_union_many tbl dbg mapped name argv (lines ls ++ e) d).
Proof.
  intros dbg tbl sort mapped name idx w more num ls e nss ens d u Ks H HS Hw Hn HL HF HE read HD argv.
  destruct (mapped (f_index u Ks)) as [mem f] eqn:EM. cbn [fst] in HS.
  destruct (index_on_holds dbg d mapped idx u Ks mem f H EM) as (H31 & H0 & ix & O).
  assert (OM : index_mmap mem f = Ok ix) by apply O.
  assert (OU : ix_universe ix = u) by apply O. assert (Hu : 0 <= u) by (destruct H as (Hu & _); unfold is_u32 in Hu; lia).
  pose proof (proj1 (count_range _ _ Hw)) as N0.
  destruct (lines_ok (fun _ qs => Ok qs) idx w more num Hw Hn dbg ls e nss ens HL HF HE HD) as (queries & F2 & ER).
  rewrite (lines_main_eq _ idx w more num Hw Hn) in ER.
  destruct (read_queries (S (length (lines ls ++ e))) dbg (lines ls ++ e) 0 num) as [qs| | | |] eqn:EQ; try discriminate ER.
  cbn [bind] in ER. injection ER as ->.
  exists queries. split; [exact F2|]. intros good rest EG ends.
  assert (NN : Forall (Forall (fun i => 0 <= i)) queries).
  { clear -F2. induction F2 as [|q ns qs read Hq _ IH]; constructor; auto. apply Forall_forall. intros v Hv. apply Hq in Hv.
    apply in_map_iff in Hv as (n & <- & _). unfold low. apply Z.mod_pos_bound. lia. }
  subst queries.
  assert (X : forall what verb (core : list Z -> s_index -> list Z -> scratch -> list Z -> res (list Z * scratch * list Z * Z))
                     (result : list Z -> list Z -> Prop),
    codes verb = codes what ++ codes " has size " ->
    (forall q n sc out lg, 2 <= zlen q -> (exists r, result q r /\ zlen r <= u) -> sized sc -> zlen out = u ->
       exists s sc' out', live_many_query what (core mem ix) q (n, sc, out) lg = (tell (size_line what s) lg, Ok (n + 1, sc', out'))
         /\ (exists r, result q r /\ s = zlen r) /\ sized sc' /\ zlen out' = u) ->
    (forall q sc out, 2 <= zlen q -> Forall (fun i => 0 <= i) q -> sized sc -> zlen out = u ->
       (forall r, result q r -> u < zlen r -> core mem ix q sc out = UB)
       /\ (dbg = true -> Exists (fun i => zlen Ks <= i) q -> core mem ix q sc out = Abort)) ->
    ends verb result (run_test_many dbg what core mapped name argv (lines ls ++ e) d)).
  { intros what verb core result EV HG HB FG.
    destruct (test_many_read dbg what core mapped name idx w more d num Hw (lines ls ++ e) (good ++ rest) Hn EQ) as [_ R].
    specialize (R u Ks mem f ix H EM OM). unfold argv. rewrite R. unfold live_many. rewrite OU.
    destruct (many_prefix what (core mem ix) u (fun q s => exists r, result q r /\ s = zlen r) good rest 0
      (0, scratch0, repeat 0 (Z.to_nat u)) (true, [])) as (sizes & [[n sc] out] & FS & (En & SZ & LO) & E1).
    { intros q num' [[n sc] out] lg Hq L (-> & SZ & LO). rewrite Forall_forall in FG.
      destruct (HG q num' sc out lg L (FG q Hq L) SZ LO) as (s & sc' & out' & EL & HR & SZ' & LO').
      exists s, (num' + 1, sc', out'). auto. }
    { split; [reflexivity|]. split; [apply sized_scratch0|]. rewrite zlen_repeat. lia. }
    assert (SN : Forall (fun s => 0 <= s) sizes).
    { clear -FS. induction FS as [|q s l sizes (r & _ & ->) _ IH]; constructor; auto. apply zlen_nonneg. }
    exists sizes. split; [exact FS|]. split.
    - intros ->. apply reports_of; [apply Forall_app; split; [now apply sizes_nonneg_lines|apply ending_nonneg, zlen_nonneg]|].
      cbn [live_queries] in E1. rewrite (go_ok _ _ _ _ (n, sc, out) E1). unfold finish, verdict, tell. cbn [fst snd app].
      change [[W "tested "; N (zlen sizes); W " queries"]; [W "everything good"]] with (ending (zlen sizes)).
      rewrite ptext_app, (sizes_text what verb) by exact EV. rewrite <- ending_text. subst n. rewrite Z.add_0_l.
      now rewrite <- ?app_assoc.
    - intros q after -> L. apply Forall_app in NN as [_ NN]. pose proof (Forall_inv NN) as NQ. cbv beta in NQ.
      destruct (HB q sc out L NQ SZ LO) as [B1 B2]. cbn [live_queries] in E1. split.
      + intros r HR Lr. apply stops_of; [now apply sizes_nonneg_lines|]. specialize (B1 r HR Lr).
        rewrite (go_ub _ _ _ (tell (flat_map (size_line what) sizes) (true, []))) by (rewrite E1; apply go_ub; now apply many_fails).
        unfold finish, tell. cbn [fst snd app]. rewrite (sizes_text what verb) by exact EV. now rewrite <- ?app_assoc.
      + intros D B. apply stops_of; [now apply sizes_nonneg_lines|]. specialize (B2 D B).
        rewrite (go_abort _ _ _ (tell (flat_map (size_line what) sizes) (true, []))) by (rewrite E1; apply go_abort; now apply many_fails).
        unfold finish, tell. cbn [fst snd app]. rewrite (sizes_text what verb) by exact EV. now rewrite <- ?app_assoc. }
  split; apply X.
  - reflexivity.
  - intros q n sc out lg L (r & (Ss & HN & HEn) & Lr) SZ LO.
    destruct (intersect_many_query_ok tbl sort dbg mem f u Ks ix q n (n, true, sc, out) O HS) as ([[[n' g'] sc'] out'] & EQ' & M).
    { intros _. exists Ss, r. auto. }
    { cbn [many_inv]. auto. }
    destruct M as (-> & -> & SZ' & LO'). exists (zlen r), sc', out'.
    assert (BQ : big q = true) by (unfold big; apply Z.leb_le; lia). rewrite BQ in EQ'.
    split; [|split; [exists r; eauto|auto]].
    apply (intersect_many_live tbl sort dbg mem ix q n sc out (n + 1) sc' out' r lg L EQ').
    now apply (expect_and_ok dbg mem f u Ks ix q Ss r).
  - intros q sc out L NQ SZ LO. split.
    + intros r (Ss & HN & HEn) Lr. apply (intersect_many_unfit tbl sort dbg mem f u Ks ix O q sc out HS); auto.
      split; [now apply Z.leb_le|]. eauto.
    + intros D B. now apply (many_missing tbl sort dbg mem f u Ks ix O q sc out D NQ B).
  - reflexivity.
  - intros q n sc out lg L (r & (Ss & HN & HEn) & Lr) SZ LO.
    destruct (union_many_query_ok tbl dbg mem f u Ks ix q n (n, true, sc, out) O) as ([[[n' g'] sc'] out'] & EQ' & M).
    { intros _. exists Ss, r. auto. }
    { cbn [many_inv]. auto. }
    destruct M as (-> & -> & SZ' & LO'). exists (zlen r), sc', out'.
    assert (BQ : big q = true) by (unfold big; apply Z.leb_le; lia). rewrite BQ in EQ'.
    split; [|split; [exists r; eauto|auto]].
    apply (union_many_live tbl dbg mem ix q n sc out (n + 1) sc' out' r lg L EQ').
    now apply (expect_or_ok dbg mem f u Ks ix q Ss r).
  - intros q sc out L NQ SZ LO. split.
    + intros r (Ss & HN & HEn) Lr. apply (union_many_unfit tbl sort dbg mem f u Ks ix O q sc out); auto.
      split; [now apply Z.leb_le|]. eauto.
    + intros D B. now apply (many_missing tbl sort dbg mem f u Ks ix O q sc out D NQ B).
Qed.

Theorem c66_many_stop : forall dbg what core mapped name idx w more d,
  let run stdin := run_test_many dbg what core mapped name (idx :: w :: more) stdin d in
  (bad_count w -> forall stdin, run stdin = ([], d, Throw))
  /\ forall num, count_word w num ->
     (2 ^ 63 <= 24 * num -> forall stdin, stops reading_line Throw d (run stdin))
     /\ (24 * num < 2 ^ 63 -> forall ls nss, Forall2 line_of ls nss -> Forall (Forall fits_word) nss ->
         (forall e ens, last_line e ens -> (dbg = true -> Forall (fun ns => ns <> []) (firstn (Z.to_nat num) (nss ++ ens))) ->
            no_file d idx -> stops (reading_line ++ [[W "running test..."]]) Throw d (run (lines ls ++ e)))
         /\ (forall l l' post, dbg = true -> line_of l [] -> l' = l ++ 10 :: post \/ l' = l /\ l <> [] -> zlen ls < num ->
               stops reading_line Abort d (run (lines ls ++ l')))).
Proof.
  intros dbg what core mapped name idx w more d run. split.
  - intros H stdin. apply stoull_bad in H. unfold run, run_test_many. now rewrite H.
  - intros num Hw. pose proof (proj1 (count_range _ _ Hw)) as N0. split.
    + intros Hb stdin. apply stops_of; [apply reading_nonneg|]. rewrite <- reading_text. now apply (test_many_over dbg what core mapped name idx w more d num Hw).
    + intros Hn ls nss HL HF. split.
      * intros e ens HE HD HN. apply stops_of; [apply Forall_app; split; [apply reading_nonneg|pieces]|].
        rewrite ptext_app, <- reading_text.
        assert (ER : read_queries (S (length (lines ls ++ e))) dbg (lines ls ++ e) 0 num = Ok (map query_of (firstn (Z.to_nat num) (nss ++ ens)))).
        { rewrite (read_queries_ok dbg e ens num HE ls nss HL 0); try rewrite Z.sub_0_r; auto; lia. }
        unfold run. rewrite (proj1 (test_many_read dbg what core mapped name idx w more d num Hw _ _ Hn ER) HN). reflexivity.
      * intros l l' post -> H0 Hl' Ln. apply stops_of; [apply reading_nonneg|]. rewrite <- reading_text.
        apply (test_many_abort true what core mapped name idx w more d num Hw _ Hn).
        rewrite (read_queries_abort l l' num post H0 ls nss HL 0); auto; lia.
Qed.

Theorem c66_usage : forall iso tbl sort dbg mapped name few stdin d, zlen few < 2 ->
  let usage := (name ++ word " index_filename num_queries < queries" ++ [10], d, Ok 1) in
  run_test_intersect iso tbl sort dbg mapped name few stdin d = usage
  /\ run_test_union iso tbl dbg mapped name few stdin d = usage
  /\ run_test_intersect_many tbl sort dbg mapped name few stdin d = usage
  /\ run_test_union_many tbl dbg mapped name few stdin d = usage.
Proof.
  intros iso tbl sort dbg mapped name few stdin d H usage.
  assert (U : usage_ name " index_filename num_queries < queries" d = usage).
  { unfold usage_, usage. rewrite then_cout. unfold quiet. cbn [fst snd]. now rewrite app_nil_r. }
  unfold run_test_intersect, run_test_union, run_test_intersect_many, run_test_union_many, run_test_pairs, run_test_many.
  destruct few as [|a [|b few]]; [now rewrite U|now rewrite U|]. rewrite !zlen_cons in H. pose proof (zlen_nonneg _ few). lia.
Qed.
