(** Proofs for C64: programs that work on an index on disk. *)
From Coq Require Import String Lia Sorted Floats.SpecFloat.
From Verif Require Import Base Hw Spec Lib Format Shown Counts Room Holds Told Drawn Typed Printed Report Session Bench
  M_Util M_Build M_Seq M_Many M_Index M_Print M_Calls M_Tests M_Drivers M_Tools M_Text M_Out M_Say M_Session M_Bench
  P_Ex P_Fin1 P_Index P_Format P_Align P_Tests P_Tests4 P_Drivers P_Tools P_Text P_Text2 P_Text5 P_Text6 P_Out3 P_Say P_Say3 P_Say4 P_Session P_Session2.
Local Open Scope Z_scope.

(** ** the index *)
Lemma keeps_all Ks : Forall valid Ks -> kept_lists default_params Ks = Ks.
Proof.
  unfold kept_lists. induction 1 as [|K Ks (N & _) _ IH]; [reflexivity|]. cbn [filter]. rewrite pass_default, IH; [reflexivity|].
  destruct K; [congruence|]. rewrite zlen_cons. pose proof (zlen_nonneg _ K). lia.
Qed.
Lemma index_on_holds dbg d mapped idx u Ks mem f : index_on d mapped idx u Ks -> mapped (f_index u Ks) = (mem, f) ->
  holds_index dbg default_params u Ks 31 mem f /\ holds_index dbg default_params u Ks 0 mem f
  /\ exists ix, opened 31 mem f u Ks ix.
Proof.
  intros (Hu & V & _ & M1 & M2 & M3 & M4) E. rewrite E in M1, M2, M3, M4. cbn [fst snd] in *.
  pose proof (keeps_all Ks V) as K.
  assert (HS : Forall short Ks) by (eapply Forall_impl; [|exact V]; apply short_valid).
  destruct (c29_index dbg default_params u Ks ltac:(fold (kept_lists default_params Ks); now rewrite K) HS) as (st & o & q & E1 & F).
  fold (kept_lists default_params Ks) in F. rewrite K in F.
  assert (X : forall s, 0 <= s <= 31 -> holds_index dbg default_params u Ks s mem f).
  { intros s Hs. split; [exact HS|]. exists st, o, q. rewrite F. split; [exact E1|]. split; [exact M1|]. split; [exact M2|].
    split; [lia|assumption]. }
  split; [apply X; lia|]. split; [apply X; lia|].
  destruct (holds_opened dbg default_params u Ks 31 mem f Hu ltac:(lia) ltac:(now rewrite K) (X 31 ltac:(lia))) as (ix & O).
  rewrite K in O. eauto.
Qed.
Lemma then_mmap {B} d mapped idx u Ks mem f ix (k : list Z * Z * s_index -> prog B) :
  index_on d mapped idx u Ks -> mapped (f_index u Ks) = (mem, f) -> index_mmap mem f = Ok ix ->
  then_ (mmap_file mapped idx) k d = k (mem, f, ix) d.
Proof.
  intros (_ & _ & H & _) E EI.
  assert (X : mmap_file mapped idx d = ([], d, Ok (mem, f, ix))).
  { unfold mmap_file. rewrite (then_open _ _ _ _ H), E, (then_quiet _ _ _ ix EI). reflexivity. }
  unfold then_. rewrite X. now destruct (k (mem, f, ix) d) as [[t' d'] r].
Qed.
Lemma mmap_missing {B} d mapped idx (k : list Z * Z * s_index -> prog B) : no_file d idx ->
  then_ (mmap_file mapped idx) k d = ([], d, Throw).
Proof. intro H. unfold then_ at 1. unfold mmap_file. now rewrite (then_missing _ _ _ H). Qed.

(** ** text *)
Lemma reading_text : say_reading = ptext [] reading_line.
Proof. unfold reading_line. lines. Qed.
Lemma read_text : say_reading ++ say_done = ptext [] read_lines.
Proof. unfold read_lines, reading_line. lines. Qed.
Lemma started_text what what' k : codes what' = codes " " ++ codes what ++ codes "..." ->
  say_reading ++ say_done ++ say_count "performing " k what' = ptext [] (started_lines what k).
Proof.
  intro E. unfold started_lines. rewrite ptext_app, <- read_text, <- app_assoc. do 2 f_equal. unfold say_count. rewrite E.
  unfold ptext, ltext. cbn [flat_map map text concat app]. rewrite ?app_nil_r, <- ?app_assoc. reflexivity.
Qed.
Lemma stops_of ls how d r : Forall (Forall nonneg) ls -> r = (ptext [] ls, d, how) -> stops ls how d r.
Proof. intros H E. exists (ptext [] ls). split; [now apply ptext_page|exact E]. Qed.
Lemma reports_of nan ls d r : Forall (Forall nonneg) ls -> r = (ptext nan ls, d, Ok 0) -> reports nan ls d r.
Proof. intros H E. exists (ptext nan ls). split; [now apply ptext_page|exact E]. Qed.
Lemma reading_nonneg : Forall (Forall nonneg) reading_line.
Proof. unfold reading_line. pieces. Qed.
Lemma read_nonneg : Forall (Forall nonneg) read_lines.
Proof. unfold read_lines, reading_line. cbn [app]. pieces. Qed.
Lemma started_nonneg what k : 0 <= k -> Forall (Forall nonneg) (started_lines what k).
Proof. intro H. unfold started_lines, read_lines, reading_line. cbn [app]. pieces. Qed.

(** ** contains, intersect and union *)
Definition glue (t : list Z) (x : list Z * disk * res Z) : list Z * disk * res Z := (t ++ fst (fst x), snd (fst x), snd x).
Definition failed (t : list Z) (d : disk) (r : res (Z * Z)) (k : Z * Z -> list Z) : list Z * disk * res Z :=
  match r with
  | Ok a => (t ++ k a, d, Ok 0) | Throw => (t, d, Throw) | Abort => (t, d, Abort) | UB => (t, d, UB) | Fuel => (t, d, Fuel)
  end.

Section Pairs.
Variables (iso : bool) (nan : list Z) (time : spec_float) (what' : string) (perf : list Z -> Z -> list (Z * Z) -> res (Z * Z)).
Variables (mapped : list Z -> list Z * Z) (name idx w : list Z) (more : list (list Z)) (d : disk) (num : Z).
Let run t := run_pairs iso nan time what' perf mapped name (idx :: w :: more) t d.
Hypothesis (Hw : count_word w num) (Hn : 0 <= num < 2 ^ 60).

Lemma run_pairs_scan t qs : scan_pairs (S (length t)) iso t 0 num = Ok qs ->
  (no_file d idx -> run t = (say_reading ++ say_done, d, Throw))
  /\ forall u Ks mem f ix, index_on d mapped idx u Ks -> mapped (f_index u Ks) = (mem, f) -> index_mmap mem f = Ok ix ->
     run t = failed (say_reading ++ say_done ++ say_count "performing " (zlen qs) what') d (perf mem f qs)
               (fun a => show (snd a) ++ endl ++ say_means nan time (zlen qs)).
Proof.
  intro E. unfold run, run_pairs. rewrite (then_quiet _ _ _ num) by now apply stoull_count.
  rewrite (then_quiet _ _ _ tt) by (apply reserve_ok; lia). rewrite then_cout, (then_quiet _ _ _ qs E), then_cout. cbn [fst snd]. split.
  - intro H. rewrite mmap_missing by exact H. cbn [fst snd]. now rewrite app_nil_r.
  - intros u Ks mem f ix H EM EI. rewrite (then_mmap d mapped idx u Ks mem f ix) by assumption. rewrite then_cout. cbn [fst snd].
    destruct (perf mem f qs) as [[a b]| | | |]; cbn [failed snd].
    + rewrite (then_quiet _ _ _ (a, b)) by reflexivity. rewrite then_cout. unfold quiet. cbn [fst snd].
      now rewrite ?app_nil_r, <- ?app_assoc.
    + unfold then_, quiet. cbn [fst snd]. now rewrite ?app_nil_r.
    + unfold then_, quiet. cbn [fst snd]. now rewrite ?app_nil_r.
    + unfold then_, quiet. cbn [fst snd]. now rewrite ?app_nil_r.
    + unfold then_, quiet. cbn [fst snd]. now rewrite ?app_nil_r.
Qed.
Lemma run_pairs_ub t : pairs_main iso (fun _ qs => Ok qs) (idx :: w :: more) t = UB -> run t = (say_reading, d, UB).
Proof.
  rewrite (pairs_main_eq iso _ idx w more num Hw Hn). intro E. unfold run, run_pairs.
  rewrite (then_quiet _ _ _ num) by now apply stoull_count.
  rewrite (then_quiet _ _ _ tt) by (apply reserve_ok; lia). rewrite then_cout.
  destruct (scan_pairs _ _ _ _ _); try discriminate E. unfold then_, quiet. cbn [fst snd]. now rewrite app_nil_r.
Qed.
Lemma run_pairs_main what t u Ks mem f ix asked total :
  index_on d mapped idx u Ks -> mapped (f_index u Ks) = (mem, f) -> index_mmap mem f = Ok ix ->
  codes what' = codes " " ++ codes what ++ codes "..." ->
  (forall qs k v, perf mem f qs = Ok (k, v) -> k = zlen qs) -> 0 <= total ->
  pairs_main iso (fun _ => perf mem f) (idx :: w :: more) t = Ok (Some (asked, total)) ->
  reports nan (perf_lines what asked asked total time) d (run t).
Proof.
  intros H EM EI EW EP HT. rewrite (pairs_main_eq iso _ idx w more num Hw Hn). intro E.
  destruct (scan_pairs _ _ _ _ _) as [qs| | | |] eqn:ES; try discriminate E. cbn [bind] in E.
  destruct (perf mem f qs) as [[a b]| | | |] eqn:EQ; try discriminate E. cbn [bind] in E. injection E as -> ->.
  pose proof (EP _ _ _ EQ). subst asked.
  apply reports_of; [apply perf_nonneg; [apply zlen_nonneg|exact HT]|].
  destruct (run_pairs_scan t qs ES) as [_ R]. rewrite (R u Ks mem f ix H EM EI), EQ. cbn [failed snd].
  rewrite <- (perf_text nan time what what') by exact EW. now rewrite <- ?app_assoc.
Qed.
End Pairs.

Lemma perf_contains_count dbg mem f qs k v : perf_contains dbg mem f qs = Ok (k, v) -> k = zlen qs.
Proof.
  unfold perf_contains. destruct (index_mmap mem f); try discriminate. cbn [bind]. destruct (times _ _ _); try discriminate.
  cbn [bind]. congruence.
Qed.
Lemma perf_intersection_count tbl dbg mem f qs k v : perf_intersection tbl dbg mem f qs = Ok (k, v) -> k = zlen qs.
Proof.
  unfold perf_intersection. destruct (index_mmap mem f); try discriminate. cbn [bind]. destruct (times _ _ _) as [[[? ?] ?]| | | |]; try discriminate.
  cbn [bind]. congruence.
Qed.
Lemma perf_union_count tbl dbg mem f qs k v : perf_union tbl dbg mem f qs = Ok (k, v) -> k = zlen qs.
Proof.
  unfold perf_union. destruct (index_mmap mem f); try discriminate. cbn [bind]. destruct (times _ _ _) as [[[? ?] ?]| | | |]; try discriminate.
  cbn [bind]. congruence.
Qed.

Theorem c64_pairs : forall iso nan time dbg tbl mapped name idx w more num t ns qs d u Ks,
  index_on d mapped idx u Ks ->
  count_word w num -> num < 2 ^ 60 -> typed t ns -> Forall (storable_int iso) ns -> pairs_read num ns qs ->
  let argv := idx :: w :: more in
  let found q := existsb (Z.eqb (snd q)) (list_of Ks (fst q)) in
  let meet q := common (list_of Ks (fst q)) (list_of Ks (snd q)) in
  let join q := zlen (list_of Ks (fst q)) + zlen (list_of Ks (snd q)) - meet q in
  (positions Ks qs ->
     reports nan (perf_lines "contains queries" (zlen qs) (zlen qs) (4 * zlen (filter found qs) mod 2 ^ 64) time) d
       (run_contains iso nan time dbg mapped name argv t d))
  /\ (pairs_of Ks qs -> shuffle_table_ok tbl -> Forall (fun q => meet q + 23 <= u) qs ->
        reports nan (perf_lines "pairwise-intersections" (zlen qs) (zlen qs) (11 * total meet qs mod 2 ^ 64) time) d
          (run_intersect iso nan time tbl dbg mapped name argv t d))
  /\ (pairs_of Ks qs -> Forall (fun q => join q + 23 <= u) qs ->
        reports nan (perf_lines "pairwise-unions" (zlen qs) (zlen qs) (11 * total join qs mod 2 ^ 64) time) d
          (run_union iso nan time tbl dbg mapped name argv t d)).
Proof.
  intros iso nan time dbg tbl mapped name idx w more num t ns qs d u Ks H Hw Hn HT HF HR argv found meet join.
  destruct (mapped (f_index u Ks)) as [mem f] eqn:EM.
  destruct (index_on_holds dbg d mapped idx u Ks mem f H EM) as (H31 & H0 & ix & O).
  destruct H as (Hu & V & HH). assert (H : index_on d mapped idx u Ks) by exact (conj Hu (conj V HH)). clear HH.
  pose proof (keeps_all Ks V) as K. pose proof (pairs_read_nonneg _ _ _ HR) as N0.
  assert (VK : Forall valid (kept_lists default_params Ks)) by now rewrite K.
  assert (OM : index_mmap mem f = Ok ix) by apply O.
  split; [|split].
  - intro P. unfold run_contains.
    apply (run_pairs_main iso nan time " contains queries..." (perf_contains dbg) mapped name idx w more d num Hw (conj N0 Hn) "contains queries" t u Ks mem f ix _ _ H EM OM eq_refl).
    + intros qs' k v. apply perf_contains_count.
    + apply mod64.
    + pose proof (c47_contains iso dbg dbg default_params u Ks mem (fun _ => f) idx w more num t ns qs Hu VK H0 Hw Hn HT HF HR) as C.
      rewrite K in C. exact (C P).
  - intros P HS HB. unfold run_intersect.
    apply (run_pairs_main iso nan time " pairwise-intersections..." (perf_intersection tbl dbg) mapped name idx w more d num Hw (conj N0 Hn) "pairwise-intersections" t u Ks mem f ix _ _ H EM OM eq_refl).
    + intros qs' k v. apply perf_intersection_count.
    + apply mod64.
    + pose proof (c47_intersect iso dbg dbg tbl default_params u Ks mem (fun _ => f) idx w more num t ns qs Hu VK H31 HS Hw Hn HT HF HR) as C.
      rewrite K in C. exact (C P HB).
  - intros P HB. unfold run_union.
    apply (run_pairs_main iso nan time " pairwise-unions..." (perf_union tbl dbg) mapped name idx w more d num Hw (conj N0 Hn) "pairwise-unions" t u Ks mem f ix _ _ H EM OM eq_refl).
    + intros qs' k v. apply perf_union_count.
    + apply mod64.
    + pose proof (c47_union iso dbg dbg tbl default_params u Ks mem (fun _ => f) idx w more num t ns qs Hu VK H31 Hw Hn HT HF HR) as C.
      rewrite K in C. exact (C P HB).
Qed.

Theorem c64_pairs_stop : forall iso nan time what perf mapped name idx w more d,
  let run stdin := run_pairs iso nan time what perf mapped name (idx :: w :: more) stdin d in
  (bad_count w -> forall stdin, run stdin = ([], d, Throw))
  /\ forall num, count_word w num ->
     (2 ^ 63 <= 8 * num -> forall stdin, run stdin = ([], d, Throw))
     /\ (num < 2 ^ 60 ->
         (forall t ns, no_file d idx -> typed t ns -> Forall (storable_int iso) ns -> stops read_lines Throw d (run t))
         /\ (forall t g qs rest, typed t (in_a_row qs ++ rest) -> zlen qs < num \/ 2 ^ 32 <= num -> zlen rest <= 1 ->
               Forall (storable_int iso) (in_a_row qs ++ rest) -> garbage g -> stops reading_line UB d (run (t ++ g)))
         /\ (forall t g ns n rest, iso = true -> typed t (ns ++ n :: rest) -> no_digit g -> zlen ns < 2 * num ->
               Forall (storable_int iso) ns -> ~ storable_int iso n -> stops reading_line UB d (run (t ++ g)))).
Proof.
  intros iso nan time what perf mapped name idx w more d run. split.
  - intros H stdin. apply stoull_bad in H. unfold run, run_pairs. now rewrite H.
  - intros num Hw. pose proof (proj1 (count_range _ _ Hw)) as N0. split.
    + intros Hb stdin. apply stoull_count in Hw. unfold run, run_pairs. rewrite (then_quiet _ _ _ num Hw).
      now rewrite reserve_over by lia.
    + intro Hn. split; [|split].
      * intros t ns HN HT HF. apply stops_of; [apply read_nonneg|]. rewrite <- read_text.
        apply (run_pairs_scan iso nan time what perf mapped name idx w more d num Hw (conj N0 Hn) t (read_pairs ns 0 num)); [|exact HN].
        apply scan_pairs_read; [exact HT|exact HF|lia].
      * intros t g qs rest HT HL HR HF HG. apply stops_of; [apply reading_nonneg|]. rewrite <- reading_text. unfold run.
        apply (run_pairs_ub iso nan time what perf mapped name idx w more d num Hw (conj N0 Hn)).
        exact (proj2 (proj2 (c47_pairs iso _ idx w more num t g qs rest Hw (conj N0 Hn) HT) HL HR HF) HG).
      * intros t g ns n rest -> HT HG HL HF HO. apply stops_of; [apply reading_nonneg|]. rewrite <- reading_text. unfold run.
        apply (run_pairs_ub true nan time what perf mapped name idx w more d num Hw (conj N0 Hn)).
        exact (c47_pairs_over _ idx w more num t g ns n rest Hw (conj N0 Hn) HT HG HF HO HL).
Qed.
