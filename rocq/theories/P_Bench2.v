(** Proofs for C64, continued: queries about lists that are not there, ranks and values, programs that go through an index,
    pipes, and a session. *)
From Coq Require Import String Lia Sorted Floats.SpecFloat.
From Verif Require Import Base Hw Spec Lib Format Shown Counts Room Holds Told Drawn Typed Printed Report Session Lax Bench
  M_Util M_Build M_Seq M_Many M_Index M_Print M_Calls M_Tests M_Drivers M_Tools M_Text M_Out M_Say M_Session M_Lax M_Bench
  P_Ex P_Fin1 P_Index P_Format P_Align P_Tests P_Tests4 P_Drivers P_Tools P_Text P_Text2 P_Text5 P_Text6 P_Out3 P_Say P_Say3 P_Say4
  P_Session P_Session2 P_Bench.
Local Open Scope Z_scope.

(** ** a list that is not there *)
Lemma run_queries_stuck {Q A} (body : Q -> A -> res A) q : (forall st, body q st = Abort) ->
  forall good rest st st', run_queries body good st = Ok st' -> run_queries body (good ++ q :: rest) st = Abort.
Proof.
  intros HB. induction good as [|g good IH]; intros rest st st' E; cbn [run_queries app] in *.
  - now rewrite HB.
  - destruct (body g st); try discriminate E. cbn [bind] in *. eapply IH; eauto.
Qed.
Lemma times_stuck {Q A} n (body : Q -> A -> res A) q good rest st st' : (forall st, body q st = Abort) ->
  times (S n) (run_queries body good) st = Ok st' -> times (S n) (run_queries body (good ++ q :: rest)) st = Abort.
Proof.
  intros HB E. cbn [times] in *. destruct (run_queries body good st) as [st1| | | |] eqn:E1; try discriminate E.
  now rewrite (run_queries_stuck body q HB good rest st st1 E1).
Qed.
Lemma get_beyond mem ix i : ix_size ix <= i -> index_get true mem ix i = Abort.
Proof. intro H. unfold index_get, assert_. replace (i <? ix_size ix) with false by (symmetry; apply Z.ltb_ge; lia). reflexivity. Qed.
Lemma reads_these qs : pairs_read (zlen qs + 1) (in_a_row qs) qs.
Proof. exists []. split; [now rewrite app_nil_r|]. right. rewrite zlen_nil. lia. Qed.

Theorem c64_pairs_abort : forall iso nan time tbl mapped name idx w more num t ns good q rest d u Ks,
  index_on d mapped idx u Ks ->
  let qs := good ++ q :: rest in
  count_word w num -> num < 2 ^ 60 -> typed t ns -> Forall (storable_int iso) ns -> pairs_read num ns qs ->
  Forall (fun q => is_u32 (fst q) /\ is_u32 (snd q)) qs ->
  let argv := idx :: w :: more in
  let meet q := common (list_of Ks (fst q)) (list_of Ks (snd q)) in
  let join q := zlen (list_of Ks (fst q)) + zlen (list_of Ks (snd q)) - meet q in
  (positions Ks good -> zlen Ks <= fst q ->
     stops (started_lines "contains queries" (zlen qs)) Abort d (run_contains iso nan time true mapped name argv t d))
  /\ (pairs_of Ks good -> zlen Ks <= fst q \/ zlen Ks <= snd q ->
      (shuffle_table_ok tbl -> Forall (fun q => meet q + 23 <= u) good ->
         stops (started_lines "pairwise-intersections" (zlen qs)) Abort d (run_intersect iso nan time tbl true mapped name argv t d))
      /\ (Forall (fun q => join q + 23 <= u) good ->
            stops (started_lines "pairwise-unions" (zlen qs)) Abort d (run_union iso nan time tbl true mapped name argv t d))).
Proof.
  intros iso nan time tbl mapped name idx w more num t ns good q rest d u Ks H qs Hw Hn HT HF HR HU argv meet join.
  destruct (mapped (f_index u Ks)) as [mem f] eqn:EM.
  destruct (index_on_holds true d mapped idx u Ks mem f H EM) as (H31 & H0 & ix & O).
  destruct H as (Hu & V & HH). assert (H : index_on d mapped idx u Ks) by exact (conj Hu (conj V HH)). clear HH.
  pose proof (keeps_all Ks V) as K. pose proof (pairs_read_nonneg _ _ _ HR) as N0.
  assert (VK : Forall valid (kept_lists default_params Ks)) by now rewrite K.
  assert (OM : index_mmap mem f = Ok ix) by apply O. assert (OS : ix_size ix = zlen Ks) by apply O.
  assert (ES : scan_pairs (S (length t)) iso t 0 num = Ok qs).
  { rewrite (scan_pairs_read iso _ ns t 0 num HT HF) by lia. now rewrite (pairs_read_ok num ns qs HR HU). }
  assert (X : forall what what' perf, codes what' = codes " " ++ codes what ++ codes "..." -> perf mem f qs = Abort ->
    stops (started_lines what (zlen qs)) Abort d (run_pairs iso nan time what' perf mapped name (idx :: w :: more) t d)).
  { intros what what' perf EW EP. apply stops_of; [apply started_nonneg, zlen_nonneg|].
    destruct (run_pairs_scan iso nan time what' perf mapped name idx w more d num Hw (conj N0 Hn) t qs ES) as [_ R].
    rewrite (R u Ks mem f ix H EM OM), EP. cbn [failed]. now rewrite (started_text what what'). }
  assert (UG : Forall (fun q => is_u32 (fst q) /\ is_u32 (snd q)) good) by (now apply Forall_app in HU).
  assert (UQ : is_u32 (fst q) /\ is_u32 (snd q)) by (apply Forall_app in HU as [_ HU]; now apply Forall_inv in HU).
  pose proof (pairs_read_ok _ _ _ (reads_these good) UG) as RG.
  assert (G : zlen Ks <= fst q \/ zlen Ks <= snd q -> forall {A} (k : s_sequence -> s_sequence -> res A),
    (let! l := index_get true mem ix (fst q) in let! r := index_get true mem ix (snd q) in k l r) = Abort).
  { intros HB A k. destruct (Z_lt_le_dec (fst q) (zlen Ks)) as [L|L].
    - destruct (znth Ks (fst q)) as [S|] eqn:E; [|apply znth_None in E; unfold is_u32 in UQ; lia].
      destruct O as (_ & _ & _ & _ & O). destruct (O _ _ E) as (s & _ & _ & Eg). rewrite Eg. cbn [bind].
      rewrite get_beyond by lia. reflexivity.
    - rewrite get_beyond by lia. reflexivity. }
  split; [|intros P HB; split].
  - intros P HB. apply X; [reflexivity|].
    pose proof (c35_contains true true default_params u Ks mem f _ _ good Hu VK H0 (reads_these good)) as C. rewrite K in C.
    specialize (C P). unfold contains_cpp in C. rewrite RG in C. unfold perf_contains in *. rewrite OM in *. cbn [bind] in *.
    destruct (times _ _ _) as [v| | | |] eqn:ET in C; try discriminate C. unfold qs. rewrite (times_stuck _ _ _ _ _ _ v); [reflexivity| |exact ET].
    intro st. rewrite get_beyond by lia. reflexivity.
  - intros HS HG. apply X; [reflexivity|].
    pose proof (c35_intersect true true tbl default_params u Ks mem f _ _ good Hu VK H31 HS (reads_these good)) as C. rewrite K in C.
    specialize (C P HG). unfold intersect_cpp in C. rewrite RG in C. unfold perf_intersection in *. rewrite OM in *. cbn [bind] in *.
    destruct (times _ _ _) as [v| | | |] eqn:ET in C; try discriminate C. unfold qs. rewrite (times_stuck _ _ _ _ _ _ v); [reflexivity| |exact ET].
    intros [[sc out] tot]. now apply G.
  - intros HG. apply X; [reflexivity|].
    pose proof (c35_union true true tbl default_params u Ks mem f _ _ good Hu VK H31 (reads_these good)) as C. rewrite K in C.
    specialize (C P HG). unfold union_cpp in C. rewrite RG in C. unfold perf_union in *. rewrite OM in *. cbn [bind] in *.
    destruct (times _ _ _) as [v| | | |] eqn:ET in C; try discriminate C. unfold qs. rewrite (times_stuck _ _ _ _ _ _ v); [reflexivity| |exact ET].
    intros [[sc out] tot]. now apply G.
Qed.

(** ** select and next_geq *)
Section Words.
Variables (iso : bool) (nan : list Z) (time : spec_float) (what' : string) (perf : list Z -> s_index -> Z -> list Z -> res (Z * Z)).
Variables (mapped : list Z -> list Z * Z) (name idx w : list Z) (more : list (list Z)) (d : disk) (n : Z).
Let run t := run_words iso nan time what' perf mapped name (idx :: w :: more) t d.
Hypothesis Hw : count_word w n.

Lemma run_words_missing t : no_file d idx -> run t = ([], d, Throw).
Proof. intro H. unfold run, run_words. rewrite (then_quiet _ _ _ n) by now apply stoull_count. now rewrite mmap_missing. Qed.

Variables (u : Z) (Ks : list (list Z)) (mem : list Z) (f : Z) (ix : s_index).
Hypothesis (H : index_on d mapped idx u Ks) (EM : mapped (f_index u Ks) = (mem, f)) (OM : index_mmap mem f = Ok ix).
Let asked := u64 (ix_size ix * n).

Lemma run_words_over t : 2 ^ 63 <= 4 * asked -> run t = ([], d, Throw).
Proof.
  intro Ha. unfold run, run_words. rewrite (then_quiet _ _ _ n) by now apply stoull_count.
  rewrite (then_mmap d mapped idx u Ks mem f ix) by assumption. fold asked. cbn zeta. rewrite reserve_over by lia. reflexivity.
Qed.
Lemma run_words_scan t qs : asked < 2 ^ 61 -> scan_words (S (length t)) iso t 0 asked = Ok qs ->
  run t = failed (say_reading ++ say_done ++ say_count "performing " (zlen qs) what') d (perf mem ix n qs)
            (fun a => show (snd a) ++ endl ++ say_means nan time asked).
Proof.
  intros Ha E. unfold run, run_words. rewrite (then_quiet _ _ _ n) by now apply stoull_count.
  rewrite (then_mmap d mapped idx u Ks mem f ix) by assumption. fold asked. cbn zeta.
  rewrite (then_quiet _ _ _ tt) by (apply reserve_ok; lia). rewrite then_cout, (then_quiet _ _ _ qs E), then_cout, then_cout. cbn [fst snd].
  destruct (perf mem ix n qs) as [[a b]| | | |]; cbn [failed snd].
  - rewrite (then_quiet _ _ _ (a, b)) by reflexivity. rewrite then_cout. unfold quiet. cbn [fst snd].
    now rewrite ?app_nil_r, <- ?app_assoc.
  - unfold then_, quiet. cbn [fst snd]. now rewrite ?app_nil_r.
  - unfold then_, quiet. cbn [fst snd]. now rewrite ?app_nil_r.
  - unfold then_, quiet. cbn [fst snd]. now rewrite ?app_nil_r.
  - unfold then_, quiet. cbn [fst snd]. now rewrite ?app_nil_r.
Qed.
Lemma run_words_ub t : asked < 2 ^ 61 ->
  words_main iso (fun _ _ qs => Ok qs) mem (fun _ => f) (idx :: w :: more) t = UB -> run t = (say_reading, d, UB).
Proof.
  intros Ha E. unfold words_main in E. rewrite (stoull_count w n Hw) in E. cbn [bind] in E. rewrite OM in E. cbn [bind] in E.
  fold asked in E. cbn zeta in E. rewrite reserve_ok in E by lia. cbn [bind] in E.
  unfold run, run_words. rewrite (then_quiet _ _ _ n) by now apply stoull_count.
  rewrite (then_mmap d mapped idx u Ks mem f ix) by assumption. fold asked. cbn zeta.
  rewrite (then_quiet _ _ _ tt) by (apply reserve_ok; lia). rewrite then_cout.
  destruct (scan_words _ _ _ _ _); try discriminate E. unfold then_, quiet. cbn [fst snd]. now rewrite app_nil_r.
Qed.
End Words.

Lemma perf_select_count dbg mem ix n qs k v : perf_select dbg mem ix n qs = Ok (k, v) -> k = zlen qs.
Proof. unfold perf_select. destruct (times _ _ _); try discriminate. cbn [bind]. congruence. Qed.
Lemma perf_next_geq_count dbg mem ix n qs k v : perf_next_geq dbg mem ix n qs = Ok (k, v) -> k = zlen qs.
Proof. unfold perf_next_geq. destruct (times _ _ _); try discriminate. cbn [bind]. congruence. Qed.

Theorem c64_words : forall iso nan time dbg mapped name idx w more n t ns d u Ks,
  index_on d mapped idx u Ks ->
  count_word w n -> zlen Ks < 2 ^ 32 -> zlen Ks * n < 2 ^ 61 ->
  typed t ns -> Forall (storable_int iso) ns -> Forall is_u32 ns ->
  let argv := idx :: w :: more in
  let select := run_select iso nan time dbg mapped name argv t d in
  let next_geq := run_next_geq iso nan time dbg mapped name argv t d in
  let read := if zlen Ks * n <? 2 ^ 32 then zlen Ks * n else zlen ns in
  (Ks = [] \/ n < 2 ^ 32 -> zlen Ks * n <= zlen ns ->
     reports nan (perf_lines "select queries" read (zlen Ks * n)
                    (4 * total (fun v => v) (selected 0 (asked Ks n ns)) mod 2 ^ 64) time) d select
     /\ reports nan (perf_lines "next_geq queries" read (zlen Ks * n)
                       (4 * total (fun q => spec_next_geq (fst q) (snd q)) (asked Ks n ns) mod 2 ^ 64) time) d next_geq)
  /\ (zlen ns < zlen Ks * n ->
        stops (started_lines "select queries" (zlen ns)) UB d select
        /\ stops (started_lines "next_geq queries" (zlen ns)) UB d next_geq).
Proof.
  intros iso nan time dbg mapped name idx w more n t ns d u Ks H Hw HK HX HT HF HU argv select next_geq read.
  destruct (mapped (f_index u Ks)) as [mem f] eqn:EM.
  destruct (index_on_holds dbg d mapped idx u Ks mem f H EM) as (_ & H0 & ix & O).
  destruct H as (Hu & V & HH). assert (H : index_on d mapped idx u Ks) by exact (conj Hu (conj V HH)). clear HH.
  pose proof (keeps_all Ks V) as K. pose proof (count_range w n Hw) as Hn. pose proof (zlen_nonneg _ Ks) as K0.
  pose proof (zlen_nonneg _ ns) as S0.
  assert (VK : Forall valid (kept_lists default_params Ks)) by now rewrite K.
  assert (OM : index_mmap mem f = Ok ix) by apply O. assert (OS : ix_size ix = zlen Ks) by apply O.
  assert (EA : u64 (ix_size ix * n) = zlen Ks * n) by (rewrite OS; unfold u64; apply Z.mod_small; nia).
  set (qs := M_Drivers.read_words ns 0 (zlen Ks * n)).
  assert (ES : scan_words (S (length t)) iso t 0 (u64 (ix_size ix * n)) = Ok qs).
  { rewrite EA. apply scan_words_read; [exact HT|exact HF|lia]. }
  assert (R0 : 0 <= read) by (unfold read; destruct (_ <? _); nia).
  pose proof (c35_select dbg dbg default_params u Ks mem f n ns Hu VK H0) as CS. rewrite K in CS.
  destruct (CS Hn HK HU) as [CS1 CS2]. clear CS.
  pose proof (c35_next_geq dbg dbg default_params u Ks mem f n ns Hu VK H0) as CN. rewrite K in CN.
  destruct (CN Hn HK HU) as [CN1 CN2]. clear CN.
  unfold select_cpp, next_geq_cpp in *. rewrite OM in *. cbn [bind] in *. rewrite EA in CS1, CS2, CN1, CN2.
  fold qs in CS1, CS2, CN1, CN2.
  assert (X : forall what what' (perf : list Z -> s_index -> Z -> list Z -> res (Z * Z)) v, codes what' = codes " " ++ codes what ++ codes "..." -> 0 <= v ->
    perf mem ix n qs = Ok (read, v) -> read = zlen qs ->
    reports nan (perf_lines what read (zlen Ks * n) v time) d (run_words iso nan time what' perf mapped name (idx :: w :: more) t d)).
  { intros what what' perf v EW Hv E ER. apply reports_of; [apply perf_nonneg; auto|].
    rewrite (run_words_scan iso nan time what' perf mapped name idx w more d n Hw u Ks mem f ix H EM OM t qs ltac:(rewrite EA; exact HX) ES).
    rewrite E. cbn [failed snd]. rewrite EA, <- (perf_text nan time what what') by exact EW. rewrite <- ER. now rewrite <- ?app_assoc. }
  assert (Y : forall what what' (perf : list Z -> s_index -> Z -> list Z -> res (Z * Z)), codes what' = codes " " ++ codes what ++ codes "..." ->
    perf mem ix n qs = UB -> zlen qs = zlen ns ->
    stops (started_lines what (zlen ns)) UB d (run_words iso nan time what' perf mapped name (idx :: w :: more) t d)).
  { intros what what' perf EW E ER. apply stops_of; [apply started_nonneg; auto|].
    rewrite (run_words_scan iso nan time what' perf mapped name idx w more d n Hw u Ks mem f ix H EM OM t qs ltac:(rewrite EA; exact HX) ES).
    rewrite E. cbn [failed]. rewrite ER. now rewrite (started_text what what'). }
  split.
  - intros H1 H2. split; (apply X; [reflexivity|apply mod64| |]).
    + apply CS1; auto.
    + eapply perf_select_count. apply CS1; auto.
    + apply CN1; auto.
    + eapply perf_next_geq_count. apply CN1; auto.
  - intro HL.
    assert (EL : zlen qs = zlen ns).
    { unfold qs. rewrite read_words_ok by nia. rewrite zlen_map. destruct (_ <? _); [|reflexivity].
      rewrite firstn_all2; [reflexivity|]. unfold zlen in *. lia. }
    split; (apply Y; [reflexivity| |exact EL]); auto.
Qed.

Theorem c64_words_stop : forall iso nan time what perf mapped name idx w more d,
  let run stdin := run_words iso nan time what perf mapped name (idx :: w :: more) stdin d in
  (bad_count w -> forall stdin, run stdin = ([], d, Throw))
  /\ forall n, count_word w n ->
     (no_file d idx -> forall stdin, run stdin = ([], d, Throw))
     /\ forall u Ks, index_on d mapped idx u Ks ->
        let asked := (zlen Ks * n) mod 2 ^ 64 in
        (2 ^ 63 <= 4 * asked -> forall stdin, run stdin = ([], d, Throw))
        /\ (asked < 2 ^ 61 ->
            (forall t g ns, typed t ns -> zlen ns < asked \/ 2 ^ 32 <= asked -> Forall (storable_int iso) ns -> garbage g ->
               stops reading_line UB d (run (t ++ g)))
            /\ (forall t g ns n rest, iso = true -> typed t (ns ++ n :: rest) -> no_digit g -> zlen ns < asked ->
                  Forall (storable_int iso) ns -> ~ storable_int iso n -> stops reading_line UB d (run (t ++ g)))).
Proof.
  intros iso nan time what perf mapped name idx w more d run. split.
  - intros H stdin. apply stoull_bad in H. unfold run, run_words. now rewrite H.
  - intros n Hw. split.
    + intros HN stdin. unfold run. now apply (run_words_missing iso nan time what perf mapped name idx w more d n Hw).
    + intros u Ks H asked. destruct (mapped (f_index u Ks)) as [mem f] eqn:EM.
      destruct (index_on_holds true d mapped idx u Ks mem f H EM) as (_ & _ & ix & O).
      assert (OM : index_mmap mem f = Ok ix) by apply O. assert (OS : ix_size ix = zlen Ks) by apply O.
      assert (EA : u64 (ix_size ix * n) = asked) by (rewrite OS; reflexivity). split.
      * intros Hb stdin. unfold run. apply (run_words_over iso nan time what perf mapped name idx w more d n Hw u Ks mem f ix H EM OM).
        now rewrite EA.
      * intro Ha. split.
        -- intros t g ns HT HL HF HG. apply stops_of; [apply reading_nonneg|]. rewrite <- reading_text. unfold run.
           apply (run_words_ub iso nan time what perf mapped name idx w more d n Hw u Ks mem f ix H EM OM); [now rewrite EA|].
           destruct (c47_words iso (fun _ _ qs => Ok qs) mem (fun _ => f) ix idx w more n t g ns [] OM Hw) as (_ & C & _).
           ++ now rewrite app_nil_r.
           ++ rewrite OS. exact Ha.
           ++ apply C; auto. now rewrite OS.
        -- intros t g ns m rest EI HT HG HL HF HO. apply stops_of; [apply reading_nonneg|]. rewrite <- reading_text. unfold run.
           apply (run_words_ub iso nan time what perf mapped name idx w more d n Hw u Ks mem f ix H EM OM); [now rewrite EA|].
           destruct (c47_words iso (fun _ _ qs => Ok qs) mem (fun _ => f) ix idx w more n t g ns (m :: rest) OM Hw HT) as (_ & _ & C).
           ++ rewrite OS. exact Ha.
           ++ apply C; auto; [now rewrite OS|]. exists m, rest. auto.
Qed.

(** ** cardinality, decode and uncompress *)
Theorem c64_index : forall nan time dbg mapped name idx more d,
  let card := run_cardinality nan time dbg mapped name (idx :: more) d in
  let dec := run_decode nan time dbg mapped name (idx :: more) d in
  let unc := run_uncompress nan time dbg mapped name (idx :: more) d in
  (no_file d idx -> card = ([], d, Throw) /\ dec = ([], d, Throw) /\ unc = ([], d, Throw))
  /\ forall u Ks, index_on d mapped idx u Ks ->
     let words := if u <? 4294901760 then 1024 * (u / 65536 + 1) else 0 in
     reports nan [[N (11 * total zlen Ks mod 2 ^ 64 / 11)]; [W "Mean per run: "; R time; W " [musec]"];
                  [W "Mean per query: "; R (SFmul 53 1024 (over time (zlen Ks)) (dbl 1000)); W " [ns]"]] d card
     /\ (Forall (fun S => decode_fits S u) Ks -> reports nan (speed_lines (zlen Ks) (total zlen Ks mod 2 ^ 64) time) d dec)
     /\ (Exists (fun S => ~ decode_fits S u) Ks -> dec = ([], d, UB))
     /\ (Forall (fun S => uncompress_fits S words) Ks ->
           reports nan ([W "universe size: "; N u] :: speed_lines (zlen Ks) (total zlen Ks mod 2 ^ 64) time) d unc)
     /\ (Exists (fun S => ~ uncompress_fits S words) Ks -> stops [[W "universe size: "; N u]] UB d unc).
Proof.
  intros nan time dbg mapped name idx more d card dec unc. split.
  - intro H. unfold card, dec, unc, run_cardinality, run_decode, run_uncompress. now rewrite !mmap_missing.
  - intros u Ks H words. destruct (mapped (f_index u Ks)) as [mem f] eqn:EM.
    destruct (index_on_holds dbg d mapped idx u Ks mem f H EM) as (H31 & H0 & ix & O).
    destruct H as (Hu & V & HH). assert (H : index_on d mapped idx u Ks) by exact (conj Hu (conj V HH)). clear HH.
    pose proof (keeps_all Ks V) as K. assert (VK : Forall valid (kept_lists default_params Ks)) by now rewrite K.
    assert (OM : index_mmap mem f = Ok ix) by apply O. assert (OU : ix_universe ix = u) by apply O.
    destruct (c53_index nan time dbg dbg default_params u Ks mem f Hu VK) as [C _]. rewrite K in C.
    destruct (C H0) as [(t & Et & Pt) _]. clear C.
    pose proof (c35_decode dbg dbg default_params u Ks mem f Hu VK H31) as CD. rewrite K in CD. destruct CD as [D1 D2].
    pose proof (c35_uncompress dbg dbg default_params u Ks mem f Hu VK H0) as CU. rewrite K in CU. destruct CU as [U1 U2].
    assert (U0 : Forall (Forall nonneg) [[W "universe size: "; N u]]) by (pieces; unfold is_u32 in Hu; lia).
    assert (UT : forall nan, say_universe u = ptext nan [[W "universe size: "; N u]]) by (intro; lines).
    split; [|split; [|split; [|split]]].
    + exists t. split; [exact Pt|]. unfold card, run_cardinality. rewrite (then_mmap d mapped idx u Ks mem f ix) by assumption.
      rewrite (then_quiet _ _ _ t Et), then_cout. unfold quiet. cbn [fst snd]. now rewrite app_nil_r.
    + intro HD. apply reports_of; [apply speed_nonneg; [apply zlen_nonneg|apply mod64]|]. unfold dec, run_decode.
      rewrite (then_mmap d mapped idx u Ks mem f ix) by assumption. rewrite (then_quiet _ _ _ _ (D1 HD)), then_cout. unfold quiet. cbn [fst snd].
      now rewrite app_nil_r, speed_text.
    + intro HD. unfold dec, run_decode. rewrite (then_mmap d mapped idx u Ks mem f ix) by assumption. now rewrite (D2 HD).
    + intro HD. apply reports_of.
      { constructor; [now apply Forall_inv in U0|]. apply speed_nonneg; [apply zlen_nonneg|apply mod64]. }
      unfold unc, run_uncompress. rewrite (then_mmap d mapped idx u Ks mem f ix) by assumption. rewrite then_cout, OU.
      rewrite (then_quiet _ _ _ _ (U1 HD)), then_cout. unfold quiet. cbn [fst snd].
      rewrite app_nil_r, speed_text, (UT nan). now rewrite <- ptext_app.
    + intro HD. apply stops_of; [exact U0|]. unfold unc, run_uncompress. rewrite (then_mmap d mapped idx u Ks mem f ix) by assumption.
      rewrite then_cout, OU, (U2 HD). unfold then_, quiet. cbn [fst snd]. now rewrite app_nil_r, (UT []).
Qed.
