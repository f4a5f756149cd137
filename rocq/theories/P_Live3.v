(** Proofs for C65, continued: the test programs. *)
From Coq Require Import Lia Sorted String Floats.SpecFloat.
From Verif Require Import Base Hw Spec Lib L_Bits L_Group Layout M_Util M_Build M_Seq M_Decode M_Uncompress
  M_Query M_Union M_Many M_Index M_Print M_Calls M_Tests M_Drivers M_Text M_Out M_Say M_Session M_Bench M_Live
  Holds Format Room Shown Typed Printed Told Report Session Bench Live
  P_Build1 P_Build2 P_Build3 P_Seq P_Decode P_Query P_NextGeq
  P_Ng P_Enum P_Uncompress P_Sets P_Index P_Fin1 P_Fin2 P_Fin3 P_Room P_Tests P_Tests2 P_Tests3 P_Tests4 P_Fits P_Text3 P_Out3 P_Say P_Say3
  P_Session P_Session2 P_Bench P_Live P_Live2.
Local Open Scope Z_scope.

Section Run.
Context (stod : list Z -> res spec_float) (iso : bool) (mapped : list Z -> list Z * Z) (name idx coll : list Z) (argv : list (list Z))
  (d : files) (params : parameters) (u' : Z) (Ks' : list (list Z)) (mem : list Z) (f : Z) (ix : s_index) (ws : list Z).
Context (E : test_options stod iso argv default_params = Ok params) (HI : index_on d mapped idx u' Ks')
  (EM : mapped (f_index u' Ks') = (mem, f)) (EX : index_mmap mem f = Ok ix)
  (HF : has_file d coll (words32 ws)) (HU : Forall is_u32 ws).
Let run test := run_live stod iso test mapped name (idx :: coll :: argv) d.

Lemma run_live_is test :
  run test = (do! _ := spoken (test params mem ix ws) in quiet (Ok 0)) d.
Proof.
  unfold run, run_live. rewrite (then_quiet _ _ _ (Some (idx, coll, params))) by (cbn [test_main]; rewrite E; reflexivity).
  rewrite (then_mmap d mapped idx u' Ks' mem f ix _ HI EM EX), (then_open _ _ _ _ HF), read_words by exact HU. reflexivity.
Qed.
Lemma run_live_ok test g t : test params mem ix ws (true, []) = ((g, t), Ok tt) -> run test = (t, d, Ok 0).
Proof. intro ET. rewrite run_live_is. unfold then_, spoken, quiet. rewrite ET. cbn [snd]. now rewrite app_nil_r. Qed.
Lemma run_live_ub test g t : test params mem ix ws (true, []) = ((g, t), UB) -> run test = (t, d, UB).
Proof. intro ET. rewrite run_live_is. unfold then_, spoken, quiet. now rewrite ET. Qed.
Lemma run_live_abort test g t : test params mem ix ws (true, []) = ((g, t), Abort) -> run test = (t, d, Abort).
Proof. intro ET. rewrite run_live_is. unfold then_, spoken, quiet. now rewrite ET. Qed.
End Run.

Lemma so_far_nonneg verb u rep pairs : 0 <= u ->
  Forall (fun p => Forall (Forall nonneg) (rep (fst p) (snd p))) pairs -> Forall (Forall nonneg) (so_far verb u rep pairs).
Proof. intros Hu H. unfold so_far. constructor; [|apply reports_nonneg; [lia|exact H]]. repeat constructor; assumption. Qed.

Lemma words_parts u Ls : Forall is_u32 (collection u Ls) -> Forall (Forall is_u32) Ls.
Proof.
  intro H. unfold collection in H. apply Forall_inv_tail, Forall_inv_tail in H. apply Forall_forall. intros L HL.
  apply Forall_forall. intros v Hv. rewrite Forall_forall in H. apply H. apply in_flat_map. exists L. split; [exact HL|now right].
Qed.

Theorem c65_tests : forall stod iso dbg mapped name idx coll args d,
  let double v x := stod v = Ok x in
  Forall (proper_test iso double) args ->
  exists density size,
    settled (says_density double) args (p_density default_params) density
    /\ settled (says_size iso) args (p_size default_params) size
    /\ forall u u' Ls tail Ks',
       let params := mkParams density size in
       let run test := run_live stod iso test mapped name (idx :: coll :: flat_map spelled args) d in
       let Ks := kept_lists params Ls in
       let pairs := combine Ks Ks' in
       index_on d mapped idx u' Ks' -> has_file d coll (words32 (collection u Ls ++ tail)) ->
       Forall is_u32 (collection u Ls ++ tail) -> Forall short Ls -> zlen Ks <= zlen Ks' ->
       let ends verb last_verb rep test :=
         (tail = [] -> reports [] (session verb last_verb u' rep pairs) d (run test))
         /\ (forall how, ends_badly dbg params (zlen Ks = zlen Ks') tail how -> stops (so_far verb u' rep pairs) how d (run test)) in
       let long p := zlen (fst p) <= zlen (snd p) in
       let spreads S := last S 0 / 65536 <= u' / 65536 /\ zlen S <= u' in
       (Forall (fun p => decode_fits (snd p) u' /\ long p) pairs -> ends "decoded "%string "decoded "%string decode_report (live_decode dbg))
       /\ ends "checked "%string "checked "%string contains_report (live_contains dbg)
       /\ ends "checked "%string "checked "%string select_report (live_select dbg)
       /\ ends "decoded "%string "decoded "%string (enumerator_report u') (live_enumerator dbg)
       /\ (forall fuel, (100 <= fuel)%nat -> Forall (fun L => valid L /\ last L 0 + 1000001 < 2 ^ 32) Ks ->
             ends "checked "%string "checked "%string next_geq_report (live_next_geq fuel dbg)
             /\ ends "checked "%string "checked "%string next_geq_report (live_next_geq_enumerator fuel dbg))
       /\ (u' < 2 ^ 32 - 65536 -> Forall (fun p => spreads (snd p) /\ long p) pairs ->
             ends "decoded "%string "uncompressed "%string uncompress_report (live_uncompress dbg))
       /\ (forall L more S, tail = zlen L :: L ++ more -> short L -> pass params (zlen L) (last L 0) = true ->
             znth Ks' (zlen Ks) = Some S ->
             (Forall (fun p => decode_fits (snd p) u' /\ long p) pairs -> ~ decode_fits S u' ->
                stops (so_far "decoded " u' decode_report pairs) UB d (run (live_decode dbg)))
             /\ (u' < 2 ^ 32 - 65536 -> Forall (fun p => spreads (snd p) /\ long p) pairs -> ~ spreads S ->
                   stops (so_far "decoded " u' uncompress_report pairs) UB d (run (live_uncompress dbg)))).
Proof.
  intros stod iso dbg mapped name idx coll args d double H.
  destruct (test_options_ok stod iso [] args default_params H) as (x & s & S1 & S2 & E). rewrite app_nil_r in E.
  exists x, s. split; [exact S1|]. split; [exact S2|]. cbn [test_options] in E. clear S1 S2.
  intros u u' Ls tail Ks' params run Ks pairs HI HF HU HSh HK ends long spreads. fold params in E.
  pose proof HI as (Hu & V & _). assert (U0 : 0 <= u') by (unfold is_u32 in Hu; lia).
  destruct (mapped (f_index u' Ks')) as [mem f] eqn:EM.
  destruct (index_on_holds dbg d mapped idx u' Ks' mem f HI EM) as (_ & _ & ix & O).
  assert (O0 : opened 0 mem f u' Ks' ix) by (eapply opened_slack; [exact O|lia]).
  assert (EU : ix_universe ix = u') by apply O.
  assert (HUK : Forall (Forall is_u32) Ks).
  { apply Forall_app in HU as [HU _]. apply words_parts in HU. apply Forall_forall. intros L HL. apply filter_In in HL as [HL _].
    rewrite Forall_forall in HU. auto. }
  assert (HSK : Forall short Ks).
  { apply Forall_forall. intros L HL. apply filter_In in HL as [HL _]. rewrite Forall_forall in HSh. auto. }
  assert (NNp : forall rep : list Z -> list Z -> list (list piece),
    (forall L S, Forall (fun v => 0 <= v) L -> Forall (fun v => 0 <= v) S -> Forall (Forall nonneg) (rep L S)) ->
    Forall (fun p => Forall (Forall nonneg) (rep (fst p) (snd p))) pairs).
  { intros rep HN. apply (pairs_nonneg (fun L S => Forall (Forall nonneg) (rep L S))); auto. }
  set (data := collection u Ls ++ tail) in *.
  set (argv := flat_map spelled args) in *.
  assert (OK := fun test => run_live_ok stod iso mapped name idx coll argv d params u' Ks' mem f ix data E HI EM (proj1 O) HF HU test).
  assert (UBs := fun test => run_live_ub stod iso mapped name idx coll argv d params u' Ks' mem f ix data E HI EM (proj1 O) HF HU test).
  assert (ABs := fun test => run_live_abort stod iso mapped name idx coll argv d params u' Ks' mem f ix data E HI EM (proj1 O) HF HU test).
  assert (GEN : forall A verb last_verb rep test (body : Z -> Z -> Z -> Z -> A -> live A) start (inv : A -> Prop),
    test params mem ix data = live_scan verb last_verb dbg params ix data body start ->
    inv start ->
    (forall k i L S a lg, znth Ks k = Some L -> znth Ks' k = Some S -> inv a -> list_at data (i + 1) L ->
       exists a', body k i (zlen L) (last L 0) a lg = (reported (rep L S) lg, Ok a') /\ inv a') ->
    (forall k i n v a lg, index_get dbg mem ix k = Abort -> body k i n v a lg = (lg, Abort)) ->
    (forall L S, Forall (fun v => 0 <= v) L -> Forall (fun v => 0 <= v) S -> Forall (Forall nonneg) (rep L S)) ->
    ends verb last_verb rep test
    /\ forall L more S, tail = zlen L :: L ++ more -> short L -> pass params (zlen L) (last L 0) = true ->
         znth Ks' (zlen Ks) = Some S -> (forall a lg i, inv a -> body (zlen Ks) i (zlen L) (last L 0) a lg = (lg, UB)) ->
         stops (so_far verb u' rep pairs) UB d (run test)).
  { intros A verb last_verb rep test body start inv ET Hs HB HAb HN.
    destruct (live_scan_ends verb last_verb dbg params u u' Ls tail Ks' ix body start rep inv EU HSh HK Hs HB) as (G1 & G2 & G3).
    fold data in G1, G2, G3. rewrite <- ET in G1, G2, G3. specialize (NNp rep HN). split; [split|].
    - intro T. destruct (G1 T) as (g & R). apply reports_of; [now apply session_nonneg|]. exact (OK test g _ R).
    - intros how [(n & part & T & HP & ->)|(L & more & T & HS & HP & Hd & Hall & ->)].
      + destruct (G2 n part T HP) as (g & R). apply stops_of; [now apply so_far_nonneg|]. exact (UBs test g _ R).
      + destruct (G3 L more T) as [_ G4]; [unfold short; lia|exact HP|].
        destruct G4 as (g & R).
        { intros a lg i _. apply HAb. change (filter (keep params) Ls) with Ks. rewrite Hall. eapply index_over; eauto. }
        apply stops_of; [now apply so_far_nonneg|]. exact (ABs test g _ R).
    - intros L more S T HS HP ES HB'. destruct (G3 L more T HS HP) as [G4 _]. destruct (G4 HB') as (g & R).
      apply stops_of; [now apply so_far_nonneg|]. exact (UBs test g _ R). }
  assert (AB : forall B (k : s_sequence -> live B) i lg, index_get dbg mem ix i = Abort ->
    lthen (just (index_get dbg mem ix i)) k lg = (lg, Abort)) by (intros B k i lg ->; reflexivity).
  assert (DEC : Forall (fun p => decode_fits (snd p) u' /\ long p) pairs -> ends "decoded "%string "decoded "%string decode_report (live_decode dbg)
    /\ forall L more S, tail = zlen L :: L ++ more -> short L -> pass params (zlen L) (last L 0) = true ->
         znth Ks' (zlen Ks) = Some S -> (forall a lg i, (fun out => zlen out = u') a -> live_decode_body dbg mem data ix (zlen Ks) i (zlen L) (last L 0) a lg = (lg, UB)) ->
         stops (so_far "decoded " u' decode_report pairs) UB d (run (live_decode dbg))).
  { intro HP. apply (GEN (list Z) "decoded "%string "decoded "%string decode_report (live_decode dbg) (live_decode_body dbg mem data ix)
      (repeat 0 (Z.to_nat (ix_universe ix))) (fun out => zlen out = u')).
    - reflexivity.
    - rewrite EU, zlen_repeat. lia.
    - apply (decode_step dbg mem f u' Ks Ks' ix data O HP).
    - intros. now apply AB.
    - apply decode_nonneg. }
  assert (UNC : u' < 2 ^ 32 - 65536 -> Forall (fun p => spreads (snd p) /\ long p) pairs -> ends "decoded "%string "uncompressed "%string uncompress_report (live_uncompress dbg)
    /\ forall L more S, tail = zlen L :: L ++ more -> short L -> pass params (zlen L) (last L 0) = true ->
         znth Ks' (zlen Ks) = Some S -> (forall a lg i, two_buffers u' a -> live_uncompress_body dbg mem data ix (zlen Ks) i (zlen L) (last L 0) a lg = (lg, UB)) ->
         stops (so_far "decoded " u' uncompress_report pairs) UB d (run (live_uncompress dbg))).
  { intros Hu' HP. apply (GEN (list Z * list Z)%type "decoded "%string "uncompressed "%string uncompress_report (live_uncompress dbg)
      (live_uncompress_body dbg mem data ix)
      (repeat 0 (Z.to_nat (bitmap_words (ix_universe ix))), repeat 0 (Z.to_nat (ix_universe ix))) (two_buffers u')).
    - reflexivity.
    - rewrite EU. split; [reflexivity|]. cbn [snd]. rewrite zlen_repeat. lia.
    - apply (uncompress_step dbg mem f u' Ks Ks' ix data O0 ltac:(lia) HP).
    - intros k i n v [bm out] lg EA. now apply AB.
    - apply uncompress_nonneg. }
  split; [|split; [|split; [|split; [|split; [|split]]]]].
  - intro HP. exact (proj1 (DEC HP)).
  - apply (GEN unit "checked "%string "checked "%string contains_report (live_contains dbg) (live_contains_body dbg mem data ix) tt (fun _ => True)); auto.
    + apply (contains_step dbg mem f u' Ks Ks' ix data O0 HUK).
    + intros. now apply AB.
    + intros. now apply contains_nonneg.
  - apply (GEN unit "checked "%string "checked "%string select_report (live_select dbg) (live_select_body dbg mem data ix) tt (fun _ => True)); auto.
    + apply (select_step dbg mem f u' Ks Ks' ix data O0 HSK).
    + intros. now apply AB.
    + apply select_nonneg.
  - apply (GEN (list Z) "decoded "%string "decoded "%string (enumerator_report u') (live_enumerator dbg) (live_enumerator_body dbg mem data ix)
      enum_new_buf (fun b => zlen b = 65536)); auto.
    + apply (enumerator_step dbg mem f u' Ks Ks' ix data O Hu HSK).
    + intros. now apply AB.
    + intros. now apply value_nonneg.
  - intros fuel Hf HL. change (2 ^ 32) with 4294967296 in HL. split.
    + apply (GEN unit "checked "%string "checked "%string next_geq_report (live_next_geq fuel dbg) (live_next_geq_body fuel dbg mem data ix) tt (fun _ => True)); auto.
      * apply (next_geq_step dbg mem f u' Ks Ks' ix data fuel O0 HL Hf).
      * intros. now apply AB.
      * apply next_geq_nonneg.
    + apply (GEN unit "checked "%string "checked "%string next_geq_report (live_next_geq_enumerator fuel dbg) (live_ng_body fuel dbg mem data ix) tt (fun _ => True)); auto.
      * apply (ng_step_ dbg mem f u' Ks Ks' ix data fuel O0 HL Hf).
      * intros. now apply AB.
      * apply next_geq_nonneg.
  - intros Hu' HP. exact (proj1 (UNC Hu' HP)).
  - intros L more S T HS HP ES. split.
    + intros HP' NF. apply (proj2 (DEC HP') L more S T HS HP ES).
      intros a lg i Ia. exact (decode_unfit dbg mem f u' Ks' ix data (zlen Ks) i _ _ S a lg O ES NF Ia).
    + intros Hu' HP' NF. apply (proj2 (UNC Hu' HP') L more S T HS HP ES).
      intros a lg i Ia. apply (uncompress_unfit dbg mem f u' Ks' ix data (zlen Ks) i _ _ S a lg O0 ltac:(lia) ES NF Ia).
Qed.

Theorem c65_refuse : forall stod iso dbg mapped name idx coll args d,
  let double v x := stod v = Ok x in
  Forall (proper_test iso double) args ->
  forall test fuel,
  In test [live_decode dbg; live_contains dbg; live_select dbg; live_enumerator dbg; live_next_geq fuel dbg;
           live_next_geq_enumerator fuel dbg; live_uncompress dbg] ->
  let run argv := run_live stod iso test mapped name argv d in
  let argv := idx :: coll :: flat_map spelled args in
  (no_file d idx -> run argv = ([], d, Throw))
  /\ (forall u Ks, index_on d mapped idx u Ks ->
        (no_file d coll -> run argv = ([], d, Throw))
        /\ (has_file d coll [] -> run argv = ([], d, UB))
        /\ (forall w ws, has_file d coll (words32 (w :: ws)) -> Forall is_u32 (w :: ws) -> w <> 1 -> dbg = true ->
              run argv = ([], d, Abort)))
  /\ (forall few, zlen few < 2 ->
        run few = (name ++ word " index_filename collection_filename [--density d] [--size s]" ++ [10], d, Ok 1)).
Proof.
  intros stod iso dbg mapped name idx coll args d double H test fuel HT run argv.
  destruct (test_options_ok stod iso [] args default_params H) as (x & s & S1 & S2 & E). rewrite app_nil_r in E.
  cbn [test_options] in E. clear S1 S2. set (params := mkParams x s) in *.
  assert (HS : forall params mem ix data, exists A verb last_verb (body : Z -> Z -> Z -> Z -> A -> live A) start,
    test params mem ix data = live_scan verb last_verb dbg params ix data body start).
  { intros p mem ix data. repeat (destruct HT as [<-|HT]; [do 5 eexists; reflexivity|]). destruct HT. }
  split; [|split].
  - intro HN. unfold run, run_live, argv.
    rewrite (then_quiet _ _ _ (Some (idx, coll, params))) by (cbn [test_main]; rewrite E; reflexivity).
    now rewrite mmap_missing.
  - intros u Ks HI. destruct (mapped (f_index u Ks)) as [mem f] eqn:EM.
    destruct (index_on_holds dbg d mapped idx u Ks mem f HI EM) as (_ & _ & ix & O).
    split; [|split].
    + intro HN. unfold run, run_live, argv.
      rewrite (then_quiet _ _ _ (Some (idx, coll, params))) by (cbn [test_main]; rewrite E; reflexivity).
      rewrite (then_mmap d mapped idx u Ks mem f ix _ HI EM (proj1 O)). now rewrite then_missing.
    + intro HF. apply (run_live_ub stod iso mapped name idx coll _ d params u Ks mem f ix [] E HI EM (proj1 O) HF (Forall_nil _) test true).
      destruct (HS params mem ix []) as (A & verb & last_verb & body & start & ->). reflexivity.
    + intros w ws HF HU Hw Hd.
      apply (run_live_abort stod iso mapped name idx coll _ d params u Ks mem f ix (w :: ws) E HI EM (proj1 O) HF HU test true).
      destruct (HS params mem ix (w :: ws)) as (A & verb & last_verb & body & start & ->). unfold live_scan.
      change (vget (w :: ws) 0) with (Ok w). rewrite go_just. apply go_abort. unfold just. f_equal.
      unfold assert_. rewrite Hd. destruct (Z.eqb_spec w 1); [contradiction|reflexivity].
  - intros few Hf. assert (EN : test_main stod iso (fun index coll params => Ok (index, coll, params)) few = Ok None).
    { destruct few as [|a [|b few]]; [reflexivity..|]. exfalso. revert Hf. zl. }
    unfold run, run_live. rewrite (then_quiet _ _ _ None EN). unfold usage_. rewrite then_cout. unfold quiet. cbn [fst snd].
    now rewrite app_nil_r.
Qed.
