(** Proofs for C62: the programs that write collections, the tests, example, and a whole session. *)
From Coq Require Import Lia Sorted String Floats.SpecFloat.
From Verif Require Import Base Hw Spec Lib L_Bits L_Group Layout M_Util M_Build M_Seq M_Decode M_Query M_Many
  M_Index M_Print M_Drivers M_Tools M_Text M_Out M_Say M_Session Holds Format Room Shown Typed Printed Counts Report Drawn Session
  P_Build1 P_Build2 P_Build3 P_Index P_Format P_Text P_Text2 P_Text3 P_Text4 P_Text6 P_Tools P_Drivers P_Out3 P_Say P_Say3 P_Say4
  P_Session P_Session2.
Local Open Scope Z_scope.

(** ** tools *)
Theorem c62_uniform : forall iso name a b c e coll more num lo hi u tape d,
  int_word iso a num -> int_word iso b lo -> int_word iso c hi -> int_word iso e u ->
  is_u32 num -> is_u32 lo -> is_u32 hi -> is_u32 u ->
  let run := run_uniform iso name (a :: b :: c :: e :: coll :: more) tape d in
  (lo <= hi -> exists Ls d', zlen Ls = num /\ Forall (uniform_list lo hi u) Ls
     /\ saved d coll (words32 (collection u Ls)) d' /\ run = ([], d', Ok 0))
  /\ (hi < lo -> run = ([], d, UB)).
Proof.
  intros iso name a b c e coll more num lo hi u tape d Ha Hb Hc He Hn Hl Hh Hu run.
  assert (M : uniform_main iso (a :: b :: c :: e :: coll :: more) tape
              = let! data := gen_uniform num lo hi u tape in Ok (Some data)).
  { cbn [uniform_main]. rewrite (atoi_word _ _ _ Ha), (atoi_word _ _ _ Hb), (atoi_word _ _ _ Hc), (atoi_word _ _ _ He). reflexivity. }
  destruct (c36_uniform num lo hi u Hn Hl Hh Hu) as [C1 C2]. unfold run, run_uniform. split.
  - intro H. destruct (C1 H) as [T S]. destruct (T tape) as (data & E).
    destruct (proj1 (S data) (ex_intro _ tape E)) as (Ls & L1 & L2 & ->).
    exists Ls, ((coll, words32 (collection u Ls)) :: d). split; [exact L1|]. split; [exact L2|]. split; [apply saved_cons|].
    rewrite (then_quiet _ _ _ (Some (collection u Ls))) by (rewrite M, E; reflexivity). rewrite words32_bytes. reflexivity.
  - intro H. rewrite M, (C2 H). reflexivity.
Qed.

Theorem c62_clustered : forall iso fuel dbg junk name a b coll more num u tape d,
  int_word iso a num -> int_word iso b u -> is_u32 num -> 0 <= u <= 4294901760 -> u <= 65536 * Z.of_nat fuel ->
  In (word "--binary") more ->
  exists Ls d', zlen Ls = num /\ Forall (clustered_list u) Ls
    /\ saved d coll (words32 (collection u Ls)) d'
    /\ run_clustered iso fuel dbg junk name (a :: b :: coll :: more) tape d = ([], d', Ok 0).
Proof.
  intros iso fuel dbg junk name a b coll more num u tape d Ha Hb Hn Hu Hf HB.
  destruct (c36_clustered fuel dbg junk num u Hn Hu Hf) as [T S]. destruct (T tape) as (data & E).
  destruct (proj1 (S data) (ex_intro _ tape E)) as (Ls & L1 & L2 & ->).
  exists Ls, ((coll, words32 (collection u Ls)) :: d). split; [exact L1|]. split; [exact L2|]. split; [apply saved_cons|].
  unfold run_clustered. rewrite (then_quiet _ _ _ (Some (inl (collection u Ls)))).
  - rewrite words32_bytes. reflexivity.
  - cbn [clustered_main]. rewrite (atoi_word _ _ _ Ha), (atoi_word _ _ _ Hb). cbn [bind].
    assert (X : existsb (fun w => is_word w "--binary") more = true).
    { apply existsb_exists. exists (word "--binary"). split; [exact HB|]. apply is_word_eq. }
    rewrite X, E. reflexivity.
Qed.

(** ** test programs *)
Lemma run_test_is stod iso test mapped name idx coll argv params d fi fc mem f t :
  test_options stod iso argv default_params = Ok params ->
  has_file d idx fi -> has_file d coll fc -> mapped fi = (mem, f) ->
  test params mem f (words_in fc) = Ok t ->
  run_test stod iso test mapped name (idx :: coll :: argv) d = (t, d, Ok 0).
Proof.
  intros E H1 H2 EM ET. apply file_of_has in H1. apply file_of_has in H2.
  unfold run_test, say_test_main, with_usage. cbn [test_main]. rewrite E. cbn [bind].
  unfold open_file. rewrite H1, H2. cbn [snd bind]. rewrite EM, ET. reflexivity.
Qed.

Lemma tests_pass stod iso dbg mapped name idx coll argv params d u Ls mem f :
  test_options stod iso argv default_params = Ok params ->
  Forall is_u32 (collection u Ls) -> Forall short Ls -> Forall valid (kept_lists params Ls) ->
  has_file d coll (words32 (collection u Ls)) -> has_file d idx (f_index u (kept_lists params Ls)) ->
  mapped (f_index u (kept_lists params Ls)) = (mem, f) -> in_memory (f_index u (kept_lists params Ls)) mem f ->
  all_pass stod iso dbg mapped name (idx :: coll :: argv) d u (kept_lists params Ls).
Proof.
  intros E U HS V H1 H2 EM (M1 & M2 & M3 & M4).
  assert (Hu : is_u32 u) by (apply Forall_inv_tail in U; now apply Forall_inv in U).
  destruct (c29_index dbg params u Ls V HS) as (st & o & q & E1 & F). fold (kept_lists params Ls) in F.
  assert (HI : holds_index dbg params u Ls 31 mem f).
  { split; [exact HS|]. exists st, o, q. rewrite F. split; [exact E1|]. split; [exact M1|]. split; [exact M2|]. split; assumption. }
  destruct (c53_clean dbg dbg params u Ls mem f Hu V HI) as (C1 & C2 & C3 & C4 & C5 & C6).
  assert (X : forall test verb last_verb,
     writes [] (clean_session verb last_verb u (zlen (kept_lists params Ls))) (test params mem f (collection u Ls)) ->
     exists t, page [] (clean_session verb last_verb u (zlen (kept_lists params Ls))) t
       /\ run_test stod iso test mapped name (idx :: coll :: argv) d = (t, d, Ok 0)).
  { intros test verb last_verb (t & ET & P). exists t. split; [exact P|]. eapply run_test_is; eauto. rewrite read_words; assumption. }
  unfold all_pass. split; [|split; [|split; [|split; [|split]]]].
  - intro H. apply X. now apply C1.
  - apply X, C2.
  - apply X, C3.
  - apply X, C4.
  - intros fuel Hf H. destruct (C5 fuel Hf H) as [D1 D2]. split; apply X; assumption.
  - intros H H'. apply X. now apply C6.
Qed.

Theorem c62_tests : forall stod iso dbg mapped name idx coll args d,
  let double v x := stod v = Ok x in
  Forall (proper_test iso double) args ->
  exists density size,
    settled (says_density double) args (p_density default_params) density
    /\ settled (says_size iso) args (p_size default_params) size
    /\ (forall u Ls mem f,
       let Ks := kept_lists (mkParams density size) Ls in
       Forall is_u32 (collection u Ls) -> Forall short Ls -> Forall valid Ks ->
       has_file d coll (words32 (collection u Ls)) -> has_file d idx (f_index u Ks) ->
       mapped (f_index u Ks) = (mem, f) -> in_memory (f_index u Ks) mem f ->
       all_pass stod iso dbg mapped name (idx :: coll :: flat_map spelled args) d u Ks)
    /\ (forall test, no_file d idx \/ no_file d coll ->
         run_test stod iso test mapped name (idx :: coll :: flat_map spelled args) d = ([], d, Throw)).
Proof.
  intros stod iso dbg mapped name idx coll args d double H.
  destruct (test_options_ok stod iso [] args default_params H) as (x & s & S1 & S2 & E). rewrite app_nil_r in E.
  exists x, s. split; [exact S1|]. split; [exact S2|]. split; [intros; eapply tests_pass; eauto; rewrite E; reflexivity|].
  intros test HN. unfold run_test, say_test_main, with_usage. cbn [test_main]. rewrite E. cbn [test_options bind].
  unfold open_file. cbn [snd]. destruct (file_of d idx) as [fi|] eqn:EI; [|reflexivity]. cbn [bind].
  destruct HN as [HN|HN]; [rewrite (file_of_no _ _ HN) in EI; discriminate|]. rewrite (file_of_no _ _ HN).
  destruct (mapped fi). reflexivity.
Qed.

(** ** a session: a collection is drawn, indexed and checked *)
Lemma uniform_words lo hi u Ls : is_u32 hi -> is_u32 u -> Forall (uniform_list lo hi u) Ls -> Forall is_u32 (collection u Ls).
Proof.
  intros Hh Hu F. unfold collection. constructor; [unfold is_u32; lia|]. constructor; [exact Hu|].
  apply Forall_forall. intros w Hw. apply in_flat_map in Hw as (L & HL & Hw). rewrite Forall_forall in F.
  destruct (F L HL) as (_ & B & Z1 & _). destruct Hw as [<-|Hw].
  - pose proof (zlen_nonneg _ L). unfold is_u32 in *. lia.
  - rewrite Forall_forall in B. specialize (B w Hw). unfold is_u32 in *. lia.
Qed.
Lemma uniform_short lo hi u Ls : u < 4294901760 -> Forall (uniform_list lo hi u) Ls -> Forall short Ls.
Proof.
  intros Hu F. eapply Forall_impl; [|exact F]. intros L (S & R & _).
  assert (S1 : Forall (fun v => 0 <= v < Z.of_nat (Z.to_nat 4294901760)) L).
  { eapply Forall_impl; [|exact R]. cbn beta. intros v Hv. lia. }
  pose proof (L_Group.sorted_zlen_le _ _ S S1). unfold short. lia.
Qed.

Theorem c62_session : forall stod iso nan dbg dbg' sized mapped names a b c e wd ws coll idx num lo hi u density size tape d,
  int_word iso a num -> int_word iso b lo -> int_word iso c hi -> int_word iso e u ->
  is_u32 num -> is_u32 lo -> is_u32 hi -> 0 <= u < 4294901760 -> lo <= hi ->
  stod wd = Ok density -> int_word iso ws size -> 0 <= size -> coll <> idx ->
  let words := [word "--density"; wd; word "--size"; ws] in
  exists Ls d1,
    let Ks := kept_lists (mkParams density size) Ls in
    run_uniform iso (names 0) [a; b; c; e; coll] tape d = ([], d1, Ok 0)
    /\ zlen Ls = num /\ Forall (uniform_list lo hi u) Ls
    /\ let built := run_build stod iso nan dbg sized (names 1) (coll :: words ++ [word "--out"; idx]) d1 in
       total zlen Ks < 2 ^ 37 ->
       ((exists i, 1 <= i <= 256 /\ sparse_chunks i Ks = []) -> exists t, built = (t, d1, UB))
       /\ ((forall i, 1 <= i <= 256 -> sparse_chunks i Ks <> []) ->
           exists t1 t2 d2,
             page nan (build_lines u (zlen Ks) (counters (8 * zlen (f_index u Ks)) Ks)) t1
             /\ page nan [[W "saving data structure to disk..."]] t2
             /\ built = (t1 ++ sized (f_index u Ks) ++ t2, d2, Ok 0)
             /\ has_file d2 coll (words32 (collection u Ls)) /\ has_file d2 idx (f_index u Ks)
             /\ (forall n, n <> coll -> n <> idx -> forall x, has_file d2 n x <-> has_file d n x)
             /\ forall mem f, mapped (f_index u Ks) = (mem, f) -> in_memory (f_index u Ks) mem f ->
                all_pass stod iso dbg' mapped (names 2) (idx :: coll :: words) d2 u Ks).
Proof.
  intros stod iso nan dbg dbg' sized mapped names a b c e wd ws coll idx num lo hi u density size tape d
    Ha Hb Hc He Hn Hl Hh Hu Hlh Hd Hs Hs0 NE words.
  assert (Hu' : is_u32 u) by (unfold is_u32; lia).
  destruct (c62_uniform iso (names 0) a b c e coll [] num lo hi u tape d Ha Hb Hc He Hn Hl Hh Hu') as [C _].
  destruct (C Hlh) as (Ls & d1 & L1 & L2 & (SV1 & SV2) & RU). exists Ls, d1. set (params := mkParams density size). intro Ks.
  split; [exact RU|]. split; [exact L1|]. split; [exact L2|]. intros built B.
  pose proof (uniform_words lo hi u Ls Hh Hu' L2) as U. pose proof (uniform_short lo hi u Ls (proj2 Hu) L2) as HS.
  assert (V : Forall valid Ks).
  { apply (kept_valid params u Ls); [exact Hs0|lia|eapply uniform_plain; eauto]. }
  assert (EB : built = after_options nan dbg sized coll params (Some idx) d1).
  { unfold built, run_build, run_build_by, words. cbn [app]. rewrite (then_quiet _ _ _ (params, Some idx)); [reflexivity|].
    cbn [build_options]. rewrite is_word_eq, Hd. cbn [bind]. rewrite (is_word_neq (word "--size") "--density") by discriminate.
    rewrite is_word_eq, (atoi_word _ _ _ Hs). cbn [bind]. rewrite (is_word_neq (word "--out") "--density") by discriminate.
    rewrite (is_word_neq (word "--out") "--size") by discriminate. rewrite is_word_eq. reflexivity. }
  destruct (after_ok nan dbg sized coll params (Some idx) d1 u Ls U HS SV1 V B) as [A1 A2]. fold Ks in A1, A2. rewrite EB. split.
  - intro X. destruct (A2 X) as (t & t' & _ & ->). eexists. reflexivity.
  - intro X. destruct (A1 X) as (t1 & P1 & t2 & d2 & P2 & (SV3 & SV4) & ->). exists t1, t2, d2.
    assert (HC : has_file d2 coll (words32 (collection u Ls))) by (apply SV4; [exact NE|exact SV1]).
    split; [exact P1|]. split; [exact P2|]. split; [reflexivity|]. split; [exact HC|]. split; [exact SV3|]. split.
    + intros n N1 N2 x. rewrite (SV4 n N2 x). now apply SV2.
    + intros mem f EM IM. apply (tests_pass stod iso dbg' mapped (names 2) idx coll words params d2 u Ls mem f); auto.
      unfold words. cbn [test_options]. rewrite is_word_eq, Hd. cbn [bind].
      rewrite (is_word_neq (word "--size") "--density") by discriminate. rewrite is_word_eq, (atoi_word _ _ _ Hs). reflexivity.
Qed.

(** ** example *)
Lemma example_words_names name rest : forall names o,
  example_words name (flat_map (fun v => [word "-o"; v]) names ++ rest) o
  = example_words name rest (match names with [] => o | _ => Some (last names []) end).
Proof.
  induction names as [|v names IH]; intro o; [reflexivity|]. cbn [flat_map app example_words]. rewrite is_word_eq, IH.
  now destruct names.
Qed.

Theorem c62_example_words : forall nan dbg sized heap mapped name names stdin d,
  let run words := run_example nan dbg sized heap mapped name (flat_map (fun v => [word "-o"; v]) names ++ words) stdin d in
  (forall more, run (word "-h" :: more) = (name ++ word " -o output_filename < input" ++ [10], d, Ok 1))
  /\ (forall w more, w <> word "-o" -> w <> word "-h" ->
        run (w :: more) = (word "unknown option '" ++ w ++ word "'" ++ [10], d, Ok 1))
  /\ run [word "-o"] = ([], d, UB).
Proof.
  intros. unfold run, run_example, run_example_by. split; [|split].
  - intro more. rewrite example_words_names. cbn [example_words]. rewrite (is_word_neq (word "-h") "-o") by discriminate.
    rewrite is_word_eq. unfold then_, quiet, cout. rewrite app_nil_r. reflexivity.
  - intros w more N1 N2. rewrite example_words_names. cbn [example_words]. rewrite (is_word_neq w _ N1), (is_word_neq w _ N2).
    unfold then_, quiet, cout. rewrite app_nil_r. reflexivity.
  - rewrite example_words_names. cbn [example_words]. rewrite is_word_eq. reflexivity.
Qed.

Lemma rest_ok dbg S mem a d : valid S -> decode_fits S (zlen S) ->
  (exists enc, encoding dbg S enc /\ bytes_at mem a enc /\ a + zlen enc + 31 <= zlen mem) ->
  example_rest dbg S mem a d = ([], d, Ok 0).
Proof.
  intros V F (enc & EE & EB & EL).
  destruct (example_check_ok dbg mem a S V ltac:(exists dbg, enc; auto)) as [C1 _]. specialize (C1 F).
  unfold example_check in C1. unfold example_rest. destruct (seq_at mem a) as [ss| | | |]; try discriminate. cbn [bind] in *.
  rewrite (then_quiet _ _ _ _ eq_refl).
  destruct (seq_size mem ss) as [size| | | |]; try discriminate. cbn [bind] in *. rewrite (then_quiet _ _ _ _ eq_refl).
  destruct (decode _ _ _ _ _) as [[out k]| | | |]; try discriminate. cbn [bind] in *. rewrite (then_quiet _ _ _ _ eq_refl).
  rewrite (say_example_loop_ok _ _ _ _ _ _ _ _ C1). reflexivity.
Qed.

Theorem c62_example : forall nan dbg sized heap mapped name names t g S more d,
  typed t (zlen S :: S ++ more) -> no_digit g -> valid S ->
  (forall b, bytes_at (fst (heap b)) (snd (heap b)) b /\ snd (heap b) + zlen b + 31 <= zlen (fst (heap b))) ->
  (forall b, bytes_at (fst (mapped b)) (snd (mapped b)) b /\ snd (mapped b) + zlen b + 31 <= zlen (fst (mapped b))) ->
  let run := run_example nan dbg sized heap mapped name (flat_map (fun v => [word "-o"; v]) names) (t ++ g) d in
  ((forall i, 1 <= i <= 256 -> sparse_chunks i [S] <> []) -> decode_fits S (zlen S) ->
     exists t, page nan (statistics_lines (counters (8 * zlen (f_sequence S) + 128) [S])) t
       /\ (names = [] -> run = (t, d, Ok 0))
       /\ (names <> [] -> exists d', saved d (last names []) (f_sequence_file S) d'
             /\ run = (t ++ sized (f_sequence_file S), d', Ok 0)))
  /\ ((exists i, 1 <= i <= 256 /\ sparse_chunks i [S] = []) -> exists t, run = (t, d, UB)).
Proof.
  intros nan dbg sized heap mapped name names t g S more d HT HG V HH HM run.
  assert (ER : read_input (t ++ g) = Ok S).
  { apply read_input_ok with more; auto.
    - destruct V as (_ & _ & F). eapply Forall_impl; [|exact F]. unfold is_u32. intros; lia.
    - pose proof (short_valid S V) as X. unfold short in X. lia. }
  unfold run, run_example, run_example_by. rewrite <- (app_nil_r (flat_map _ names)), example_words_names. cbn [example_words].
  rewrite (then_quiet _ _ _ _ eq_refl), (then_quiet _ _ _ _ ER). split.
  - intros N F. destruct (example_text nan dbg S V N) as (st & enc & EB & EE & P). rewrite EB, (then_quiet _ _ _ _ eq_refl), (then_quiet _ _ _ _ P).
    destruct (c25_format dbg [] S V) as (st' & E'). rewrite app_nil_l, EB in E'. injection E' as -> ->.
    exists (ptext nan (statistics_lines (counters (8 * zlen (f_sequence S) + 128) [S]))). split.
    { apply ptext_page, statistics_nonneg. intro h. apply counters_nonneg; [auto|]. pose proof (zlen_nonneg _ (f_sequence S)). lia. }
    rewrite then_cout. split.
    + intros ->. destruct (HH (f_sequence S)) as [H1 H2]. destruct (heap (f_sequence S)) as [mem a]. cbn [fst snd] in *.
      rewrite rest_ok by (auto; exists (f_sequence S); auto). cbn [fst snd]. now rewrite app_nil_r.
    + intro NN. destruct names as [|v names]; [contradiction|]. clear NN. set (o := last (v :: names) []).
      assert (EF : sequence_file (f_sequence S) = f_sequence_file S) by (unfold sequence_file, f_sequence_file; now rewrite le8_le64).
      rewrite EF. exists ((o, f_sequence_file S) :: d). split; [apply saved_cons|]. rewrite then_cout.
      rewrite (then_is (save_file o (f_sequence_file S)) _ d [] ((o, f_sequence_file S) :: d) tt eq_refl).
      rewrite (then_open o _ ((o, f_sequence_file S) :: d) (f_sequence_file S)) by exact (proj1 (saved_cons d o (f_sequence_file S))).
      destruct (HM (f_sequence_file S)) as [H1 H2]. destruct (mapped (f_sequence_file S)) as [mem a]. cbn [fst snd] in *.
      rewrite <- EF in H1, H2. unfold sequence_file in H1, H2. apply bytes_at_app in H1 as [_ H1].
      rewrite zlen_app, zlen_le_bytes in H2. rewrite zlen_le_bytes in H1. change (Z.of_nat 8) with 8 in *.
      rewrite rest_ok; [|exact V|exact F|exists (f_sequence S); split; [exact EE|split; [exact H1|lia]]]. cbn [fst snd app]. now rewrite app_nil_r.
  - intro N. destruct (print_one dbg S V) as (st & enc & EB & EE & P1 & P2). rewrite EB, (then_quiet _ _ _ _ eq_refl).
    unfold print_text. rewrite (P1 N). eexists. reflexivity.
Qed.

(** ** usage *)
Theorem c62_usage : forall stod iso nan dbg sized name argv tape d fuel junk generate,
  let usage words : list Z := name ++ word words ++ [10] in
  (argv = [] -> run_build stod iso nan dbg sized name argv d
     = (usage " collection_filename [--density d] [--size s] [--out output_filename]"%string, d, Ok 1))
  /\ (zlen argv < 5 -> run_uniform iso name argv tape d
        = (usage " num_lists min_length max_length universe output_filename"%string, d, Ok 1))
  /\ (zlen argv < 3 -> run_clustered iso fuel dbg junk name argv tape d
        = (usage " num_lists universe output_filename --binary"%string, d, Ok 1))
  /\ (zlen argv < 2 ->
        run_pairwise iso name argv tape = Ok (1, usage " num_queries num_sequences"%string)
        /\ run_generate iso generate name argv = Ok (1, usage " index_filename num_queries_per_sequence"%string)).
Proof.
  intros. split; [|split; [|split]].
  - intros ->. unfold run_build, run_build_by, then_, cout, quiet. rewrite app_nil_r. reflexivity.
  - intro H. do 5 (destruct argv as [|? argv]; [unfold run_uniform, then_, cout, quiet; cbn [uniform_main app]; rewrite app_nil_r; reflexivity|]).
    exfalso. rewrite !zlen_cons in H. pose proof (zlen_nonneg _ argv). lia.
  - intro H. do 3 (destruct argv as [|? argv]; [unfold run_clustered, then_, cout, quiet; cbn [clustered_main app]; rewrite app_nil_r; reflexivity|]).
    exfalso. rewrite !zlen_cons in H. pose proof (zlen_nonneg _ argv). lia.
  - intro H. do 2 (destruct argv as [|? argv]; [split; reflexivity|]).
    exfalso. rewrite !zlen_cons in H. pose proof (zlen_nonneg _ argv). lia.
Qed.
