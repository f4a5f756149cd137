(** Queries of many lists on lines, and the command lines of all programs: C47, C48. *)
From Coq Require Import String Ascii Lia Sorted Permutation Floats.SpecFloat.
From Verif Require Import Base Hw Spec Lib Format Shown Counts Room Holds Told Drawn Typed M_Util M_Build M_Seq M_Many M_Index
  M_Print M_Calls M_Tests M_Drivers M_Tools M_Text P_Ex P_Fin1 P_Fin2 P_Tests P_Tests4 P_Tests5 P_Drivers P_Tools
  P_Text P_Text2 P_Text3 P_Text4 P_Text5.

(** ** pairs and single numbers *)
Lemma c47_pairs : forall {A : Type} iso (run : list Z -> list (Z * Z) -> res A) f w more num t g qs rest,
  count_word w num -> 0 <= num < 2 ^ 60 -> typed t (in_a_row qs ++ rest) ->
  let main := pairs_main iso run (f :: w :: more) (t ++ g) in
  let answer := let! r := run f (map low2 qs) in Ok (Some r) in
  (zlen qs = num -> num < 2 ^ 32 -> Forall (storable_int iso) (in_a_row qs) -> no_digit g -> main = answer)
  /\ (zlen qs < num \/ 2 ^ 32 <= num -> zlen rest <= 1 -> Forall (storable_int iso) (in_a_row qs ++ rest) ->
        (g = [] -> main = answer) /\ (garbage g -> main = UB)).
Proof.
  intros A iso run f w more num t g qs rest Hw Hn HT main answer. split.
  - intros HL HN HF Hg. now apply pairs_enough with num rest.
  - intros HL HR HF. split; intro Hg.
    + subst g. apply (pairs_all iso run f w more num Hw Hn t [] qs rest HT HF HR HL). now left.
    + unfold main. rewrite (pairs_all iso run f w more num Hw Hn t g qs rest HT HF HR HL (or_intror Hg)).
      destruct Hg as (c & g' & -> & _). reflexivity.
Qed.
Lemma c47_pairs_over : forall {A : Type} (run : list Z -> list (Z * Z) -> res A) f w more num t g ns n rest,
  count_word w num -> 0 <= num < 2 ^ 60 -> typed t (ns ++ n :: rest) -> no_digit g ->
  Forall (storable_int true) ns -> ~ storable_int true n -> zlen ns < 2 * num ->
  pairs_main true run (f :: w :: more) (t ++ g) = UB.
Proof. intros. eapply pairs_over; eauto. Qed.

Lemma c47_words : forall {A : Type} iso (run : s_index -> Z -> list Z -> res A) mem place ix f w more n t g qs rest,
  index_mmap mem (place f) = Ok ix -> count_word w n -> typed t (qs ++ rest) ->
  let total := (ix_size ix * n) mod 2 ^ 64 in
  let main := words_main iso run mem place (f :: w :: more) (t ++ g) in
  let answer := let! r := run ix n (map low qs) in Ok (Some r) in
  total < 2 ^ 61 ->
  (zlen qs = total -> total < 2 ^ 32 -> Forall (storable_int iso) qs -> no_digit g -> main = answer)
  /\ (rest = [] -> zlen qs < total \/ 2 ^ 32 <= total -> Forall (storable_int iso) qs ->
        (g = [] -> main = answer) /\ (garbage g -> main = UB))
  /\ (iso = true -> zlen qs < total -> Forall (storable_int iso) qs -> no_digit g ->
        (exists b rest', rest = b :: rest' /\ ~ storable_int iso b) -> main = UB).
Proof.
  intros A iso run mem place ix f w more n t g qs rest E Hw HT total main answer Hx.
  assert (H0 : 0 <= total) by (apply Z.mod_pos_bound; lia).
  assert (EM : main = let! queries := scan_words (S (length (t ++ g))) iso (t ++ g) 0 total in
                 let! r := run ix n queries in Ok (Some r)).
  { unfold main, words_main. rewrite (stoull_count w n Hw). cbn [bind]. rewrite E. cbn [bind].
    change (u64 (ix_size ix * n)) with total. rewrite reserve_ok by lia. reflexivity. }
  rewrite EM. assert (LL : (length t < S (length (t ++ g)))%nat) by (rewrite app_length; lia).
  split; [|split].
  - intros HL HN HF Hg. rewrite (scan_words_enough iso g Hg qs rest t 0); auto; lia.
  - intros -> HL HF. rewrite app_nil_r in HT.
    assert (B : beyond 0 (zlen qs) total) by (unfold beyond; lia). split; intro Hg.
    + rewrite (scan_words_all iso g (or_introl Hg) qs t 0); auto; [|lia]. subst g. reflexivity.
    + rewrite (scan_words_all iso g (or_intror Hg) qs t 0); auto; [|lia].
      destruct Hg as (c & g' & -> & _). reflexivity.
  - intros -> HL HF Hg (b & rest' & -> & Hb).
    rewrite (scan_words_over g Hg qs b rest' t 0); auto; [lia|]. unfold beyond. lia.
Qed.

(** ** lines of positions: test_intersect_many and test_union_many *)
Lemma bounded_count u e : StronglySorted Z.lt e -> Forall (fun v => 0 <= v < u) e -> 0 <= u -> zlen e <= u.
Proof.
  intros S F Hu. rewrite <- (Z2Nat.id u) by auto. apply L_Group.sorted_zlen_le; auto. now rewrite Z2Nat.id.
Qed.
Lemma exists_union Ss : exists e, enumerates (fun v => exists S, In S Ss /\ In v S) e.
Proof.
  exists (std_unique (std_sort (concat Ss))). destruct (unique_sort (concat Ss)) as [S I]. split; auto.
  intro v. rewrite I, in_concat. reflexivity.
Qed.
Lemma exists_inter Ss : Ss <> [] -> exists e, enumerates (fun v => forall S, In S Ss -> In v S) e.
Proof.
  intro N. destruct (unique_sort (concat Ss)) as [S I].
  exists (filter (fun v => forallb (fun S => existsb (Z.eqb v) S) Ss) (std_unique (std_sort (concat Ss)))). split.
  - clear I. induction S as [|x l S IH F]; cbn [filter]; [constructor|]. destruct (forallb _ Ss); auto. constructor; auto.
    rewrite Forall_forall in *. intros y Hy. apply filter_In in Hy as [Hy _]. auto.
  - intro v. rewrite filter_In, I, in_concat, forallb_forall. split.
    + intros [_ H] T HT. specialize (H T HT). apply existsb_exists in H as (y & Hy & E). apply Z.eqb_eq in E. now subst.
    + intro H. split.
      * destruct Ss as [|T Ss]; [congruence|]. exists T. split; [now left|]. apply H. now left.
      * intros T HT. apply existsb_exists. exists v. split; auto. apply Z.eqb_refl.
Qed.
Lemma exists_named Ks q : Forall (fun n => 0 <= n < zlen Ks) q -> exists Ss, named Ks q Ss.
Proof.
  induction 1 as [|n q Hn _ [Ss IH]]; [exists []; constructor|].
  destruct (znth Ks n) as [S|] eqn:E.
  - exists (S :: Ss). constructor; auto.
  - exfalso. unfold znth in E. destruct (n <? 0) eqn:K; [apply Z.ltb_lt in K; lia|].
    apply nth_error_None in E. unfold zlen in Hn. lia.
Qed.
Lemma named_in Ks q Ss : named Ks q Ss -> Forall (fun S => In S Ks) Ss.
Proof.
  induction 1 as [|n S q Ss H _ IH]; constructor; auto. unfold znth in H. destruct (n <? 0); [discriminate|].
  now apply nth_error_In in H.
Qed.
Lemma named_length Ks q Ss : named Ks q Ss -> zlen Ss = zlen q.
Proof. induction 1 as [|n S q Ss H _ IH]; [reflexivity|]. rewrite !zlen_cons. lia. Qed.

Lemma c47_many : forall dbg dbg' params u Ls mem place tbl sort f w more num ls e nss ens,
  is_u32 u -> Forall valid (kept_lists params Ls) -> holds_index dbg params u Ls 31 mem (place f) ->
  sorts_by_cardinality mem sort ->
  let Ks := kept_lists params Ls in
  Forall (Forall (fun v => v < u)) Ks ->
  count_word w num -> 24 * num < 2 ^ 63 ->
  Forall2 line_of ls nss -> Forall (Forall fits_word) nss -> last_line e ens ->
  let read := firstn (Z.to_nat num) (nss ++ ens) in
  (dbg' = true -> Forall (fun ns => ns <> []) read) ->
  Forall (Forall (fun n => 0 <= n < zlen Ks)) read -> zlen Ks <= 2 ^ 32 ->
  exists queries, Forall2 (fun q ns => enumerates (fun v => In v ns) q) queries read
    /\ lines_main dbg' (fun name => test_intersect_many tbl sort dbg' mem (place name)) (f :: w :: more) (lines ls ++ e)
       = Ok (Some (zlen (filter (fun q => 2 <=? zlen q) queries), true))
    /\ lines_main dbg' (fun name => test_union_many tbl dbg' mem (place name)) (f :: w :: more) (lines ls ++ e)
       = Ok (Some (zlen (filter (fun q => 2 <=? zlen q) queries), true)).
Proof.
  intros dbg dbg' params u Ls mem place tbl sort f w more num ls e nss ens Hu V H Hsort Ks HV Hw Hn H2 HF He read HD HP HK.
  destruct (c31_accept dbg dbg' params u Ls mem (place f) tbl sort Hu V H Hsort) as (_ & _ & CI & CU). fold Ks in V, CI, CU.
  assert (Hlow : Forall (fun ns => map low ns = ns) read).
  { eapply Forall_impl; [|exact HP]. intros ns Hns. apply map_low_id. eapply Forall_impl; [|exact Hns].
    cbv beta. unfold is_u32. intros; lia. }
  destruct (lines_ok (fun name => test_intersect_many tbl sort dbg' mem (place name)) f w more num Hw Hn dbg' ls e nss ens H2 HF He HD)
    as (queries & Q & EI).
  destruct (lines_ok (fun name => test_union_many tbl dbg' mem (place name)) f w more num Hw Hn dbg' ls e nss ens H2 HF He HD)
    as (queries' & Q' & EU). fold read in Q, Q'.
  assert (queries' = queries) as ->.
  { clear -Q Q'. revert queries' Q'. induction Q as [|q ns qs nss0 H Q IH]; intros qs' Q'; inversion Q' as [|q' ns' qs'' nss' H' Q'']; subst; auto.
    f_equal; [|now apply IH]. eapply enumerates_unique; eauto. }
  assert (QQ : Forall2 (fun q ns => enumerates (fun v => In v ns) q) queries read).
  { clear -Q Hlow. induction Q as [|q ns qs nss0 H Q IH]; [constructor|]. inversion Hlow as [|? ? E Hl]; subst. constructor; auto.
    destruct H as [H1 H2]. split; auto. intro v. rewrite H2, E. reflexivity. }
  exists queries. split; [exact QQ|].
  assert (HQ : Forall (fun q => exists Ss, named Ks q Ss) queries).
  { clear -QQ HP. induction QQ as [|q ns qs nss0 [_ H] Q IH]; [constructor|]. inversion HP as [|? ? E Hl]; subst. constructor; auto.
    apply exists_named. apply Forall_forall. intros n Hn. rewrite Forall_forall in E. apply E. now apply H. }
  assert (BV : forall Ss, Forall (fun S => In S Ks) Ss -> forall S v, In S Ss -> In v S -> 0 <= v < u).
  { intros Ss HS S v I Iv. rewrite Forall_forall in HS, HV, V. specialize (HS S I). specialize (HV S HS). destruct (V S HS) as (_ & _ & V0).
    rewrite Forall_forall in HV, V0. specialize (HV v Iv). specialize (V0 v Iv). lia. }
  rewrite EI, EU. cbv beta. rewrite CI, CU; [split; reflexivity| |].
  - eapply Forall_impl; [|exact HQ]. intros q (Ss & N) _. destruct (exists_union Ss) as [e' E']. exists Ss, e'. split; [exact N|]. split; [exact E'|].
    destruct E' as [S' I']. apply bounded_count; [auto| |unfold is_u32 in Hu; lia].
    apply Forall_forall. intros v Hv. apply I' in Hv as (S & I & Iv). exact (BV Ss (named_in _ _ _ N) S v I Iv).
  - eapply Forall_impl; [|exact HQ]. intros q (Ss & N) Hq.
    assert (NE : Ss <> []) by (intros ->; apply named_length in N; rewrite zlen_nil in N; lia).
    destruct (exists_inter Ss NE) as [e' E']. exists Ss, e'. split; [exact N|]. split; [exact E'|].
    destruct E' as [S' I']. apply bounded_count; [auto| |unfold is_u32 in Hu; lia].
    apply Forall_forall. intros v Hv. destruct Ss as [|S Ss]; [congruence|].
    exact (BV (S :: Ss) (named_in _ _ _ N) S v (or_introl eq_refl) (proj1 (I' v) Hv S (or_introl eq_refl))).
Qed.

(** whatever the text, lines_main passes strictly increasing queries *)
Lemma c47_lines_any : forall {A : Type} dbg (run : list Z -> list (list Z) -> res A) argv stdin r,
  lines_main dbg run argv stdin = Ok (Some r) ->
  exists name queries, Forall (StronglySorted Z.lt) queries /\ run name queries = Ok r.
Proof.
  intros A dbg run argv stdin r. unfold lines_main. destruct argv as [|name [|w argv]]; try discriminate.
  destruct (stoull w) as [n| | | |]; cbn [bind]; try discriminate.
  destruct (reserve n 24) as [[]| | | |]; cbn [bind]; try discriminate.
  destruct (read_queries _ dbg stdin 0 n) as [qs| | | |] eqn:E; cbn [bind]; try discriminate.
  destruct (run name qs) as [x| | | |] eqn:ER; cbn [bind]; try discriminate.
  intro H. injection H as <-. exists name, qs. split; auto. eapply read_queries_sorted; eauto.
Qed.

(** ** command lines *)
Lemma c48_build : forall stod iso dbg file name args, Forall (proper iso (stod_is stod)) args ->
  exists d s o,
    settled (says_density (stod_is stod)) args (p_density default_params) d
    /\ settled (says_size iso) args (p_size default_params) s
    /\ settled says_out args None o
    /\ build_main stod iso dbg file (name :: flat_map spelled args)
       = (let! (shown, bytes) := build_cpp dbg (mkParams d s) (file name) in
          Ok (Some (shown, match o with Some out => Some (out, bytes) | None => None end)))
    /\ (forall w, wants_value w -> build_main stod iso dbg file (name :: flat_map spelled args ++ [w]) = UB)
    /\ (forall v more, stod v = Throw ->
          build_main stod iso dbg file (name :: flat_map spelled args ++ word "--density" :: v :: more) = Throw)
    /\ (forall v n more, iso = true -> begins v n -> ~ storable_int iso n ->
          build_main stod iso dbg file (name :: flat_map spelled args ++ word "--size" :: v :: more) = UB).
Proof.
  intros stod iso dbg file name args H. destruct (build_options_ok stod iso [] args default_params None H) as (d & s & o & S1 & S2 & S3 & E).
  rewrite app_nil_r in E. exists d, s, o. split; [auto|]. split; [auto|]. split; [auto|]. split; [|split; [|split]].
  - unfold build_main. rewrite E. cbn [build_options bind]. reflexivity.
  - intros w Hw. destruct (build_options_ok stod iso [w] args default_params None H) as (d' & s' & o' & _ & _ & _ & E').
    unfold build_main. rewrite E'. now rewrite (build_options_dangling stod iso w _ _ Hw).
  - intros v more Hv. destruct (build_options_ok stod iso (word "--density" :: v :: more) args default_params None H) as (d' & s' & o' & _ & _ & _ & E').
    unfold build_main. rewrite E'. cbn [build_options]. rewrite is_word_eq, Hv. reflexivity.
  - intros v n more -> Hb Hn. destruct (build_options_ok stod true (word "--size" :: v :: more) args default_params None H) as (d' & s' & o' & _ & _ & _ & E').
    unfold build_main. rewrite E'. cbn [build_options]. rewrite is_word_eq.
    rewrite (is_word_neq (word "--size") "--density") by discriminate.
    now rewrite (atoi_over v n Hb Hn).
Qed.

Lemma c48_test : forall {A : Type} stod iso (test : list Z -> list Z -> parameters -> res A) index coll args,
  Forall (proper_test iso (stod_is stod)) args ->
  exists d s,
    settled (says_density (stod_is stod)) args (p_density default_params) d
    /\ settled (says_size iso) args (p_size default_params) s
    /\ test_main stod iso test (index :: coll :: flat_map spelled args)
       = (let! r := test index coll (mkParams d s) in Ok (Some r))
    /\ (forall w, w = word "--density" \/ w = word "--size" ->
          test_main stod iso test (index :: coll :: flat_map spelled args ++ [w]) = UB).
Proof.
  intros A stod iso test index coll args H. destruct (test_options_ok stod iso [] args default_params H) as (d & s & S1 & S2 & E).
  rewrite app_nil_r in E. exists d, s. split; [auto|]. split; [auto|]. split.
  - unfold test_main. rewrite E. reflexivity.
  - intros w Hw. destruct (test_options_ok stod iso [w] args default_params H) as (d' & s' & _ & _ & E').
    unfold test_main. rewrite E'. destruct Hw as [-> | ->]; cbn [test_options]; rewrite is_word_eq; reflexivity.
Qed.

(** example.cpp takes "-o name", any number of times *)
Lemma example_options_ok rest : forall names o,
  example_options (flat_map (fun v => [word "-o"; v]) names ++ rest) o
  = example_options rest (match names with [] => o | _ => Some (last names []) end).
Proof.
  induction names as [|v names IH]; intro o; [reflexivity|].
  cbn [flat_map app example_options]. rewrite is_word_eq. rewrite IH.
  destruct names as [|v' names]; reflexivity.
Qed.
Lemma c48_example : forall dbg place names stdin,
  let argv := flat_map (fun v => [word "-o"; v]) names in
  let o := match names with [] => None | _ => Some (last names []) end in
  example_main dbg place argv stdin = (let! input := read_input stdin in example_cpp dbg (place o) input)
  /\ example_main dbg place (argv ++ [word "-o"]) stdin = UB
  /\ (forall w more, w <> word "-o" -> example_main dbg place (argv ++ w :: more) stdin = Ok false).
Proof.
  intros dbg place names stdin argv o. split; [|split].
  - unfold example_main. rewrite <- (app_nil_r argv). unfold argv. rewrite example_options_ok. reflexivity.
  - unfold example_main, argv. rewrite example_options_ok. cbn [example_options]. rewrite is_word_eq. reflexivity.
  - intros w more Hw. unfold example_main, argv. rewrite example_options_ok. cbn [example_options]. now rewrite is_word_neq.
Qed.

(** the number of queries *)
Lemma stoull_bad w : bad_count w -> stoull w = Throw.
Proof. intros [H|(n & H & Hn)]; [now apply stoull_none|now apply stoull_over with n]. Qed.
Lemma c48_count : forall {A : Type} iso dbg (run : list Z -> list (Z * Z) -> res A) (run' : list Z -> list (list Z) -> res A)
    (run'' : s_index -> Z -> list Z -> res A) mem place f w more stdin,
  (bad_count w ->
     pairs_main iso run (f :: w :: more) stdin = Throw
     /\ lines_main dbg run' (f :: w :: more) stdin = Throw
     /\ words_main iso run'' mem place (f :: w :: more) stdin = Throw)
  /\ (forall n, count_word w n ->
        (2 ^ 63 <= 8 * n -> pairs_main iso run (f :: w :: more) stdin = Throw)
        /\ (2 ^ 63 <= 24 * n -> lines_main dbg run' (f :: w :: more) stdin = Throw)
        /\ (forall ix, index_mmap mem (place f) = Ok ix -> 2 ^ 63 <= 4 * ((ix_size ix * n) mod 2 ^ 64) ->
              words_main iso run'' mem place (f :: w :: more) stdin = Throw)).
Proof.
  intros A iso dbg run run' run'' mem place f w more stdin. split.
  - intro H. apply stoull_bad in H. unfold pairs_main, lines_main, words_main. now rewrite H.
  - intros n H. apply stoull_count in H. unfold pairs_main, lines_main, words_main. rewrite H. cbn [bind]. split; [|split].
    + intro Hb. rewrite reserve_over by lia. reflexivity.
    + intro Hb. rewrite reserve_over by lia. reflexivity.
    + intros ix E Hb. rewrite E. cbn [bind].
      fold (u64 (ix_size ix * n)) in Hb. rewrite reserve_over by lia. reflexivity.
Qed.

(** too few words *)
Lemma c48_usage : forall {A : Type} stod iso dbg file (test : list Z -> list Z -> parameters -> res A)
    (run : list Z -> list (Z * Z) -> res A) (run' : list Z -> list (list Z) -> res A)
    (run'' : s_index -> Z -> list Z -> res A) generate mem place argv stdin fuel junk tape,
  (argv = [] -> build_main stod iso dbg file argv = Ok None)
  /\ (zlen argv < 2 ->
        test_main stod iso test argv = Ok None /\ pairs_main iso run argv stdin = Ok None
        /\ lines_main dbg run' argv stdin = Ok None /\ words_main iso run'' mem place argv stdin = Ok None
        /\ generate_main iso generate argv = Ok None /\ pairwise_main iso argv tape = Ok None)
  /\ (zlen argv < 3 -> clustered_main iso fuel dbg junk argv tape = Ok None)
  /\ (zlen argv < 5 -> uniform_main iso argv tape = Ok None).
Proof.
  intros A stod iso dbg file test run run' run'' generate mem place argv stdin fuel junk tape.
  split; [intros ->; reflexivity|]. split; [|split].
  - intro H. destruct argv as [|a [|b argv]]; [repeat split..|].
    rewrite !zlen_cons in H. pose proof (zlen_nonneg _ argv). lia.
  - intro H. destruct argv as [|a [|b [|c argv]]]; [reflexivity..|].
    rewrite !zlen_cons in H. pose proof (zlen_nonneg _ argv). lia.
  - intro H. destruct argv as [|a [|b [|c [|d [|x argv]]]]]; [reflexivity..|].
    rewrite !zlen_cons in H. pose proof (zlen_nonneg _ argv). lia.
Qed.

(** the generators of data *)
Lemma c48_tools : forall iso fuel dbg junk a b c d out more v1 v2 v3 v4 tape,
  int_word iso a v1 -> int_word iso b v2 -> int_word iso c v3 -> int_word iso d v4 ->
  uniform_main iso (a :: b :: c :: d :: out :: more) tape
  = (let! data := gen_uniform v1 v2 v3 v4 tape in Ok (Some data))
  /\ (In (word "--binary") more ->
        clustered_main iso fuel dbg junk (a :: b :: out :: more) tape
        = (let! data := gen_clustered fuel dbg true junk v1 v2 tape in Ok (Some (inl data))))
  /\ (~ In (word "--binary") more ->
        clustered_main iso fuel dbg junk (a :: b :: out :: more) tape
        = (let! ns := gen_clustered fuel dbg false junk v1 v2 tape in Ok (Some (inr (show_lines ns)))))
  /\ (forall tape, pairwise_main iso (a :: b :: more) tape = Ok (Some (show_pairs (gen_pairwise_queries v1 v2 tape)))).
Proof.
  intros iso fuel dbg junk a b c d out more v1 v2 v3 v4 tape H1 H2 H3 H4.
  apply atoi_word in H1, H2, H3, H4. split; [|split; [|split]].
  - unfold uniform_main. now rewrite H1, H2, H3, H4.
  - intro I. unfold clustered_main. rewrite H1, H2. cbn [bind].
    replace (existsb _ more) with true; [reflexivity|]. symmetry. apply existsb_exists. exists (word "--binary"). split; [exact I|apply is_word_eq].
  - intro I. unfold clustered_main. rewrite H1, H2. cbn [bind].
    replace (existsb _ more) with false; [reflexivity|]. symmetry. clear -I. induction more as [|w more IH]; [reflexivity|]. cbn [existsb].
    rewrite is_word_neq by (intro E; apply I; now left). apply IH. intro K. apply I. now right.
  - intro tp. unfold pairwise_main. now rewrite H1, H2.
Qed.

Lemma c47_example_cpp : forall dbg place t,
  (forall g S more, typed t (zlen S :: S ++ more) -> no_digit g -> Forall is_u32 S -> zlen S < 2 ^ 32 ->
     example_main dbg place [] (t ++ g) = example_cpp dbg (place None) S)
  /\ (forall n xs, typed t (n :: xs) -> zlen xs < n < 2 ^ 32 ->
        (valid xs -> example_main dbg place [] t = Throw)
        /\ (xs = [] -> example_main dbg place [] t = UB)
        /\ (forall g, garbage g -> Forall is_u32 xs ->
              example_main dbg place [] (t ++ g)
              = example_cpp dbg (place None) (xs ++ repeat 0 (Z.to_nat (n - zlen xs)))))
  /\ (typed t [] -> example_main dbg place [] t = UB)
  /\ (forall g n ns, typed t (n :: ns) -> no_digit g -> 2 ^ 32 <= n -> example_main dbg place [] (t ++ g) = UB)
  /\ (forall g, typed t [] -> garbage g -> example_main dbg place [] (t ++ g) = UB).
Proof.
  intros dbg place t. split; [|split; [|split; [|split]]].
  - intros g S more HT Hg HF HL. now apply c47_example_read with more.
  - intros n xs HT Hn. split; [|split].
    + intro V. now apply c47_example_short with n xs.
    + intros ->. rewrite zlen_nil in Hn. unfold example_main. cbn [example_options bind]. now rewrite (read_input_none t n HT).
    + intros g Hg HF. unfold example_main. cbn [example_options bind].
      rewrite (read_input_short t g n xs HT (or_intror Hg) HF Hn).
      * cbn [bind]. destruct Hg as (c & g' & -> & _). reflexivity.
      * intros ->. destruct Hg as (c & g' & K & _). discriminate.
  - intro HT. unfold example_main. cbn [example_options bind]. now rewrite (read_input_empty t HT).
  - intros g n ns HT Hg Hn. unfold example_main. cbn [example_options bind]. now rewrite (read_input_over t g n ns HT Hg Hn).
  - intros g HT Hg. unfold example_main. cbn [example_options bind]. rewrite (read_input_garbage t g HT Hg). destruct dbg; reflexivity.
Qed.

(** ** examples *)
Lemma numeral_digits ds : ds <> [] -> forallb (fun d => (0 <=? d) && (d <=? 9)) ds = true -> numeral (map (Z.add 48) ds) (value_of ds).
Proof.
  intros N H. exists ds. split; [auto|]. split; [|now left]. rewrite forallb_forall in H. apply Forall_forall.
  intros d Hd. specialize (H d Hd). lia.
Qed.
Lemma numeral_minus ds : ds <> [] -> forallb (fun d => (0 <=? d) && (d <=? 9)) ds = true -> numeral (45 :: map (Z.add 48) ds) (- value_of ds).
Proof.
  intros N H. exists ds. split; [auto|]. split; [|now right; right]. rewrite forallb_forall in H. apply Forall_forall.
  intros d Hd. specialize (H d Hd). lia.
Qed.
Lemma numeral_plus ds : ds <> [] -> forallb (fun d => (0 <=? d) && (d <=? 9)) ds = true -> numeral (43 :: map (Z.add 48) ds) (value_of ds).
Proof.
  intros N H. exists ds. split; [auto|]. split; [|now right; left]. rewrite forallb_forall in H. apply Forall_forall.
  intros d Hd. specialize (H d Hd). lia.
Qed.

Lemma c47_ex :
  let place (name : list Z) := 1 in
  holds_index true t_params 1000 t_lists 31 t_mem 1 /\ Forall valid t_kept
  /\ typed (word " 0 3 1 -4 +2 600 7") (in_a_row [(0, 3); (1, -4); (2, 600)] ++ [7])
  /\ garbage (word "x 1") /\ begins (word "9 apples") 9
  /\ pairs_main true (fun name => perf_contains true t_mem (place name)) [word "i"; word "9 apples"] (word "0 3 1 4 2 600 7")
     = Ok (Some (3, 8))
  /\ pairs_main true (fun name => perf_contains true t_mem (place name)) [word "i"; word "1"] (word "0 3 x") = Ok (Some (1, 4))
  /\ pairs_main true (fun name => perf_contains true t_mem (place name)) [word "i"; word "2"] (word "0 3 x") = UB
  /\ pairs_main true (fun name => perf_contains true t_mem (place name)) [word "i"; word "2"] (word "0 2147483648") = UB
  /\ pairs_main false (fun name => perf_contains true t_mem (place name)) [word "i"; word "2"] (word "0 2147483648") = Ok (Some (1, 0))
  /\ words_main true (perf_select true t_mem) t_mem place [word "i"; word "2"] (word "0 9 1 4 9 2")
     = Ok (Some (6, 4 * (1 + 1 + 3 + 71 + 71 + 600)))
  /\ generate_main true (fun name n => gen_select_queries true t_mem (place name) n [2; 4; 4; 5; 600; 1]) [word "i"; word "2"]
     = Ok (Some (flat_map (fun s => word s ++ [10]) ["2"; "1"; "4"; "0"; "0"; "1"]%string))
  /\ (exists text, pairwise_main true [word "2"; word "3"] [5; 1; 0; 7] = Ok (Some text)
       /\ text = word "2" ++ [9] ++ word "1" ++ [10] ++ word "0" ++ [9] ++ word "1" ++ [10]
       /\ pairs_main true (fun name => perf_intersection ex_tbl true t_mem (place name)) [word "i"; word "2"] text
          = Ok (Some (2, 11 * (1 + 2))))
  /\ lines_main true (fun name => test_union_many ex_tbl true t_mem (place name)) [word "i"; word "5"]
       (lines [word "2 0 2"; word "1 1 x"] ++ word "0 1 2") = Ok (Some (2, true))
  /\ lines_main true (fun name => test_union_many ex_tbl true t_mem (place name)) [word "i"; word "5"]
       (lines [word "2 0 2"; word ""]) = Abort
  /\ read_input (word "3 10 20 30 40") = Ok [10; 20; 30]
  /\ read_input (word "4 10 20") = Ok [10; 20; 20; 20]
  /\ read_input (word "4 10 x 20") = Ok [10; 0; 0; 0]
  /\ (forall dbg place, example_main dbg place [] (word "3 10 20") = Throw).
Proof.
  cbv zeta. destruct t_example as (_ & V & H & _).
  assert (B : Forall blank [32]) by (constructor; [now left|constructor]).
  assert (B0 : Forall blank []) by constructor.
  split; [exact H|]. split; [exact V|]. split.
  { apply (typed_next [32] (map (Z.add 48) [0]) 0 (word " 3 1 -4 +2 600 7")); [exact B|now apply numeral_digits| |now left].
    apply (typed_next [32] (map (Z.add 48) [3]) 3 (word " 1 -4 +2 600 7")); [exact B|now apply numeral_digits| |now left].
    apply (typed_next [32] (map (Z.add 48) [1]) 1 (word " -4 +2 600 7")); [exact B|now apply numeral_digits| |now left].
    apply (typed_next [32] (45 :: map (Z.add 48) [4]) (-4) (word " +2 600 7")); [exact B|now apply (numeral_minus [4])| |now left].
    apply (typed_next [32] (43 :: map (Z.add 48) [2]) 2 (word " 600 7")); [exact B|now apply (numeral_plus [2])| |now left].
    apply (typed_next [32] (map (Z.add 48) [6; 0; 0]) 600 (word " 7")); [exact B|now apply (numeral_digits [6; 0; 0])| |now left].
    apply (typed_next [32] (map (Z.add 48) [7]) 7 []); [exact B|now apply (numeral_digits [7])|now constructor|exact I]. }
  split.
  { exists 120, (word " 1"). split; [reflexivity|]. unfold blank. lia. }
  split.
  { exists [], (map (Z.add 48) [9]), (word " apples"). split; [reflexivity|]. split; [exact B0|].
    split; [now apply (numeral_digits [9])|]. change (~ 48 <= 32 <= 57). lia. }
  do 7 (split; [vm_compute; reflexivity|]).
  split. { eexists. split; [vm_compute; reflexivity|]. split; vm_compute; reflexivity. }
  do 5 (split; [vm_compute; reflexivity|]).
  intros [|] place; vm_compute; reflexivity.
Qed.

Lemma c48_ex :
  (forall stod d, stod (word "0.5") = Ok d ->
     let args := [Size (word "2"); Other (word "-v"); Density (word "0.5"); Size (word "3"); Out (word "x"); Out (word "--size")] in
     Forall (proper true (fun v d => stod v = Ok d)) args
     /\ flat_map spelled args
        = map word ["--size"; "2"; "-v"; "--density"; "0.5"; "--size"; "3"; "--out"; "x"; "--out"; "--size"]%string
     /\ settled (says_size true) args 0 3 /\ settled says_out args None (Some (word "--size"))
     /\ build_options stod true (flat_map spelled args) default_params None = Ok (mkParams d 3, Some (word "--size")))
  /\ wants_value (word "--size")
  /\ int_word true (word "-1") 4294967295 /\ int_word true (word "abc") 0
  /\ bad_count (word "x") /\ bad_count (word "18446744073709551616") /\ count_word (word "-1") (2 ^ 64 - 1)
  /\ count_word (word "-18446744073709551615 x") 1
  /\ pairs_main true (fun _ => perf_contains true t_mem 1) [word "i"; word "-1"] [] = Throw.
Proof.
  assert (N2 : int_word true (word "2") 2).
  { left. exists 2. split; [apply numeral_begins, (numeral_digits [2]); [discriminate|reflexivity]|]. split; [unfold storable_int; lia|reflexivity]. }
  assert (N3 : int_word true (word "3") 3).
  { left. exists 3. split; [apply numeral_begins, (numeral_digits [3]); [discriminate|reflexivity]|]. split; [unfold storable_int; lia|reflexivity]. }
  assert (M1 : begins (word "-1") (-1)) by (apply numeral_begins, (numeral_minus [1]); [discriminate|reflexivity]).
  assert (NX : forall n, ~ begins (word "x") n).
  { intros n H. apply begins_integer in H as [r H]. vm_compute in H. discriminate. }
  assert (NA : forall n, ~ begins (word "abc") n).
  { intros n H. apply begins_integer in H as [r H]. vm_compute in H. discriminate. }
  split; [|split; [|split; [|split; [|split; [|split; [|split; [|split]]]]]]].
  - intros stod d Hd args. split; [|split; [|split; [|split]]].
    + unfold args. repeat (apply Forall_cons); [..|constructor]; cbn [proper]; try exact I.
      * now exists 2.
      * repeat split; discriminate.
      * now exists d.
      * now exists 3.
    + reflexivity.
    + left. exists [Size (word "2"); Other (word "-v"); Density (word "0.5")], (Size (word "3")), [Out (word "x"); Out (word "--size")].
      split; [reflexivity|]. split; [exists (word "3"); auto|].
      intros a' b' [<-|[<-|[]]] (v & K & _); discriminate.
    + left. exists [Size (word "2"); Other (word "-v"); Density (word "0.5"); Size (word "3"); Out (word "x")], (Out (word "--size")), [].
      split; [reflexivity|]. split; [exists (word "--size"); auto|]. intros a' b' [].
    + unfold args. cbn [flat_map spelled app build_options].
      change (is_word (word "--size") "--density") with false. change (is_word (word "--size") "--size") with true.
      change (is_word (word "-v") "--density") with false. change (is_word (word "-v") "--size") with false. change (is_word (word "-v") "--out") with false.
      change (is_word (word "--density") "--density") with true.
      change (is_word (word "--out") "--density") with false. change (is_word (word "--out") "--size") with false. change (is_word (word "--out") "--out") with true.
      cbn [build_options]. rewrite (atoi_word true _ _ N2), (atoi_word true _ _ N3). cbn [bind]. rewrite Hd. reflexivity.
  - right. now left.
  - left. exists (-1). split; [exact M1|]. split; [unfold storable_int; lia|reflexivity].
  - right. auto.
  - now left.
  - right. exists 18446744073709551616. split; [|now right].
    apply numeral_begins, (numeral_digits [1;8;4;4;6;7;4;4;0;7;3;7;0;9;5;5;1;6;1;6]); [discriminate|reflexivity].
  - exists (-1). split; [exact M1|]. split; [lia|reflexivity].
  - exists (-18446744073709551615). split; [|split; [lia|reflexivity]].
    exists [], (45 :: map (Z.add 48) [1;8;4;4;6;7;4;4;0;7;3;7;0;9;5;5;1;6;1;5]), (word " x"). split; [reflexivity|].
    split; [constructor|]. split; [now apply (numeral_minus [1;8;4;4;6;7;4;4;0;7;3;7;0;9;5;5;1;6;1;5])|].
    change (~ 48 <= 32 <= 57). lia.
  - vm_compute. reflexivity.
Qed.
