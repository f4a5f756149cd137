(** Proofs for C53: what the programs in src/ print. *)
From Coq Require Import Lia Sorted String Floats.SpecFloat.
From Verif Require Import Base Hw Spec Lib L_Bits L_Group Layout M_Util M_Build M_Seq M_Decode M_Uncompress
  M_Query M_Union M_Many M_Index M_Print M_Calls M_Tests M_Drivers M_Text M_Out M_Say Holds Format Room Shown Typed Printed
  Told Counts Outcome Report
  P_Build1 P_Build2 P_Build3 P_Seq P_Decode P_Query P_Sets P_Index P_Fin1 P_Fin2 P_Fin3 P_Fin4 P_Room P_Tests P_Tests2
  P_Tests4 P_Counts P_Shown P_Drivers P_Text2 P_Text5 P_Text6 P_Out3 P_Say P_Say2 P_Say3.
From Verif Require P_Print.
Local Open Scope Z_scope.

Lemma writes_of nan ls r t : r = Ok t -> t = ptext nan ls -> Forall (Forall nonneg) ls -> writes nan ls r.
Proof. intros -> -> H. now apply writes_text. Qed.
Lemma returns_of nan ls r t : r = Ok (0, t) -> t = ptext nan ls -> Forall (Forall nonneg) ls -> returns 0 nan ls r.
Proof. intros -> -> H. exists (ptext nan ls). split; [reflexivity|]. now apply ptext_page. Qed.

Ltac lines := unfold ptext, ltext, say_count, say_reading, say_done, say_universe; cbn [flat_map map text concat app];
  rewrite ?app_nil_r, <- ?app_assoc; reflexivity.

Lemma means_text nan time queries : say_means nan time queries = ptext nan (mean_lines time queries).
Proof. unfold say_means, mean_lines. lines. Qed.
Lemma perf_text nan time what what' asked counted total : codes what' = codes " " ++ codes what ++ codes "..." ->
  say_reading ++ say_done ++ say_count "performing " asked what' ++ show total ++ endl ++ say_means nan time counted
  = ptext nan (perf_lines what asked counted total time).
Proof.
  intro E. unfold perf_lines. rewrite means_text, ptext_app. unfold say_count. rewrite E.
  unfold ptext at 2. unfold ltext, say_reading, say_done. cbn [flat_map map text concat app].
  rewrite ?app_nil_r, <- ?app_assoc. reflexivity.
Qed.
Lemma speed_text nan time a b : say_speed nan time a b = ptext nan (speed_lines a b time).
Proof. unfold say_speed, speed_lines. lines. Qed.

Lemma perf_nonneg what asked counted total time : 0 <= asked -> 0 <= total ->
  Forall (Forall nonneg) (perf_lines what asked counted total time).
Proof. intros. unfold perf_lines, mean_lines. cbn [app]. pieces. Qed.
Lemma speed_nonneg a b time : 0 <= a -> 0 <= b -> Forall (Forall nonneg) (speed_lines a b time).
Proof. intros. unfold speed_lines. pieces. Qed.

Lemma mod64 x : 0 <= x mod 2 ^ 64.
Proof. apply Z.mod_pos_bound. reflexivity. Qed.

Theorem c53_index : forall nan time dbg dbg' params u Ls mem f,
  is_u32 u -> Forall valid (kept_lists params Ls) ->
  let Ks := kept_lists params Ls in
  (holds_index dbg params u Ls 0 mem f ->
     writes nan [[N (11 * total zlen Ks mod 2 ^ 64 / 11)]; [W "Mean per run: "; R time; W " [musec]"];
                 [W "Mean per query: "; R (SFmul 53 1024 (over time (zlen Ks)) (dbl 1000)); W " [ns]"]]
       (say_cardinality_cpp nan time dbg' mem f)
     /\ let words := if u <? 4294901760 then 1024 * (u / 65536 + 1) else 0 in
        (Forall (fun S => uncompress_fits S words) Ks ->
           writes nan ([W "universe size: "; N u] :: speed_lines (zlen Ks) (total zlen Ks mod 2 ^ 64) time)
             (say_uncompress_cpp nan time dbg' mem f)))
  /\ (holds_index dbg params u Ls 31 mem f -> Forall (fun S => decode_fits S u) Ks ->
        writes nan (speed_lines (zlen Ks) (total zlen Ks mod 2 ^ 64) time) (say_decode_cpp nan time dbg' mem f)).
Proof.
  intros nan time dbg dbg' params u Ls mem f Hu V Ks. split.
  - intro H. destruct (holds_opened dbg params u Ls 0 mem f Hu ltac:(lia) V H) as (ix & O). fold Ks in O. split.
    + eapply writes_of.
      * unfold say_cardinality_cpp. rewrite (proj1 O). cbn [bind].
        rewrite (c35_cardinality dbg dbg' params u Ls mem f Hu V H). cbn [bind]. rewrite (proj1 (proj2 O)). reflexivity.
      * fold Ks. lines.
      * pieces. apply Z.div_pos; [apply mod64|lia].
    + intros words HF. eapply writes_of.
      * unfold say_uncompress_cpp. rewrite (proj1 O). cbn [bind].
        rewrite (proj1 (c35_uncompress dbg dbg' params u Ls mem f Hu V H) HF). cbn [bind].
        rewrite (proj1 (proj2 (proj2 O))), speed_text. reflexivity.
      * fold Ks. unfold ptext at 2. cbn [flat_map]. fold (ptext nan (speed_lines (zlen Ks) (total zlen Ks mod 2 ^ 64) time)).
        f_equal. unfold say_universe. line.
      * constructor; [pieces; unfold is_u32 in Hu; lia|]. apply speed_nonneg; [apply zlen_nonneg|apply mod64].
  - intros H HF. eapply writes_of.
    + unfold say_decode_cpp. rewrite (proj1 (c35_decode dbg dbg' params u Ls mem f Hu V H) HF). cbn [bind].
      rewrite speed_text. reflexivity.
    + reflexivity.
    + apply speed_nonneg; [apply zlen_nonneg|apply mod64].
Qed.

(** ** the command line *)
Lemma pairs_main_bind {A B} iso (run : list Z -> list (Z * Z) -> res A) (g : A -> res B) argv stdin :
  pairs_main iso (fun name qs => let! r := run name qs in g r) argv stdin
  = let! o := pairs_main iso run argv stdin in
    match o with None => Ok None | Some r => let! x := g r in Ok (Some x) end.
Proof.
  unfold pairs_main. destruct argv as [|f [|w more]]; try reflexivity.
  destruct (stoull w); try reflexivity. cbn [bind]. destruct (reserve _ 8); try reflexivity. cbn [bind].
  destruct (scan_pairs _ _ _ _ _); try reflexivity. cbn [bind]. now destruct (run f _).
Qed.
Lemma words_main_bind {A B} iso (run : s_index -> Z -> list Z -> res A) (g : s_index -> Z -> A -> res B) mem place argv stdin r ix f w n more :
  argv = f :: w :: more -> index_mmap mem (place f) = Ok ix -> stoull w = Ok n ->
  words_main iso run mem place argv stdin = Ok (Some r) ->
  words_main iso (fun ix n qs => let! r := run ix n qs in g ix n r) mem place argv stdin
  = let! x := g ix n r in Ok (Some x).
Proof.
  intros -> E1 E2. unfold words_main. rewrite E2. cbn [bind]. rewrite E1. cbn [bind]. destruct (reserve _ 4); try discriminate.
  cbn [bind]. destruct (scan_words _ _ _ _ _); try discriminate. cbn [bind]. destruct (run ix n _); try discriminate.
  cbn [bind]. intro H. injection H as <-. reflexivity.
Qed.

Lemma perf_main nan time what what' iso (run : list Z -> list (Z * Z) -> res (Z * Z)) name argv stdin asked total :
  codes what' = codes " " ++ codes what ++ codes "..." -> 0 <= asked -> 0 <= total ->
  pairs_main iso run argv stdin = Ok (Some (asked, total)) ->
  returns 0 nan (perf_lines what asked asked total time)
    (say_pairs_main iso (fun f qs => say_perf what' nan time (run f qs)) name argv stdin).
Proof.
  intros EW HA HT E. eapply returns_of.
  - unfold say_pairs_main, say_perf. rewrite pairs_main_bind, E. cbn [bind]. unfold with_usage. cbn [bind]. reflexivity.
  - apply perf_text. exact EW.
  - now apply perf_nonneg.
Qed.

Theorem c53_contains : forall nan time iso dbg dbg' params u Ls mem place name f w more num t ns qs,
  is_u32 u -> Forall valid (kept_lists params Ls) -> holds_index dbg params u Ls 0 mem (place f) ->
  let Ks := kept_lists params Ls in
  count_word w num -> num < 2 ^ 60 -> typed t ns -> Forall (storable_int iso) ns ->
  pairs_read num ns qs -> positions Ks qs ->
  returns 0 nan
    (perf_lines "contains queries" (zlen qs) (zlen qs)
       (4 * zlen (filter (fun q => existsb (Z.eqb (snd q)) (list_of Ks (fst q))) qs) mod 2 ^ 64) time)
    (say_pairs_main iso (fun f => say_perf_contains nan time dbg' mem (place f)) name (f :: w :: more) t).
Proof.
  intros. apply perf_main with (run := fun f => perf_contains dbg' mem (place f)); [reflexivity|apply zlen_nonneg|apply mod64|].
  eapply c47_contains; eauto.
Qed.
Theorem c53_intersect : forall nan time iso dbg dbg' tbl params u Ls mem place name f w more num t ns qs,
  is_u32 u -> Forall valid (kept_lists params Ls) -> holds_index dbg params u Ls 31 mem (place f) ->
  let Ks := kept_lists params Ls in
  shuffle_table_ok tbl ->
  count_word w num -> num < 2 ^ 60 -> typed t ns -> Forall (storable_int iso) ns ->
  pairs_read num ns qs -> pairs_of Ks qs ->
  let size q := common (list_of Ks (fst q)) (list_of Ks (snd q)) in
  Forall (fun q => size q + 23 <= u) qs ->
  returns 0 nan (perf_lines "pairwise-intersections" (zlen qs) (zlen qs) (11 * total size qs mod 2 ^ 64) time)
    (say_pairs_main iso (fun f => say_perf_intersection nan time tbl dbg' mem (place f)) name (f :: w :: more) t).
Proof.
  intros. apply perf_main with (run := fun f => perf_intersection tbl dbg' mem (place f));
    [reflexivity|apply zlen_nonneg|apply mod64|].
  eapply c47_intersect; eauto.
Qed.
Theorem c53_union : forall nan time iso dbg dbg' tbl params u Ls mem place name f w more num t ns qs,
  is_u32 u -> Forall valid (kept_lists params Ls) -> holds_index dbg params u Ls 31 mem (place f) ->
  let Ks := kept_lists params Ls in
  count_word w num -> num < 2 ^ 60 -> typed t ns -> Forall (storable_int iso) ns ->
  pairs_read num ns qs -> pairs_of Ks qs ->
  let size q := zlen (list_of Ks (fst q)) + zlen (list_of Ks (snd q)) - common (list_of Ks (fst q)) (list_of Ks (snd q)) in
  Forall (fun q => size q + 23 <= u) qs ->
  returns 0 nan (perf_lines "pairwise-unions" (zlen qs) (zlen qs) (11 * total size qs mod 2 ^ 64) time)
    (say_pairs_main iso (fun f => say_perf_union nan time tbl dbg' mem (place f)) name (f :: w :: more) t).
Proof.
  intros. apply perf_main with (run := fun f => perf_union tbl dbg' mem (place f));
    [reflexivity|apply zlen_nonneg|apply mod64|].
  eapply c47_union; eauto.
Qed.

Lemma words_perf nan time what what' iso run mem place name f w more t n size asked total ix :
  codes what' = codes " " ++ codes what ++ codes "..." -> 0 <= asked -> 0 <= total ->
  index_mmap mem (place f) = Ok ix -> stoull w = Ok n -> u64 (ix_size ix * n) = size ->
  words_main iso run mem place (f :: w :: more) t = Ok (Some (asked, total)) ->
  returns 0 nan (perf_lines what asked size total time)
    (say_words_main iso (fun ix n queries =>
        let! (size, total) := run ix n queries in
        Ok (say_reading ++ say_done ++ say_count "performing " size what' ++ show total ++ endl
            ++ say_means nan time (u64 (ix_size ix * n)))) mem place name (f :: w :: more) t).
Proof.
  intros EW HA HT E1 E2 ES E. eapply returns_of.
  - unfold say_words_main.
    rewrite (words_main_bind iso run (fun ix n (p : Z * Z) => let (size, total) := p in
        Ok (say_reading ++ say_done ++ say_count "performing " size what' ++ show total ++ endl
            ++ say_means nan time (u64 (ix_size ix * n)))) mem place _ t _ ix f w n more eq_refl E1 E2 E).
    cbn [bind]. unfold with_usage. cbn [bind]. rewrite ES. reflexivity.
  - apply perf_text. exact EW.
  - now apply perf_nonneg.
Qed.

Theorem c53_select : forall nan time iso dbg dbg' params u Ls mem place name f w more n t ns,
  is_u32 u -> Forall valid (kept_lists params Ls) -> holds_index dbg params u Ls 0 mem (place f) ->
  let Ks := kept_lists params Ls in
  count_word w n -> 0 <= n < 2 ^ 64 -> zlen Ks < 2 ^ 32 -> zlen Ks * n < 2 ^ 61 ->
  typed t ns -> Forall (storable_int iso) ns -> Forall is_u32 ns ->
  Ks = [] \/ n < 2 ^ 32 -> zlen Ks * n <= zlen ns ->
  let read := if zlen Ks * n <? 2 ^ 32 then zlen Ks * n else zlen ns in
  returns 0 nan
    (perf_lines "select queries" read (zlen Ks * n) (4 * total (fun v => v) (selected 0 (asked Ks n ns)) mod 2 ^ 64) time)
    (say_words_main iso (say_perf_select nan time dbg' mem) mem place name (f :: w :: more) t)
  /\ returns 0 nan
    (perf_lines "next_geq queries" read (zlen Ks * n)
       (4 * total (fun q => spec_next_geq (fst q) (snd q)) (asked Ks n ns) mod 2 ^ 64) time)
    (say_words_main iso (say_perf_next_geq nan time dbg' mem) mem place name (f :: w :: more) t).
Proof.
  intros nan time iso dbg dbg' params u Ls mem place name f w more n t ns Hu V H Ks HW Hn HK HT HY HI HU H1 H2 read.
  destruct (holds_opened dbg params u Ls 0 mem (place f) Hu ltac:(lia) V H) as (ix & O). fold Ks in O.
  pose proof (zlen_nonneg _ Ks) as K0. pose proof (zlen_nonneg _ ns) as N0.
  assert (R0 : 0 <= read) by (unfold read; destruct (_ <? _); nia).
  assert (ES : u64 (ix_size ix * n) = zlen Ks * n) by (rewrite (proj1 (proj2 O)); unfold u64; rewrite Z.mod_small; nia).
  split; unfold say_perf_select, say_perf_next_geq.
  - eapply words_perf with (run := perf_select dbg' mem) (n := n) (ix := ix);
      [reflexivity|exact R0|apply mod64|apply O|apply stoull_count, HW|exact ES|].
    exact (proj1 (c47_select iso dbg dbg' params u Ls mem place f w more n t ns Hu V H HW Hn HK HT HY HI HU) H1 H2).
  - eapply words_perf with (run := perf_next_geq dbg' mem) (n := n) (ix := ix);
      [reflexivity|exact R0|apply mod64|apply O|apply stoull_count, HW|exact ES|].
    exact (proj1 (c47_next_geq iso dbg dbg' params u Ls mem place f w more n t ns Hu V H HW Hn HK HT HY HI HU) H1 H2).
Qed.

(** too few words *)
Theorem c53_usage : forall stod iso dbg test run run' run'' run0 mem place name argv stdin,
  let usage words := Ok (1, name ++ word words ++ [10]) in
  (argv = [] -> say_index_main run0 name argv = usage " <index_filename>"%string)
  /\ (forall f more, say_index_main run0 name (f :: more) = let! t := run0 f in Ok (0, t))
  /\ (zlen argv < 2 ->
        say_test_main stod iso test name argv = usage " index_filename collection_filename [--density d] [--size s]"%string
        /\ say_pairs_main iso run name argv stdin = usage " index_filename num_queries < queries"%string
        /\ say_lines_main dbg run' name argv stdin = usage " index_filename num_queries < queries"%string
        /\ say_words_main iso run'' mem place name argv stdin
           = usage " index_filename num_queries_per_sequence < queries"%string)
  /\ (2 <= zlen argv -> forall code t,
        say_test_main stod iso test name argv = Ok (code, t) \/ say_pairs_main iso run name argv stdin = Ok (code, t)
        \/ say_lines_main dbg run' name argv stdin = Ok (code, t)
        \/ say_words_main iso run'' mem place name argv stdin = Ok (code, t) -> code = 0).
Proof.
  intros. split; [|split; [|split]].
  - intros ->. reflexivity.
  - intros. unfold say_index_main, with_usage. now destruct (run0 f).
  - intro H. destruct argv as [|a [|b argv]]; [repeat split..|]. rewrite !zlen_cons in H. pose proof (zlen_nonneg _ argv). lia.
  - intros H code t. destruct argv as [|a [|b argv]]; [rewrite zlen_nil in H; lia|rewrite zlen_cons, zlen_nil in H; lia|].
    unfold say_test_main, say_pairs_main, say_lines_main, say_words_main, with_usage, test_main, pairs_main, lines_main, words_main.
    intros [E|[E|[E|E]]].
    + destruct (test_options _ _ _ _); try discriminate. cbn [bind] in E. destruct (test _ _ _); try discriminate.
      cbn [bind] in E. congruence.
    + destruct (stoull _); try discriminate. cbn [bind] in E. destruct (reserve _ _); try discriminate. cbn [bind] in E.
      destruct (scan_pairs _ _ _ _ _); try discriminate. cbn [bind] in E. destruct (run _ _); try discriminate.
      cbn [bind] in E. congruence.
    + destruct (stoull _); try discriminate. cbn [bind] in E. destruct (reserve _ _); try discriminate. cbn [bind] in E.
      destruct (read_queries _ _ _ _ _); try discriminate. cbn [bind] in E. destruct (run' _ _); try discriminate.
      cbn [bind] in E. congruence.
    + destruct (stoull _); try discriminate. cbn [bind] in E. destruct (index_mmap _ _) as [ix| | | |]; try discriminate. cbn [bind] in E.
      destruct (reserve _ _); try discriminate. cbn [bind] in E.
      destruct (scan_words _ _ _ _ _); try discriminate. cbn [bind] in E. destruct (run'' _ _ _); try discriminate.
      cbn [bind] in E. congruence.
Qed.

(** ** example.cpp *)
Lemma example_text nan dbg S : valid S -> (forall i, 1 <= i <= 256 -> sparse_chunks i [S] <> []) ->
  exists stats enc, builder_build dbg [] S = (Ok stats, enc) /\ encoding dbg S enc
    /\ print_text nan stats = Ok (ptext nan (statistics_lines (counters (8 * zlen enc + 128) [S]))).
Proof.
  intros V N. destruct (c18_exact_sequence dbg [] S V) as (st & enc & EB & C). exists st, enc. split; [exact EB|].
  destruct (c17_size_sequence dbg [] S V) as (st2 & enc2 & EB2 & Y & _). rewrite EB in EB2. cbn [app] in EB2. injection EB2 as <- <-.
  assert (K : filter (fun L => pass default_params (zlen L) (last L 0)) [S] = [S]) by (apply kept_default, V).
  assert (V1 : Forall valid (filter (fun L => pass default_params (zlen L) (last L 0)) [S])) by (rewrite K; auto).
  assert (HSh : Forall short [S]) by (constructor; [now apply P_Index.short_valid|constructor]).
  destruct (c18_exact_index dbg default_params 0 [S] V1 HSh) as (st' & o & q & E' & C'). rewrite K in C'.
  assert (EQ : forall f, f <> F_bits -> st' f = st f).
  { intros f F. rewrite C, C' by auto. cbn. lia. }
  split; [exists st; exact EB|].
  assert (B : total zlen [S] < 2 ^ 37) by (pose proof (valid_len S V); cbn [total fold_right]; lia).
  unfold print_text. rewrite print_shown.
  - cbn [bind]. rewrite (shown_ext st (counters (8 * zlen enc + 128) [S])); [now rewrite print_frame_text|].
    intro f. destruct f; try (rewrite <- EQ by discriminate; cbn [counters]; apply C'; discriminate). exact Y.
  - intros i Hi. pose proof (P_Print.index_stats dbg default_params 0 [S] st' o q V1 HSh E' i) as I. rewrite K in I.
    rewrite !EQ in I by discriminate. destruct I as [I1 I2]. unfold P_Print.fine. rewrite I1, I2.
    pose proof (P_Print.sparse_bounds i [S]) as [B1 B2]. pose proof (P_Print.ints_bound i [S] ltac:(auto)).
    assert (0 < P_Print.n_sparse i [S]).
    { unfold P_Print.n_sparse. specialize (N i Hi). destruct (sparse_chunks i [S]); [now destruct N|]. rewrite zlen_cons. pose proof (zlen_nonneg _ l). lia. }
    lia.
Qed.

Lemma say_example_loop_ok dbg mem ss input out : forall m i value,
  example_loop m dbg mem ss input out i value = Ok true -> say_example_loop m dbg mem ss input out i value = Ok (0, []).
Proof.
  induction m as [|m IH]; intros i value; cbn [example_loop say_example_loop]; [reflexivity|].
  destruct (vget input i) as [x| | | |]; try discriminate. cbn [bind].
  destruct (vget out i) as [y| | | |]; try discriminate. cbn [bind]. destruct (negb (x =? y)); try discriminate.
  destruct (select _ _ _ _ _) as [[c v]| | | |]; try discriminate. cbn [bind]. destruct (negb (v =? y)); try discriminate. apply IH.
Qed.

Theorem c53_example : forall nan dbg place S enc, valid S ->
  (forall enc, bytes_at (fst (place enc)) (snd (place enc)) enc
     /\ snd (place enc) + zlen enc + 31 <= zlen (fst (place enc))) ->
  (forall i, 1 <= i <= 256 -> sparse_chunks i [S] <> []) -> decode_fits S (zlen S) -> encoding dbg S enc ->
  returns 0 nan (statistics_lines (counters (8 * zlen enc + 128) [S])) (say_example_cpp nan dbg place S).
Proof.
  intros nan dbg place S enc V HP N F EE.
  destruct (example_text nan dbg S V N) as (st & enc' & EB & EE' & P).
  assert (enc' = enc) as -> by (destruct EE as (? & E1), EE' as (? & E2); congruence).
  destruct (example_cpp_ok dbg place S V HP) as (_ & _ & G). specialize (G N F).
  unfold example_cpp in G. unfold say_example_cpp. rewrite EB in *. rewrite P. cbn [bind].
  destruct (print st) as [tk| | | |]; try discriminate. cbn [bind] in G. destruct (place enc) as [mem a].
  unfold example_check in G. destruct (seq_at mem a) as [ss| | | |]; try discriminate. cbn [bind] in *.
  destruct (seq_size mem ss) as [size| | | |]; try discriminate. cbn [bind] in *.
  destruct (decode _ _ _ _ _) as [[out k]| | | |]; try discriminate. cbn [bind] in *.
  rewrite (say_example_loop_ok _ _ _ _ _ _ _ _ G). cbn [bind]. rewrite app_nil_r.
  exists (ptext nan (statistics_lines (counters (8 * zlen enc + 128) [S]))). split; [reflexivity|].
  apply ptext_page, statistics_nonneg. intro f. apply counters_nonneg; [auto|]. pose proof (zlen_nonneg _ enc). lia.
Qed.

(** what main returns and the message, for every input *)
Definition got nan input t := exists before x y l, t = (before ++ l)%list /\ x <> y /\ In y input
  /\ (0 <= x -> 0 <= y -> page nan [[W "got "; N x; W " but expected "; N y]] l).
Lemma got_line nan input i x y : vget input i = Ok y -> x <> y -> got nan input (say_got x y).
Proof.
  intros E H. exists [], x, y, (say_got x y). split; [reflexivity|]. split; [exact H|]. split.
  - unfold vget in E. destruct (znth input i) eqn:Z; [|discriminate]. injection E as ->. eapply znth_In; eauto.
  - intros X Y. replace (say_got x y) with (ptext nan [[W "got "; N x; W " but expected "; N y]]).
    + apply ptext_page. pieces.
    + unfold say_got. lines.
Qed.
Lemma got_app nan input s t : got nan input t -> got nan input (s ++ t).
Proof.
  intros (b & x & y & l & -> & H). exists (s ++ b)%list, x, y, l. split; [now rewrite app_assoc|exact H].
Qed.
Definition verdicts nan input (s : res bool) (r : res (Z * list Z)) : Prop :=
  match s, r with
  | Ok true, Ok (code, t) => code = 0
  | Ok false, Ok (code, t) => code = 1 /\ got nan input t
  | Throw, Throw | Abort, Abort | UB, UB | Fuel, Fuel => True
  | _, _ => False
  end.
Lemma example_loop_tells nan dbg mem ss input out : forall m i value,
  verdicts nan input (example_loop m dbg mem ss input out i value) (say_example_loop m dbg mem ss input out i value).
Proof.
  induction m as [|m IH]; intros i value; cbn [example_loop say_example_loop]; [reflexivity|].
  destruct (vget input i) as [x| | | |] eqn:EX; try exact I. cbn [bind].
  destruct (vget out i) as [y| | | |]; try exact I. cbn [bind].
  destruct (Z.eqb_spec x y) as [->|NE]; cbn [negb].
  - destruct (select _ _ _ _ _) as [[c v]| | | |]; try exact I. cbn [bind].
    destruct (Z.eqb_spec v y) as [->|NE]; cbn [negb]; [apply IH|]. split; [reflexivity|]. eapply got_line; eauto.
  - split; [reflexivity|]. eapply got_line; eauto.
Qed.
Theorem c53_example_any : forall nan dbg place input,
  match example_cpp dbg place input, say_example_cpp nan dbg place input with
  | Ok true, Ok (code, t) => code = 0
  | Ok false, Ok (code, t) =>
      code = 1 /\ exists before x y l, t = (before ++ l)%list /\ x <> y /\ In y input
        /\ (0 <= x -> 0 <= y -> page nan [[W "got "; N x; W " but expected "; N y]] l)
  | Throw, Throw | Abort, Abort | UB, UB | Fuel, Fuel => True
  | _, _ => False
  end.
Proof.
  intros. change (verdicts nan input (example_cpp dbg place input) (say_example_cpp nan dbg place input)).
  unfold example_cpp, say_example_cpp. destruct (builder_build dbg [] input) as [[st| | | |] enc]; try exact I.
  unfold print_text. destruct (print st) as [tk| | | |]; try exact I. cbn [bind]. destruct (place enc) as [mem a].
  unfold example_check. destruct (seq_at mem a) as [ss| | | |]; try exact I. cbn [bind].
  destruct (seq_size mem ss) as [size| | | |]; try exact I. cbn [bind].
  destruct (decode _ _ _ _ _) as [[out k]| | | |]; try exact I. cbn [bind].
  pose proof (example_loop_tells nan dbg mem ss input out (Z.to_nat size) 0 0) as G.
  destruct (example_loop _ _ _ _ _ _ _ _) as [[]| | | |], (say_example_loop _ _ _ _ _ _ _ _) as [[code t]| | | |];
    cbn [verdicts] in G; try contradiction; cbn [bind]; try exact I.
  - exact G.
  - destruct G as [-> G]. split; [reflexivity|]. now apply got_app.
Qed.

Lemma c53_example_occurs : forall nan,
  (valid ladder /\ (forall i, 1 <= i <= 256 -> sparse_chunks i [ladder] <> []) /\ decode_fits ladder (zlen ladder)
   /\ exists enc, encoding true ladder enc)
  /\ let place := fun enc : list Z => (enc ++ repeat 0 (Z.to_nat 31), 0) in
     (forall enc, bytes_at (fst (place enc)) (snd (place enc)) enc
        /\ snd (place enc) + zlen enc + 31 <= zlen (fst (place enc)))
  /\ exists t, say_example_cpp nan true (fun _ => (snd (builder_build true [] (zrange 7 31)) ++ repeat 0 (Z.to_nat 31), 0))
                ladder = Ok (1, t ++ word
"got 7 but expected 65536
").
Proof.
  intro nan. destruct c35_example_occurs as [(V & N & F) _].
  destruct (example_text nan true ladder V N) as (st & enc & EB & EE & P).
  split; [repeat (split; [assumption|]); now exists enc|]. split.
  - intro e. cbn [fst snd]. split.
    + intros i Hi. rewrite Z.add_0_l. apply znth_app_l. lia.
    + rewrite zlen_app, zlen_repeat. lia.
  - exists (ptext nan (statistics_lines (counters (8 * zlen enc + 128) [ladder]))).
    unfold say_example_cpp. rewrite EB, P. cbn [bind]. generalize (ptext nan (statistics_lines (counters (8 * zlen enc + 128) [ladder]))).
    intro text. vm_compute. reflexivity.
Qed.
