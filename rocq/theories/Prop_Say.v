(** C53: the text the programs in src/ and test/ write.  [writes] and [returns] (Report.v) say that a program writes
    certain lines and nothing else; [page] (Printed.v) says which text these lines are. *)
From Coq Require Import Lia Sorted String Floats.SpecFloat.
From Verif Require Import Base Hw Spec Lib L_Bits L_Group Layout M_Util M_Build M_Seq M_Decode M_Uncompress
  M_Query M_Union M_Many M_Index M_Print M_Calls M_Tests M_Drivers M_Text M_Out M_Say Holds Format Room Shown Typed Printed
  Told Counts Outcome Report
  P_Build1 P_Build2 P_Build3 P_Seq P_Decode P_Query P_Sets P_Index P_Fin1 P_Fin2 P_Fin3 P_Fin4 P_Room P_Tests P_Tests2
  P_Tests4 P_Tests5 P_Ex P_Counts P_Shown P_Drivers P_Text2 P_Text5 P_Text6 P_Out3 P_Say P_Say2 P_Say3 P_Say4.
From Verif Require P_Print.
Local Open Scope Z_scope.

(** A test program compares the lists [Ks] of a collection with the lists [Ks'] of an index, which may be others: it
    reports every difference, and nothing else, and "everything good" if and only if there is none. *)
Theorem C53_reports : forall dbg dbg' params params' u u' Ls Ls' mem f,
  is_u32 u' -> Forall valid (kept_lists params' Ls') -> holds_index dbg params' u' Ls' 31 mem f ->
  let Ks := kept_lists params Ls in
  let Ks' := kept_lists params' Ls' in
  let data := collection u Ls in
  let pairs := combine Ks Ks' in
  zlen Ks <= zlen Ks' -> Forall short Ls -> Forall (Forall is_u32) Ks ->
  let long := Forall (fun p => zlen (fst p) <= zlen (snd p)) pairs in
  (Forall (fun S => decode_fits S u') Ks' -> long ->
     writes [] (session "decoded " "decoded " u' decode_report pairs) (say_test_decode dbg' params mem f data))
  /\ writes [] (session "checked " "checked " u' contains_report pairs) (say_test_contains dbg' params mem f data)
  /\ writes [] (session "checked " "checked " u' select_report pairs) (say_test_select dbg' params mem f data)
  /\ writes [] (session "decoded " "decoded " u' (enumerator_report u') pairs) (say_test_enumerator dbg' params mem f data)
  /\ (forall fuel, (100 <= fuel)%nat -> Forall (fun L => valid L /\ last L 0 + 1000001 < 2 ^ 32) Ks ->
        writes [] (session "checked " "checked " u' next_geq_report pairs) (say_test_next_geq fuel dbg' params mem f data)
        /\ writes [] (session "checked " "checked " u' next_geq_report pairs)
             (say_test_next_geq_enumerator fuel dbg' params mem f data))
  /\ (u' < 2 ^ 32 - 65536 -> Forall (fun S => last S 0 / 65536 <= u' / 65536 /\ zlen S <= u') Ks' -> long ->
        writes [] (session "decoded " "uncompressed " u' uncompress_report pairs)
          (say_test_uncompress dbg' params mem f data)).
Proof. exact c53_reports. Qed.
Print Assumptions C53_reports.

(** the index holds [1;2;3], [2;3;5;70;71] and [0;3;600] *)
Example C53_reports_example :
  holds_index true t_params 1000 t_lists 31 t_mem 1 /\ kept_lists t_params t_lists = t_kept /\ Forall valid t_kept
  /\ say_test_decode true t_params t_mem 1 (collection 7 [[1; 2; 3]; [2; 3; 5; 70; 72]]) = Ok (word
"universe size: 1000
error at 4/5: expected 72 but got 71
decoded 2 sequences
")
  /\ session "decoded " "decoded " 1000 decode_report (combine [[1; 2; 3]; [2; 3; 5; 70; 72]] t_kept)
     = [[W "universe size: "; N 1000];
        [W "error at "; N 4; W "/"; N 5; W ": expected "; N 72; W " but got "; N 71];
        [W "decoded "; N 2; W " sequences"]]
  /\ say_test_select true t_params t_mem 1 (collection 7 [[1; 2; 3; 9]; [2; 3; 5; 70; 71]]) = Ok (word
"universe size: 1000
cardinality 3: expected 4
rank 3 should have been valid
error at 3/4: expected 9 but got 3
checked 2 sequences
")
  /\ say_test_contains true t_params t_mem 1 (collection 7 [[1; 4]]) = Ok (word
"universe size: 1000
cardinality 3: expected 2
4 should have been found
checked 1 sequences
")
  /\ say_test_next_geq 100 true t_params t_mem 1 (collection 7 [[1; 3]]) = Ok (word
"universe size: 1000
cardinality 3: expected 2
error at 2/3: got 2 but expected next_geq(2) = 3
checked 1 sequences
").
Proof.
  destruct t_example as (E1 & E2 & E3 & _). split; [exact E3|]. split; [exact E1|]. split; [exact E2|].
  repeat split; vm_compute; reflexivity.
Qed.

(** ... so if the index holds the collection, it reports nothing but its progress. *)
Theorem C53_clean : forall dbg dbg' params u Ls mem f,
  is_u32 u -> Forall valid (kept_lists params Ls) -> holds_index dbg params u Ls 31 mem f ->
  let Ks := kept_lists params Ls in
  let data := collection u Ls in
  let clean verb last_verb := writes [] (clean_session verb last_verb u (zlen Ks)) in
  (Forall (fun L => zlen L + 23 <= u) Ks -> clean "decoded "%string "decoded "%string (say_test_decode dbg' params mem f data))
  /\ clean "checked "%string "checked "%string (say_test_contains dbg' params mem f data)
  /\ clean "checked "%string "checked "%string (say_test_select dbg' params mem f data)
  /\ clean "decoded "%string "decoded "%string (say_test_enumerator dbg' params mem f data)
  /\ (forall fuel, (100 <= fuel)%nat -> Forall (fun L => last L 0 + 1000001 < 2 ^ 32) Ks ->
        clean "checked "%string "checked "%string (say_test_next_geq fuel dbg' params mem f data)
        /\ clean "checked "%string "checked "%string (say_test_next_geq_enumerator fuel dbg' params mem f data))
  /\ (u < 2 ^ 32 - 65536 -> Forall (fun L => last L 0 / 65536 <= u / 65536 /\ zlen L <= u) Ks ->
        clean "decoded "%string "uncompressed "%string (say_test_uncompress dbg' params mem f data)).
Proof. exact c53_clean. Qed.
Print Assumptions C53_clean.

Example C53_clean_example :
  say_test_uncompress true t_params t_mem 1 (collection 1000 t_lists) = Ok (word
"universe size: 1000
uncompressed 3 sequences
everything good
")
  /\ clean_session "checked " "checked " 5 2000
     = [[W "universe size: "; N 5]; [W "checked "; N 1000; W " sequences"]; [W "checked "; N 2000; W " sequences"];
        [W "checked "; N 2000; W " sequences"]; [W "everything good"]].
Proof. split; vm_compute; reflexivity. Qed.

(** For any memory and collection: the text agrees with the verdict of C30, C31 and C46. *)
Theorem C53_verdict : forall dbg params mem f data fuel tbl sort pairs queries,
  (Forall is_byte mem ->
     let told verb last_verb := tells (clean_scan verb mem f) last_verb " sequences" in
     told "decoded "%string "decoded "%string (say_test_decode dbg params mem f data) (test_decode dbg params mem f data)
     /\ told "checked "%string "checked "%string (say_test_contains dbg params mem f data) (test_contains dbg params mem f data)
     /\ told "checked "%string "checked "%string (say_test_select dbg params mem f data) (test_select dbg params mem f data)
     /\ told "decoded "%string "decoded "%string (say_test_enumerator dbg params mem f data) (test_enumerator dbg params mem f data)
     /\ told "checked "%string "checked "%string (say_test_next_geq fuel dbg params mem f data) (test_next_geq fuel dbg params mem f data)
     /\ told "checked "%string "checked "%string (say_test_next_geq_enumerator fuel dbg params mem f data)
          (test_next_geq_enumerator fuel dbg params mem f data)
     /\ told "decoded "%string "uncompressed "%string (say_test_uncompress dbg params mem f data) (test_uncompress dbg params mem f data))
  /\ tells clean_pairs "tested " " queries" (say_test_intersect tbl sort dbg mem f pairs)
       (test_intersect tbl sort dbg mem f pairs)
  /\ tells clean_pairs "tested " " queries" (say_test_union tbl dbg mem f pairs) (test_union tbl dbg mem f pairs)
  /\ tells (clean_many "intersection has size ") "tested " " queries" (say_test_intersect_many tbl sort dbg mem f queries)
       (test_intersect_many tbl sort dbg mem f queries)
  /\ tells (clean_many "union has size ") "tested " " queries" (say_test_union_many tbl dbg mem f queries)
       (test_union_many tbl dbg mem f queries).
Proof. exact c53_verdict. Qed.
Print Assumptions C53_verdict.

(** The set operations: nothing but the number of queries, and the sizes for queries of many sequences *)
Theorem C53_queries : forall dbg dbg' params u Ls mem f tbl sort,
  is_u32 u -> Forall valid (kept_lists params Ls) -> holds_index dbg params u Ls 31 mem f ->
  sorts_by_cardinality mem sort ->
  let Ks := kept_lists params Ls in
  let ending k := [[W "tested "; N k; W " queries"]; [W "everything good"]] in
  (forall queries,
     Forall (fun q => exists S T, named Ks [fst q; snd q] [S; T] /\ zlen S + 23 <= u /\ zlen T + 23 <= u) queries ->
     writes [] ([W "reading queries..."] :: ending (zlen queries)) (say_test_intersect tbl sort dbg' mem f queries))
  /\ (forall queries,
     Forall (fun q => exists S T e, named Ks [fst q; snd q] [S; T]
       /\ enumerates (fun v => In v S \/ In v T) e /\ zlen e + 23 <= u) queries ->
     writes [] ([W "reading queries..."] :: ending (zlen queries)) (say_test_union tbl dbg' mem f queries))
  /\ (forall queries,
     let result q e := exists Ss, named Ks q Ss /\ enumerates (fun v => forall S, In S Ss -> In v S) e in
     Forall (fun q => 2 <= zlen q -> exists e, result q e /\ zlen e <= u) queries ->
     exists sizes,
       Forall2 (fun q s => exists e, result q e /\ s = zlen e) (filter (fun q => 2 <=? zlen q) queries) sizes
       /\ writes [] (size_lines "intersection has size " sizes ++ ending (zlen sizes))
            (say_test_intersect_many tbl sort dbg' mem f queries))
  /\ (forall queries,
     let result q e := exists Ss, named Ks q Ss /\ enumerates (fun v => exists S, In S Ss /\ In v S) e in
     Forall (fun q => 2 <= zlen q -> exists e, result q e /\ zlen e <= u) queries ->
     exists sizes,
       Forall2 (fun q s => exists e, result q e /\ s = zlen e) (filter (fun q => 2 <=? zlen q) queries) sizes
       /\ writes [] (size_lines "union has size " sizes ++ ending (zlen sizes))
            (say_test_union_many tbl dbg' mem f queries)).
Proof. exact c53_queries. Qed.
Print Assumptions C53_queries.

Example C53_queries_example :
  say_test_intersect ex_tbl (by_card t_mem) true t_mem 1 [(0, 1); (2, 0)] = Ok (word
"reading queries...
tested 2 queries
everything good
")
  /\ say_test_union_many ex_tbl true t_mem 1 [[0; 1; 2]; [0]] = Ok (word
"reading queries...
running test...
union has size 8
tested 1 queries
everything good
").
Proof. split; vm_compute; reflexivity. Qed.

(** The programs that go through an index.  [time] is what the timer measured. *)
Theorem C53_index : forall nan time dbg dbg' params u Ls mem f,
  is_u32 u -> Forall valid (kept_lists params Ls) ->
  let Ks := kept_lists params Ls in
  (holds_index dbg params u Ls 0 mem f ->
     writes nan [[N (11 * total zlen Ks mod 2 ^ 64 / 11)]; [W "Mean per run: "; R time; W " [musec]"];
                 [W "Mean per query: "; R (SFmul 53 1024 (over time (zlen Ks)) (dbl 1000)); W " [ns]"]]
       (say_cardinality_cpp nan time dbg' mem f)
     /\ let words := if u <? 4294901760 then 1024 * (u / 65536 + 1) else 0 in
        (Forall (fun S => uncompress_fits S words) Ks ->
           writes nan ([W "universe size: "; N u] :: speed_lines (zlen Ks) (total zlen Ks mod 2 ^ 64) time)
             (say_uncompress_cpp nan time dbg' mem f)))
  /\ (holds_index dbg params u Ls 31 mem f -> Forall (fun S => decode_fits S u) Ks ->
        writes nan (speed_lines (zlen Ks) (total zlen Ks mod 2 ^ 64) time) (say_decode_cpp nan time dbg' mem f)).
Proof. exact c53_index. Qed.
Print Assumptions C53_index.

(** The programs that read queries, with the hypotheses of C47: the number of queries, the checksum and the times.
    For select and next_geq the time is divided by the number of queries asked for, and not, as the line before says,
    by the number performed; the two differ from 2^32 on. *)
Theorem C53_contains : forall nan time iso dbg dbg' params u Ls mem place name f w more num t ns qs,
  is_u32 u -> Forall valid (kept_lists params Ls) -> holds_index dbg params u Ls 0 mem (place f) ->
  let Ks := kept_lists params Ls in
  count_word w num -> num < 2 ^ 60 -> typed t ns -> Forall (storable_int iso) ns ->
  pairs_read num ns qs -> positions Ks qs ->
  returns 0 nan
    (perf_lines "contains queries" (zlen qs) (zlen qs)
       (4 * zlen (filter (fun q => existsb (Z.eqb (snd q)) (list_of Ks (fst q))) qs) mod 2 ^ 64) time)
    (say_pairs_main iso (fun f => say_perf_contains nan time dbg' mem (place f)) name (f :: w :: more) t).
Proof. exact c53_contains. Qed.
Print Assumptions C53_contains.

Theorem C53_intersect : forall nan time iso dbg dbg' tbl params u Ls mem place name f w more num t ns qs,
  is_u32 u -> Forall valid (kept_lists params Ls) -> holds_index dbg params u Ls 31 mem (place f) ->
  let Ks := kept_lists params Ls in
  shuffle_table_ok tbl ->
  count_word w num -> num < 2 ^ 60 -> typed t ns -> Forall (storable_int iso) ns ->
  pairs_read num ns qs -> pairs_of Ks qs ->
  let size q := common (list_of Ks (fst q)) (list_of Ks (snd q)) in
  Forall (fun q => size q + 23 <= u) qs ->
  returns 0 nan (perf_lines "pairwise-intersections" (zlen qs) (zlen qs) (11 * total size qs mod 2 ^ 64) time)
    (say_pairs_main iso (fun f => say_perf_intersection nan time tbl dbg' mem (place f)) name (f :: w :: more) t).
Proof. exact c53_intersect. Qed.
Print Assumptions C53_intersect.

Theorem C53_union : forall nan time iso dbg dbg' tbl params u Ls mem place name f w more num t ns qs,
  is_u32 u -> Forall valid (kept_lists params Ls) -> holds_index dbg params u Ls 31 mem (place f) ->
  let Ks := kept_lists params Ls in
  count_word w num -> num < 2 ^ 60 -> typed t ns -> Forall (storable_int iso) ns ->
  pairs_read num ns qs -> pairs_of Ks qs ->
  let size q := zlen (list_of Ks (fst q)) + zlen (list_of Ks (snd q)) - common (list_of Ks (fst q)) (list_of Ks (snd q)) in
  Forall (fun q => size q + 23 <= u) qs ->
  returns 0 nan (perf_lines "pairwise-unions" (zlen qs) (zlen qs) (11 * total size qs mod 2 ^ 64) time)
    (say_pairs_main iso (fun f => say_perf_union nan time tbl dbg' mem (place f)) name (f :: w :: more) t).
Proof. exact c53_union. Qed.
Print Assumptions C53_union.

Theorem C53_select : forall nan time iso dbg dbg' params u Ls mem place name f w more n t ns,
  is_u32 u -> Forall valid (kept_lists params Ls) -> holds_index dbg params u Ls 0 mem (place f) ->
  let Ks := kept_lists params Ls in
  count_word w n -> 0 <= n < 2 ^ 64 -> zlen Ks < 2 ^ 32 -> zlen Ks * n < 2 ^ 61 ->
  typed t ns -> Forall (storable_int iso) ns -> Forall is_u32 ns ->
  Ks = [] \/ n < 2 ^ 32 -> zlen Ks * n <= zlen ns ->
  let read := if zlen Ks * n <? 2 ^ 32 then zlen Ks * n else zlen ns in
  returns 0 nan
    (perf_lines "select queries" read (zlen Ks * n) (4 * total (fun v => v) (selected 0 (asked Ks n ns)) mod 2 ^ 64) time)
    (say_words_main iso (say_perf_select nan time dbg' mem) mem place name (f :: w :: more) t)
  /\ returns 0 nan
    (perf_lines "next_geq queries" read (zlen Ks * n)
       (4 * total (fun q => spec_next_geq (fst q) (snd q)) (asked Ks n ns) mod 2 ^ 64) time)
    (say_words_main iso (say_perf_next_geq nan time dbg' mem) mem place name (f :: w :: more) t).
Proof. exact c53_select. Qed.
Print Assumptions C53_select.

(** Too few words *)
Theorem C53_usage : forall stod iso dbg test run run' run'' run0 mem place name argv stdin,
  let usage words := Ok (1, name ++ word words ++ [10]) in
  (argv = [] -> say_index_main run0 name argv = usage " <index_filename>"%string)
  /\ (forall f more, say_index_main run0 name (f :: more) = let! t := run0 f in Ok (0, t))
  /\ (zlen argv < 2 ->
        say_test_main stod iso test name argv = usage " index_filename collection_filename [--density d] [--size s]"%string
        /\ say_pairs_main iso run name argv stdin = usage " index_filename num_queries < queries"%string
        /\ say_lines_main dbg run' name argv stdin = usage " index_filename num_queries < queries"%string
        /\ say_words_main iso run'' mem place name argv stdin
           = usage " index_filename num_queries_per_sequence < queries"%string)
  /\ (2 <= zlen argv -> forall code t,
        say_test_main stod iso test name argv = Ok (code, t) \/ say_pairs_main iso run name argv stdin = Ok (code, t)
        \/ say_lines_main dbg run' name argv stdin = Ok (code, t)
        \/ say_words_main iso run'' mem place name argv stdin = Ok (code, t) -> code = 0).
Proof. exact c53_usage. Qed.
Print Assumptions C53_usage.

Example C53_programs_example : forall nan,
  let time := dbl 5 in
  say_cardinality_cpp nan time true t_mem 1 = Ok (word
"11
Mean per run: 5 [musec]
Mean per query: 1666.67 [ns]
")
  /\ say_decode_cpp nan time true t_mem 1 = Ok (word
"decoded 3 sequences
decoded 11 integers
Elapsed time: 5e-06 [sec]
Mean per sequence: 1.66667 [musec]
Mean per integer: 454.545 [ns]
")
  /\ say_pairs_main true (fun f => say_perf_intersection nan time ex_tbl true t_mem 1) (word "intersect")
       [word "index"; word "2"] (word "0 1 2 1") = Ok (0, word
"reading queries...
DONE
performing 2 pairwise-intersections...
33
Mean per run: 5 [musec]
Mean per query: 2.5 [musec]
")
  /\ say_words_main true (say_perf_select nan time true t_mem) t_mem (fun _ => 1) (word "select")
       [word "index"; word "1"] (word "0 1 2") = Ok (0, word
"reading queries...
DONE
performing 3 select queries...
2416
Mean per run: 5 [musec]
Mean per query: 1.66667 [musec]
")
  /\ say_words_main true (say_perf_select nan time true t_mem) t_mem (fun _ => 1) (word "./select") [] [] = Ok (1, word
"./select index_filename num_queries_per_sequence < queries
").
Proof. intro nan. repeat split; vm_compute; reflexivity. Qed.

(** example.cpp: the statistics of the one sequence, and nothing else.  The number of bits includes 128 that are not
    in the encoding (C17). *)
Theorem C53_example : forall nan dbg place S enc, valid S ->
  (forall enc, bytes_at (fst (place enc)) (snd (place enc)) enc
     /\ snd (place enc) + zlen enc + 31 <= zlen (fst (place enc))) ->
  (forall i, 1 <= i <= 256 -> sparse_chunks i [S] <> []) -> decode_fits S (zlen S) -> encoding dbg S enc ->
  returns 0 nan (statistics_lines (counters (8 * zlen enc + 128) [S])) (say_example_cpp nan dbg place S).
Proof. exact c53_example. Qed.
Print Assumptions C53_example.

(** ... and for any input: what main returns, and the message. *)
Theorem C53_example_any : forall nan dbg place input,
  match example_cpp dbg place input, say_example_cpp nan dbg place input with
  | Ok true, Ok (code, t) => code = 0
  | Ok false, Ok (code, t) =>
      code = 1 /\ exists before x y l, t = (before ++ l)%list /\ x <> y /\ In y input
        /\ (0 <= x -> 0 <= y -> page nan [[W "got "; N x; W " but expected "; N y]] l)
  | Throw, Throw | Abort, Abort | UB, UB | Fuel, Fuel => True
  | _, _ => False
  end.
Proof. exact c53_example_any. Qed.
Print Assumptions C53_example_any.

(** example.cpp with [ladder] (C35), and with the encoding of another sequence in place of its own *)
Example C53_example_example : forall nan,
  (valid ladder /\ (forall i, 1 <= i <= 256 -> sparse_chunks i [ladder] <> []) /\ decode_fits ladder (zlen ladder)
   /\ exists enc, encoding true ladder enc)
  /\ let place := fun enc : list Z => (enc ++ repeat 0 (Z.to_nat 31), 0) in
     (forall enc, bytes_at (fst (place enc)) (snd (place enc)) enc
        /\ snd (place enc) + zlen enc + 31 <= zlen (fst (place enc)))
  /\ exists t, say_example_cpp nan true (fun _ => (snd (builder_build true [] (zrange 7 31)) ++ repeat 0 (Z.to_nat 31), 0))
                ladder = Ok (1, t ++ word
"got 7 but expected 65536
").
Proof. exact c53_example_occurs. Qed.
