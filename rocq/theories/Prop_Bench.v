(** C64: the programs that work on an index on the disk, as whole programs: the text they write, how they end, and that
    they change no file; alone, and fed by the generators of queries through a pipe. *)
From Coq Require Import String Sorted Floats.SpecFloat.
From Verif Require Import Base Hw Spec Lib Layout M_Util M_Build M_Seq M_Decode M_Query M_Many
  M_Index M_Print M_Calls M_Tests M_Drivers M_Tools M_Text M_Out M_Say M_Session M_Lax M_Bench
  Holds Format Room Shown Told Drawn Typed Printed Counts Report Session Lax Bench
  P_Ex P_Tests5 P_Say P_SessionEx P_LaxEx P_Bench P_Bench2 P_Bench3 P_BenchEx.
Local Open Scope Z_scope.

(** contains, intersect and union read their queries, then write their lines and return 0.  The total is over four
    runs for contains and eleven for the others, modulo 2^64.  Results and 23 more words must fit into u words (C35). *)
Theorem C64_pairs : forall iso nan time dbg tbl mapped name idx w more num t ns qs d u Ks,
  index_on d mapped idx u Ks ->
  count_word w num -> num < 2 ^ 60 -> typed t ns -> Forall (storable_int iso) ns -> pairs_read num ns qs ->
  let argv := idx :: w :: more in
  let found q := existsb (Z.eqb (snd q)) (list_of Ks (fst q)) in
  let meet q := common (list_of Ks (fst q)) (list_of Ks (snd q)) in
  let join q := zlen (list_of Ks (fst q)) + zlen (list_of Ks (snd q)) - meet q in
  (positions Ks qs ->
     reports nan (perf_lines "contains queries" (zlen qs) (zlen qs) (4 * zlen (filter found qs) mod 2 ^ 64) time) d
       (run_contains iso nan time dbg mapped name argv t d))
  /\ (pairs_of Ks qs -> shuffle_table_ok tbl -> Forall (fun q => meet q + 23 <= u) qs ->
        reports nan (perf_lines "pairwise-intersections" (zlen qs) (zlen qs) (11 * total meet qs mod 2 ^ 64) time) d
          (run_intersect iso nan time tbl dbg mapped name argv t d))
  /\ (pairs_of Ks qs -> Forall (fun q => join q + 23 <= u) qs ->
        reports nan (perf_lines "pairwise-unions" (zlen qs) (zlen qs) (11 * total join qs mod 2 ^ 64) time) d
          (run_union iso nan time tbl dbg mapped name argv t d)).
Proof. exact c64_pairs. Qed.
Print Assumptions C64_pairs.

Example C64_pairs_example : index_on t_disk t_mapped (word "i") 1000 t_kept
  /\ b_intersect true (word "i") (word "0 1 2 1") = (word
"reading queries...
DONE
performing 2 pairwise-intersections...
33
Mean per run: 5 [musec]
Mean per query: 2.5 [musec]
", t_disk, Ok 0)
  /\ fst (fst (run_union true (word "nan") b_time ex_tbl true t_mapped (word "union") [word "i"; word "2"] (word "0 1 2 1") t_disk)) = word
"reading queries...
DONE
performing 2 pairwise-unions...
143
Mean per run: 5 [musec]
Mean per query: 2.5 [musec]
".
Proof. exact c64_ex_pairs. Qed.

(** The same three programs when they fail, whatever is computed for a query: a number of queries that is no number or too large
    ends them before they write anything.  A missing index is noticed only after the queries have been read.  Text that
    is no number, or is a number which does not fit, is undefined behaviour while they are read. *)
Theorem C64_pairs_stop : forall iso nan time what perf mapped name idx w more d,
  let run stdin := run_pairs iso nan time what perf mapped name (idx :: w :: more) stdin d in
  (bad_count w -> forall stdin, run stdin = ([], d, Throw))
  /\ forall num, count_word w num ->
     (2 ^ 63 <= 8 * num -> forall stdin, run stdin = ([], d, Throw))
     /\ (num < 2 ^ 60 ->
         (forall t ns, no_file d idx -> typed t ns -> Forall (storable_int iso) ns -> stops read_lines Throw d (run t))
         /\ (forall t g qs rest, typed t (in_a_row qs ++ rest) -> zlen qs < num \/ 2 ^ 32 <= num -> zlen rest <= 1 ->
               Forall (storable_int iso) (in_a_row qs ++ rest) -> garbage g -> stops reading_line UB d (run (t ++ g)))
         /\ (forall t g ns n rest, iso = true -> typed t (ns ++ n :: rest) -> no_digit g -> zlen ns < 2 * num ->
               Forall (storable_int iso) ns -> ~ storable_int iso n -> stops reading_line UB d (run (t ++ g)))).
Proof. exact c64_pairs_stop. Qed.
Print Assumptions C64_pairs_stop.

Example C64_pairs_stop_example : b_intersect true (word "x") (word "0 1 2 1") = (word
"reading queries...
DONE
", t_disk, Throw)
  /\ b_intersect true (word "i") (word "0 1 2 a") = (word
"reading queries...
", t_disk, UB)
  /\ b_intersect true (word "i") (word "0 1 2147483648 1") = (word
"reading queries...
", t_disk, UB)
  /\ run_contains true (word "nan") b_time true t_mapped (word "contains") [word "i"; word "x"] (word "0 1") t_disk = ([], t_disk, Throw).
Proof. exact c64_ex_pairs_stop. Qed.

(** With assertions, the first query that names a list the index does not have ends the program after the line "performing". *)
Theorem C64_pairs_abort : forall iso nan time tbl mapped name idx w more num t ns good q rest d u Ks,
  index_on d mapped idx u Ks ->
  let qs := good ++ q :: rest in
  count_word w num -> num < 2 ^ 60 -> typed t ns -> Forall (storable_int iso) ns -> pairs_read num ns qs ->
  Forall (fun q => is_u32 (fst q) /\ is_u32 (snd q)) qs ->
  let argv := idx :: w :: more in
  let meet q := common (list_of Ks (fst q)) (list_of Ks (snd q)) in
  let join q := zlen (list_of Ks (fst q)) + zlen (list_of Ks (snd q)) - meet q in
  (positions Ks good -> zlen Ks <= fst q ->
     stops (started_lines "contains queries" (zlen qs)) Abort d (run_contains iso nan time true mapped name argv t d))
  /\ (pairs_of Ks good -> zlen Ks <= fst q \/ zlen Ks <= snd q ->
      (shuffle_table_ok tbl -> Forall (fun q => meet q + 23 <= u) good ->
         stops (started_lines "pairwise-intersections" (zlen qs)) Abort d (run_intersect iso nan time tbl true mapped name argv t d))
      /\ (Forall (fun q => join q + 23 <= u) good ->
            stops (started_lines "pairwise-unions" (zlen qs)) Abort d (run_union iso nan time tbl true mapped name argv t d))).
Proof. exact c64_pairs_abort. Qed.
Print Assumptions C64_pairs_abort.

Example C64_pairs_abort_example : b_intersect true (word "i") (word "0 1 7 0") = (word
"reading queries...
DONE
performing 2 pairwise-intersections...
", t_disk, Abort)
  /\ positions t_kept [(0, 1)] /\ pairs_of t_kept [(0, 1)] /\ zlen t_kept <= 7 /\ pairs_read 2 [0; 1; 7; 0] [(0, 1); (7, 0)].
Proof. exact c64_ex_pairs_abort. Qed.

(** select and next_geq: as many queries for each list as the word says.  They report the number of queries read, which
    from 2^32 on is not the number asked.  With too few queries they read behind them, after the line "performing". *)
Theorem C64_words : forall iso nan time dbg mapped name idx w more n t ns d u Ks,
  index_on d mapped idx u Ks ->
  count_word w n -> zlen Ks < 2 ^ 32 -> zlen Ks * n < 2 ^ 61 ->
  typed t ns -> Forall (storable_int iso) ns -> Forall is_u32 ns ->
  let argv := idx :: w :: more in
  let select := run_select iso nan time dbg mapped name argv t d in
  let next_geq := run_next_geq iso nan time dbg mapped name argv t d in
  let read := if zlen Ks * n <? 2 ^ 32 then zlen Ks * n else zlen ns in
  (Ks = [] \/ n < 2 ^ 32 -> zlen Ks * n <= zlen ns ->
     reports nan (perf_lines "select queries" read (zlen Ks * n)
                    (4 * total (fun v => v) (selected 0 (asked Ks n ns)) mod 2 ^ 64) time) d select
     /\ reports nan (perf_lines "next_geq queries" read (zlen Ks * n)
                       (4 * total (fun q => spec_next_geq (fst q) (snd q)) (asked Ks n ns) mod 2 ^ 64) time) d next_geq)
  /\ (zlen ns < zlen Ks * n ->
        stops (started_lines "select queries" (zlen ns)) UB d select
        /\ stops (started_lines "next_geq queries" (zlen ns)) UB d next_geq).
Proof. exact c64_words. Qed.
Print Assumptions C64_words.

Example C64_words_example : b_select (word "1") (word "2 4 9") = (word
"reading queries...
DONE
performing 3 select queries...
580
Mean per run: 5 [musec]
Mean per query: 1.66667 [musec]
", t_disk, Ok 0)
  /\ selected 0 (asked t_kept 1 [2; 4; 9]) = [3; 71; 71] /\ 4 * (3 + 71 + 71) = 580
  /\ b_select (word "1") (word "2 4") = (word
"reading queries...
DONE
performing 2 select queries...
", t_disk, UB)
  /\ fst (fst (run_next_geq true (word "nan") b_time true t_mapped (word "next_geq") [word "i"; word "1"] (word "2 4 9") t_disk)) = word
"reading queries...
DONE
performing 3 next_geq queries...
2428
Mean per run: 5 [musec]
Mean per query: 1.66667 [musec]
"
  /\ 4 * (2 + 5 + 600) = 2428.
Proof. exact c64_ex_words. Qed.

(** select and next_geq, whatever is computed: they open the index before they read queries, so nothing is written if it is
    missing; the number of queries is taken modulo 2^64. *)
Theorem C64_words_stop : forall iso nan time what perf mapped name idx w more d,
  let run stdin := run_words iso nan time what perf mapped name (idx :: w :: more) stdin d in
  (bad_count w -> forall stdin, run stdin = ([], d, Throw))
  /\ forall n, count_word w n ->
     (no_file d idx -> forall stdin, run stdin = ([], d, Throw))
     /\ forall u Ks, index_on d mapped idx u Ks ->
        let asked := (zlen Ks * n) mod 2 ^ 64 in
        (2 ^ 63 <= 4 * asked -> forall stdin, run stdin = ([], d, Throw))
        /\ (asked < 2 ^ 61 ->
            (forall t g ns, typed t ns -> zlen ns < asked \/ 2 ^ 32 <= asked -> Forall (storable_int iso) ns -> garbage g ->
               stops reading_line UB d (run (t ++ g)))
            /\ (forall t g ns n rest, iso = true -> typed t (ns ++ n :: rest) -> no_digit g -> zlen ns < asked ->
                  Forall (storable_int iso) ns -> ~ storable_int iso n -> stops reading_line UB d (run (t ++ g)))).
Proof. exact c64_words_stop. Qed.
Print Assumptions C64_words_stop.

Example C64_words_stop_example : b_select (word "9223372036854775807") (word "") = ([], t_disk, Throw)
  /\ b_select (word "1") (word "2 4 x") = (word
"reading queries...
", t_disk, UB)
  /\ (zlen t_kept * 9223372036854775807) mod 2 ^ 64 = 9223372036854775805.
Proof. exact c64_ex_words_stop. Qed.

(** cardinality, decode and uncompress.  uncompress has written the universe when a list does not fit. *)
Theorem C64_index : forall nan time dbg mapped name idx more d,
  let card := run_cardinality nan time dbg mapped name (idx :: more) d in
  let dec := run_decode nan time dbg mapped name (idx :: more) d in
  let unc := run_uncompress nan time dbg mapped name (idx :: more) d in
  (no_file d idx -> card = ([], d, Throw) /\ dec = ([], d, Throw) /\ unc = ([], d, Throw))
  /\ forall u Ks, index_on d mapped idx u Ks ->
     let words := if u <? 4294901760 then 1024 * (u / 65536 + 1) else 0 in
     reports nan [[N (11 * total zlen Ks mod 2 ^ 64 / 11)]; [W "Mean per run: "; R time; W " [musec]"];
                  [W "Mean per query: "; R (SFmul 53 1024 (over time (zlen Ks)) (dbl 1000)); W " [ns]"]] d card
     /\ (Forall (fun S => decode_fits S u) Ks -> reports nan (speed_lines (zlen Ks) (total zlen Ks mod 2 ^ 64) time) d dec)
     /\ (Exists (fun S => ~ decode_fits S u) Ks -> dec = ([], d, UB))
     /\ (Forall (fun S => uncompress_fits S words) Ks ->
           reports nan ([W "universe size: "; N u] :: speed_lines (zlen Ks) (total zlen Ks mod 2 ^ 64) time) d unc)
     /\ (Exists (fun S => ~ uncompress_fits S words) Ks -> stops [[W "universe size: "; N u]] UB d unc).
Proof. exact c64_index. Qed.
Print Assumptions C64_index.

Example C64_index_example : run_cardinality (word "nan") b_time true t_mapped (word "cardinality") [word "i"] t_disk = (word
"11
Mean per run: 5 [musec]
Mean per query: 1666.67 [ns]
", t_disk, Ok 0)
  /\ fst (fst (run_uncompress (word "nan") b_time true t_mapped (word "uncompress") [word "i"] t_disk)) = word
"universe size: 1000
decoded 3 sequences
decoded 11 integers
Elapsed time: 5e-06 [sec]
Mean per sequence: 1.66667 [musec]
Mean per integer: 454.545 [ns]
".
Proof. exact c64_ex_index. Qed.

(** The generators of queries write one rank or one value of its list for each query, or nothing if they fail. *)
Theorem C64_generators : forall iso dbg mapped name idx w more n tape d,
  int_word iso w n ->
  let ranks := run_queries_of iso (fun mem f n => gen_select_queries dbg mem f n tape) mapped name (idx :: w :: more) d in
  let values := run_queries_of iso (fun mem f n => gen_next_geq_queries dbg mem f n tape) mapped name (idx :: w :: more) d in
  (no_file d idx -> ranks = ([], d, Throw) /\ values = ([], d, Throw))
  /\ forall u Ks, index_on d mapped idx u Ks ->
     (exists qs, zlen qs = zlen Ks * n /\ Forall (fun q => 0 <= snd q < zlen (fst q)) (asked Ks n qs)
        /\ reports [] (map (fun q => [N q]) qs) d ranks)
     /\ (Forall (fun S => decode_fits S u) Ks ->
         exists qs, zlen qs = zlen Ks * n /\ Forall (fun q => In (snd q) (fst q)) (asked Ks n qs)
           /\ reports [] (map (fun q => [N q]) qs) d values)
     /\ (Exists (fun S => ~ decode_fits S u) Ks -> values = ([], d, UB)).
Proof. exact c64_generators. Qed.
Print Assumptions C64_generators.

Example C64_generators_example : b_ranks [5; 1; 8; 4; 2; 0] t_disk = (word
"2
1
3
4
2
0
", t_disk, Ok 0)
  /\ run_queries_of true (fun mem f n => gen_next_geq_queries true mem f n [5; 1; 8]) t_mapped (word "gen") [word "i"; word "1"] t_disk = (word
"3
3
600
", t_disk, Ok 0).
Proof. exact c64_ex_generators. Qed.

(** gen_random_pairwise_queries | contains, intersect or union, with the same number for both and the number of lists *)
Theorem C64_pipe_pairs : forall iso nan time dbg tbl mapped name name' idx v w more more' num tape d u Ks,
  index_on d mapped idx u Ks ->
  begins v num -> storable_int iso num -> 0 <= num < 2 ^ 32 ->
  begins w (zlen Ks) -> storable_int iso (zlen Ks) -> 1 <= zlen Ks < 2 ^ 32 ->
  let found q := existsb (Z.eqb (snd q)) (list_of Ks (fst q)) in
  let meet q := common (list_of Ks (fst q)) (list_of Ks (snd q)) in
  let join q := zlen (list_of Ks (fst q)) + zlen (list_of Ks (snd q)) - meet q in
  let pipe main := piped (run_pairs_of iso name (v :: w :: more) tape) (main name' (idx :: v :: more')) d in
  exists qs, zlen qs = num /\ Forall (fun q => 0 <= fst q < zlen Ks /\ 0 <= snd q < zlen Ks) qs
    /\ reports nan (perf_lines "contains queries" num num (4 * zlen (filter found qs) mod 2 ^ 64) time) d
         (pipe (run_contains iso nan time dbg mapped))
    /\ (shuffle_table_ok tbl -> Forall (fun S => zlen S + 23 <= u) Ks ->
          reports nan (perf_lines "pairwise-intersections" num num (11 * total meet qs mod 2 ^ 64) time) d
            (pipe (run_intersect iso nan time tbl dbg mapped)))
    /\ ((forall S T, In S Ks -> In T Ks -> zlen S + zlen T - common S T + 23 <= u) ->
          reports nan (perf_lines "pairwise-unions" num num (11 * total join qs mod 2 ^ 64) time) d
            (pipe (run_union iso nan time tbl dbg mapped))).
Proof. exact c64_pipe_pairs. Qed.
Print Assumptions C64_pipe_pairs.

Example C64_pipe_pairs_example : piped (run_pairs_of true (word "gen") [word "2"; word "3"] [3; 1; 2; 4]) (run_intersect true (word "nan") b_time ex_tbl true t_mapped (word "intersect") [word "i"; word "2"]) t_disk
  = b_intersect true (word "i") (word "0 1 2 1")
  /\ begins (word "2") 2 /\ begins (word "3") (zlen t_kept) /\ Forall (fun S => zlen S + 23 <= 1000) t_kept
  /\ (forall S T, In S t_kept -> In T t_kept -> zlen S + zlen T - common S T + 23 <= 1000).
Proof. exact c64_ex_pipe_pairs. Qed.

(** gen_random_select_queries | select, and gen_random_next_geq_queries | next_geq: all queries are answered, and the answers
    of next_geq are the queries. *)
Theorem C64_pipe_words : forall iso nan time dbg mapped name name' idx w more more' n tape d u Ks,
  index_on d mapped idx u Ks ->
  begins w n -> storable_int iso n -> is_u32 n -> zlen Ks < 2 ^ 32 -> zlen Ks * n < 2 ^ 32 ->
  let pipe (generate : list Z -> Z -> Z -> list Z -> res (list Z)) main :=
    piped (run_queries_of iso (fun mem f n => generate mem f n tape) mapped name (idx :: w :: more)) (main name' (idx :: w :: more')) d in
  (Forall (fun S => storable_int iso (zlen S - 1)) Ks ->
   exists qs, zlen qs = zlen Ks * n /\ Forall (fun q => 0 <= snd q < zlen (fst q)) (asked Ks n qs)
     /\ reports nan (perf_lines "select queries" (zlen Ks * n) (zlen Ks * n)
                       (4 * total (fun q => nth (Z.to_nat (snd q)) (fst q) 0) (asked Ks n qs) mod 2 ^ 64) time) d
          (pipe (gen_select_queries dbg) (run_select iso nan time dbg mapped)))
  /\ (Forall (fun S => decode_fits S u) Ks -> Forall (Forall (storable_int iso)) Ks ->
   exists qs, zlen qs = zlen Ks * n /\ Forall (fun q => In (snd q) (fst q)) (asked Ks n qs)
     /\ reports nan (perf_lines "next_geq queries" (zlen Ks * n) (zlen Ks * n) (4 * total (fun q => q) qs mod 2 ^ 64) time) d
          (pipe (gen_next_geq_queries dbg) (run_next_geq iso nan time dbg mapped))).
Proof. exact c64_pipe_words. Qed.
Print Assumptions C64_pipe_words.

Example C64_pipe_words_example : piped (b_ranks [5; 1; 8; 4; 2; 0]) (run_select true (word "nan") b_time true t_mapped (word "select") [word "i"; word "2"]) t_disk = (word
"reading queries...
DONE
performing 6 select queries...
2984
Mean per run: 5 [musec]
Mean per query: 0.833333 [musec]
", t_disk, Ok 0)
  /\ 4 * (3 + 2 + 70 + 71 + 600 + 0) = 2984.
Proof. exact c64_ex_pipe_words. Qed.

(** gen_uniform_data, build, cardinality, and a pipe into select, each started on the files the one before left, for any random
    numbers, on machines where a conversion of a double that does not fit yields some number (C63). *)
Theorem C64_session : forall stod iso conv nan time dbg sized mapped names a b c e wd ws wq coll idx num lo hi u density size n tape tape' d,
  (forall x, 0 <= conv x < 2 ^ 64) ->
  int_word iso a num -> int_word iso b lo -> int_word iso c hi -> int_word iso e u ->
  is_u32 num -> is_u32 lo -> is_u32 hi -> 0 <= u < 4294901760 -> lo <= hi ->
  stod wd = Ok density -> int_word iso ws size -> 0 <= size -> coll <> idx ->
  begins wq n -> 0 <= n < 2 ^ 31 -> hi <= 2 ^ 31 ->
  (forall file, zlen file <= 2 ^ 63 -> in_memory file (fst (mapped file)) (snd (mapped file))) ->
  let words := [word "--density"; wd; word "--size"; ws] in
  exists Ls d1,
    let Ks := kept_lists (mkParams density size) Ls in
    run_uniform iso (names 0) [a; b; c; e; coll] tape d = ([], d1, Ok 0)
    /\ zlen Ls = num /\ Forall (uniform_list lo hi u) Ls
    /\ (total zlen Ks < 2 ^ 37 -> zlen (f_index u Ks) <= 2 ^ 63 ->
        exists t d2,
          run_build_lax stod iso conv nan dbg sized (names 1) (coll :: words ++ [word "--out"; idx]) d1 = (t, d2, Ok 0)
          /\ index_on d2 mapped idx u Ks
          /\ reports nan [[N (11 * total zlen Ks mod 2 ^ 64 / 11)]; [W "Mean per run: "; R time; W " [musec]"];
                          [W "Mean per query: "; R (SFmul 53 1024 (over time (zlen Ks)) (dbl 1000)); W " [ns]"]] d2
               (run_cardinality nan time dbg mapped (names 2) [idx] d2)
          /\ (zlen Ks * n < 2 ^ 32 ->
              exists qs, zlen qs = zlen Ks * n /\ Forall (fun q => 0 <= snd q < zlen (fst q)) (asked Ks n qs)
                /\ reports nan (perf_lines "select queries" (zlen Ks * n) (zlen Ks * n)
                     (4 * total (fun q => nth (Z.to_nat (snd q)) (fst q) 0) (asked Ks n qs) mod 2 ^ 64) time) d2
                     (piped (run_queries_of iso (fun mem f n => gen_select_queries dbg mem f n tape') mapped (names 3) [idx; wq])
                        (run_select iso nan time dbg mapped (names 4) [idx; wq]) d2))).
Proof. exact c64_session. Qed.
Print Assumptions C64_session.

Example C64_session_example : let words := [word "--density"; word "0"; word "--size"; word "2"] in
  let d1 : files := [(word "c", words32 (collection 9 [[5]; [2; 7]]))] in
  let d2 : files := (word "i", f_index 9 [[5]; [2; 7]]) :: d1 in
  let built := run_build_lax zero_stod true x86 (word "-nan") true (fun _ => word "") (word "build")
                 (word "c" :: words ++ [word "--out"; word "i"]) d1 in
  (forall b, zlen b <= 2 ^ 63 -> in_memory b (fst (t_mapped b)) (snd (t_mapped b)))
  /\ run_uniform true (word "gen") [word "2"; word "1"; word "3"; word "9"; word "c"] [0; 5; 1; 7; 2] [] = ([], d1, Ok 0)
  /\ snd (fst built) = d2 /\ snd built = Ok 0
  /\ piped (run_queries_of true (fun mem f n => gen_select_queries true mem f n [0; 1]) t_mapped (word "gen") [word "i"; word "1"])
       (run_select true (word "-nan") b_time true t_mapped (word "select") [word "i"; word "1"]) d2
     = (word
"reading queries...
DONE
performing 2 select queries...
48
Mean per run: 5 [musec]
Mean per query: 2.5 [musec]
", d2, Ok 0).
Proof. exact c64_ex_session. Qed.

(** With too few words each program writes its name and the words it wants, and returns 1. *)
Theorem C64_usage : forall iso nan time tbl dbg generate mapped name argv stdin tape d,
  let says (words : string) r := r = (name ++ word words, d, Ok 1) in
  (zlen argv < 2 ->
   Forall (says " index_filename num_queries < queries
"%string) [run_contains iso nan time dbg mapped name argv stdin d; run_intersect iso nan time tbl dbg mapped name argv stdin d;
    run_union iso nan time tbl dbg mapped name argv stdin d]
   /\ Forall (says " index_filename num_queries_per_sequence < queries
"%string) [run_select iso nan time dbg mapped name argv stdin d; run_next_geq iso nan time dbg mapped name argv stdin d]
   /\ says " index_filename num_queries_per_sequence
"%string (run_queries_of iso generate mapped name argv d)
   /\ says " num_queries num_sequences
"%string (run_pairs_of iso name argv tape d))
  /\ (argv = [] ->
      Forall (says " <index_filename>
"%string) [run_cardinality nan time dbg mapped name argv d; run_decode nan time dbg mapped name argv d; run_uncompress nan time dbg mapped name argv d]).
Proof. exact c64_usage. Qed.
Print Assumptions C64_usage.

Example C64_usage_example : run_union true (word "nan") b_time ex_tbl true t_mapped (word "./union") [word "i"] [] t_disk = (word
"./union index_filename num_queries < queries
", t_disk, Ok 1)
  /\ run_decode (word "nan") b_time true t_mapped (word "./decode") [] t_disk = (word
"./decode <index_filename>
", t_disk, Ok 1).
Proof. exact c64_ex_usage. Qed.
