(** C47: the text on standard input; C48: command lines.  Programs are followed from the characters of
    their input to their results.  [place] says where the file of a given name is mapped in memory;
    with [iso] the conversion of a number that is not an int is undefined, as in the C standard,
    without it the low 32 bits are stored, as in glibc. *)
From Coq Require Import String Sorted.
From Verif Require Import Base Hw Spec Format Shown Counts Room Holds Told Drawn Typed M_Util M_Build M_Seq M_Many M_Index
  M_Print M_Calls M_Tests M_Drivers M_Tools M_Text P_Ex P_Tests4 P_Tests5 P_Text P_Text2 P_Text3 P_Text4 P_Text5 P_Text6.

(** C47: contains.cpp, intersect.cpp, union.cpp, test_intersect.cpp and test_union.cpp read [num] pairs if
    there are so many, whatever follows them.  Otherwise they read all pairs and ignore a single
    last number; if something else than a number follows, an uninitialised query is used. *)
Theorem C47_pairs : forall (A : Type) iso (run : list Z -> list (Z * Z) -> res A) f w more num t g qs rest,
  count_word w num -> 0 <= num < 2 ^ 60 -> typed t (in_a_row qs ++ rest) ->
  let main := pairs_main iso run (f :: w :: more) (t ++ g) in
  let answer := let! r := run f (map low2 qs) in Ok (Some r) in
  (zlen qs = num -> num < 2 ^ 32 -> Forall (storable_int iso) (in_a_row qs) -> no_digit g -> main = answer)
  /\ (zlen qs < num \/ 2 ^ 32 <= num -> zlen rest <= 1 -> Forall (storable_int iso) (in_a_row qs ++ rest) ->
        (g = [] -> main = answer) /\ (garbage g -> main = UB)).
Proof. exact @c47_pairs. Qed.
Print Assumptions C47_pairs.

(** ... and the behaviour is undefined as soon as a number that is read is no int *)
Theorem C47_pairs_overflow : forall (A : Type) (run : list Z -> list (Z * Z) -> res A) f w more num t g ns n rest,
  count_word w num -> 0 <= num < 2 ^ 60 -> typed t (ns ++ n :: rest) -> no_digit g ->
  Forall (storable_int true) ns -> ~ storable_int true n -> zlen ns < 2 * num ->
  pairs_main true run (f :: w :: more) (t ++ g) = UB.
Proof. exact @c47_pairs_over. Qed.
Print Assumptions C47_pairs_overflow.

(** select.cpp and next_geq.cpp read their number of queries times the number of sequences *)
Theorem C47_words : forall (A : Type) iso (run : s_index -> Z -> list Z -> res A) mem place ix f w more n t g qs rest,
  index_mmap mem (place f) = Ok ix -> count_word w n -> typed t (qs ++ rest) ->
  let total := (ix_size ix * n) mod 2 ^ 64 in
  let main := words_main iso run mem place (f :: w :: more) (t ++ g) in
  let answer := let! r := run ix n (map low qs) in Ok (Some r) in
  total < 2 ^ 61 ->
  (zlen qs = total -> total < 2 ^ 32 -> Forall (storable_int iso) qs -> no_digit g -> main = answer)
  /\ (rest = [] -> zlen qs < total \/ 2 ^ 32 <= total -> Forall (storable_int iso) qs ->
        (g = [] -> main = answer) /\ (garbage g -> main = UB))
  /\ (iso = true -> zlen qs < total -> Forall (storable_int iso) qs -> no_digit g ->
        (exists b rest', rest = b :: rest' /\ ~ storable_int iso b) -> main = UB).
Proof. exact @c47_words. Qed.
Print Assumptions C47_words.

(** C35 from the text on: contains.cpp *)
Theorem C47_contains : forall iso dbg dbg' params u Ls mem place f w more num t ns qs,
  is_u32 u -> Forall valid (kept_lists params Ls) -> holds_index dbg params u Ls 0 mem (place f) ->
  let Ks := kept_lists params Ls in
  count_word w num -> num < 2 ^ 60 -> typed t ns -> Forall (storable_int iso) ns ->
  pairs_read num ns qs -> positions Ks qs ->
  pairs_main iso (fun name => perf_contains dbg' mem (place name)) (f :: w :: more) t
  = Ok (Some (zlen qs, 4 * zlen (filter (fun q => existsb (Z.eqb (snd q)) (list_of Ks (fst q))) qs) mod 2 ^ 64)).
Proof. exact c47_contains. Qed.
Print Assumptions C47_contains.

Theorem C47_intersect : forall iso dbg dbg' tbl params u Ls mem place f w more num t ns qs,
  is_u32 u -> Forall valid (kept_lists params Ls) -> holds_index dbg params u Ls 31 mem (place f) ->
  let Ks := kept_lists params Ls in
  shuffle_table_ok tbl ->
  count_word w num -> num < 2 ^ 60 -> typed t ns -> Forall (storable_int iso) ns ->
  pairs_read num ns qs -> pairs_of Ks qs ->
  let size q := common (list_of Ks (fst q)) (list_of Ks (snd q)) in
  Forall (fun q => size q + 23 <= u) qs ->
  pairs_main iso (fun name => perf_intersection tbl dbg' mem (place name)) (f :: w :: more) t
  = Ok (Some (zlen qs, 11 * total size qs mod 2 ^ 64)).
Proof. exact c47_intersect. Qed.
Print Assumptions C47_intersect.

Theorem C47_union : forall iso dbg dbg' tbl params u Ls mem place f w more num t ns qs,
  is_u32 u -> Forall valid (kept_lists params Ls) -> holds_index dbg params u Ls 31 mem (place f) ->
  let Ks := kept_lists params Ls in
  count_word w num -> num < 2 ^ 60 -> typed t ns -> Forall (storable_int iso) ns ->
  pairs_read num ns qs -> pairs_of Ks qs ->
  let size q := zlen (list_of Ks (fst q)) + zlen (list_of Ks (snd q)) - common (list_of Ks (fst q)) (list_of Ks (snd q)) in
  Forall (fun q => size q + 23 <= u) qs ->
  pairs_main iso (fun name => perf_union tbl dbg' mem (place name)) (f :: w :: more) t
  = Ok (Some (zlen qs, 11 * total size qs mod 2 ^ 64)).
Proof. exact c47_union. Qed.
Print Assumptions C47_union.

Theorem C47_select : forall iso dbg dbg' params u Ls mem place f w more n t ns,
  is_u32 u -> Forall valid (kept_lists params Ls) -> holds_index dbg params u Ls 0 mem (place f) ->
  let Ks := kept_lists params Ls in
  count_word w n -> 0 <= n < 2 ^ 64 -> zlen Ks < 2 ^ 32 -> zlen Ks * n < 2 ^ 61 ->
  typed t ns -> Forall (storable_int iso) ns -> Forall is_u32 ns ->
  let run := words_main iso (perf_select dbg' mem) mem place (f :: w :: more) t in
  (Ks = [] \/ n < 2 ^ 32 -> zlen Ks * n <= zlen ns ->
     run = Ok (Some (if zlen Ks * n <? 2 ^ 32 then zlen Ks * n else zlen ns,
                     4 * total (fun v => v) (selected 0 (asked Ks n ns)) mod 2 ^ 64)))
  /\ (zlen ns < zlen Ks * n \/ Ks <> [] /\ 2 ^ 32 <= n -> run = UB).
Proof. exact c47_select. Qed.
Print Assumptions C47_select.

Theorem C47_next_geq : forall iso dbg dbg' params u Ls mem place f w more n t ns,
  is_u32 u -> Forall valid (kept_lists params Ls) -> holds_index dbg params u Ls 0 mem (place f) ->
  let Ks := kept_lists params Ls in
  count_word w n -> 0 <= n < 2 ^ 64 -> zlen Ks < 2 ^ 32 -> zlen Ks * n < 2 ^ 61 ->
  typed t ns -> Forall (storable_int iso) ns -> Forall is_u32 ns ->
  let run := words_main iso (perf_next_geq dbg' mem) mem place (f :: w :: more) t in
  (Ks = [] \/ n < 2 ^ 32 -> zlen Ks * n <= zlen ns ->
     run = Ok (Some (if zlen Ks * n <? 2 ^ 32 then zlen Ks * n else zlen ns,
                     4 * total (fun q => spec_next_geq (fst q) (snd q)) (asked Ks n ns) mod 2 ^ 64)))
  /\ (zlen ns < zlen Ks * n \/ Ks <> [] /\ 2 ^ 32 <= n -> run = UB).
Proof. exact c47_next_geq. Qed.
Print Assumptions C47_next_geq.

(** C47: what the generators of queries print is what the programs read.  Ranks: *)
Theorem C47_pipe_select : forall iso dbg dbg' params u Ls mem place f w more more' n tape,
  is_u32 u -> Forall valid (kept_lists params Ls) -> holds_index dbg params u Ls 0 mem (place f) ->
  let Ks := kept_lists params Ls in
  begins w n -> storable_int iso n -> is_u32 n -> zlen Ks < 2 ^ 32 -> zlen Ks * n < 2 ^ 32 ->
  Forall (fun S => storable_int iso (zlen S - 1)) Ks ->
  exists qs text,
    zlen qs = zlen Ks * n /\ Forall (fun q => 0 <= snd q < zlen (fst q)) (asked Ks n qs)
    /\ generate_main iso (fun name n => gen_select_queries dbg' mem (place name) n tape) (f :: w :: more) = Ok (Some text)
    /\ words_main iso (perf_select dbg' mem) mem place (f :: w :: more') text
       = Ok (Some (zlen qs, 4 * total (fun q => nth (Z.to_nat (snd q)) (fst q) 0) (asked Ks n qs) mod 2 ^ 64)).
Proof. exact c47_pipe_select. Qed.
Print Assumptions C47_pipe_select.

(** values, ... *)
Theorem C47_pipe_next_geq : forall iso dbg dbg' params u Ls mem place f w more more' n tape,
  is_u32 u -> Forall valid (kept_lists params Ls) -> holds_index dbg params u Ls 31 mem (place f) ->
  let Ks := kept_lists params Ls in
  begins w n -> storable_int iso n -> is_u32 n -> zlen Ks < 2 ^ 32 -> zlen Ks * n < 2 ^ 32 ->
  Forall (fun S => decode_fits S u) Ks -> Forall (Forall (storable_int iso)) Ks ->
  exists qs text,
    zlen qs = zlen Ks * n /\ Forall (fun q => In (snd q) (fst q)) (asked Ks n qs)
    /\ generate_main iso (fun name n => gen_next_geq_queries dbg' mem (place name) n tape) (f :: w :: more) = Ok (Some text)
    /\ words_main iso (perf_next_geq dbg' mem) mem place (f :: w :: more') text
       = Ok (Some (zlen qs, 4 * total (fun q => q) qs mod 2 ^ 64)).
Proof. exact c47_pipe_next_geq. Qed.
Print Assumptions C47_pipe_next_geq.

(** ... but if a list has a value from 2^31 on, the queries may be such that reading them is undefined *)
Theorem C47_pipe_next_geq_undefined : forall dbg dbg' params u Ls mem place f w more more' n,
  is_u32 u -> Forall valid (kept_lists params Ls) -> holds_index dbg params u Ls 31 mem (place f) ->
  let Ks := kept_lists params Ls in
  begins w n -> 1 <= n < 2 ^ 31 -> zlen Ks * n < 2 ^ 61 ->
  Forall (fun S => decode_fits S u) Ks -> Exists (Exists (fun v => 2 ^ 31 <= v)) Ks ->
  exists tape text,
    generate_main true (fun name n => gen_next_geq_queries dbg' mem (place name) n tape) (f :: w :: more) = Ok (Some text)
    /\ words_main true (perf_next_geq dbg' mem) mem place (f :: w :: more') text = UB.
Proof. exact c47_pipe_next_geq_undefined. Qed.
Print Assumptions C47_pipe_next_geq_undefined.

(** pairs of positions: every program that reads pairs gets the ones printed *)
Theorem C47_pipe_pairs : forall (A : Type) iso (run : list Z -> list (Z * Z) -> res A) f v w more more' num m tape,
  begins v num -> storable_int iso num -> 0 <= num < 2 ^ 32 ->
  begins w m -> storable_int iso m -> 1 <= m < 2 ^ 32 ->
  exists qs text,
    zlen qs = num /\ Forall (fun q => 0 <= fst q < m /\ 0 <= snd q < m) qs
    /\ pairwise_main iso (v :: w :: more) tape = Ok (Some text)
    /\ pairs_main iso run (f :: v :: more') text = let! r := run f qs in Ok (Some r).
Proof. exact @c47_pipe_pairs. Qed.
Print Assumptions C47_pipe_pairs.

(** the text file of gen_clustered_data: example.cpp reads exactly the first list, although other numbers
    follow it *)
Theorem C47_pipe_example : forall iso fuel dbg dbg' junk a b more num u tape,
  begins a num -> storable_int iso num -> 1 <= num < 2 ^ 32 ->
  begins b u -> storable_int iso u -> 0 <= u <= 4294901760 -> u <= 65536 * Z.of_nat fuel ->
  (forall k, is_u32 (junk k)) ->
  ~ In (word "--binary") more ->
  forall name, exists L text,
    clustered_list u L
    /\ clustered_main iso fuel dbg junk (a :: b :: name :: more) tape = Ok (Some (inr text))
    /\ forall place, example_main dbg' place [] text = example_cpp dbg' (place None) L.
Proof. exact c47_pipe_example. Qed.
Print Assumptions C47_pipe_example.

(** C47: test_intersect_many.cpp and test_union_many.cpp read a query per line: the numbers up to the
    first thing that is no number, in increasing order and without repetitions *)
Theorem C47_lines : forall (A : Type) (run : list Z -> list (list Z) -> res A) f w more num,
  count_word w num -> 24 * num < 2 ^ 63 ->
  forall dbg ls e nss ens, Forall2 line_of ls nss -> Forall (Forall fits_word) nss -> last_line e ens ->
  let read := firstn (Z.to_nat num) (nss ++ ens) in
  (dbg = true -> Forall (fun ns => ns <> []) read) ->
  exists queries, Forall2 (fun q ns => enumerates (fun v => In v (map low ns)) q) queries read
    /\ lines_main dbg run (f :: w :: more) (lines ls ++ e) = let! r := run f queries in Ok (Some r).
Proof. exact @lines_ok. Qed.
Print Assumptions C47_lines.

(** with assertions, a line without a number aborts them *)
Theorem C47_lines_empty : forall (A : Type) (run : list Z -> list (list Z) -> res A) f w more num,
  count_word w num -> 24 * num < 2 ^ 63 ->
  forall ls l l' nss post, Forall2 line_of ls nss -> Forall (Forall fits_word) nss ->
  line_of l [] -> l' = l ++ 10 :: post \/ l' = l /\ l <> [] -> zlen ls < num ->
  lines_main true run (f :: w :: more) (lines ls ++ l') = Abort.
Proof. exact @lines_abort. Qed.
Print Assumptions C47_lines_empty.

(** whatever the text, no query has a repetition *)
Theorem C47_lines_any : forall (A : Type) dbg (run : list Z -> list (list Z) -> res A) argv stdin r,
  lines_main dbg run argv stdin = Ok (Some r) ->
  exists name queries, Forall (StronglySorted Z.lt) queries /\ run name queries = Ok r.
Proof. exact @c47_lines_any. Qed.
Print Assumptions C47_lines_any.

(** C31 from the text on *)
Theorem C47_many : forall dbg dbg' params u Ls mem place tbl sort f w more num ls e nss ens,
  is_u32 u -> Forall valid (kept_lists params Ls) -> holds_index dbg params u Ls 31 mem (place f) ->
  sorts_by_cardinality mem sort ->
  let Ks := kept_lists params Ls in
  Forall (Forall (fun v => v < u)) Ks ->
  count_word w num -> 24 * num < 2 ^ 63 ->
  Forall2 line_of ls nss -> Forall (Forall fits_word) nss -> last_line e ens ->
  let read := firstn (Z.to_nat num) (nss ++ ens) in
  (dbg' = true -> Forall (fun ns => ns <> []) read) ->
  Forall (Forall (fun n => 0 <= n < zlen Ks)) read -> zlen Ks <= 2 ^ 32 ->
  exists queries, Forall2 (fun q ns => enumerates (fun v => In v ns) q) queries read
    /\ lines_main dbg' (fun name => test_intersect_many tbl sort dbg' mem (place name)) (f :: w :: more) (lines ls ++ e)
       = Ok (Some (zlen (filter (fun q => 2 <=? zlen q) queries), true))
    /\ lines_main dbg' (fun name => test_union_many tbl dbg' mem (place name)) (f :: w :: more) (lines ls ++ e)
       = Ok (Some (zlen (filter (fun q => 2 <=? zlen q) queries), true)).
Proof. exact c47_many. Qed.
Print Assumptions C47_many.

(** C47: example.cpp reads a number and that many values.  If there are too few values, it repeats the last
    one, and the builder throws; without any value, the values are uninitialised, and
    they are so too if the number is too large.  After something that is no number, all values are 0. *)
Theorem C47_example_cpp : forall dbg place t,
  (forall g S more, typed t (zlen S :: S ++ more) -> no_digit g -> Forall is_u32 S -> zlen S < 2 ^ 32 ->
     example_main dbg place [] (t ++ g) = example_cpp dbg (place None) S)
  /\ (forall n xs, typed t (n :: xs) -> zlen xs < n < 2 ^ 32 ->
        (valid xs -> example_main dbg place [] t = Throw)
        /\ (xs = [] -> example_main dbg place [] t = UB)
        /\ (forall g, garbage g -> Forall is_u32 xs ->
              example_main dbg place [] (t ++ g)
              = example_cpp dbg (place None) (xs ++ repeat 0 (Z.to_nat (n - zlen xs)))))
  /\ (typed t [] -> example_main dbg place [] t = UB)
  /\ (forall g n ns, typed t (n :: ns) -> no_digit g -> 2 ^ 32 <= n -> example_main dbg place [] (t ++ g) = UB)
  /\ (forall g, typed t [] -> garbage g -> example_main dbg place [] (t ++ g) = UB).
Proof. exact c47_example_cpp. Qed.
Print Assumptions C47_example_cpp.

(** the running example: three lists [1;2;3], [2;3;5;70;71] and [0;3;600] *)
Example C47_example :
  let place (name : list Z) := 1 in
  holds_index true t_params 1000 t_lists 31 t_mem 1 /\ Forall valid t_kept
  /\ typed (word " 0 3 1 -4 +2 600 7") (in_a_row [(0, 3); (1, -4); (2, 600)] ++ [7])
  /\ garbage (word "x 1") /\ begins (word "9 apples") 9
  /\ pairs_main true (fun name => perf_contains true t_mem (place name)) [word "i"; word "9 apples"] (word "0 3 1 4 2 600 7")
     = Ok (Some (3, 8))
  /\ pairs_main true (fun name => perf_contains true t_mem (place name)) [word "i"; word "1"] (word "0 3 x") = Ok (Some (1, 4))
  /\ pairs_main true (fun name => perf_contains true t_mem (place name)) [word "i"; word "2"] (word "0 3 x") = UB
  /\ pairs_main true (fun name => perf_contains true t_mem (place name)) [word "i"; word "2"] (word "0 2147483648") = UB
  /\ pairs_main false (fun name => perf_contains true t_mem (place name)) [word "i"; word "2"] (word "0 2147483648") = Ok (Some (1, 0))
  /\ words_main true (perf_select true t_mem) t_mem place [word "i"; word "2"] (word "0 9 1 4 9 2")
     = Ok (Some (6, 4 * (1 + 1 + 3 + 71 + 71 + 600)))
  /\ generate_main true (fun name n => gen_select_queries true t_mem (place name) n [2; 4; 4; 5; 600; 1]) [word "i"; word "2"]
     = Ok (Some (flat_map (fun s => word s ++ [10]) ["2"; "1"; "4"; "0"; "0"; "1"]%string))
  /\ (exists text, pairwise_main true [word "2"; word "3"] [5; 1; 0; 7] = Ok (Some text)
       /\ text = word "2" ++ [9] ++ word "1" ++ [10] ++ word "0" ++ [9] ++ word "1" ++ [10]
       /\ pairs_main true (fun name => perf_intersection ex_tbl true t_mem (place name)) [word "i"; word "2"] text
          = Ok (Some (2, 11 * (1 + 2))))
  /\ lines_main true (fun name => test_union_many ex_tbl true t_mem (place name)) [word "i"; word "5"]
       (lines [word "2 0 2"; word "1 1 x"] ++ word "0 1 2") = Ok (Some (2, true))
  /\ lines_main true (fun name => test_union_many ex_tbl true t_mem (place name)) [word "i"; word "5"]
       (lines [word "2 0 2"; word ""]) = Abort
  /\ read_input (word "3 10 20 30 40") = Ok [10; 20; 30]
  /\ read_input (word "4 10 20") = Ok [10; 20; 20; 20]
  /\ read_input (word "4 10 x 20") = Ok [10; 0; 0; 0]
  /\ (forall dbg place, example_main dbg place [] (word "3 10 20") = Throw).
Proof. exact c47_ex. Qed.

(** C48: build takes the last value given for each option, and ignores other words.  An option without
    a value is undefined behaviour, as is a size that is no int. *)
Theorem C48_build : forall stod iso dbg file name args,
  let double v d := stod v = Ok d in
  Forall (proper iso double) args ->
  exists d s o,
    settled (says_density double) args (p_density default_params) d
    /\ settled (says_size iso) args (p_size default_params) s
    /\ settled says_out args None o
    /\ build_main stod iso dbg file (name :: flat_map spelled args)
       = (let! (shown, bytes) := build_cpp dbg (mkParams d s) (file name) in
          Ok (Some (shown, match o with Some out => Some (out, bytes) | None => None end)))
    /\ (forall w, wants_value w -> build_main stod iso dbg file (name :: flat_map spelled args ++ [w]) = UB)
    /\ (forall v more, stod v = Throw ->
          build_main stod iso dbg file (name :: flat_map spelled args ++ word "--density" :: v :: more) = Throw)
    /\ (forall v n more, iso = true -> begins v n -> ~ storable_int iso n ->
          build_main stod iso dbg file (name :: flat_map spelled args ++ word "--size" :: v :: more) = UB).
Proof. exact c48_build. Qed.
Print Assumptions C48_build.

(** the same for the tests of single sequences, which have no option "--out" *)
Theorem C48_test : forall (A : Type) stod iso (test : list Z -> list Z -> parameters -> res A) index coll args,
  let double v d := stod v = Ok d in
  Forall (proper_test iso double) args ->
  exists d s,
    settled (says_density double) args (p_density default_params) d
    /\ settled (says_size iso) args (p_size default_params) s
    /\ test_main stod iso test (index :: coll :: flat_map spelled args)
       = (let! r := test index coll (mkParams d s) in Ok (Some r))
    /\ (forall w, w = word "--density" \/ w = word "--size" ->
          test_main stod iso test (index :: coll :: flat_map spelled args ++ [w]) = UB).
Proof. exact @c48_test. Qed.
Print Assumptions C48_test.

(** example: the last file name counts; any other word makes it fail, "-o" without a name is undefined *)
Theorem C48_example_cpp : forall dbg place names stdin,
  let argv := flat_map (fun v => [word "-o"; v]) names in
  let o := match names with [] => None | _ => Some (last names []) end in
  example_main dbg place argv stdin = (let! input := read_input stdin in example_cpp dbg (place o) input)
  /\ example_main dbg place (argv ++ [word "-o"]) stdin = UB
  /\ (forall w more, w <> word "-o" -> example_main dbg place (argv ++ w :: more) stdin = Ok false).
Proof. exact c48_example. Qed.
Print Assumptions C48_example_cpp.

(** the number of queries: an exception if it is no number or has more than 64 bits, or if that many queries
    are more than a vector can hold, as for "-1" *)
Theorem C48_count : forall (A : Type) iso dbg (run : list Z -> list (Z * Z) -> res A) (run' : list Z -> list (list Z) -> res A)
    (run'' : s_index -> Z -> list Z -> res A) mem place f w more stdin,
  (bad_count w ->
     pairs_main iso run (f :: w :: more) stdin = Throw
     /\ lines_main dbg run' (f :: w :: more) stdin = Throw
     /\ words_main iso run'' mem place (f :: w :: more) stdin = Throw)
  /\ (forall n, count_word w n ->
        (2 ^ 63 <= 8 * n -> pairs_main iso run (f :: w :: more) stdin = Throw)
        /\ (2 ^ 63 <= 24 * n -> lines_main dbg run' (f :: w :: more) stdin = Throw)
        /\ (forall ix, index_mmap mem (place f) = Ok ix -> 2 ^ 63 <= 4 * ((ix_size ix * n) mod 2 ^ 64) ->
              words_main iso run'' mem place (f :: w :: more) stdin = Throw)).
Proof. exact @c48_count. Qed.
Print Assumptions C48_count.

(** with too few words all programs but example only print how they are used *)
Theorem C48_usage : forall (A : Type) stod iso dbg file (test : list Z -> list Z -> parameters -> res A)
    (run : list Z -> list (Z * Z) -> res A) (run' : list Z -> list (list Z) -> res A)
    (run'' : s_index -> Z -> list Z -> res A) generate mem place argv stdin fuel junk tape,
  (argv = [] -> build_main stod iso dbg file argv = Ok None)
  /\ (zlen argv < 2 ->
        test_main stod iso test argv = Ok None /\ pairs_main iso run argv stdin = Ok None
        /\ lines_main dbg run' argv stdin = Ok None /\ words_main iso run'' mem place argv stdin = Ok None
        /\ generate_main iso generate argv = Ok None /\ pairwise_main iso argv tape = Ok None)
  /\ (zlen argv < 3 -> clustered_main iso fuel dbg junk argv tape = Ok None)
  /\ (zlen argv < 5 -> uniform_main iso argv tape = Ok None).
Proof. exact @c48_usage. Qed.
Print Assumptions C48_usage.

(** the generators take their numbers from std::atoi: a word without a number is 0 *)
Theorem C48_tools : forall iso fuel dbg junk a b c d out more v1 v2 v3 v4 tape,
  int_word iso a v1 -> int_word iso b v2 -> int_word iso c v3 -> int_word iso d v4 ->
  uniform_main iso (a :: b :: c :: d :: out :: more) tape
  = (let! data := gen_uniform v1 v2 v3 v4 tape in Ok (Some data))
  /\ (In (word "--binary") more ->
        clustered_main iso fuel dbg junk (a :: b :: out :: more) tape
        = (let! data := gen_clustered fuel dbg true junk v1 v2 tape in Ok (Some (inl data))))
  /\ (~ In (word "--binary") more ->
        clustered_main iso fuel dbg junk (a :: b :: out :: more) tape
        = (let! ns := gen_clustered fuel dbg false junk v1 v2 tape in Ok (Some (inr (show_lines ns)))))
  /\ (forall tape, pairwise_main iso (a :: b :: more) tape = Ok (Some (show_pairs (gen_pairwise_queries v1 v2 tape)))).
Proof. exact c48_tools. Qed.
Print Assumptions C48_tools.

Example C48_example :
  (forall stod d, stod (word "0.5") = Ok d ->
     let args := [Size (word "2"); Other (word "-v"); Density (word "0.5"); Size (word "3"); Out (word "x"); Out (word "--size")] in
     Forall (proper true (fun v d => stod v = Ok d)) args
     /\ flat_map spelled args
        = map word ["--size"; "2"; "-v"; "--density"; "0.5"; "--size"; "3"; "--out"; "x"; "--out"; "--size"]%string
     /\ settled (says_size true) args 0 3 /\ settled says_out args None (Some (word "--size"))
     /\ build_options stod true (flat_map spelled args) default_params None = Ok (mkParams d 3, Some (word "--size")))
  /\ wants_value (word "--size")
  /\ int_word true (word "-1") 4294967295 /\ int_word true (word "abc") 0
  /\ bad_count (word "x") /\ bad_count (word "18446744073709551616") /\ count_word (word "-1") (2 ^ 64 - 1)
  /\ count_word (word "-18446744073709551615 x") 1
  /\ pairs_main true (fun _ => perf_contains true t_mem 1) [word "i"; word "-1"] [] = Throw.
Proof. exact c48_ex. Qed.
