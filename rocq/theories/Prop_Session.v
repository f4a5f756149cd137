(** C62: whole programs, from the words on the command line and the files there are to the text written, the files left and
    the value main returns.  A program is a function from the files to (text, files, outcome); the text counts when
    the outcome is an exception or an abort as well.  [sized] is the text of essentials::print_size. *)
From Coq Require Import String Sorted Floats.SpecFloat.
From Verif Require Import Base Hw Spec Lib Layout M_Util M_Build M_Seq M_Decode M_Query M_Many
  M_Index M_Print M_Drivers M_Tools M_Text M_Out M_Say M_Session Holds Format Room Shown Typed Printed Counts Report Drawn Session
  P_Drivers P_Tests5 P_Session2 P_Session3 P_SessionEx.
Local Open Scope Z_scope.

(** build with any options: if every number of blocks, 1 to 256, occurs among the chunks kept, it prints its lines and
    returns 0, having changed no file but the last one named after "--out", which is now the index (C29).
    Otherwise it has undefined behaviour before it saves anything. *)
Theorem C62_build : forall stod iso nan dbg sized name coll args d u Ls,
  let double v x := stod v = Ok x in
  Forall (proper iso double) args ->
  Forall is_u32 (collection u Ls) -> Forall short Ls -> has_file d coll (words32 (collection u Ls)) ->
  exists density size out,
    settled (says_density double) args (p_density default_params) density
    /\ settled (says_size iso) args (p_size default_params) size
    /\ settled says_out args None out
    /\ let Ks := kept_lists (mkParams density size) Ls in
       let run := run_build stod iso nan dbg sized name (coll :: flat_map spelled args) d in
       Forall valid Ks -> total zlen Ks < 2 ^ 37 ->
       ((forall i, 1 <= i <= 256 -> sparse_chunks i Ks <> []) ->
          exists t, page nan (build_lines u (zlen Ks) (counters (8 * zlen (f_index u Ks)) Ks)) t
            /\ match out with
               | None => run = (t, d, Ok 0)
               | Some o => exists t' d', page nan [[W "saving data structure to disk..."]] t' /\ saved d o (f_index u Ks) d'
                           /\ run = (t ++ sized (f_index u Ks) ++ t', d', Ok 0)
               end)
       /\ ((exists i, 1 <= i <= 256 /\ sparse_chunks i Ks = []) ->
           exists t t', page nan (begun_lines u (zlen Ks)) t /\ run = (t ++ t', d, UB)).
Proof. exact c62_build. Qed.
Print Assumptions C62_build.

Example C62_ladder_example :
  let d := s_files (collection ladder_top [ladder]) in
  has_file d (word "c") (words32 (collection ladder_top [ladder])) /\ Forall is_u32 (collection ladder_top [ladder])
  /\ Forall short [ladder] /\ kept_lists (mkParams (p_density default_params) 0) [ladder] = [ladder]
  /\ Forall valid [ladder] /\ total zlen [ladder] < 2 ^ 37
  /\ (forall i, 1 <= i <= 256 -> sparse_chunks i [ladder] <> [])
  /\ exists tape, gen_uniform 1 1 100000 ladder_top tape = Ok (collection ladder_top [ladder]).
Proof. exact c62_ex_ladder. Qed.

(** what build has written when it fails: nothing if the collection is missing or, with assertions, does not start with 1;
    else the universe and a line for every 1000 lists encoded before a list with a repetition, or before the end of
    the file.  No file is changed: there is no partial index. *)
Theorem C62_interrupted : forall stod iso nan dbg sized name coll args d u Ls,
  let double v x := stod v = Ok x in
  Forall (proper iso double) args ->
  exists density size,
    settled (says_density double) args (p_density default_params) density
    /\ settled (says_size iso) args (p_size default_params) size
    /\ let params := mkParams density size in
       let Ks := kept_lists params Ls in
       let run := run_build stod iso nan dbg sized name (coll :: flat_map spelled args) d in
       let begun t := page nan (begun_lines u (zlen Ks)) t in
       (no_file d coll -> run = ([], d, Throw))
       /\ (Forall valid Ks -> Forall short Ls ->
           (forall L Ls', has_file d coll (words32 (collection u (Ls ++ L :: Ls'))) -> Forall is_u32 (collection u (Ls ++ L :: Ls')) ->
              kept_lists params [L] = [L] ->
              L <> [] -> StronglySorted Z.le L -> ~ NoDup L -> Forall (fun v => v < 4294901760) L ->
              exists t, begun t /\ run = (t, d, Throw))
           /\ (forall n R, has_file d coll (words32 (collection u Ls ++ n :: R)) -> Forall is_u32 (collection u Ls ++ n :: R) ->
                 zlen R < n -> exists t, begun t /\ run = (t, d, UB)))
       /\ (forall w ws, has_file d coll (words32 (w :: ws)) -> Forall is_u32 (w :: ws) -> w <> 1 -> dbg = true ->
             run = ([], d, Abort)).
Proof. exact c62_interrupted. Qed.
Print Assumptions C62_interrupted.

Example C62_build_example :
  (exists t, s_build true [word "c"] (s_files (collection 9 [[1; 2]; [4]])) = (t, s_files (collection 9 [[1; 2]; [4]]), UB))
  /\ s_build true [word "c"; word "--out"; word "i"] (s_files (collection 9 [[1; 2]; [4; 4]; [5]]))
     = (word
"universe size: 9
", s_files (collection 9 [[1; 2]; [4; 4]; [5]]), Throw)
  /\ s_build true [word "c"] (s_files [1; 9; 2; 1; 3; 5; 4])
     = (word
"universe size: 9
", s_files [1; 9; 2; 1; 3; 5; 4], UB)
  /\ s_build true [word "c"] (s_files [2; 9]) = ([], s_files [2; 9], Abort)
  /\ s_build false [word "d"] (s_files [1; 9]) = ([], s_files [1; 9], Throw).
Proof. exact c62_ex_build. Qed.

(** gen_uniform_data writes a collection of lists as in C36, and no text; with min > max it is undefined *)
Theorem C62_uniform : forall iso name a b c e coll more num lo hi u tape d,
  int_word iso a num -> int_word iso b lo -> int_word iso c hi -> int_word iso e u ->
  is_u32 num -> is_u32 lo -> is_u32 hi -> is_u32 u ->
  let run := run_uniform iso name (a :: b :: c :: e :: coll :: more) tape d in
  (lo <= hi -> exists Ls d', zlen Ls = num /\ Forall (uniform_list lo hi u) Ls
     /\ saved d coll (words32 (collection u Ls)) d' /\ run = ([], d', Ok 0))
  /\ (hi < lo -> run = ([], d, UB)).
Proof. exact c62_uniform. Qed.
Print Assumptions C62_uniform.

(** ... and so does gen_clustered_data with "--binary" *)
Theorem C62_clustered : forall iso fuel dbg junk name a b coll more num u tape d,
  int_word iso a num -> int_word iso b u -> is_u32 num -> 0 <= u <= 4294901760 -> u <= 65536 * Z.of_nat fuel ->
  In (word "--binary") more ->
  exists Ls d', zlen Ls = num /\ Forall (clustered_list u) Ls
    /\ saved d coll (words32 (collection u Ls)) d'
    /\ run_clustered iso fuel dbg junk name (a :: b :: coll :: more) tape d = ([], d', Ok 0).
Proof. exact c62_clustered. Qed.
Print Assumptions C62_clustered.

Example C62_tools_example :
  run_uniform true (word "gen") [word "2"; word "1"; word "3"; word "9"; word "c"] [0; 5; 1; 7; 2] []
  = ([], [(word "c", words32 (collection 9 [[5]; [2; 7]]))], Ok 0)
  /\ forall tape, run_uniform true (word "gen") [word "2"; word "1"] tape [] = (word
"gen num_lists min_length max_length universe output_filename
", [], Ok 1).
Proof. exact c62_ex_tools. Qed.

(** the test programs of single sequences, started with the index and the collection and the options build was started with,
    report nothing; if a file is missing they throw *)
Theorem C62_tests : forall stod iso dbg mapped name idx coll args d,
  let double v x := stod v = Ok x in
  Forall (proper_test iso double) args ->
  exists density size,
    settled (says_density double) args (p_density default_params) density
    /\ settled (says_size iso) args (p_size default_params) size
    /\ (forall u Ls mem f,
       let Ks := kept_lists (mkParams density size) Ls in
       Forall is_u32 (collection u Ls) -> Forall short Ls -> Forall valid Ks ->
       has_file d coll (words32 (collection u Ls)) -> has_file d idx (f_index u Ks) ->
       mapped (f_index u Ks) = (mem, f) -> in_memory (f_index u Ks) mem f ->
       all_pass stod iso dbg mapped name (idx :: coll :: flat_map spelled args) d u Ks)
    /\ (forall test, no_file d idx \/ no_file d coll ->
         run_test stod iso test mapped name (idx :: coll :: flat_map spelled args) d = ([], d, Throw)).
Proof. exact c62_tests. Qed.
Print Assumptions C62_tests.

Example C62_tests_example :
  t_file = f_index 1000 t_kept /\ t_mapped t_file = (t_mem, 1)
  /\ run_test no_stod true (say_test_decode true) t_mapped (word "test_decode") [word "i"; word "c"; word "--size"; word "1"] t_disk
     = (word
"universe size: 1000
decoded 3 sequences
everything good
", t_disk, Ok 0)
  /\ run_test no_stod true (say_test_decode true) t_mapped (word "test_decode") [word "i"; word "x"] t_disk = ([], t_disk, Throw).
Proof. exact c62_ex_tests. Qed.

(** A session, for any random numbers: gen_uniform_data, build and the tests, each started on the files the one before left *)
Theorem C62_session : forall stod iso nan dbg dbg' sized mapped names a b c e wd ws coll idx num lo hi u density size tape d,
  int_word iso a num -> int_word iso b lo -> int_word iso c hi -> int_word iso e u ->
  is_u32 num -> is_u32 lo -> is_u32 hi -> 0 <= u < 4294901760 -> lo <= hi ->
  stod wd = Ok density -> int_word iso ws size -> 0 <= size -> coll <> idx ->
  let words := [word "--density"; wd; word "--size"; ws] in
  exists Ls d1,
    let Ks := kept_lists (mkParams density size) Ls in
    run_uniform iso (names 0) [a; b; c; e; coll] tape d = ([], d1, Ok 0)
    /\ zlen Ls = num /\ Forall (uniform_list lo hi u) Ls
    /\ let built := run_build stod iso nan dbg sized (names 1) (coll :: words ++ [word "--out"; idx]) d1 in
       total zlen Ks < 2 ^ 37 ->
       ((exists i, 1 <= i <= 256 /\ sparse_chunks i Ks = []) -> exists t, built = (t, d1, UB))
       /\ ((forall i, 1 <= i <= 256 -> sparse_chunks i Ks <> []) ->
           exists t1 t2 d2,
             page nan (build_lines u (zlen Ks) (counters (8 * zlen (f_index u Ks)) Ks)) t1
             /\ page nan [[W "saving data structure to disk..."]] t2
             /\ built = (t1 ++ sized (f_index u Ks) ++ t2, d2, Ok 0)
             /\ has_file d2 coll (words32 (collection u Ls)) /\ has_file d2 idx (f_index u Ks)
             /\ (forall n, n <> coll -> n <> idx -> forall x, has_file d2 n x <-> has_file d n x)
             /\ forall mem f, mapped (f_index u Ks) = (mem, f) -> in_memory (f_index u Ks) mem f ->
                all_pass stod iso dbg' mapped (names 2) (idx :: coll :: words) d2 u Ks).
Proof. exact c62_session. Qed.
Print Assumptions C62_session.

(** example: with "-o" it saves the sequence (C29) and reads it back, and no other file changes *)
Theorem C62_example : forall nan dbg sized heap mapped name names t g S more d,
  typed t (zlen S :: S ++ more) -> no_digit g -> valid S ->
  (forall b, bytes_at (fst (heap b)) (snd (heap b)) b /\ snd (heap b) + zlen b + 31 <= zlen (fst (heap b))) ->
  (forall b, bytes_at (fst (mapped b)) (snd (mapped b)) b /\ snd (mapped b) + zlen b + 31 <= zlen (fst (mapped b))) ->
  let run := run_example nan dbg sized heap mapped name (flat_map (fun v => [word "-o"; v]) names) (t ++ g) d in
  ((forall i, 1 <= i <= 256 -> sparse_chunks i [S] <> []) -> decode_fits S (zlen S) ->
     exists t, page nan (statistics_lines (counters (8 * zlen (f_sequence S) + 128) [S])) t
       /\ (names = [] -> run = (t, d, Ok 0))
       /\ (names <> [] -> exists d', saved d (last names []) (f_sequence_file S) d'
             /\ run = (t ++ sized (f_sequence_file S), d', Ok 0)))
  /\ ((exists i, 1 <= i <= 256 /\ sparse_chunks i [S] = []) -> exists t, run = (t, d, UB)).
Proof. exact c62_example. Qed.
Print Assumptions C62_example.

(** the other words example understands, and those it does not *)
Theorem C62_example_words : forall nan dbg sized heap mapped name names stdin d,
  let run words := run_example nan dbg sized heap mapped name (flat_map (fun v => [word "-o"; v]) names ++ words) stdin d in
  (forall more, run (word "-h" :: more) = (name ++ word " -o output_filename < input" ++ [10], d, Ok 1))
  /\ (forall w more, w <> word "-o" -> w <> word "-h" ->
        run (w :: more) = (word "unknown option '" ++ w ++ word "'" ++ [10], d, Ok 1))
  /\ run [word "-o"] = ([], d, UB).
Proof. exact c62_example_words. Qed.
Print Assumptions C62_example_words.

Example C62_example_example : forall heap,
  let run argv stdin := run_example (word "nan") true (fun _ => word "") heap t_mapped (word "example") argv stdin [] in
  run [word "-o"; word "s"; word "-h"] [] = (word
"example -o output_filename < input
", [], Ok 1)
  /\ run [word "--out"] [] = (word
"unknown option '--out'
", [], Ok 1)
  /\ run [word "-o"; word "s"] (word "3 7 7 9") = ([], [], Throw)
  /\ exists t, typed t (zlen ladder :: ladder ++ []).
Proof. exact c62_ex_example. Qed.

(** programs started with too few words say how to use them, return 1 and write no file *)
Theorem C62_usage : forall stod iso nan dbg sized name argv tape d fuel junk generate,
  let usage words : list Z := name ++ word words ++ [10] in
  (argv = [] -> run_build stod iso nan dbg sized name argv d
     = (usage " collection_filename [--density d] [--size s] [--out output_filename]"%string, d, Ok 1))
  /\ (zlen argv < 5 -> run_uniform iso name argv tape d
        = (usage " num_lists min_length max_length universe output_filename"%string, d, Ok 1))
  /\ (zlen argv < 3 -> run_clustered iso fuel dbg junk name argv tape d
        = (usage " num_lists universe output_filename --binary"%string, d, Ok 1))
  /\ (zlen argv < 2 ->
        run_pairwise iso name argv tape = Ok (1, usage " num_queries num_sequences"%string)
        /\ run_generate iso generate name argv = Ok (1, usage " index_filename num_queries_per_sequence"%string)).
Proof. exact c62_usage. Qed.
Print Assumptions C62_usage.
