(** C67: generated queries piped into test programs, and a session from random data to a verdict. *)
From Coq Require Import String Sorted.
From Verif Require Import Base Hw Spec Lib Layout M_Util M_Build M_Seq M_Index M_Print M_Drivers M_Tools M_Text M_Out M_Say M_Session M_Lax M_Bench M_Live M_LiveQ
  Holds Told Format Room RoomSets Shown Typed Drawn Printed Report Session Lax P_Ex P_Tests4 P_Tests5 P_Say P_SessionEx P_LaxEx P_LiveQEx P_LivePipe P_LivePipeEx Bench.
Local Open Scope Z_scope.

(** gen_random_pairwise_queries | test_intersect or test_union, with the same number of queries for both.  If the index has as many
    lists as the generator was told, the pipe finds no error exactly when every query fits, and otherwise does something
    undefined after the first line; any queries can be drawn.  If the generator was told of more lists, some random numbers
    make the test programs abort, with assertions. *)
Theorem C67_pairs : forall iso dbg tbl sort mapped name name' idx v w more more' num m d u Ks,
  index_on d mapped idx u Ks -> sorts_by_cardinality (fst (mapped (f_index u Ks))) sort ->
  begins v num -> storable_int iso num -> 0 <= num < 2 ^ 32 ->
  begins w m -> storable_int iso m -> 1 <= m < 2 ^ 32 ->
  let decodes i := decode_fits (list_of Ks i) u in
  let both q := decodes (fst q) /\ decodes (snd q) in
  let joins q := both q /\ (fst q = snd q \/ join_fits (list_of Ks (fst q)) (list_of Ks (snd q)) u) in
  let drawn qs := zlen qs = num /\ Forall (fun q => 0 <= fst q < m /\ 0 <= snd q < m) qs in
  let pipe tape test := piped (run_pairs_of iso name (v :: w :: more) tape) (test name' (idx :: v :: more')) d in
  let both_tests tape (says : (Z * Z -> Prop) -> list Z * files * res Z -> Prop) :=
    says both (pipe tape (run_test_intersect iso tbl sort dbg mapped))
    /\ says joins (pipe tape (run_test_union iso tbl dbg mapped)) in
  let ends qs fits program :=
    (Forall fits qs -> reports [] (reading_line ++ [[W "tested "; N num; W " queries"]; [W "everything good"]]) d program)
    /\ (Exists (fun q => ~ fits q) qs -> stops reading_line UB d program) in
  (m <= zlen Ks ->
     (forall tape, exists qs, drawn qs /\ both_tests tape (ends qs))
     /\ (forall qs, drawn qs -> exists tape, both_tests tape (ends qs)))
  /\ (dbg = true -> zlen Ks < m -> 1 <= num -> exists tape, both_tests tape (fun _ program => stops reading_line Abort d program)).
Proof. exact c67_pairs. Qed.
Print Assumptions C67_pairs.

Example C67_pairs_example :
  index_on x_disk t_mapped (word "i") 1000 t_kept /\ index_on x_disk t_mapped (word "k") 5 x_small
  /\ begins (word "2") 2 /\ begins (word "3") (zlen t_kept) /\ begins (word "8") 8
  /\ run_pairs_of true (word "gen") [word "2"; word "3"] [3; 1; 2; 4] x_disk = (word
"0	1
2	1
", x_disk, Ok 0)
  /\ y_and "3" [3; 1; 2; 4] "i" = (word
"reading queries...
tested 2 queries
everything good
", x_disk, Ok 0)
  /\ y_or "3" [0; 2; 2; 2] "k" = (word
"reading queries...
", x_disk, UB)
  /\ y_and "8" [7; 1; 2; 4] "i" = (word
"reading queries...
", x_disk, Abort).
Proof. exact c67_ex_pairs. Qed.

(** gen_uniform_data, build, then that pipe: with 23 places more than the longest list, or than twice that for unions, the verdict
    is "everything good" for any random numbers. *)
Theorem C67_session : forall stod iso conv nan dbg sized tbl sort mapped names a b c e wd ws wq wk coll idx num lo hi u density size n tape d,
  (forall x, 0 <= conv x < 2 ^ 64) ->
  int_word iso a num -> int_word iso b lo -> int_word iso c hi -> int_word iso e u ->
  is_u32 num -> is_u32 lo -> is_u32 hi -> 0 <= u < 4294901760 -> lo <= hi ->
  stod wd = Ok density -> int_word iso ws size -> 0 <= size -> coll <> idx ->
  begins wq n -> storable_int iso n -> 0 <= n < 2 ^ 32 ->
  (forall file, zlen file <= 2 ^ 63 -> in_memory file (fst (mapped file)) (snd (mapped file))) ->
  let words := [word "--density"; wd; word "--size"; ws] in
  exists Ls d1,
    let Ks := kept_lists (mkParams density size) Ls in
    run_uniform iso (names 0) [a; b; c; e; coll] tape d = ([], d1, Ok 0)
    /\ zlen Ls = num /\ Forall (uniform_list lo hi u) Ls
    /\ (total zlen Ks < 2 ^ 37 -> zlen (f_index u Ks) <= 2 ^ 63 -> 1 <= zlen Ks ->
        sorts_by_cardinality (fst (mapped (f_index u Ks))) sort ->
        begins wk (zlen Ks) -> storable_int iso (zlen Ks) ->
        exists t d2,
          run_build_lax stod iso conv nan dbg sized (names 1) (coll :: words ++ [word "--out"; idx]) d1 = (t, d2, Ok 0)
          /\ let good test := forall tape',
               reports [] (reading_line ++ [[W "tested "; N n; W " queries"]; [W "everything good"]]) d2
                 (piped (run_pairs_of iso (names 2) [wq; wk] tape') (test (names 3) [idx; wq]) d2) in
             (hi + 23 <= u -> good (run_test_intersect iso tbl sort dbg mapped))
             /\ (2 * hi + 23 <= u -> good (run_test_union iso tbl dbg mapped))).
Proof. exact c67_session. Qed.
Print Assumptions C67_session.

Example C67_session_example :
  let words := [word "--density"; word "0"; word "--size"; word "0"] in
  let built := run_build_lax zero_stod true x86 (word "-nan") true (fun _ => word "") (word "build")
                 (word "c" :: words ++ [word "--out"; word "i"]) (tl y_disk) in
  let sort := by_card (fst (t_mapped y_file)) in
  run_uniform true (word "gen") [word "2"; word "1"; word "3"; word "40"; word "c"] [0; 5; 1; 7; 2] [] = ([], tl y_disk, Ok 0)
  /\ snd (fst built) = y_disk /\ snd built = Ok 0
  /\ sorts_by_cardinality (fst (t_mapped (f_index 40 [[5]; [2; 7]]))) sort
  /\ piped (run_pairs_of true (word "gen") [word "1"; word "2"] [0; 1])
       (run_test_union true ex_tbl true t_mapped (word "t") [word "i"; word "1"]) y_disk = (word
"reading queries...
tested 1 queries
everything good
", y_disk, Ok 0).
Proof. exact c67_ex_session. Qed.

(** 23 is the least such number: with a list of 9 values and a universe of 9 + 22 the pipe does something undefined. *)
Example C67_tight_example :
  run_uniform true (word "gen") [word "1"; word "9"; word "9"; word "31"; word "c"] [9; 1; 3; 4; 6; 8; 11; 17; 20; 22] [] = ([], tl w_disk, Ok 0)
  /\ index_on w_disk t_mapped (word "i") 31 w_lists /\ zlen (hd [] w_lists) + 22 = 31
  /\ piped (run_pairs_of true (word "gen") [word "1"; word "1"] [0; 0])
       (run_test_intersect true ex_tbl (by_card (fst (t_mapped w_file))) true t_mapped (word "t") [word "i"; word "1"]) w_disk = (word
"reading queries...
", w_disk, UB).
Proof. exact c67_ex_tight. Qed.

(** ... and for unions: two lists of 121 values up to 264 = 2 * 121 + 22 do not unite in 264 words. *)
Example C67_tight_union_example :
  uniform_list 121 121 264 w_S /\ uniform_list 121 121 264 w_T /\ 2 * 121 + 22 = 264 /\ ~ join_fits w_S w_T 264.
Proof. exact c67_ex_tight_union. Qed.

(** gen_clustered_data with "--binary", build, all test programs of single sequences, and that pipe: the data have no repetitions
    although the numbers drawn do, so nothing fails. *)
Theorem C67_clustered : forall stod iso conv nan fuel dbg dbg' junk sized tbl sort mapped names a b wd ws wq wk coll idx more num u density size n tape d,
  (forall x, 0 <= conv x < 2 ^ 64) ->
  int_word iso a num -> int_word iso b u -> is_u32 num -> 0 <= u < 4294901760 -> u <= 65536 * Z.of_nat fuel ->
  In (word "--binary") more ->
  stod wd = Ok density -> int_word iso ws size -> 0 <= size -> coll <> idx ->
  begins wq n -> storable_int iso n -> 0 <= n < 2 ^ 32 ->
  (forall file, zlen file <= 2 ^ 63 -> in_memory file (fst (mapped file)) (snd (mapped file))) ->
  let words := [word "--density"; wd; word "--size"; ws] in
  exists Ls d1,
    let Ks := kept_lists (mkParams density size) Ls in
    run_clustered iso fuel dbg' junk (names 0) (a :: b :: coll :: more) tape d = ([], d1, Ok 0)
    /\ zlen Ls = num /\ Forall (clustered_list u) Ls
    /\ (total zlen Ks < 2 ^ 37 -> zlen (f_index u Ks) <= 2 ^ 63 ->
        exists t1 t2 d2,
          page nan (build_lines_on conv u (zlen Ks) (counters (8 * zlen (f_index u Ks)) Ks)) t1
          /\ page nan [[W "saving data structure to disk..."]] t2
          /\ run_build_lax stod iso conv nan dbg sized (names 1) (coll :: words ++ [word "--out"; idx]) d1
             = (t1 ++ sized (f_index u Ks) ++ t2, d2, Ok 0)
          /\ index_on d2 mapped idx u Ks
          /\ (forall n, n <> coll -> n <> idx -> forall x, has_file d2 n x <-> has_file d n x)
          /\ all_pass stod iso dbg mapped (names 2) (idx :: coll :: words) d2 u Ks
          /\ (1 <= zlen Ks -> sorts_by_cardinality (fst (mapped (f_index u Ks))) sort ->
              begins wk (zlen Ks) -> storable_int iso (zlen Ks) ->
              let good test := forall tape',
                reports [] (reading_line ++ [[W "tested "; N n; W " queries"]; [W "everything good"]]) d2
                  (piped (run_pairs_of iso (names 3) [wq; wk] tape') (test (names 4) [idx; wq]) d2) in
              (Forall (fun L => zlen L + 23 <= u) Ks -> good (run_test_intersect iso tbl sort dbg mapped))
              /\ (Forall (fun L => 2 * zlen L + 23 <= u) Ks -> good (run_test_union iso tbl dbg mapped)))).
Proof. exact c67_clustered. Qed.
Print Assumptions C67_clustered.

Example C67_clustered_example :
  let words := [word "--density"; word "0"; word "--size"; word "0"] in
  let built := run_build_lax zero_stod true x86 (word "-nan") true (fun _ => word "") (word "build")
                 (word "c" :: words ++ [word "--out"; word "i"]) (tl z_disk) in
  let sort := by_card (fst (t_mapped z_file)) in
  run_clustered true 1 true (fun _ => 0) (word "gen") [word "2"; word "60"; word "c"; word "--binary"] z_tape [] = ([], tl z_disk, Ok 0)
  /\ snd (fst built) = z_disk /\ snd built = Ok 0
  /\ sorts_by_cardinality (fst (t_mapped (f_index 60 z_lists))) sort
  /\ piped (run_pairs_of true (word "gen") [word "1"; word "2"] [0; 1])
       (run_test_intersect true ex_tbl sort true t_mapped (word "t") [word "i"; word "1"]) z_disk = (word
"reading queries...
tested 1 queries
everything good
", z_disk, Ok 0).
Proof. exact c67_ex_clustered. Qed.

(** test_intersect_many and test_union_many on any index of values below its universe, with any queries about its lists: there is
    no error, so that what ends them in C66_many needs a list with the universe in it, or a list that is not there.  The
    example has such an index, which gen_uniform_data and build can make. *)
Theorem C67_many : forall dbg tbl sort mapped name idx w more num ls e nss ens d u Ks,
  index_on d mapped idx u Ks -> sorts_by_cardinality (fst (mapped (f_index u Ks))) sort ->
  count_word w num -> 24 * num < 2 ^ 63 ->
  Forall2 line_of ls nss -> Forall (Forall fits_word) nss -> last_line e ens ->
  let read := firstn (Z.to_nat num) (nss ++ ens) in
  (dbg = true -> Forall (fun ns => ns <> []) read) ->
  Forall (Forall (fun v => v < u)) Ks -> Forall (Forall (fun n => low n < zlen Ks)) read ->
  let argv := idx :: w :: more in
  exists queries, Forall2 (fun q ns => enumerates (fun v => In v (map low ns)) q) queries read
  /\ let passes verb (result : list Z -> list Z -> Prop) program :=
       exists sizes,
         Forall2 (fun q s => exists r, result q r /\ s = zlen r) (filter (fun q => 2 <=? zlen q) queries) sizes
         /\ reports [] (size_lines verb sizes ++ [[W "tested "; N (zlen sizes); W " queries"]; [W "everything good"]]) d program in
     passes "intersection has size "%string (fun q r => exists Ss, named Ks q Ss /\ enumerates (fun v => forall S, In S Ss -> In v S) r)
       (run_test_intersect_many tbl sort dbg mapped name argv (lines ls ++ e) d)
     /\ passes "union has size "%string (fun q r => exists Ss, named Ks q Ss /\ enumerates (fun v => exists S, In S Ss /\ In v S) r)
       (run_test_union_many tbl dbg mapped name argv (lines ls ++ e) d).
Proof. exact c67_many. Qed.
Print Assumptions C67_many.

Example C67_many_example :
  index_on x_disk t_mapped (word "i") 1000 t_kept /\ Forall (Forall (fun v => v < 1000)) t_kept
  /\ x_ands true "i" "3" "1 0
2
1 0 1 2" = (word
"reading queries...
running test...
intersection has size 2
intersection has size 1
tested 2 queries
everything good
", x_disk, Ok 0)
  /\ run_uniform true (word "gen") [word "2"; word "1"; word "1"; word "1"; word "c"] [1; 0; 1; 1] [] = ([], tl v1_disk, Ok 0)
  /\ index_on v1_disk t_mapped (word "i") 1 [[0]; [1]]
  /\ run_test_union_many ex_tbl true t_mapped (word "t") [word "i"; word "1"] (word "0 1") v1_disk = (word
"reading queries...
running test...
", v1_disk, UB).
Proof. exact c67_ex_many. Qed.
