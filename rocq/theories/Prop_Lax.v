(** C63: build and example on machines that yield some number when a double which does not fit is converted to
    uint64_t.  [conv] is what the machine yields; the standard leaves that case undefined, and C62 takes it so.
    The conversion of util.hpp:212-213 is such a case whenever some number of blocks, 1 to 256, does not occur. *)
From Coq Require Import String Sorted Floats.SpecFloat.
From Verif Require Import Base Hw Spec Lib Layout M_Util M_Build M_Seq M_Decode M_Query M_Many
  M_Index M_Print M_Drivers M_Tools M_Text M_Out M_Say M_Session M_Lax Holds Format Room Shown Typed Printed Counts Report Drawn Session Lax
  P_SessionEx P_Lax P_LaxEx.
Local Open Scope Z_scope.

(** build with any options: for every collection whose lists kept are valid it prints its lines, returns 0 and changes no
    file but the last one named after "--out", which is now the index (C29).  If all numbers of blocks occur,
    that is what it does on all machines. *)
Theorem C63_build : forall stod iso conv nan dbg sized name coll args d u Ls,
  let double v x := stod v = Ok x in
  (forall x, 0 <= conv x < 2 ^ 64) ->
  Forall (proper iso double) args ->
  Forall is_u32 (collection u Ls) -> Forall short Ls -> has_file d coll (words32 (collection u Ls)) ->
  exists density size out,
    settled (says_density double) args (p_density default_params) density
    /\ settled (says_size iso) args (p_size default_params) size
    /\ settled says_out args None out
    /\ let Ks := kept_lists (mkParams density size) Ls in
       let run := run_build_lax stod iso conv nan dbg sized name (coll :: flat_map spelled args) d in
       Forall valid Ks -> total zlen Ks < 2 ^ 37 ->
       (exists t, page nan (build_lines_on conv u (zlen Ks) (counters (8 * zlen (f_index u Ks)) Ks)) t
          /\ match out with
             | None => run = (t, d, Ok 0)
             | Some o => exists t' d', page nan [[W "saving data structure to disk..."]] t' /\ saved d o (f_index u Ks) d'
                         /\ run = (t ++ sized (f_index u Ks) ++ t', d', Ok 0)
             end)
       /\ ((forall i, 1 <= i <= 256 -> sparse_chunks i Ks <> []) ->
           run = run_build stod iso nan dbg sized name (coll :: flat_map spelled args) d).
Proof. exact c63_build. Qed.
Print Assumptions C63_build.

Example C63_build_example : let text := fst (fst (lax_run x86)) in
  firstn (Z.to_nat 468) text = word
"universe size: 9
processed 2 sequences, 3 integers
chunks: 2
full chunks: 0 (0% of ints)
empty chunks: 0 (0% of chunks)
dense chunks: 0 (0% of ints)
sparse chunks: 2 (100% of ints)
blocks: 2
empty blocks: 0 (0% of blocks)
dense blocks: 0 (0% of ints)
sparse blocks: 2 (100% of ints)
53.3333 [bpi] for chunks' headers
5.33333 [bpi] for blocks' headers
0 [bpi] for dense chunks
0 [bpi] for dense blocks
13.3333 [bpi] for sparse blocks
total bytes: 67
total bpi: 178.667
"
  /\ firstn (Z.to_nat 294) (skipn (Z.to_nat 1670) text) = word
"sparse chunks with 2 blocks: 0%; avg_num_integers_per_block = -nan; avg_num_integers_per_chunk = 9223372036854775808
Elias-Fano avg. bpi 0 vs. 8
 -- total integers covered 100%
sparse chunks with 3 blocks: 0%; avg_num_integers_per_block = -nan; avg_num_integers_per_chunk = 9223372036854775808
"
  /\ snd (fst (lax_run x86)) = (word "i", f_index 9 [[1; 2]; [4]]) :: lax_disk
  /\ snd (lax_run x86) = Ok 0.
Proof. exact c63_ex_build. Qed.

(** A session, for any random numbers: gen_uniform_data, build and the tests, each started on the files the one before left.
    Nothing is assumed about which numbers of blocks occur. *)
Theorem C63_session : forall stod iso conv nan dbg dbg' sized mapped names a b c e wd ws coll idx num lo hi u density size tape d,
  (forall x, 0 <= conv x < 2 ^ 64) ->
  int_word iso a num -> int_word iso b lo -> int_word iso c hi -> int_word iso e u ->
  is_u32 num -> is_u32 lo -> is_u32 hi -> 0 <= u < 4294901760 -> lo <= hi ->
  stod wd = Ok density -> int_word iso ws size -> 0 <= size -> coll <> idx ->
  let words := [word "--density"; wd; word "--size"; ws] in
  exists Ls d1,
    let Ks := kept_lists (mkParams density size) Ls in
    run_uniform iso (names 0) [a; b; c; e; coll] tape d = ([], d1, Ok 0)
    /\ zlen Ls = num /\ Forall (uniform_list lo hi u) Ls
    /\ let built := run_build_lax stod iso conv nan dbg sized (names 1) (coll :: words ++ [word "--out"; idx]) d1 in
       total zlen Ks < 2 ^ 37 ->
       exists t1 t2 d2,
         page nan (build_lines_on conv u (zlen Ks) (counters (8 * zlen (f_index u Ks)) Ks)) t1
         /\ page nan [[W "saving data structure to disk..."]] t2
         /\ built = (t1 ++ sized (f_index u Ks) ++ t2, d2, Ok 0)
         /\ has_file d2 coll (words32 (collection u Ls)) /\ has_file d2 idx (f_index u Ks)
         /\ (forall n, n <> coll -> n <> idx -> forall x, has_file d2 n x <-> has_file d n x)
         /\ forall mem f, mapped (f_index u Ks) = (mem, f) -> in_memory (f_index u Ks) mem f ->
            all_pass stod iso dbg' mapped (names 2) (idx :: coll :: words) d2 u Ks.
Proof. exact c63_session. Qed.
Print Assumptions C63_session.

Example C63_session_example : let words := [word "--density"; word "0"; word "--size"; word "2"] in
  let d1 : files := [(word "c", words32 (collection 9 [[5]; [2; 7]]))] in
  let d2 : files := (word "i", f_index 9 [[5]; [2; 7]]) :: d1 in
  let built := run_build_lax zero_stod true x86 (word "-nan") true (fun _ => word "") (word "build")
                 (word "c" :: words ++ [word "--out"; word "i"]) d1 in
  run_uniform true (word "gen") [word "2"; word "1"; word "3"; word "9"; word "c"] [0; 5; 1; 7; 2] [] = ([], d1, Ok 0)
  /\ snd (fst built) = d2 /\ snd built = Ok 0
  /\ run_test zero_stod true (say_test_decode true) t_mapped (word "test_decode") (word "i" :: word "c" :: words) d2
     = (word
"universe size: 9
decoded 2 sequences
everything good
", d2, Ok 0).
Proof. exact c63_ex_session. Qed.

(** example saves the sequence if told to.  Afterwards it decodes into as many words as there are values, which
    may be too few (C34). *)
Theorem C63_example : forall conv nan dbg sized heap mapped name names t g S more d,
  (forall x, 0 <= conv x < 2 ^ 64) ->
  typed t (zlen S :: S ++ more) -> no_digit g -> valid S ->
  (forall b, bytes_at (fst (heap b)) (snd (heap b)) b /\ snd (heap b) + zlen b + 31 <= zlen (fst (heap b))) ->
  (forall b, bytes_at (fst (mapped b)) (snd (mapped b)) b /\ snd (mapped b) + zlen b + 31 <= zlen (fst (mapped b))) ->
  let run := run_example_lax conv nan dbg sized heap mapped name (flat_map (fun v => [word "-o"; v]) names) (t ++ g) d in
  exists t r, page nan (statistics_lines_on conv (counters (8 * zlen (f_sequence S) + 128) [S])) t
    /\ (decode_fits S (zlen S) -> r = Ok 0) /\ (~ decode_fits S (zlen S) -> r = UB)
    /\ (names = [] -> run = (t, d, r))
    /\ (names <> [] -> exists d', saved d (last names []) (f_sequence_file S) d'
          /\ run = (t ++ sized (f_sequence_file S), d', r)).
Proof. exact c63_example. Qed.
Print Assumptions C63_example.

Example C63_example_example : snd (lax_example lax_input) = Ok 0
  /\ snd (fst (lax_example lax_input)) = [(word "s", f_sequence_file [0; 10; 20; 30; 40; 50; 60; 70])]
  /\ snd (lax_example lax_small) = UB
  /\ snd (fst (lax_example lax_small)) = [(word "s", f_sequence_file [1; 4; 9])].
Proof. exact c63_ex_example. Qed.

(** the average and the bits shown for numbers of blocks that do not occur, on three machines *)
Theorem C63_machines : (odd_average x86 = 2 ^ 63 /\ odd_bits x86 = 0)
  /\ (odd_average avx512 = 2 ^ 64 - 1 /\ odd_bits avx512 = 2 ^ 64 - 1)
  /\ (odd_average aarch64 = 0 /\ odd_bits aarch64 = 0).
Proof. exact c63_machines. Qed.
Print Assumptions C63_machines.
