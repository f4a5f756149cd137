(** Whole programs that work on an index: the programs under src/ that go through an index or read queries, and
    the generators of queries, with the text written when a program fails. *)
From Coq Require Import String Floats.SpecFloat.
From Verif Require Import Base Hw M_Util M_Seq M_Build M_Decode M_Query M_Index M_Print M_Drivers M_Tools M_Text M_Out M_Say M_Session.
Local Open Scope Z_scope.

(** index.mmap(filename) (s_index.hpp:28-37): mm::file_source throws if there is no such file; [mapped] puts the bytes of the
    file into memory *)
Definition mmap_file (mapped : list Z -> list Z * Z) (name : list Z) : prog (list Z * Z * s_index) :=
  do! file := open_file name in
  let (mem, f) := mapped file in
  do! ix := quiet (index_mmap mem f) in
  quiet (Ok (mem, f, ix)).

(** contains.cpp:36-40 and others: too few words *)
Definition usage_ (name : list Z) (words : string) : prog Z :=
  do! _ := cout (name ++ codes words ++ endl) in quiet (Ok 1).

(** contains.cpp:11-60 = intersect.cpp:11-63 = union.cpp:11-63.  [what] is "contains queries...", "pairwise-intersections..."
    or "pairwise-unions..." after a space, [perf] the loop, [time] what the timer measured. *)
Definition run_pairs (iso : bool) (nan : list Z) (time : spec_float) (what : string)
    (perf : list Z -> Z -> list (Z * Z) -> res (Z * Z)) (mapped : list Z -> list Z * Z)
    (name : list Z) (argv : list (list Z)) (stdin : list Z) : prog Z :=
  match argv with
  | binary_filename :: w :: _ =>
      do! num_queries := quiet (stoull w) in
      do! _ := quiet (reserve num_queries 8) in
      do! _ := cout say_reading in
      do! queries := quiet (scan_pairs (S (length stdin)) iso stdin 0 num_queries) in
      do! _ := cout say_done in
      do! (mem, f, _) := mmap_file mapped binary_filename in
      do! _ := cout (say_count "performing " (zlen queries) what) in
      do! (_, total) := quiet (perf mem f queries) in
      do! _ := cout (show total ++ endl ++ say_means nan time (zlen queries)) in
      quiet (Ok 0)
  | _ => usage_ name " index_filename num_queries < queries"
  end.

(** contains.cpp:11-60 *)
Definition run_contains iso nan time (dbg : bool) :=
  run_pairs iso nan time " contains queries..." (perf_contains dbg).
(** intersect.cpp:11-63 *)
Definition run_intersect iso nan time (tbl : Z -> list Z) (dbg : bool) :=
  run_pairs iso nan time " pairwise-intersections..." (perf_intersection tbl dbg).
(** union.cpp:11-63 *)
Definition run_union iso nan time (tbl : Z -> list Z) (dbg : bool) :=
  run_pairs iso nan time " pairwise-unions..." (perf_union tbl dbg).

(** select.cpp:11-69 = next_geq.cpp:11-67 *)
Definition run_words (iso : bool) (nan : list Z) (time : spec_float) (what : string)
    (perf : list Z -> s_index -> Z -> list Z -> res (Z * Z)) (mapped : list Z -> list Z * Z)
    (name : list Z) (argv : list (list Z)) (stdin : list Z) : prog Z :=
  match argv with
  | binary_filename :: w :: _ =>
      do! n := quiet (stoull w) in
      do! (mem, _, ix) := mmap_file mapped binary_filename in
      let total_queries := u64 (ix_size ix * n) in
      do! _ := quiet (reserve total_queries 4) in
      do! _ := cout say_reading in
      do! queries := quiet (scan_words (S (length stdin)) iso stdin 0 total_queries) in
      do! _ := cout say_done in
      do! _ := cout (say_count "performing " (zlen queries) what) in
      do! (_, total) := quiet (perf mem ix n queries) in
      do! _ := cout (show total ++ endl ++ say_means nan time total_queries) in
      quiet (Ok 0)
  | _ => usage_ name " index_filename num_queries_per_sequence < queries"
  end.

(** select.cpp:11-69 *)
Definition run_select iso nan time (dbg : bool) := run_words iso nan time " select queries..." (perf_select dbg).
(** next_geq.cpp:11-67 *)
Definition run_next_geq iso nan time (dbg : bool) := run_words iso nan time " next_geq queries..." (perf_next_geq dbg).

(** cardinality.cpp:10-42 *)
Definition run_cardinality (nan : list Z) (time : spec_float) (dbg : bool) (mapped : list Z -> list Z * Z)
    (name : list Z) (argv : list (list Z)) : prog Z :=
  match argv with
  | index_filename :: _ =>
      do! (mem, f, _) := mmap_file mapped index_filename in
      do! text := quiet (say_cardinality_cpp nan time dbg mem f) in
      do! _ := cout text in
      quiet (Ok 0)
  | [] => usage_ name " <index_filename>"
  end.

(** decode.cpp:11-46 *)
Definition run_decode (nan : list Z) (time : spec_float) (dbg : bool) (mapped : list Z -> list Z * Z)
    (name : list Z) (argv : list (list Z)) : prog Z :=
  match argv with
  | index_filename :: _ =>
      do! (mem, f, _) := mmap_file mapped index_filename in
      do! (sequences, integers) := quiet (decode_cpp dbg mem f) in
      do! _ := cout (say_speed nan time sequences integers) in
      quiet (Ok 0)
  | [] => usage_ name " <index_filename>"
  end.

(** uncompress.cpp:11-50: the universe is written before the work starts *)
Definition run_uncompress (nan : list Z) (time : spec_float) (dbg : bool) (mapped : list Z -> list Z * Z)
    (name : list Z) (argv : list (list Z)) : prog Z :=
  match argv with
  | index_filename :: _ =>
      do! (mem, f, ix) := mmap_file mapped index_filename in
      do! _ := cout (say_universe (ix_universe ix)) in
      do! (sequences, integers) := quiet (uncompress_cpp dbg mem f) in
      do! _ := cout (say_speed nan time sequences integers) in
      quiet (Ok 0)
  | [] => usage_ name " <index_filename>"
  end.

(** gen_random_select_queries.cpp:10-41 = gen_random_next_geq_queries.cpp:10-43; the number is converted before the file is
    opened, and all queries are drawn before the first is written *)
Definition run_queries_of (iso : bool) (generate : list Z -> Z -> Z -> res (list Z)) (mapped : list Z -> list Z * Z)
    (name : list Z) (argv : list (list Z)) : prog Z :=
  match argv with
  | f :: w :: _ =>
      do! n := quiet (atoi iso w) in
      do! (mem, f, _) := mmap_file mapped f in
      do! queries := quiet (generate mem f n) in
      do! _ := cout (show_lines queries) in
      quiet (Ok 0)
  | _ => usage_ name " index_filename num_queries_per_sequence"
  end.

(** gen_random_pairwise_queries.cpp:5-21 *)
Definition run_pairs_of (iso : bool) (name : list Z) (argv : list (list Z)) (tape : list Z) : prog Z :=
  do! o := quiet (pairwise_main iso argv tape) in
  match o with
  | Some text => do! _ := cout text in quiet (Ok 0)
  | None => usage_ name " num_queries num_sequences"
  end.

(** "first | second" in a shell: the files [first] leaves, and the text, the files and the outcome of [second] *)
Definition piped {A B : Type} (first : prog A) (second : list Z -> prog B) : prog B := fun d =>
  let '(t, d, _) := first d in second t d.
