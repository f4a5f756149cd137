(** The test programs that read queries (test/), as whole programs on files: what they have written is known also when they
    throw, abort or do something undefined. *)
From Coq Require Import String.
From Verif Require Import Base Hw M_Util M_Build M_Seq M_Decode M_Query M_Many M_Index M_Print M_Calls M_Tests M_Drivers M_Text M_Out M_Say
  M_Session M_Bench M_Live.
Local Open Scope Z_scope.

(** the loop over the queries (test_intersect.cpp:23-52, ...) *)
Fixpoint live_queries {Q A : Type} (body : Q -> A -> live A) (queries : list Q) (st : A) : live A :=
  match queries with
  | [] => just (Ok st)
  | q :: queries => go! st := body q st in live_queries body queries st
  end.

(** test_intersect.cpp:44-50 = test_union.cpp:36-42 = test_intersect_many.cpp:82-88 = test_union_many.cpp:95-101 *)
Fixpoint live_check_loop (m : nat) (expected out : list Z) (j size : Z) : live unit :=
  match m with
  | O => just (Ok tt)
  | S m' =>
      go! x := just (vget expected j) in
      go! y := just (vget out j) in
      go! _ := lreport (negb (x =? y)) (say_error j size x y) in
      live_check_loop m' expected out (j + 1) size
  end.

(** ** Pairs of positions *)
(** test_intersect.cpp:24-36: the vectors after the query, the expected size and the size; nothing is written *)
Definition intersect_core (tbl : Z -> list Z) (sort : list s_sequence -> list s_sequence) (dbg : bool)
    (mem : list Z) (ix : s_index) (q : Z * Z) (st : qstate) : res (qstate * Z * Z) :=
  let! si := index_get dbg mem ix (fst q) in
  let! (vi, i_size) := decode dbg mem si (q_i st) 0 in
  let! sj := index_get dbg mem ix (snd q) in
  let! (vj, j_size) := decode dbg mem sj (q_j st) 0 in
  let e := merge_and (firstn (Z.to_nat i_size) vi) (firstn (Z.to_nat j_size) vj) in
  let! expected := store (q_expected st) 0 e in
  let! (sc, (out, size)) := run_call tbl dbg (q_sc st) (CInterMany mem (sort [si; sj]) (q_out st) 0) in
  Ok (mkQ true sc out vi vj expected, zlen e, size).
(** test_union.cpp:22-28 *)
Definition union_core (tbl : Z -> list Z) (dbg : bool) (mem : list Z) (ix : s_index) (q : Z * Z) (st : qstate)
  : res (qstate * Z * Z) :=
  let! si := index_get dbg mem ix (fst q) in
  let! (vi, i_size) := decode dbg mem si (q_i st) 0 in
  let! sj := index_get dbg mem ix (snd q) in
  let! (vj, j_size) := decode dbg mem sj (q_j st) 0 in
  let e := merge_or (firstn (Z.to_nat i_size) vi) (firstn (Z.to_nat j_size) vj) in
  let! expected := store (q_expected st) 0 e in
  let! (sc, (out, size)) := run_call tbl dbg (q_sc st) (CUnion mem si sj (q_out st) 0) in
  Ok (mkQ true sc out vi vj expected, zlen e, size).
(** test_intersect.cpp:24-50 = test_union.cpp:22-42; [what] is "intersection" or "union" *)
Definition live_pair_query (what : string) (core : Z * Z -> qstate -> res (qstate * Z * Z)) (q : Z * Z) (st : qstate) : live qstate :=
  go! (st, expected_size, size) := just (core q st) in
  go! _ := lreport (negb (expected_size =? size)) (say_size what size expected_size) in
  go! _ := live_check_loop (Z.to_nat size) (q_expected st) (q_out st) 0 size in
  just (Ok st).
(** test_intersect.cpp:16-53 = test_union.cpp:14-45 *)
Definition live_pairs (what : string) (core : Z * Z -> qstate -> res (qstate * Z * Z)) (queries : list (Z * Z)) (ix : s_index) : live unit :=
  go! _ := live_queries (live_pair_query what core) queries (qstate0 (ix_universe ix)) in
  fun lg => ((fst lg, verdict (say_count "tested " (zlen queries) " queries") lg), Ok tt).
(** test_intersect.cpp:12-14 and 56-81 = test_union.cpp:10-12 and 48-73; [core] gets the memory and the index *)
Definition run_test_pairs (iso : bool) (what : string) (core : list Z -> s_index -> Z * Z -> qstate -> res (qstate * Z * Z))
    (mapped : list Z -> list Z * Z) (name : list Z) (argv : list (list Z)) (stdin : list Z) : prog Z :=
  match argv with
  | binary_filename :: w :: _ =>
      do! num_queries := quiet (stoull w) in
      do! _ := quiet (reserve num_queries 8) in
      do! _ := cout say_reading in
      do! queries := quiet (scan_pairs (S (length stdin)) iso stdin 0 num_queries) in
      do! (mem, _, ix) := mmap_file mapped binary_filename in
      do! _ := spoken (live_pairs what (core mem ix) queries ix) in
      quiet (Ok 0)
  | _ => usage_ name " index_filename num_queries < queries"
  end.
(** test_intersect.cpp *)
Definition run_test_intersect (iso : bool) (tbl : Z -> list Z) (sort : list s_sequence -> list s_sequence) (dbg : bool) :=
  run_test_pairs iso "intersection" (intersect_core tbl sort dbg).
(** test_union.cpp *)
Definition run_test_union (iso : bool) (tbl : Z -> list Z) (dbg : bool) := run_test_pairs iso "union" (union_core tbl dbg).

(** ** Queries of many positions *)
(** test_intersect_many.cpp:70-74: what is expected, the vectors used, and the size *)
Definition intersect_many_core (tbl : Z -> list Z) (sort : list s_sequence -> list s_sequence) (dbg : bool)
    (mem : list Z) (ix : s_index) (q : list Z) (sc : scratch) (out : list Z) : res (list Z * scratch * list Z * Z) :=
  let! ls := res_map (collect dbg mem ix) q in
  let! expected := and_all ls in
  let! seqs := res_map (index_get dbg mem ix) q in
  let! (sc, (out, size)) := run_call tbl dbg sc (CInterMany mem (sort seqs) out 0) in
  Ok (expected, sc, out, size).
(** test_union_many.cpp:83-87 *)
Definition union_many_core (tbl : Z -> list Z) (dbg : bool) (mem : list Z) (ix : s_index) (q : list Z) (sc : scratch) (out : list Z)
  : res (list Z * scratch * list Z * Z) :=
  let! ls := res_map (collect dbg mem ix) q in
  let expected := or_all ls in
  let! seqs := res_map (index_get dbg mem ix) q in
  let! (sc, (out, size)) := run_call tbl dbg sc (CUnionMany mem seqs out 0) in
  Ok (expected, sc, out, size).
(** test_intersect_many.cpp:68-90 = test_union_many.cpp:81-103 *)
Definition live_many_query (what : string) (core : list Z -> scratch -> list Z -> res (list Z * scratch * list Z * Z))
    (q : list Z) (st : Z * scratch * list Z) : live (Z * scratch * list Z) :=
  let '(num, sc, out) := st in
  if zlen q <? 2 then just (Ok st)
  else
    go! (expected, sc, out, size) := just (core q sc out) in
    go! _ := ltell (codes what ++ codes " has size " ++ show size ++ endl) in
    go! _ := lreport (negb (zlen expected =? size)) (say_size what size (zlen expected)) in
    go! _ := live_check_loop (Z.to_nat size) expected out 0 size in
    just (Ok (num + 1, sc, out)).
(** test_intersect_many.cpp:61-93 = test_union_many.cpp:74-106 *)
Definition live_many (what : string) (core : list Z -> scratch -> list Z -> res (list Z * scratch * list Z * Z))
    (queries : list (list Z)) (ix : s_index) : live unit :=
  go! (num, _, _) := live_queries (live_many_query what core) queries (0, scratch0, repeat 0 (Z.to_nat (ix_universe ix))) in
  fun lg => ((fst lg, verdict (say_count "tested " num " queries") lg), Ok tt).
(** test_intersect_many.cpp:57-59 and 95-121 = test_union_many.cpp:70-72 and 108-134: unlike the programs above, these write
    their first line before the vector of queries is reserved *)
Definition run_test_many (dbg : bool) (what : string)
    (core : list Z -> s_index -> list Z -> scratch -> list Z -> res (list Z * scratch * list Z * Z))
    (mapped : list Z -> list Z * Z) (name : list Z) (argv : list (list Z)) (stdin : list Z) : prog Z :=
  match argv with
  | binary_filename :: w :: _ =>
      do! num_queries := quiet (stoull w) in
      do! _ := cout say_reading in
      do! _ := quiet (reserve num_queries 24) in
      do! queries := quiet (read_queries (S (length stdin)) dbg stdin 0 num_queries) in
      do! _ := cout (codes "running test..." ++ endl) in
      do! (mem, _, ix) := mmap_file mapped binary_filename in
      do! _ := spoken (live_many what (core mem ix) queries ix) in
      quiet (Ok 0)
  | _ => usage_ name " index_filename num_queries < queries"
  end.
(** test_intersect_many.cpp *)
Definition run_test_intersect_many (tbl : Z -> list Z) (sort : list s_sequence -> list s_sequence) (dbg : bool) :=
  run_test_many dbg "intersection" (intersect_many_core tbl sort dbg).
(** test_union_many.cpp *)
Definition run_test_union_many (tbl : Z -> list Z) (dbg : bool) := run_test_many dbg "union" (union_many_core tbl dbg).
