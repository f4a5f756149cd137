(** C58: what the test programs of the set operations write about wrong results, for any memory.  [run], [query_report],
    [query_session], [carried], [ran_pair] and [ran_many] are in Ran.v, [page] is in Printed.v. *)
From Coq Require Import String.
From Verif Require Import Base Hw Spec M_Util M_Seq M_Decode M_Many M_Index M_Calls M_Tests M_Text M_Out M_Say Printed Report Ran
  Typed P_Ex P_Tests4 P_Tests5 P_Ran.
Local Open Scope Z_scope.

(** test_intersect.cpp and test_union.cpp: one line for a wrong size and one for every wrong value of every query, and
    "everything good" if and only if there is none of them *)
Theorem C58_pairs : forall tbl sort dbg mem f qs t,
  (say_test_intersect tbl sort dbg mem f qs = Ok t ->
   exists ix runs, index_mmap mem f = Ok ix
     /\ Forall2 (ran_pair tbl dbg mem ix merge_and (fun s t out => CInterMany mem (sort [s; t]) out 0)) qs runs
     /\ carried (repeat 0 (Z.to_nat (ix_universe ix))) runs
     /\ page [] (query_session reading (query_report "intersection") (query_report "intersection") runs) t)
  /\ (say_test_union tbl dbg mem f qs = Ok t ->
   exists ix runs, index_mmap mem f = Ok ix
     /\ Forall2 (ran_pair tbl dbg mem ix merge_or (fun s t out => CUnion mem s t out 0)) qs runs
     /\ carried (repeat 0 (Z.to_nat (ix_universe ix))) runs
     /\ page [] (query_session reading (query_report "union") (query_report "union") runs) t).
Proof. exact c58_pairs. Qed.
Print Assumptions C58_pairs.

(** test_intersect_many.cpp and test_union_many.cpp: the size of every result as well *)
Theorem C58_many : forall tbl sort dbg mem f qs t,
  (say_test_intersect_many tbl sort dbg mem f qs = Ok t ->
   exists ix runs, index_mmap mem f = Ok ix
     /\ Forall2 (ran_many tbl dbg mem ix and_all (fun ss out => CInterMany mem (sort ss) out 0))
          (filter (fun q => 2 <=? zlen q) qs) runs
     /\ page [] (query_session (reading ++ [[W "running test..."]]) (sized_report "intersection") (query_report "intersection")
                    runs) t)
  /\ (say_test_union_many tbl dbg mem f qs = Ok t ->
   exists ix runs, index_mmap mem f = Ok ix
     /\ Forall2 (ran_many tbl dbg mem ix (fun ls => Ok (or_all ls)) (fun ss out => CUnionMany mem ss out 0))
          (filter (fun q => 2 <=? zlen q) qs) runs
     /\ page [] (query_session (reading ++ [[W "running test..."]]) (sized_report "union") (query_report "union") runs) t).
Proof. exact c58_many. Qed.
Print Assumptions C58_many.

(** the last value of [1;2;3] damaged: the list reads 1, 2, 0, or 1, 2, 2.  The 3 in the first text is left from
    the first query. *)
Example C58_example :
  let damaged b := (firstn 63 t_mem ++ [b] ++ skipn 64 t_mem)%list in
  say_test_intersect ex_tbl (by_card t_mem) true (damaged 0) 1 [(2, 1); (0, 2)] = Ok (word
"reading queries...
intersection has size 1 but expected 0
error at 0/1: expected 3 but got 0
tested 2 queries
")
  /\ say_test_union_many ex_tbl false (damaged 0) 1 [[2; 1]; [0; 2]] = Ok (word
"reading queries...
running test...
union has size 7
union has size 5
union has size 5 but expected 6
error at 3/5: expected 0 but got 3
error at 4/5: expected 3 but got 600
tested 2 queries
")
  /\ say_test_intersect_many ex_tbl (by_card t_mem) true (damaged 2) 1 [[2; 1]; [0]; [0; 2]; [0; 0]] = Ok (word
"reading queries...
running test...
intersection has size 1
intersection has size 0
intersection has size 2
intersection has size 2 but expected 3
tested 3 queries
")
  /\ query_session reading (query_report "intersection") (query_report "intersection")
       [mkRun 1 [3; 0] 1 [3; 9]; mkRun 0 [3; 0] 1 [0; 9]]
     = [[W "reading queries..."]; [W "intersection"; W " has size "; N 1; W " but expected "; N 0];
        [W "error at "; N 0; W "/"; N 1; W ": expected "; N 3; W " but got "; N 0]; [W "tested "; N 2; W " queries"]].
Proof. cbn zeta. do 3 (split; [vm_compute; reflexivity|]). vm_compute. reflexivity. Qed.
