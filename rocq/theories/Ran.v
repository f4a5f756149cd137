(** Specification vocabulary for what the test programs of the set operations report (C58). *)
From Coq Require Import String.
From Verif Require Import Base Hw Spec Printed Report M_Util M_Seq M_Decode M_Many M_Index M_Calls M_Tests.
Local Open Scope Z_scope.

(** What a test program has for one query: the number of values it expects; the words it compares with, of which those
    behind the expected values are left from earlier queries; the size the set operation returned and its output. *)
Record run := mkRun { r_count : Z; r_expected : list Z; r_size : Z; r_got : list Z }.

Definition query_report (what : string) (r : run) : list (list piece) :=
  let size := r_size r in
  (if_not (r_count r =? size) [W what; W " has size "; N size; W " but expected "; N (r_count r)]
   ++ flat_map (fun j => let x := at_ (r_expected r) 0 j in let y := at_ (r_got r) 0 j in
                         if_not (x =? y) (value_line size j x y))
        (zrange 0 (Z.to_nat size)))%list.

Definition nothing (ls : list (list piece)) : bool := match ls with [] => true | _ => false end.

(** all of the output: [before] the queries, [each] query, and at the end *)
Definition query_session (before : list (list piece)) (each : run -> list (list piece)) (errors : run -> list (list piece))
    (runs : list run) : list (list piece) :=
  (before ++ flat_map each runs ++ [[W "tested "; N (zlen runs); W " queries"]]
   ++ if nothing (flat_map errors runs) then [[W "everything good"]] else [])%list.

(** [q] was run with the result [r]: the two lists were decoded and merged in the way [merge], and the operation [op]
    was applied to their sequences.  Buffers may have any contents. *)
Definition ran_pair (tbl : Z -> list Z) (dbg : bool) (mem : list Z) (ix : s_index) (merge : list Z -> list Z -> list Z)
    (op : s_sequence -> s_sequence -> list Z -> call) (q : Z * Z) (r : run) : Prop :=
  exists s t bi bj vi vj ni nj buf sc out sc' out' n,
    index_get dbg mem ix (fst q) = Ok s /\ index_get dbg mem ix (snd q) = Ok t
    /\ decode dbg mem s bi 0 = Ok (vi, ni) /\ decode dbg mem t bj 0 = Ok (vj, nj)
    /\ run_call tbl dbg sc (op s t out) = Ok (sc', (out', n))
    /\ let e := merge (firstn (Z.to_nat ni) vi) (firstn (Z.to_nat nj) vj) in
       r = mkRun (zlen e) (e ++ skipn (length e) buf) n out'.

(** behind its expected values every run has what the runs before it left in the buffer [buf] *)
Fixpoint carried (buf : list Z) (runs : list run) : Prop :=
  match runs with
  | [] => True
  | r :: runs => skipn (Z.to_nat (r_count r)) (r_expected r) = skipn (Z.to_nat (r_count r)) buf /\ carried (r_expected r) runs
  end.

(** the same for queries of any number of lists: [e] is the result of merging the lists the enumerator gives *)
Definition ran_many (tbl : Z -> list Z) (dbg : bool) (mem : list Z) (ix : s_index) (merge : list (list Z) -> res (list Z))
    (op : list s_sequence -> list Z -> call) (q : list Z) (r : run) : Prop :=
  exists ss ls e sc out sc' out' n,
    Forall2 (fun i s => index_get dbg mem ix i = Ok s) q ss /\ Forall2 (fun i l => collect dbg mem ix i = Ok l) q ls
    /\ merge ls = Ok e /\ run_call tbl dbg sc (op ss out) = Ok (sc', (out', n))
    /\ r = mkRun (zlen e) e n out'.

(** the programs for many sequences write the size first *)
Definition sized_report (what : string) (r : run) : list (list piece) :=
  [W what; W " has size "; N (r_size r)] :: query_report what r.
Definition reading : list (list piece) := [[W "reading queries..."]].
