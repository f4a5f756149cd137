(** Debug and release builds: C27. *)
From Verif Require Import Base Spec M_Util M_Build M_Seq M_Decode M_Uncompress M_Query
  M_Intersect M_Union M_Many M_Index P_Ex P_Dbg.

(** For arbitrary input, memory and buffers: assertions never change what is computed. *)
Theorem C27_refines_build :
  (forall out data,
     refines (fst (builder_build true out data)) (fst (builder_build false out data))
     /\ (fst (builder_build true out data) <> Abort -> builder_build true out data = builder_build false out data))
  /\ (forall params data, refines (index_build true params data) (index_build false params data)).
Proof. exact c27_refines_build. Qed.
Print Assumptions C27_refines_build.

Theorem C27_refines_queries : forall mem s,
  (forall out pos, refines (decode true mem s out pos) (decode false mem s out pos))
  /\ (forall out pos, refines (uncompress true mem s out pos) (uncompress false mem s out pos))
  /\ (forall v, refines (contains true mem s v) (contains false mem s v))
  /\ (forall i v, refines (select true mem s i v) (select false mem s i v))
  /\ (forall v, refines (next_geq true mem s v) (next_geq false mem s v))
  /\ (forall buf p, refines (enum_init true mem buf s p) (enum_init false mem buf s p))
  /\ (forall k e, refines (enum_steps k true mem e) (enum_steps k false mem e))
  /\ (forall g qs, refines (ng_run true mem g qs) (ng_run false mem g qs))
  /\ (forall ix i, refines (index_get true mem ix i) (index_get false mem ix i)).
Proof. exact c27_refines_queries. Qed.
Print Assumptions C27_refines_queries.

Theorem C27_refines_sets : forall mem,
  (forall tbl s t x out pos,
     refines (pairwise_intersection tbl true mem s t x out pos) (pairwise_intersection tbl false mem s t x out pos))
  /\ (forall s t x y out pos,
     refines (pairwise_union true mem s t x y out pos) (pairwise_union false mem s t x y out pos))
  /\ (forall seqs h t b out pos,
     refines (intersection_sorted true mem seqs h t b out pos) (intersection_sorted false mem seqs h t b out pos))
  /\ (forall seqs t b out pos,
     refines (union_many true mem seqs t b out pos) (union_many false mem seqs t b out pos)).
Proof. exact c27_refines_sets. Qed.
Print Assumptions C27_refines_sets.

(** On valid input no assertion fails, and the two builds agree on everything they leave behind
    (also on the words past the result, which the other theorems do not describe). *)
Theorem C27_valid_build : forall out S, valid S ->
  exists stats enc, forall dbg, builder_build dbg out S = (Ok stats, enc).
Proof. exact c27_valid_build. Qed.
Print Assumptions C27_valid_build.

Theorem C27_valid_index : forall params u Ls,
  Forall valid (filter (fun L => pass params (zlen L) (last L 0)) Ls) -> Forall short Ls ->
  same_in_both (fun dbg => index_build dbg params (collection u Ls)).
Proof. exact c27_valid_index. Qed.
Print Assumptions C27_valid_index.

Theorem C27_valid_queries : forall mem a S, valid S -> stored 31 mem a S ->
  exists s, seq_at mem a = Ok s
    /\ (forall out pos, 0 <= pos -> pos + zlen S + 23 <= zlen out ->
          same_in_both (fun dbg => decode dbg mem s out pos))
    /\ (forall v, is_u32 v -> same_in_both (fun dbg => contains dbg mem s v))
    /\ (forall i value, is_u32 i -> same_in_both (fun dbg => select dbg mem s i value))
    /\ (forall v, is_u32 v -> same_in_both (fun dbg => next_geq dbg mem s v))
    /\ (forall p buf k, zlen buf = 65536 -> Z.of_nat k < zlen S + 4294967296 ->
          same_in_both (fun dbg => let! e := enum_init dbg mem buf s p in enum_steps k dbg mem e))
    /\ (forall out pos, 0 <= pos -> (forall v, In v S -> pos + 1024 * (v / 65536 + 1) <= zlen out) ->
          same_in_both (fun dbg => uncompress dbg mem s out pos)).
Proof. exact c27_valid_queries. Qed.
Print Assumptions C27_valid_queries.

Theorem C27_valid_sets : forall tbl mem a b S T, shuffle_table_ok tbl ->
  valid S -> valid T -> stored 31 mem a S -> stored 31 mem b T -> apart a S b T ->
  exists s t, seq_at mem a = Ok s /\ seq_at mem b = Ok t
    /\ (forall x out pos, zlen x = 1024 -> 0 <= pos -> pos + Z.min (zlen S) (zlen T) + 23 <= zlen out ->
          same_in_both (fun dbg => pairwise_intersection tbl dbg mem s t x out pos))
    /\ (forall x y out pos, zlen x = 4 -> zlen y = 1024 -> 0 <= pos -> pos + zlen S + zlen T + 23 <= zlen out ->
          same_in_both (fun dbg => pairwise_union dbg mem s t x y out pos)).
Proof. exact c27_valid_sets. Qed.
Print Assumptions C27_valid_sets.

Theorem C27_valid_many : forall mem addrs Ss,
  Ss <> [] -> Forall valid Ss -> Forall2 (stored 0 mem) addrs Ss ->
  exists seqs, Forall2 (fun a s => seq_at mem a = Ok s) addrs seqs
    /\ (forall seqs' headers tmp bitmap out pos, sort_outcome mem seqs seqs' ->
          zlen headers = 65536 -> zlen tmp = 1024 -> zlen bitmap = 1024 ->
          0 <= pos -> pos + zlen (hd [] Ss) <= zlen out ->
          same_in_both (fun dbg => intersection_sorted dbg mem seqs' headers tmp bitmap out pos))
    /\ (forall tmp bitmap out pos, zlen tmp = 1024 -> zlen bitmap = 1024 ->
          0 <= pos -> pos + total zlen Ss <= zlen out ->
          same_in_both (fun dbg => union_many dbg mem seqs tmp bitmap out pos)).
Proof. exact c27_valid_many. Qed.
Print Assumptions C27_valid_many.

(** assertions do fail on invalid input; exA and exB meet the hypotheses above *)
Example C27_example :
  fst (builder_build true [] [4294901760]) = Abort
  /\ (let! _ := fst (builder_build false [] [4294901760]) in Ok 1) = Ok 1
  /\ index_build true default_params [2; 3; 4] = Abort
  /\ valid exA /\ valid exB /\ stored 31 ex_mem ex_a exA /\ stored 31 ex_mem ex_b exB
  /\ apart ex_a exA ex_b exB /\ shuffle_table_ok ex_tbl
  /\ Forall2 (stored 0 ex_mem) [ex_b; ex_a] [exB; exA].
Proof.
  split; [vm_compute; reflexivity|]. split; [vm_compute; reflexivity|].
  split; [vm_compute; reflexivity|]. split; [exact valid_A|]. split; [exact valid_B|].
  split; [exact stored_A|]. split; [exact stored_B|]. split; [exact apart_AB|]. split; [exact ex_tbl_ok|].
  constructor; [exact stored_B0|]. constructor; [exact stored_A0|]. constructor.
Qed.
