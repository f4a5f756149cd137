(** The counters of the statistics, exactly: C18. *)
From Verif Require Import Base Hw Spec M_Util M_Build M_Index P_Ex Prop_Index Counts P_Counts.

(** C18, every counter: [counts] (Counts.v) computes each one from the values alone.  The only
    counter left out is [bits], whose value is C17. *)
Theorem C18_exact_index : forall dbg params u Ls,
  let kept := filter (fun L => pass params (zlen L) (last L 0)) Ls in
  Forall valid kept -> Forall short Ls ->
  exists stats offsets sequences,
    index_build dbg params (collection u Ls) = Ok (stats, offsets, sequences)
    /\ forall f, f <> F_bits -> stats f = total (fun L => counts L f) kept.
Proof. exact c18_exact_index. Qed.
Print Assumptions C18_exact_index.

Theorem C18_exact_sequence : forall dbg out S,
  valid S ->
  exists stats enc, builder_build dbg out S = (Ok stats, out ++ enc)
    /\ forall f, f <> F_bits -> stats f = counts S f.
Proof. exact c18_exact_sequence. Qed.
Print Assumptions C18_exact_sequence.

(** two lists are kept; the counters that [C18_example] does not show *)
Example C18_exact_example :
  Forall valid (filter (fun L => pass ex_params (zlen L) (last L 0)) [exA; []; [9]; exB])
  /\ (let! (st, _, _) := index_build true ex_params (collection 200000 [exA; []; [9]; exB]) in
      Ok (st F_integers_in_sparse_chunks, st F_integers_in_sparse_blocks, st F_integers_in_dense_blocks,
          st F_chunks_header_bits, st F_blocks_header_bits, st F_sparse_blocks_bits,
          st (F_sparse_blocks_cardinalities 1), st (F_num_integers 1)))
     = Ok (109, 9, 100, 352, 80, 120, 3, 62).
Proof.
  split.
  - change (Forall valid [exA; exB]). constructor; [exact valid_A|constructor; [exact valid_B|constructor]].
  - vm_compute. reflexivity.
Qed.
