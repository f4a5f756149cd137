(** Indexes and statistics: C15, C17, C18. *)
From Verif Require Import Base Hw Spec M_Util M_Build M_Seq M_Decode M_Index P_Ex P_Fin4.

(** C15: build, save, mmap.  [params] may be anything: which lists are kept is C16. *)
Theorem C15_index : forall dbg params u Ls,
  is_u32 u ->
  let kept := filter (fun L => pass params (zlen L) (last L 0)) Ls in
  Forall valid kept -> Forall short Ls ->
  exists stats offsets sequences,
    index_build dbg params (collection u Ls) = Ok (stats, offsets, sequences)
    /\ forall mem f slack,
         0 <= f -> 0 <= slack -> bytes_at mem f (index_file offsets sequences) ->
         f + zlen (index_file offsets sequences) + slack <= zlen mem -> zlen mem <= 2 ^ 64 ->
         exists ix, index_mmap mem f = Ok ix /\ ix_size ix = zlen kept /\ ix_universe ix = u
           /\ forall i S, znth kept i = Some S ->
                exists a s, seq_at mem a = Ok s /\ stored slack mem a S
                  /\ forall dbg', index_get dbg' mem ix i = Ok s.
Proof. exact c15_index. Qed.
Print Assumptions C15_index.

(** ... and every sequence of the mapped index decodes to its list *)
Theorem C15_index_decode : forall dbg params u Ls,
  is_u32 u ->
  let kept := filter (fun L => pass params (zlen L) (last L 0)) Ls in
  Forall valid kept -> Forall short Ls ->
  exists stats offsets sequences,
    index_build dbg params (collection u Ls) = Ok (stats, offsets, sequences)
    /\ forall mem f,
         0 <= f -> bytes_at mem f (index_file offsets sequences) ->
         f + zlen (index_file offsets sequences) + 31 <= zlen mem -> zlen mem <= 2 ^ 64 ->
         exists ix, index_mmap mem f = Ok ix
           /\ forall i S, znth kept i = Some S ->
                forall dbg' buf pos, 0 <= pos -> pos + zlen S + 23 <= zlen buf ->
                exists s buf', index_get dbg' mem ix i = Ok s
                  /\ decode dbg' mem s buf pos = Ok (buf', zlen S) /\ wrote 23 buf pos S buf'.
Proof. exact c15_index_decode. Qed.
Print Assumptions C15_index_decode.

(** the filter keeps exA and exB of [exA; []; [9]; exB] when --size is 1 *)
Definition ex_params : parameters := mkParams (p_density default_params) 1.
Definition ex_index : list Z := Eval vm_compute in
  match index_build true ex_params (collection 200000 [exA; []; [9]; exB]) with
  | Ok (_, o, q) => index_file o q
  | _ => []
  end.
Example C15_example :
  filter (fun L => pass ex_params (zlen L) (last L 0)) [exA; []; [9]; exB] = [exA; exB]
  /\ Forall valid [exA; exB] /\ Forall short [exA; []; [9]; exB] /\ is_u32 200000
  /\ (let mem := [7] ++ ex_index ++ repeat 0 31 in
      let! ix := index_mmap mem 1 in
      let! s := index_get true mem ix 1 in
      let! (buf, n) := decode true mem s (repeat 0 90) 0 in
      Ok (ix_size ix, ix_universe ix, firstn 64 buf, n)) = Ok (2, 200000, exB, 64).
Proof.
  split; [vm_compute; reflexivity|].
  split; [constructor; [exact valid_A|constructor; [exact valid_B|constructor]]|].
  split; [repeat constructor|].
  split; vm_compute; auto. split; congruence.
Qed.

(** C17: the reported number of bits *)
Theorem C17_size_index : forall dbg params u Ls,
  let kept := filter (fun L => pass params (zlen L) (last L 0)) Ls in
  Forall valid kept -> Forall short Ls ->
  exists stats offsets sequences,
    index_build dbg params (collection u Ls) = Ok (stats, offsets, sequences)
    /\ stats F_bits = 8 * zlen (index_file offsets sequences).
Proof. exact c17_size_index. Qed.
Print Assumptions C17_size_index.

Theorem C17_size_sequence : forall dbg out S,
  valid S ->
  exists stats enc, builder_build dbg out S = (Ok stats, out ++ enc)
    /\ stats F_bits = 8 * zlen enc + 128
    /\ stats F_bits = 8 * zlen (sequence_file enc) + 64.
Proof. exact c17_size_sequence. Qed.
Print Assumptions C17_size_sequence.

Example C17_example :
  (let! (st, _, _) := index_build true ex_params (collection 200000 [exA; []; [9]; exB]) in Ok (st F_bits))
    = Ok (8 * zlen ex_index)
  /\ zlen ex_index = 173.
Proof. split; vm_compute; reflexivity. Qed.

(** C18: what the counters say ([describes] is spelled out in Spec.v).  [blocks] also counts the
    empty blocks before the last non-empty one of a sparse chunk (builder.hpp:128-129): 9 = 6 + 2 + 1 below *)
Theorem C18_statistics_index : forall dbg params u Ls,
  let kept := filter (fun L => pass params (zlen L) (last L 0)) Ls in
  Forall valid kept -> Forall short Ls ->
  exists stats offsets sequences,
    index_build dbg params (collection u Ls) = Ok (stats, offsets, sequences) /\ describes stats kept.
Proof. exact c18_statistics_index. Qed.
Print Assumptions C18_statistics_index.

Theorem C18_statistics_sequence : forall dbg out S,
  valid S ->
  exists stats enc, builder_build dbg out S = (Ok stats, out ++ enc) /\ describes stats [S].
Proof. exact c18_statistics_sequence. Qed.
Print Assumptions C18_statistics_sequence.

Example C18_example :
  (let! (st, _, _) := index_build true ex_params (collection 200000 [exA; []; [9]; exB]) in
   Ok (st F_sequences, st F_integers, st F_chunks, st F_empty_chunks, st F_sparse_chunks,
       st F_blocks, st F_sparse_blocks, st F_dense_blocks, st F_empty_blocks, st (F_num_blocks_in_chunks 1)))
  = Ok (2, 109, 7, 2, 5, 9, 6, 2, 1, 3).
Proof. vm_compute. reflexivity. Qed.
