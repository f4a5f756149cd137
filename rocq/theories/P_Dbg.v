(** C27: a build with assertions either aborts or behaves exactly like one without, for
    arbitrary inputs and memory. *)
From Verif Require Import Base Hw Spec M_Util M_Build M_Seq M_Decode M_Uncompress M_Query
  M_Intersect M_Union M_Many M_Index
  Lib P_Seq P_Decode P_Query P_NextGeq P_Index P_Fin1 P_Fin2 P_Fin3 P_Fin4 P_Laws.
From Coq Require Import Lia.

Lemma refines_refl A (a : res A) : refines a a.
Proof. now right. Qed.
Lemma refines_bind A B (a a' : res A) (f f' : A -> res B) :
  refines a a' -> (forall x, refines (f x) (f' x)) -> refines (bind a f) (bind a' f').
Proof.
  intros [->| ->] H; [now left|]. destruct a'; cbn [bind]; auto; now right.
Qed.
Lemma refines_assert b : refines (assert_ true b) (assert_ false b).
Proof. destruct b; [right|left]; reflexivity. Qed.
Create HintDb refine.
Global Hint Resolve refines_refl refines_assert : refine.

Ltac ref1 :=
  match goal with
  | |- refines ?a ?a => apply refines_refl
  | |- refines (bind _ _) (bind _ _) => apply refines_bind; [|intro]
  | |- refines (match ?x with _ => _ end) (match ?x with _ => _ end) => destruct x
  | |- _ => solve [auto with refine]
  end.
Ltac ref := cbv zeta; repeat (ref1; cbv beta iota zeta).
Ltac unf f := intros; unfold f; ref.
Lemma set_bit_ref : forall position bits,
  refines (set_bit true position bits) (set_bit false position bits).
Proof. unf set_bit. Qed.
Global Hint Resolve set_bit_ref : refine.
Lemma write_bits_loop_ref : forall n begin base bitmap,
  refines (write_bits_loop true n begin base bitmap) (write_bits_loop false n begin base bitmap).
Proof. induction n; intros; cbn [write_bits_loop]; ref. Qed.
Global Hint Resolve write_bits_loop_ref : refine.
Lemma write_bits_ref : forall begin n bits base out,
  refines (write_bits true begin n bits base out) (write_bits false begin n bits base out).
Proof. unf write_bits. Qed.
Global Hint Resolve write_bits_ref : refine.
Lemma chunk_cardinality_loop_ref : forall begin left right c prev,
  refines (chunk_cardinality_loop true begin left right c prev) (chunk_cardinality_loop false begin left right c prev).
Proof. induction begin; intros; cbn [chunk_cardinality_loop]; ref. Qed.
Global Hint Resolve chunk_cardinality_loop_ref : refine.
Lemma chunk_cardinality_ref : forall begin left right,
  refines (chunk_cardinality true begin left right) (chunk_cardinality false begin left right).
Proof. unf chunk_cardinality. Qed.
Global Hint Resolve chunk_cardinality_ref : refine.
Lemma block_bitsize_ref : forall size stats,
  refines (block_bitsize true size stats) (block_bitsize false size stats).
Proof. unf block_bitsize. Qed.
Global Hint Resolve block_bitsize_ref : refine.
Lemma sparse_chunk_bitsize_loop_ref : forall fuel begin right base size stats,
  refines (sparse_chunk_bitsize_loop fuel true begin right base size stats) (sparse_chunk_bitsize_loop fuel false begin right base size stats).
Proof. induction fuel; intros; cbn [sparse_chunk_bitsize_loop]; ref. Qed.
Global Hint Resolve sparse_chunk_bitsize_loop_ref : refine.
Lemma sparse_chunk_bitsize_ref : forall begin left right,
  refines (sparse_chunk_bitsize true begin left right) (sparse_chunk_bitsize false begin left right).
Proof. unf sparse_chunk_bitsize. Qed.
Global Hint Resolve sparse_chunk_bitsize_ref : refine.
Lemma encode_block_ref : forall block id header data,
  refines (encode_block true block id header data) (encode_block false block id header data).
Proof. unf encode_block. Qed.
Global Hint Resolve encode_block_ref : refine.
Lemma encode_sparse_chunk_loop_ref : forall fuel begin right id base block header data,
  refines (encode_sparse_chunk_loop fuel true begin right id base block header data) (encode_sparse_chunk_loop fuel false begin right id base block header data).
Proof. induction fuel; intros; cbn [encode_sparse_chunk_loop]; ref. Qed.
Global Hint Resolve encode_sparse_chunk_loop_ref : refine.
Lemma encode_sparse_chunk_ref : forall begin left right block out,
  refines (encode_sparse_chunk true begin left right block out) (encode_sparse_chunk false begin left right block out).
Proof. unf encode_sparse_chunk. Qed.
Global Hint Resolve encode_sparse_chunk_ref : refine.
Lemma encode_dense_chunk_ref : forall b begin cardinality left header tmp stats,
  refines (encode_dense_chunk true b begin cardinality left header tmp stats) (encode_dense_chunk false b begin cardinality left header tmp stats).
Proof. unf encode_dense_chunk. Qed.
Global Hint Resolve encode_dense_chunk_ref : refine.
Lemma encode_chunk_ref : forall i e,
  refines (encode_chunk true i e) (encode_chunk false i e).
Proof. unf encode_chunk. Qed.
Global Hint Resolve encode_chunk_ref : refine.
Lemma encode_chunks_ref : forall n i e,
  refines (encode_chunks n true i e) (encode_chunks n false i e).
Proof. induction n; intros; cbn [encode_chunks]; ref. Qed.
Global Hint Resolve encode_chunks_ref : refine.
Lemma encode_sequence_chunks_ref : forall data block stats,
  refines (encode_sequence_chunks true data block stats) (encode_sequence_chunks false data block stats).
Proof. unf encode_sequence_chunks. Qed.
Global Hint Resolve encode_sequence_chunks_ref : refine.
Lemma encode_sequence_ref : forall data block stats out,
  refines (encode_sequence true data block stats out) (encode_sequence false data block stats out).
Proof. unf encode_sequence. Qed.
Global Hint Resolve encode_sequence_ref : refine.
Lemma encode_one_ref : forall data out,
  refines (encode_one true data out) (encode_one false data out).
Proof. unf encode_one. Qed.
Global Hint Resolve encode_one_ref : refine.

Lemma builder_build_ref out data :
  refines (fst (builder_build true out data)) (fst (builder_build false out data))
  /\ (fst (builder_build true out data) <> Abort -> builder_build true out data = builder_build false out data).
Proof.
  unfold builder_build. destruct (encode_one_ref data out) as [E|E]; rewrite E; cbn.
  - split; [now left|congruence].
  - split; [apply refines_refl|auto].
Qed.
Lemma decode_sparse_chunk_ref : forall mem begin blocks base out pos,
  refines (decode_sparse_chunk true mem begin blocks base out pos) (decode_sparse_chunk false mem begin blocks base out pos).
Proof. unf decode_sparse_chunk. Qed.
Global Hint Resolve decode_sparse_chunk_ref : refine.
Lemma decode_chunk_ref : forall mem it out pos,
  refines (decode_chunk true mem it out pos) (decode_chunk false mem it out pos).
Proof. unf decode_chunk. Qed.
Global Hint Resolve decode_chunk_ref : refine.
Lemma decode_loop_ref : forall n mem it out pos,
  refines (decode_loop n true mem it out pos) (decode_loop n false mem it out pos).
Proof. induction n; intros; cbn [decode_loop]; ref. Qed.
Global Hint Resolve decode_loop_ref : refine.
Lemma decode_ref : forall mem s out pos,
  refines (decode true mem s out pos) (decode false mem s out pos).
Proof. unf decode. Qed.
Global Hint Resolve decode_ref : refine.
Lemma enum_init_ref : forall mem buf s past_the_end,
  refines (enum_init true mem buf s past_the_end) (enum_init false mem buf s past_the_end).
Proof. unf enum_init. Qed.
Global Hint Resolve enum_init_ref : refine.
Lemma enum_next_ref : forall mem e,
  refines (enum_next true mem e) (enum_next false mem e).
Proof. unf enum_next. Qed.
Global Hint Resolve enum_next_ref : refine.
Lemma enum_steps_ref : forall k mem e,
  refines (enum_steps k true mem e) (enum_steps k false mem e).
Proof. induction k; intros; cbn [enum_steps]; ref. Qed.
Global Hint Resolve enum_steps_ref : refine.
Lemma uncompress_sparse_chunk_ref : forall mem begin blocks out pos,
  refines (uncompress_sparse_chunk true mem begin blocks out pos) (uncompress_sparse_chunk false mem begin blocks out pos).
Proof. unf uncompress_sparse_chunk. Qed.
Global Hint Resolve uncompress_sparse_chunk_ref : refine.
Lemma uncompress_chunk_ref : forall mem it out pos,
  refines (uncompress_chunk true mem it out pos) (uncompress_chunk false mem it out pos).
Proof. unf uncompress_chunk. Qed.
Global Hint Resolve uncompress_chunk_ref : refine.
Lemma uncompress_loop_ref : forall n mem it prev uncompressed out pos,
  refines (uncompress_loop n true mem it prev uncompressed out pos) (uncompress_loop n false mem it prev uncompressed out pos).
Proof. induction n; intros; cbn [uncompress_loop]; ref. Qed.
Global Hint Resolve uncompress_loop_ref : refine.
Lemma uncompress_ref : forall mem s out pos,
  refines (uncompress true mem s out pos) (uncompress false mem s out pos).
Proof. unf uncompress. Qed.
Global Hint Resolve uncompress_ref : refine.
Lemma uncompress_sparse_chunk_and_intersect_ref : forall mem begin blocks tmp out,
  refines (uncompress_sparse_chunk_and_intersect true mem begin blocks tmp out) (uncompress_sparse_chunk_and_intersect false mem begin blocks tmp out).
Proof. unf uncompress_sparse_chunk_and_intersect. Qed.
Global Hint Resolve uncompress_sparse_chunk_and_intersect_ref : refine.
Lemma uncompress_chunk_and_intersect_ref : forall mem it tmp out cardinality,
  refines (uncompress_chunk_and_intersect true mem it tmp out cardinality) (uncompress_chunk_and_intersect false mem it tmp out cardinality).
Proof. unf uncompress_chunk_and_intersect. Qed.
Global Hint Resolve uncompress_chunk_and_intersect_ref : refine.
Lemma uncompress_sparse_chunk_and_merge_ref : forall mem begin blocks tmp out,
  refines (uncompress_sparse_chunk_and_merge true mem begin blocks tmp out) (uncompress_sparse_chunk_and_merge false mem begin blocks tmp out).
Proof. unf uncompress_sparse_chunk_and_merge. Qed.
Global Hint Resolve uncompress_sparse_chunk_and_merge_ref : refine.
Lemma uncompress_chunk_and_merge_ref : forall mem it tmp out,
  refines (uncompress_chunk_and_merge true mem it tmp out) (uncompress_chunk_and_merge false mem it tmp out).
Proof. unf uncompress_chunk_and_merge. Qed.
Global Hint Resolve uncompress_chunk_and_merge_ref : refine.
Lemma contains_sparse_chunk_loop_ref : forall fuel mem begin end_ data block_id value,
  refines (contains_sparse_chunk_loop fuel true mem begin end_ data block_id value) (contains_sparse_chunk_loop fuel false mem begin end_ data block_id value).
Proof. induction fuel; intros; cbn [contains_sparse_chunk_loop]; ref. Qed.
Global Hint Resolve contains_sparse_chunk_loop_ref : refine.
Lemma contains_sparse_chunk_ref : forall mem begin blocks value,
  refines (contains_sparse_chunk true mem begin blocks value) (contains_sparse_chunk false mem begin blocks value).
Proof. unf contains_sparse_chunk. Qed.
Global Hint Resolve contains_sparse_chunk_ref : refine.
Lemma contains_ref : forall mem s value,
  refines (contains true mem s value) (contains false mem s value).
Proof. unf contains. Qed.
Global Hint Resolve contains_ref : refine.
Lemma select_bitmap_loop_ref : forall n bitmap i elements rank,
  refines (select_bitmap_loop n true bitmap i elements rank) (select_bitmap_loop n false bitmap i elements rank).
Proof. induction n; intros; cbn [select_bitmap_loop]; ref. Qed.
Global Hint Resolve select_bitmap_loop_ref : refine.
Lemma select_bitmap_ref : forall bitmap size_in_64bit_words rank,
  refines (select_bitmap true bitmap size_in_64bit_words rank) (select_bitmap false bitmap size_in_64bit_words rank).
Proof. unf select_bitmap. Qed.
Global Hint Resolve select_bitmap_ref : refine.
Lemma select_sparse_chunk_loop_ref : forall fuel mem begin end_ data elements rank,
  refines (select_sparse_chunk_loop fuel true mem begin end_ data elements rank) (select_sparse_chunk_loop fuel false mem begin end_ data elements rank).
Proof. induction fuel; intros; cbn [select_sparse_chunk_loop]; ref. Qed.
Global Hint Resolve select_sparse_chunk_loop_ref : refine.
Lemma select_sparse_chunk_ref : forall mem begin blocks rank,
  refines (select_sparse_chunk true mem begin blocks rank) (select_sparse_chunk false mem begin blocks rank).
Proof. unf select_sparse_chunk. Qed.
Global Hint Resolve select_sparse_chunk_ref : refine.
Lemma select_ref : forall mem s rank value,
  refines (select true mem s rank value) (select false mem s rank value).
Proof. unf select. Qed.
Global Hint Resolve select_ref : refine.
Lemma next_geq_sparse_chunk_ref : forall mem begin blocks value,
  refines (next_geq_sparse_chunk true mem begin blocks value) (next_geq_sparse_chunk false mem begin blocks value).
Proof. unf next_geq_sparse_chunk. Qed.
Global Hint Resolve next_geq_sparse_chunk_ref : refine.
Lemma min_value_in_sparse_chunk_ref : forall mem begin blocks,
  refines (min_value_in_sparse_chunk true mem begin blocks) (min_value_in_sparse_chunk false mem begin blocks).
Proof. unf min_value_in_sparse_chunk. Qed.
Global Hint Resolve min_value_in_sparse_chunk_ref : refine.
Lemma chunk_min_ref : forall mem it,
  refines (chunk_min true mem it) (chunk_min false mem it).
Proof. unf chunk_min. Qed.
Global Hint Resolve chunk_min_ref : refine.
Lemma next_geq_ref : forall mem s value,
  refines (next_geq true mem s value) (next_geq false mem s value).
Proof. unf next_geq. Qed.
Global Hint Resolve next_geq_ref : refine.
Lemma ng_sparse_ref : forall mem g value,
  refines (ng_sparse true mem g value) (ng_sparse false mem g value).
Proof. unf ng_sparse. Qed.
Global Hint Resolve ng_sparse_ref : refine.
Lemma ng_next_geq_ref : forall mem g value,
  refines (ng_next_geq true mem g value) (ng_next_geq false mem g value).
Proof. unf ng_next_geq. Qed.
Global Hint Resolve ng_next_geq_ref : refine.
Lemma ng_run_ref : forall queries mem g,
  refines (ng_run true mem g queries) (ng_run false mem g queries).
Proof. induction queries; intros; cbn [ng_run]; ref. Qed.
Global Hint Resolve ng_run_ref : refine.
Lemma ss_intersect_block_ref : forall tbl mem l r card_l card_r base out pos,
  refines (ss_intersect_block tbl true mem l r card_l card_r base out pos) (ss_intersect_block tbl false mem l r card_l card_r base out pos).
Proof. unf ss_intersect_block. Qed.
Global Hint Resolve ss_intersect_block_ref : refine.
Lemma intersect_blocks_ref : forall tbl mem data_l data_r cl cr b out tmp,
  refines (intersect_blocks tbl true mem data_l data_r cl cr b out tmp) (intersect_blocks tbl false mem data_l data_r cl cr b out tmp).
Proof. unf intersect_blocks. Qed.
Global Hint Resolve intersect_blocks_ref : refine.
Lemma ss_intersect_chunk_loop_ref : forall fuel tbl mem l r end_l end_r data_l data_r base out tmp,
  refines (ss_intersect_chunk_loop fuel tbl true mem l r end_l end_r data_l data_r base out tmp) (ss_intersect_chunk_loop fuel tbl false mem l r end_l end_r data_l data_r base out tmp).
Proof. induction fuel; intros; cbn [ss_intersect_chunk_loop]; ref. Qed.
Global Hint Resolve ss_intersect_chunk_loop_ref : refine.
Lemma ss_intersect_chunk_ref : forall tbl mem l r blocks_l blocks_r base out pos,
  refines (ss_intersect_chunk tbl true mem l r blocks_l blocks_r base out pos) (ss_intersect_chunk tbl false mem l r blocks_l blocks_r base out pos).
Proof. unf ss_intersect_chunk. Qed.
Global Hint Resolve ss_intersect_chunk_ref : refine.
Lemma ds_intersect_chunk_ref : forall mem l r blocks_r base x out pos,
  refines (ds_intersect_chunk true mem l r blocks_r base x out pos) (ds_intersect_chunk false mem l r blocks_r base x out pos).
Proof. unf ds_intersect_chunk. Qed.
Global Hint Resolve ds_intersect_chunk_ref : refine.
Lemma intersect_chunks_ref : forall tbl mem it_l it_r base x out pos,
  refines (intersect_chunks tbl true mem it_l it_r base x out pos) (intersect_chunks tbl false mem it_l it_r base x out pos).
Proof. unf intersect_chunks. Qed.
Global Hint Resolve intersect_chunks_ref : refine.
Lemma pairwise_intersection_loop_ref : forall fuel tbl mem it_l it_r x out pos,
  refines (pairwise_intersection_loop fuel tbl true mem it_l it_r x out pos) (pairwise_intersection_loop fuel tbl false mem it_l it_r x out pos).
Proof. induction fuel; intros; cbn [pairwise_intersection_loop]; ref. Qed.
Global Hint Resolve pairwise_intersection_loop_ref : refine.
Lemma pairwise_intersection_ref : forall tbl mem l r x out pos,
  refines (pairwise_intersection tbl true mem l r x out pos) (pairwise_intersection tbl false mem l r x out pos).
Proof. unf pairwise_intersection. Qed.
Global Hint Resolve pairwise_intersection_ref : refine.
Lemma ss_union_block_ref : forall mem l r card_l card_r base out pos,
  refines (ss_union_block true mem l r card_l card_r base out pos) (ss_union_block false mem l r card_l card_r base out pos).
Proof. unf ss_union_block. Qed.
Global Hint Resolve ss_union_block_ref : refine.
Lemma union_blocks_ref : forall mem data_l data_r cl cr b x out pos,
  refines (union_blocks true mem data_l data_r cl cr b x out pos) (union_blocks false mem data_l data_r cl cr b x out pos).
Proof. unf union_blocks. Qed.
Global Hint Resolve union_blocks_ref : refine.
Lemma ss_union_chunk_loop_ref : forall fuel mem l r end_l end_r data_l data_r base x out pos,
  refines (ss_union_chunk_loop fuel true mem l r end_l end_r data_l data_r base x out pos) (ss_union_chunk_loop fuel false mem l r end_l end_r data_l data_r base x out pos).
Proof. induction fuel; intros; cbn [ss_union_chunk_loop]; ref. Qed.
Global Hint Resolve ss_union_chunk_loop_ref : refine.
Lemma ss_union_chunk_ref : forall mem l r blocks_l blocks_r base x out pos,
  refines (ss_union_chunk true mem l r blocks_l blocks_r base x out pos) (ss_union_chunk false mem l r blocks_l blocks_r base x out pos).
Proof. unf ss_union_chunk. Qed.
Global Hint Resolve ss_union_chunk_ref : refine.
Lemma ds_union_chunk_ref : forall mem l r blocks_r base y out pos,
  refines (ds_union_chunk true mem l r blocks_r base y out pos) (ds_union_chunk false mem l r blocks_r base y out pos).
Proof. unf ds_union_chunk. Qed.
Global Hint Resolve ds_union_chunk_ref : refine.
Lemma union_chunks_ref : forall mem it_l it_r base x y out pos,
  refines (union_chunks true mem it_l it_r base x y out pos) (union_chunks false mem it_l it_r base x y out pos).
Proof. unf union_chunks. Qed.
Global Hint Resolve union_chunks_ref : refine.
Lemma pairwise_union_loop_ref : forall fuel mem it_l it_r x y out pos,
  refines (pairwise_union_loop fuel true mem it_l it_r x y out pos) (pairwise_union_loop fuel false mem it_l it_r x y out pos).
Proof. induction fuel; intros; cbn [pairwise_union_loop]; ref. Qed.
Global Hint Resolve pairwise_union_loop_ref : refine.
Lemma decode_rest_loop_ref : forall fuel mem it out pos,
  refines (decode_rest_loop fuel true mem it out pos) (decode_rest_loop fuel false mem it out pos).
Proof. induction fuel; intros; cbn [decode_rest_loop]; ref. Qed.
Global Hint Resolve decode_rest_loop_ref : refine.
Lemma pairwise_union_ref : forall mem l r x y out pos,
  refines (pairwise_union true mem l r x y out pos) (pairwise_union false mem l r x y out pos).
Proof. unf pairwise_union. Qed.
Global Hint Resolve pairwise_union_ref : refine.
Lemma and_rest_ref : forall its mem header tmp bitmap cardinality,
  refines (and_rest true mem its header tmp bitmap cardinality) (and_rest false mem its header tmp bitmap cardinality).
Proof. induction its; intros; cbn [and_rest]; ref. Qed.
Global Hint Resolve and_rest_ref : refine.
Lemma intersect_headers_ref : forall n mem its headers i tmp bitmap out pos,
  refines (intersect_headers n true mem its headers i tmp bitmap out pos) (intersect_headers n false mem its headers i tmp bitmap out pos).
Proof. induction n; intros; cbn [intersect_headers]; ref. Qed.
Global Hint Resolve intersect_headers_ref : refine.
Lemma intersection_sorted_ref : forall mem seqs headers tmp bitmap out pos,
  refines (intersection_sorted true mem seqs headers tmp bitmap out pos) (intersection_sorted false mem seqs headers tmp bitmap out pos).
Proof. unf intersection_sorted. Qed.
Global Hint Resolve intersection_sorted_ref : refine.
Lemma merge_all_ref : forall its mem header first tmp bitmap,
  refines (merge_all true mem its header first tmp bitmap) (merge_all false mem its header first tmp bitmap).
Proof. induction its; intros; cbn [merge_all]; ref. Qed.
Global Hint Resolve merge_all_ref : refine.
Lemma union_loop_ref : forall fuel mem its header tmp bitmap out pos,
  refines (union_loop fuel true mem its header tmp bitmap out pos) (union_loop fuel false mem its header tmp bitmap out pos).
Proof. induction fuel; intros; cbn [union_loop]; ref. Qed.
Global Hint Resolve union_loop_ref : refine.
Lemma union_many_ref : forall mem seqs tmp bitmap out pos,
  refines (union_many true mem seqs tmp bitmap out pos) (union_many false mem seqs tmp bitmap out pos).
Proof. unf union_many. Qed.
Global Hint Resolve union_many_ref : refine.
Lemma index_build_loop_ref : forall fuel params data i block stats m_offsets m_sequences,
  refines (index_build_loop fuel true params data i block stats m_offsets m_sequences) (index_build_loop fuel false params data i block stats m_offsets m_sequences).
Proof. induction fuel; intros; cbn [index_build_loop]; ref. Qed.
Global Hint Resolve index_build_loop_ref : refine.
Lemma index_build_ref : forall params data,
  refines (index_build true params data) (index_build false params data).
Proof. unf index_build. Qed.
Global Hint Resolve index_build_ref : refine.
Lemma index_get_ref : forall mem ix i,
  refines (index_get true mem ix i) (index_get false mem ix i).
Proof. unf index_get. Qed.
Global Hint Resolve index_get_ref : refine.

Lemma c27_refines_build :
  (forall out data,
     refines (fst (builder_build true out data)) (fst (builder_build false out data))
     /\ (fst (builder_build true out data) <> Abort -> builder_build true out data = builder_build false out data))
  /\ (forall params data, refines (index_build true params data) (index_build false params data)).
Proof. split; [exact builder_build_ref|exact index_build_ref]. Qed.
Lemma c27_refines_queries : forall mem s,
  (forall out pos, refines (decode true mem s out pos) (decode false mem s out pos))
  /\ (forall out pos, refines (uncompress true mem s out pos) (uncompress false mem s out pos))
  /\ (forall v, refines (contains true mem s v) (contains false mem s v))
  /\ (forall i v, refines (select true mem s i v) (select false mem s i v))
  /\ (forall v, refines (next_geq true mem s v) (next_geq false mem s v))
  /\ (forall buf p, refines (enum_init true mem buf s p) (enum_init false mem buf s p))
  /\ (forall k e, refines (enum_steps k true mem e) (enum_steps k false mem e))
  /\ (forall g qs, refines (ng_run true mem g qs) (ng_run false mem g qs))
  /\ (forall ix i, refines (index_get true mem ix i) (index_get false mem ix i)).
Proof. intros. repeat split; intros; auto with refine. Qed.
Lemma c27_refines_sets : forall mem,
  (forall tbl s t x out pos,
     refines (pairwise_intersection tbl true mem s t x out pos) (pairwise_intersection tbl false mem s t x out pos))
  /\ (forall s t x y out pos,
     refines (pairwise_union true mem s t x y out pos) (pairwise_union false mem s t x y out pos))
  /\ (forall seqs h t b out pos,
     refines (intersection_sorted true mem seqs h t b out pos) (intersection_sorted false mem seqs h t b out pos))
  /\ (forall seqs t b out pos,
     refines (union_many true mem seqs t b out pos) (union_many false mem seqs t b out pos)).
Proof. intros. repeat split; intros; auto with refine. Qed.

Lemma same_ok A (f : bool -> res A) r : refines (f true) (f false) -> f true = Ok r -> same_in_both f.
Proof. intros [H|H] E; [congruence|]. exists r. split; congruence. Qed.

Lemma c27_valid_build : forall out S, valid S ->
  exists stats enc, forall dbg, builder_build dbg out S = (Ok stats, enc).
Proof.
  intros out S V. destruct (c01_build_decode true out S V) as (st & enc & E & _).
  exists st, (out ++ enc). intros [|]; auto. rewrite <- E. symmetry. apply builder_build_ref. rewrite E. easy.
Qed.
Lemma c27_valid_index : forall params u Ls,
  Forall valid (filter (fun L => pass params (zlen L) (last L 0)) Ls) -> Forall short Ls ->
  same_in_both (fun dbg => index_build dbg params (collection u Ls)).
Proof.
  intros params u Ls V HS. destruct (index_build_ok true params u Ls V HS) as (st & E & _).
  eapply same_ok; [apply index_build_ref|exact E].
Qed.
Lemma c27_valid_queries : forall mem a S, valid S -> stored 31 mem a S ->
  exists s, seq_at mem a = Ok s
    /\ (forall out pos, 0 <= pos -> pos + zlen S + 23 <= zlen out ->
          same_in_both (fun dbg => decode dbg mem s out pos))
    /\ (forall v, is_u32 v -> same_in_both (fun dbg => contains dbg mem s v))
    /\ (forall i value, is_u32 i -> same_in_both (fun dbg => select dbg mem s i value))
    /\ (forall v, is_u32 v -> same_in_both (fun dbg => next_geq dbg mem s v))
    /\ (forall p buf k, zlen buf = 65536 -> Z.of_nat k < zlen S + 4294967296 ->
          same_in_both (fun dbg => let! e := enum_init dbg mem buf s p in enum_steps k dbg mem e))
    /\ (forall out pos, 0 <= pos -> (forall v, In v S -> pos + 1024 * (v / 65536 + 1) <= zlen out) ->
          same_in_both (fun dbg => uncompress dbg mem s out pos)).
Proof.
  intros mem a S V St. pose proof (stored_31_0 _ _ _ St) as St0.
  destruct (c04_size mem a S V St0) as (s & Es & _). exists s. split; auto.
  assert (U : forall s', seq_at mem a = Ok s' -> s' = s) by congruence.
  split; [|split; [|split; [|split; [|split]]]].
  - intros out pos Hp Ho. destruct (decode_ok true mem a S out pos V St Hp Ho) as (s' & b & E & D & _).
    apply U in E. subst s'. eapply same_ok; [auto with refine|exact D].
  - intros v Hv. destruct (contains_ok true mem a S v V St0 Hv) as (s' & E & D).
    apply U in E. subst s'. eapply same_ok; [auto with refine|exact D].
  - intros i value Hi. destruct (c06_select true mem a S i value V St0 Hi) as (s' & E & D1 & D2).
    apply U in E. subst s'. destruct (Z_lt_le_dec i (zlen S)).
    + destruct (P_Fin5.znth_lt_some _ S i) as [x Ex]; [unfold is_u32 in Hi; lia|].
      eapply same_ok; [auto with refine|exact (D1 x Ex)].
    + eapply same_ok; [auto with refine|exact (D2 l)].
  - intros v Hv. destruct (next_geq_ok true mem a S v V St0 Hv) as (s' & E & D).
    apply U in E. subst s'. eapply same_ok; [auto with refine|exact D].
  - intros p buf k Hb Hk. destruct (c09_enumerator true mem a S p buf k V St Hb Hk) as (s' & e0 & e & E & D1 & D2 & _).
    apply U in E. subst s'. eapply same_ok with (r := e).
    + apply refines_bind; [auto with refine|intro; auto with refine].
    + cbv beta. rewrite D1. exact D2.
  - intros out pos Hp Ho. destruct (c08_uncompress true mem a S out pos V St0 Hp Ho) as (s' & o & E & D & _).
    apply U in E. subst s'. eapply same_ok; [auto with refine|exact D].
Qed.
Lemma c27_valid_sets : forall tbl mem a b S T, shuffle_table_ok tbl ->
  valid S -> valid T -> stored 31 mem a S -> stored 31 mem b T -> apart a S b T ->
  exists s t, seq_at mem a = Ok s /\ seq_at mem b = Ok t
    /\ (forall x out pos, zlen x = 1024 -> 0 <= pos -> pos + Z.min (zlen S) (zlen T) + 23 <= zlen out ->
          same_in_both (fun dbg => pairwise_intersection tbl dbg mem s t x out pos))
    /\ (forall x y out pos, zlen x = 4 -> zlen y = 1024 -> 0 <= pos -> pos + zlen S + zlen T + 23 <= zlen out ->
          same_in_both (fun dbg => pairwise_union dbg mem s t x y out pos)).
Proof.
  intros tbl mem a b S T Ht VS VT SS ST Ap.
  destruct (c04_size mem a S VS (stored_31_0 _ _ _ SS)) as (s & Es & _).
  destruct (c04_size mem b T VT (stored_31_0 _ _ _ ST)) as (t & Et & _).
  exists s, t. split; auto. split; auto. split.
  - intros x out pos Hx Hp Ho.
    destruct (c11_intersection tbl mem a b S T Ht VS VT SS ST) as (e & En & R).
    assert (L : zlen e <= Z.min (zlen S) (zlen T)).
    { apply Z.min_glb; apply P_Fin5.sorted_incl_len; try apply En; intros v Hv; apply (proj1 (proj2 En v) Hv). }
    destruct (R true x out pos Hx Hp ltac:(lia)) as (s' & t' & x' & o' & E1 & E2 & D & _).
    assert (s' = s) by congruence. assert (t' = t) by congruence. subst s' t'.
    eapply same_ok; [auto with refine|exact D].
  - intros x y out pos Hx Hy Hp Ho.
    destruct (c12_union mem a b S T VS VT SS ST Ap) as (e & En & R).
    assert (L : zlen e <= zlen (S ++ T)).
    { apply P_Fin5.sorted_incl_len; try apply En; intros v Hv. apply in_or_app. apply (proj1 (proj2 En v) Hv). }
    rewrite zlen_app in L.
    destruct (R true x y out pos Hx Hy Hp ltac:(lia)) as (s' & t' & x' & y' & o' & E1 & E2 & D & _).
    assert (s' = s) by congruence. assert (t' = t) by congruence. subst s' t'.
    eapply same_ok; [auto with refine|exact D].
Qed.
Lemma c27_valid_many : forall mem addrs Ss,
  Ss <> [] -> Forall valid Ss -> Forall2 (stored 0 mem) addrs Ss ->
  exists seqs, Forall2 (fun a s => seq_at mem a = Ok s) addrs seqs
    /\ (forall seqs' headers tmp bitmap out pos, sort_outcome mem seqs seqs' ->
          zlen headers = 65536 -> zlen tmp = 1024 -> zlen bitmap = 1024 ->
          0 <= pos -> pos + zlen (hd [] Ss) <= zlen out ->
          same_in_both (fun dbg => intersection_sorted dbg mem seqs' headers tmp bitmap out pos))
    /\ (forall tmp bitmap out pos, zlen tmp = 1024 -> zlen bitmap = 1024 ->
          0 <= pos -> pos + total zlen Ss <= zlen out ->
          same_in_both (fun dbg => union_many dbg mem seqs tmp bitmap out pos)).
Proof.
  intros mem addrs Ss N V St.
  destruct (c13_intersection_many mem addrs Ss N V St) as (seqs & e & R & En & _ & I).
  destruct (c14_union_many mem addrs Ss N V St) as (useqs & u & UR & Un & U).
  assert (useqs = seqs) by (eapply reads_unique; eauto). subst useqs.
  exists seqs. split; auto. split.
  - intros seqs' headers tmp bitmap out pos Q H1 H2 H3 H4 H5.
    assert (L : zlen e <= zlen (hd [] Ss)).
    { destruct Ss as [|S Ss]; [congruence|]. cbn [hd]. apply P_Fin5.sorted_incl_len; [apply En|].
      intros x Hx. apply (proj1 (proj2 En x) Hx). now left. }
    destruct (I seqs' Q true headers tmp bitmap out pos) as (h1 & t1 & b1 & o1 & E1 & _); auto; try lia.
    eapply same_ok; [auto with refine|exact E1].
  - intros tmp bitmap out pos H1 H2 H3 H4.
    assert (L : zlen u <= total zlen Ss).
    { apply Z.le_trans with (zlen (concat Ss)).
      - apply P_Fin5.sorted_incl_len; [apply Un|]. intros x Hx. destruct (proj1 (proj2 Un x) Hx) as (S & HS & HI).
        apply in_concat. eauto.
      - clear. induction Ss as [|S Ss IH]; [reflexivity|]. cbn [concat total fold_right].
        rewrite zlen_app. unfold total in IH. lia. }
    destruct (U true tmp bitmap out pos) as (t1 & b1 & o1 & E1 & _); auto; try lia.
    eapply same_ok; [auto with refine|exact E1].
Qed.
