(** C57: queries that name a list the index does not have, and set operations on no sequences. *)
From Verif Require Import Base Hw Spec Format Holds Told Beyond M_Util M_Build M_Seq M_Query M_Many M_Index M_Calls M_Tests
  M_Drivers P_Ex P_Tests5 P_Beyond.
Local Open Scope Z_scope.

(** With assertions operator[] stops the program; in any memory. *)
Theorem C57_debug : forall mem ix i, ix_size ix <= i -> index_get true mem ix i = Abort.
Proof. exact get_debug. Qed.
Print Assumptions C57_debug.

(** Without them, the number of lists itself gives a sequence that starts where the file ends: the number of bytes that
    follow stands where the next offset would be. *)
Theorem C57_next : forall dbg params u Ls mem f ix,
  is_u32 u -> Forall valid (kept_lists params Ls) -> holds_index dbg params u Ls 0 mem f ->
  let Ks := kept_lists params Ls in
  index_mmap mem f = Ok ix -> index_get false mem ix (zlen Ks) = seq_at mem (f + zlen (f_index u Ks)).
Proof. exact c57_next. Qed.
Print Assumptions C57_next.

(** Larger numbers take eight bytes of the encodings, or of what follows the file, for an offset [o]. *)
Theorem C57_later : forall dbg params u Ls mem f ix i o,
  is_u32 u -> Forall valid (kept_lists params Ls) -> holds_index dbg params u Ls 0 mem f ->
  let Ks := kept_lists params Ls in
  index_mmap mem f = Ok ix -> rd64 mem (f + 16 + 8 * i) = Ok o ->
  index_get false mem ix i = seq_at mem (f + 24 + 8 * zlen Ks + o).
Proof. exact c57_later. Qed.
Print Assumptions C57_later.

Theorem C57_nowhere : forall dbg params u Ls mem f ix i,
  is_u32 u -> Forall valid (kept_lists params Ls) -> holds_index dbg params u Ls 0 mem f ->
  index_mmap mem f = Ok ix -> nowhere mem f u (kept_lists params Ls) i -> index_get false mem ix i = UB.
Proof. exact get_nowhere. Qed.
Print Assumptions C57_nowhere.

(** contains.cpp, after any number of queries about existing lists *)
Theorem C57_contains : forall dbg params u Ls mem f num input good q rest,
  is_u32 u -> Forall valid (kept_lists params Ls) -> holds_index dbg params u Ls 0 mem f ->
  let Ks := kept_lists params Ls in
  pairs_read num input (good ++ q :: rest) -> Forall (fun q => is_u32 (fst q) /\ is_u32 (snd q)) (good ++ q :: rest) ->
  positions Ks good ->
  (zlen Ks <= fst q -> contains_cpp true mem f num input = Abort)
  /\ (nowhere mem f u Ks (fst q) -> contains_cpp false mem f num input = UB).
Proof. exact c57_contains. Qed.
Print Assumptions C57_contains.

(** intersect.cpp and union.cpp: the queries before need the 31 readable bytes behind the file *)
Theorem C57_intersect : forall dbg tbl params u Ls mem f slack num input good q rest,
  is_u32 u -> Forall valid (kept_lists params Ls) -> holds_index dbg params u Ls slack mem f ->
  0 <= slack -> good = [] \/ 31 <= slack -> shuffle_table_ok tbl ->
  let Ks := kept_lists params Ls in
  pairs_read num input (good ++ q :: rest) -> Forall (fun q => is_u32 (fst q) /\ is_u32 (snd q)) (good ++ q :: rest) ->
  pairs_of Ks good -> Forall (fun q => common (list_of Ks (fst q)) (list_of Ks (snd q)) + 23 <= u) good ->
  (zlen Ks <= fst q \/ zlen Ks <= snd q -> intersect_cpp tbl true mem f num input = Abort)
  /\ (nowhere mem f u Ks (fst q) \/ nowhere mem f u Ks (snd q) -> intersect_cpp tbl false mem f num input = UB).
Proof. exact c57_intersect. Qed.
Print Assumptions C57_intersect.

Theorem C57_union : forall dbg tbl params u Ls mem f slack num input good q rest,
  is_u32 u -> Forall valid (kept_lists params Ls) -> holds_index dbg params u Ls slack mem f ->
  0 <= slack -> good = [] \/ 31 <= slack ->
  let Ks := kept_lists params Ls in
  pairs_read num input (good ++ q :: rest) -> Forall (fun q => is_u32 (fst q) /\ is_u32 (snd q)) (good ++ q :: rest) ->
  pairs_of Ks good ->
  Forall (fun q => zlen (list_of Ks (fst q)) + zlen (list_of Ks (snd q)) - common (list_of Ks (fst q)) (list_of Ks (snd q))
                   + 23 <= u) good ->
  (zlen Ks <= fst q \/ zlen Ks <= snd q -> union_cpp tbl true mem f num input = Abort)
  /\ (nowhere mem f u Ks (fst q) \/ nowhere mem f u Ks (snd q) -> union_cpp tbl false mem f num input = UB).
Proof. exact c57_union. Qed.
Print Assumptions C57_union.

(** A test program that ends normally in a debug build was asked about existing lists only; in any memory. *)
Theorem C57_tests : forall tbl sort mem f,
  (forall qs r, test_intersect tbl sort true mem f qs = Ok r ->
     exists ix, index_mmap mem f = Ok ix /\ Forall (fun q => fst q < ix_size ix /\ snd q < ix_size ix) qs)
  /\ (forall qs r, test_union tbl true mem f qs = Ok r ->
     exists ix, index_mmap mem f = Ok ix /\ Forall (fun q => fst q < ix_size ix /\ snd q < ix_size ix) qs)
  /\ (forall qs r, test_intersect_many tbl sort true mem f qs = Ok r ->
     exists ix, index_mmap mem f = Ok ix /\ Forall (fun q => 2 <= zlen q -> Forall (fun i => i < ix_size ix) q) qs)
  /\ (forall qs r, test_union_many tbl true mem f qs = Ok r ->
     exists ix, index_mmap mem f = Ok ix /\ Forall (fun q => 2 <= zlen q -> Forall (fun i => i < ix_size ix) q) qs).
Proof. exact c57_tests. Qed.
Print Assumptions C57_tests.

(** A release build need not notice: this index has two lists, and a query about list number 8 is answered. *)
Theorem C57_release_refuted : exists dbg params u Ls mem f i v,
  holds_index dbg params u Ls 0 mem f /\ Forall valid (kept_lists params Ls) /\ is_u32 u
  /\ zlen (kept_lists params Ls) <= i /\ contains_cpp false mem f 1 [i; v] = Ok (1, 4).
Proof. exact c57_release_refuted. Qed.
Print Assumptions C57_release_refuted.

(** The intersection and the union of no sequences are undefined, in either build. *)
Theorem C57_none : forall dbg mem headers tmp bitmap out pos,
  (forall seqs, sort_outcome mem [] seqs -> intersection_sorted dbg mem seqs headers tmp bitmap out pos = UB)
  /\ union_many dbg mem [] tmp bitmap out pos = UB.
Proof. exact c57_none. Qed.
Print Assumptions C57_none.

Example C57_example : kept_lists t_params bx_lists = [exA; exB] /\ Forall valid [exA; exB]
  /\ holds_index true t_params 200000 bx_lists 0 bx_mem 0
  /\ nowhere bx_mem 0 200000 [exA; exB] 2 /\ nowhere bx_mem 0 200000 [exA; exB] 19
  /\ contains_cpp true bx_mem 0 9 [1; 20; 0; 7; 8; 7] = Abort
  /\ contains_cpp false bx_mem 0 9 [1; 20; 0; 7; 8; 7] = Ok (3, 4 * 3)
  /\ contains_cpp false bx_mem 0 9 [1; 20; 2; 7; 8; 7] = UB
  /\ contains_cpp false bx_mem 0 9 [1; 20; 19; 7; 8; 7] = UB
  /\ intersect_cpp ex_tbl true bx_mem 0 9 [2; 1] = Abort
  /\ intersect_cpp ex_tbl false bx_mem 0 9 [0; 2] = UB
  /\ union_cpp ex_tbl true bx_mem 0 9 [0; 8] = Abort.
Proof. exact c57_ex. Qed.
