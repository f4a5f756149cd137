(** C51: addresses modulo 8.  The readers access the number of chunks and the chunk headers through pointers to
    16-bit words, the skip pointers through a pointer to 32-bit words, and bitmaps through pointers to 64-bit words
    (s_sequence.hpp:17-19, reinterpret_cast in decode.hpp, contains.hpp, select.hpp, util.hpp).  The model allows
    that at every address, as the target machine does; the language and its sanitizers do not.
    [f], the address of the file, is a multiple of 8: files are mapped at the start of a page.
    [loose_all] and [loose_before] are in Places.v. *)
From Verif Require Import Base Spec Format Places Holds M_Util M_Build M_Seq M_Index P_Align.
Local Open Scope Z_scope.

(** where the headers of the i-th list lie, and the data of its chunk [h], or of the next one if there is none *)
Theorem C51_places : forall dbg params u Ls mem f ix i S dbg' s,
  is_u32 u -> Forall valid (kept_lists params Ls) -> holds_index dbg params u Ls 0 mem f -> f mod 8 = 0 ->
  index_mmap mem f = Ok ix -> znth (kept_lists params Ls) i = Some S -> index_get dbg' mem ix i = Ok s ->
  let p := total loose_all (firstn (Z.to_nat i) (kept_lists params Ls)) + 2 in
  s_pointers s mod 8 = p mod 8 /\ s_header s mod 8 = p mod 8
  /\ forall h it, 0 <= h <= 65536 -> it_advance mem (seq_begin s) h = Ok it ->
       i_data it mod 8 = (p + loose_before S h) mod 8.
Proof. exact c51_places. Qed.
Print Assumptions C51_places.

(** The skip pointers of the first list are never aligned, nor are its bitmaps up to the first chunk of blocks. *)
Theorem C51_first : forall dbg params u Ls mem f ix S dbg' s,
  is_u32 u -> Forall valid (kept_lists params Ls) -> holds_index dbg params u Ls 0 mem f -> f mod 8 = 0 ->
  index_mmap mem f = Ok ix -> znth (kept_lists params Ls) 0 = Some S -> index_get dbg' mem ix 0 = Ok s ->
  s_pointers s mod 4 = 2
  /\ forall h it, 0 <= h <= 65536 -> (forall x, 0 <= x < h -> as_blocks S x = false) ->
       it_advance mem (seq_begin s) h = Ok it -> i_data it mod 8 = 2.
Proof. exact c51_first. Qed.
Print Assumptions C51_first.

(** The chunk headers lie at odd addresses exactly if the lists before have an odd number of listed values. *)
Theorem C51_odd : forall dbg params u Ls mem f ix i S dbg' s,
  is_u32 u -> Forall valid (kept_lists params Ls) -> holds_index dbg params u Ls 0 mem f -> f mod 8 = 0 ->
  index_mmap mem f = Ok ix -> znth (kept_lists params Ls) i = Some S -> index_get dbg' mem ix i = Ok s ->
  s_header s mod 2 = total listed_all (firstn (Z.to_nat i) (kept_lists params Ls)) mod 2.
Proof. exact c51_odd. Qed.
Print Assumptions C51_odd.

(** Without chunks of blocks, only the bitmaps of every fourth list are aligned. *)
Theorem C51_bitmaps : forall dbg params u Ls mem f ix i S dbg' s h it,
  is_u32 u -> Forall valid (kept_lists params Ls) -> holds_index dbg params u Ls 0 mem f -> f mod 8 = 0 ->
  (forall L x, In L (kept_lists params Ls) -> 0 <= x < 65536 -> as_blocks L x = false) ->
  index_mmap mem f = Ok ix -> znth (kept_lists params Ls) i = Some S -> index_get dbg' mem ix i = Ok s ->
  0 <= h <= 65536 -> it_advance mem (seq_begin s) h = Ok it ->
  (i_data it mod 8 = 0 <-> i mod 4 = 3).
Proof. exact c51_bitmaps. Qed.
Print Assumptions C51_bitmaps.

(** It is not true that bitmaps are aligned: an index of one list whose only chunk is a bitmap. *)
Theorem C51_aligned_refuted : forall dbg, exists S mem ix s it,
  valid S /\ holds_index dbg default_params 65535 [S] 0 mem 0 /\ kept_lists default_params [S] = [S]
  /\ index_mmap mem 0 = Ok ix /\ index_get dbg mem ix 0 = Ok s
  /\ it_advance mem (seq_begin s) 0 = Ok it /\ it_type mem it = Ok t_dense
  /\ i_data it mod 8 = 2.
Proof. exact (c51_aligned_refuted (Z.to_nat 40000) (Z2Nat.id 40000 ltac:(discriminate))). Qed.
Print Assumptions C51_aligned_refuted.

(** the second list of an index of {3} and {4} *)
Example C51_example :
  (let! (_, o, q) := index_build true default_params (collection 9 [[3]; [4]]) in
   let mem := index_file o q in
   let! ix := index_mmap mem 0 in
   let! s := index_get true mem ix 1 in
   Ok (s_header s)) = Ok 55
  /\ listed_in [3] 0 = 1 /\ loose [3] 0 = 3.
Proof. vm_compute. repeat split. Qed.
