(** Model of include/builder.hpp:223-281 (s_index::builder), include/s_index.hpp
    and of the save performed by src/build.cpp through essentials::visit/save. *)
From Verif Require Import Base Hw M_Util M_Seq M_Build.

(** builder.hpp:241-255; [data] is the collection (32-bit words).  Returns
    (block, stats, m_offsets, m_sequences).  Progress messages are not modelled. *)
Fixpoint index_build_loop (fuel : nat) (dbg : bool) (params : parameters) (data : list Z)
    (i : Z) (block : list Z) (stats : statistics) (m_offsets m_sequences : list Z)
  : res (list Z * statistics * list Z * list Z) :=
  if i <? zlen data then
    match fuel with
    | O => Fuel
    | S f =>
        let! n := vget data i in
        let! universe := vget data (i + n) in
        let! (block, stats, m_offsets, m_sequences) :=
          (if pass params n universe then
             let seq := firstn (Z.to_nat n) (skipn (Z.to_nat (i + 1)) data) in
             let! (block, stats, m_sequences) :=
               encode_sequence dbg seq block stats m_sequences in
             Ok (block, stats, m_offsets ++ [zlen m_sequences], m_sequences)
           else Ok (block, stats, m_offsets, m_sequences)) in
        index_build_loop f dbg params data (i + u32 (n + 1)) block stats m_offsets m_sequences
    end
  else Ok (block, stats, m_offsets, m_sequences).

(** builder.hpp:227-269; the builder starts with empty m_offsets and m_sequences
    (one build per builder).  Returns (stats, m_offsets, m_sequences). *)
Definition index_build (dbg : bool) (params : parameters) (data : list Z)
  : res (statistics * list Z * list Z) :=
  let! d0 := vget data 0 in
  let! _ := assert_ dbg (d0 =? 1) in
  let! d1 := vget data 1 in
  let m_offsets := [d1] in
  let m_offsets := m_offsets ++ [0] in
  let! (_, stats, m_offsets, m_sequences) :=
    index_build_loop (length data) dbg params data 2 [] stats0 m_offsets [] in
  let m_offsets := removelast m_offsets in
  let stats := finish_stats stats in
  let stats := sadd F_bits (zlen m_offsets * 64) stats in
  Ok (stats, m_offsets, m_sequences).

(** builder.hpp:271-275 through the essentials saver (external): each vector is
    its 8-byte length followed by its raw bytes *)
Definition index_file (m_offsets m_sequences : list Z) : list Z :=
  le_bytes 8 (zlen m_offsets) ++ bytes_of_u64s m_offsets
  ++ le_bytes 8 (zlen m_sequences) ++ m_sequences.

(** builder.hpp:294-297 through the essentials saver *)
Definition sequence_file (m_out : list Z) : list Z := le_bytes 8 (zlen m_out) ++ m_out.

(** s_index.hpp:39-44; pointers are addresses *)
Record s_index := mkIndex {
  ix_offsets : Z;
  ix_sequences : Z;
  ix_size : Z;
  ix_universe : Z
}.

(** s_index.hpp:28-37; the file is mapped at address [f] *)
Definition index_mmap (mem : list Z) (f : Z) : res s_index :=
  let! size := rd64 mem f in
  let! universe := rd64 mem (f + 8) in
  Ok (mkIndex (f + 16) (f + size * 8 + 8 + 8) (u64 (size - 1)) universe).

(** s_index.hpp:23-26: operator[] *)
Definition index_get (dbg : bool) (mem : list Z) (ix : s_index) (i : Z) : res s_sequence :=
  let! _ := assert_ dbg (i <? ix_size ix) in
  let! o := rd64 mem (ix_offsets ix + 8 * i) in
  seq_at mem (ix_sequences ix + o).
