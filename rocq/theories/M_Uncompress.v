(** Model of include/uncompress.hpp, uncompress_chunk_and_intersect.hpp and
    uncompress_chunk_and_merge.hpp.  [out] is a buffer of 64-bit words, [pos] the
    word index the C++ pointer designates. *)
From Verif Require Import Base Hw M_Util M_Seq.

(** uncompress.hpp:15-27: the asm loop (do ... while (begin != end)) *)
Fixpoint uncompress_sparse_block_loop (fuel : nat) (mem : list Z) (begin end_ : Z)
    (out : list Z) (pos : Z) : res (list Z) :=
  match fuel with
  | O => Fuel
  | S f =>
      let! p := rd8 mem begin in            (* movzbq (begin), pos *)
      let offset := shrx 6 p in             (* shrx *)
      let! load := vget out (pos + offset) in
      let load := bts p load in             (* bts *)
      let! out := vset out (pos + offset) load in
      let begin := begin + 1 in
      if begin =? end_ then Ok out          (* cmp; jnz 1b *)
      else uncompress_sparse_block_loop f mem begin end_ out pos
  end.

(** uncompress.hpp:7-28 *)
Definition uncompress_sparse_block (mem : list Z) (begin cardinality : Z)
    (out : list Z) (pos : Z) : res (list Z) :=
  uncompress_sparse_block_loop (Z.to_nat cardinality) mem begin (begin + cardinality) out pos.

(** the [n] 64-bit words at address [a] *)
Fixpoint load_words (n : nat) (mem : list Z) (a : Z) : res (list Z) :=
  match n with
  | O => Ok []
  | S n' =>
      let! w := rd64 mem a in
      let! r := load_words n' mem (a + 8) in
      Ok (w :: r)
  end.

(** memcpy(out, begin, 8 * nwords) *)
Definition memcpy_words (mem : list Z) (begin nwords : Z) (out : list Z) (pos : Z)
  : res (list Z) :=
  let! ws := load_words (Z.to_nat nwords) mem begin in
  store out pos ws.

(** uncompress.hpp:30-32: memcpy of block_size / 8 bytes *)
Definition uncompress_dense_block (mem : list Z) (begin : Z) (out : list Z) (pos : Z)
  : res (list Z) :=
  memcpy_words mem begin (block_size / 8 / 8) out pos.

(** uncompress.hpp:39-59; [bitmap] is the current word index *)
Fixpoint uncompress_sparse_chunk_loop (n : nat) (mem : list Z) (begin data bitmap prev : Z)
    (out : list Z) : res (list Z) :=
  match n with
  | O => Ok out
  | S n' =>
      let! id := rd8 mem begin in
      let! c := rd8 mem (begin + 1) in
      let c := c + 1 in
      let bitmap := bitmap + (id - prev) * block_size_in_64bit_words in
      let! out :=
        (if block_type c =? t_sparse
         then uncompress_sparse_block mem data c out bitmap
         else uncompress_dense_block mem data out bitmap) in
      uncompress_sparse_chunk_loop n' mem (begin + 2) (data + bytes_by_cardinality c)
        bitmap id out
  end.

(** uncompress.hpp:34-60 *)
Definition uncompress_sparse_chunk (dbg : bool) (mem : list Z) (begin blocks : Z)
    (out : list Z) (pos : Z) : res (list Z) :=
  let! _ := assert_ dbg ((1 <=? blocks) && (blocks <=? 256)) in
  uncompress_sparse_chunk_loop (Z.to_nat blocks) mem begin (begin + blocks * 2) pos 0 out.

(** uncompress.hpp:62-64: memcpy of chunk_size / 8 bytes *)
Definition uncompress_dense_chunk (mem : list Z) (begin : Z) (out : list Z) (pos : Z)
  : res (list Z) :=
  memcpy_words mem begin (chunk_size / 8 / 8) out pos.

(** uncompress.hpp:66-70, and uncompress_chunk_and_merge.hpp:24-28;
    line 75 with x = 0 *)
Fixpoint fill_loop (n : nat) (i x : Z) (out : list Z) (pos : Z) : res (list Z) :=
  match n with
  | O => Ok out
  | S n' => let! out := vset out (pos + i) x in fill_loop n' (i + 1) x out pos
  end.
Definition uncompress_full_chunk (out : list Z) (pos : Z) : res (list Z) :=
  fill_loop (Z.to_nat chunk_size_in_64bit_words) 0 (u64 (-1)) out pos.

(** uncompress.hpp:72-92; returns (buffer, cardinality) *)
Definition uncompress_chunk (dbg : bool) (mem : list Z) (it : iterator)
    (out : list Z) (pos : Z) : res (list Z * Z) :=
  let! t := it_type mem it in
  let! out :=
    (if t =? t_sparse then
       let! out := fill_loop (Z.to_nat 1024) 0 0 out pos in
       let! blocks := it_blocks mem it in
       uncompress_sparse_chunk dbg mem (i_data it) blocks out pos
     else if t =? t_dense then uncompress_dense_chunk mem (i_data it) out pos
     else if t =? t_full then uncompress_full_chunk out pos
     else UB) in
  let! c := it_cardinality mem it in
  Ok (out, c).

(** uncompress.hpp:98-104 *)
Fixpoint uncompress_loop (n : nat) (dbg : bool) (mem : list Z) (it : iterator)
    (prev uncompressed : Z) (out : list Z) (pos : Z) : res (list Z * Z) :=
  match n with
  | O => Ok (out, uncompressed)
  | S n' =>
      let! id := it_id mem it in
      let id := u16 id in
      let pos := pos + (id - prev) * chunk_size_in_64bit_words in
      let! (out, c) := uncompress_chunk dbg mem it out pos in
      let! it := it_next mem it in
      uncompress_loop n' dbg mem it id (uncompressed + c) out pos
  end.

(** uncompress.hpp:94-107 s_sequence::uncompress *)
Definition uncompress (dbg : bool) (mem : list Z) (s : s_sequence) (out : list Z) (pos : Z)
  : res (list Z * Z) :=
  let! (out, u) :=
    uncompress_loop (Z.to_nat (s_chunks s)) dbg mem (seq_begin s) 0 0 out pos in
  let! _ := assert_ dbg (0 <? u) in
  Ok (out, u).

(** ** uncompress_chunk_and_intersect.hpp *)

(** lines 41-44 = 97-100: out[i] &= in[i]; c += popcount(out[i]) *)
Fixpoint and_words_loop (n : nat) (word : Z -> res Z) (i c : Z) (out : list Z)
  : res (list Z * Z) :=
  match n with
  | O => Ok (out, c)
  | S n' =>
      let! o := vget out i in
      let! w := word i in
      let o := Z.land o w in
      let! out := vset out i o in
      and_words_loop n' word (i + 1) (u32 (c + popcount o)) out
  end.

(** lines 35-45; [tmp] is the previous content of the static vector; returns
    (tmp, out, c).  std::fill sets all of it to 0. *)
Definition uncompress_sparse_chunk_and_intersect (dbg : bool) (mem : list Z)
    (begin blocks : Z) (tmp out : list Z) : res (list Z * list Z * Z) :=
  let tmp := repeat 0 (length tmp) in
  let! tmp := uncompress_sparse_chunk dbg mem begin blocks tmp 0 in
  let! (out, c) := and_words_loop (Z.to_nat chunk_size_in_64bit_words) (words_vec tmp) 0 0 out in
  Ok (tmp, out, c).

(** lines 93-102 *)
Definition uncompress_dense_chunk_and_intersect (mem : list Z) (begin : Z) (out : list Z)
  : res (list Z * Z) :=
  and_words_loop (Z.to_nat chunk_size_in_64bit_words) (words_mem mem begin) 0 0 out.

(** lines 104-119 *)
Definition uncompress_chunk_and_intersect (dbg : bool) (mem : list Z) (it : iterator)
    (tmp out : list Z) (cardinality : Z) : res (list Z * list Z * Z) :=
  let! t := it_type mem it in
  if t =? t_sparse then
    let! blocks := it_blocks mem it in
    uncompress_sparse_chunk_and_intersect dbg mem (i_data it) blocks tmp out
  else if t =? t_dense then
    let! (out, c) := uncompress_dense_chunk_and_intersect mem (i_data it) out in
    Ok (tmp, out, c)
  else if t =? t_full then Ok (tmp, out, cardinality)
  else UB.

(** ** uncompress_chunk_and_merge.hpp *)

(** lines 12-14 = 19-21: out[i] |= in[i] *)
Fixpoint or_words_loop (n : nat) (word : Z -> res Z) (i : Z) (out : list Z)
  : res (list Z) :=
  match n with
  | O => Ok out
  | S n' =>
      let! o := vget out i in
      let! w := word i in
      let! out := vset out i (Z.lor o w) in
      or_words_loop n' word (i + 1) out
  end.

(** lines 7-15; returns (tmp, out) *)
Definition uncompress_sparse_chunk_and_merge (dbg : bool) (mem : list Z)
    (begin blocks : Z) (tmp out : list Z) : res (list Z * list Z) :=
  let tmp := repeat 0 (length tmp) in
  let! tmp := uncompress_sparse_chunk dbg mem begin blocks tmp 0 in
  let! out := or_words_loop (Z.to_nat chunk_size_in_64bit_words) (words_vec tmp) 0 out in
  Ok (tmp, out).

(** lines 17-22 *)
Definition uncompress_dense_chunk_and_merge (mem : list Z) (begin : Z) (out : list Z)
  : res (list Z) :=
  or_words_loop (Z.to_nat chunk_size_in_64bit_words) (words_mem mem begin) 0 out.

(** lines 24-28 *)
Definition uncompress_full_chunk_and_merge (out : list Z) : res (list Z) :=
  fill_loop (Z.to_nat chunk_size_in_64bit_words) 0 (u64 (-1)) out 0.

(** lines 30-49 *)
Definition uncompress_chunk_and_merge (dbg : bool) (mem : list Z) (it : iterator)
    (tmp out : list Z) : res (list Z * list Z) :=
  let! t := it_type mem it in
  if t =? t_sparse then
    let! blocks := it_blocks mem it in
    uncompress_sparse_chunk_and_merge dbg mem (i_data it) blocks tmp out
  else if t =? t_dense then
    let! out := uncompress_dense_chunk_and_merge mem (i_data it) out in
    Ok (tmp, out)
  else if t =? t_full then
    let! out := uncompress_full_chunk_and_merge out in
    Ok (tmp, out)
  else UB.
