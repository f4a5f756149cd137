(** Model of include/decode.hpp and include/enumerator.hpp. *)
From Verif Require Import Base Hw M_Util M_Seq.

(** decode.hpp:9-24; returns (buffer, size); [pos] is the index of out[0] in the
    buffer [out] points into *)
Definition decode_bitmap (bitmap : Z -> res Z) (size_in_64bit_words base : Z)
    (out : list Z) (pos : Z) : res (list Z * Z) :=
  let! (out, size) := bitmap_loop (Z.to_nat size_in_64bit_words) bitmap 0 base out pos 0 in
  Ok (out, u32 size).

(** decode.hpp:32-35 (= 40-43, 45-48, 50-53): load 16 bytes, widen the low 8,
    add base, store 8 words *)
Definition decode_step (mem : list Z) (begin base : Z) (out : list Z) (pos off : Z)
  : res (list Z) :=
  let! in_vec := load128 mem (begin + off) in
  store out (pos + off) (cvt_add base in_vec).

(** decode.hpp:26-56 *)
Definition decode_sparse_block (mem : list Z) (begin cardinality base : Z)
    (out : list Z) (pos : Z) : res (list Z * Z) :=
  let! out := decode_step mem begin base out pos 0 in
  if cardinality <=? 8 then Ok (out, cardinality)
  else
    let! out := decode_step mem begin base out pos 8 in
    let! out := decode_step mem begin base out pos 16 in
    let! out := decode_step mem begin base out pos 24 in
    Ok (out, cardinality).

(** decode.hpp:64-82: loop; [tmp] is the current output index *)
Fixpoint decode_sparse_chunk_loop (fuel : nat) (mem : list Z) (begin end_ data base : Z)
    (out : list Z) (tmp : Z) : res (list Z * Z) :=
  if begin =? end_ then Ok (out, tmp)
  else match fuel with
  | O => Fuel
  | S f =>
      let! id := rd8 mem begin in
      let! c1 := rd8 mem (begin + 1) in
      let c := c1 + 1 in
      let b := u32 (base + id * 256) in
      let! (out, n) :=
        (if block_type c =? t_sparse
         then decode_sparse_block mem data c b out tmp
         else decode_bitmap (words_mem mem data) block_size_in_64bit_words b out tmp) in
      decode_sparse_chunk_loop f mem (begin + 2) end_ (data + bytes_by_cardinality c) base
        out (tmp + n)
  end.

(** decode.hpp:58-84 *)
Definition decode_sparse_chunk (dbg : bool) (mem : list Z) (begin blocks base : Z)
    (out : list Z) (pos : Z) : res (list Z * Z) :=
  let! _ := assert_ dbg ((1 <=? blocks) && (blocks <=? 256)) in
  let data := begin + blocks * 2 in
  let! (out, tmp) :=
    decode_sparse_chunk_loop (S (Z.to_nat blocks)) mem begin data data base out pos in
  Ok (out, u32 (tmp - pos)).

(** decode.hpp:86-89 *)
Fixpoint decode_full_loop (n : nat) (i base : Z) (out : list Z) (pos : Z) : res (list Z) :=
  match n with
  | O => Ok out
  | S n' =>
      let! out := vset out (pos + i) (u32 (i + base)) in
      decode_full_loop n' (i + 1) base out pos
  end.
Definition decode_full_chunk (base : Z) (out : list Z) (pos : Z) : res (list Z * Z) :=
  let! out := decode_full_loop (Z.to_nat chunk_size) 0 base out pos in
  Ok (out, chunk_size).

(** decode.hpp:91-106 *)
Definition decode_chunk (dbg : bool) (mem : list Z) (it : iterator) (out : list Z) (pos : Z)
  : res (list Z * Z) :=
  let! id := it_id mem it in
  let base := u32 (Z.shiftl id 16) in
  let! t := it_type mem it in
  if t =? t_sparse then
    let! blocks := it_blocks mem it in
    decode_sparse_chunk dbg mem (i_data it) blocks base out pos
  else if t =? t_dense then
    decode_bitmap (words_mem mem (i_data it)) chunk_size_in_64bit_words base out pos
  else if t =? t_full then decode_full_chunk base out pos
  else UB.

(** decode.hpp:111-114 *)
Fixpoint decode_loop (n : nat) (dbg : bool) (mem : list Z) (it : iterator)
    (out : list Z) (pos : Z) : res (list Z * Z) :=
  match n with
  | O => Ok (out, pos)
  | S n' =>
      let! (out, k) := decode_chunk dbg mem it out pos in
      let! it := it_next mem it in
      decode_loop n' dbg mem it out (pos + k)
  end.

(** decode.hpp:108-116 s_sequence::decode *)
Definition decode (dbg : bool) (mem : list Z) (s : s_sequence) (out : list Z) (pos : Z)
  : res (list Z * Z) :=
  let! (out, e) := decode_loop (Z.to_nat (s_chunks s)) dbg mem (seq_begin s) out pos in
  Ok (out, e - pos).

(** ** include/enumerator.hpp *)

(** enumerator.hpp:44-52 *)
Record enumerator := mkEnum {
  en_it : iterator;
  en_chunk : Z;
  en_chunks : Z;
  en_i : Z;
  en_cardinality : Z;
  en_past_the_end : Z;
  en_has_next : bool;
  en_buf : list Z
}.

(** enumerator.hpp:12-21 init; [buf] is the buffer sized by the constructor
    (line 9) or left by a previous use *)
Definition enum_init (dbg : bool) (mem : list Z) (buf : list Z) (s : s_sequence)
    (past_the_end : Z) : res enumerator :=
  let it := seq_begin s in
  let! c := it_cardinality mem it in
  let! (buf, _) := decode_chunk dbg mem it buf 0 in
  Ok (mkEnum it 0 (s_chunks s) 0 c past_the_end true buf).

(** enumerator.hpp:8-10 *)
Definition enum_new_buf : list Z := repeat 0 (Z.to_nat chunk_size).

(** enumerator.hpp:27-38 *)
Definition enum_next (dbg : bool) (mem : list Z) (e : enumerator) : res enumerator :=
  let i := u32 (en_i e + 1) in
  if i =? en_cardinality e then
    let chunk := u32 (en_chunk e + 1) in
    if chunk =? en_chunks e then
      Ok (mkEnum (en_it e) chunk (en_chunks e) i (en_cardinality e)
                 (en_past_the_end e) false (en_buf e))
    else
      let! it := it_next mem (en_it e) in
      let! c := it_cardinality mem it in
      let! (buf, _) := decode_chunk dbg mem it (en_buf e) 0 in
      Ok (mkEnum it chunk (en_chunks e) 0 c (en_past_the_end e) (en_has_next e) buf)
  else
    Ok (mkEnum (en_it e) (en_chunk e) (en_chunks e) i (en_cardinality e)
               (en_past_the_end e) (en_has_next e) (en_buf e)).

(** enumerator.hpp:40-42 *)
Definition enum_value (e : enumerator) : res Z :=
  if en_has_next e then vget (en_buf e) (en_i e) else Ok (en_past_the_end e).

(** a client calling next() k times *)
Fixpoint enum_steps (k : nat) (dbg : bool) (mem : list Z) (e : enumerator) : res enumerator :=
  match k with
  | O => Ok e
  | S k' => let! e := enum_next dbg mem e in enum_steps k' dbg mem e
  end.
