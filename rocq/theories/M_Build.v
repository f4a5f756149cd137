(** Model of include/building_util.hpp and include/builder.hpp:15-221,283-301.
    An input range [begin, end) of uint32_t is the list of its values;
    advancing [begin] drops the head, dereferencing begin == end is UB. *)
From Verif Require Import Base Hw M_Util.

(** building_util.hpp:15-21, W = uint64_t *)
Definition set_bit (dbg : bool) (position : Z) (bits : list Z) : res (list Z) :=
  let! _ := assert_ dbg (position <? zlen bits * 8 * 8) in
  let w := position / 64 in
  let o := position mod 64 in
  let! x := vget bits w in
  vset bits w (Z.lor x (u64 (Z.shiftl 1 o))).

(** building_util.hpp:38-41: the loop of write_bits *)
Fixpoint write_bits_loop (dbg : bool) (n : nat) (begin : list Z) (base : Z)
    (bitmap : list Z) : res (list Z) :=
  match n with
  | O => Ok bitmap
  | S n' =>
      match begin with
      | [] => UB
      | v :: begin' =>
          let val := u32 (v - base) in
          let! bitmap := set_bit dbg val bitmap in
          write_bits_loop dbg n' begin' base bitmap
      end
  end.

(** building_util.hpp:34-44 write_bits; returns the extended [out] *)
Definition write_bits (dbg : bool) (begin : list Z) (n bits base : Z)
    (out : list Z) : res (list Z) :=
  let! _ := assert_ dbg (bits mod 64 =? 0) in
  let bitmap := repeat 0 (Z.to_nat (bits / 64)) in
  let! bitmap := write_bits_loop dbg (Z.to_nat n) begin base bitmap in
  Ok (out ++ bytes_of_u64s bitmap).

(** building_util.hpp:46-60 *)
Fixpoint chunk_cardinality_loop (dbg : bool) (begin : list Z) (left right c prev : Z)
  : res Z :=
  match begin with
  | [] => Ok c
  | v :: begin' =>
      if v <? right then
        let! _ := assert_ dbg (left <=? v) in
        let! _ := assert_ dbg (u32 (v - left) <? chunk_size) in
        if v =? prev then Throw
        else chunk_cardinality_loop dbg begin' left right (u32 (c + 1)) v
      else Ok c
  end.
Definition chunk_cardinality (dbg : bool) (begin : list Z) (left right : Z) : res Z :=
  let! c := chunk_cardinality_loop dbg begin left right 0 (u32 (-1)) in
  let! _ := assert_ dbg ((0 <? c) && (c <=? chunk_size)) in
  Ok c.

(** building_util.hpp:62-78 (the parameter block_size is [size] here).
    sparse_blocks_cardinalities has 31 entries; the index is < 31 in that branch. *)
Definition block_bitsize (dbg : bool) (size : Z) (stats : statistics) : res statistics :=
  let stats := sadd F_blocks 1 stats in
  let! _ := assert_ dbg (size <=? block_size) in
  if size =? 0 then Ok (sadd F_empty_blocks 1 stats)
  else if block_sparseness_threshold - 1 <=? size then
    let stats := sadd F_dense_blocks 1 stats in
    let stats := sadd F_dense_blocks_bits block_size stats in
    Ok (sadd F_integers_in_dense_blocks size stats)
  else
    let! _ := assert_ dbg (size <=? block_sparseness_threshold - 2) in
    let stats := sadd F_sparse_blocks 1 stats in
    let stats := sadd F_integers_in_sparse_blocks size stats in
    let stats := sadd F_sparse_blocks_bits (8 * (size + 1)) stats in
    Ok (sadd (F_sparse_blocks_cardinalities size) 1 stats).

(** building_util.hpp:85-97: the loop of sparse_chunk_bitsize *)
Fixpoint sparse_chunk_bitsize_loop (fuel : nat) (dbg : bool) (begin : list Z)
    (right base size : Z) (stats : statistics) : res (Z * statistics) :=
  match begin with
  | [] => Ok (size, stats)
  | v :: begin' =>
      if v <? right then
        match fuel with
        | O => Fuel
        | S f =>
            let val := u32 (v - base) in
            if block_size <=? val then
              let! stats := block_bitsize dbg size stats in
              sparse_chunk_bitsize_loop f dbg begin right (u32 (base + block_size)) 0 stats
            else
              let! _ := assert_ dbg (val <? block_size) in
              let! _ := assert_ dbg (size + 1 <=? block_size) in
              sparse_chunk_bitsize_loop f dbg begin' right base (size + 1) stats
        end
      else Ok (size, stats)
  end.

(** Loop bound used by the model for the two block-splitting loops.  Consuming a
    value takes one iteration, and one more for every block between the current
    base and the block of the value; base and value are uint32_t, so a value below
    the base is reached after going round modulo 2^32.  257 iterations to spare. *)
Fixpoint split_steps (begin : list Z) (right base : Z) : Z :=
  match begin with
  | [] => 0
  | v :: begin' =>
      if v <? right then
        let k := u32 (v - base) / block_size in
        k + 1 + split_steps begin' right (u32 (base + k * block_size))
      else 0
  end.
Definition split_fuel (begin : list Z) (left right : Z) : nat :=
  Z.to_nat (split_steps begin right left + 257).

(** building_util.hpp:80-100 *)
Definition sparse_chunk_bitsize (dbg : bool) (begin : list Z) (left right : Z)
  : res statistics :=
  let! (size, stats) :=
    sparse_chunk_bitsize_loop (split_fuel begin left right) dbg begin right left 0 stats0 in
  block_bitsize dbg size stats.

(** builder.hpp:15-29 encode_block; returns (block, id, header, data) *)
Definition encode_block (dbg : bool) (block : list Z) (id : Z) (header data : list Z)
  : res (list Z * Z * list Z * list Z) :=
  if 0 <? zlen block then
    let header := header ++ [u8 id] in
    let header := header ++ [u8 (zlen block - 1)] in
    if block_sparseness_threshold - 1 <=? zlen block then
      let! data := write_bits dbg block (zlen block) block_size 0 data in
      Ok ([], u32 (id + 1), header, data)
    else
      Ok ([], u32 (id + 1), header, data ++ map u8 block)
  else Ok (block, u32 (id + 1), header, data).

(** builder.hpp:40-51: the loop of encode_sparse_chunk *)
Fixpoint encode_sparse_chunk_loop (fuel : nat) (dbg : bool) (begin : list Z)
    (right id base : Z) (block header data : list Z)
  : res (list Z * Z * list Z * list Z) :=
  match begin with
  | [] => Ok (block, id, header, data)
  | v :: begin' =>
      if v <? right then
        match fuel with
        | O => Fuel
        | S f =>
            let val := u32 (v - base) in
            if block_size <=? val then
              let! (block, id, header, data) := encode_block dbg block id header data in
              encode_sparse_chunk_loop f dbg begin right id (u32 (base + block_size))
                block header data
            else
              let! _ := assert_ dbg (val <? block_size) in
              let block := block ++ [val] in
              let! _ := assert_ dbg (zlen block <=? block_size) in
              encode_sparse_chunk_loop f dbg begin' right id base block header data
        end
      else Ok (block, id, header, data)
  end.

(** builder.hpp:31-55 encode_sparse_chunk; returns (block, out) *)
Definition encode_sparse_chunk (dbg : bool) (begin : list Z) (left right : Z)
    (block out : list Z) : res (list Z * list Z) :=
  let! (block, id, header, data) :=
    encode_sparse_chunk_loop (split_fuel begin left right) dbg begin right 0 left block [] [] in
  let! (block, id, header, data) := encode_block dbg block id header data in
  Ok (block, out ++ header ++ data).

(** state of the main loop of encode_sequence *)
Record enc_state := mkEnc {
  e_begin : list Z;       (* [begin, end) *)
  e_left : Z;             (* s.left *)
  e_right : Z;            (* s.right *)
  e_block : list Z;       (* block *)
  e_header : list Z;      (* chunks_header, uint16_t values *)
  e_tmp : list Z;         (* tmp *)
  e_stats : statistics    (* stats *)
}.

Definition dense_chunk_bytes : Z := bytes_for chunk_size.

(** builder.hpp:97-104 and 149-156: the two identical dense-chunk branches;
    [b] is the assertion at line 152 (dense_chunk_bytes * 8.0 / cardinality <= 2.0,
    i.e. 65536 <= 2 * cardinality; [true] for the first branch) *)
Definition encode_dense_chunk (dbg b : bool) (begin : list Z) (cardinality left : Z)
    (header tmp : list Z) (stats : statistics) : res (list Z * list Z * statistics) :=
  let stats := sadd F_dense_chunks 1 stats in
  let stats := sadd F_dense_chunks_bits (dense_chunk_bytes * 8) stats in
  let stats := sadd F_integers_in_dense_chunks cardinality stats in
  let! _ := assert_ dbg b in
  let header := header ++ [u16 t_dense] in
  let header := header ++ [u16 (chunk_size / 8)] in
  let! tmp := write_bits dbg begin cardinality chunk_size left tmp in
  Ok (header, tmp, stats).

(** builder.hpp:126-127: num_blocks_in_chunks[n] and num_integers[n] have 257 entries
    (util.hpp:132-134) *)
Definition stats_entry (n : Z) : res unit :=
  if n <? 1 + chunk_size / block_size then Ok tt else UB.

(** builder.hpp:79-166: body of the loop over chunks *)
Definition encode_chunk (dbg : bool) (i : Z) (e : enc_state) : res enc_state :=
  match e_begin e with
  | [] => UB  (* line 80: *begin with begin == end *)
  | v :: _ =>
      let begin := e_begin e in
      let left := e_left e in
      let right := e_right e in
      let! (cardinality, block, header, tmp, stats) :=
        (if v <? right then
           let! cardinality := chunk_cardinality dbg begin left right in
           let header := e_header e ++ [u16 i] in
           let header := header ++ [u16 (cardinality - 1)] in
           if cardinality <? chunk_sparseness_threshold then
             let! scs := sparse_chunk_bitsize dbg begin left right in
             let sparse_chunk_bytes :=
               (scs F_dense_blocks * 16 + scs F_sparse_blocks * 8
                + scs F_dense_blocks_bits + scs F_sparse_blocks_bits) / 8 in
             if dense_chunk_bytes <=? sparse_chunk_bytes then
               let! (header, tmp, stats) :=
                 encode_dense_chunk dbg true begin cardinality left header (e_tmp e) (e_stats e) in
               Ok (cardinality, e_block e, header, tmp, stats)
             else
               let stats := sadd F_sparse_chunks 1 (e_stats e) in
               let stats := sadd F_integers_in_sparse_chunks cardinality stats in
               let num_non_empty_blocks := u16 (scs F_dense_blocks + scs F_sparse_blocks) in
               let! _ := assert_ dbg ((1 <=? num_non_empty_blocks)
                                      && (num_non_empty_blocks <=? chunk_size / block_size)) in
               let! _ := stats_entry num_non_empty_blocks in
               let stats := sadd (F_num_blocks_in_chunks num_non_empty_blocks) 1 stats in
               let stats := sadd (F_num_integers num_non_empty_blocks) cardinality stats in
               let stats := sadd F_blocks (num_non_empty_blocks + scs F_empty_blocks) stats in
               let stats := accumulate scs stats in
               let packed := u16 (Z.lor t_sparse (Z.shiftl (num_non_empty_blocks - 1) 8)) in
               let header := header ++ [packed] in
               let header := header ++ [u16 sparse_chunk_bytes] in
               let! (block, tmp) := encode_sparse_chunk dbg begin left right (e_block e) (e_tmp e) in
               Ok (cardinality, block, header, tmp, stats)
           else if cardinality =? chunk_size then
             let stats := sadd F_full_chunks 1 (e_stats e) in
             let stats := sadd F_integers_in_full_chunks cardinality stats in
             let header := header ++ [u16 t_full] in
             let header := header ++ [0] in
             Ok (cardinality, e_block e, header, e_tmp e, stats)
           else
             let! (header, tmp, stats) :=
               encode_dense_chunk dbg (dense_chunk_bytes * 8 <=? 2 * cardinality)
                 begin cardinality left header (e_tmp e) (e_stats e) in
             Ok (cardinality, e_block e, header, tmp, stats)
         else
           Ok (0, e_block e, e_header e, e_tmp e, sadd F_empty_chunks 1 (e_stats e))) in
      Ok (mkEnc (skipn (Z.to_nat cardinality) begin)
                right (u32 (right + chunk_size))
                block header tmp stats)
  end.

(** builder.hpp:78: for (i = 0; i != chunks; ++i) *)
Fixpoint encode_chunks (n : nat) (dbg : bool) (i : Z) (e : enc_state) : res enc_state :=
  match n with
  | O => Ok e
  | S n' =>
      let! e := encode_chunk dbg i e in
      encode_chunks n' dbg (i + 1) e
  end.

(** builder.hpp:60-169: everything before the first write to [out] *)
Definition encode_sequence_chunks (dbg : bool) (data block : list Z) (stats : statistics)
  : res enc_state :=
  let! _ := assert_ dbg (zlen block =? 0) in
  let! universe := vget data (zlen data - 1) in
  let chunks := num_chunks universe in
  let! _ := assert_ dbg ((0 <? chunks) && (chunks <=? chunk_size)) in
  let stats := sadd F_sequences 1 stats in
  let stats := sadd F_integers (zlen data) stats in
  let stats := sadd F_chunks chunks stats in
  let! e := encode_chunks (Z.to_nat chunks) dbg 0
              (mkEnc data 0 chunk_size block [] [] stats) in
  let! _ := assert_ dbg (zlen (e_begin e) =? 0) in
  Ok e.

(** builder.hpp:185-189: inner loop over one group of chunks;
    returns (cardinality, offset) *)
Fixpoint pointer_loop (n : nat) (header : list Z) (base cardinality offset : Z)
  : res (Z * Z) :=
  match n with
  | O => Ok (cardinality, offset)
  | S n' =>
      let! c := vget header (u32 (base + 1)) in
      let! o := vget header (u32 (base + 3)) in
      pointer_loop n' header (u32 (base + 4)) (u32 (cardinality + c + 1)) (u32 (offset + o))
  end.

(** builder.hpp:181-192: the [n] skip pointers from group [i] on, as bytes *)
Fixpoint pointers_loop (n : nat) (header : list Z) (i : Z) : res (list Z) :=
  match n with
  | O => Ok []
  | S n' =>
      let! (cardinality, offset) :=
        pointer_loop (Z.to_nat associativity) header (u32 (i * 4 * associativity)) 0 0 in
      let! rest := pointers_loop n' header (i + 1) in
      Ok (le_bytes 4 cardinality ++ le_bytes 4 offset ++ rest)
  end.

(** builder.hpp:57-202 encode_sequence(data, n, block, stats, out);
    [data] is the list of the n values.  Returns (block, stats, out). *)
Definition encode_sequence (dbg : bool) (data block : list Z) (stats : statistics)
    (out : list Z) : res (list Z * statistics * list Z) :=
  let! e := encode_sequence_chunks dbg data block stats in
  let chunks := u32 (zlen (e_header e) / 4) in
  let out := out ++ le_bytes 2 (u16 (chunks - 1)) in
  let offsets := chunks / associativity in
  let! pointers := pointers_loop (Z.to_nat offsets) (e_header e) 0 in
  let out := out ++ pointers in
  let out := out ++ bytes_of_u16s (e_header e) in
  let out := out ++ e_tmp e in
  let stats := sadd F_chunks_header_bits
                 (chunks * 16 * 4 + 16 + offsets * 4 * 8 + offsets * 4 * 8) (e_stats e) in
  Ok (e_block e, stats, out).

(** builder.hpp:212-218: the totals *)
Definition finish_stats (stats : statistics) : statistics :=
  let stats := sset F_blocks_header_bits
                 (stats F_dense_blocks * 16 + stats F_sparse_blocks * 8) stats in
  let stats := sset F_bits
                 (stats F_chunks_header_bits + stats F_blocks_header_bits
                  + stats F_dense_chunks_bits + stats F_dense_blocks_bits
                  + stats F_sparse_blocks_bits) stats in
  sadd F_bits (2 * 64) stats.

(** builder.hpp:204-221 encode_sequence(data, n, out) *)
Definition encode_one (dbg : bool) (data out : list Z) : res (statistics * list Z) :=
  let! (block, stats, out) := encode_sequence dbg data [] stats0 out in
  Ok (finish_stats stats, out).

(** builder.hpp:283-301 s_sequence::builder: state m_out; build returns the
    outcome of the call and the new m_out.  All writes to m_out happen in
    encode_sequence after line 169, and nothing after that line can throw, so an
    exception leaves m_out as it was. *)
Definition builder_build (dbg : bool) (m_out data : list Z) : res statistics * list Z :=
  match encode_one dbg data m_out with
  | Ok (stats, out) => (Ok stats, out)
  | Throw => (Throw, m_out)
  | Abort => (Abort, m_out)
  | UB => (UB, m_out)
  | Fuel => (Fuel, m_out)
  end.
