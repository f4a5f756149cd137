(** Model of include/union.hpp (pairwise union). *)
From Verif Require Import Base Hw M_Util M_Seq M_Decode M_Uncompress.

(** union.hpp:34-49; returns (out, size, l, r) *)
Fixpoint ss_union_block_loop (fuel : nat) (mem : list Z) (l r end_l end_r base : Z)
    (out : list Z) (pos size : Z) : res (list Z * Z * Z * Z) :=
  match fuel with
  | O => Fuel
  | S f =>
      let! a := rd8 mem l in
      let! b := rd8 mem r in
      if a <? b then
        let! out := vset out (pos + size) (u32 (a + base)) in
        if l + 1 =? end_l then Ok (out, size + 1, l + 1, r)
        else ss_union_block_loop f mem (l + 1) r end_l end_r base out pos (size + 1)
      else if b <? a then
        let! out := vset out (pos + size) (u32 (b + base)) in
        if r + 1 =? end_r then Ok (out, size + 1, l, r + 1)
        else ss_union_block_loop f mem l (r + 1) end_l end_r base out pos (size + 1)
      else
        let! out := vset out (pos + size) (u32 (a + base)) in
        if (l + 1 =? end_l) || (r + 1 =? end_r) then Ok (out, size + 1, l + 1, r + 1)
        else ss_union_block_loop f mem (l + 1) (r + 1) end_l end_r base out pos (size + 1)
  end.

(** union.hpp:23-60.  Line 55 really tests r against end_l. *)
Definition ss_union_block (dbg : bool) (mem : list Z) (l r card_l card_r base : Z)
    (out : list Z) (pos : Z) : res (list Z * Z) :=
  let! _ := assert_ dbg ((0 <? card_l) && (card_l <=? block_sparseness_threshold - 2)) in
  let! _ := assert_ dbg ((0 <? card_r) && (card_r <=? block_sparseness_threshold - 2)) in
  let end_l := l + card_l in
  let end_r := r + card_r in
  let! (out, size, l, r) :=
    ss_union_block_loop (Z.to_nat (card_l + card_r)) mem l r end_l end_r base out pos 0 in
  let! (out, size) :=
    (if negb (l =? end_l) then
       let! (out, n) := decode_sparse_block mem l (end_l - l) base out (pos + size) in
       Ok (out, size + n)
     else Ok (out, size)) in
  if negb (r =? end_l) then
    let! (out, n) := decode_sparse_block mem r (end_r - r) base out (pos + size) in
    Ok (out, size + n)
  else Ok (out, size).

(** union.hpp:62-69; [x] is the previous content of the static array;
    returns (x, out, size) *)
Definition ds_union_block (mem : list Z) (l r cardinality base : Z)
    (x out : list Z) (pos : Z) : res (list Z * list Z * Z) :=
  let! x := memcpy_words mem l (block_size / 8 / 8) x 0 in
  let! x := uncompress_sparse_block mem r cardinality x 0 in
  let! (out, n) :=
    or_bitmaps (words_mem mem l) (words_vec x) block_size_in_64bit_words base out pos in
  Ok (x, out, n).

(** union.hpp:71-78 *)
Definition decode_block (mem : list Z) (data type cardinality base : Z)
    (out : list Z) (pos : Z) : res (list Z * Z) :=
  if type =? t_sparse then decode_sparse_block mem data cardinality base out pos
  else decode_bitmap (words_mem mem data) block_size_in_64bit_words base out pos.

(** union.hpp:10-21 DECODE(ptr); returns (ptr, data, out, pos) *)
Definition DECODE (mem : list Z) (ptr data base : Z) (out : list Z) (pos : Z)
  : res (Z * Z * list Z * Z) :=
  let! id := rd8 mem ptr in
  let! c1 := rd8 mem (ptr + 1) in
  let c := c1 + 1 in
  let! (out, n) := decode_block mem data (block_type c) c (u32 (base + id * 256)) out pos in
  Ok (ptr + 2, data + bytes_by_cardinality c, out, pos + n).

(** union.hpp:122-140: the switch on the pair of block types;
    returns (x, out, n) *)
Definition union_blocks (dbg : bool) (mem : list Z) (data_l data_r cl cr b : Z)
    (x out : list Z) (pos : Z) : res (list Z * list Z * Z) :=
  let keep (y : res (list Z * Z)) := let! (out, n) := y in Ok (x, out, n) in
  let p := block_pair (block_type cl) (block_type cr) in
  if p =? block_pair t_sparse t_sparse then
    keep (ss_union_block dbg mem data_l data_r cl cr b out pos)
  else if p =? block_pair t_sparse t_dense then
    ds_union_block mem data_r data_l cl b x out pos
  else if p =? block_pair t_dense t_sparse then
    ds_union_block mem data_l data_r cr b x out pos
  else if p =? block_pair t_dense t_dense then
    keep (or_bitmaps (words_mem mem data_l) (words_mem mem data_r) block_size_in_64bit_words b
            out pos)
  else UB.

(** union.hpp:91-150; returns (l, r, data_l, data_r, x, out, pos) *)
Fixpoint ss_union_chunk_loop (fuel : nat) (dbg : bool) (mem : list Z)
    (l r end_l end_r data_l data_r base : Z) (x out : list Z) (pos : Z)
  : res (Z * Z * Z * Z * list Z * list Z * Z) :=
  match fuel with
  | O => Fuel
  | S f =>
      let! a := rd8 mem l in
      let! b := rd8 mem r in
      if a <? b then
        let! (l, data_l, out, pos) := DECODE mem l data_l base out pos in
        if l =? end_l then Ok (l, r, data_l, data_r, x, out, pos)
        else ss_union_chunk_loop f dbg mem l r end_l end_r data_l data_r base x out pos
      else if b <? a then
        let! (r, data_r, out, pos) := DECODE mem r data_r base out pos in
        if r =? end_r then Ok (l, r, data_l, data_r, x, out, pos)
        else ss_union_chunk_loop f dbg mem l r end_l end_r data_l data_r base x out pos
      else
        let id := a in
        let! c1 := rd8 mem (l + 1) in
        let! c2 := rd8 mem (r + 1) in
        let cl := c1 + 1 in
        let cr := c2 + 1 in
        let b := u32 (base + id * 256) in
        let! (x, out, n) := union_blocks dbg mem data_l data_r cl cr b x out pos in
        let pos := pos + u32 n in
        let data_l := data_l + bytes_by_cardinality cl in
        let data_r := data_r + bytes_by_cardinality cr in
        let l := l + 2 in
        let r := r + 2 in
        if (l =? end_l) || (r =? end_r) then Ok (l, r, data_l, data_r, x, out, pos)
        else ss_union_chunk_loop f dbg mem l r end_l end_r data_l data_r base x out pos
  end.

(** union.hpp:152 (= 153): while (ptr != end) { DECODE(ptr) }; returns (out, pos) *)
Fixpoint decode_blocks_loop (fuel : nat) (mem : list Z) (ptr end_ data base : Z)
    (out : list Z) (pos : Z) : res (list Z * Z) :=
  if negb (ptr =? end_) then
    match fuel with
    | O => Fuel
    | S f =>
        let! (ptr, data, out, pos) := DECODE mem ptr data base out pos in
        decode_blocks_loop f mem ptr end_ data base out pos
    end
  else Ok (out, pos).

(** union.hpp:80-156; [x]: static array of ds_union_block; returns (x, out, size) *)
Definition ss_union_chunk (dbg : bool) (mem : list Z) (l r blocks_l blocks_r base : Z)
    (x out : list Z) (pos : Z) : res (list Z * list Z * Z) :=
  let! _ := assert_ dbg ((1 <=? blocks_l) && (blocks_l <=? 256)) in
  let! _ := assert_ dbg ((1 <=? blocks_r) && (blocks_r <=? 256)) in
  let data_l := l + blocks_l * 2 in
  let data_r := r + blocks_r * 2 in
  let end_l := data_l in
  let end_r := data_r in
  let in_ := pos in
  let! (l, r, data_l, data_r, x, out, pos) :=
    ss_union_chunk_loop (Z.to_nat (blocks_l + blocks_r)) dbg mem
      l r end_l end_r data_l data_r base x out pos in
  let! (out, pos) :=
    decode_blocks_loop (S (Z.to_nat blocks_l)) mem l end_l data_l base out pos in
  let! (out, pos) :=
    decode_blocks_loop (S (Z.to_nat blocks_r)) mem r end_r data_r base out pos in
  Ok (x, out, pos - in_).

(** union.hpp:158-165; [y]: its static vector; returns (y, out, size) *)
Definition ds_union_chunk (dbg : bool) (mem : list Z) (l r blocks_r base : Z)
    (y out : list Z) (pos : Z) : res (list Z * list Z * Z) :=
  let y := repeat 0 (length y) in
  let! y := uncompress_sparse_chunk dbg mem r blocks_r y 0 in
  let! (out, n) :=
    or_bitmaps (words_mem mem l) (words_vec y) chunk_size_in_64bit_words base out pos in
  Ok (y, out, n).

(** union.hpp:185-228: the switch on the pair of chunk types;
    returns (x, y, out, n) *)
Definition union_chunks (dbg : bool) (mem : list Z) (it_l it_r : iterator) (base : Z)
    (x y out : list Z) (pos : Z) : res (list Z * list Z * list Z * Z) :=
  let keep_y (z : res (list Z * list Z * Z)) := let! (x, out, n) := z in Ok (x, y, out, n) in
  let keep_x (z : res (list Z * list Z * Z)) := let! (y, out, n) := z in Ok (x, y, out, n) in
  let keep (z : res (list Z * Z)) := let! (out, n) := z in Ok (x, y, out, n) in
  let! type_l := it_type mem it_l in
  let! type_r := it_type mem it_r in
  let p := chunk_pair type_l type_r in
  if p =? chunk_pair t_sparse t_sparse then
    let! blocks_l := it_blocks mem it_l in
    let! blocks_r := it_blocks mem it_r in
    if blocks_l <? blocks_r then
      keep_y (ss_union_chunk dbg mem (i_data it_l) (i_data it_r) blocks_l blocks_r
                base x out pos)
    else
      keep_y (ss_union_chunk dbg mem (i_data it_r) (i_data it_l) blocks_r blocks_l
                base x out pos)
  else if p =? chunk_pair t_sparse t_dense then
    let! blocks_l := it_blocks mem it_l in
    keep_x (ds_union_chunk dbg mem (i_data it_r) (i_data it_l) blocks_l base y out pos)
  else if p =? chunk_pair t_sparse t_full then keep (decode_full_chunk base out pos)
  else if p =? chunk_pair t_dense t_sparse then
    let! blocks_r := it_blocks mem it_r in
    keep_x (ds_union_chunk dbg mem (i_data it_l) (i_data it_r) blocks_r base y out pos)
  else if p =? chunk_pair t_dense t_dense then
    keep (or_bitmaps (words_mem mem (i_data it_l)) (words_mem mem (i_data it_r))
            chunk_size_in_64bit_words base out pos)
  else if p =? chunk_pair t_dense t_full then keep (decode_full_chunk base out pos)
  else if p =? chunk_pair t_full t_sparse then keep (decode_full_chunk base out pos)
  else if p =? chunk_pair t_full t_dense then keep (decode_full_chunk base out pos)
  else if p =? chunk_pair t_full t_full then keep (decode_full_chunk base out pos)
  else UB.

(** union.hpp:172-245; returns (it_l, it_r, x, y, out, pos) *)
Fixpoint pairwise_union_loop (fuel : nat) (dbg : bool) (mem : list Z)
    (it_l it_r : iterator) (x y out : list Z) (pos : Z)
  : res (iterator * iterator * list Z * list Z * list Z * Z) :=
  match fuel with
  | O => Fuel
  | S f =>
      let! id_l := it_id mem it_l in
      let! id_r := it_id mem it_r in
      let id_l := u16 id_l in
      let id_r := u16 id_r in
      if id_l =? id_r then
        let base := u32 (Z.shiftl id_l 16) in
        let! (x, y, out, n) := union_chunks dbg mem it_l it_r base x y out pos in
        let pos := pos + u32 n in
        let! it_l := it_next mem it_l in
        let! it_r := it_next mem it_r in
        if negb (it_has_next it_l) || negb (it_has_next it_r)
        then Ok (it_l, it_r, x, y, out, pos)
        else pairwise_union_loop f dbg mem it_l it_r x y out pos
      else if id_l <? id_r then
        let! (out, n) := decode_chunk dbg mem it_l out pos in
        let pos := pos + n in
        let! it_l := it_next mem it_l in
        if negb (it_has_next it_l) then Ok (it_l, it_r, x, y, out, pos)
        else pairwise_union_loop f dbg mem it_l it_r x y out pos
      else
        let! (out, n) := decode_chunk dbg mem it_r out pos in
        let pos := pos + n in
        let! it_r := it_next mem it_r in
        if negb (it_has_next it_r) then Ok (it_l, it_r, x, y, out, pos)
        else pairwise_union_loop f dbg mem it_l it_r x y out pos
  end.

(** union.hpp:247-250 (= 252-255): decode the remaining chunks; returns (out, pos) *)
Fixpoint decode_rest_loop (fuel : nat) (dbg : bool) (mem : list Z) (it : iterator)
    (out : list Z) (pos : Z) : res (list Z * Z) :=
  if it_has_next it then
    match fuel with
    | O => Fuel
    | S f =>
        let! (out, n) := decode_chunk dbg mem it out pos in
        let! it := it_next mem it in
        decode_rest_loop f dbg mem it out (pos + n)
    end
  else Ok (out, pos).

(** union.hpp:167-258; [x], [y]: the static arrays of ds_union_block and
    ds_union_chunk; returns (x, y, out, size) *)
Definition pairwise_union (dbg : bool) (mem : list Z) (l r : s_sequence)
    (x y out : list Z) (pos : Z) : res (list Z * list Z * list Z * Z) :=
  let it_l := seq_begin l in
  let it_r := seq_begin r in
  let! (it_l, it_r, x, y, out, e) :=
    pairwise_union_loop (it_fuel it_l + it_fuel it_r) dbg mem it_l it_r x y out pos in
  let! (out, e) := decode_rest_loop (it_fuel it_l) dbg mem it_l out e in
  let! (out, e) := decode_rest_loop (it_fuel it_r) dbg mem it_r out e in
  Ok (x, y, out, e - pos).
