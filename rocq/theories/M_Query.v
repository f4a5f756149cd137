(** Model of include/contains.hpp, include/select.hpp, include/next_geq.hpp and
    include/next_geq_enumerator.hpp. *)
From Verif Require Import Base Hw M_Util M_Seq.

(** ** include/contains.hpp *)

(** contains.hpp:7-21 *)
Fixpoint sparse_block_contains_loop (n : nat) (mem : list Z) (begin i value : Z) : res bool :=
  match n with
  | O => Ok false
  | S n' =>
      let! b := rd8 mem (begin + i) in
      if value <? b then Ok false
      else if b =? value then Ok true
      else sparse_block_contains_loop n' mem begin (i + 1) value
  end.
Definition sparse_block_contains (mem : list Z) (begin cardinality value : Z) : res bool :=
  sparse_block_contains_loop (Z.to_nat cardinality) mem begin 0 value.

(** contains.hpp:29-54 *)
Fixpoint contains_sparse_chunk_loop (fuel : nat) (dbg : bool) (mem : list Z)
    (begin end_ data block_id value : Z) : res bool :=
  if begin =? end_ then Ok false
  else match fuel with
  | O => Fuel
  | S f =>
      let! id := rd8 mem begin in
      if block_id <? id then Ok false
      else
        let! c1 := rd8 mem (begin + 1) in
        let c := c1 + 1 in
        if id =? block_id then
          let base := id * 256 in
          let! _ := assert_ dbg (base <=? value) in
          let value := u32 (value - base) in
          if block_type c =? t_sparse then sparse_block_contains mem data c value
          else bitmap_contains (words_mem mem data) value
        else contains_sparse_chunk_loop f dbg mem (begin + 2) end_
               (data + bytes_by_cardinality c) block_id value
  end.

(** contains.hpp:23-55 *)
Definition contains_sparse_chunk (dbg : bool) (mem : list Z) (begin blocks value : Z)
  : res bool :=
  let! _ := assert_ dbg ((1 <=? blocks) && (blocks <=? 256)) in
  let data := begin + blocks * 2 in
  contains_sparse_chunk_loop (S (Z.to_nat blocks)) dbg mem begin data data
    (Z.shiftr value 8) value.

(** contains.hpp:57-77 s_sequence::contains *)
Definition contains (dbg : bool) (mem : list Z) (s : s_sequence) (value : Z) : res bool :=
  let it := seq_begin s in
  let chunk_id := Z.shiftr value 16 in
  let! it := skip_to_value mem it chunk_id in
  let! id := it_id mem it in
  if id =? chunk_id then
    let value := Z.land value 65535 in
    let! t := it_type mem it in
    if t =? t_sparse then
      let! blocks := it_blocks mem it in
      contains_sparse_chunk dbg mem (i_data it) blocks value
    else if t =? t_dense then bitmap_contains (words_mem mem (i_data it)) value
    else if t =? t_full then Ok true
    else UB
  else Ok false.

(** ** include/select.hpp *)

(** select.hpp:9-36 *)
Fixpoint select_bitmap_loop (n : nat) (dbg : bool) (bitmap : Z -> res Z)
    (i elements rank : Z) : res Z :=
  match n with
  | O => UB  (* lines 37-38: assert(false), __builtin_unreachable *)
  | S n' =>
      let! w := bitmap i in
      let c := popcount w in
      if rank <? u32 (elements + c) then
        let base := u32 (i * 64) in
        let! _ := assert_ dbg (elements <=? rank) in
        let rank := u32 (rank - elements) in
        let i := u64 (Z.shiftl 1 rank) in
        let w := pdep i w in
        let i := tzcnt w in
        Ok (u32 (i + base))
      else select_bitmap_loop n' dbg bitmap (i + 1) (u32 (elements + c)) rank
  end.
(** select.hpp:5-40 *)
Definition select_bitmap (dbg : bool) (bitmap : Z -> res Z) (size_in_64bit_words rank : Z)
  : res Z :=
  select_bitmap_loop (Z.to_nat size_in_64bit_words) dbg bitmap 0 0 rank.

(** select.hpp:47-74 *)
Fixpoint select_sparse_chunk_loop (fuel : nat) (dbg : bool) (mem : list Z)
    (begin end_ data elements rank : Z) : res Z :=
  if begin =? end_ then UB  (* lines 72-73: assert(false), __builtin_unreachable *)
  else match fuel with
  | O => Fuel
  | S f =>
      let! id := rd8 mem begin in
      let! c1 := rd8 mem (begin + 1) in
      let c := c1 + 1 in
      if rank <? u32 (elements + c) then
        let rank := u32 (rank - elements) in
        let! _ := assert_ dbg (rank <? c) in
        let base := id * 256 in
        if block_type c =? t_sparse then
          let! x := rd8 mem (data + rank) in
          Ok (u32 (x + base))
        else
          let! x := select_bitmap dbg (words_mem mem data) block_size_in_64bit_words rank in
          Ok (u32 (x + base))
      else select_sparse_chunk_loop f dbg mem (begin + 2) end_
             (data + bytes_by_cardinality c) (u32 (elements + c)) rank
  end.

(** select.hpp:42-75 *)
Definition select_sparse_chunk (dbg : bool) (mem : list Z) (begin blocks rank : Z) : res Z :=
  let! _ := assert_ dbg ((1 <=? blocks) && (blocks <=? 256)) in
  let data := begin + blocks * 2 in
  select_sparse_chunk_loop (S (Z.to_nat blocks)) dbg mem begin data data 0 rank.

(** select.hpp:77-102 s_sequence::select(rank, value&); returns (found, value) *)
Definition select (dbg : bool) (mem : list Z) (s : s_sequence) (rank value : Z)
  : res (bool * Z) :=
  let it := seq_begin s in
  let! (elements, it) := skip_to_position mem it rank in
  if it_has_next it then
    let rank := u32 (rank - elements) in
    let! _ := assert_ dbg (rank <? chunk_size) in
    let! t := it_type mem it in
    let! value :=
      (if t =? t_sparse then
         let! blocks := it_blocks mem it in
         select_sparse_chunk dbg mem (i_data it) blocks rank
       else if t =? t_dense then
         select_bitmap dbg (words_mem mem (i_data it)) chunk_size_in_64bit_words rank
       else if t =? t_full then Ok rank
       else UB) in
    let! id := it_id mem it in
    Ok (true, u32 (value + u32 (Z.shiftl id 16)))
  else Ok (false, value).

(** ** include/next_geq.hpp *)

(** next_geq.hpp:37-43 *)
Fixpoint next_geq_sparse_block_loop (n : nat) (mem : list Z) (begin i value : Z) : res Z :=
  match n with
  | O => Ok not_found
  | S n' =>
      let! b := rd8 mem (begin + i) in
      if value <=? b then Ok b
      else next_geq_sparse_block_loop n' mem begin (i + 1) value
  end.
Definition next_geq_sparse_block (mem : list Z) (begin cardinality value : Z) : res Z :=
  next_geq_sparse_block_loop (Z.to_nat cardinality) mem begin 0 value.

(** next_geq.hpp:45-55; [n] words remain, the current index is n - 1 *)
Fixpoint max_value_in_bitmap_loop (n : nat) (bitmap : Z -> res Z) : res Z :=
  match n with
  | O => Ok 0
  | S n' =>
      let i := Z.of_nat n' in
      let! w := bitmap i in
      if negb (w =? 0) then Ok (u32 (i * 64 + 63 - clzll w))
      else max_value_in_bitmap_loop n' bitmap
  end.
Definition max_value_in_bitmap (bitmap : Z -> res Z) (size_in_64bit_words : Z) : res Z :=
  max_value_in_bitmap_loop (Z.to_nat size_in_64bit_words) bitmap.

(** next_geq.hpp:57-64 *)
Fixpoint min_value_in_bitmap_loop (n : nat) (bitmap : Z -> res Z) (i : Z) : res Z :=
  match n with
  | O => Ok 0
  | S n' =>
      let! w := bitmap i in
      if negb (w =? 0) then Ok (u32 (i * 64 + ctzll w))
      else min_value_in_bitmap_loop n' bitmap (i + 1)
  end.
Definition min_value_in_bitmap (bitmap : Z -> res Z) (size_in_64bit_words : Z) : res Z :=
  min_value_in_bitmap_loop (Z.to_nat size_in_64bit_words) bitmap 0.

(** next_geq.hpp:73-78; at most size_in_64bit_words iterations *)
Fixpoint next_geq_bitmap_loop (fuel : nat) (bitmap : Z -> res Z)
    (size_in_64bit_words k word : Z) : res Z :=
  if word =? 0 then
    match fuel with
    | O => Fuel
    | S f =>
        let k := u32 (k + 1) in
        if k =? size_in_64bit_words then Ok not_found
        else
          let! word := bitmap k in
          next_geq_bitmap_loop f bitmap size_in_64bit_words k word
    end
  else Ok (u32 (k * 64 + ctzll word)).
(** next_geq.hpp:66-79 *)
Definition next_geq_bitmap (bitmap : Z -> res Z) (size_in_64bit_words value : Z) : res Z :=
  let k := value / 64 in
  let! word := bitmap k in
  let diff := value - k * 64 in
  let word := u64 (Z.shiftl (Z.shiftr word diff) diff) in
  next_geq_bitmap_loop (Z.to_nat size_in_64bit_words) bitmap size_in_64bit_words k word.

(** next_geq.hpp:5-8 BLOCK_MIN (and 10-17 BLOCK_MIN_) *)
Definition block_min (mem : list Z) (begin data base : Z) : res Z :=
  let! c := rd8 mem (begin + 1) in
  if c <? 30 then
    let! x := rd8 mem data in Ok (u32 (x + base))
  else
    let! x := min_value_in_bitmap (words_mem mem data) block_size_in_64bit_words in
    Ok (u32 (x + base)).

(** next_geq.hpp:81-87 *)
Definition max_value_in_block (mem : list Z) (begin data : Z) : res Z :=
  let! c := rd8 mem (begin + 1) in
  if c <? 30 then rd8 mem (data + c)
  else max_value_in_bitmap (words_mem mem data) block_size_in_64bit_words.

(** next_geq.hpp:97-102; returns (begin, data, id).  The last iteration may read
    the first byte after the block headers. *)
Fixpoint find_block_loop (fuel : nat) (mem : list Z) (begin end_ data id block_id : Z)
  : res (Z * Z * Z) :=
  if (id <? block_id) && negb (begin =? end_) then
    match fuel with
    | O => Fuel
    | S f =>
        let! c1 := rd8 mem (begin + 1) in
        let c := c1 + 1 in
        let data := data + bytes_by_cardinality c in
        let begin := begin + 2 in
        let! id := rd8 mem begin in
        find_block_loop f mem begin end_ data id block_id
    end
  else Ok (begin, data, id).

(** next_geq.hpp:89-132 *)
Definition next_geq_sparse_chunk (dbg : bool) (mem : list Z) (begin blocks value : Z)
  : res Z :=
  let! _ := assert_ dbg ((1 <=? blocks) && (blocks <=? 256)) in
  let data := begin + blocks * 2 in
  let end_ := data in
  let block_id := Z.shiftr value 8 in
  let! id := rd8 mem begin in
  let! (begin, data, id) :=
    find_block_loop (S (Z.to_nat blocks)) mem begin end_ data id block_id in
  if negb (begin =? end_) then
    let base := id * 256 in
    if value <=? base then block_min mem begin data base
    else
      let value := Z.land value 255 in
      let! mx := max_value_in_block mem begin data in
      if mx <? value then
        if begin + 2 =? end_ then Ok not_found
        else
          let! c1 := rd8 mem (begin + 1) in
          let c := c1 + 1 in
          let data := data + bytes_by_cardinality c in
          let begin := begin + 2 in
          let! id := rd8 mem begin in
          block_min mem begin data (id * 256)
      else
        let base := id * 256 in
        let! c1 := rd8 mem (begin + 1) in
        let c := c1 + 1 in
        if c <? 31 then
          let! x := next_geq_sparse_block mem data c value in Ok (u32 (x + base))
        else
          let! x := next_geq_bitmap (words_mem mem data) block_size_in_64bit_words value in
          Ok (u32 (x + base))
  else Ok not_found.

(** next_geq.hpp:134-140 *)
Definition min_value_in_sparse_chunk (dbg : bool) (mem : list Z) (begin blocks : Z) : res Z :=
  let! _ := assert_ dbg ((1 <=? blocks) && (blocks <=? 256)) in
  let data := begin + blocks * 2 in
  let! id := rd8 mem begin in
  block_min mem begin data (id * 256).

(** next_geq.hpp:19-35 CHUNK_MIN(it) *)
Definition chunk_min (dbg : bool) (mem : list Z) (it : iterator) : res Z :=
  let! t := it_type mem it in
  let! value :=
    (if t =? t_sparse then
       let! blocks := it_blocks mem it in
       min_value_in_sparse_chunk dbg mem (i_data it) blocks
     else if t =? t_dense then
       min_value_in_bitmap (words_mem mem (i_data it)) chunk_size_in_64bit_words
     else if t =? t_full then Ok 0
     else UB) in
  let! base := it_base mem it in
  Ok (u32 (value + base)).

(** next_geq.hpp:142-176 s_sequence::next_geq *)
Definition next_geq (dbg : bool) (mem : list Z) (s : s_sequence) (value : Z) : res Z :=
  let it := seq_begin s in
  let chunk_id := Z.shiftr value 16 in
  let! it := skip_to_value mem it chunk_id in
  let! base := it_base mem it in
  if value <=? base then chunk_min dbg mem it
  else if it_has_next it then
    let value := Z.land value 65535 in
    let! t := it_type mem it in
    let! value :=
      (if t =? t_sparse then
         let! blocks := it_blocks mem it in
         next_geq_sparse_chunk dbg mem (i_data it) blocks value
       else if t =? t_dense then
         next_geq_bitmap (words_mem mem (i_data it)) chunk_size_in_64bit_words value
       else if t =? t_full then Ok value
       else UB) in
    if negb (value =? not_found) then
      let! base := it_base mem it in Ok (u32 (value + base))
    else
      let! it := it_next mem it in
      if it_has_next it then chunk_min dbg mem it
      else Ok not_found
  else Ok not_found.

(** ** include/next_geq_enumerator.hpp *)

(** next_geq_enumerator.hpp:112-119; the null pointers of the constructor are 0 *)
Record ng_enumerator := mkNg {
  g_chunk_id : Z;
  g_id : Z;
  g_begin : Z;
  g_end : Z;
  g_data : Z;
  g_size : Z;
  g_it : iterator
}.

(** next_geq_enumerator.hpp:10-17 *)
Definition ng_init (mem : list Z) (s : s_sequence) : res ng_enumerator :=
  let! sz := seq_size mem s in
  Ok (mkNg (u32 (-1)) 0 0 0 0 sz (seq_begin s)).

(** next_geq_enumerator.hpp:35-90: the sparse-chunk case.  Returns the new
    enumerator and the value (not_found when the chunk has none). *)
Definition ng_sparse (dbg : bool) (mem : list Z) (g : ng_enumerator) (value : Z)
  : res (ng_enumerator * Z) :=
  let block_id := Z.shiftr value 8 in
  let! itid := it_id mem (g_it g) in
  let! g :=
    (if negb (g_chunk_id g =? itid) then
       let! blocks := it_blocks mem (g_it g) in
       let! _ := assert_ dbg ((1 <=? blocks) && (blocks <=? 256)) in
       let begin := i_data (g_it g) in
       let data := begin + blocks * 2 in
       let! id := rd8 mem begin in
       Ok (mkNg itid id begin data data (g_size g) (g_it g))
     else Ok g) in
  let! (begin, data, id) :=
    find_block_loop (S (Z.to_nat (g_end g - g_begin g))) mem (g_begin g) (g_end g)
      (g_data g) (g_id g) block_id in
  let g := mkNg (g_chunk_id g) id begin (g_end g) data (g_size g) (g_it g) in
  if negb (begin =? g_end g) then
    let base := id * 256 in
    if value <=? base then
      let! v := block_min mem begin data base in Ok (g, v)
    else
      let value := Z.land value 255 in
      let! mx := max_value_in_block mem begin data in
      if mx <? value then
        if begin + 2 =? g_end g then Ok (g, not_found)
        else
          let! c1 := rd8 mem (begin + 1) in
          let c := c1 + 1 in
          let data := data + bytes_by_cardinality c in
          let begin := begin + 2 in
          let! id := rd8 mem begin in
          let! v := block_min mem begin data (id * 256) in
          Ok (mkNg (g_chunk_id g) id begin (g_end g) data (g_size g) (g_it g), v)
      else
        let base := id * 256 in
        let! c1 := rd8 mem (begin + 1) in
        let c := c1 + 1 in
        if c <? 31 then
          let! x := next_geq_sparse_block mem data c value in Ok (g, u32 (x + base))
        else
          let! x := next_geq_bitmap (words_mem mem data) block_size_in_64bit_words value in
          Ok (g, u32 (x + base))
  else Ok (g, not_found).

Definition ng_set_it (g : ng_enumerator) (it : iterator) : ng_enumerator :=
  mkNg (g_chunk_id g) (g_id g) (g_begin g) (g_end g) (g_data g) (g_size g) it.

(** next_geq_enumerator.hpp:23-110; returns the new state and the result *)
Definition ng_next_geq (dbg : bool) (mem : list Z) (g : ng_enumerator) (value : Z)
  : res (ng_enumerator * Z) :=
  let chunk_id := Z.shiftr value 16 in
  let! it := skip_to_value mem (g_it g) chunk_id in
  let g := ng_set_it g it in
  let! base := it_base mem it in
  if value <=? base then
    let! v := chunk_min dbg mem it in Ok (g, v)
  else if it_has_next it then
    let value := Z.land value 65535 in
    let! t := it_type mem it in
    let! (g, value) :=
      (if t =? t_sparse then ng_sparse dbg mem g value
       else if t =? t_dense then
         let! v := next_geq_bitmap (words_mem mem (i_data it)) chunk_size_in_64bit_words value in
         Ok (g, v)
       else if t =? t_full then Ok (g, value)
       else UB) in
    if negb (value =? not_found) then
      let! base := it_base mem it in Ok (g, u32 (value + base))
    else
      let! it := it_next mem it in
      let g := ng_set_it g it in
      if it_has_next it then
        let! v := chunk_min dbg mem it in Ok (g, v)
      else Ok (g, not_found)
  else Ok (g, not_found).

(** next_geq_enumerator.hpp:19-21 *)
Definition ng_size (g : ng_enumerator) : Z := g_size g.

(** a history of calls on one enumerator: the list of results *)
Fixpoint ng_run (dbg : bool) (mem : list Z) (g : ng_enumerator) (queries : list Z)
  : res (list Z) :=
  match queries with
  | [] => Ok []
  | q :: qs =>
      let! (g, v) := ng_next_geq dbg mem g q in
      let! vs := ng_run dbg mem g qs in
      Ok (v :: vs)
  end.
