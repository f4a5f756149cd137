(** Threads calling the four set operations, which share all eight static buffers.

    A thread is a tree of accesses to the buffers (M_Conc.v); everything else it reads (the
    mapped sequences) is constant, and everything else it writes (its output buffer, its
    iterators) is its own.  Accesses are atomic and sequentially consistent, which is more
    than C++ promises: a data race on a buffer is undefined behaviour. *)
From Verif Require Import Base Hw M_Util M_Seq M_Decode M_Uncompress M_Intersect M_Union M_Many M_Calls
  M_Conc Spec Format.

(** a program on an array of [n] words, when the array starts at index [lo]; an index outside
    the array is UB, as it is in the sequential model *)
Fixpoint within {A} (lo n : Z) (p : prog A) : prog A :=
  match p with
  | Ret r => Ret r
  | Get i k => if (0 <=? i) && (i <? n) then Get (lo + i) (fun v => within lo n (k v)) else Ret UB
  | Put i v k => if (0 <=? i) && (i <? n) then Put (lo + i) v (within lo n k) else Ret UB
  end.
Definition get (lo n i : Z) : prog Z := within lo n (Get i (fun v => Ret (Ok v))).
Definition put (lo n i v : Z) : prog unit := within lo n (Put i v (Ret (Ok tt))).

(** ** union.hpp: the array of line 64 is at 0..3, the vector of line 160 at 4..1027 *)

(** util.hpp:16-30 with |, the second bitmap in the array (from util.hpp:36-39 or_bitmaps) *)
Fixpoint or_bitmap_loop_c (n : nat) (l : Z -> res Z) (i base : Z) (buf : list Z)
    (pos size : Z) : prog (list Z * Z) :=
  match n with
  | O => Ret (Ok (buf, size))
  | S n' =>
      do a <- Ret (l i) ;;
      Get i (fun b =>
        do (buf, size) <- Ret (word_loop 64 (Z.lor a b) base buf pos size) ;;
        or_bitmap_loop_c n' l (i + 1) (u32 (base + 64)) buf pos size)
  end.

(** union.hpp:62-69, on the array *)
Definition ds_union_block_c (mem : list Z) (l r cardinality base : Z) (out : list Z) (pos : Z)
  : prog (list Z * Z) :=
  do ws <- Ret (load_words (Z.to_nat (block_size / 8 / 8)) mem l) ;;
  do _ <- put_words 0 ws ;;
  do _ <- uncompress_sparse_block_c (Z.to_nat cardinality) mem r (r + cardinality) 0 ;;
  or_bitmap_loop_c (Z.to_nat block_size_in_64bit_words) (words_mem mem l) 0 base out pos 0.

(** union.hpp:122-140 *)
Definition union_blocks_c (dbg : bool) (mem : list Z) (data_l data_r cl cr b : Z)
    (out : list Z) (pos : Z) : prog (list Z * Z) :=
  let p := block_pair (block_type cl) (block_type cr) in
  if p =? block_pair t_sparse t_sparse then
    Ret (ss_union_block dbg mem data_l data_r cl cr b out pos)
  else if p =? block_pair t_sparse t_dense then
    within 0 4 (ds_union_block_c mem data_r data_l cl b out pos)
  else if p =? block_pair t_dense t_sparse then
    within 0 4 (ds_union_block_c mem data_l data_r cr b out pos)
  else if p =? block_pair t_dense t_dense then
    Ret (or_bitmaps (words_mem mem data_l) (words_mem mem data_r) block_size_in_64bit_words b
           out pos)
  else Ret UB.

(** union.hpp:91-150; returns (l, r, data_l, data_r, out, pos) *)
Fixpoint ss_union_chunk_loop_c (fuel : nat) (dbg : bool) (mem : list Z)
    (l r end_l end_r data_l data_r base : Z) (out : list Z) (pos : Z)
  : prog (Z * Z * Z * Z * list Z * Z) :=
  match fuel with
  | O => Ret Fuel
  | S f =>
      do a <- Ret (rd8 mem l) ;;
      do b <- Ret (rd8 mem r) ;;
      if a <? b then
        do (l, data_l, out, pos) <- Ret (DECODE mem l data_l base out pos) ;;
        if l =? end_l then Ret (Ok (l, r, data_l, data_r, out, pos))
        else ss_union_chunk_loop_c f dbg mem l r end_l end_r data_l data_r base out pos
      else if b <? a then
        do (r, data_r, out, pos) <- Ret (DECODE mem r data_r base out pos) ;;
        if r =? end_r then Ret (Ok (l, r, data_l, data_r, out, pos))
        else ss_union_chunk_loop_c f dbg mem l r end_l end_r data_l data_r base out pos
      else
        do c1 <- Ret (rd8 mem (l + 1)) ;;
        do c2 <- Ret (rd8 mem (r + 1)) ;;
        do (out, n) <- union_blocks_c dbg mem data_l data_r (c1 + 1) (c2 + 1)
                         (u32 (base + a * 256)) out pos ;;
        let pos := pos + u32 n in
        let data_l := data_l + bytes_by_cardinality (c1 + 1) in
        let data_r := data_r + bytes_by_cardinality (c2 + 1) in
        let l := l + 2 in
        let r := r + 2 in
        if (l =? end_l) || (r =? end_r) then Ret (Ok (l, r, data_l, data_r, out, pos))
        else ss_union_chunk_loop_c f dbg mem l r end_l end_r data_l data_r base out pos
  end.

(** union.hpp:80-156 *)
Definition ss_union_chunk_c (dbg : bool) (mem : list Z) (l r blocks_l blocks_r base : Z)
    (out : list Z) (pos : Z) : prog (list Z * Z) :=
  do _ <- Ret (assert_ dbg ((1 <=? blocks_l) && (blocks_l <=? 256))) ;;
  do _ <- Ret (assert_ dbg ((1 <=? blocks_r) && (blocks_r <=? 256))) ;;
  let data_l := l + blocks_l * 2 in
  let data_r := r + blocks_r * 2 in
  let end_l := data_l in
  let end_r := data_r in
  let in_ := pos in
  do (l, r, data_l, data_r, out, pos) <-
    ss_union_chunk_loop_c (Z.to_nat (blocks_l + blocks_r)) dbg mem
      l r end_l end_r data_l data_r base out pos ;;
  do (out, pos) <-
    Ret (decode_blocks_loop (S (Z.to_nat blocks_l)) mem l end_l data_l base out pos) ;;
  do (out, pos) <-
    Ret (decode_blocks_loop (S (Z.to_nat blocks_r)) mem r end_r data_r base out pos) ;;
  Ret (Ok (out, pos - in_)).

(** union.hpp:158-165, on the vector *)
Definition ds_union_chunk_c (dbg : bool) (mem : list Z) (l r blocks_r base : Z)
    (out : list Z) (pos : Z) : prog (list Z * Z) :=
  do _ <- put_words 0 (repeat 0 (Z.to_nat chunk_size_in_64bit_words)) ;;
  do _ <- uncompress_sparse_chunk_c dbg mem r blocks_r ;;
  or_bitmap_loop_c (Z.to_nat chunk_size_in_64bit_words) (words_mem mem l) 0 base out pos 0.

(** union.hpp:185-228 *)
Definition union_chunks_c (dbg : bool) (mem : list Z) (it_l it_r : iterator) (base : Z)
    (out : list Z) (pos : Z) : prog (list Z * Z) :=
  do type_l <- Ret (it_type mem it_l) ;;
  do type_r <- Ret (it_type mem it_r) ;;
  let p := chunk_pair type_l type_r in
  if p =? chunk_pair t_sparse t_sparse then
    do blocks_l <- Ret (it_blocks mem it_l) ;;
    do blocks_r <- Ret (it_blocks mem it_r) ;;
    if blocks_l <? blocks_r then
      ss_union_chunk_c dbg mem (i_data it_l) (i_data it_r) blocks_l blocks_r base out pos
    else
      ss_union_chunk_c dbg mem (i_data it_r) (i_data it_l) blocks_r blocks_l base out pos
  else if p =? chunk_pair t_sparse t_dense then
    do blocks_l <- Ret (it_blocks mem it_l) ;;
    within 4 1024 (ds_union_chunk_c dbg mem (i_data it_r) (i_data it_l) blocks_l base out pos)
  else if p =? chunk_pair t_sparse t_full then Ret (decode_full_chunk base out pos)
  else if p =? chunk_pair t_dense t_sparse then
    do blocks_r <- Ret (it_blocks mem it_r) ;;
    within 4 1024 (ds_union_chunk_c dbg mem (i_data it_l) (i_data it_r) blocks_r base out pos)
  else if p =? chunk_pair t_dense t_dense then
    Ret (or_bitmaps (words_mem mem (i_data it_l)) (words_mem mem (i_data it_r))
           chunk_size_in_64bit_words base out pos)
  else if p =? chunk_pair t_dense t_full then Ret (decode_full_chunk base out pos)
  else if p =? chunk_pair t_full t_sparse then Ret (decode_full_chunk base out pos)
  else if p =? chunk_pair t_full t_dense then Ret (decode_full_chunk base out pos)
  else if p =? chunk_pair t_full t_full then Ret (decode_full_chunk base out pos)
  else Ret UB.

(** union.hpp:172-245; returns (it_l, it_r, out, pos) *)
Fixpoint pairwise_union_loop_c (fuel : nat) (dbg : bool) (mem : list Z)
    (it_l it_r : iterator) (out : list Z) (pos : Z)
  : prog (iterator * iterator * list Z * Z) :=
  match fuel with
  | O => Ret Fuel
  | S f =>
      do id_l <- Ret (it_id mem it_l) ;;
      do id_r <- Ret (it_id mem it_r) ;;
      let id_l := u16 id_l in
      let id_r := u16 id_r in
      if id_l =? id_r then
        let base := u32 (Z.shiftl id_l 16) in
        do (out, n) <- union_chunks_c dbg mem it_l it_r base out pos ;;
        let pos := pos + u32 n in
        do it_l <- Ret (it_next mem it_l) ;;
        do it_r <- Ret (it_next mem it_r) ;;
        if negb (it_has_next it_l) || negb (it_has_next it_r)
        then Ret (Ok (it_l, it_r, out, pos))
        else pairwise_union_loop_c f dbg mem it_l it_r out pos
      else if id_l <? id_r then
        do (out, n) <- Ret (decode_chunk dbg mem it_l out pos) ;;
        let pos := pos + n in
        do it_l <- Ret (it_next mem it_l) ;;
        if negb (it_has_next it_l) then Ret (Ok (it_l, it_r, out, pos))
        else pairwise_union_loop_c f dbg mem it_l it_r out pos
      else
        do (out, n) <- Ret (decode_chunk dbg mem it_r out pos) ;;
        let pos := pos + n in
        do it_r <- Ret (it_next mem it_r) ;;
        if negb (it_has_next it_r) then Ret (Ok (it_l, it_r, out, pos))
        else pairwise_union_loop_c f dbg mem it_l it_r out pos
  end.

(** union.hpp:167-258 *)
Definition pairwise_union_c (dbg : bool) (mem : list Z) (l r : s_sequence)
    (out : list Z) (pos : Z) : prog (list Z * Z) :=
  let it_l := seq_begin l in
  let it_r := seq_begin r in
  do (it_l, it_r, out, e) <-
    pairwise_union_loop_c (it_fuel it_l + it_fuel it_r) dbg mem it_l it_r out pos ;;
  do (out, e) <- Ret (decode_rest_loop (it_fuel it_l) dbg mem it_l out e) ;;
  do (out, e) <- Ret (decode_rest_loop (it_fuel it_r) dbg mem it_r out e) ;;
  Ret (Ok (out, e - pos)).

(** ** intersection_many.hpp and union_many.hpp: a vector tmp of 1024 words
    (uncompress_chunk_and_intersect.hpp:37, uncompress_chunk_and_merge.hpp:9) at 0..1023, the
    bitmap (intersection_many.hpp:44, union_many.hpp:15) at 1024..2047 *)

(** uncompress.hpp:72-92, on the bitmap *)
Definition uncompress_chunk_c (dbg : bool) (mem : list Z) (it : iterator) : prog Z :=
  do t <- Ret (it_type mem it) ;;
  do _ <-
    (if t =? t_sparse then
       do _ <- put_words 0 (repeat 0 (Z.to_nat 1024)) ;;
       do blocks <- Ret (it_blocks mem it) ;;
       uncompress_sparse_chunk_c dbg mem (i_data it) blocks
     else if t =? t_dense then
       do ws <- Ret (load_words (Z.to_nat (chunk_size / 8 / 8)) mem (i_data it)) ;;
       put_words 0 ws
     else if t =? t_full then
       put_words 0 (repeat (u64 (-1)) (Z.to_nat chunk_size_in_64bit_words))
     else Ret UB) ;;
  Ret (it_cardinality mem it).

(** decode.hpp:9-24 on the bitmap *)
Fixpoint decode_bitmap_loop_c (n : nat) (i base : Z) (buf : list Z) (pos size : Z)
  : prog (list Z * Z) :=
  match n with
  | O => Ret (Ok (buf, size))
  | S n' =>
      Get i (fun w =>
        do (buf, size) <- Ret (word_loop 64 w base buf pos size) ;;
        decode_bitmap_loop_c n' (i + 1) (u32 (base + 64)) buf pos size)
  end.
Definition decode_bitmap_c (n base : Z) (out : list Z) (pos : Z) : prog (list Z * Z) :=
  do (out, size) <- decode_bitmap_loop_c (Z.to_nat n) 0 base out pos 0 ;;
  Ret (Ok (out, u32 size)).

(** uncompress_chunk_and_intersect.hpp:41-44 = 97-100; the value stored is the one counted *)
Fixpoint and_words_c (n : nat) (word : Z -> prog Z) (i c : Z) : prog Z :=
  match n with
  | O => Ret (Ok c)
  | S n' =>
      do o <- get 1024 1024 i ;;
      do w <- word i ;;
      let o := Z.land o w in
      do _ <- put 1024 1024 i o ;;
      and_words_c n' word (i + 1) (u32 (c + popcount o))
  end.

(** uncompress_chunk_and_intersect.hpp:35-45, 93-119 *)
Definition uncompress_chunk_and_intersect_c (dbg : bool) (mem : list Z) (it : iterator)
    (cardinality : Z) : prog Z :=
  do t <- Ret (it_type mem it) ;;
  if t =? t_sparse then
    do blocks <- Ret (it_blocks mem it) ;;
    do _ <- within 0 1024 (put_words 0 (repeat 0 (Z.to_nat 1024))) ;;
    do _ <- within 0 1024 (uncompress_sparse_chunk_c dbg mem (i_data it) blocks) ;;
    and_words_c (Z.to_nat chunk_size_in_64bit_words) (get 0 1024) 0 0
  else if t =? t_dense then
    and_words_c (Z.to_nat chunk_size_in_64bit_words)
      (fun i => Ret (words_mem mem (i_data it) i)) 0 0
  else if t =? t_full then Ret (Ok cardinality)
  else Ret UB.

(** intersection_many.hpp:61-67; returns (iterators, cardinality, skip) *)
Fixpoint and_rest_c (dbg : bool) (mem : list Z) (its : list iterator) (header : Z)
    (cardinality : Z) : prog (list iterator * Z * bool) :=
  match its with
  | [] => Ret (Ok ([], cardinality, false))
  | it :: its' =>
      do it <- Ret (it_advance mem it header) ;;
      do id <- Ret (it_id mem it) ;;
      do _ <- Ret (assert_ dbg (id =? header)) ;;
      do cardinality <- uncompress_chunk_and_intersect_c dbg mem it cardinality ;;
      if cardinality =? 0 then Ret (Ok (it :: its', cardinality, true))
      else
        do (its', cardinality, skip) <- and_rest_c dbg mem its' header cardinality ;;
        Ret (Ok (it :: its', cardinality, skip))
  end.

(** *** intersection_many.hpp: the headers (line 19) are at 0..65535, followed by the two *)

(** intersection_many.hpp:24-40; returns num_headers *)
Fixpoint candidate_loop_c (fuel : nat) (mem : list Z) (its : list iterator)
    (candidate i : Z) (num_headers : Z) : prog Z :=
  if candidate <? 65536 then
    match fuel with
    | O => Ret Fuel
    | S f =>
        do (its, candidate, i) <-
          Ret (candidate_for (Z.to_nat (zlen its - i)) mem its candidate i) ;;
        if i =? zlen its then
          do _ <- put 0 65536 num_headers (u16 candidate) ;;
          do it0 <- Ret (iget its 0) ;;
          do it0 <- Ret (it_next mem it0) ;;
          let its := iset its 0 it0 in
          do candidate <- Ret (it_id mem it0) ;;
          candidate_loop_c f mem its candidate 1 (num_headers + 1)
        else candidate_loop_c f mem its candidate i num_headers
    end
  else Ret (Ok num_headers).

(** intersection_many.hpp:48-70; returns (out, pos) *)
Fixpoint intersect_headers_c (n : nat) (dbg : bool) (mem : list Z) (its : list iterator)
    (i : Z) (out : list Z) (pos : Z) : prog (list Z * Z) :=
  match n with
  | O => Ret (Ok (out, pos))
  | S n' =>
      do header <- get 0 65536 i ;;
      let base := u32 (Z.shiftl header 16) in
      match its with
      | [] => Ret UB
      | it0 :: its' =>
          do it0 <- Ret (it_advance mem it0 header) ;;
          do id <- Ret (it_id mem it0) ;;
          do _ <- Ret (assert_ dbg (id =? header)) ;;
          do cardinality <- within 65536 2048 (within 1024 1024 (uncompress_chunk_c dbg mem it0)) ;;
          do (its', cardinality, skip) <-
            within 65536 2048 (and_rest_c dbg mem its' header (u32 cardinality)) ;;
          if skip : bool then
            intersect_headers_c n' dbg mem (it0 :: its') (i + 1) out pos
          else
            do (out, k) <-
              within 65536 2048 (within 1024 1024 (decode_bitmap_c 1024 base out pos)) ;;
            intersect_headers_c n' dbg mem (it0 :: its') (i + 1) out (pos + k)
      end
  end.

(** intersection_many.hpp:14-73 *)
Definition intersection_sorted_c (dbg : bool) (mem : list Z) (seqs : list s_sequence)
    (out : list Z) (pos : Z) : prog (list Z * Z) :=
  let its := map seq_begin seqs in
  do it0 <- Ret (iget its 0) ;;
  do candidate <- Ret (it_id mem it0) ;;
  do num_headers <- candidate_loop_c (candidate_fuel seqs) mem its candidate 1 0 ;;
  let its := map seq_begin seqs in
  do (out, e) <- intersect_headers_c (Z.to_nat num_headers) dbg mem its 0 out pos ;;
  Ret (Ok (out, e - pos)).

(** *** union_many.hpp *)

(** uncompress_chunk_and_merge.hpp:12-14 = 19-21 *)
Fixpoint or_words_c (n : nat) (word : Z -> prog Z) (i : Z) : prog unit :=
  match n with
  | O => Ret (Ok tt)
  | S n' =>
      do o <- get 1024 1024 i ;;
      do w <- word i ;;
      do _ <- put 1024 1024 i (Z.lor o w) ;;
      or_words_c n' word (i + 1)
  end.

(** uncompress_chunk_and_merge.hpp:7-49 *)
Definition uncompress_chunk_and_merge_c (dbg : bool) (mem : list Z) (it : iterator) : prog unit :=
  do t <- Ret (it_type mem it) ;;
  if t =? t_sparse then
    do blocks <- Ret (it_blocks mem it) ;;
    do _ <- within 0 1024 (put_words 0 (repeat 0 (Z.to_nat 1024))) ;;
    do _ <- within 0 1024 (uncompress_sparse_chunk_c dbg mem (i_data it) blocks) ;;
    or_words_c (Z.to_nat chunk_size_in_64bit_words) (get 0 1024) 0
  else if t =? t_dense then
    or_words_c (Z.to_nat chunk_size_in_64bit_words)
      (fun i => Ret (words_mem mem (i_data it) i)) 0
  else if t =? t_full then
    within 1024 1024 (put_words 0 (repeat (u64 (-1)) (Z.to_nat chunk_size_in_64bit_words)))
  else Ret UB.

(** union_many.hpp:24-33 *)
Fixpoint merge_all_c (dbg : bool) (mem : list Z) (its : list iterator) (header : Z)
    (first : bool) : prog unit :=
  match its with
  | [] => Ret (Ok tt)
  | it :: its' =>
      do id <- Ret (it_id mem it) ;;
      if id =? header then
        if first then
          do _ <- within 1024 1024 (uncompress_chunk_c dbg mem it) ;;
          merge_all_c dbg mem its' header false
        else
          do _ <- uncompress_chunk_and_merge_c dbg mem it ;;
          merge_all_c dbg mem its' header false
      else merge_all_c dbg mem its' header first
  end.

(** union_many.hpp:22-42; returns (out, pos) *)
Fixpoint union_loop_c (fuel : nat) (dbg : bool) (mem : list Z) (its : list iterator)
    (header : Z) (out : list Z) (pos : Z) : prog (list Z * Z) :=
  if header <? 65536 then
    match fuel with
    | O => Ret Fuel
    | S f =>
        let base := u32 (Z.shiftl header 16) in
        do _ <- merge_all_c dbg mem its header true ;;
        do (out, k) <- within 1024 1024 (decode_bitmap_c 1024 base out pos) ;;
        do (its, next) <- Ret (next_headers mem its header 65536) ;;
        union_loop_c f dbg mem its next out (pos + k)
    end
  else Ret (Ok (out, pos)).

(** union_many.hpp:8-45 *)
Definition union_many_c (dbg : bool) (mem : list Z) (seqs : list s_sequence)
    (out : list Z) (pos : Z) : prog (list Z * Z) :=
  let its := map seq_begin seqs in
  do header <- Ret (min_id mem its) ;;
  do (out, e) <- union_loop_c (union_fuel its) dbg mem its header out pos ;;
  Ret (Ok (out, e - pos)).

(** ** The shared memory: all static buffers, one after the other *)
Definition flat (sc : scratch) : list Z :=
  sc_inter sc ++ (sc_block sc ++ sc_union sc) ++ (sc_headers sc ++ sc_and sc ++ sc_ibitmap sc)
  ++ (sc_or sc ++ sc_ubitmap sc).

(** one call (M_Calls.v) as a program on that memory *)
Definition call_c (tbl : Z -> list Z) (dbg : bool) (c : call) : prog (list Z * Z) :=
  match c with
  | CInter mem l r out pos => within 0 1024 (pairwise_intersection_c tbl dbg mem l r out pos)
  | CUnion mem l r out pos => within 1024 1028 (pairwise_union_c dbg mem l r out pos)
  | CInterMany mem seqs out pos => within 2052 67584 (intersection_sorted_c dbg mem seqs out pos)
  | CUnionMany mem seqs out pos => within 69636 2048 (union_many_c dbg mem seqs out pos)
  end.

(** a thread: calls one after the other, collecting their results *)
Fixpoint calls_c (tbl : Z -> list Z) (dbg : bool) (cs : list call) : prog (list (list Z * Z)) :=
  match cs with
  | [] => Ret (Ok [])
  | c :: cs =>
      do r <- call_c tbl dbg c ;;
      do rs <- calls_c tbl dbg cs ;;
      Ret (Ok (r :: rs))
  end.

(** ** What the theorems about threads say *)
(** the values of [S] in block [g] (256 consecutive numbers) are kept as bytes / as a bitmap,
    if the chunk is kept as blocks *)
Definition as_bytes (S : list Z) (g : Z) : bool := (0 <? card 256 S g) && (card 256 S g <? 31).
Definition as_bits (S : list Z) (g : Z) : bool := 31 <=? card 256 S g.
(** no block is kept as bytes in one sequence and as a bitmap in the other, if both keep its
    chunk as blocks *)
Definition unmixed_blocks (S T : list Z) : Prop :=
  forall g, as_blocks S (g / 256) = true -> as_blocks T (g / 256) = true ->
    as_bytes S g && as_bits T g = false /\ as_bits S g && as_bytes T g = false.
(** the operands of a call of a pairwise operation are the sequences of [S] and of [T] *)
Definition operands (c : call) (S T : list Z) : Prop :=
  match c with
  | CInter mem l r _ _ | CUnion mem l r _ _ => exists a b,
      valid S /\ valid T /\ stored 31 mem a S /\ stored 31 mem b T
      /\ seq_at mem a = Ok l /\ seq_at mem b = Ok r
  | _ => False
  end.
(** the same, for the operations on several sequences *)
Definition many_operands (c : call) (Ss : list (list Z)) : Prop :=
  match c with
  | CInterMany mem seqs _ _ | CUnionMany mem seqs _ _ => exists addrs,
      Ss <> [] /\ Forall valid Ss /\ Forall2 (stored 0 mem) addrs Ss
      /\ Forall2 (fun a s => seq_at mem a = Ok s) addrs seqs
  | _ => False
  end.
(** Two calls, of two threads, have no buffer in common.  Only calls of the same operation
    can have one; the pairwise operations need their vector (intersection.hpp:187,
    union.hpp:160) only for a chunk kept as blocks in one and as a bitmap in the other, and
    the union needs its array (union.hpp:64) only for a block kept in two ways. *)
Definition independent (c d : call) : Prop :=
  let no_vector c := exists S T, operands c S T /\ unmixed S T in
  let no_array c := exists S T, operands c S T /\ unmixed_blocks S T in
  match c, d with
  | CInter _ _ _ _ _, CInter _ _ _ _ _ => no_vector c \/ no_vector d
  | CUnion _ _ _ _ _, CUnion _ _ _ _ _ =>
      (no_vector c \/ no_vector d) /\ (no_array c \/ no_array d)
  | CInterMany _ _ _ _, CInterMany _ _ _ _ | CUnionMany _ _ _ _, CUnionMany _ _ _ _ => False
  | _, _ => True
  end.

(** the outcome of a thread making one call that writes [e], in increasing order, to its
    output buffer: [e], or UB if the buffer is too small *)
Definition answer (c : call) (e : list Z) (r : res (list (list Z * Z))) : Prop :=
  match c with
  | CInter _ _ _ out pos | CUnion _ _ _ out pos | CInterMany _ _ out pos | CUnionMany _ _ out pos =>
      if pos + zlen e <=? zlen out
      then exists out', r = Ok [(out', zlen e)] /\ wrote 23 out pos e out'
      else r = UB
  end.
(** the call has a place to write to: the start of its output is in or at the end of the buffer *)
Definition has_place (c : call) : Prop :=
  match c with
  | CInter _ _ _ out pos | CUnion _ _ _ out pos | CInterMany _ _ out pos | CUnionMany _ _ out pos =>
      0 <= pos <= zlen out
  end.
(** two threads, one call each, can end with the first answering [e] and the second [e'] *)
Definition can_answer (tbl : Z -> list Z) (dbg : bool) (sc : scratch) (c c' : call) (e e' : list Z) : Prop :=
  exists sched x' r r',
    interleave (flat sc) [calls_c tbl dbg [c]; calls_c tbl dbg [c']] sched = (x', [Ret r; Ret r'])
    /\ answer c e r /\ answer c' e' r'.
