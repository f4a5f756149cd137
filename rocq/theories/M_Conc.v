(** Threads that share the static vector of ds_intersect_chunk (intersection.hpp:187).

    A thread is a tree of accesses to the 1024 words of the vector; everything else a
    thread reads (the mapped sequences) is constant and everything else it writes (its
    output buffer) is its own.  Accesses are atomic and sequentially consistent, which is
    more than C++ promises: a data race on the vector is undefined behaviour. *)
From Verif Require Import Base Hw M_Util M_Seq M_Decode M_Uncompress M_Intersect Spec.

Inductive prog (A : Type) : Type :=
| Ret (r : res A)                    (* finished *)
| Get (i : Z) (k : Z -> prog A)      (* read word i *)
| Put (i v : Z) (k : prog A).        (* write word i *)
Arguments Ret {A} r.
Arguments Get {A} i k.
Arguments Put {A} i v k.

Fixpoint pbind {A B} (p : prog A) (f : A -> prog B) : prog B :=
  match p with
  | Ret (Ok a) => f a
  | Ret Throw => Ret Throw
  | Ret Abort => Ret Abort
  | Ret UB => Ret UB
  | Ret Fuel => Ret Fuel
  | Get i k => Get i (fun v => pbind (k v) f)
  | Put i v k => Put i v (pbind k f)
  end.
Notation "'do' p '<-' e ';;' k" := (pbind e (fun p => k))
  (at level 200, p pattern, e at level 100, k at level 200).

(** uncompress.hpp:7-28 on the shared vector: a load and a store per value *)
Fixpoint uncompress_sparse_block_c (fuel : nat) (mem : list Z) (begin end_ pos : Z)
  : prog unit :=
  match fuel with
  | O => Ret Fuel
  | S f =>
      do p <- Ret (rd8 mem begin) ;;
      let offset := shrx 6 p in
      Get (pos + offset) (fun load =>
        Put (pos + offset) (bts p load)
          (if begin + 1 =? end_ then Ret (Ok tt)
           else uncompress_sparse_block_c f mem (begin + 1) end_ pos))
  end.

(** stores of consecutive words: the memcpy of uncompress.hpp:30-32, and the std::fill of
    intersection.hpp:188 *)
Fixpoint put_words (i : Z) (ws : list Z) : prog unit :=
  match ws with
  | [] => Ret (Ok tt)
  | w :: ws => Put i w (put_words (i + 1) ws)
  end.

(** uncompress.hpp:39-59 *)
Fixpoint uncompress_sparse_chunk_loop_c (n : nat) (mem : list Z) (begin data bitmap prev : Z)
  : prog unit :=
  match n with
  | O => Ret (Ok tt)
  | S n' =>
      do id <- Ret (rd8 mem begin) ;;
      do c <- Ret (rd8 mem (begin + 1)) ;;
      let c := c + 1 in
      let bitmap := bitmap + (id - prev) * block_size_in_64bit_words in
      do _ <- (if block_type c =? t_sparse
               then uncompress_sparse_block_c (Z.to_nat c) mem data (data + c) bitmap
               else do ws <- Ret (load_words (Z.to_nat (block_size / 8 / 8)) mem data) ;;
                    put_words bitmap ws) ;;
      uncompress_sparse_chunk_loop_c n' mem (begin + 2) (data + bytes_by_cardinality c)
        bitmap id
  end.

(** uncompress.hpp:34-60 *)
Definition uncompress_sparse_chunk_c (dbg : bool) (mem : list Z) (begin blocks : Z)
  : prog unit :=
  do _ <- Ret (assert_ dbg ((1 <=? blocks) && (blocks <=? 256))) ;;
  uncompress_sparse_chunk_loop_c (Z.to_nat blocks) mem begin (begin + blocks * 2) 0 0.

(** util.hpp:16-34 and_bitmaps, whose second bitmap is the shared vector *)
Fixpoint and_bitmap_loop_c (n : nat) (l : Z -> res Z) (i base : Z) (buf : list Z)
    (pos size : Z) : prog (list Z * Z) :=
  match n with
  | O => Ret (Ok (buf, size))
  | S n' =>
      do a <- Ret (l i) ;;
      Get i (fun b =>
        do (buf, size) <- Ret (word_loop 64 (Z.land a b) base buf pos size) ;;
        and_bitmap_loop_c n' l (i + 1) (u32 (base + 64)) buf pos size)
  end.

(** intersection.hpp:185-192 *)
Definition ds_intersect_chunk_c (dbg : bool) (mem : list Z) (l r blocks_r base : Z)
    (out : list Z) (pos : Z) : prog (list Z * Z) :=
  do _ <- put_words 0 (repeat 0 (Z.to_nat chunk_size_in_64bit_words)) ;;
  do _ <- uncompress_sparse_chunk_c dbg mem r blocks_r ;;
  and_bitmap_loop_c (Z.to_nat chunk_size_in_64bit_words) (words_mem mem l) 0 base out pos 0.

(** intersection.hpp:212-261; only the pairs (sparse, dense) and (dense, sparse) use the
    vector *)
Definition intersect_chunks_c (tbl : Z -> list Z) (dbg : bool) (mem : list Z)
    (it_l it_r : iterator) (base : Z) (out : list Z) (pos : Z) : prog (list Z * Z) :=
  do type_l <- Ret (it_type mem it_l) ;;
  do type_r <- Ret (it_type mem it_r) ;;
  let p := chunk_pair type_l type_r in
  if p =? chunk_pair t_sparse t_sparse then
    do blocks_l <- Ret (it_blocks mem it_l) ;;
    do blocks_r <- Ret (it_blocks mem it_r) ;;
    if blocks_l <? blocks_r then
      Ret (ss_intersect_chunk tbl dbg mem (i_data it_l) (i_data it_r) blocks_l blocks_r
             base out pos)
    else
      Ret (ss_intersect_chunk tbl dbg mem (i_data it_r) (i_data it_l) blocks_r blocks_l
             base out pos)
  else if p =? chunk_pair t_sparse t_dense then
    do blocks_l <- Ret (it_blocks mem it_l) ;;
    ds_intersect_chunk_c dbg mem (i_data it_r) (i_data it_l) blocks_l base out pos
  else if p =? chunk_pair t_sparse t_full then
    do blocks_l <- Ret (it_blocks mem it_l) ;;
    Ret (decode_sparse_chunk dbg mem (i_data it_l) blocks_l base out pos)
  else if p =? chunk_pair t_dense t_sparse then
    do blocks_r <- Ret (it_blocks mem it_r) ;;
    ds_intersect_chunk_c dbg mem (i_data it_l) (i_data it_r) blocks_r base out pos
  else if p =? chunk_pair t_dense t_dense then
    Ret (and_bitmaps (words_mem mem (i_data it_l)) (words_mem mem (i_data it_r))
           chunk_size_in_64bit_words base out pos)
  else if p =? chunk_pair t_dense t_full then
    Ret (decode_bitmap (words_mem mem (i_data it_l)) chunk_size_in_64bit_words base out pos)
  else if p =? chunk_pair t_full t_sparse then
    do blocks_r <- Ret (it_blocks mem it_r) ;;
    Ret (decode_sparse_chunk dbg mem (i_data it_r) blocks_r base out pos)
  else if p =? chunk_pair t_full t_dense then
    Ret (decode_bitmap (words_mem mem (i_data it_r)) chunk_size_in_64bit_words base out pos)
  else if p =? chunk_pair t_full t_full then
    Ret (decode_full_chunk base out pos)
  else Ret UB.

(** intersection.hpp:199-272 *)
Fixpoint pairwise_intersection_loop_c (fuel : nat) (tbl : Z -> list Z) (dbg : bool)
    (mem : list Z) (it_l it_r : iterator) (out : list Z) (pos : Z) : prog (list Z * Z) :=
  if it_has_next it_l && it_has_next it_r then
    match fuel with
    | O => Ret Fuel
    | S f =>
        do id_l <- Ret (it_id mem it_l) ;;
        do id_r <- Ret (it_id mem it_r) ;;
        let id_l := u16 id_l in
        let id_r := u16 id_r in
        if id_l =? id_r then
          let base := u32 (Z.shiftl id_l 16) in
          do (out, n) <- intersect_chunks_c tbl dbg mem it_l it_r base out pos ;;
          do it_l <- Ret (it_next mem it_l) ;;
          do it_r <- Ret (it_next mem it_r) ;;
          pairwise_intersection_loop_c f tbl dbg mem it_l it_r out (pos + u32 n)
        else if id_l <? id_r then
          do it_l <- Ret (it_advance mem it_l id_r) ;;
          pairwise_intersection_loop_c f tbl dbg mem it_l it_r out pos
        else
          do it_r <- Ret (it_advance mem it_r id_l) ;;
          pairwise_intersection_loop_c f tbl dbg mem it_l it_r out pos
    end
  else Ret (Ok (out, pos)).

(** intersection.hpp:194-274, as a thread *)
Definition pairwise_intersection_c (tbl : Z -> list Z) (dbg : bool) (mem : list Z)
    (l r : s_sequence) (out : list Z) (pos : Z) : prog (list Z * Z) :=
  let it_l := seq_begin l in
  let it_r := seq_begin r in
  do (out, e) <- pairwise_intersection_loop_c (it_fuel it_l + it_fuel it_r) tbl dbg mem
                   it_l it_r out pos ;;
  Ret (Ok (out, e - pos)).

(** ** Execution *)
(** one access; [x] is the vector *)
Definition step {A} (x : list Z) (p : prog A) : list Z * prog A :=
  match p with
  | Ret r => (x, Ret r)
  | Get i k => match vget x i with Ok v => (x, k v) | _ => (x, Ret UB) end
  | Put i v k => match vset x i v with Ok x => (x, k) | _ => (x, Ret UB) end
  end.

(** the i-th of the threads takes a step *)
Fixpoint step_nth {A} (x : list Z) (ts : list (prog A)) (i : nat) : list Z * list (prog A) :=
  match ts, i with
  | [], _ => (x, [])
  | p :: ts, O => let (x, p) := step x p in (x, p :: ts)
  | p :: ts, S i => let (x, ts) := step_nth x ts i in (x, p :: ts)
  end.

(** a schedule lists the threads in the order of their steps *)
Fixpoint interleave {A} (x : list Z) (ts : list (prog A)) (sched : list nat)
  : list Z * list (prog A) :=
  match sched with
  | [] => (x, ts)
  | i :: sched => let (x, ts) := step_nth x ts i in interleave x ts sched
  end.

(** a thread that is never interrupted *)
Fixpoint alone {A} (x : list Z) (p : prog A) : res (list Z * A) :=
  match p with
  | Ret r => let! a := r in Ok (x, a)
  | Get i k =>
      match vget x i with Ok v => alone x (k v) | _ => UB end
  | Put i v k =>
      match vset x i v with Ok x => alone x k | _ => UB end
  end.

(** ** What the theorems about threads say *)
(** an intersection to be computed by a thread: where the two sequences are, what they
    contain, the output buffer and the index of the first output word *)
Record job := mkJob {
  j_a : Z; j_b : Z;
  j_S : list Z; j_T : list Z;
  j_out : list Z; j_pos : Z
}.
(** the sequences are there, and [e], which enumerates their intersection, fits *)
Definition job_ok (mem : list Z) (j : job) (e : list Z) : Prop :=
  valid (j_S j) /\ valid (j_T j) /\ stored 31 mem (j_a j) (j_S j) /\ stored 31 mem (j_b j) (j_T j)
  /\ enumerates (fun v => In v (j_S j) /\ In v (j_T j)) e
  /\ 0 <= j_pos j /\ j_pos j + zlen e + 23 <= zlen (j_out j).
(** the thread *)
Definition thread (tbl : Z -> list Z) (dbg : bool) (mem : list Z) (j : job) : prog (list Z * Z) :=
  do s <- Ret (seq_at mem (j_a j)) ;;
  do t <- Ret (seq_at mem (j_b j)) ;;
  pairwise_intersection_c tbl dbg mem s t (j_out j) (j_pos j).
