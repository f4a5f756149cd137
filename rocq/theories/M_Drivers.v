(** Model of the programs in src/: the numbers they print, except times.  [mem] holds the mapped
    index file at address [f]; [input] is the sequence of integers on standard input
    (each the value of an int; "%d" stores its low 32 bits).  Text on standard input and command
    lines are in M_Text, the messages in M_Say.  essentials::timer_type is not modelled. *)
From Verif Require Import Base Hw M_Util M_Build M_Seq M_Decode M_Uncompress M_Query M_Many M_Index M_Print
  M_Calls M_Tests.

(** "for (int run = 0; run != runs; ++run)" (cardinality.cpp:17, contains.cpp:21, ...) *)
Fixpoint times {A : Type} (runs : nat) (body : A -> res A) (st : A) : res A :=
  match runs with
  | O => Ok st
  | S n => let! st := body st in times n body st
  end.

(** "for (size_t i = 0; i != index.size(); ++i)" (cardinality.cpp:19, decode.cpp:20,
    uncompress.cpp:23); [m] more iterations *)
Fixpoint each {A : Type} (m : nat) (i : Z) (body : Z -> A -> res A) (st : A) : res A :=
  match m with
  | O => Ok st
  | S m' => let! st := body i st in each m' (i + 1) body st
  end.

(** a loop from [i] to [n] whose counter is a uint32_t while [n] has 64 bits (select.cpp:38 and
    40, next_geq.cpp:37 and 39): it does not end when n >= 2^32 *)
Fixpoint loop32 {A : Type} (fuel : nat) (i n : Z) (body : Z -> A -> res A) (st : A) : res A :=
  if i =? n then Ok st
  else match fuel with
  | O => Fuel
  | S f => let! st := body i st in loop32 f (u32 (i + 1)) n body st
  end.

(** ** Reading standard input *)
(** select.cpp:21-26 = next_geq.cpp:21-26: "%d" into a uint32_t; the counter has 32 bits.
    Every iteration consumes an integer, or ends the loop at the end of the input. *)
Fixpoint read_words (input : list Z) (i total_queries : Z) : list Z :=
  if i =? total_queries then []
  else match input with
  | [] => []
  | q :: input => u32 q :: read_words input (u32 (i + 1)) total_queries
  end.

(** contains.cpp:48-54 = intersect.cpp:51-57 = union.cpp:51-57 *)
Fixpoint read_pairs (input : list Z) (i num_queries : Z) : list (Z * Z) :=
  if i =? num_queries then []
  else match input with
  | q :: r :: input => (u32 q, u32 r) :: read_pairs input (u32 (i + 1)) num_queries
  | _ => []
  end.

(** ** The programs *)
(** cardinality.cpp:10-25; the number printed *)
Definition cardinality_cpp (dbg : bool) (mem : list Z) (f : Z) : res Z :=
  let! ix := index_mmap mem f in
  let! total := times 11 (each (Z.to_nat (ix_size ix)) 0 (fun i total =>
      let! s := index_get dbg mem ix i in
      let! c := cardinality mem s in
      Ok (u64 (total + c)))) 0 in
  Ok (total / 11).

(** decode.cpp:11-29; number of sequences and of integers printed *)
Definition decode_cpp (dbg : bool) (mem : list Z) (f : Z) : res (Z * Z) :=
  let! ix := index_mmap mem f in
  let! (_, integers) := each (Z.to_nat (ix_size ix)) 0 (fun i st =>
      let (out, integers) := (st : list Z * Z) in
      let! s := index_get dbg mem ix i in
      let! (out, decoded) := decode dbg mem s out 0 in
      Ok (out, u64 (integers + decoded)))
    (repeat 0 (Z.to_nat (ix_universe ix)), 0) in
  Ok (ix_size ix, integers).

(** uncompress.cpp:11-31; number of sequences and of integers printed *)
Definition uncompress_cpp (dbg : bool) (mem : list Z) (f : Z) : res (Z * Z) :=
  let! ix := index_mmap mem f in
  let! (_, integers) := each (Z.to_nat (ix_size ix)) 0 (fun i st =>
      let (out, integers) := (st : list Z * Z) in
      let! s := index_get dbg mem ix i in
      let! (out, decoded) := uncompress dbg mem s out 0 in
      Ok (out, u64 (integers + decoded)))
    (repeat 0 (Z.to_nat (bitmap_words (ix_universe ix))), 0) in
  Ok (ix_size ix, integers).

(** contains.cpp:11-26; number of queries and total printed *)
Definition perf_contains (dbg : bool) (mem : list Z) (f : Z) (queries : list (Z * Z)) : res (Z * Z) :=
  let! ix := index_mmap mem f in
  let! total := times 4 (run_queries (fun (q : Z * Z) total =>
      let! s := index_get dbg mem ix (fst q) in
      let! b := contains dbg mem s (snd q) in
      Ok (u64 (total + (if b : bool then 1 else 0)))) queries) 0 in
  Ok (zlen queries, total).

(** contains.cpp:43-57 *)
Definition contains_cpp (dbg : bool) (mem : list Z) (f num_queries : Z) (input : list Z) : res (Z * Z) :=
  perf_contains dbg mem f (read_pairs input 0 num_queries).

(** select.cpp:35-44 = next_geq.cpp:35-42: [n] queries to each sequence; [q] is their position in
    the vector of queries, [ask] what is done with one of them *)
Definition ask_all {B : Type} (dbg : bool) (mem : list Z) (ix : s_index) (n : Z) (queries : list Z)
    (ask : s_sequence -> Z -> B -> res B) (st : B) : res B :=
  let! (_, st) := loop32 (Z.to_nat (ix_size ix)) 0 (ix_size ix) (fun i st =>
      let! s := index_get dbg mem ix i in
      loop32 (S (length queries)) 0 n (fun j st =>
        let (q, b) := (st : Z * B) in
        let! x := vget queries q in
        let! b := ask s x b in
        Ok (q + 1, b)) st)
    (0, st) in
  Ok st.

(** select.cpp:28-47; [value] is set to 0 before each run and keeps its content when select
    returns false.  Number of queries and total printed. *)
Definition perf_select (dbg : bool) (mem : list Z) (ix : s_index) (n : Z) (queries : list Z) : res (Z * Z) :=
  let! total := times 4 (fun total =>
      let! (_, total) := ask_all dbg mem ix n queries (fun s x st =>
          let (value, total) := (st : Z * Z) in
          let! (_, value) := select dbg mem s x value in
          Ok (value, u64 (total + value))) (0, total) in
      Ok total) 0 in
  Ok (zlen queries, total).

(** select.cpp:11-47 *)
Definition select_cpp (dbg : bool) (mem : list Z) (f n : Z) (input : list Z) : res (Z * Z) :=
  let! ix := index_mmap mem f in
  perf_select dbg mem ix n (read_words input 0 (u64 (ix_size ix * n))).

(** next_geq.cpp:28-45 *)
Definition perf_next_geq (dbg : bool) (mem : list Z) (ix : s_index) (n : Z) (queries : list Z) : res (Z * Z) :=
  let! total := times 4 (ask_all dbg mem ix n queries (fun s x total =>
      let! r := next_geq dbg mem s x in
      Ok (u64 (total + r)))) 0 in
  Ok (zlen queries, total).

(** next_geq.cpp:11-45 *)
Definition next_geq_cpp (dbg : bool) (mem : list Z) (f n : Z) (input : list Z) : res (Z * Z) :=
  let! ix := index_mmap mem f in
  perf_next_geq dbg mem ix n (read_words input 0 (u64 (ix_size ix * n))).

(** intersect.cpp:11-29; the static buffers of the library start as zeros *)
Definition perf_intersection (tbl : Z -> list Z) (dbg : bool) (mem : list Z) (f : Z)
    (queries : list (Z * Z)) : res (Z * Z) :=
  let! ix := index_mmap mem f in
  let! (_, _, total) := times 11 (run_queries (fun (q : Z * Z) st =>
      let '(sc, out, total) := (st : scratch * list Z * Z) in
      let! l := index_get dbg mem ix (fst q) in
      let! r := index_get dbg mem ix (snd q) in
      let! (sc, (out, size)) := run_call tbl dbg sc (CInter mem l r out 0) in
      Ok (sc, out, u64 (total + size))) queries)
    (scratch0, repeat 0 (Z.to_nat (ix_universe ix)), 0) in
  Ok (zlen queries, total).

(** intersect.cpp:46-60 *)
Definition intersect_cpp (tbl : Z -> list Z) (dbg : bool) (mem : list Z) (f num_queries : Z)
    (input : list Z) : res (Z * Z) :=
  perf_intersection tbl dbg mem f (read_pairs input 0 num_queries).

(** union.cpp:11-29 *)
Definition perf_union (tbl : Z -> list Z) (dbg : bool) (mem : list Z) (f : Z)
    (queries : list (Z * Z)) : res (Z * Z) :=
  let! ix := index_mmap mem f in
  let! (_, _, total) := times 11 (run_queries (fun (q : Z * Z) st =>
      let '(sc, out, total) := (st : scratch * list Z * Z) in
      let! l := index_get dbg mem ix (fst q) in
      let! r := index_get dbg mem ix (snd q) in
      let! (sc, (out, size)) := run_call tbl dbg sc (CUnion mem l r out 0) in
      Ok (sc, out, u64 (total + size))) queries)
    (scratch0, repeat 0 (Z.to_nat (ix_universe ix)), 0) in
  Ok (zlen queries, total).

(** union.cpp:46-60 *)
Definition union_cpp (tbl : Z -> list Z) (dbg : bool) (mem : list Z) (f num_queries : Z)
    (input : list Z) : res (Z * Z) :=
  perf_union tbl dbg mem f (read_pairs input 0 num_queries).

(** build.cpp:9-20: the numbers printed and the file saved when "--out" is given *)
Definition build_cpp (dbg : bool) (params : parameters) (data : list Z) : res (list token * list Z) :=
  let! (stats, m_offsets, m_sequences) := index_build dbg params data in
  let! shown := print stats in
  Ok (shown, index_file m_offsets m_sequences).

(** example.cpp:72-86; [m] more iterations; the returned boolean says whether main returns 0 *)
Fixpoint example_loop (m : nat) (dbg : bool) (mem : list Z) (ss : s_sequence) (input out : list Z)
    (i value : Z) : res bool :=
  match m with
  | O => Ok true
  | S m' =>
      let! x := vget input i in
      let! y := vget out i in
      if negb (x =? y) then Ok false
      else
        let! (_, value) := select dbg mem ss (u32 i) value in
        if negb (value =? y) then Ok false
        else example_loop m' dbg mem ss input out (i + 1) value
  end.

(** example.cpp:62-86: the sequence encoded at address [a] against the input *)
Definition example_check (dbg : bool) (mem : list Z) (a : Z) (input : list Z) : res bool :=
  let! ss := seq_at mem a in
  let! size := seq_size mem ss in
  let! (out, _) := decode dbg mem ss (repeat 0 (Z.to_nat size)) 0 in
  example_loop (Z.to_nat size) dbg mem ss input out 0 0.

(** example.cpp:39-86; [place] puts the encoding into memory: it returns the memory and the
    address of the encoding, in the file or in the vector of the builder *)
Definition example_cpp (dbg : bool) (place : list Z -> list Z * Z) (input : list Z) : res bool :=
  match builder_build dbg [] input with
  | (Ok stats, m_out) =>
      let! _ := print stats in
      let (mem, a) := place m_out in
      example_check dbg mem a input
  | (Throw, _) => Throw
  | (Abort, _) => Abort
  | (UB, _) => UB
  | (Fuel, _) => Fuel
  end.
