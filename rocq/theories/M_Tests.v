(** Model of the programs in test/.  A program is modelled by what it computes: whether it
    would print "everything good", and how many sequences or queries it reports.  The
    command line and the text of the queries are in M_Text, the messages in M_Say.  [mem]
    holds the mapped index file at address [f]; [data] is the collection file as 32-bit
    words (a mapping of its own). *)
From Verif Require Import Base Hw M_Util M_Seq M_Decode M_Uncompress M_Query M_Union M_Many
  M_Index M_Calls.

(** The loop over the collection shared by the programs (test_decode.cpp:25-61,
    test_contains.cpp:24-54, ...): [body k i n universe] runs for every list that passes
    the filter; [st] is what the program keeps between iterations. *)
Fixpoint scan {A : Type} (fuel : nat) (params : parameters) (data : list Z)
    (body : Z -> Z -> Z -> Z -> A -> res A) (i k : Z) (st : A) : res (Z * A) :=
  if i <? zlen data then
    match fuel with
    | O => Fuel
    | S f =>
        let! n := vget data i in
        let! universe := vget data (i + n) in
        if pass params n universe then
          let! st := body k i n universe st in
          scan f params data body (i + u32 (n + 1)) (k + 1) st
        else scan f params data body (i + u32 (n + 1)) k st
    end
  else Ok (k, st).

(** the comparison loop of test_decode.cpp:45-53 and test_uncompress.cpp:69-77; [m] more
    iterations, [p] is the index of *ptr in the collection *)
Fixpoint compare_loop (m : nat) (data : list Z) (p : Z) (out : list Z) (j : Z) (good : bool)
  : res bool :=
  match m with
  | O => Ok good
  | S m' =>
      let! expected := vget data p in
      let! got := vget out j in
      compare_loop m' data (p + 1) out (j + 1) (good && (expected =? got))
  end.

(** test_decode.cpp:29-53 *)
Definition decode_body (dbg : bool) (mem : list Z) (ix : s_index) (data : list Z)
    (k i n universe : Z) (st : bool * list Z) : res (bool * list Z) :=
  let (good, out) := st in
  let! s := index_get dbg mem ix k in
  let! (out, decoded) := decode dbg mem s out 0 in
  let! c := cardinality mem s in
  let good := good && (c =? n) in
  let good := good && (decoded =? n) in
  let! good := compare_loop (Z.to_nat n) data (i + 1) out 0 good in
  Ok (good, out).

(** test_decode.cpp:12-64; returns (k, good) *)
Definition test_decode (dbg : bool) (params : parameters) (mem : list Z) (f : Z) (data : list Z)
  : res (Z * bool) :=
  let! ix := index_mmap mem f in
  let! d0 := vget data 0 in
  let! _ := assert_ dbg (d0 =? 1) in
  let! (k, (good, _)) :=
    scan (length data) params data (decode_body dbg mem ix data) 2 0
      (true, repeat 0 (Z.to_nat (ix_universe ix))) in
  Ok (k, good).

(** test_contains.cpp:37-46 *)
Fixpoint contains_loop (m : nat) (dbg : bool) (mem : list Z) (s : s_sequence) (data : list Z)
    (p : Z) (good : bool) : res bool :=
  match m with
  | O => Ok good
  | S m' =>
      let! value := vget data p in
      let! found := contains dbg mem s value in
      contains_loop m' dbg mem s data (p + 1) (good && found)
  end.

(** test_contains.cpp:28-46 *)
Definition contains_body (dbg : bool) (mem : list Z) (ix : s_index) (data : list Z)
    (k i n universe : Z) (good : bool) : res bool :=
  let! s := index_get dbg mem ix k in
  let! c := cardinality mem s in
  let good := good && (c =? n) in
  contains_loop (Z.to_nat n) dbg mem s data (i + 1) good.

(** test_contains.cpp:12-57 *)
Definition test_contains (dbg : bool) (params : parameters) (mem : list Z) (f : Z) (data : list Z)
  : res (Z * bool) :=
  let! ix := index_mmap mem f in
  let! d0 := vget data 0 in
  let! _ := assert_ dbg (d0 =? 1) in
  scan (length data) params data (contains_body dbg mem ix data) 2 0 true.

(** test_enumerator.cpp:33-42 *)
Fixpoint enumerator_loop (m : nat) (dbg : bool) (mem : list Z) (data : list Z) (p : Z)
    (e : enumerator) (good : bool) : res (bool * enumerator) :=
  match m with
  | O => Ok (good, e)
  | S m' =>
      let! expected := vget data p in
      let! got := enum_value e in
      let! e := enum_next dbg mem e in
      enumerator_loop m' dbg mem data (p + 1) e (good && (expected =? got))
  end.

(** test_enumerator.cpp:30-42; init (line 31) takes the universe as a uint32_t *)
Definition enumerator_body (dbg : bool) (mem : list Z) (ix : s_index) (data : list Z)
    (k i n universe : Z) (st : bool * list Z) : res (bool * list Z) :=
  let (good, buf) := st in
  let! s := index_get dbg mem ix k in
  let! e := enum_init dbg mem buf s (u32 (ix_universe ix)) in
  let! (good, e) := enumerator_loop (Z.to_nat n) dbg mem data (i + 1) e good in
  Ok (good, en_buf e).

(** test_enumerator.cpp:12-53 *)
Definition test_enumerator (dbg : bool) (params : parameters) (mem : list Z) (f : Z) (data : list Z)
  : res (Z * bool) :=
  let! ix := index_mmap mem f in
  let! d0 := vget data 0 in
  let! _ := assert_ dbg (d0 =? 1) in
  let! (k, (good, _)) :=
    scan (length data) params data (enumerator_body dbg mem ix data) 2 0 (true, enum_new_buf) in
  Ok (k, good).

(** test_select.cpp:37-54 *)
Fixpoint select_loop (m : nat) (dbg : bool) (mem : list Z) (s : s_sequence) (data : list Z)
    (p j value : Z) (good : bool) : res bool :=
  match m with
  | O => Ok good
  | S m' =>
      let! expected := vget data p in
      let! (valid, value) := select dbg mem s (u32 j) value in
      let good := good && valid in
      select_loop m' dbg mem s data (p + 1) (j + 1) value (good && (expected =? value))
  end.

(** test_select.cpp:28-54 *)
Definition select_body (dbg : bool) (mem : list Z) (ix : s_index) (data : list Z)
    (k i n universe : Z) (good : bool) : res bool :=
  let! s := index_get dbg mem ix k in
  let! c := cardinality mem s in
  let good := good && (c =? n) in
  select_loop (Z.to_nat n) dbg mem s data (i + 1) 0 0 good.

(** test_select.cpp:12-65 *)
Definition test_select (dbg : bool) (params : parameters) (mem : list Z) (f : Z) (data : list Z)
  : res (Z * bool) :=
  let! ix := index_mmap mem f in
  let! d0 := vget data 0 in
  let! _ := assert_ dbg (d0 =? 1) in
  scan (length data) params data (select_body dbg mem ix data) 2 0 true.

(** std::lower_bound(list, list + n, v) on the words [p, p + m) of the collection (test_next_geq.cpp:42):
    the first position whose word is not below v, else the end.  The standard library
    searches by bisection; on a sorted range the result is the same. *)
Fixpoint lower_bound (m : nat) (data : list Z) (p v : Z) : res Z :=
  match m with
  | O => Ok p
  | S m' =>
      let! x := vget data p in
      if x <? v then lower_bound m' data (p + 1) v else Ok p
  end.

(** test_next_geq.cpp:39-52 = test_next_geq_enumerator.cpp:41-54; [next] is one query, which may
    change the state [st] of an enumerator.  [universe + 1] is 32-bit arithmetic, the
    argument of next_geq is converted to 32 bits. *)
Fixpoint geq_loop {A : Type} (fuel : nat) (dbg : bool) (next : A -> Z -> res (A * Z))
    (data : list Z) (i n universe : Z) (st : A) (lb : Z) (good : bool) : res (A * bool) :=
  if lb =? u32 (universe + 1) then Ok (st, good)
  else match fuel with
  | O => Fuel
  | S f =>
      let! it := lower_bound (Z.to_nat n) data (i + 1) lb in
      let! (st, r) := next st (u32 lb) in
      let! _ := assert_ dbg (lb <=? r) in
      let! expected := vget data it in
      geq_loop f dbg next data i n universe st (lb + 1) (good && (r =? expected))
  end.

(** test_next_geq.cpp:54-63 = test_next_geq_enumerator.cpp:56-65: [lower_bound] has 64 bits,
    but [universe + 1] and [universe + 1000000 + 1] are 32-bit arithmetic.  The loop need
    not end soon; [fuel] bounds its iterations. *)
Fixpoint beyond_loop {A : Type} (fuel : nat) (next : A -> Z -> res (A * Z)) (universe : Z)
    (st : A) (lb : Z) (good : bool) : res (A * bool) :=
  if lb =? u32 (universe + 1000000 + 1) then Ok (st, good)
  else match fuel with
  | O => Fuel
  | S f =>
      let! (st, r) := next st (u32 lb) in
      beyond_loop f next universe st (u64 (lb + 10000)) (good && (r =? not_found))
  end.

(** test_next_geq.cpp:28-63 *)
Definition next_geq_body (fuel : nat) (dbg : bool) (mem : list Z) (ix : s_index) (data : list Z)
    (k i n universe : Z) (good : bool) : res bool :=
  let! s := index_get dbg mem ix k in
  let! c := cardinality mem s in
  let good := good && (c =? n) in
  let next := fun (_ : unit) v => let! r := next_geq dbg mem s v in Ok (tt, r) in
  let! (_, good) := geq_loop (Z.to_nat (u32 (universe + 1))) dbg next data i n universe tt 0 good in
  let! (_, good) := beyond_loop fuel next universe tt (u32 (universe + 1)) good in
  Ok good.

(** test_next_geq.cpp:12-74 *)
Definition test_next_geq (fuel : nat) (dbg : bool) (params : parameters) (mem : list Z) (f : Z)
    (data : list Z) : res (Z * bool) :=
  let! ix := index_mmap mem f in
  let! d0 := vget data 0 in
  let! _ := assert_ dbg (d0 =? 1) in
  scan (length data) params data (next_geq_body fuel dbg mem ix data) 2 0 true.

(** test_next_geq_enumerator.cpp:29-65 *)
Definition ng_body (fuel : nat) (dbg : bool) (mem : list Z) (ix : s_index) (data : list Z)
    (k i n universe : Z) (good : bool) : res bool :=
  let! s := index_get dbg mem ix k in
  let! c := cardinality mem s in
  let good := good && (c =? n) in
  let! e := ng_init mem s in
  let next := fun e v => ng_next_geq dbg mem e v in
  let! (e, good) := geq_loop (Z.to_nat (u32 (universe + 1))) dbg next data i n universe e 0 good in
  let! (_, good) := beyond_loop fuel next universe e (u32 (universe + 1)) good in
  Ok good.

(** test_next_geq_enumerator.cpp:12-76 *)
Definition test_next_geq_enumerator (fuel : nat) (dbg : bool) (params : parameters) (mem : list Z)
    (f : Z) (data : list Z) : res (Z * bool) :=
  let! ix := index_mmap mem f in
  let! d0 := vget data 0 in
  let! _ := assert_ dbg (d0 =? 1) in
  scan (length data) params data (ng_body fuel dbg mem ix data) 2 0 true.

(** test_uncompress.cpp:16-26; the inner loop is the one of decode.hpp:15-20.  Returns
    (bitmap, out, size). *)
Fixpoint reset_loop (m : nat) (bitmap : list Z) (i base : Z) (out : list Z) (size : Z)
  : res (list Z * list Z * Z) :=
  match m with
  | O => Ok (bitmap, out, size)
  | S m' =>
      let! w := vget bitmap i in
      let! (out, size) := word_loop 64 w base out 0 size in
      let! bitmap := vset bitmap i 0 in
      reset_loop m' bitmap (i + 1) (u32 (base + 64)) out size
  end.

(** test_uncompress.cpp:12-28 *)
Definition decode_bitmap_and_reset (bitmap : list Z) (size_in_64bit_words : Z) (out : list Z)
  : res (list Z * list Z * Z) :=
  let! (bitmap, out, size) := reset_loop (Z.to_nat size_in_64bit_words) bitmap 0 0 out 0 in
  Ok (bitmap, out, u32 size).

(** test_uncompress.cpp:41-42 = uncompress.cpp:17-18: both factors are uint32_t *)
Definition bitmap_words (universe : Z) : Z := u32 (num_chunks universe * chunk_size) / 64.

(** test_uncompress.cpp:53-77 *)
Definition uncompress_body (dbg : bool) (mem : list Z) (ix : s_index) (data : list Z)
    (k i n universe : Z) (st : bool * list Z * list Z) : res (bool * list Z * list Z) :=
  let '(good, bitmap, out) := st in
  let! s := index_get dbg mem ix k in
  let! (bitmap, decoded) := uncompress dbg mem s bitmap 0 in
  let! (bitmap, out, d) := decode_bitmap_and_reset bitmap (bitmap_words (ix_universe ix)) out in
  let good := good && (decoded =? d) in
  let good := good && (decoded =? n) in
  let! good := compare_loop (Z.to_nat n) data (i + 1) out 0 good in
  Ok (good, bitmap, out).

(** test_uncompress.cpp:30-88 *)
Definition test_uncompress (dbg : bool) (params : parameters) (mem : list Z) (f : Z) (data : list Z)
  : res (Z * bool) :=
  let! ix := index_mmap mem f in
  let! d0 := vget data 0 in
  let! _ := assert_ dbg (d0 =? 1) in
  let! (k, (good, _, _)) :=
    scan (length data) params data (uncompress_body dbg mem ix data) 2 0
      (true, repeat 0 (Z.to_nat (bitmap_words (ix_universe ix))),
       repeat 0 (Z.to_nat (ix_universe ix))) in
  Ok (k, good).

(** ** Programs reading queries *)

(** test_intersect_many.cpp:13-30, and std::set_intersection of lists without duplicates *)
Fixpoint merge_and (l : list Z) : list Z -> list Z :=
  match l with
  | [] => fun _ => []
  | x :: l' =>
      fix go (r : list Z) : list Z :=
        match r with
        | [] => []
        | y :: r' =>
            if x <? y then merge_and l' r
            else if y <? x then go r'
            else x :: merge_and l' r'
        end
  end.

(** test_union_many.cpp:16-43, and std::set_union of lists without duplicates *)
Fixpoint merge_or (l : list Z) : list Z -> list Z :=
  match l with
  | [] => fun r => r
  | x :: l' =>
      fix go (r : list Z) : list Z :=
        match r with
        | [] => x :: l'
        | y :: r' =>
            if x <? y then x :: merge_or l' r
            else if y <? x then y :: go r'
            else x :: merge_or l' r'
        end
  end.

(** test_intersect.cpp:44-50 = test_union.cpp:36-42, and the same loops with a vector
    [expected] (test_intersect_many.cpp:82-88, test_union_many.cpp:95-101) *)
Fixpoint check_loop (m : nat) (expected out : list Z) (j : Z) (good : bool) : res bool :=
  match m with
  | O => Ok good
  | S m' =>
      let! x := vget expected j in
      let! y := vget out j in
      check_loop m' expected out (j + 1) (good && (x =? y))
  end.

(** The four vectors of test_intersect.cpp:17-20 = test_union.cpp:15-18, the static scratch
    buffers of the library, and the verdict. *)
Record qstate := mkQ {
  q_good : bool;
  q_sc : scratch;
  q_out : list Z;
  q_i : list Z;
  q_j : list Z;
  q_expected : list Z
}.
Definition qstate0 (universe : Z) : qstate :=
  let v := repeat 0 (Z.to_nat universe) in mkQ true scratch0 v v v v.

(** test_intersect.cpp:24-50; [sort] is the order in which the std::sort of
    intersection_many.hpp:10 leaves the two sequences *)
Definition intersect_query (tbl : Z -> list Z) (sort : list s_sequence -> list s_sequence)
    (dbg : bool) (mem : list Z) (ix : s_index) (q : Z * Z) (st : qstate) : res qstate :=
  let! si := index_get dbg mem ix (fst q) in
  let! (vi, i_size) := decode dbg mem si (q_i st) 0 in
  let! sj := index_get dbg mem ix (snd q) in
  let! (vj, j_size) := decode dbg mem sj (q_j st) 0 in
  let e := merge_and (firstn (Z.to_nat i_size) vi) (firstn (Z.to_nat j_size) vj) in
  let! expected := store (q_expected st) 0 e in
  let! (sc, (out, size)) :=
    run_call tbl dbg (q_sc st) (CInterMany mem (sort [si; sj]) (q_out st) 0) in
  let good := q_good st && (zlen e =? size) in
  let! good := check_loop (Z.to_nat size) expected out 0 good in
  Ok (mkQ good sc out vi vj expected).

(** test_union.cpp:22-42 *)
Definition union_query (tbl : Z -> list Z) (dbg : bool) (mem : list Z) (ix : s_index)
    (q : Z * Z) (st : qstate) : res qstate :=
  let! si := index_get dbg mem ix (fst q) in
  let! (vi, i_size) := decode dbg mem si (q_i st) 0 in
  let! sj := index_get dbg mem ix (snd q) in
  let! (vj, j_size) := decode dbg mem sj (q_j st) 0 in
  let e := merge_or (firstn (Z.to_nat i_size) vi) (firstn (Z.to_nat j_size) vj) in
  let! expected := store (q_expected st) 0 e in
  let! (sc, (out, size)) := run_call tbl dbg (q_sc st) (CUnion mem si sj (q_out st) 0) in
  let good := q_good st && (zlen e =? size) in
  let! good := check_loop (Z.to_nat size) expected out 0 good in
  Ok (mkQ good sc out vi vj expected).

(** the loop over the queries *)
Fixpoint run_queries {Q A : Type} (body : Q -> A -> res A) (queries : list Q) (st : A) : res A :=
  match queries with
  | [] => Ok st
  | q :: queries => let! st := body q st in run_queries body queries st
  end.

(** test_intersect.cpp:12-54; returns (number of queries, good) *)
Definition test_intersect (tbl : Z -> list Z) (sort : list s_sequence -> list s_sequence)
    (dbg : bool) (mem : list Z) (f : Z) (queries : list (Z * Z)) : res (Z * bool) :=
  let! ix := index_mmap mem f in
  let! st := run_queries (intersect_query tbl sort dbg mem ix) queries (qstate0 (ix_universe ix)) in
  Ok (zlen queries, q_good st).

(** test_union.cpp:10-46 *)
Definition test_union (tbl : Z -> list Z) (dbg : bool) (mem : list Z) (f : Z)
    (queries : list (Z * Z)) : res (Z * bool) :=
  let! ix := index_mmap mem f in
  let! st := run_queries (union_query tbl dbg mem ix) queries (qstate0 (ix_universe ix)) in
  Ok (zlen queries, q_good st).

(** test_intersect_many.cpp:41-44 = test_union_many.cpp:54-57 *)
Fixpoint collect_loop (fuel : nat) (dbg : bool) (mem : list Z) (e : enumerator) (acc : list Z)
  : res (list Z) :=
  if en_has_next e then
    match fuel with
    | O => Fuel
    | S f =>
        let! v := enum_value e in
        let! e := enum_next dbg mem e in
        collect_loop f dbg mem e (acc ++ [v])
    end
  else Ok acc.

(** std::is_sorted (test_intersect_many.cpp:46) *)
Fixpoint is_sorted (l : list Z) : bool :=
  match l with
  | x :: ((y :: _) as l') => (x <=? y) && is_sorted l'
  | _ => true
  end.

(** test_intersect_many.cpp:37-46 = test_union_many.cpp:50-59; the enumerator is a new one *)
Definition collect (dbg : bool) (mem : list Z) (ix : s_index) (k : Z) : res (list Z) :=
  let! s := index_get dbg mem ix k in
  let! e := enum_init dbg mem enum_new_buf s (u32 (ix_universe ix)) in
  let! c := cardinality mem s in
  let! l := collect_loop (S (Z.to_nat c)) dbg mem e [] in
  let! _ := assert_ dbg (zlen l =? c) in
  let! _ := assert_ dbg (is_sorted l) in
  Ok l.

(** the loop around it, and the one filling [sequences] (test_intersect_many.cpp:71-73) *)
Fixpoint res_map {A B : Type} (f : A -> res B) (l : list A) : res (list B) :=
  match l with
  | [] => Ok []
  | x :: l => let! y := f x in let! ys := res_map f l in Ok (y :: ys)
  end.

(** test_intersect_many.cpp:49-54 *)
Definition and_all (ls : list (list Z)) : res (list Z) :=
  match ls with
  | l0 :: l1 :: ls => Ok (fold_left merge_and ls (merge_and l0 l1))
  | _ => UB
  end.

(** test_union_many.cpp:62-67 *)
Definition or_all (ls : list (list Z)) : list Z := fold_left merge_or ls [].

(** test_intersect_many.cpp:68-89: queries of fewer than 2 sequences are skipped *)
Definition intersect_many_query (tbl : Z -> list Z) (sort : list s_sequence -> list s_sequence)
    (dbg : bool) (mem : list Z) (ix : s_index) (q : list Z)
    (st : Z * bool * scratch * list Z) : res (Z * bool * scratch * list Z) :=
  let '(num, good, sc, out) := st in
  if zlen q <? 2 then Ok st
  else
    let! ls := res_map (collect dbg mem ix) q in
    let! expected := and_all ls in
    let! seqs := res_map (index_get dbg mem ix) q in
    let! (sc, (out, size)) := run_call tbl dbg sc (CInterMany mem (sort seqs) out 0) in
    let good := good && (zlen expected =? size) in
    let! good := check_loop (Z.to_nat size) expected out 0 good in
    Ok (num + 1, good, sc, out).

(** test_intersect_many.cpp:57-93; returns (num_queries, good) *)
Definition test_intersect_many (tbl : Z -> list Z) (sort : list s_sequence -> list s_sequence)
    (dbg : bool) (mem : list Z) (f : Z) (queries : list (list Z)) : res (Z * bool) :=
  let! ix := index_mmap mem f in
  let! (num, good, _, _) :=
    run_queries (intersect_many_query tbl sort dbg mem ix) queries
      (0, true, scratch0, repeat 0 (Z.to_nat (ix_universe ix))) in
  Ok (num, good).

(** test_union_many.cpp:81-102 *)
Definition union_many_query (tbl : Z -> list Z) (dbg : bool) (mem : list Z) (ix : s_index)
    (q : list Z) (st : Z * bool * scratch * list Z) : res (Z * bool * scratch * list Z) :=
  let '(num, good, sc, out) := st in
  if zlen q <? 2 then Ok st
  else
    let! ls := res_map (collect dbg mem ix) q in
    let expected := or_all ls in
    let! seqs := res_map (index_get dbg mem ix) q in
    let! (sc, (out, size)) := run_call tbl dbg sc (CUnionMany mem seqs out 0) in
    let good := good && (zlen expected =? size) in
    let! good := check_loop (Z.to_nat size) expected out 0 good in
    Ok (num + 1, good, sc, out).

(** test_union_many.cpp:70-106 *)
Definition test_union_many (tbl : Z -> list Z) (dbg : bool) (mem : list Z) (f : Z)
    (queries : list (list Z)) : res (Z * bool) :=
  let! ix := index_mmap mem f in
  let! (num, good, _, _) :=
    run_queries (union_many_query tbl dbg mem ix) queries
      (0, true, scratch0, repeat 0 (Z.to_nat (ix_universe ix))) in
  Ok (num, good).
