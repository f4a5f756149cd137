(** Model of the text which the programs in test/ and src/ write to std::cout (build.cpp: M_Out.v), and
    of what main returns.  The loops are those of M_Tests.v with the messages in them; what a
    program has written before it throws, aborts or does something undefined is not modelled.
    The text written by essentials (print_size) is not modelled, and a time measured by
    essentials::timer_type is a double given to the model. *)
From Coq Require Import String Floats.SpecFloat.
From Verif Require Import Base Hw M_Util M_Build M_Seq M_Decode M_Uncompress M_Query M_Many M_Index M_Print M_Calls
  M_Tests M_Drivers M_Text M_Out.

(** the variable [good] and what has been written *)
Definition log : Type := bool * list Z.
(** "std::cout << ..." *)
Definition tell (l : list Z) (lg : log) : log := (fst lg, snd lg ++ l).
(** "if (bad) { good = false; std::cout << ...; }" (test_contains.cpp:31-35, ...) *)
Definition report (bad : bool) (l : list Z) (lg : log) : log := if bad then (false, snd lg ++ l) else lg.

(** ** Messages of the test programs *)
(** test_decode.cpp:35-36 = test_contains.cpp:33-34 = test_select.cpp:33-34 = test_next_geq.cpp:33-34 =
    test_next_geq_enumerator.cpp:34-35 *)
Definition say_cardinality (c n : Z) : list Z :=
  codes "cardinality " ++ show c ++ codes ": expected " ++ show n ++ endl.
(** test_decode.cpp:41-42 = test_uncompress.cpp:59-60 and 65-66 *)
Definition say_decoded (decoded n : Z) : list Z :=
  codes "decoded " ++ show decoded ++ codes " integers: expected " ++ show n ++ endl.
(** test_decode.cpp:50-51 = test_enumerator.cpp:38-39 = test_select.cpp:51-52 = test_uncompress.cpp:74-75 =
    test_intersect.cpp:47-48 = test_union.cpp:39-40 = ... *)
Definition say_error (j n expected got : Z) : list Z :=
  codes "error at " ++ show j ++ codes "/" ++ show n ++ codes ": expected " ++ show expected
  ++ codes " but got " ++ show got ++ endl.
(** test_decode.cpp:57 and 62, test_contains.cpp:50 and 55, ... *)
Definition say_count (verb : string) (k : Z) (things : string) : list Z :=
  codes verb ++ show k ++ codes things ++ endl.
(** test_contains.cpp:21, ... *)
Definition say_universe (u : Z) : list Z := codes "universe size: " ++ show u ++ endl.
(** test_decode.cpp:62-63, test_intersect.cpp:52-53, ...: the last lines *)
Definition verdict (l : list Z) (lg : log) : list Z :=
  snd lg ++ l ++ (if fst lg then codes "everything good" ++ endl else []).

(** ** Programs reading a collection *)
(** test_decode.cpp:55-58, ...: the line after every 1000 lists *)
Definition counting {A : Type} (verb : string) (body : Z -> Z -> Z -> Z -> A * log -> res (A * log))
    (k i n universe : Z) (st : A * log) : res (A * log) :=
  let! (a, lg) := body k i n universe st in
  Ok (a, if (k + 1) mod 1000 =? 0 then tell (say_count verb (k + 1) " sequences") lg else lg).

(** test_decode.cpp:12-64, ...: [start] is what the program keeps between the lists *)
Definition say_scan {A : Type} (verb last_verb : string) (dbg : bool) (params : parameters) (mem : list Z) (f : Z)
    (data : list Z) (body : s_index -> Z -> Z -> Z -> Z -> A * log -> res (A * log)) (start : s_index -> A)
  : res (list Z) :=
  let! ix := index_mmap mem f in
  let! d0 := vget data 0 in
  let! _ := assert_ dbg (d0 =? 1) in
  let! (k, (_, lg)) :=
    scan (length data) params data (counting verb (body ix)) 2 0
      (start ix, (true, say_universe (ix_universe ix))) in
  Ok (verdict (say_count last_verb k " sequences") lg).

(** test_decode.cpp:46-53 = test_uncompress.cpp:70-77 *)
Fixpoint say_compare_loop (m : nat) (data : list Z) (p : Z) (out : list Z) (j n : Z) (lg : log) : res log :=
  match m with
  | O => Ok lg
  | S m' =>
      let! expected := vget data p in
      let! got := vget out j in
      say_compare_loop m' data (p + 1) out (j + 1) n
        (report (negb (expected =? got)) (say_error j n expected got) lg)
  end.

(** test_decode.cpp:29-53 *)
Definition say_decode_body (dbg : bool) (mem data : list Z) (ix : s_index) (k i n universe : Z)
    (st : list Z * log) : res (list Z * log) :=
  let (out, lg) := st in
  let! s := index_get dbg mem ix k in
  let! (out, decoded) := decode dbg mem s out 0 in
  let! c := cardinality mem s in
  let lg := report (negb (c =? n)) (say_cardinality c n) lg in
  let lg := report (negb (decoded =? n)) (say_decoded decoded n) lg in
  let! lg := say_compare_loop (Z.to_nat n) data (i + 1) out 0 n lg in
  Ok (out, lg).

(** test_decode.cpp:12-64 *)
Definition say_test_decode (dbg : bool) (params : parameters) (mem : list Z) (f : Z) (data : list Z) : res (list Z) :=
  say_scan "decoded " "decoded " dbg params mem f data (say_decode_body dbg mem data)
    (fun ix => repeat 0 (Z.to_nat (ix_universe ix))).

(** test_contains.cpp:38-46 *)
Fixpoint say_contains_loop (m : nat) (dbg : bool) (mem : list Z) (s : s_sequence) (data : list Z) (p : Z) (lg : log)
  : res log :=
  match m with
  | O => Ok lg
  | S m' =>
      let! value := vget data p in
      let! found := contains dbg mem s value in
      say_contains_loop m' dbg mem s data (p + 1)
        (report (negb found) (show value ++ codes " should have been found" ++ endl) lg)
  end.

(** test_contains.cpp:28-46 *)
Definition say_contains_body (dbg : bool) (mem data : list Z) (ix : s_index) (k i n universe : Z)
    (st : unit * log) : res (unit * log) :=
  let (_, lg) := st in
  let! s := index_get dbg mem ix k in
  let! c := cardinality mem s in
  let lg := report (negb (c =? n)) (say_cardinality c n) lg in
  let! lg := say_contains_loop (Z.to_nat n) dbg mem s data (i + 1) lg in
  Ok (tt, lg).

(** test_contains.cpp:12-57 *)
Definition say_test_contains (dbg : bool) (params : parameters) (mem : list Z) (f : Z) (data : list Z) : res (list Z) :=
  say_scan "checked " "checked " dbg params mem f data (say_contains_body dbg mem data) (fun _ => tt).

(** test_enumerator.cpp:34-42 *)
Fixpoint say_enumerator_loop (m : nat) (dbg : bool) (mem data : list Z) (p j n : Z) (e : enumerator) (lg : log)
  : res (log * enumerator) :=
  match m with
  | O => Ok (lg, e)
  | S m' =>
      let! expected := vget data p in
      let! got := enum_value e in
      let! e := enum_next dbg mem e in
      say_enumerator_loop m' dbg mem data (p + 1) (j + 1) n e
        (report (negb (expected =? got)) (say_error j n expected got) lg)
  end.

(** test_enumerator.cpp:30-42 *)
Definition say_enumerator_body (dbg : bool) (mem data : list Z) (ix : s_index) (k i n universe : Z)
    (st : list Z * log) : res (list Z * log) :=
  let (buf, lg) := st in
  let! s := index_get dbg mem ix k in
  let! e := enum_init dbg mem buf s (u32 (ix_universe ix)) in
  let! (lg, e) := say_enumerator_loop (Z.to_nat n) dbg mem data (i + 1) 0 n e lg in
  Ok (en_buf e, lg).

(** test_enumerator.cpp:12-53 *)
Definition say_test_enumerator (dbg : bool) (params : parameters) (mem : list Z) (f : Z) (data : list Z) : res (list Z) :=
  say_scan "decoded " "decoded " dbg params mem f data (say_enumerator_body dbg mem data) (fun _ => enum_new_buf).

(** test_select.cpp:39-54 *)
Fixpoint say_select_loop (m : nat) (dbg : bool) (mem : list Z) (s : s_sequence) (data : list Z) (p j n value : Z)
    (lg : log) : res log :=
  match m with
  | O => Ok lg
  | S m' =>
      let! expected := vget data p in
      let! (valid, value) := select dbg mem s (u32 j) value in
      let lg := report (negb valid) (codes "rank " ++ show j ++ codes " should have been valid" ++ endl) lg in
      say_select_loop m' dbg mem s data (p + 1) (j + 1) n value
        (report (negb (expected =? value)) (say_error j n expected value) lg)
  end.

(** test_select.cpp:28-54 *)
Definition say_select_body (dbg : bool) (mem data : list Z) (ix : s_index) (k i n universe : Z)
    (st : unit * log) : res (unit * log) :=
  let (_, lg) := st in
  let! s := index_get dbg mem ix k in
  let! c := cardinality mem s in
  let lg := report (negb (c =? n)) (say_cardinality c n) lg in
  let! lg := say_select_loop (Z.to_nat n) dbg mem s data (i + 1) 0 n 0 lg in
  Ok (tt, lg).

(** test_select.cpp:12-65 *)
Definition say_test_select (dbg : bool) (params : parameters) (mem : list Z) (f : Z) (data : list Z) : res (list Z) :=
  say_scan "checked " "checked " dbg params mem f data (say_select_body dbg mem data) (fun _ => tt).

(** test_next_geq.cpp:40-52 = test_next_geq_enumerator.cpp:42-54 *)
Fixpoint say_geq_loop {A : Type} (fuel : nat) (dbg : bool) (next : A -> Z -> res (A * Z)) (data : list Z)
    (i n universe : Z) (st : A) (lb : Z) (lg : log) : res (A * log) :=
  if lb =? u32 (universe + 1) then Ok (st, lg)
  else match fuel with
  | O => Fuel
  | S f =>
      let! it := lower_bound (Z.to_nat n) data (i + 1) lb in
      let! (st, r) := next st (u32 lb) in
      let! _ := assert_ dbg (lb <=? r) in
      let! expected := vget data it in
      say_geq_loop f dbg next data i n universe st (lb + 1)
        (report (negb (r =? expected))
           (codes "error at " ++ show lb ++ codes "/" ++ show universe ++ codes ": got " ++ show r
            ++ codes " but expected next_geq(" ++ show lb ++ codes ") = " ++ show expected ++ endl) lg)
  end.

(** test_next_geq.cpp:55-63 = test_next_geq_enumerator.cpp:57-65 *)
Fixpoint say_beyond_loop {A : Type} (fuel : nat) (next : A -> Z -> res (A * Z)) (universe : Z) (st : A) (lb : Z)
    (lg : log) : res (A * log) :=
  if lb =? u32 (universe + 1000000 + 1) then Ok (st, lg)
  else match fuel with
  | O => Fuel
  | S f =>
      let! (st, r) := next st (u32 lb) in
      say_beyond_loop f next universe st (u64 (lb + 10000))
        (report (negb (r =? not_found))
           (codes "error : got " ++ show r ++ codes " but expected " ++ show not_found ++ endl) lg)
  end.

(** test_next_geq.cpp:28-63 *)
Definition say_next_geq_body (fuel : nat) (dbg : bool) (mem data : list Z) (ix : s_index) (k i n universe : Z)
    (st : unit * log) : res (unit * log) :=
  let (_, lg) := st in
  let! s := index_get dbg mem ix k in
  let! c := cardinality mem s in
  let lg := report (negb (c =? n)) (say_cardinality c n) lg in
  let next := fun (_ : unit) v => let! r := next_geq dbg mem s v in Ok (tt, r) in
  let! (_, lg) := say_geq_loop (Z.to_nat (u32 (universe + 1))) dbg next data i n universe tt 0 lg in
  let! (_, lg) := say_beyond_loop fuel next universe tt (u32 (universe + 1)) lg in
  Ok (tt, lg).

(** test_next_geq.cpp:12-74 *)
Definition say_test_next_geq (fuel : nat) (dbg : bool) (params : parameters) (mem : list Z) (f : Z) (data : list Z)
  : res (list Z) :=
  say_scan "checked " "checked " dbg params mem f data (say_next_geq_body fuel dbg mem data) (fun _ => tt).

(** test_next_geq_enumerator.cpp:29-65 *)
Definition say_ng_body (fuel : nat) (dbg : bool) (mem data : list Z) (ix : s_index) (k i n universe : Z)
    (st : unit * log) : res (unit * log) :=
  let (_, lg) := st in
  let! s := index_get dbg mem ix k in
  let! c := cardinality mem s in
  let lg := report (negb (c =? n)) (say_cardinality c n) lg in
  let! e := ng_init mem s in
  let next := fun e v => ng_next_geq dbg mem e v in
  let! (e, lg) := say_geq_loop (Z.to_nat (u32 (universe + 1))) dbg next data i n universe e 0 lg in
  let! (_, lg) := say_beyond_loop fuel next universe e (u32 (universe + 1)) lg in
  Ok (tt, lg).

(** test_next_geq_enumerator.cpp:12-76 *)
Definition say_test_next_geq_enumerator (fuel : nat) (dbg : bool) (params : parameters) (mem : list Z) (f : Z)
    (data : list Z) : res (list Z) :=
  say_scan "checked " "checked " dbg params mem f data (say_ng_body fuel dbg mem data) (fun _ => tt).

(** test_uncompress.cpp:53-77 *)
Definition say_uncompress_body (dbg : bool) (mem data : list Z) (ix : s_index) (k i n universe : Z)
    (st : (list Z * list Z) * log) : res ((list Z * list Z) * log) :=
  let '(bitmap, out, lg) := st in
  let! s := index_get dbg mem ix k in
  let! (bitmap, decoded) := uncompress dbg mem s bitmap 0 in
  let! (bitmap, out, d) := decode_bitmap_and_reset bitmap (bitmap_words (ix_universe ix)) out in
  let lg := report (negb (decoded =? d)) (say_decoded decoded d) lg in
  let lg := report (negb (decoded =? n)) (say_decoded decoded n) lg in
  let! lg := say_compare_loop (Z.to_nat n) data (i + 1) out 0 n lg in
  Ok (bitmap, out, lg).

(** test_uncompress.cpp:30-88: the word in the last line is another one *)
Definition say_test_uncompress (dbg : bool) (params : parameters) (mem : list Z) (f : Z) (data : list Z) : res (list Z) :=
  say_scan "decoded " "uncompressed " dbg params mem f data (say_uncompress_body dbg mem data)
    (fun ix => (repeat 0 (Z.to_nat (bitmap_words (ix_universe ix))), repeat 0 (Z.to_nat (ix_universe ix)))).

(** ** Programs reading queries *)
(** test_intersect.cpp:38-42 = test_intersect_many.cpp:76-80; [what] is "intersection" or "union" *)
Definition say_size (what : string) (size expected_size : Z) : list Z :=
  codes what ++ codes " has size " ++ show size ++ codes " but expected " ++ show expected_size ++ endl.

(** test_intersect.cpp:44-50 = test_union.cpp:36-42 = test_intersect_many.cpp:82-88 = test_union_many.cpp:95-101 *)
Fixpoint say_check_loop (m : nat) (expected out : list Z) (j size : Z) (lg : log) : res log :=
  match m with
  | O => Ok lg
  | S m' =>
      let! x := vget expected j in
      let! y := vget out j in
      say_check_loop m' expected out (j + 1) size (report (negb (x =? y)) (say_error j size x y) lg)
  end.

(** what is kept between queries: M_Tests.qstate with [q_good] not used, and the log *)
(** test_intersect.cpp:24-50 *)
Definition say_intersect_query (tbl : Z -> list Z) (sort : list s_sequence -> list s_sequence) (dbg : bool)
    (mem : list Z) (ix : s_index) (q : Z * Z) (st : qstate * log) : res (qstate * log) :=
  let (st, lg) := st in
  let! si := index_get dbg mem ix (fst q) in
  let! (vi, i_size) := decode dbg mem si (q_i st) 0 in
  let! sj := index_get dbg mem ix (snd q) in
  let! (vj, j_size) := decode dbg mem sj (q_j st) 0 in
  let e := merge_and (firstn (Z.to_nat i_size) vi) (firstn (Z.to_nat j_size) vj) in
  let! expected := store (q_expected st) 0 e in
  let! (sc, (out, size)) := run_call tbl dbg (q_sc st) (CInterMany mem (sort [si; sj]) (q_out st) 0) in
  let lg := report (negb (zlen e =? size)) (say_size "intersection" size (zlen e)) lg in
  let! lg := say_check_loop (Z.to_nat size) expected out 0 size lg in
  Ok (mkQ true sc out vi vj expected, lg).

(** test_union.cpp:22-42 *)
Definition say_union_query (tbl : Z -> list Z) (dbg : bool) (mem : list Z) (ix : s_index) (q : Z * Z)
    (st : qstate * log) : res (qstate * log) :=
  let (st, lg) := st in
  let! si := index_get dbg mem ix (fst q) in
  let! (vi, i_size) := decode dbg mem si (q_i st) 0 in
  let! sj := index_get dbg mem ix (snd q) in
  let! (vj, j_size) := decode dbg mem sj (q_j st) 0 in
  let e := merge_or (firstn (Z.to_nat i_size) vi) (firstn (Z.to_nat j_size) vj) in
  let! expected := store (q_expected st) 0 e in
  let! (sc, (out, size)) := run_call tbl dbg (q_sc st) (CUnion mem si sj (q_out st) 0) in
  let lg := report (negb (zlen e =? size)) (say_size "union" size (zlen e)) lg in
  let! lg := say_check_loop (Z.to_nat size) expected out 0 size lg in
  Ok (mkQ true sc out vi vj expected, lg).

(** "reading queries..." (test_intersect.cpp:69, contains.cpp:47, select.cpp:20, ...) *)
Definition say_reading : list Z := codes "reading queries..." ++ endl.

(** test_intersect.cpp:12-54, after the line written by main *)
Definition say_test_intersect (tbl : Z -> list Z) (sort : list s_sequence -> list s_sequence) (dbg : bool)
    (mem : list Z) (f : Z) (queries : list (Z * Z)) : res (list Z) :=
  let! ix := index_mmap mem f in
  let! (_, lg) := run_queries (say_intersect_query tbl sort dbg mem ix) queries
    (qstate0 (ix_universe ix), (true, say_reading)) in
  Ok (verdict (say_count "tested " (zlen queries) " queries") lg).

(** test_union.cpp:10-46 *)
Definition say_test_union (tbl : Z -> list Z) (dbg : bool) (mem : list Z) (f : Z) (queries : list (Z * Z))
  : res (list Z) :=
  let! ix := index_mmap mem f in
  let! (_, lg) := run_queries (say_union_query tbl dbg mem ix) queries
    (qstate0 (ix_universe ix), (true, say_reading)) in
  Ok (verdict (say_count "tested " (zlen queries) " queries") lg).

(** test_intersect_many.cpp:68-89: the size is written for every query *)
Definition say_intersect_many_query (tbl : Z -> list Z) (sort : list s_sequence -> list s_sequence)
    (dbg : bool) (mem : list Z) (ix : s_index) (q : list Z)
    (st : Z * log * scratch * list Z) : res (Z * log * scratch * list Z) :=
  let '(num, lg, sc, out) := st in
  if zlen q <? 2 then Ok st
  else
    let! ls := res_map (collect dbg mem ix) q in
    let! expected := and_all ls in
    let! seqs := res_map (index_get dbg mem ix) q in
    let! (sc, (out, size)) := run_call tbl dbg sc (CInterMany mem (sort seqs) out 0) in
    let lg := tell (say_count "intersection has size " size "") lg in
    let lg := report (negb (zlen expected =? size)) (say_size "intersection" size (zlen expected)) lg in
    let! lg := say_check_loop (Z.to_nat size) expected out 0 size lg in
    Ok (num + 1, lg, sc, out).

(** test_union_many.cpp:81-102 *)
Definition say_union_many_query (tbl : Z -> list Z) (dbg : bool) (mem : list Z) (ix : s_index) (q : list Z)
    (st : Z * log * scratch * list Z) : res (Z * log * scratch * list Z) :=
  let '(num, lg, sc, out) := st in
  if zlen q <? 2 then Ok st
  else
    let! ls := res_map (collect dbg mem ix) q in
    let expected := or_all ls in
    let! seqs := res_map (index_get dbg mem ix) q in
    let! (sc, (out, size)) := run_call tbl dbg sc (CUnionMany mem seqs out 0) in
    let lg := tell (say_count "union has size " size "") lg in
    let lg := report (negb (zlen expected =? size)) (say_size "union" size (zlen expected)) lg in
    let! lg := say_check_loop (Z.to_nat size) expected out 0 size lg in
    Ok (num + 1, lg, sc, out).

(** test_intersect_many.cpp:57-93 and main, lines 106 and 117 *)
Definition say_many (mem : list Z) (f : Z) (queries : list (list Z))
    (body : s_index -> list Z -> Z * log * scratch * list Z -> res (Z * log * scratch * list Z)) : res (list Z) :=
  let! ix := index_mmap mem f in
  let! (num, lg, _, _) :=
    run_queries (body ix) queries
      (0, (true, say_reading ++ codes "running test..." ++ endl), scratch0, repeat 0 (Z.to_nat (ix_universe ix))) in
  Ok (verdict (say_count "tested " num " queries") lg).
Definition say_test_intersect_many (tbl : Z -> list Z) (sort : list s_sequence -> list s_sequence)
    (dbg : bool) (mem : list Z) (f : Z) (queries : list (list Z)) : res (list Z) :=
  say_many mem f queries (say_intersect_many_query tbl sort dbg mem).
(** test_union_many.cpp:70-106 and main, lines 119 and 130 *)
Definition say_test_union_many (tbl : Z -> list Z) (dbg : bool) (mem : list Z) (f : Z) (queries : list (list Z))
  : res (list Z) :=
  say_many mem f queries (say_union_many_query tbl dbg mem).

(** ** Programs in src/: [time] is t.average(), a number of microseconds *)
(** contains.cpp:29-31 = intersect.cpp:32-34 = union.cpp:32-34 = select.cpp:50-52 = next_geq.cpp:48-50 *)
Definition say_means (nan : list Z) (time : spec_float) (queries : Z) : list Z :=
  codes "Mean per run: " ++ show_double nan time ++ codes " [musec]" ++ endl
  ++ codes "Mean per query: " ++ show_double nan (ddiv time (double_of_u64 queries)) ++ codes " [musec]" ++ endl.

(** contains.cpp:55 = intersect.cpp:58 = union.cpp:58 = select.cpp:27 = next_geq.cpp:27 *)
Definition say_done : list Z := codes "DONE" ++ endl.

(** contains.cpp:17-31 and main, lines 47 and 55; [what] is "contains queries...", "pairwise-intersections..." or
    "pairwise-unions..." *)
Definition say_perf (what : string) (nan : list Z) (time : spec_float) (r : res (Z * Z)) : res (list Z) :=
  let! (queries, total) := r in
  Ok (say_reading ++ say_done ++ say_count "performing " queries what ++ show total ++ endl
      ++ say_means nan time queries).
Definition say_perf_contains (nan : list Z) (time : spec_float) (dbg : bool) (mem : list Z) (f : Z)
    (queries : list (Z * Z)) : res (list Z) :=
  say_perf " contains queries..." nan time (perf_contains dbg mem f queries).
(** intersect.cpp:11-35 *)
Definition say_perf_intersection (nan : list Z) (time : spec_float) (tbl : Z -> list Z) (dbg : bool) (mem : list Z)
    (f : Z) (queries : list (Z * Z)) : res (list Z) :=
  say_perf " pairwise-intersections..." nan time (perf_intersection tbl dbg mem f queries).
(** union.cpp:11-35 *)
Definition say_perf_union (nan : list Z) (time : spec_float) (tbl : Z -> list Z) (dbg : bool) (mem : list Z)
    (f : Z) (queries : list (Z * Z)) : res (list Z) :=
  say_perf " pairwise-unions..." nan time (perf_union tbl dbg mem f queries).

(** select.cpp:20-53: the mean is taken over total_queries, not over the queries read *)
Definition say_perf_select (nan : list Z) (time : spec_float) (dbg : bool) (mem : list Z) (ix : s_index) (n : Z)
    (queries : list Z) : res (list Z) :=
  let! (size, total) := perf_select dbg mem ix n queries in
  Ok (say_reading ++ say_done ++ say_count "performing " size " select queries..." ++ show total ++ endl
      ++ say_means nan time (u64 (ix_size ix * n))).
(** next_geq.cpp:20-51 *)
Definition say_perf_next_geq (nan : list Z) (time : spec_float) (dbg : bool) (mem : list Z) (ix : s_index) (n : Z)
    (queries : list Z) : res (list Z) :=
  let! (size, total) := perf_next_geq dbg mem ix n queries in
  Ok (say_reading ++ say_done ++ say_count "performing " size " next_geq queries..." ++ show total ++ endl
      ++ say_means nan time (u64 (ix_size ix * n))).

(** cardinality.cpp:10-31 *)
Definition say_cardinality_cpp (nan : list Z) (time : spec_float) (dbg : bool) (mem : list Z) (f : Z) : res (list Z) :=
  let! ix := index_mmap mem f in
  let! n := cardinality_cpp dbg mem f in
  Ok (show n ++ endl
      ++ codes "Mean per run: " ++ show_double nan time ++ codes " [musec]" ++ endl
      ++ codes "Mean per query: "
      ++ show_double nan (dmul (ddiv time (double_of_u64 (ix_size ix))) (double_of_u64 1000))
      ++ codes " [ns]" ++ endl).

(** decode.cpp:26-34 = uncompress.cpp:30-38 *)
Definition say_speed (nan : list Z) (time : spec_float) (sequences integers : Z) : list Z :=
  say_count "decoded " sequences " sequences" ++ say_count "decoded " integers " integers"
  ++ codes "Elapsed time: " ++ show_double nan (ddiv time (double_of_u64 1000000)) ++ codes " [sec]" ++ endl
  ++ codes "Mean per sequence: " ++ show_double nan (ddiv time (double_of_u64 sequences)) ++ codes " [musec]" ++ endl
  ++ codes "Mean per integer: "
  ++ show_double nan (dmul (ddiv time (double_of_u64 integers)) (double_of_u64 1000)) ++ codes " [ns]" ++ endl.
(** decode.cpp:11-35 *)
Definition say_decode_cpp (nan : list Z) (time : spec_float) (dbg : bool) (mem : list Z) (f : Z) : res (list Z) :=
  let! (sequences, integers) := decode_cpp dbg mem f in
  Ok (say_speed nan time sequences integers).
(** uncompress.cpp:11-39 *)
Definition say_uncompress_cpp (nan : list Z) (time : spec_float) (dbg : bool) (mem : list Z) (f : Z) : res (list Z) :=
  let! ix := index_mmap mem f in
  let! (sequences, integers) := uncompress_cpp dbg mem f in
  Ok (say_universe (ix_universe ix) ++ say_speed nan time sequences integers).

(** example.cpp:72-86: what main returns and the message *)
Definition say_got (got expected : Z) : list Z :=
  codes "got " ++ show got ++ codes " but expected " ++ show expected ++ endl.
Fixpoint say_example_loop (m : nat) (dbg : bool) (mem : list Z) (ss : s_sequence) (input out : list Z)
    (i value : Z) : res (Z * list Z) :=
  match m with
  | O => Ok (0, [])
  | S m' =>
      let! x := vget input i in
      let! y := vget out i in
      if negb (x =? y) then Ok (1, say_got y x)
      else
        let! (_, value) := select dbg mem ss (u32 i) value in
        if negb (value =? y) then Ok (1, say_got value y)
        else say_example_loop m' dbg mem ss input out (i + 1) value
  end.
(** example.cpp:39-88 without "-o"; [place] as in M_Drivers.example_cpp *)
Definition say_example_cpp (nan : list Z) (dbg : bool) (place : list Z -> list Z * Z) (input : list Z)
  : res (Z * list Z) :=
  match builder_build dbg [] input with
  | (Ok stats, m_out) =>
      let! text := print_text nan stats in
      let (mem, a) := place m_out in
      let! ss := seq_at mem a in
      let! size := seq_size mem ss in
      let! (out, _) := decode dbg mem ss (repeat 0 (Z.to_nat size)) 0 in
      let! (r, message) := say_example_loop (Z.to_nat size) dbg mem ss input out 0 0 in
      Ok (r, text ++ message)
  | (Throw, _) => Throw
  | (Abort, _) => Abort
  | (UB, _) => UB
  | (Fuel, _) => Fuel
  end.

(** ** What main returns, and what it writes when there are too few words (contains.cpp:36-40, ...) *)
Definition with_usage (name : list Z) (usage : string) (r : res (option (list Z))) : res (Z * list Z) :=
  let! o := r in
  match o with
  | None => Ok (1, name ++ codes usage ++ endl)
  | Some text => Ok (0, text)
  end.

(** cardinality.cpp:33-42 = decode.cpp:37-46 = uncompress.cpp:41-50 *)
Definition say_index_main (run : list Z -> res (list Z)) (name : list Z) (argv : list (list Z)) : res (Z * list Z) :=
  with_usage name " <index_filename>"
    (match argv with
     | index_filename :: _ => let! text := run index_filename in Ok (Some text)
     | [] => Ok None
     end).
(** contains.cpp:34-60 = intersect.cpp:37-63 = union.cpp:37-63 = test_intersect.cpp:56-81 = test_union.cpp:48-73 *)
Definition say_pairs_main (iso : bool) (run : list Z -> list (Z * Z) -> res (list Z)) (name : list Z)
    (argv : list (list Z)) (stdin : list Z) : res (Z * list Z) :=
  with_usage name " index_filename num_queries < queries" (pairs_main iso run argv stdin).
(** test_intersect_many.cpp:95-121 = test_union_many.cpp:108-134 *)
Definition say_lines_main (dbg : bool) (run : list Z -> list (list Z) -> res (list Z)) (name : list Z)
    (argv : list (list Z)) (stdin : list Z) : res (Z * list Z) :=
  with_usage name " index_filename num_queries < queries" (lines_main dbg run argv stdin).
(** select.cpp:55-69 = next_geq.cpp:53-67 *)
Definition say_words_main (iso : bool) (run : s_index -> Z -> list Z -> res (list Z)) (mem : list Z)
    (f : list Z -> Z) (name : list Z) (argv : list (list Z)) (stdin : list Z) : res (Z * list Z) :=
  with_usage name " index_filename num_queries_per_sequence < queries" (words_main iso run mem f argv stdin).
(** test_common.hpp:26-50, and "return 0" (test_contains.cpp:60) *)
Definition say_test_main (stod : list Z -> res spec_float) (iso : bool)
    (test : list Z -> list Z -> parameters -> res (list Z)) (name : list Z) (argv : list (list Z)) : res (Z * list Z) :=
  with_usage name " index_filename collection_filename [--density d] [--size s]" (test_main stod iso test argv).
