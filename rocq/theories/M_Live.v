(** The test programs that go through a collection (test/), as whole programs on files.  Unlike in M_Say.v, what a program
    has written is known also when it throws, aborts or does something undefined. *)
From Coq Require Import String Floats.SpecFloat.
From Verif Require Import Base Hw M_Util M_Build M_Seq M_Decode M_Uncompress M_Query M_Index M_Print M_Tests M_Drivers M_Text M_Out M_Say
  M_Session M_Bench.
Local Open Scope Z_scope.

(** a part of a program that writes and may fail: from what has been written to what has been written, and the outcome *)
Definition live (A : Type) : Type := log -> log * res A.
Definition just {A : Type} (r : res A) : live A := fun lg => (lg, r).
Definition lthen {A B : Type} (m : live A) (k : A -> live B) : live B := fun lg =>
  match m lg with
  | (lg, Ok a) => k a lg
  | (lg, Throw) => (lg, Throw)
  | (lg, Abort) => (lg, Abort)
  | (lg, UB) => (lg, UB)
  | (lg, Fuel) => (lg, Fuel)
  end.
Notation "'go!' p ':=' e 'in' k" := (lthen e (fun x => let p := x in k))
  (at level 200, p pattern at level 0, right associativity).
(** "std::cout << ...", and "if (bad) { good = false; std::cout << ...; }" *)
Definition ltell (l : list Z) : live unit := fun lg => (tell l lg, Ok tt).
Definition lreport (bad : bool) (l : list Z) : live unit := fun lg => (report bad l lg, Ok tt).

(** the loop over the collection (test_decode.cpp:25-61, ...); the line after every 1000 lists (test_decode.cpp:55-58, ...) *)
Fixpoint live_lists {A : Type} (fuel : nat) (verb : string) (params : parameters) (data : list Z)
    (body : Z -> Z -> Z -> Z -> A -> live A) (i k : Z) (st : A) : live (Z * A) :=
  if i <? zlen data then
    match fuel with
    | O => just Fuel
    | S f =>
        go! n := just (vget data i) in
        go! universe := just (vget data (i + n)) in
        if pass params n universe then
          go! st := body k i n universe st in
          go! _ := if (k + 1) mod 1000 =? 0 then ltell (say_count verb (k + 1) " sequences") else just (Ok tt) in
          live_lists f verb params data body (i + u32 (n + 1)) (k + 1) st
        else live_lists f verb params data body (i + u32 (n + 1)) k st
    end
  else just (Ok (k, st)).

(** test_decode.cpp:18-64, ..., after both files have been mapped *)
Definition live_scan {A : Type} (verb last_verb : string) (dbg : bool) (params : parameters) (ix : s_index)
    (data : list Z) (body : Z -> Z -> Z -> Z -> A -> live A) (start : A) : live unit :=
  go! d0 := just (vget data 0) in
  go! _ := just (assert_ dbg (d0 =? 1)) in
  go! _ := ltell (say_universe (ix_universe ix)) in
  go! (k, _) := live_lists (length data) verb params data body 2 0 start in
  fun lg => ((fst lg, verdict (say_count last_verb k " sequences") lg), Ok tt).

(** test_decode.cpp:46-53 = test_uncompress.cpp:70-77 *)
Fixpoint live_compare_loop (m : nat) (data : list Z) (p : Z) (out : list Z) (j n : Z) : live unit :=
  match m with
  | O => just (Ok tt)
  | S m' =>
      go! expected := just (vget data p) in
      go! got := just (vget out j) in
      go! _ := lreport (negb (expected =? got)) (say_error j n expected got) in
      live_compare_loop m' data (p + 1) out (j + 1) n
  end.

(** test_decode.cpp:29-53 *)
Definition live_decode_body (dbg : bool) (mem data : list Z) (ix : s_index) (k i n universe : Z) (out : list Z) : live (list Z) :=
  go! s := just (index_get dbg mem ix k) in
  go! (out, decoded) := just (decode dbg mem s out 0) in
  go! c := just (cardinality mem s) in
  go! _ := lreport (negb (c =? n)) (say_cardinality c n) in
  go! _ := lreport (negb (decoded =? n)) (say_decoded decoded n) in
  go! _ := live_compare_loop (Z.to_nat n) data (i + 1) out 0 n in
  just (Ok out).
(** test_decode.cpp:12-64 *)
Definition live_decode (dbg : bool) (params : parameters) (mem : list Z) (ix : s_index) (data : list Z) : live unit :=
  live_scan "decoded " "decoded " dbg params ix data (live_decode_body dbg mem data ix) (repeat 0 (Z.to_nat (ix_universe ix))).

(** test_contains.cpp:38-46 *)
Fixpoint live_contains_loop (m : nat) (dbg : bool) (mem : list Z) (s : s_sequence) (data : list Z) (p : Z) : live unit :=
  match m with
  | O => just (Ok tt)
  | S m' =>
      go! value := just (vget data p) in
      go! found := just (contains dbg mem s value) in
      go! _ := lreport (negb found) (show value ++ codes " should have been found" ++ endl) in
      live_contains_loop m' dbg mem s data (p + 1)
  end.
(** test_contains.cpp:28-46 *)
Definition live_contains_body (dbg : bool) (mem data : list Z) (ix : s_index) (k i n universe : Z) (_ : unit) : live unit :=
  go! s := just (index_get dbg mem ix k) in
  go! c := just (cardinality mem s) in
  go! _ := lreport (negb (c =? n)) (say_cardinality c n) in
  live_contains_loop (Z.to_nat n) dbg mem s data (i + 1).
(** test_contains.cpp:12-57 *)
Definition live_contains (dbg : bool) (params : parameters) (mem : list Z) (ix : s_index) (data : list Z) : live unit :=
  live_scan "checked " "checked " dbg params ix data (live_contains_body dbg mem data ix) tt.

(** test_enumerator.cpp:34-42 *)
Fixpoint live_enumerator_loop (m : nat) (dbg : bool) (mem data : list Z) (p j n : Z) (e : enumerator) : live enumerator :=
  match m with
  | O => just (Ok e)
  | S m' =>
      go! expected := just (vget data p) in
      go! got := just (enum_value e) in
      go! e := just (enum_next dbg mem e) in
      go! _ := lreport (negb (expected =? got)) (say_error j n expected got) in
      live_enumerator_loop m' dbg mem data (p + 1) (j + 1) n e
  end.
(** test_enumerator.cpp:30-42 *)
Definition live_enumerator_body (dbg : bool) (mem data : list Z) (ix : s_index) (k i n universe : Z) (buf : list Z) : live (list Z) :=
  go! s := just (index_get dbg mem ix k) in
  go! e := just (enum_init dbg mem buf s (u32 (ix_universe ix))) in
  go! e := live_enumerator_loop (Z.to_nat n) dbg mem data (i + 1) 0 n e in
  just (Ok (en_buf e)).
(** test_enumerator.cpp:12-53 *)
Definition live_enumerator (dbg : bool) (params : parameters) (mem : list Z) (ix : s_index) (data : list Z) : live unit :=
  live_scan "decoded " "decoded " dbg params ix data (live_enumerator_body dbg mem data ix) enum_new_buf.

(** test_select.cpp:39-54 *)
Fixpoint live_select_loop (m : nat) (dbg : bool) (mem : list Z) (s : s_sequence) (data : list Z) (p j n value : Z) : live unit :=
  match m with
  | O => just (Ok tt)
  | S m' =>
      go! expected := just (vget data p) in
      go! (valid, value) := just (select dbg mem s (u32 j) value) in
      go! _ := lreport (negb valid) (codes "rank " ++ show j ++ codes " should have been valid" ++ endl) in
      go! _ := lreport (negb (expected =? value)) (say_error j n expected value) in
      live_select_loop m' dbg mem s data (p + 1) (j + 1) n value
  end.
(** test_select.cpp:28-54 *)
Definition live_select_body (dbg : bool) (mem data : list Z) (ix : s_index) (k i n universe : Z) (_ : unit) : live unit :=
  go! s := just (index_get dbg mem ix k) in
  go! c := just (cardinality mem s) in
  go! _ := lreport (negb (c =? n)) (say_cardinality c n) in
  live_select_loop (Z.to_nat n) dbg mem s data (i + 1) 0 n 0.
(** test_select.cpp:12-65 *)
Definition live_select (dbg : bool) (params : parameters) (mem : list Z) (ix : s_index) (data : list Z) : live unit :=
  live_scan "checked " "checked " dbg params ix data (live_select_body dbg mem data ix) tt.

(** test_next_geq.cpp:40-52 = test_next_geq_enumerator.cpp:42-54 *)
Fixpoint live_geq_loop {A : Type} (fuel : nat) (dbg : bool) (next : A -> Z -> res (A * Z)) (data : list Z)
    (i n universe : Z) (st : A) (lb : Z) : live A :=
  if lb =? u32 (universe + 1) then just (Ok st)
  else match fuel with
  | O => just Fuel
  | S f =>
      go! it := just (lower_bound (Z.to_nat n) data (i + 1) lb) in
      go! (st, r) := just (next st (u32 lb)) in
      go! _ := just (assert_ dbg (lb <=? r)) in
      go! expected := just (vget data it) in
      go! _ := lreport (negb (r =? expected))
        (codes "error at " ++ show lb ++ codes "/" ++ show universe ++ codes ": got " ++ show r
         ++ codes " but expected next_geq(" ++ show lb ++ codes ") = " ++ show expected ++ endl) in
      live_geq_loop f dbg next data i n universe st (lb + 1)
  end.
(** test_next_geq.cpp:55-63 = test_next_geq_enumerator.cpp:57-65 *)
Fixpoint live_beyond_loop {A : Type} (fuel : nat) (next : A -> Z -> res (A * Z)) (universe : Z) (st : A) (lb : Z) : live A :=
  if lb =? u32 (universe + 1000000 + 1) then just (Ok st)
  else match fuel with
  | O => just Fuel
  | S f =>
      go! (st, r) := just (next st (u32 lb)) in
      go! _ := lreport (negb (r =? not_found)) (codes "error : got " ++ show r ++ codes " but expected " ++ show not_found ++ endl) in
      live_beyond_loop f next universe st (u64 (lb + 10000))
  end.
(** test_next_geq.cpp:28-63 *)
Definition live_next_geq_body (fuel : nat) (dbg : bool) (mem data : list Z) (ix : s_index) (k i n universe : Z) (_ : unit) : live unit :=
  go! s := just (index_get dbg mem ix k) in
  go! c := just (cardinality mem s) in
  go! _ := lreport (negb (c =? n)) (say_cardinality c n) in
  let next := fun (_ : unit) v => let! r := next_geq dbg mem s v in Ok (tt, r) in
  go! _ := live_geq_loop (Z.to_nat (u32 (universe + 1))) dbg next data i n universe tt 0 in
  live_beyond_loop fuel next universe tt (u32 (universe + 1)).
(** test_next_geq.cpp:12-74 *)
Definition live_next_geq (fuel : nat) (dbg : bool) (params : parameters) (mem : list Z) (ix : s_index) (data : list Z) : live unit :=
  live_scan "checked " "checked " dbg params ix data (live_next_geq_body fuel dbg mem data ix) tt.
(** test_next_geq_enumerator.cpp:29-65 *)
Definition live_ng_body (fuel : nat) (dbg : bool) (mem data : list Z) (ix : s_index) (k i n universe : Z) (_ : unit) : live unit :=
  go! s := just (index_get dbg mem ix k) in
  go! c := just (cardinality mem s) in
  go! _ := lreport (negb (c =? n)) (say_cardinality c n) in
  go! e := just (ng_init mem s) in
  let next := fun e v => ng_next_geq dbg mem e v in
  go! e := live_geq_loop (Z.to_nat (u32 (universe + 1))) dbg next data i n universe e 0 in
  go! _ := live_beyond_loop fuel next universe e (u32 (universe + 1)) in
  just (Ok tt).
(** test_next_geq_enumerator.cpp:12-76 *)
Definition live_next_geq_enumerator (fuel : nat) (dbg : bool) (params : parameters) (mem : list Z) (ix : s_index) (data : list Z)
  : live unit :=
  live_scan "checked " "checked " dbg params ix data (live_ng_body fuel dbg mem data ix) tt.

(** test_uncompress.cpp:53-77 *)
Definition live_uncompress_body (dbg : bool) (mem data : list Z) (ix : s_index) (k i n universe : Z) (st : list Z * list Z)
  : live (list Z * list Z) :=
  let (bitmap, out) := st in
  go! s := just (index_get dbg mem ix k) in
  go! (bitmap, decoded) := just (uncompress dbg mem s bitmap 0) in
  go! (bitmap, out, d) := just (decode_bitmap_and_reset bitmap (bitmap_words (ix_universe ix)) out) in
  go! _ := lreport (negb (decoded =? d)) (say_decoded decoded d) in
  go! _ := lreport (negb (decoded =? n)) (say_decoded decoded n) in
  go! _ := live_compare_loop (Z.to_nat n) data (i + 1) out 0 n in
  just (Ok (bitmap, out)).
(** test_uncompress.cpp:30-88 *)
Definition live_uncompress (dbg : bool) (params : parameters) (mem : list Z) (ix : s_index) (data : list Z) : live unit :=
  live_scan "decoded " "uncompressed " dbg params ix data (live_uncompress_body dbg mem data ix)
    (repeat 0 (Z.to_nat (bitmap_words (ix_universe ix))), repeat 0 (Z.to_nat (ix_universe ix))).

(** what [m] writes when nothing has been written yet *)
Definition spoken {A : Type} (m : live A) : prog A := fun d => let (lg, r) := m (true, []) in (snd lg, d, r).

(** test_common.hpp:26-50 and test_decode.cpp:12-17, ...: the index is opened first *)
Definition run_live (stod : list Z -> res spec_float) (iso : bool)
    (test : parameters -> list Z -> s_index -> list Z -> live unit)
    (mapped : list Z -> list Z * Z) (name : list Z) (argv : list (list Z)) : prog Z :=
  do! o := quiet (test_main stod iso (fun index coll params => Ok (index, coll, params)) argv) in
  match o with
  | Some (index, coll, params) =>
      do! (mem, _, ix) := mmap_file mapped index in
      do! input := open_file coll in
      do! _ := spoken (test params mem ix (words_in input)) in
      quiet (Ok 0)
  | None => usage_ name " index_filename collection_filename [--density d] [--size s]"
  end.
