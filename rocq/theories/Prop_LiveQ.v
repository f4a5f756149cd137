(** C66: the test programs that read queries, as whole programs: what they have written when they come to the end, and when
    they do not. *)
From Coq Require Import String Sorted.
From Verif Require Import Base Hw Spec Lib Layout M_Util M_Build M_Seq M_Decode M_Query M_Many M_Index M_Print M_Calls M_Tests M_Drivers
  M_Text M_Out M_Say M_Session M_Bench M_Live M_LiveQ
  Holds Format Room RoomSets Shown Told Typed Printed Report Session P_Ex P_Tests5 P_Say P_SessionEx P_LiveQ2 P_LiveQEx Bench.
Local Open Scope Z_scope.

(** test_intersect and test_union.  When all pairs name lists that can be decoded, and united, in u words, they find no error.  The
    first pair that does not ends them with undefined behaviour, or with assertions by an abort when there is no such list;
    nothing has then been written but the first line. *)
Theorem C66_pairs : forall iso dbg tbl sort mapped name idx w more num t ns good rest d u Ks,
  index_on d mapped idx u Ks -> sorts_by_cardinality (fst (mapped (f_index u Ks))) sort ->
  count_word w num -> num < 2 ^ 60 -> typed t ns -> Forall (storable_int iso) ns -> pairs_read num ns (good ++ rest) ->
  pairs_of Ks good -> Forall (fun q => is_u32 (fst q) /\ is_u32 (snd q)) rest ->
  let argv := idx :: w :: more in
  let decodes i := exists S, znth Ks i = Some S /\ decode_fits S u in
  let both q := decodes (fst q) /\ decodes (snd q) in
  let joins q := both q /\ (fst q = snd q \/ join_fits (list_of Ks (fst q)) (list_of Ks (snd q)) u) in
  let ends (fits : Z * Z -> Prop) program :=
    Forall fits good ->
    (rest = [] -> reports [] (reading_line ++ [[W "tested "; N (zlen good); W " queries"]; [W "everything good"]]) d program)
    /\ forall q after, rest = q :: after ->
       (fst q < zlen Ks -> ~ decodes (fst q) \/ snd q < zlen Ks /\ ~ fits q -> stops reading_line UB d program)
       /\ (dbg = true -> zlen Ks <= fst q \/ decodes (fst q) /\ zlen Ks <= snd q -> stops reading_line Abort d program) in
  ends both (run_test_intersect iso tbl sort dbg mapped name argv t d)
  /\ ends joins (run_test_union iso tbl dbg mapped name argv t d).
Proof. exact c66_pairs. Qed.
Print Assumptions C66_pairs.

Example C66_pairs_example :
  index_on x_disk t_mapped (word "i") 1000 t_kept /\ index_on x_disk t_mapped (word "k") 5 x_small
  /\ sorts_by_cardinality (fst (t_mapped (f_index 1000 t_kept))) (x_sort "i")
  /\ x_and true "i" "2" "0 1 2 1" = (word
"reading queries...
tested 2 queries
everything good
", x_disk, Ok 0)
  /\ x_or true "i" "2" "0 1 2 1" = (word
"reading queries...
tested 2 queries
everything good
", x_disk, Ok 0)
  /\ x_and true "i" "2" "0 1 7 1" = (word
"reading queries...
", x_disk, Abort)
  /\ x_or true "k" "2" "0 2 7 7" = (word
"reading queries...
", x_disk, UB).
Proof. exact c66_ex_pairs. Qed.

(** The same two programs when they cannot start, whatever is computed for a query. *)
Theorem C66_pairs_stop : forall iso what core mapped name idx w more d,
  let run stdin := run_test_pairs iso what core mapped name (idx :: w :: more) stdin d in
  (bad_count w -> forall stdin, run stdin = ([], d, Throw))
  /\ forall num, count_word w num ->
     (2 ^ 63 <= 8 * num -> forall stdin, run stdin = ([], d, Throw))
     /\ (num < 2 ^ 60 ->
         (forall t ns, no_file d idx -> typed t ns -> Forall (storable_int iso) ns -> stops reading_line Throw d (run t))
         /\ (forall t g qs rest, typed t (in_a_row qs ++ rest) -> zlen qs < num \/ 2 ^ 32 <= num -> zlen rest <= 1 ->
               Forall (storable_int iso) (in_a_row qs ++ rest) -> garbage g -> stops reading_line UB d (run (t ++ g)))
         /\ (forall t g ns n rest, iso = true -> typed t (ns ++ n :: rest) -> no_digit g -> zlen ns < 2 * num ->
               Forall (storable_int iso) ns -> ~ storable_int iso n -> stops reading_line UB d (run (t ++ g)))).
Proof. exact c66_pairs_stop. Qed.
Print Assumptions C66_pairs_stop.

Example C66_pairs_stop_example :
  x_and true "x" "2" "0 1 2 1" = (word
"reading queries...
", x_disk, Throw)
  /\ x_or true "i" "2" "0 1 2 a" = (word
"reading queries...
", x_disk, UB)
  /\ x_or true "i" "-1" "0 1" = ([], x_disk, Throw)
  /\ x_or true "i" "two" "0 1" = ([], x_disk, Throw).
Proof. exact c66_ex_pairs_stop. Qed.

(** test_intersect_many and test_union_many read a query per line (C47) and pass over those of fewer than two positions.  The
    size of each other result is written, and there is no error.  The first query whose result does not fit, or with assertions
    the first that names a list the index does not have, ends them when the sizes for the queries before it have been written. *)
Theorem C66_many : forall dbg tbl sort mapped name idx w more num ls e nss ens d u Ks,
  index_on d mapped idx u Ks -> sorts_by_cardinality (fst (mapped (f_index u Ks))) sort ->
  count_word w num -> 24 * num < 2 ^ 63 ->
  Forall2 line_of ls nss -> Forall (Forall fits_word) nss -> last_line e ens ->
  let read := firstn (Z.to_nat num) (nss ++ ens) in
  (dbg = true -> Forall (fun ns => ns <> []) read) ->
  let argv := idx :: w :: more in
  exists queries, Forall2 (fun q ns => enumerates (fun v => In v (map low ns)) q) queries read
  /\ forall good rest, queries = good ++ rest ->
     let ends verb (result : list Z -> list Z -> Prop) program :=
       Forall (fun q => 2 <= zlen q -> exists r, result q r /\ zlen r <= u) good ->
       exists sizes,
         Forall2 (fun q s => exists r, result q r /\ s = zlen r) (filter (fun q => 2 <=? zlen q) good) sizes
         /\ (rest = [] -> reports [] (size_lines verb sizes ++ [[W "tested "; N (zlen sizes); W " queries"]; [W "everything good"]]) d program)
         /\ forall q after, rest = q :: after -> 2 <= zlen q ->
            (forall r, result q r -> u < zlen r -> stops (size_lines verb sizes) UB d program)
            /\ (dbg = true -> Exists (fun i => zlen Ks <= i) q -> stops (size_lines verb sizes) Abort d program) in
     ends "intersection has size "%string (fun q r => exists Ss, named Ks q Ss /\ enumerates (fun v => forall S, In S Ss -> In v S) r)
       (run_test_intersect_many tbl sort dbg mapped name argv (lines ls ++ e) d)
     /\ ends "union has size "%string (fun q r => exists Ss, named Ks q Ss /\ enumerates (fun v => exists S, In S Ss /\ In v S) r)
       (run_test_union_many tbl dbg mapped name argv (lines ls ++ e) d).
Proof. exact c66_many. Qed.
Print Assumptions C66_many.

Example C66_many_example :
  index_on x_disk t_mapped (word "i") 1000 t_kept /\ index_on x_disk t_mapped (word "k") 5 x_small
  /\ x_ands true "i" "3" "1 0
2
1 0 1 2" = (word
"reading queries...
running test...
intersection has size 2
intersection has size 1
tested 2 queries
everything good
", x_disk, Ok 0)
  /\ x_ors true "k" "3" "0 2
2
1 0" = (word
"reading queries...
running test...
union has size 4
", x_disk, UB)
  /\ x_ors true "k" "3" "0 2
2
1 7" = (word
"reading queries...
running test...
union has size 4
", x_disk, Abort).
Proof. exact c66_ex_many. Qed.

(** The same two programs when they cannot start: these write their first line before they reserve room for the queries. *)
Theorem C66_many_stop : forall dbg what core mapped name idx w more d,
  let run stdin := run_test_many dbg what core mapped name (idx :: w :: more) stdin d in
  (bad_count w -> forall stdin, run stdin = ([], d, Throw))
  /\ forall num, count_word w num ->
     (2 ^ 63 <= 24 * num -> forall stdin, stops reading_line Throw d (run stdin))
     /\ (24 * num < 2 ^ 63 -> forall ls nss, Forall2 line_of ls nss -> Forall (Forall fits_word) nss ->
         (forall e ens, last_line e ens -> (dbg = true -> Forall (fun ns => ns <> []) (firstn (Z.to_nat num) (nss ++ ens))) ->
            no_file d idx -> stops (reading_line ++ [[W "running test..."]]) Throw d (run (lines ls ++ e)))
         /\ (forall l l' post, dbg = true -> line_of l [] -> l' = l ++ 10 :: post \/ l' = l /\ l <> [] -> zlen ls < num ->
               stops reading_line Abort d (run (lines ls ++ l')))).
Proof. exact c66_many_stop. Qed.
Print Assumptions C66_many_stop.

Example C66_many_stop_example :
  x_ors true "x" "3" "0 1" = (word
"reading queries...
running test...
", x_disk, Throw)
  /\ x_ors true "i" "-1" "0 1" = (word
"reading queries...
", x_disk, Throw)
  /\ x_ands true "i" "3" "0 1
no
" = (word
"reading queries...
", x_disk, Abort)
  /\ x_ands true "i" "three" "0 1" = ([], x_disk, Throw).
Proof. exact c66_ex_many_stop. Qed.

Theorem C66_usage : forall iso tbl sort dbg mapped name few stdin d, zlen few < 2 ->
  let usage := (name ++ word " index_filename num_queries < queries" ++ [10], d, Ok 1) in
  run_test_intersect iso tbl sort dbg mapped name few stdin d = usage
  /\ run_test_union iso tbl dbg mapped name few stdin d = usage
  /\ run_test_intersect_many tbl sort dbg mapped name few stdin d = usage
  /\ run_test_union_many tbl dbg mapped name few stdin d = usage.
Proof. exact c66_usage. Qed.
Print Assumptions C66_usage.

Example C66_usage_example : run_test_union true ex_tbl true t_mapped (word "t") [word "i"] (word "0 1") x_disk = (word
"t index_filename num_queries < queries
", x_disk, Ok 1).
Proof. reflexivity. Qed.
