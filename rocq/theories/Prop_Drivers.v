(** C35: the programs under /repo/src, except times and messages. *)
From Verif Require Import Base Hw Spec Format Shown Counts Room Holds Told M_Util M_Build M_Seq M_Many M_Index M_Print
  M_Calls M_Tests M_Drivers P_Ex P_Tests4 P_Tests5 P_Drivers.

(** cardinality.cpp prints the number of values of the index (up to 2^64 / 11) *)
Theorem C35_cardinality : forall dbg dbg' params u Ls mem f,
  is_u32 u -> Forall valid (kept_lists params Ls) -> holds_index dbg params u Ls 0 mem f ->
  let Ks := kept_lists params Ls in
  cardinality_cpp dbg' mem f = Ok (11 * total zlen Ks mod 2 ^ 64 / 11).
Proof. exact c35_cardinality. Qed.
Print Assumptions C35_cardinality.

(** decode.cpp allocates as many words as the universe: it prints the numbers of lists and of
    values if every list can be decoded there, and otherwise writes past the end *)
Theorem C35_decode : forall dbg dbg' params u Ls mem f,
  is_u32 u -> Forall valid (kept_lists params Ls) -> holds_index dbg params u Ls 31 mem f ->
  let Ks := kept_lists params Ls in
  (Forall (fun S => decode_fits S u) Ks -> decode_cpp dbg' mem f = Ok (zlen Ks, total zlen Ks mod 2 ^ 64))
  /\ (Exists (fun S => ~ decode_fits S u) Ks -> decode_cpp dbg' mem f = UB).
Proof. exact c35_decode. Qed.
Print Assumptions C35_decode.

(** uncompress.cpp allocates 1024 words for every chunk of the universe, and none if the number of
    chunks overflows *)
Theorem C35_uncompress : forall dbg dbg' params u Ls mem f,
  is_u32 u -> Forall valid (kept_lists params Ls) -> holds_index dbg params u Ls 0 mem f ->
  let Ks := kept_lists params Ls in
  let words := if u <? 4294901760 then 1024 * (u / 65536 + 1) else 0 in
  (Forall (fun S => uncompress_fits S words) Ks -> uncompress_cpp dbg' mem f = Ok (zlen Ks, total zlen Ks mod 2 ^ 64))
  /\ (Exists (fun S => ~ uncompress_fits S words) Ks -> uncompress_cpp dbg' mem f = UB).
Proof. exact c35_uncompress. Qed.
Print Assumptions C35_uncompress.

(** contains.cpp prints the number of queries it read and four times the number of those whose
    value is in the list *)
Theorem C35_contains : forall dbg dbg' params u Ls mem f num input qs,
  is_u32 u -> Forall valid (kept_lists params Ls) -> holds_index dbg params u Ls 0 mem f ->
  let Ks := kept_lists params Ls in
  pairs_read num input qs -> positions Ks qs ->
  contains_cpp dbg' mem f num input
  = Ok (zlen qs, 4 * zlen (filter (fun q => existsb (Z.eqb (snd q)) (list_of Ks (fst q))) qs) mod 2 ^ 64).
Proof. exact c35_contains. Qed.
Print Assumptions C35_contains.

(** select.cpp asks [n] queries of every list, and prints four times the sum of the answers; a rank
    that does not exist counts as the previous answer.  With fewer queries on its input, or
    [n] >= 2^32, it reads past the end of the vector of queries. *)
Theorem C35_select : forall dbg dbg' params u Ls mem f n input,
  is_u32 u -> Forall valid (kept_lists params Ls) -> holds_index dbg params u Ls 0 mem f ->
  let Ks := kept_lists params Ls in
  0 <= n < 2 ^ 64 -> zlen Ks < 2 ^ 32 -> Forall is_u32 input ->
  (Ks = [] \/ n < 2 ^ 32 -> zlen Ks * n <= zlen input ->
     select_cpp dbg' mem f n input
     = Ok (if zlen Ks * n <? 2 ^ 32 then zlen Ks * n else zlen input,
           4 * total (fun v => v) (selected 0 (asked Ks n input)) mod 2 ^ 64))
  /\ (zlen input < zlen Ks * n \/ Ks <> [] /\ 2 ^ 32 <= n -> select_cpp dbg' mem f n input = UB).
Proof. exact c35_select. Qed.
Print Assumptions C35_select.

(** next_geq.cpp: the same for next_geq *)
Theorem C35_next_geq : forall dbg dbg' params u Ls mem f n input,
  is_u32 u -> Forall valid (kept_lists params Ls) -> holds_index dbg params u Ls 0 mem f ->
  let Ks := kept_lists params Ls in
  0 <= n < 2 ^ 64 -> zlen Ks < 2 ^ 32 -> Forall is_u32 input ->
  (Ks = [] \/ n < 2 ^ 32 -> zlen Ks * n <= zlen input ->
     next_geq_cpp dbg' mem f n input
     = Ok (if zlen Ks * n <? 2 ^ 32 then zlen Ks * n else zlen input,
           4 * total (fun q => spec_next_geq (fst q) (snd q)) (asked Ks n input) mod 2 ^ 64))
  /\ (zlen input < zlen Ks * n \/ Ks <> [] /\ 2 ^ 32 <= n -> next_geq_cpp dbg' mem f n input = UB).
Proof. exact c35_next_geq. Qed.
Print Assumptions C35_next_geq.

(** intersect.cpp and union.cpp print the number of queries they read and eleven times the sum of the
    sizes, provided the results fit into as many words as the universe *)
Theorem C35_intersect : forall dbg dbg' tbl params u Ls mem f num input qs,
  is_u32 u -> Forall valid (kept_lists params Ls) -> holds_index dbg params u Ls 31 mem f ->
  let Ks := kept_lists params Ls in
  shuffle_table_ok tbl -> pairs_read num input qs -> pairs_of Ks qs ->
  let size q := common (list_of Ks (fst q)) (list_of Ks (snd q)) in
  Forall (fun q => size q + 23 <= u) qs ->
  intersect_cpp tbl dbg' mem f num input = Ok (zlen qs, 11 * total size qs mod 2 ^ 64).
Proof. exact c35_intersect. Qed.
Print Assumptions C35_intersect.

Theorem C35_union : forall dbg dbg' tbl params u Ls mem f num input qs,
  is_u32 u -> Forall valid (kept_lists params Ls) -> holds_index dbg params u Ls 31 mem f ->
  let Ks := kept_lists params Ls in
  pairs_read num input qs -> pairs_of Ks qs ->
  let size q := zlen (list_of Ks (fst q)) + zlen (list_of Ks (snd q)) - common (list_of Ks (fst q)) (list_of Ks (snd q)) in
  Forall (fun q => size q + 23 <= u) qs ->
  union_cpp tbl dbg' mem f num input = Ok (zlen qs, 11 * total size qs mod 2 ^ 64).
Proof. exact c35_union. Qed.
Print Assumptions C35_union.

(** build.cpp saves the file of C29 and prints the numbers of C28, or has no defined behaviour *)
Theorem C35_build : forall dbg params u Ls,
  let Ks := kept_lists params Ls in
  Forall valid Ks -> Forall short Ls -> total zlen Ks < 2 ^ 37 ->
  ((forall i, 1 <= i <= 256 -> sparse_chunks i Ks <> []) ->
     build_cpp dbg params (collection u Ls) = Ok (shown (counters (8 * zlen (f_index u Ks)) Ks), f_index u Ks))
  /\ ((exists i, 1 <= i <= 256 /\ sparse_chunks i Ks = []) -> build_cpp dbg params (collection u Ls) = UB).
Proof. exact build_cpp_ok. Qed.
Print Assumptions C35_build.

(** example.cpp allocates as many words as there are values and decodes into them: it succeeds
    exactly when they are enough and printing is defined; [place] puts the encoding into memory
    with 31 readable bytes after it *)
Theorem C35_example_cpp : forall dbg place S, valid S ->
  (forall enc, bytes_at (fst (place enc)) (snd (place enc)) enc
     /\ snd (place enc) + zlen enc + 31 <= zlen (fst (place enc))) ->
  ((exists i, 1 <= i <= 256 /\ sparse_chunks i [S] = []) -> example_cpp dbg place S = UB)
  /\ (~ decode_fits S (zlen S) -> example_cpp dbg place S = UB)
  /\ ((forall i, 1 <= i <= 256 -> sparse_chunks i [S] <> []) -> decode_fits S (zlen S) ->
        example_cpp dbg place S = Ok true).
Proof. exact example_cpp_ok. Qed.
Print Assumptions C35_example_cpp.

(** both happen *)
Theorem C35_example_cpp_occurs :
  (valid ladder /\ (forall i, 1 <= i <= 256 -> sparse_chunks i [ladder] <> []) /\ decode_fits ladder (zlen ladder))
  /\ (valid [5] /\ ~ decode_fits [5] (zlen [5])).
Proof. exact c35_example_occurs. Qed.
Print Assumptions C35_example_cpp_occurs.

(** three lists are kept: [1;2;3], [2;3;5;70;71] and [0;3;600] *)
Example C35_example :
  kept_lists t_params t_lists = t_kept /\ Forall valid t_kept
  /\ holds_index true t_params 1000 t_lists 31 t_mem 1
  /\ Forall (fun S => zlen S + 23 <= 1000) t_kept
  /\ cardinality_cpp true t_mem 1 = Ok 11
  /\ decode_cpp true t_mem 1 = Ok (3, 11)
  /\ uncompress_cpp true t_mem 1 = Ok (3, 11)
  /\ contains_cpp true t_mem 1 9 [0; 3; 1; 4; 2; 600; 7] = Ok (3, 8)
  /\ select_cpp true t_mem 1 2 [0; 9; 1; 4; 9; 2] = Ok (6, 4 * (1 + 1 + 3 + 71 + 71 + 600))
  /\ select_cpp true t_mem 1 2 [0; 9; 1; 4; 9] = UB
  /\ next_geq_cpp true t_mem 1 1 [2; 6; 601] = Ok (3, 4 * (2 + 70 + 4294967295))
  /\ intersect_cpp ex_tbl true t_mem 1 5 [0; 1; 2; 1] = Ok (2, 11 * (2 + 1))
  /\ union_cpp ex_tbl true t_mem 1 5 [0; 1; 2; 1] = Ok (2, 11 * (6 + 7))
  /\ build_cpp true t_params (collection 1000 t_lists) = UB.
Proof. exact c35_ex. Qed.
