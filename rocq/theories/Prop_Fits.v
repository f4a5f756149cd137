(** C30, C31 and C35 again, with the exact condition: the programs that allocate as many words as
    the universe are defined if and only if their results fit there. *)
From Verif Require Import Base Hw Spec Format Room RoomSets Holds Told M_Util M_Build M_Seq M_Many M_Index
  M_Calls M_Tests M_Drivers P_Ex P_Tests4 P_Tests5 P_Fits.

(** C30: test_decode accepts the index if every list can be decoded into the universe's number of
    words, and otherwise has undefined behaviour; test_uncompress does so depending on the last
    chunk and the length of every list (from a universe of 2^32 - 65536 on, see C33_wrap) *)
Theorem C30_exact : forall dbg dbg' params u Ls mem f,
  is_u32 u -> Forall valid (kept_lists params Ls) -> holds_index dbg params u Ls 31 mem f ->
  let Ks := kept_lists params Ls in
  let data := collection u Ls in
  (Forall (fun L => decode_fits L u) Ks -> test_decode dbg' params mem f data = Ok (zlen Ks, true))
  /\ (Exists (fun L => ~ decode_fits L u) Ks -> test_decode dbg' params mem f data = UB)
  /\ (u < 2 ^ 32 - 65536 ->
        let good L := last L 0 / 65536 <= u / 65536 /\ zlen L <= u in
        (Forall good Ks -> test_uncompress dbg' params mem f data = Ok (zlen Ks, true))
        /\ (Exists (fun L => ~ good L) Ks -> test_uncompress dbg' params mem f data = UB)).
Proof. exact c30_exact. Qed.
Print Assumptions C30_exact.

(** C31: the same for queries *)
Theorem C31_exact : forall dbg dbg' params u Ls mem f tbl sort,
  is_u32 u -> Forall valid (kept_lists params Ls) -> holds_index dbg params u Ls 31 mem f ->
  sorts_by_cardinality mem sort ->
  let Ks := kept_lists params Ls in
  let both q := decode_fits (list_of Ks (fst q)) u /\ decode_fits (list_of Ks (snd q)) u in
  let joins q := fst q = snd q \/ join_fits (list_of Ks (fst q)) (list_of Ks (snd q)) u in
  (forall queries, pairs_of Ks queries ->
     (Forall both queries -> test_intersect tbl sort dbg' mem f queries = Ok (zlen queries, true))
     /\ (Exists (fun q => ~ both q) queries -> test_intersect tbl sort dbg' mem f queries = UB)
     /\ (Forall (fun q => both q /\ joins q) queries -> test_union tbl dbg' mem f queries = Ok (zlen queries, true))
     /\ (Exists (fun q => ~ (both q /\ joins q)) queries -> test_union tbl dbg' mem f queries = UB))
  /\ (forall queries,
     Forall (fun q => exists Ss e, named Ks q Ss /\ enumerates (fun v => forall S, In S Ss -> In v S) e) queries ->
     Exists (fun q => 2 <= zlen q /\ exists Ss e, named Ks q Ss
       /\ enumerates (fun v => forall S, In S Ss -> In v S) e /\ u < zlen e) queries ->
     test_intersect_many tbl sort dbg' mem f queries = UB)
  /\ (forall queries,
     Forall (fun q => exists Ss e, named Ks q Ss /\ enumerates (fun v => exists S, In S Ss /\ In v S) e) queries ->
     Exists (fun q => 2 <= zlen q /\ exists Ss e, named Ks q Ss
       /\ enumerates (fun v => exists S, In S Ss /\ In v S) e /\ u < zlen e) queries ->
     test_union_many tbl dbg' mem f queries = UB).
Proof. exact c31_exact. Qed.
Print Assumptions C31_exact.

(** C35: intersect.cpp and union.cpp; a list united with itself is only copied *)
Theorem C35_intersect_exact : forall dbg dbg' tbl params u Ls mem f num input qs,
  is_u32 u -> Forall valid (kept_lists params Ls) -> holds_index dbg params u Ls 31 mem f ->
  let Ks := kept_lists params Ls in
  shuffle_table_ok tbl -> pairs_read num input qs -> pairs_of Ks qs ->
  let size q := common (list_of Ks (fst q)) (list_of Ks (snd q)) in
  let fits q := meet_fits (list_of Ks (fst q)) (list_of Ks (snd q)) u in
  (Forall fits qs -> intersect_cpp tbl dbg' mem f num input = Ok (zlen qs, 11 * total size qs mod 2 ^ 64))
  /\ (Exists (fun q => ~ fits q) qs -> intersect_cpp tbl dbg' mem f num input = UB).
Proof. exact c35_intersect_exact. Qed.
Print Assumptions C35_intersect_exact.

Theorem C35_union_exact : forall dbg dbg' tbl params u Ls mem f num input qs,
  is_u32 u -> Forall valid (kept_lists params Ls) -> holds_index dbg params u Ls 31 mem f ->
  let Ks := kept_lists params Ls in
  pairs_read num input qs -> pairs_of Ks qs ->
  let size q := zlen (list_of Ks (fst q)) + zlen (list_of Ks (snd q)) - common (list_of Ks (fst q)) (list_of Ks (snd q)) in
  let fits q := if fst q =? snd q then zlen (list_of Ks (fst q)) <= u
                else join_fits (list_of Ks (fst q)) (list_of Ks (snd q)) u in
  (Forall fits qs -> union_cpp tbl dbg' mem f num input = Ok (zlen qs, 11 * total size qs mod 2 ^ 64))
  /\ (Exists (fun q => ~ fits q) qs -> union_cpp tbl dbg' mem f num input = UB).
Proof. exact c35_union_exact. Qed.
Print Assumptions C35_union_exact.

(** the lists [1;2;3] and [2;3;5]: decoding and intersecting them takes 8 words, uniting them 12,
    uniting one with itself 3 *)
Example C35_exact_example :
  (forall u, In u [3; 7; 8; 11; 12; 13] -> holds_index true t_params u fits_lists 31 (fits_mem u) 0)
  /\ kept_lists t_params fits_lists = fits_lists /\ Forall valid fits_lists
  /\ decode_fits [1; 2; 3] 8 /\ ~ decode_fits [1; 2; 3] 7
  /\ meet_fits [1; 2; 3] [2; 3; 5] 8 /\ ~ meet_fits [1; 2; 3] [2; 3; 5] 7
  /\ join_fits [1; 2; 3] [2; 3; 5] 12 /\ ~ join_fits [1; 2; 3] [2; 3; 5] 11
  /\ (let d u := test_decode true t_params (fits_mem u) 0 (collection u fits_lists) in
      d 8 = Ok (2, true) /\ d 7 = UB)
  /\ (let d u := test_uncompress true t_params (fits_mem u) 0 (collection u fits_lists) in
      d 3 = Ok (2, true) /\ d 2 = UB)
  /\ (let d u := test_intersect ex_tbl (by_card (fits_mem u)) true (fits_mem u) 0 [(0, 1)] in
      d 8 = Ok (1, true) /\ d 7 = UB)
  /\ (let d u := test_union ex_tbl true (fits_mem u) 0 [(0, 1)] in d 12 = Ok (1, true) /\ d 11 = UB)
  /\ (let d u := test_union_many ex_tbl true (fits_mem u) 0 [[0; 1]] in d 4 = Ok (1, true) /\ d 3 = UB)
  /\ (let d u := test_intersect_many ex_tbl (by_card (fits_mem u)) true (fits_mem u) 0 [[0; 1]] in
      d 2 = Ok (1, true) /\ d 1 = UB)
  /\ (let d u := intersect_cpp ex_tbl true (fits_mem u) 0 1 [0; 1] in d 8 = Ok (1, 22) /\ d 7 = UB)
  /\ (let d u := union_cpp ex_tbl true (fits_mem u) 0 1 [0; 1] in d 12 = Ok (1, 44) /\ d 11 = UB)
  /\ (let d u := union_cpp ex_tbl true (fits_mem u) 0 1 [1; 1] in d 3 = Ok (1, 33) /\ d 2 = UB).
Proof. exact c35_fits_ex. Qed.
