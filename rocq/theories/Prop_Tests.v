(** The programs under /repo/test: C30 - C33. *)
From Verif Require Import Base Hw Spec M_Util M_Build M_Seq M_Many M_Index M_Calls M_Tests Holds P_Ex P_Fin2 P_Tests4 P_Tests5.

(** an index file exists for every collection whose kept lists are valid *)
Theorem C30_occurs : forall dbg params u Ls,
  is_u32 u -> Forall valid (kept_lists params Ls) -> Forall short Ls ->
  exists stats offsets sequences, index_build dbg params (collection u Ls) = Ok (stats, offsets, sequences)
    /\ forall pre post slack, slack <= zlen post ->
         zlen (pre ++ index_file offsets sequences ++ post) <= 2 ^ 64 ->
         holds_index dbg params u Ls slack (pre ++ index_file offsets sequences ++ post) (zlen pre).
Proof. exact c30_occurs. Qed.
Print Assumptions C30_occurs.

(** C30: on the index of the same collection, the programs for one sequence report success for all
    kept lists.  The conditions are those of the buffers the programs allocate, and of the
    32-bit arithmetic of their loops: see C33. *)
Theorem C30_accept : forall dbg dbg' params u Ls mem f,
  is_u32 u -> Forall valid (kept_lists params Ls) -> holds_index dbg params u Ls 31 mem f ->
  let Ks := kept_lists params Ls in
  let data := collection u Ls in
  let good := Ok (zlen Ks, true) in
  (Forall (fun L => zlen L + 23 <= u) Ks -> test_decode dbg' params mem f data = good)
  /\ test_contains dbg' params mem f data = good
  /\ test_select dbg' params mem f data = good
  /\ test_enumerator dbg' params mem f data = good
  /\ (forall fuel, (100 <= fuel)%nat -> Forall (fun L => last L 0 + 1000001 < 2 ^ 32) Ks ->
        test_next_geq fuel dbg' params mem f data = good
        /\ test_next_geq_enumerator fuel dbg' params mem f data = good)
  /\ (u < 2 ^ 32 - 65536 -> Forall (fun L => last L 0 / 65536 <= u / 65536 /\ zlen L <= u) Ks ->
        test_uncompress dbg' params mem f data = good).
Proof. exact c30_accept. Qed.
Print Assumptions C30_accept.

Example C30_example :
  kept_lists t_params t_lists = t_kept /\ Forall valid t_kept
  /\ holds_index true t_params 1000 t_lists 31 t_mem 1
  /\ Forall (fun L => zlen L + 23 <= 1000 /\ last L 0 + 1000001 < 2 ^ 32
               /\ last L 0 / 65536 <= 1000 / 65536) t_kept
  /\ test_decode true t_params t_mem 1 (collection 1000 t_lists) = Ok (3, true)
  /\ test_select true t_params t_mem 1 (collection 1000 t_lists) = Ok (3, true)
  /\ test_decode true t_params t_mem 1 (collection 1000 [[1; 2; 3]; [2; 3; 5; 70; 72]]) = Ok (2, false).
Proof. exact t_example. Qed.

(** C31: the programs for set operations report success for all their queries *)
Theorem C31_accept : forall dbg dbg' params u Ls mem f tbl sort,
  is_u32 u -> Forall valid (kept_lists params Ls) -> holds_index dbg params u Ls 31 mem f ->
  sorts_by_cardinality mem sort ->
  let Ks := kept_lists params Ls in
  (forall queries,
     Forall (fun q => exists S T, named Ks [fst q; snd q] [S; T] /\ zlen S + 23 <= u /\ zlen T + 23 <= u) queries ->
     test_intersect tbl sort dbg' mem f queries = Ok (zlen queries, true))
  /\ (forall queries,
     Forall (fun q => exists S T e, named Ks [fst q; snd q] [S; T]
       /\ enumerates (fun v => In v S \/ In v T) e /\ zlen e + 23 <= u) queries ->
     test_union tbl dbg' mem f queries = Ok (zlen queries, true))
  /\ (forall queries,
     Forall (fun q => 2 <= zlen q -> exists Ss e, named Ks q Ss
       /\ enumerates (fun v => forall S, In S Ss -> In v S) e /\ zlen e <= u) queries ->
     test_intersect_many tbl sort dbg' mem f queries = Ok (zlen (filter (fun q => 2 <=? zlen q) queries), true))
  /\ (forall queries,
     Forall (fun q => 2 <= zlen q -> exists Ss e, named Ks q Ss
       /\ enumerates (fun v => exists S, In S Ss /\ In v S) e /\ zlen e <= u) queries ->
     test_union_many tbl dbg' mem f queries = Ok (zlen (filter (fun q => 2 <=? zlen q) queries), true)).
Proof. exact c31_accept. Qed.
Print Assumptions C31_accept.

Example C31_example :
  sorts_by_cardinality t_mem (by_card t_mem)
  /\ named t_kept [0; 1; 2] t_kept
  /\ enumerates (fun v => forall S, In S t_kept -> In v S) [3]
  /\ enumerates (fun v => exists S, In S t_kept /\ In v S) [0; 1; 2; 3; 5; 70; 71; 600]
  /\ test_intersect ex_tbl (by_card t_mem) true t_mem 1 [(0, 1); (2, 0)] = Ok (2, true)
  /\ test_union_many ex_tbl true t_mem 1 [[0; 1; 2]; [0]] = Ok (1, true).
Proof. exact t_sets. Qed.

(** C32: what a successful run says about an index built from another collection: the lists of the collection are
    the first lists of the index.  test_enumerator compares beginnings only. *)
Theorem C32_sound : forall dbg dbg' params params' u u' Ls Ls' mem f k,
  is_u32 u' -> Forall valid (kept_lists params' Ls') -> holds_index dbg params' u' Ls' 31 mem f ->
  let Ks := kept_lists params Ls in
  let Ks' := kept_lists params' Ls' in
  let data := collection u Ls in
  zlen Ks <= zlen Ks' -> Forall short Ls ->
  (Forall (fun S => zlen S + 23 <= u') Ks' ->
     test_decode dbg' params mem f data = Ok (k, true) -> Ks = firstn (length Ks) Ks')
  /\ (test_select dbg' params mem f data = Ok (k, true) -> Ks = firstn (length Ks) Ks')
  /\ (Forall valid Ks -> test_contains dbg' params mem f data = Ok (k, true) -> Ks = firstn (length Ks) Ks')
  /\ (Forall valid Ks -> forall fuel, test_next_geq fuel dbg' params mem f data = Ok (k, true) ->
        Ks = firstn (length Ks) Ks')
  /\ (Forall valid Ks -> test_enumerator dbg' params mem f data = Ok (k, true) ->
        forall j L S, znth Ks j = Some L -> znth Ks' j = Some S ->
          L = firstn (length L) S ++ repeat u' (length L - length S)).
Proof. exact c32_sound. Qed.
Print Assumptions C32_sound.

Example C32_example :
  holds_index true t_params 1000 t_lists 31 t_mem 1 /\ Forall (fun S => zlen S + 23 <= 1000) t_kept
  /\ kept_lists t_params [[1; 2; 3]; [8]; [2; 3; 5; 70; 71]] = [[1; 2; 3]; [2; 3; 5; 70; 71]]
  /\ (let data := collection 77 [[1; 2; 3]; [8]; [2; 3; 5; 70; 71]] in
      test_decode true t_params t_mem 1 data = Ok (2, true)
      /\ test_select true t_params t_mem 1 data = Ok (2, true)
      /\ test_contains true t_params t_mem 1 data = Ok (2, true))
  /\ (let data := collection 77 [[1; 2]; [8]; [2; 3; 5; 70; 71]] in
      test_decode true t_params t_mem 1 data = Ok (2, false)
      /\ test_contains true t_params t_mem 1 data = Ok (2, false)
      /\ test_enumerator true t_params t_mem 1 data = Ok (2, true)).
Proof. exact t_sound. Qed.

(** C33: test_enumerator accepts an index whose lists are longer than those of the collection *)
Theorem C33_prefix : forall dbg dbg' params params' u u' Ls Ls' mem f,
  is_u32 u' -> Forall valid (kept_lists params' Ls') -> holds_index dbg params' u' Ls' 31 mem f ->
  (forall j L, znth (kept_lists params Ls) j = Some L ->
     exists R, znth (kept_lists params' Ls') j = Some (L ++ R)) -> Forall short Ls ->
  test_enumerator dbg' params mem f (collection u Ls) = Ok (zlen (kept_lists params Ls), true).
Proof. exact c33_prefix. Qed.
Print Assumptions C33_prefix.

Theorem C33_prefix_refuted : exists dbg params u Ls Ls' mem f,
  is_u32 u /\ Forall valid (kept_lists params Ls) /\ Forall valid (kept_lists params Ls')
  /\ holds_index dbg params u Ls' 31 mem f
  /\ zlen (kept_lists params Ls) = zlen (kept_lists params Ls') /\ kept_lists params Ls <> kept_lists params Ls'
  /\ test_enumerator dbg params mem f (collection u Ls) = Ok (zlen (kept_lists params Ls), true).
Proof. exact c33_prefix_refuted. Qed.
Print Assumptions C33_prefix_refuted.

(** C33: test_next_geq reports an error for a correct index with a list ending above 2^32 - 1000001 *)
Theorem C33_alarm : forall fuel dbg dbg' params u Ls mem f L k,
  is_u32 u -> Forall valid (kept_lists params Ls) -> holds_index dbg params u Ls 31 mem f ->
  In L (kept_lists params Ls) -> 2 ^ 32 - 1000001 <= last L 0 ->
  test_next_geq fuel dbg' params mem f (collection u Ls) <> Ok (k, true).
Proof. exact c33_alarm. Qed.
Print Assumptions C33_alarm.

(** C33: the size of the bitmap of test_uncompress is computed in 32 bits *)
Theorem C33_wrap : forall dbg dbg' params u Ls mem f,
  is_u32 u -> Forall valid (kept_lists params Ls) -> holds_index dbg params u Ls 31 mem f ->
  kept_lists params Ls <> [] -> 2 ^ 32 - 65536 <= u ->
  test_uncompress dbg' params mem f (collection u Ls) = UB.
Proof. exact c33_wrap. Qed.
Print Assumptions C33_wrap.

(** C33: test_decode writes past its buffer although every value is below the universe *)
Theorem C33_overflow_refuted : exists dbg params u Ls mem f,
  is_u32 u /\ Forall valid (kept_lists params Ls) /\ Forall (Forall (fun v => v < u)) Ls
  /\ holds_index dbg params u Ls 31 mem f
  /\ test_decode dbg params mem f (collection u Ls) = UB.
Proof. exact c33_overflow_refuted. Qed.
Print Assumptions C33_overflow_refuted.

Example C33_example :
  (exists mem, holds_index true t_params 4294901760 [[1; 2; 4294901759]] 31 mem 0)
  /\ Forall valid (kept_lists t_params [[1; 2; 4294901759]])
  /\ kept_lists t_params [[1; 2; 4294901759]] <> []
  /\ In [1; 2; 4294901759] (kept_lists t_params [[1; 2; 4294901759]])
  /\ 2 ^ 32 - 1000001 <= last [1; 2; 4294901759] 0 /\ 2 ^ 32 - 65536 <= 4294901760.
Proof. exact t_limits. Qed.
