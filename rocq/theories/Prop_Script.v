(** C59: the scripts in script/.  [did] (Script.v) says that a command was run and what the program returned and wrote. *)
From Coq Require Import Lia Sorted String Floats.SpecFloat.
From Verif Require Import Base Hw Spec Lib L_Bits L_Group Layout M_Util M_Build M_Seq M_Decode M_Uncompress
  M_Query M_Union M_Many M_Index M_Print M_Calls M_Tests M_Drivers M_Tools M_Text M_Out M_Say M_Script Holds Format Room Shown Typed
  Printed Told Counts Outcome Report Script
  P_Build1 P_Build2 P_Build3 P_Seq P_Decode P_Query P_Sets P_Index P_Fin1 P_Fin2 P_Fin3 P_Fin4 P_Room P_Tests P_Tests2
  P_Tests3 P_Tests4 P_Tests5 P_Ex P_Counts P_Shown P_Drivers P_Tools P_Text2 P_Text5 P_Text6 P_Out P_Out2 P_Out3 P_Out4 P_Say P_Say2 P_Say3 P_Say4 P_Script.
Local Open Scope Z_scope.

(** queries.py runs five programs three times each; each run returns 0 and writes the number of queries in the file,
    the checksum of the right answers and its own times *)
Theorem C59_queries : forall nan time iso dbg dbg' tbl params u Ls mem place text stdin f path more tp ps qs tr rs tv vs,
  is_u32 u -> Forall valid (kept_lists params Ls) -> holds_index dbg params u Ls 31 mem (place f) ->
  let Ks := kept_lists params Ls in
  shuffle_table_ok tbl -> plain_name f -> f <> [] -> plain_name path ->
  zlen Ks * 1000 < 2 ^ 32 -> Forall (fun S => decode_fits S u) Ks ->
  text (path ++ word "/pairwise_queries.1k")%list = Some tp -> typed tp ps -> Forall (storable_int iso) ps ->
  pairs_read 1000 ps qs -> pairs_of Ks qs -> Forall (fun q => both Ks q + 23 <= u /\ either Ks q + 23 <= u) qs ->
  text (path ++ word "/select_queries.1k")%list = Some tr -> typed tr rs -> Forall (storable_int iso) rs -> Forall is_u32 rs ->
  zlen Ks * 1000 <= zlen rs ->
  text (path ++ word "/next_geq_queries.1k")%list = Some tv -> typed tv vs -> Forall (storable_int iso) vs -> Forall is_u32 vs ->
  zlen Ks * 1000 <= zlen vs ->
  exists outs, queries_py nan time iso dbg' tbl mem place text stdin (f :: path :: more) = Some outs
    /\ Forall2 (did 0 nan)
         (experiment time Ks qs (total (fun v => v) (selected 0 (asked Ks 1000 rs)))
            (total (fun q => spec_next_geq (fst q) (snd q)) (asked Ks 1000 vs))) outs.
Proof. exact c59_queries. Qed.
Print Assumptions C59_queries.

(** ... in particular with the queries the tools write for that index, whatever the random numbers are: a thousand pairs,
    and a thousand ranks and values for each list *)
Theorem C59_tools : forall nan time iso dbg dbg' tbl params u Ls mem place text stdin f path more w m tape tape' tape'' tp tr tv,
  is_u32 u -> Forall valid (kept_lists params Ls) -> holds_index dbg params u Ls 31 mem (place f) ->
  let Ks := kept_lists params Ls in
  shuffle_table_ok tbl -> plain_name f -> f <> [] -> plain_name path ->
  zlen Ks * 1000 < 2 ^ 32 -> Forall (fun S => decode_fits S u) Ks ->
  (forall q, pairs_of Ks [q] -> both Ks q + 23 <= u /\ either Ks q + 23 <= u) ->
  begins w m -> storable_int iso m -> 1 <= m <= zlen Ks ->
  Forall (fun S => storable_int iso (zlen S - 1)) Ks -> Forall (Forall (storable_int iso)) Ks ->
  pairwise_main iso [word "1000"; w] tape = Ok (Some tp) ->
  generate_main iso (fun name n => gen_select_queries dbg' mem (place name) n tape') [f; word "1000"] = Ok (Some tr) ->
  generate_main iso (fun name n => gen_next_geq_queries dbg' mem (place name) n tape'') [f; word "1000"] = Ok (Some tv) ->
  text (path ++ word "/pairwise_queries.1k")%list = Some tp -> text (path ++ word "/select_queries.1k")%list = Some tr ->
  text (path ++ word "/next_geq_queries.1k")%list = Some tv ->
  exists outs qs rs vs, queries_py nan time iso dbg' tbl mem place text stdin (f :: path :: more) = Some outs
    /\ zlen qs = 1000 /\ Forall (fun q => 0 <= fst q < m /\ 0 <= snd q < m) qs
    /\ zlen rs = zlen Ks * 1000 /\ Forall (fun q => 0 <= snd q < zlen (fst q)) (asked Ks 1000 rs)
    /\ zlen vs = zlen Ks * 1000 /\ Forall (fun q => In (snd q) (fst q)) (asked Ks 1000 vs)
    /\ Forall2 (did 0 nan)
         (experiment time Ks qs (total (fun q => nth (Z.to_nat (snd q)) (fst q) 0) (asked Ks 1000 rs)) (total (fun v => v) vs)) outs.
Proof. exact c59_tools. Qed.
Print Assumptions C59_tools.

Example C59_example : forall nan time tape tape' tape'',
  let f := word "../index.bin" in
  let path := word "logs" in
  holds_index true t_params 1000 t_lists 31 t_mem 1 /\ kept_lists t_params t_lists = t_kept
  /\ plain_name f /\ plain_name path /\ shuffle_table_ok ex_tbl
  /\ exists text tp tr tv,
       pairwise_main true [word "1000"; word "3"] tape = Ok (Some tp)
       /\ generate_main true (fun name n => gen_select_queries true t_mem 1 n tape') [f; word "1000"] = Ok (Some tr)
       /\ generate_main true (fun name n => gen_next_geq_queries true t_mem 1 n tape'') [f; word "1000"] = Ok (Some tv)
       /\ text (word "logs/pairwise_queries.1k") = Some tp /\ text (word "logs/select_queries.1k") = Some tr
       /\ text (word "logs/next_geq_queries.1k") = Some tv
       /\ exists outs qs rs vs,
            queries_py nan time true true ex_tbl t_mem (fun _ => 1) text [] [f; path] = Some outs
            /\ zlen qs = 1000 /\ zlen rs = 3000 /\ zlen vs = 3000
            /\ Forall2 (did 0 nan)
                 (experiment time t_kept qs (total (fun q => nth (Z.to_nat (snd q)) (fst q) 0) (asked t_kept 1000 rs))
                    (total (fun v => v) vs)) outs.
Proof. exact c59_example. Qed.

(** An index name with a blank in it becomes two words: decode runs on the first, and the second is taken for the
    number of queries, so that the other four programs end with an exception unless it begins with a number *)
Theorem C59_blank : forall nan time iso dbg tbl mem place text stdin a b path more tp tr tv,
  plain_name a -> a <> [] -> plain_name b -> b <> [] -> plain_name path ->
  text (path ++ word "/pairwise_queries.1k")%list = Some tp -> text (path ++ word "/select_queries.1k")%list = Some tr ->
  text (path ++ word "/next_geq_queries.1k")%list = Some tv ->
  let run name := queries_py nan time iso dbg tbl mem place text stdin (name :: path :: more) in
  exists outs outs', run a = Some outs /\ run (a ++ 32 :: b)%list = Some outs' /\ zlen outs = 15 /\ zlen outs' = 15
    /\ (forall k, 0 <= k < 3 -> znth outs' k = znth outs k)
    /\ (bad_count b -> forall k, 3 <= k < 15 -> znth outs' k = Some (Some Throw)).
Proof. exact c59_blank. Qed.
Print Assumptions C59_blank.

Example C59_blank_example : plain_name (word "copy") /\ bad_count (word "copy")
  /\ shell_tokens [] (word "./union my copy 1000 < logs/pairwise_queries.1k")
     = Some [Word (word "./union"); Word (word "my"); Word (word "copy"); Word (word "1000"); Less;
             Word (word "logs/pairwise_queries.1k")].
Proof. exact c59_blank_example. Qed.

(** An empty index name disappears: all programs write how they are to be called and return 1 *)
Theorem C59_empty : forall nan time iso dbg tbl mem place text stdin path more tp tr tv,
  plain_name path ->
  text (path ++ word "/pairwise_queries.1k")%list = Some tp -> text (path ++ word "/select_queries.1k")%list = Some tr ->
  text (path ++ word "/next_geq_queries.1k")%list = Some tv ->
  exists outs, queries_py nan time iso dbg tbl mem place text stdin ([] :: path :: more) = Some outs
    /\ Forall2 (did 1 nan)
         (repeat [[W "./decode <index_filename>"]] 3
          ++ repeat [[W "./intersect index_filename num_queries < queries"]] 3
          ++ repeat [[W "./union index_filename num_queries < queries"]] 3
          ++ repeat [[W "./select index_filename num_queries_per_sequence < queries"]] 3
          ++ repeat [[W "./next_geq index_filename num_queries_per_sequence < queries"]] 3)%list outs.
Proof. exact c59_empty. Qed.
Print Assumptions C59_empty.

(** The three commands of build.py do the same thing: they build the index of all lists that are not empty, whatever
    the number in them, show the numbers of C28 and save nothing; or have no defined behaviour *)
Theorem C59_build : forall stod iso dbg file text stdin input output more u Ls,
  plain_name input -> input <> [] -> plain_name output -> file input = collection u Ls ->
  let Ks := filter (fun L => 0 <? zlen L) Ls in
  Forall valid Ks -> Forall short Ls -> total zlen Ks < 2 ^ 37 ->
  exists r, build_py stod iso dbg file text stdin (input :: output :: more) = Some [Some r; Some r; Some r]
    /\ ((forall i, 1 <= i <= 256 -> sparse_chunks i Ks <> []) -> r = Ok (Some (shown (counters (8 * zlen (f_index u Ks)) Ks), None)))
    /\ ((exists i, 1 <= i <= 256 /\ sparse_chunks i Ks = []) -> r = UB).
Proof. exact c59_build. Qed.
Print Assumptions C59_build.

Example C59_build_example :
  plain_name (word "../data/test_collection") /\ plain_name (word "out")
  /\ filter (fun L => 0 <? zlen L) [[]; ladder] = [ladder] /\ Forall valid [ladder] /\ Forall short [[]; ladder]
  /\ total zlen [ladder] < 2 ^ 37 /\ forall i, 1 <= i <= 256 -> sparse_chunks i [ladder] <> [].
Proof. exact c59_build_example. Qed.
