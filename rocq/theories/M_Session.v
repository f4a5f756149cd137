(** Whole programs: what main returns, what it has written to standard output when it ends, in whatever way, and
    the files it leaves: src/build.cpp, src/example.cpp, tools/gen_uniform_data.cpp and tools/gen_clustered_data.cpp.  The
    model follows the text as far as an exception, a failed assertion or undefined behaviour. *)
From Coq Require Import String Floats.SpecFloat.
From Verif Require Import Base Hw M_Util M_Seq M_Build M_Decode M_Query M_Index M_Print M_Drivers M_Tools M_Text M_Out M_Say.
Local Open Scope Z_scope.

(** ** Files: the latest of a name counts.  mm::file_source (external/mm_file, not in the repository) throws when a file
    cannot be opened; a file to be written can always be. *)
Definition disk : Type := list (list Z * list Z).
Fixpoint file_of (d : disk) (name : list Z) : option (list Z) :=
  match d with
  | [] => None
  | (n, bytes) :: d => if list_eq_dec Z.eq_dec name n then Some bytes else file_of d name
  end.

(** ** Programs: from the files before to the text written, the files left and the outcome *)
Definition prog (A : Type) : Type := disk -> list Z * disk * res A.
Definition quiet {A : Type} (r : res A) : prog A := fun d => ([], d, r).
Definition then_ {A B : Type} (x : prog A) (k : A -> prog B) : prog B := fun d =>
  match x d with
  | (t, d, Ok a) => let '(t', d, r) := k a d in (t ++ t', d, r)
  | (t, d, Throw) => (t, d, Throw)
  | (t, d, Abort) => (t, d, Abort)
  | (t, d, UB) => (t, d, UB)
  | (t, d, Fuel) => (t, d, Fuel)
  end.
Notation "'do!' p := e 'in' k" := (then_ e (fun p => k)) (at level 200, p pattern, e at level 100, k at level 200).
(** std::cout << t; every text below ends a line with std::endl, so none of it is lost when the program fails *)
Definition cout (t : list Z) : prog unit := fun d => (t, d, Ok tt).
Definition open_file (name : list Z) : prog (list Z) := fun d =>
  ([], d, match file_of d name with Some bytes => Ok bytes | None => Throw end).
Definition save_file (name bytes : list Z) : prog unit := fun d => ([], (name, bytes) :: d, Ok tt).

(** mm::file_source<uint32_t> (builder.hpp:228-230): the words of a file, as many as are complete *)
Fixpoint words_in (bytes : list Z) : list Z :=
  match bytes with
  | b0 :: b1 :: b2 :: b3 :: bytes => (b0 + 256 * (b1 + 256 * (b2 + 256 * b3))) :: words_in bytes
  | _ => []
  end.
(** write_uint, out.write (building_util.hpp:29-32, gen_uniform_data.cpp:30-32): the bytes of words *)
Definition bytes_of_u32s (ws : list Z) : list Z := flat_map (le_bytes 4) ws.

(** ** build *)
(** builder.hpp:241-255 with the lines of progress *)
Fixpoint build_saying (fuel : nat) (dbg : bool) (params : parameters) (data : list Z)
    (i : Z) (block : list Z) (stats : statistics) (m_offsets m_sequences : list Z)
  : prog (statistics * list Z * list Z) :=
  if i <? zlen data then
    match fuel with
    | O => quiet Fuel
    | S f =>
        do! n := quiet (vget data i) in
        do! universe := quiet (vget data (i + n)) in
        if pass params n universe then
          let seq := firstn (Z.to_nat n) (skipn (Z.to_nat (i + 1)) data) in
          do! (block, stats, m_sequences) := quiet (encode_sequence dbg seq block stats m_sequences) in
          do! _ := cout (if stats F_sequences mod 1000 =? 0
                         then codes "processed " ++ show (stats F_sequences) ++ codes " sequences" ++ endl else []) in
          build_saying f dbg params data (i + u32 (n + 1)) block stats (m_offsets ++ [zlen m_sequences]) m_sequences
        else build_saying f dbg params data (i + u32 (n + 1)) block stats m_offsets m_sequences
    end
  else quiet (Ok (stats, m_offsets, m_sequences)).

(** builder.hpp:227-269 *)
Definition builder_saying (dbg : bool) (params : parameters) (data : list Z) : prog (statistics * list Z * list Z) :=
  do! d0 := quiet (vget data 0) in
  do! _ := quiet (assert_ dbg (d0 =? 1)) in
  do! d1 := quiet (vget data 1) in
  do! _ := cout (codes "universe size: " ++ show d1 ++ endl) in
  do! (stats, m_offsets, m_sequences) := build_saying (length data) dbg params data 2 [] stats0 [d1; 0] [] in
  let m_offsets := removelast m_offsets in
  quiet (Ok (sadd F_bits (zlen m_offsets * 64) (finish_stats stats), m_offsets, m_sequences)).

(** build.cpp:21-51 and 9-19.  [sized] is the text of essentials::print_size (external) for the bytes to be saved.
    [print] is the text of statistics::print (M_Out.v); nothing of it is kept when it ends in undefined behaviour. *)
Definition run_build_by (stod : list Z -> res spec_float) (iso : bool) (print : statistics -> res (list Z)) (dbg : bool)
    (sized : list Z -> list Z) (name : list Z) (argv : list (list Z)) : prog Z :=
  match argv with
  | [] =>
      do! _ := cout (name ++ codes " collection_filename [--density d] [--size s] [--out output_filename]" ++ endl) in
      quiet (Ok 1)
  | collection_filename :: argv =>
      do! (params, output_filename) := quiet (build_options stod iso argv default_params None) in
      do! input := open_file collection_filename in
      do! (stats, m_offsets, m_sequences) := builder_saying dbg params (words_in input) in
      do! text := quiet (print stats) in
      do! _ := cout text in
      match output_filename with
      | None => quiet (Ok 0)
      | Some o =>
          let bytes := index_file m_offsets m_sequences in
          do! _ := cout (sized bytes ++ codes "saving data structure to disk..." ++ endl) in
          do! _ := save_file o bytes in
          quiet (Ok 0)
      end
  end.
(** build.cpp:21-51; [nan] is the text for a NaN *)
Definition run_build stod iso nan := run_build_by stod iso (print_text nan).

(** ** example *)
(** example.cpp:15-26; [inl]: main wrote this and returned 1 *)
Fixpoint example_words (name : list Z) (argv : list (list Z)) (output_filename : option (list Z))
  : res (list Z + option (list Z)) :=
  match argv with
  | [] => Ok (inr output_filename)
  | w :: argv =>
      if is_word w "-o" then
        match argv with
        | [] => UB
        | w :: argv => example_words name argv (Some w)
        end
      else if is_word w "-h" then Ok (inl (name ++ codes " -o output_filename < input" ++ endl))
      else Ok (inl (codes "unknown option '" ++ w ++ codes "'" ++ endl))
  end.

(** example.cpp:63-88 *)
Definition example_rest (dbg : bool) (input mem : list Z) (data : Z) : prog Z :=
  do! ss := quiet (seq_at mem data) in
  do! size := quiet (seq_size mem ss) in
  do! (out, _) := quiet (decode dbg mem ss (repeat 0 (Z.to_nat size)) 0) in
  do! (r, message) := quiet (say_example_loop (Z.to_nat size) dbg mem ss input out 0 0) in
  do! _ := cout message in
  quiet (Ok r).

(** example.cpp:11-89; [heap] puts the bytes of the builder into memory, [mapped] those of a file;
    [print] as in [run_build_by] *)
Definition run_example_by (print : statistics -> res (list Z)) (dbg : bool) (sized : list Z -> list Z) (heap mapped : list Z -> list Z * Z)
    (name : list Z) (argv : list (list Z)) (stdin : list Z) : prog Z :=
  do! o := quiet (example_words name argv None) in
  match o with
  | inl message => do! _ := cout message in quiet (Ok 1)
  | inr output_filename =>
      do! input := quiet (read_input stdin) in
      let (r, m_out) := builder_build dbg [] input in
      do! stats := quiet r in
      do! text := quiet (print stats) in
      do! _ := cout text in
      match output_filename with
      | None => let (mem, data) := heap m_out in example_rest dbg input mem data
      | Some o =>
          do! _ := cout (sized (sequence_file m_out)) in
          do! _ := save_file o (sequence_file m_out) in
          do! file := open_file o in
          let (mem, data) := mapped file in
          example_rest dbg input mem (data + 8)
      end
  end.
(** example.cpp:11-89; [nan] is the text for a NaN *)
Definition run_example nan := run_example_by (print_text nan).

(** ** The programs under tools/ *)
(** gen_uniform_data.cpp:36-54 *)
Definition run_uniform (iso : bool) (name : list Z) (argv : list (list Z)) (tape : list Z) : prog Z :=
  do! o := quiet (uniform_main iso argv tape) in
  match o, argv with
  | Some data, _ :: _ :: _ :: _ :: output_filename :: _ =>
      do! _ := save_file output_filename (bytes_of_u32s data) in quiet (Ok 0)
  | _, _ =>
      do! _ := cout (name ++ codes " num_lists min_length max_length universe output_filename" ++ endl) in quiet (Ok 1)
  end.

(** gen_clustered_data.cpp:113-133 *)
Definition run_clustered (iso : bool) (fuel : nat) (dbg : bool) (junk : nat -> Z) (name : list Z) (argv : list (list Z))
    (tape : list Z) : prog Z :=
  do! o := quiet (clustered_main iso fuel dbg junk argv tape) in
  match o, argv with
  | Some out, _ :: _ :: output_filename :: _ =>
      do! _ := save_file output_filename (match out with inl data => bytes_of_u32s data | inr text => text end) in
      quiet (Ok 0)
  | _, _ =>
      do! _ := cout (name ++ codes " num_lists universe output_filename --binary" ++ endl) in quiet (Ok 1)
  end.

(** gen_random_pairwise_queries.cpp:12-21 *)
Definition run_pairwise (iso : bool) (name : list Z) (argv : list (list Z)) (tape : list Z) : res (Z * list Z) :=
  with_usage name " num_queries num_sequences" (pairwise_main iso argv tape).
(** gen_random_select_queries.cpp:31-41 = gen_random_next_geq_queries.cpp:33-43 *)
Definition run_generate (iso : bool) (generate : list Z -> Z -> res (list Z)) (name : list Z) (argv : list (list Z))
  : res (Z * list Z) :=
  with_usage name " index_filename num_queries_per_sequence" (generate_main iso generate argv).

(** ** The test programs of one sequence (test_common.hpp:26-50) on files; [test] as in M_Say, with the memory into
    which [mapped] puts the bytes of the index *)
Definition run_test (stod : list Z -> res spec_float) (iso : bool) (test : parameters -> list Z -> Z -> list Z -> res (list Z))
    (mapped : list Z -> list Z * Z) (name : list Z) (argv : list (list Z)) : prog Z := fun d =>
  let opened name := snd (open_file name d) in
  match say_test_main stod iso
    (fun index coll params =>
       let! file := opened index in
       let (mem, f) := mapped file in
       let! input := opened coll in
       test params mem f (words_in input)) name argv
  with
  | Ok (code, text) => (text, d, Ok code)
  | Throw => ([], d, Throw)
  | Abort => ([], d, Abort)
  | UB => ([], d, UB)
  | Fuel => ([], d, Fuel)
  end.
