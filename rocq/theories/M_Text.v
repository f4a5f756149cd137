(** Model of the main functions of the programs: their command lines and the text on standard
    input.  A character is its code, a command line a list of words (without the name of
    the program, argv[0]).  The C locale is assumed.  The messages are in M_Say; a file
    name stands for the file, whose content is given. *)
From Coq Require Import String Ascii Floats.SpecFloat.
From Verif Require Import Base Hw M_Util M_Build M_Seq M_Many M_Index M_Print M_Calls M_Tests M_Drivers M_Tools.

(** the characters of a string literal *)
Definition codes (s : string) : list Z := map (fun c => Z.of_nat (nat_of_ascii c)) (list_ascii_of_string s).

(** isspace and isdigit *)
Definition is_space (c : Z) : bool := (9 <=? c) && (c <=? 13) || (c =? 32).
Definition is_digit (c : Z) : bool := (48 <=? c) && (c <=? 57).

(** ** Conversion of integers, shared by scanf("%d"), std::atoi, std::stoull and operator>> *)
Fixpoint skip_spaces (s : list Z) : list Z :=
  match s with
  | [] => []
  | c :: s' => if is_space c then skip_spaces s' else s
  end.

(** the digits at the start of the text, [v] being the value of those before *)
Fixpoint digits (s : list Z) (v : Z) : Z * list Z :=
  match s with
  | [] => (v, [])
  | c :: s' => if is_digit c then digits s' (10 * v + (c - 48)) else (v, s)
  end.

(** an optional sign *)
Definition sign (s : list Z) : bool * list Z :=
  match s with
  | [] => (false, [])
  | c :: s' => if c =? 45 then (true, s') else if c =? 43 then (false, s') else (false, s)
  end.

(** an optional sign and digits; [None]: there is no digit.  What is left of the text; a
    sign is used up in any case. *)
Definition integer (s : list Z) : option Z * list Z :=
  let (negative, s) := sign s in
  match s with
  | [] => (None, [])
  | c :: _ =>
      if is_digit c then
        let (v, s) := digits s 0 in
        (Some (if negative : bool then - v else v), s)
      else (None, s)
  end.

(** An integer converted to int and stored in a uint32_t (scanf("%d", &q.i), contains.cpp:50;
    std::atoi, build.cpp:41).  ISO C leaves the conversion undefined when the integer is
    not the value of an int ([iso = true]); glibc takes the low 32 bits of the nearest
    64-bit integer ([iso = false]). *)
Definition to_int (iso : bool) (n : Z) : res Z :=
  if (- 2 ^ 31 <=? n) && (n <? 2 ^ 31) then Ok (u32 n)
  else if iso then UB
  else Ok (u32 (Z.max (- 2 ^ 63) (Z.min (2 ^ 63 - 1) n))).

(** std::atoi (build.cpp:41, test_common.hpp:46, gen_uniform_data.cpp:45-48) *)
Definition atoi (iso : bool) (s : list Z) : res Z :=
  match integer (skip_spaces s) with
  | (Some n, _) => to_int iso n
  | (None, _) => Ok 0
  end.

(** std::stoull (contains.cpp:43, select.cpp:65, ...): a negative number is taken modulo 2^64 *)
Definition stoull (s : list Z) : res Z :=
  match integer (skip_spaces s) with
  | (Some n, _) => if Z.abs n <? 2 ^ 64 then Ok (u64 n) else Throw
  | (None, _) => Throw
  end.

(** ** Reading integers with scanf *)
(** scanf("%d", &v) (contains.cpp:50): what it returns and what is left of the text.  [old] is the
    content of v, [None] while it is uninitialised. *)
Inductive returned := EOF_ | Zero | One.
Definition scanf_d (iso : bool) (s : list Z) (old : option Z) : res (returned * option Z * list Z) :=
  match skip_spaces s with
  | [] => Ok (EOF_, old, [])
  | s =>
      match integer s with
      | (Some n, s) => let! v := to_int iso n in Ok (One, Some v, s)
      | (None, s) => Ok (Zero, old, s)
      end
  end.
Definition is_EOF (x : returned) : bool := match x with EOF_ => true | _ => false end.

(** contains.cpp:48-54 = intersect.cpp:51-57 = union.cpp:51-57 = test_intersect.cpp:70-76 =
    test_union.cpp:62-68.  [q] is uninitialised in every iteration; pushing it then is
    undefined behaviour.  Every iteration consumes a character or is the last one. *)
Fixpoint scan_pairs (fuel : nat) (iso : bool) (s : list Z) (i num_queries : Z) : res (list (Z * Z)) :=
  if i =? num_queries then Ok []
  else match fuel with
  | O => Fuel
  | S f =>
      let! (x, q_i, s) := scanf_d iso s None in
      let! (y, q_j, s) := scanf_d iso s None in
      if is_EOF x || is_EOF y then Ok []
      else match q_i, q_j with
      | Some a, Some b =>
          let! queries := scan_pairs f iso s (u32 (i + 1)) num_queries in
          Ok ((a, b) :: queries)
      | _, _ => UB
      end
  end.

(** select.cpp:21-26 = next_geq.cpp:21-26 *)
Fixpoint scan_words (fuel : nat) (iso : bool) (s : list Z) (i total_queries : Z) : res (list Z) :=
  if i =? total_queries then Ok []
  else match fuel with
  | O => Fuel
  | S f =>
      let! (x, q, s) := scanf_d iso s None in
      if is_EOF x then Ok []
      else match q with
      | Some a => let! queries := scan_words f iso s (u32 (i + 1)) total_queries in Ok (a :: queries)
      | None => UB
      end
  end.

(** ** Reading integers with operator>> *)
(** "is >> x" for a uint32_t x (example.cpp:35, test_common.hpp:19): the new content of x and what is
    left of the stream, [None] once it has failed.  At the end of the text x is not
    changed, without a digit it becomes 0, and if the number is too large the largest
    one.  The standard library (libstdc++) negates a number with a minus sign modulo
    2^32. *)
Definition extract (s : option (list Z)) (old : option Z) : option Z * option (list Z) :=
  match s with
  | None => (old, None)
  | Some s =>
      match skip_spaces s with
      | [] => (old, None)
      | s =>
          match integer s with
          | (Some n, s) => if Z.abs n <? 2 ^ 32 then (Some (u32 n), Some s) else (Some (2 ^ 32 - 1), None)
          | (None, _) => (Some 0, None)
          end
      end
  end.

(** test_common.hpp:18-19: the numbers of a line up to the first failure; each consumes a character *)
Fixpoint line_numbers (fuel : nat) (s : list Z) : list Z :=
  match fuel with
  | O => []
  | S f =>
      match extract (Some s) None with
      | (Some index, Some s) => index :: line_numbers f s
      | _ => []
      end
  end.

(** std::getline on a text that is not empty: the line and what follows it *)
Fixpoint getline (s : list Z) : list Z * list Z :=
  match s with
  | [] => ([], [])
  | c :: s => if c =? 10 then ([], s) else let (line, s) := getline s in (c :: line, s)
  end.

(** test_common.hpp:12-23; [None]: it returned false *)
Definition read_query (s : list Z) : option (list Z * list Z) :=
  match s with
  | [] => None
  | _ =>
      let (line, s) := getline s in
      Some (std_unique (std_sort (line_numbers (S (length line)) line)), s)
  end.

(** test_intersect_many.cpp:109-115 = test_union_many.cpp:122-128; every query consumes a character *)
Fixpoint read_queries (fuel : nat) (dbg : bool) (s : list Z) (i num_queries : Z) : res (list (list Z)) :=
  if i =? num_queries then Ok []
  else match fuel with
  | O => Fuel
  | S f =>
      match read_query s with
      | None => Ok []
      | Some (q, s) =>
          let! _ := assert_ dbg (negb (zlen q =? 0)) in
          let! queries := read_queries f dbg s (i + 1) num_queries in
          Ok (q :: queries)
      end
  end.

(** example.cpp:34-37; [m] more iterations; [x] is uninitialised at first *)
Fixpoint cin_loop (m : nat) (s : option (list Z)) (x : option Z) : res (list Z) :=
  match m with
  | O => Ok []
  | S m' =>
      let (x, s) := extract s x in
      match x with
      | None => UB
      | Some v => let! input := cin_loop m' s x in Ok (v :: input)
      end
  end.

(** example.cpp:29-38: n, too, is uninitialised if the text has no character but spaces *)
Definition read_input (s : list Z) : res (list Z) :=
  let (n, s) := extract (Some s) None in
  match n with
  | None => UB
  | Some n => cin_loop (Z.to_nat n) s None
  end.

(** ** Writing integers *)
(** std::cout << n for an unsigned n (gen_random_select_queries.cpp:28): its decimal digits; [fuel] is
    a bound on their number *)
Fixpoint show_loop (fuel : nat) (n : Z) (after : list Z) : list Z :=
  match fuel with
  | O => after
  | S f =>
      let after := (48 + n mod 10) :: after in
      if n <? 10 then after else show_loop f (n / 10) after
  end.
Definition show (n : Z) : list Z := show_loop (S (Z.to_nat (Z.log2 n))) n [].

(** for (auto q : queries) std::cout << q << "\n" (gen_random_select_queries.cpp:28,
    gen_random_next_geq_queries.cpp:30); the text file of gen_clustered_data.cpp:106-107 is
    written like this, too *)
Definition show_lines (queries : list Z) : list Z := flat_map (fun q => show q ++ [10]) queries.

(** std::cout << rng.gen() << "\t" << rng.gen() << "\n" (gen_random_pairwise_queries.cpp:8) *)
Fixpoint show_pairs (out : list Z) : list Z :=
  match out with
  | a :: b :: out => show a ++ [9] ++ show b ++ [10] ++ show_pairs out
  | _ => []
  end.

(** ** Command lines *)
(** std::string(argv[i]) == "..." *)
Definition is_word (w : list Z) (s : string) : bool := if list_eq_dec Z.eq_dec w (codes s) then true else false.

(** [std::stod] is a parameter of the model: it yields a double or throws.  The loop over the words
    (build.cpp:35-46).  When an option is the last word, argv[argc] is a null pointer, which
    std::stod and std::atoi must not be given; after "--out" the counter steps over argc. *)
Fixpoint build_options (stod : list Z -> res spec_float) (iso : bool) (argv : list (list Z))
    (params : parameters) (output_filename : option (list Z)) : res (parameters * option (list Z)) :=
  match argv with
  | [] => Ok (params, output_filename)
  | w :: argv =>
      if is_word w "--density" then
        match argv with
        | [] => UB
        | w :: argv =>
            let! d := stod w in
            build_options stod iso argv (mkParams d (p_size params)) output_filename
        end
      else if is_word w "--size" then
        match argv with
        | [] => UB
        | w :: argv =>
            let! s := atoi iso w in
            build_options stod iso argv (mkParams (p_density params) s) output_filename
        end
      else if is_word w "--out" then
        match argv with
        | [] => UB
        | w :: argv => build_options stod iso argv params (Some w)
        end
      else build_options stod iso argv params output_filename
  end.

(** test_common.hpp:40-48, the loop of the macro TEST *)
Fixpoint test_options (stod : list Z -> res spec_float) (iso : bool) (argv : list (list Z))
    (params : parameters) : res parameters :=
  match argv with
  | [] => Ok params
  | w :: argv =>
      if is_word w "--density" then
        match argv with
        | [] => UB
        | w :: argv => let! d := stod w in test_options stod iso argv (mkParams d (p_size params))
        end
      else if is_word w "--size" then
        match argv with
        | [] => UB
        | w :: argv => let! s := atoi iso w in test_options stod iso argv (mkParams (p_density params) s)
        end
      else test_options stod iso argv params
  end.

(** example.cpp:15-26; [None]: main returned 1 *)
Fixpoint example_options (argv : list (list Z)) (output_filename : option (list Z))
  : res (option (option (list Z))) :=
  match argv with
  | [] => Ok (Some output_filename)
  | w :: argv =>
      if is_word w "-o" then
        match argv with
        | [] => UB
        | w :: argv => example_options argv (Some w)
        end
      else Ok None
  end.

(** ** Programs.  [None]: there are too few words, main returned 1. *)
(** build.cpp:21-51; [file] is the content of the collection, as words.  The numbers printed, and
    the file saved with its name. *)
Definition build_main (stod : list Z -> res spec_float) (iso dbg : bool) (file : list Z -> list Z)
    (argv : list (list Z)) : res (option (list token * option (list Z * list Z))) :=
  match argv with
  | collection_filename :: argv =>
      let! (params, output_filename) := build_options stod iso argv default_params None in
      let! (shown, bytes) := build_cpp dbg params (file collection_filename) in
      Ok (Some (shown, match output_filename with Some o => Some (o, bytes) | None => None end))
  | _ => Ok None
  end.

(** test_common.hpp:26-50 TEST; [test] gets the two file names and the parameters *)
Definition test_main {A : Type} (stod : list Z -> res spec_float) (iso : bool)
    (test : list Z -> list Z -> parameters -> res A) (argv : list (list Z)) : res (option A) :=
  match argv with
  | index_filename :: collection_filename :: argv =>
      let! params := test_options stod iso argv default_params in
      let! r := test index_filename collection_filename params in
      Ok (Some r)
  | _ => Ok None
  end.

(** std::vector::reserve (contains.cpp:45) throws std::length_error when the size in bytes is not
    below 2^63; [width] is the size of an element *)
Definition reserve (n width : Z) : res unit := if n <=? (2 ^ 63 - 1) / width then Ok tt else Throw.

(** contains.cpp:34-60 = intersect.cpp:37-63 = union.cpp:37-63 = test_intersect.cpp:56-81 =
    test_union.cpp:48-73; [run] gets the file name and the queries *)
Definition pairs_main {A : Type} (iso : bool) (run : list Z -> list (Z * Z) -> res A)
    (argv : list (list Z)) (stdin : list Z) : res (option A) :=
  match argv with
  | binary_filename :: w :: _ =>
      let! num_queries := stoull w in
      let! _ := reserve num_queries 8 in
      let! queries := scan_pairs (S (length stdin)) iso stdin 0 num_queries in
      let! r := run binary_filename queries in
      Ok (Some r)
  | _ => Ok None
  end.

(** test_intersect_many.cpp:95-121 = test_union_many.cpp:108-134 *)
Definition lines_main {A : Type} (dbg : bool) (run : list Z -> list (list Z) -> res A)
    (argv : list (list Z)) (stdin : list Z) : res (option A) :=
  match argv with
  | binary_filename :: w :: _ =>
      let! num_queries := stoull w in
      let! _ := reserve num_queries 24 in
      let! queries := read_queries (S (length stdin)) dbg stdin 0 num_queries in
      let! r := run binary_filename queries in
      Ok (Some r)
  | _ => Ok None
  end.

(** select.cpp:11-26 and 55-69 = next_geq.cpp:11-26 and 53-67; [f] says where the file is mapped *)
Definition words_main {A : Type} (iso : bool) (run : s_index -> Z -> list Z -> res A) (mem : list Z)
    (f : list Z -> Z) (argv : list (list Z)) (stdin : list Z) : res (option A) :=
  match argv with
  | binary_filename :: w :: _ =>
      let! n := stoull w in
      let! ix := index_mmap mem (f binary_filename) in
      let total_queries := u64 (ix_size ix * n) in
      let! _ := reserve total_queries 4 in
      let! queries := scan_words (S (length stdin)) iso stdin 0 total_queries in
      let! r := run ix n queries in
      Ok (Some r)
  | _ => Ok None
  end.

(** example.cpp:11-89: whether main returned 0; [place] puts the encoding into memory, in a file if
    there is a file name *)
Definition example_main (dbg : bool) (place : option (list Z) -> list Z -> list Z * Z)
    (argv : list (list Z)) (stdin : list Z) : res bool :=
  let! o := example_options argv None in
  match o with
  | None => Ok false
  | Some output_filename =>
      let! input := read_input stdin in
      example_cpp dbg (place output_filename) input
  end.

(** ** The programs under tools/: the words or the text they write *)
(** gen_uniform_data.cpp:36-54 *)
Definition uniform_main (iso : bool) (argv : list (list Z)) (tape : list Z) : res (option (list Z)) :=
  match argv with
  | a :: b :: c :: d :: _ :: _ =>
      let! num_lists := atoi iso a in
      let! min_length := atoi iso b in
      let! max_length := atoi iso c in
      let! universe := atoi iso d in
      let! data := gen_uniform num_lists min_length max_length universe tape in
      Ok (Some data)
  | _ => Ok None
  end.

(** gen_clustered_data.cpp:113-133: a binary file of words or a text file *)
Definition clustered_main (iso : bool) (fuel : nat) (dbg : bool) (junk : nat -> Z) (argv : list (list Z))
    (tape : list Z) : res (option (list Z + list Z)) :=
  match argv with
  | a :: b :: _ :: argv =>
      let! num_lists := atoi iso a in
      let! universe := atoi iso b in
      let binary := existsb (fun w => is_word w "--binary") argv in
      let! out := gen_clustered fuel dbg binary junk num_lists universe tape in
      Ok (Some (if binary then inl out else inr (show_lines out)))
  | _ => Ok None
  end.

(** gen_random_select_queries.cpp:31-41 = gen_random_next_geq_queries.cpp:33-43: [generate] gets the file
    name and the number; the text written *)
Definition generate_main (iso : bool) (generate : list Z -> Z -> res (list Z)) (argv : list (list Z))
  : res (option (list Z)) :=
  match argv with
  | f :: w :: _ =>
      let! n := atoi iso w in
      let! queries := generate f n in
      Ok (Some (show_lines queries))
  | _ => Ok None
  end.

(** gen_random_pairwise_queries.cpp:12-21 *)
Definition pairwise_main (iso : bool) (argv : list (list Z)) (tape : list Z) : res (option (list Z)) :=
  match argv with
  | v :: w :: _ =>
      let! num_queries := atoi iso v in
      let! num_sequences := atoi iso w in
      Ok (Some (show_pairs (gen_pairwise_queries num_queries num_sequences tape)))
  | _ => Ok None
  end.
