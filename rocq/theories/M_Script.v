(** Model of the scripts in script/: the command lines they give to os.system, and what becomes of
    them.  Of the shell, which is no part of the repository, there is what the scripts need: words
    separated by spaces and tabs, and input taken from a file ("Shell Command Language" of POSIX.1, 2.3,
    2.7.1 and 2.9.1).  What the shell makes of quotes, variables and other special characters, of files
    that do not exist and of other programs is not modelled ([None]).  What the scripts do under
    Python 3, where queries.py stops at xrange, is not modelled either. *)
From Coq Require Import String Floats.SpecFloat.
From Verif Require Import Base Hw M_Util M_Build M_Seq M_Decode M_Uncompress M_Query M_Many M_Index M_Print M_Calls
  M_Tests M_Drivers M_Text M_Out M_Say.

(** ** Command lines *)
(** build.py:6-8 *)
Definition build_commands (input_filename output_filename : list Z) : list (list Z) :=
  [codes "./build " ++ input_filename ++ codes " 0.01 -o " ++ output_filename ++ codes ".0.01.bin";
   codes "./build " ++ input_filename ++ codes " 0.001 -o " ++ output_filename ++ codes ".0.001.bin";
   codes "./build " ++ input_filename ++ codes " 0.0001 -o " ++ output_filename ++ codes ".0.0001.bin"].

(** queries.py:5-21; "for i in xrange(0, runs)" with runs = 3 *)
Definition queries_commands (index_filename query_logs_path : list Z) : list (list Z) :=
  let runs := 3%nat in
  repeat (codes "./decode " ++ index_filename) runs
  ++ repeat (codes "./intersect " ++ index_filename ++ codes " 1000 < " ++ query_logs_path ++ codes "/pairwise_queries.1k") runs
  ++ repeat (codes "./union " ++ index_filename ++ codes " 1000 < " ++ query_logs_path ++ codes "/pairwise_queries.1k") runs
  ++ repeat (codes "./select " ++ index_filename ++ codes " 1000 < " ++ query_logs_path ++ codes "/select_queries.1k") runs
  ++ repeat (codes "./next_geq " ++ index_filename ++ codes " 1000 < " ++ query_logs_path ++ codes "/next_geq_queries.1k") runs.

(** ** The shell *)
Inductive shell_token := Word (w : list Z) | Less.

(** characters without a meaning of their own: letters, digits and %+,-./:@_ *)
Definition ordinary (c : Z) : bool :=
  (48 <=? c) && (c <=? 57) || (65 <=? c) && (c <=? 90) || (97 <=? c) && (c <=? 122)
  || (c =? 37) || (43 <=? c) && (c <=? 47) || (c =? 58) || (c =? 64) || (c =? 95).

(** the tokens of a line, after the characters [w] of a word *)
Fixpoint shell_tokens (w line : list Z) : option (list shell_token) :=
  let flush := match w with [] => [] | _ => [Word w] end in
  match line with
  | [] => Some flush
  | c :: line =>
      if (c =? 32) || (c =? 9) then option_map (app flush) (shell_tokens [] line)
      else if c =? 60 then
        (* digits before "<" would be the number of a file descriptor *)
        if negb (zlen w =? 0) && forallb is_digit w then None
        else option_map (app (flush ++ [Less])) (shell_tokens [] line)
      else if ordinary c then shell_tokens (w ++ [c]) line
      else None
  end.

(** the words of a command, and the files that are to be its input *)
Fixpoint shell_command (ts : list shell_token) : option (list (list Z) * list (list Z)) :=
  match ts with
  | [] => Some ([], [])
  | Word w :: ts => option_map (fun c => (w :: fst c, snd c)) (shell_command ts)
  | Less :: Word f :: ts => option_map (fun c => (fst c, f :: snd c)) (shell_command ts)
  | Less :: _ => None
  end.

(** the input of the program: [text] has the files; the last one counts, but all must be there *)
Fixpoint shell_input (text : list Z -> option (list Z)) (stdin : list Z) (files : list (list Z)) : option (list Z) :=
  match files with
  | [] => Some stdin
  | f :: files => match text f with Some t => shell_input text t files | None => None end
  end.

(** os.system: the program is called with its words and its input *)
Definition os_system {A : Type} (text : list Z -> option (list Z)) (stdin : list Z)
    (call : list Z -> list (list Z) -> list Z -> option A) (line : list Z) : option A :=
  match shell_tokens [] line with
  | None => None
  | Some ts =>
      match shell_command ts with
      | Some (name :: argv, files) =>
          match shell_input text stdin files with
          | Some input => call name argv input
          | None => None
          end
      | _ => None
      end
  end.

(** ** Programs *)
(** build.cpp:21-51 *)
Definition call_build (stod : list Z -> res spec_float) (iso dbg : bool) (file : list Z -> list Z)
    (name : list Z) (argv : list (list Z)) (input : list Z)
  : option (res (option (list token * option (list Z * list Z)))) :=
  if is_word name "./build" then Some (build_main stod iso dbg file argv) else None.

(** decode.cpp:37-46, intersect.cpp:37-63, union.cpp:37-63, select.cpp:55-69 and next_geq.cpp:53-67 *)
Definition call_query (nan : list Z) (time : spec_float) (iso dbg : bool) (tbl : Z -> list Z) (mem : list Z)
    (place : list Z -> Z) (name : list Z) (argv : list (list Z)) (input : list Z) : option (res (Z * list Z)) :=
  if is_word name "./decode" then
    Some (say_index_main (fun f => say_decode_cpp nan time dbg mem (place f)) name argv)
  else if is_word name "./intersect" then
    Some (say_pairs_main iso (fun f => say_perf_intersection nan time tbl dbg mem (place f)) name argv input)
  else if is_word name "./union" then
    Some (say_pairs_main iso (fun f => say_perf_union nan time tbl dbg mem (place f)) name argv input)
  else if is_word name "./select" then
    Some (say_words_main iso (say_perf_select nan time dbg mem) mem place name argv input)
  else if is_word name "./next_geq" then
    Some (say_words_main iso (say_perf_next_geq nan time dbg mem) mem place name argv input)
  else None.

(** ** Scripts.  [argv] is sys.argv from 1 on; with fewer than two words there is an IndexError
    ([None]).  A command is run whatever became of the ones before. *)
(** build.py:1-8 *)
Definition build_py (stod : list Z -> res spec_float) (iso dbg : bool) (file : list Z -> list Z)
    (text : list Z -> option (list Z)) (stdin : list Z) (argv : list (list Z))
  : option (list (option (res (option (list token * option (list Z * list Z)))))) :=
  match argv with
  | input_filename :: output_filename :: _ =>
      Some (map (os_system text stdin (call_build stod iso dbg file)) (build_commands input_filename output_filename))
  | _ => None
  end.

(** the commands in turn; [time k] is what the k-th one measures *)
Fixpoint timed {A : Type} (run : Z -> list Z -> A) (k : Z) (lines : list (list Z)) : list A :=
  match lines with
  | [] => []
  | line :: lines => run k line :: timed run (k + 1) lines
  end.
(** queries.py:1-21 *)
Definition queries_py (nan : list Z) (time : Z -> spec_float) (iso dbg : bool) (tbl : Z -> list Z) (mem : list Z)
    (place : list Z -> Z) (text : list Z -> option (list Z)) (stdin : list Z) (argv : list (list Z))
  : option (list (option (res (Z * list Z)))) :=
  match argv with
  | index_filename :: query_logs_path :: _ =>
      Some (timed (fun k => os_system text stdin (call_query nan (time k) iso dbg tbl mem place)) 0
              (queries_commands index_filename query_logs_path))
  | _ => None
  end.
