(** Specification vocabulary for what the programs report (C53): lines of text (Printed.v) as functions of
    the lists [L] of a collection and the lists [S] of an index.  Nothing here is used by the model. *)
From Coq Require Import String Floats.SpecFloat.
From Verif Require Import Base Spec Printed Shown Told.
Local Open Scope Z_scope.

Definition at_ (l : list Z) (default j : Z) : Z := nth (Z.to_nat j) l default.

(** ** What is reported about a list [L] when the index has [S] in its place *)
Definition if_not (b : bool) (l : list piece) : list (list piece) := if b then [] else [l].

Local Open Scope string_scope.
Local Open Scope Z_scope.
Definition card_report (L S : list Z) : list (list piece) :=
  if_not (zlen S =? zlen L) [W "cardinality "; N (zlen S); W ": expected "; N (zlen L)].
Definition length_report (L S : list Z) : list (list piece) :=
  if_not (zlen S =? zlen L) [W "decoded "; N (zlen S); W " integers: expected "; N (zlen L)].
(** a line for every position at which the lists differ; [default] stands for the values after the end of [S] *)
Definition value_line (n j x y : Z) : list piece :=
  [W "error at "; N j; W "/"; N n; W ": expected "; N x; W " but got "; N y].
Definition value_report (default : Z) (L S : list Z) : list (list piece) :=
  flat_map (fun j => let x := at_ L 0 j in let y := at_ S default j in if_not (x =? y) (value_line (zlen L) j x y))
    (zrange 0 (length L)).

Definition decode_report (L S : list Z) : list (list piece) :=
  (card_report L S ++ length_report L S ++ value_report 0 L S)%list.
Definition uncompress_report (L S : list Z) : list (list piece) := (length_report L S ++ value_report 0 L S)%list.
Definition contains_report (L S : list Z) : list (list piece) :=
  (card_report L S ++ flat_map (fun v => if_not (existsb (Z.eqb v) S) [N v; W " should have been found"]) L)%list.
Definition enumerator_report (u : Z) (L S : list Z) : list (list piece) := value_report u L S.
(** select leaves the last value found where it was *)
Definition select_report (L S : list Z) : list (list piece) :=
  (card_report L S
   ++ flat_map (fun j =>
        let x := at_ L 0 j in let y := at_ S (last S 0) j in
        if_not (j <? zlen S) [W "rank "; N j; W " should have been valid"]
        ++ if_not (x =? y) (value_line (zlen L) j x y))
      (zrange 0 (length L)))%list.
(** the queries are all values up to the last of [L], and 100 larger ones *)
Definition next_geq_report (L S : list Z) : list (list piece) :=
  (card_report L S
   ++ flat_map (fun v =>
        let x := spec_next_geq L v in let y := spec_next_geq S v in
        if_not (y =? x) [W "error at "; N v; W "/"; N (last L 0); W ": got "; N y; W " but expected next_geq("; N v;
                         W ") = "; N x])
      (zrange 0 (Z.to_nat (last L 0 + 1)))
   ++ flat_map (fun i =>
        let y := spec_next_geq S (last L 0 + 1 + 10000 * i) in
        if_not (y =? 4294967295) [W "error : got "; N y; W " but expected "; N 4294967295])
      (zrange 0 100))%list.

(** ** The output of a test program for one sequence *)
(** [k] lists have been read before these *)
Fixpoint reports (verb : string) (of_list : list Z -> list Z -> list (list piece)) (k : Z)
    (pairs : list (list Z * list Z)) : list (list piece) :=
  match pairs with
  | [] => []
  | (L, L') :: pairs =>
      (of_list L L' ++ if_not (negb ((k + 1) mod 1000 =? 0)) [W verb; N (k + 1); W " sequences"]
       ++ reports verb of_list (k + 1) pairs)%list
  end.
Definition no_report (of_list : list Z -> list Z -> list (list piece)) (p : list Z * list Z) : bool :=
  match of_list (fst p) (snd p) with [] => true | _ => false end.
Definition session (verb last_verb : string) (u : Z) (of_list : list Z -> list Z -> list (list piece))
    (pairs : list (list Z * list Z)) : list (list piece) :=
  ([[W "universe size: "; N u]] ++ reports verb of_list 0 pairs ++ [[W last_verb; N (zlen pairs); W " sequences"]]
   ++ if_not (negb (forallb (no_report of_list) pairs)) [W "everything good"])%list.

(** ... when nothing is wrong with [n] lists *)
Definition clean_session (verb last_verb : string) (u n : Z) : list (list piece) :=
  ([[W "universe size: "; N u]]
   ++ map (fun k => [W verb; N (1000 * k); W " sequences"]) (zrange 1 (Z.to_nat (n / 1000)))
   ++ [[W last_verb; N n; W " sequences"]; [W "everything good"]])%list.

(** ** Times: [t] is a double *)
Definition over (t : spec_float) (n : Z) : spec_float := SFdiv 53 1024 t (dbl n).
Definition mean_lines (t : spec_float) (queries : Z) : list (list piece) :=
  [[W "Mean per run: "; R t; W " [musec]"]; [W "Mean per query: "; R (over t queries); W " [musec]"]].
Definition perf_lines (what : string) (asked counted total : Z) (t : spec_float) : list (list piece) :=
  ([[W "reading queries..."]; [W "DONE"]; [W "performing "; N asked; W " "; W what; W "..."]; [N total]]
   ++ mean_lines t counted)%list.
Definition speed_lines (sequences integers : Z) (t : spec_float) : list (list piece) :=
  [[W "decoded "; N sequences; W " sequences"]; [W "decoded "; N integers; W " integers"];
   [W "Elapsed time: "; R (over t 1000000); W " [sec]"];
   [W "Mean per sequence: "; R (over t sequences); W " [musec]"];
   [W "Mean per integer: "; R (SFmul 53 1024 (over t integers) (dbl 1000)); W " [ns]"]].

(** ** What a program writes, and how that goes with its verdict *)
(** the lines of the page, and nothing else *)
Definition writes (nan : list Z) (lines : list (list piece)) (r : res (list Z)) : Prop :=
  exists t, r = Ok t /\ page nan lines t.
(** [s] says how many lists or queries were checked and whether all was well.  If so, the text consists of the
    lines [clean] allows, the number, and "everything good"; else it ends with the number.  Where one is undefined,
    throws or aborts, so does the other. *)
Definition tells (clean : Z -> list (list piece) -> Prop) (last_verb things : string) (r : res (list Z))
    (s : res (Z * bool)) : Prop :=
  let count k := [W last_verb; N k; W things] in
  match s, r with
  | Ok (k, true), Ok t => exists ls, clean k ls /\ page [] (ls ++ [count k; [W "everything good"]]) t
  | Ok (k, false), Ok t => exists before l, t = (before ++ l)%list /\ page [] [count k] l
  | Throw, Throw | Abort, Abort | UB, UB | Fuel, Fuel => True
  | _, _ => False
  end.
Definition clean_scan (verb : string) (mem : list Z) (f k : Z) (ls : list (list piece)) : Prop :=
  exists u, bytes_at mem (f + 8) (le_bytes 8 u) /\ 0 <= u < 2 ^ 64
    /\ ls = [W "universe size: "; N u]
            :: map (fun i => [W verb; N (1000 * i); W " sequences"]) (zrange 1 (Z.to_nat (k / 1000))).
Definition clean_pairs (k : Z) (ls : list (list piece)) : Prop := ls = [[W "reading queries..."]].
Definition size_lines (verb : string) (sizes : list Z) : list (list piece) :=
  [W "reading queries..."] :: [W "running test..."] :: map (fun s => [W verb; N s]) sizes.
Definition clean_many (verb : string) (k : Z) (ls : list (list piece)) : Prop :=
  exists sizes, zlen sizes = k /\ ls = size_lines verb sizes.
(** main returns [code], having written the lines *)
Definition returns (code : Z) (nan : list Z) (lines : list (list piece)) (r : res (Z * list Z)) : Prop :=
  exists t, r = Ok (code, t) /\ page nan lines t.
