(** C49: the text that build writes to standard output.  Numbers first.  [natural], [real] and [page]
    (Printed.v) say which text a number or a list of lines has. *)
From Coq Require Import String QArith Floats.SpecFloat.
From Verif Require Import Base Hw Spec Format M_Util M_Build M_Index M_Print M_Drivers M_Text M_Out
  Counts Shown Typed Printed P_Print P_Out3 P_Out4.
Local Open Scope Z_scope.

Theorem C49_integer : forall n t, 0 <= n -> (t = show n <-> natural n t).
Proof. exact c49_integer. Qed.
Print Assumptions C49_integer.

(** a double: the nearest decimal number of six digits, without zeros at the end, and with an exponent if it is
    below 1/10000 or not below 1000000 *)
Theorem C49_double : forall nan x t, t = show_double nan x <-> real nan x t.
Proof. exact c49_double. Qed.
Print Assumptions C49_double.

(** The whole output of build, when the collection has a chunk of every number of blocks (C28);
    without such chunks it is undefined. *)
Theorem C49_build : forall nan dbg params u Ls stats offsets sequences,
  let kept := filter (fun L => pass params (zlen L) (last L 0)) Ls in
  0 <= u -> Forall valid kept -> Forall short Ls -> total zlen kept < 2 ^ 37 ->
  index_build dbg params (collection u Ls) = Ok (stats, offsets, sequences) ->
  ((forall i, 1 <= i <= 256 -> sparse_chunks i kept <> []) ->
   forall t, build_text nan dbg params (collection u Ls) = Ok t
     <-> page nan (build_lines u (zlen kept) (counters (8 * zlen (index_file offsets sequences)) kept)) t)
  /\ ((exists i, 1 <= i <= 256 /\ sparse_chunks i kept = []) ->
      build_text nan dbg params (collection u Ls) = UB).
Proof. exact c49_build. Qed.
Print Assumptions C49_build.

Theorem C49_occurs : forall nan dbg u, 0 <= u ->
  exists t, build_text nan dbg default_params (collection u combs) = Ok t.
Proof. exact c49_occurs. Qed.
Print Assumptions C49_occurs.

(** The output of build in README.md is the text for counters that fulfil the equations of C17 and C18. *)
Example C49_readme :
  accounts readme
  /\ readme F_sparse_chunks + readme F_dense_chunks + readme F_full_chunks + readme F_empty_chunks = readme F_chunks
  /\ readme F_bits = readme F_chunks_header_bits + readme F_blocks_header_bits + readme F_dense_chunks_bits
       + readme F_dense_blocks_bits + readme F_sparse_blocks_bits + 64 * (readme F_sequences + 3)
  /\ fill [] summary_frame (summary readme) ++ endl = readme_log
  /\ forall nan, page nan (summary_lines readme) readme_log.
Proof. exact c49_readme. Qed.

(** numbers in the logs of statistics/README.md: bits of Elias-Fano codes, percentages, bits per integer *)
Example C49_logs : forall nan,
  Forall (fun r : Z * string => show_double nan (quot (ef_bits (fst r)) (fst r)) = word (snd r))
    [(1, "18"); (4, "16"); (7, "16"); (353, "10"); (306, "10"); (1850, "8"); (1849, "8"); (609, "9"); (9755, "5");
     (7081, "6"); (4475, "6")]%string
  /\ Forall (fun r : Z * Z * string => show_double nan (pct (fst (fst r)) (snd (fst r))) = word (snd r))
    [(65536 * 16850, 5322883266, "20.7459"); (6050670, 14584293, "41.4876"); (1448054662, 1730604715, "83.6733");
     (65536 * 712, 14858833259, "0.314033"); (9567963, 73708490, "12.9808"); (11602569856, 13193655562, "87.9405");
     (0, 19691599096, "0"); (705012, 50843195, "1.38664")]%string
  /\ Forall (fun r : Z * Z * string => show_double nan (quot (fst (fst r)) (snd (fst r))) = word (snd r))
    [(16 * 24883799 + 8 * 257666254, 5322883266, "0.462056"); (65536 * 23094, 5322883266, "0.284336");
     (256 * 24883799, 5322883266, "1.19677"); (8 * 2867702750, 5322883266, "4.31");
     (65536 * 84429, 14858833259, "0.37238"); (8 * 13109831357, 14858833259, "7.05834")]%string.
Proof. exact c49_logs. Qed.

Example C49_example : forall nan,
  show_double nan (quot 1 3) = word "0.333333" /\ show_double nan (quot 1000000 1) = word "1e+06"
  /\ show_double nan (quot 9999995 10) = word "1e+06" /\ show_double nan (quot 1999995 2) = word "999998"
  /\ show_double nan (quot 1 20000) = word "5e-05" /\ show_double nan (quot 1 0) = word "inf"
  /\ show_double nan (quot 0 0) = nan.
Proof. intro nan. repeat split. Qed.

(** C48: words that are no options have no effect, wherever they stand.  In particular the command lines of
    script/build.py set no density and save no index. *)
Theorem C48_script : forall stod iso dbg file name words,
  Forall (fun w => ~ wants_value w) words ->
  build_main stod iso dbg file (name :: words)
  = (let! (shown, bytes) := build_cpp dbg default_params (file name) in Ok (Some (shown, None))).
Proof. exact c48_script. Qed.
Print Assumptions C48_script.

Theorem C48_script_test : forall (A : Type) stod iso (test : list Z -> list Z -> parameters -> res A) index coll words,
  Forall (fun w => w <> word "--density" /\ w <> word "--size") words ->
  test_main stod iso test (index :: coll :: words) = (let! r := test index coll default_params in Ok (Some r)).
Proof. exact @c48_script_test. Qed.
Print Assumptions C48_script_test.

Example C48_script_example :
  Forall (fun w => ~ wants_value w) (map word ["0.01"; "-o"; "out.0.01.bin"]%string)
  /\ Forall (fun w => w <> word "--density" /\ w <> word "--size") (map word ["0.01"]%string).
Proof.
  split.
  - cbn [map]. repeat constructor; intros [H|[H|H]]; discriminate H.
  - cbn [map]. repeat constructor; discriminate.
Qed.
