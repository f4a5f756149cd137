(** C28: printing the statistics of a build (util.hpp:151-242). *)
From Verif Require Import Base Hw Spec Format M_Util M_Build M_Index M_Print Counts Shown P_Print P_Shown.

(** Printing is undefined exactly when some number of blocks between 1 and 256 is not the
    number of blocks of any chunk stored as blocks.  When it is defined, the line for [i]
    blocks shows the average number of values of such chunks, rounded down. *)
Theorem C28_print : forall dbg params u Ls stats offsets sequences,
  let kept := filter (fun L => pass params (zlen L) (last L 0)) Ls in
  Forall valid kept -> Forall short Ls -> total zlen kept < 2 ^ 37 ->
  index_build dbg params (collection u Ls) = Ok (stats, offsets, sequences) ->
  ((exists i, 1 <= i <= 256 /\ sparse_chunks i kept = []) -> print stats = UB)
  /\ ((forall i, 1 <= i <= 256 -> sparse_chunks i kept <> []) ->
      exists out, print stats = Ok out
        /\ forall i, 1 <= i <= 256 ->
             znth out (87 + 6 * (i - 1) + 3)
             = Some (TNum (total (fun c => card 65536 (fst c) (snd c)) (sparse_chunks i kept)
                           / zlen (sparse_chunks i kept)))).
Proof. exact c28_print. Qed.
Print Assumptions C28_print.

(** When it is defined, all the numbers printed: [shown] (Shown.v) lists them, from counters
    that are computed from the values (Counts.v) and the size of the file. *)
Theorem C28_shown : forall dbg params u Ls stats offsets sequences,
  let kept := filter (fun L => pass params (zlen L) (last L 0)) Ls in
  Forall valid kept -> Forall short Ls -> total zlen kept < 2 ^ 37 ->
  index_build dbg params (collection u Ls) = Ok (stats, offsets, sequences) ->
  (forall i, 1 <= i <= 256 -> sparse_chunks i kept <> []) ->
  print stats = Ok (shown (counters (8 * zlen (index_file offsets sequences)) kept)).
Proof. exact c28_shown. Qed.
Print Assumptions C28_shown.

(** the defined case occurs: one list for each number of blocks *)
Theorem C28_shown_occurs : forall dbg u, exists stats offsets sequences,
  index_build dbg default_params (collection u combs) = Ok (stats, offsets, sequences)
  /\ print stats = Ok (shown (counters (8 * zlen (index_file offsets sequences)) combs)).
Proof. exact c28_shown_combs. Qed.
Print Assumptions C28_shown_occurs.

(** "printing is well defined after any build" is false: it needs at least 256 chunks *)
Theorem C28_few_chunks : forall dbg params u Ls stats offsets sequences,
  let kept := filter (fun L => pass params (zlen L) (last L 0)) Ls in
  Forall valid kept -> Forall short Ls -> total zlen kept < 2 ^ 37 ->
  total (fun L => zlen (ids 65536 (Z.to_nat 65536) L)) kept < 256 ->
  index_build dbg params (collection u Ls) = Ok (stats, offsets, sequences) ->
  print stats = UB.
Proof. exact c28_few_chunks. Qed.
Print Assumptions C28_few_chunks.

Example C28_example :
  (let! (stats, offsets, sequences) := index_build true default_params (collection 9 [[3; 5; 300]; [4]]) in
   print stats) = UB
  /\ (let! (stats, offsets, sequences) := index_build true default_params (collection 9 [[3; 5; 300]; [4]]) in
      Ok (stats (F_num_blocks_in_chunks 1), stats (F_num_integers 2), stats (F_num_blocks_in_chunks 3)))
     = Ok (1, 3, 0)
  /\ sparse_with 2 [3; 5; 300] 0 = true /\ comb 3 = [0; 256; 512].
Proof.
  split; [vm_compute; reflexivity|]. split; [vm_compute; reflexivity|]. split; vm_compute; reflexivity.
Qed.
