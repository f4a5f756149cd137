(** C37: building an index from any file of 32-bit words. *)
From Verif Require Import Base Spec M_Util M_Build M_Index Holds P_Malformed.

(** a file of two or more words consists of two words, complete lists, each after its length, and
    possibly the beginning of one more list *)
Theorem C37_words : forall data, Forall is_u32 data -> 2 <= zlen data ->
  exists d0 u Ls rest, data = d0 :: u :: flat_map (fun L => zlen L :: L) Ls ++ rest
    /\ (rest = [] \/ exists n R, rest = n :: R /\ zlen R < n).
Proof. exact c37_words. Qed.
Print Assumptions C37_words.

(** a shorter file is read past its end *)
Theorem C37_tiny : forall dbg params,
  index_build dbg params [] = UB
  /\ forall d0, index_build dbg params [d0] = if dbg && negb (d0 =? 1) then Abort else UB.
Proof. exact c37_tiny. Qed.
Print Assumptions C37_tiny.

(** only the debug build looks at the first word: without assertions a file that does not begin
    with 1 gives the same index as if it did *)
Theorem C37_first_word : forall dbg params d0 data, Forall is_u32 data -> data <> [] ->
  index_build dbg params (d0 :: data)
  = if dbg && negb (d0 =? 1) then Abort else index_build dbg params (1 :: data).
Proof. exact c37_first. Qed.
Print Assumptions C37_first_word.

(** a file that ends within a list is read past its end, provided the builder gets that far; in
    any case no index comes out *)
Theorem C37_truncated : forall dbg params u Ls n R,
  Forall valid (kept_lists params Ls) -> Forall short Ls -> zlen R < n ->
  index_build dbg params (collection u Ls ++ n :: R) = UB.
Proof. exact c37_truncated. Qed.
Print Assumptions C37_truncated.

Theorem C37_truncated_never : forall dbg params u Ls n R, Forall short Ls -> zlen R < n ->
  forall r, index_build dbg params (collection u Ls ++ n :: R) <> Ok r.
Proof. exact c37_truncated_never. Qed.
Print Assumptions C37_truncated_never.

(** "a file of complete lists is read to its end" is false: after a list of 2^32 - 1 words the
    position is advanced by zero, so no index comes out, and if the filter drops the list the
    builder never ends *)
Theorem C37_endless : forall dbg params u Ls L rest, Forall short Ls -> zlen L = 4294967295 ->
  let data := collection u Ls ++ zlen L :: L ++ rest in
  (forall r, index_build dbg params data <> Ok r)
  /\ (Forall valid (kept_lists params Ls) -> pass params (zlen L) (last L 0) = false ->
      index_build dbg params data = Fuel).
Proof. exact c37_endless. Qed.
Print Assumptions C37_endless.

Theorem C37_endless_refuted : exists params L, zlen L = 4294967295 /\ Forall is_u32 L
  /\ forall dbg u, index_build dbg params (collection u [L]) = Fuel.
Proof. exact c37_endless_occurs. Qed.
Print Assumptions C37_endless_refuted.

(** lists [3; 5] and [8] and the beginning of a list of four; another first word; both *)
Example C37_example :
  [1; 9; 2; 3; 5; 1; 8; 4; 6; 7] = collection 9 [[3; 5]; [8]] ++ 4 :: [6; 7]
  /\ kept_lists default_params [[3; 5]; [8]] = [[3; 5]; [8]]
  /\ index_build true default_params [1; 9; 2; 3; 5; 1; 8; 4; 6; 7] = UB
  /\ (let! (_, o, q) := index_build true default_params (collection 9 [[3; 5]; [8]]) in Ok (o, q))
     = Ok ([9; 0; 14], [0; 0; 0; 0; 1; 0; 1; 0; 4; 0; 0; 1; 3; 5; 0; 0; 0; 0; 0; 0; 1; 0; 3; 0; 0; 0; 8])
  /\ (let! (_, o, q) := index_build false default_params [7; 9; 2; 3; 5; 1; 8] in Ok (o, q))
     = (let! (_, o, q) := index_build true default_params (collection 9 [[3; 5]; [8]]) in Ok (o, q))
  /\ index_build true default_params [7; 9; 2; 3; 5; 1; 8] = Abort.
Proof.
  split; [reflexivity|]. split; [vm_compute; reflexivity|]. split; [vm_compute; reflexivity|].
  split; [vm_compute; reflexivity|]. split; vm_compute; reflexivity.
Qed.
