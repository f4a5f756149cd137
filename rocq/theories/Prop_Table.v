(** C54: exactly which shuffle tables make intersections right.  The table is declared in table.hpp, which is
    not in the repository; the other theorems about intersections assume [shuffle_table_ok]. *)
From Coq Require Import Lia Sorted.
From Verif Require Import Base Hw Spec Lib Layout M_Util M_Build M_Seq M_Intersect M_Calls Table P_Build3 P_Seq P_Query
  P_Table P_Ex.
Local Open Scope Z_scope.

(** A table of 16 bytes for each mask makes every intersection of stored sequences right if and only if its
    entries select, for each mask, the positions of the ones in order. *)
Theorem C54_exact : forall tbl, table tbl ->
  (right_table tbl <->
   forall mem a b S T, valid S -> valid T -> stored 31 mem a S -> stored 31 mem b T ->
   exists e, enumerates (fun v => In v S /\ In v T) e
     /\ forall dbg x out pos, zlen x = 1024 -> 0 <= pos -> pos + zlen e + 23 <= zlen out ->
        exists s t x' out', seq_at mem a = Ok s /\ seq_at mem b = Ok t
          /\ pairwise_intersection tbl dbg mem s t x out pos = Ok (x', out', zlen e)
          /\ forall i, 0 <= i < zlen e -> znth out' (pos + i) = znth e i).
Proof. exact c54_exact. Qed.
Print Assumptions C54_exact.

(** With any table of 16 bytes for each mask an intersection is defined and its number of values is right:
    a wrong table shows only in the values. *)
Theorem C54_count : forall tbl mem a b S T,
  table tbl -> valid S -> valid T -> stored 31 mem a S -> stored 31 mem b T ->
  exists e, enumerates (fun v => In v S /\ In v T) e
    /\ forall dbg x out pos, zlen x = 1024 -> 0 <= pos -> pos + zlen e + 23 <= zlen out ->
       exists s t x' out', seq_at mem a = Ok s /\ seq_at mem b = Ok t
         /\ pairwise_intersection tbl dbg mem s t x out pos = Ok (x', out', zlen e)
         /\ zlen x' = 1024 /\ zlen out' = zlen out.
Proof. exact c54_count. Qed.
Print Assumptions C54_count.

(** The entry of one mask m shows when 1..16 is intersected with the values 1 + j for the ones j of m:
    value number k of the result is right exactly if byte k of the entry selects the k-th one. *)
Theorem C54_entry : forall tbl m mem a b,
  0 < m < 65536 -> zlen (tbl m) = 16 ->
  stored 31 mem a (zrange 1 16) -> stored 31 mem b (map (Z.add 1) (ones m)) ->
  forall dbg x out pos, zlen x = 1024 -> 0 <= pos -> pos + 16 <= zlen out ->
  exists s t x' out', seq_at mem a = Ok s /\ seq_at mem b = Ok t
    /\ pairwise_intersection tbl dbg mem s t x out pos = Ok (x', out', zlen (ones m))
    /\ forall k j, znth (ones m) k = Some j -> (znth out' (pos + k) = Some (1 + j) <-> selects (tbl m) k j).
Proof. exact c54_entry. Qed.
Print Assumptions C54_entry.

(** Every call of the library does with a right table exactly what it does with one that satisfies
    [shuffle_table_ok], so the other theorems hold for every right table. *)
Theorem C54_same : forall tbl, table tbl -> right_table tbl ->
  exists tbl', shuffle_table_ok tbl' /\ forall dbg sc c, run_call tbl dbg sc c = run_call tbl' dbg sc c.
Proof. exact c54_same. Qed.
Print Assumptions C54_same.

(** A right table, and one with two positions of the entry for mask 7 exchanged: intersecting 1..16 with
    1, 2, 3 then gives 1, 3, 2. *)
Definition c54_encA := snd (builder_build false [] (zrange 1 16)).
Definition c54_encB := snd (builder_build false [] [1; 2; 3]).
Definition c54_mem := c54_encA ++ c54_encB ++ repeat 9 31.
Definition c54_run (tbl : Z -> list Z) : res (Z * list Z) :=
  let! s := seq_at c54_mem 0 in let! t := seq_at c54_mem (zlen c54_encA) in
  let! (_, out, n) := pairwise_intersection tbl true c54_mem s t (repeat 3 (Z.to_nat 1024)) (repeat 0 26) 0 in
  Ok (n, firstn 3 out).
Example C54_example :
  table ex_tbl /\ right_table ex_tbl /\ table bad_tbl /\ ~ right_table bad_tbl
  /\ ones 7 = [0; 1; 2] /\ bad_tbl 7 = [0; 2; 1; 255; 255; 255; 255; 255; 255; 255; 255; 255; 255; 255; 255; 255]
  /\ stored 31 c54_mem 0 (zrange 1 16) /\ stored 31 c54_mem (zlen c54_encA) (map (Z.add 1) (ones 7))
  /\ c54_run ex_tbl = Ok (3, [1; 2; 3]) /\ c54_run bad_tbl = Ok (3, [1; 3; 2])
  /\ (let tbl m := map (fun c => if c <? 16 then c + 64 else c) (ex_tbl m) in
      right_entry 7 (tbl 7) /\ ~ firstn 3 (tbl 7) = ones 7 /\ c54_run tbl = Ok (3, [1; 2; 3])).
Proof.
  split; [apply ex_tbl_right|]. split; [apply ex_tbl_right|]. split; [exact bad_tbl_table|]. split; [exact bad_tbl_wrong|].
  split; [vm_compute; reflexivity|]. split; [vm_compute; reflexivity|].
  split.
  { exact (stored_mid false (zrange 1 16) c54_encA [] (c54_encB ++ repeat 9 31) 31 (encoding_ok false _ first_valid)
      ltac:(vm_compute; discriminate)). }
  split.
  { exact (stored_mid false (map (Z.add 1) (ones 7)) c54_encB c54_encA (repeat 9 31) 31
      (encoding_ok false _ (second_valid 7 ltac:(lia))) ltac:(vm_compute; discriminate)). }
  split; [vm_compute; reflexivity|]. split; [vm_compute; reflexivity|]. cbv zeta. split; [|split].
  - intros k j E. pose proof (znth_lt _ _ _ _ E) as B. change (zlen (ones 7)) with 3 in B.
    assert (C : k = 0 \/ k = 1 \/ k = 2) by lia.
    destruct C as [->|[->| ->]]; vm_compute in E; injection E as <-;
      [exists 64|exists 65|exists 66]; repeat split; vm_compute; reflexivity.
  - vm_compute. discriminate.
  - vm_compute. reflexivity.
Qed.
