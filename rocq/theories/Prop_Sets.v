(** Pairwise set operations: C11, C12. *)
From Verif Require Import Base Spec M_Seq M_Intersect M_Union P_Ex P_Fin2.
From Coq Require Import Sorted.

(** C11: pairwise_intersection; [x] is the static scratch, [tbl] the table of table.hpp *)
Theorem C11_intersection : forall tbl mem a b S T,
  shuffle_table_ok tbl -> valid S -> valid T -> stored 31 mem a S -> stored 31 mem b T ->
  exists e, enumerates (fun v => In v S /\ In v T) e
    /\ forall dbg x out pos,
         zlen x = 1024 -> 0 <= pos -> pos + zlen e + 23 <= zlen out ->
         exists s t x' out', seq_at mem a = Ok s /\ seq_at mem b = Ok t
           /\ pairwise_intersection tbl dbg mem s t x out pos = Ok (x', out', zlen e)
           /\ zlen x' = 1024 /\ wrote 23 out pos e out'.
Proof. exact c11_intersection. Qed.
Print Assumptions C11_intersection.

Example C11_example :
  shuffle_table_ok ex_tbl /\ valid exA /\ valid exB
  /\ stored 31 ex_mem ex_a exA /\ stored 31 ex_mem ex_b exB
  /\ (let! s := seq_at ex_mem ex_a in let! t := seq_at ex_mem ex_b in
      let! (_, out, n) := pairwise_intersection ex_tbl true ex_mem s t (repeat 3 (Z.to_nat 1024)) (repeat 0 40) 1 in
      Ok (firstn 3 (skipn 1 out), n)) = Ok ([7; 513; 520], 3).
Proof.
  split; [exact ex_tbl_ok|]. split; [exact valid_A|]. split; [exact valid_B|].
  split; [exact stored_A|]. split; [exact stored_B|]. vm_compute. reflexivity.
Qed.

(** C12: pairwise_union; [x], [y] are the static scratch buffers *)
Theorem C12_union : forall mem a b S T,
  valid S -> valid T -> stored 31 mem a S -> stored 31 mem b T -> apart a S b T ->
  exists e, enumerates (fun v => In v S \/ In v T) e
    /\ forall dbg x y out pos,
         zlen x = 4 -> zlen y = 1024 -> 0 <= pos -> pos + zlen e + 23 <= zlen out ->
         exists s t x' y' out', seq_at mem a = Ok s /\ seq_at mem b = Ok t
           /\ pairwise_union dbg mem s t x y out pos = Ok (x', y', out', zlen e)
           /\ zlen x' = 4 /\ zlen y' = 1024 /\ wrote 23 out pos e out'.
Proof. exact c12_union. Qed.
Print Assumptions C12_union.

Example C12_example :
  valid exA /\ valid exB /\ stored 31 ex_mem ex_a exA /\ stored 31 ex_mem ex_b exB
  /\ apart ex_a exA ex_b exB
  /\ (let! s := seq_at ex_mem ex_a in let! t := seq_at ex_mem ex_b in
      let! (_, _, out, n) := pairwise_union true ex_mem s t [1; 2; 3; 4] (repeat 3 (Z.to_nat 1024)) (repeat 0 140) 1 in
      Ok (firstn 5 (skipn 1 out), n)) = Ok ([5; 7; 20; 300; 512], 106).
Proof.
  split; [exact valid_A|]. split; [exact valid_B|].
  split; [exact stored_A|]. split; [exact stored_B|]. split; [exact apart_AB|].
  vm_compute. reflexivity.
Qed.
