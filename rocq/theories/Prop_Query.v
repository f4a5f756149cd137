(** Queries: C04 - C07. *)
From Verif Require Import Base Spec M_Seq M_Query P_Ex P_Fin1.
From Coq Require Import Sorted.

(** C04: size() and cardinality() *)
Theorem C04_size : forall mem a S,
  valid S -> stored 0 mem a S ->
  exists s, seq_at mem a = Ok s /\ seq_size mem s = Ok (zlen S) /\ cardinality mem s = Ok (zlen S).
Proof. exact c04_size. Qed.
Print Assumptions C04_size.

Example C04_example :
  valid exA /\ stored 0 ex_mem ex_a exA
  /\ (let! s := seq_at ex_mem ex_a in seq_size ex_mem s) = Ok 45.
Proof. split; [exact valid_A|]. split; [exact stored_A0|]. vm_compute. reflexivity. Qed.

(** C05: contains decides membership; [stored 0]: no byte outside the encoding is needed *)
Theorem C05_contains : forall dbg mem a S v,
  valid S -> stored 0 mem a S -> is_u32 v ->
  exists s b, seq_at mem a = Ok s /\ contains dbg mem s v = Ok b /\ (b = true <-> In v S).
Proof. exact c05_contains. Qed.
Print Assumptions C05_contains.

Example C05_example :
  valid exA /\ stored 0 ex_mem ex_a exA /\ is_u32 520 /\ is_u32 65536
  /\ (let! s := seq_at ex_mem ex_a in contains true ex_mem s 520) = Ok true
  /\ (let! s := seq_at ex_mem ex_a in contains true ex_mem s 65536) = Ok false.
Proof.
  split; [exact valid_A|]. split; [exact stored_A0|].
  repeat split; vm_compute; congruence.
Qed.

(** C06: select(i) is the i-th smallest value; [value] is the previous content of the
    result variable *)
Theorem C06_select : forall dbg mem a S i value,
  valid S -> stored 0 mem a S -> is_u32 i ->
  exists s, seq_at mem a = Ok s
    /\ (forall x, znth S i = Some x -> select dbg mem s i value = Ok (true, x))
    /\ (zlen S <= i -> select dbg mem s i value = Ok (false, value)).
Proof. exact c06_select. Qed.
Print Assumptions C06_select.

Example C06_example :
  valid exA /\ stored 0 ex_mem ex_a exA
  /\ (let! s := seq_at ex_mem ex_a in select true ex_mem s 43 77) = Ok (true, 131081)
  /\ (let! s := seq_at ex_mem ex_a in select true ex_mem s 45 77) = Ok (false, 77).
Proof. split; [exact valid_A|]. split; [exact stored_A0|]. split; vm_compute; reflexivity. Qed.

(** C07: next_geq(v) is the least stored value >= v, or 2^32-1 *)
Theorem C07_next_geq : forall dbg mem a S v,
  valid S -> stored 0 mem a S -> is_u32 v ->
  exists s r, seq_at mem a = Ok s /\ next_geq dbg mem s v = Ok r
    /\ ((In r S /\ v <= r /\ (forall x, In x S -> v <= x -> r <= x))
        \/ (r = 4294967295 /\ ~ In r S /\ forall x, In x S -> x < v)).
Proof. exact c07_next_geq. Qed.
Print Assumptions C07_next_geq.

Example C07_example :
  valid exA /\ stored 0 ex_mem ex_a exA
  /\ (let! s := seq_at ex_mem ex_a in next_geq true ex_mem s 600) = Ok 131081
  /\ (let! s := seq_at ex_mem ex_a in next_geq true ex_mem s 196609) = Ok 4294967295.
Proof. split; [exact valid_A|]. split; [exact stored_A0|]. split; vm_compute; reflexivity. Qed.
