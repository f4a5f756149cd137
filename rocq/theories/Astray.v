(** What is left of the results of operations on damaged sequences: vocabulary of Prop_Astray.v.
    Nothing here is used by the model. *)
From Verif Require Import Base Spec.
From Coq Require Import Sorted.

(** the values of [l] that lie in chunk [h], as ordered in [l] *)
Definition of_chunk (h : Z) (l : list Z) : list Z := filter (fun v => v / 65536 =? h) l.

(** every value of [e] lies in a chunk with [has h], the chunks come in order, and those with [ok h] hold in [e] what
    they hold in [S] *)
Definition agrees_on (has ok : Z -> Prop) (S e : list Z) : Prop :=
  Forall (fun v => has (v / 65536)) e
  /\ StronglySorted (fun v w => v / 65536 <= w / 65536) e
  /\ forall h, ok h -> of_chunk h e = of_chunk h S.

(** [n] is the number of values of [e], the buffer [out'] holds them from index [pos] on, and before it what [out] held *)
Definition delivered (out : list Z) (pos : Z) (out' : list Z) (n : Z) (e : list Z) : Prop :=
  n = zlen e /\ zlen out' = zlen out
  /\ (forall i, i < pos -> znth out' i = znth out i)
  /\ (forall i, 0 <= i < zlen e -> znth out' (pos + i) = znth e i).
