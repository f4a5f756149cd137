(** Specification vocabulary for queries that name a list the index does not have. *)
From Verif Require Import Base Hw Spec Format.
Local Open Scope Z_scope.

(** The memory ends with the index file at [f], but for at most one byte, and [i] is the number of its lists; or [i] is so
    large that even the offset of the list with this number would lie behind the end of the memory. *)
Definition nowhere (mem : list Z) (f u : Z) (Ks : list (list Z)) (i : Z) : Prop :=
  i = zlen Ks /\ zlen mem <= f + zlen (f_index u Ks) + 1 \/ 0 <= i /\ zlen mem < f + 24 + 8 * i.
