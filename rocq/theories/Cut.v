(** Memory that ends early: vocabulary of Prop_Cut.v.  Nothing here is used by the model. *)
From Verif Require Import Base Spec Format Damage.

(** the first [n] bytes of [mem]: what is left of a file that was cut short *)
Definition cut (n : Z) (mem : list Z) : list Z := firstn (Z.to_nat n) mem.

(** if the list [S] stored at [a] has a chunk [h], then its data end within the first [n] bytes *)
Definition kept_chunk (n a : Z) (S : list Z) (h : Z) : Prop :=
  has_chunk S h -> a + chunk_start S h + chunk_cost S h <= n.
