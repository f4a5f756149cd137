(** Specification vocabulary for test programs that do not come to their end (C65).  Nothing here is used by the model. *)
From Coq Require Import String.
From Verif Require Import Base Spec M_Util M_Build Format Printed Report.
Local Open Scope Z_scope.

(** what a test program has written after checking these lists *)
Definition so_far (verb : string) (u : Z) (of_list : list Z -> list Z -> list (list piece))
    (pairs : list (list Z * list Z)) : list (list piece) :=
  [W "universe size: "; N u] :: Report.reports verb of_list 0 pairs.

(** how a test program ends when behind a number of lists the collection has the words [tail] which are not the end: a list
    the collection has only a part of; or, with assertions, one more list that the index should have, but has not *)
Definition ends_badly (dbg : bool) (params : parameters) (all : Prop) (tail : list Z) (how : res Z) : Prop :=
  (exists n part, tail = n :: part /\ zlen part < n /\ how = UB)
  \/ (exists L more, tail = zlen L :: L ++ more /\ zlen L < 2 ^ 32 - 1 /\ pass params (zlen L) (last L 0) = true
        /\ dbg = true /\ all /\ how = Abort).
