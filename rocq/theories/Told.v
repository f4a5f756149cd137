(** Specification vocabulary for the programs under /repo/src. *)
From Verif Require Import Base Spec.

(** the list at a position, the empty list if there is none *)
Definition list_of (Ks : list (list Z)) (i : Z) : list Z :=
  match znth Ks i with Some L => L | None => [] end.

(** the queries the program reads from the integers on standard input when it is told to read
    [num]: all of them if there are so many, otherwise as many as there are *)
Definition pairs_read (num : Z) (input : list Z) (qs : list (Z * Z)) : Prop :=
  exists rest, input = flat_map (fun q => [fst q; snd q]) qs ++ rest
    /\ (zlen qs = num /\ num < 2 ^ 32 \/ zlen qs < num /\ zlen rest <= 1).

(** queries about list positions of an index *)
Definition positions (Ks : list (list Z)) (qs : list (Z * Z)) : Prop :=
  Forall (fun q => (exists S, znth Ks (fst q) = Some S) /\ is_u32 (fst q) /\ is_u32 (snd q)) qs.

(** queries naming two lists of an index each *)
Definition pairs_of (Ks : list (list Z)) (qs : list (Z * Z)) : Prop :=
  Forall (fun q => (exists S, znth Ks (fst q) = Some S) /\ (exists T, znth Ks (snd q) = Some T)
                   /\ is_u32 (fst q) /\ is_u32 (snd q)) qs.

(** number of values two lists have in common *)
Definition common (S T : list Z) : Z := zlen (filter (fun v => existsb (Z.eqb v) T) S).

(** [n] queries for each list in turn *)
Definition asked (Ks : list (list Z)) (n : Z) (qs : list Z) : list (list Z * Z) :=
  combine (flat_map (fun K => repeat K (Z.to_nat n)) Ks) qs.

(** the answers to select queries in turn: the value of that rank, or the previous answer
    if there is none *)
Fixpoint selected (prev : Z) (qs : list (list Z * Z)) : list Z :=
  match qs with
  | [] => []
  | (K, i) :: qs => let v := match znth K i with Some x => x | None => prev end in v :: selected v qs
  end.
