(** What next_geq_enumerator answers to queries in any order: conditions and answers from the values
    and the queries alone.  Nothing here is used by the model. *)
From Verif Require Import Base Spec Format.

(** [f]: where the enumerator stands, the start of a chunk or of a block.  It does not go back: queries up to
    the start of its chunk are taken for that start, later ones for [f] if they are smaller *)
Definition answer (S : list Z) (f q : Z) : Z :=
  let start := 65536 * (f / 65536) in
  spec_next_geq S (if q <=? start then start else Z.max q f).

(** where it stands afterwards: at the start of the chunk of the answer, or, if the query points
    inside that chunk and the chunk is stored as blocks, at the start of the block of the answer *)
Definition moved (S : list Z) (f q : Z) : Z :=
  let a := answer S f q in
  if (65536 * (a / 65536) <? q) && as_blocks S (a / 65536) then 256 * (a / 256)
  else Z.max f (65536 * (a / 65536)).

(** the answers to a history; the value 2^32 - 1, "not found", is repeated once it has been given *)
Fixpoint answers (S : list Z) (f : Z) (qs : list Z) : list Z :=
  match qs with
  | [] => []
  | q :: qs => answer S f q ::
      (if answer S f q =? 4294967295 then map (fun _ => 4294967295) qs else answers S (moved S f q) qs)
  end.

(** 0 is not asked once "not found" has been answered *)
Fixpoint no_restart (S : list Z) (f : Z) (qs : list Z) : Prop :=
  match qs with
  | [] => True
  | q :: qs =>
      if answer S f q =? 4294967295 then Forall (fun q => q <> 0) qs else no_restart S (moved S f q) qs
  end.

(** every query is below the 32nd chunk id after the one of the previous answer *)
Fixpoint near (S : list Z) (f prev : Z) (qs : list Z) : Prop :=
  match qs with
  | [] => True
  | q :: qs => q / 65536 < prev / 65536 + 32
      /\ (answer S f q <> 4294967295 -> near S (moved S f q) (answer S f q) qs)
  end.
