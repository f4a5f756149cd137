(** Specification vocabulary for the table shuffle_mask of table.hpp (C54), which is not in the repository. *)
From Verif Require Import Base Spec.
Local Open Scope Z_scope.

(** the positions of the ones of a mask of 16 bits, in increasing order *)
Definition ones (m : Z) : list Z := filter (Z.testbit m) (zrange 0 16).

(** a table has an entry of 16 bytes for every mask *)
Definition table (tbl : Z -> list Z) : Prop :=
  forall m, 0 <= m < 65536 -> zlen (tbl m) = 16 /\ Forall (fun c => 0 <= c < 256) (tbl m).

(** Entry [k] selects the byte at the [k]-th one of the mask: its top bit is 0 and its last four bits are the
    position.  The three bits between them and the entries after the last one do not matter. *)
Definition selects (entry : list Z) (k j : Z) : Prop := exists c, znth entry k = Some c /\ c < 128 /\ c mod 16 = j.
Definition right_entry (m : Z) (entry : list Z) : Prop := forall k j, znth (ones m) k = Some j -> selects entry k j.
Definition right_table (tbl : Z -> list Z) : Prop := forall m, 0 <= m < 65536 -> right_entry m (tbl m).
