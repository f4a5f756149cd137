(** Specification vocabulary for programs that work on an index on disk (C64).  Nothing here is used by the model. *)
From Coq Require Import String.
From Verif Require Import Base Spec Format Printed Report Session.
Local Open Scope Z_scope.

(** the file [idx] is the index of the lists [Ks], and [mapped] puts it where it is followed by readable bytes *)
Definition index_on (d : files) (mapped : list Z -> list Z * Z) (idx : list Z) (u : Z) (Ks : list (list Z)) : Prop :=
  is_u32 u /\ Forall valid Ks /\ has_file d idx (f_index u Ks)
  /\ in_memory (f_index u Ks) (fst (mapped (f_index u Ks))) (snd (mapped (f_index u Ks))).

(** a program on the files [d] returns 0 after the lines [ls], and no file has changed *)
Definition reports (nan : list Z) (ls : list (list piece)) (d : files) (r : list Z * files * res Z) : Prop :=
  exists t, page nan ls t /\ r = (t, d, Ok 0).
(** it ends otherwise after these lines *)
Definition stops (ls : list (list piece)) (how : res Z) (d : files) (r : list Z * files * res Z) : Prop :=
  exists t, page [] ls t /\ r = (t, d, how).

(** the first lines of a program that reads queries *)
Definition reading_line : list (list piece) := [[W "reading queries..."]].
Definition read_lines : list (list piece) := reading_line ++ [[W "DONE"]].
Definition started_lines (what : string) (k : Z) : list (list piece) :=
  read_lines ++ [[W "performing "; N k; W " "; W what; W "..."]].
