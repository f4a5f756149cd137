(** Specification vocabulary for whole programs (C62): files, and the first lines build writes.  Nothing here is used by
    the model. *)
From Coq Require Import String Floats.SpecFloat.
From Verif Require Import Base Spec Printed Report M_Util M_Say M_Session.
Local Open Scope Z_scope.

(** ** Files: names and contents; the first of a name counts *)
Definition files : Type := list (list Z * list Z).
Definition has_file (d : files) (name bytes : list Z) : Prop :=
  exists before after, d = before ++ (name, bytes) :: after /\ ~ In name (map fst before).
Definition no_file (d : files) (name : list Z) : Prop := ~ In name (map fst d).
(** [d'] is [d] with the file of that name replaced, or added, and nothing else changed *)
Definition saved (d : files) (name bytes : list Z) (d' : files) : Prop :=
  has_file d' name bytes /\ forall n, n <> name -> forall b, has_file d' n b <-> has_file d n b.

(** 32-bit words in a file, the low byte first *)
Definition words32 (ws : list Z) : list Z :=
  flat_map (fun w => [w mod 256; w / 256 mod 256; w / 65536 mod 256; w / 16777216 mod 256]) ws.

(** ** What build writes while it goes through the lists, [n] of which have been encoded so far *)
Definition begun_lines (u n : Z) : list (list piece) :=
  [W "universe size: "; N u]
  :: map (fun k => [W "processed "; N (1000 * k); W " sequences"]) (zrange 1 (Z.to_nat (n / 1000))).

(** ** A file in memory, followed by at least 31 readable bytes *)
Definition in_memory (bytes mem : list Z) (f : Z) : Prop :=
  0 <= f /\ (forall i, 0 <= i < zlen bytes -> znth mem (f + i) = znth bytes i)
  /\ f + zlen bytes + 31 <= zlen mem /\ zlen mem <= 2 ^ 64.

(** The test programs for single sequences, started with the words [argv] and the files [d], return 0 and write nothing
    but their progress and "everything good"; [mapped] says where in memory the index is put *)
Definition all_pass stod iso dbg mapped name argv d u (Ks : list (list Z)) : Prop :=
  let passes verb last_verb test :=
    exists t, page [] (clean_session verb last_verb u (zlen Ks)) t
      /\ run_test stod iso test mapped name argv d = (t, d, Ok 0) in
  (Forall (fun L => zlen L + 23 <= u) Ks -> passes "decoded "%string "decoded "%string (say_test_decode dbg))
  /\ passes "checked "%string "checked "%string (say_test_contains dbg)
  /\ passes "checked "%string "checked "%string (say_test_select dbg)
  /\ passes "decoded "%string "decoded "%string (say_test_enumerator dbg)
  /\ (forall fuel, (100 <= fuel)%nat -> Forall (fun L => last L 0 + 1000001 < 2 ^ 32) Ks ->
        passes "checked "%string "checked "%string (say_test_next_geq fuel dbg)
        /\ passes "checked "%string "checked "%string (say_test_next_geq_enumerator fuel dbg))
  /\ (u < 2 ^ 32 - 65536 -> Forall (fun L => last L 0 / 65536 <= u / 65536 /\ zlen L <= u) Ks ->
        passes "decoded "%string "uncompressed "%string (say_test_uncompress dbg)).
