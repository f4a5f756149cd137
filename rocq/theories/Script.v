(** What the properties about the scripts in script/ speak of *)
From Coq Require Import String Floats.SpecFloat.
From Verif Require Import Base Spec Typed Printed Told Report.

(** names a shell leaves alone: letters, digits and %+,-./:@_ *)
Definition plain_name (w : list Z) : Prop :=
  Forall (fun c => In c (word "0123456789ABCDEFGHIJKLMNOPQRSTUVWXYZabcdefghijklmnopqrstuvwxyz%+,-./:@_")) w.

(** what queries.py makes the programs write, for the lists [Ks], the pairs of positions [qs], and the
    ranks [rs] and values [vs] for each list: three times each; [time k] is what the k-th program measures *)
Definition thrice (time : Z -> spec_float) (k : Z) (lines : spec_float -> list (list piece)) : list (list (list piece)) :=
  [lines (time k); lines (time (k + 1)); lines (time (k + 2))].
Definition both (Ks : list (list Z)) (q : Z * Z) : Z := common (list_of Ks (fst q)) (list_of Ks (snd q)).
Definition either (Ks : list (list Z)) (q : Z * Z) : Z :=
  zlen (list_of Ks (fst q)) + zlen (list_of Ks (snd q)) - both Ks q.
Definition experiment (time : Z -> spec_float) (Ks : list (list Z)) (qs : list (Z * Z)) (selects next_geqs : Z)
  : list (list (list piece)) :=
  (thrice time 0 (speed_lines (zlen Ks) (total zlen Ks mod 2 ^ 64))
   ++ thrice time 3 (perf_lines "pairwise-intersections" (zlen qs) (zlen qs) (11 * total (both Ks) qs mod 2 ^ 64))
   ++ thrice time 6 (perf_lines "pairwise-unions" (zlen qs) (zlen qs) (11 * total (either Ks) qs mod 2 ^ 64))
   ++ thrice time 9 (perf_lines "select queries" (zlen Ks * 1000) (zlen Ks * 1000) (4 * selects mod 2 ^ 64))
   ++ thrice time 12 (perf_lines "next_geq queries" (zlen Ks * 1000) (zlen Ks * 1000) (4 * next_geqs mod 2 ^ 64)))%list.

(** a command was run, and the program returned [code] after writing the lines *)
Definition did (code : Z) (nan : list Z) (lines : list (list piece)) (o : option (res (Z * list Z))) : Prop :=
  exists r, o = Some r /\ returns code nan lines r.
