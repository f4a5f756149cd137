(** Specification vocabulary for the programs under /repo/tools: what random generators may
    produce. *)
From Verif Require Import Base Spec.
From Coq Require Import Sorted.

(** a list gen_uniform_data can write *)
Definition uniform_list (min_length max_length universe : Z) (L : list Z) : Prop :=
  StronglySorted Z.lt L /\ Forall (fun v => 0 <= v <= universe) L
  /\ zlen L <= max_length /\ (L = [] -> min_length = 0).

(** what gen_clustered_data draws for the slice from [lo] to [hi]: nothing, all of it, or 10 to
    16384 values, which may be equal and one of which may be [hi] itself *)
Definition drawn (lo hi : Z) (P : list Z) : Prop :=
  P = [] \/ (forall v, In v P <-> lo <= v < hi)
  \/ 10 <= zlen P <= 16384 /\ Forall (fun v => lo <= v <= hi) P.

(** a list gen_clustered_data can write: the union of what is drawn for the slices of 65536 values *)
Definition clustered_list (universe : Z) (L : list Z) : Prop :=
  exists Ps, zlen Ps = (universe + 65535) / 65536
    /\ (forall i P, znth Ps i = Some P -> drawn (65536 * i) (Z.min (65536 * (i + 1)) universe) P)
    /\ enumerates (fun v => exists P, In P Ps /\ In v P) L.
