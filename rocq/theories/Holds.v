(** Specification vocabulary for the programs under /repo/test. *)
From Verif Require Import Base Hw Spec M_Util M_Build M_Seq M_Many M_Index.

(** the memory holds, from byte [f] on, the file build.cpp saves for the collection of the
    (short) lists [Ls] over the universe [u], followed by at least [slack] readable bytes *)
Definition holds_index (dbg : bool) (params : parameters) (u : Z) (Ls : list (list Z))
    (slack : Z) (mem : list Z) (f : Z) : Prop :=
  Forall short Ls /\ exists stats offsets sequences,
    index_build dbg params (collection u Ls) = Ok (stats, offsets, sequences)
    /\ 0 <= f /\ bytes_at mem f (index_file offsets sequences)
    /\ f + zlen (index_file offsets sequences) + slack <= zlen mem /\ zlen mem <= 2 ^ 64.

(** the lists the builder keeps: those of the collection that pass the filter of util.hpp *)
Definition kept_lists (params : parameters) (Ls : list (list Z)) : list (list Z) :=
  filter (fun L => pass params (zlen L) (last L 0)) Ls.

(** [sort] is a function that sorts sequences by cardinality, in any way std::sort may *)
Definition sorts_by_cardinality (mem : list Z) (sort : list s_sequence -> list s_sequence) : Prop :=
  forall seqs, (forall s, In s seqs -> exists c, cardinality mem s = Ok c) ->
    sort_outcome mem seqs (sort seqs).

(** the lists [Ss] are those the query [q], a list of positions, names *)
Definition named (Ks : list (list Z)) (q : list Z) (Ss : list (list Z)) : Prop :=
  Forall2 (fun k S => znth Ks k = Some S) q Ss.
