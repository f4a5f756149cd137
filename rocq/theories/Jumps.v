(** When the skips of next_geq_enumerator land on the right data: conditions on the values and the queries
    alone.  Nothing here is used by the model. *)
From Verif Require Import Base Spec Format.

(** identifiers of the non-empty chunks of [S], in increasing order *)
Definition chunks (S : list Z) : list Z := ids 65536 (Z.to_nat 65536) S.

(** data bytes of the chunks number i, ..., j - 1 *)
Definition span (S : list Z) (i j : Z) : Z :=
  total (chunk_cost S) (firstn (Z.to_nat (j - i)) (skipn (Z.to_nat i) (chunks S))).

(** how often 32 chunks are skipped on the way from chunk number [b] to the query [q] *)
Definition skips (S : list Z) (b q : Z) : Z :=
  Z.max 0 ((zlen (filter (fun h => h <=? q / 65536) (chunks S)) - b - 1) / 32).

(** number of the chunk that holds the answer to [q] *)
Definition lands (S : list Z) (q : Z) : Z :=
  zlen (filter (fun h => h <? spec_next_geq S q / 65536) (chunks S)).

(** [p] skips done before, now at chunk number [b]: every query of [qs] moves the data by as many
    bytes as there are in the chunks that it skips *)
Fixpoint faithful (S : list Z) (p b : Z) (qs : list Z) {struct qs} : Prop :=
  match qs with
  | [] => True
  | q :: qs =>
      span S (32 * p) (32 * (p + skips S b q)) = span S b (b + 32 * skips S b q)
      /\ faithful S (p + skips S b q) (lands S q) qs
  end.

(** chunks 32 apart occupy equally many bytes *)
Definition even (S : list Z) : Prop := forall i h h',
  znth (chunks S) i = Some h -> znth (chunks S) (i + 32) = Some h' -> chunk_cost S h = chunk_cost S h'.
