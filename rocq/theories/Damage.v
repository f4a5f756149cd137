(** Sequences of which only some bytes are what the builder wrote: vocabulary of Prop_Damage.v.
    Nothing here is used by the model. *)
From Verif Require Import Base Spec Format M_Build.

(** length of the part before the data of the chunks *)
Definition head_size (S : list Z) : Z :=
  let n := zlen (ids 65536 (Z.to_nat 65536) S) in 2 + 8 * (n / 32) + 8 * n.
(** where the data of chunk [h] start *)
Definition chunk_start (S : list Z) (h : Z) : Z :=
  head_size S + total (chunk_cost S) (zrange 0 (Z.to_nat h)).
(** the i-th byte of an encoding of [S] is in the head, is in the data of chunk [h] *)
Definition in_head (S : list Z) (i : Z) : Prop := 0 <= i < head_size S.
Definition in_chunk_data (S : list Z) (h i : Z) : Prop :=
  0 <= h < 65536 /\ chunk_start S h <= i < chunk_start S h + chunk_cost S h.

(** some value of [S] lies in chunk [h] *)
Definition has_chunk (S : list Z) (h : Z) : Prop := exists v, In v S /\ v / 65536 = h.

(** memory at [a] starts like an encoding of [S]: the head and the data of the chunks with [ok h] are those of the
    encoding, the latter with at least [slack] readable bytes behind them; all other bytes are arbitrary, or missing *)
Definition intact (slack : Z) (ok : Z -> Prop) (mem : list Z) (a : Z) (S : list Z) : Prop :=
  exists dbg enc, encoding dbg S enc
    /\ (forall i, in_head S i \/ (exists h, ok h /\ in_chunk_data S h i) -> znth mem (a + i) = znth enc i)
    /\ (forall h, ok h -> has_chunk S h -> a + chunk_start S h + chunk_cost S h + slack <= zlen mem).

(** [bs] with [junk] written over it from index [k] on *)
Definition overwrite (bs : list Z) (k : Z) (junk : list Z) : list Z :=
  firstn (Z.to_nat k) bs ++ junk ++ skipn (Z.to_nat (k + zlen junk)) bs.
