(** How far behind an encoding decode reads, in terms of the list of values alone. *)
From Verif Require Import Base Spec Format.

(** data bytes of a block of [n] values *)
Definition data_bytes (n : Z) : Z := if n <? 31 then n else 32.

(** number of bytes from the data of block [b] to the end of the encoding of [S], for a block of a
    chunk stored as blocks: the data of the later blocks of its chunk, then the later chunks *)
Definition bytes_left (S : list Z) (b : Z) : Z :=
  total (fun i => data_bytes (card 256 S (256 * (b / 256) + i))) (filter (fun i => b mod 256 <=? i) (zrange 0 256))
  + total (chunk_cost S) (filter (fun h => b / 256 <? h) (zrange 0 (Z.to_nat 65536))).

(** with [extra] readable bytes after the encoding, block [b] can be decoded: at most 8 values are
    read with one load of 16 bytes, 9 to 30 values with four such loads, 8 bytes apart *)
Definition block_reads (S : list Z) (extra b : Z) : Prop :=
  as_blocks S (b / 256) = true -> 0 < card 256 S b ->
  (card 256 S b <= 8 -> 16 <= bytes_left S b + extra)
  /\ (8 < card 256 S b < 31 -> 40 <= bytes_left S b + extra).
Definition decode_reads (S : list Z) (extra : Z) : Prop := forall b, block_reads S extra b.

(** the enumerator decodes the chunks one by one: after [k] calls of next, those up to the chunk of
    the [k]-th value (up to the last chunk once it is exhausted) *)
Definition enum_reads (S : list Z) (k extra : Z) : Prop :=
  forall b x, znth S (Z.min k (zlen S - 1)) = Some x -> b / 256 <= x / 65536 -> block_reads S extra b.
