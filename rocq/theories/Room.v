(** How large an output buffer must be, in terms of the list of values alone. *)
From Verif Require Import Base Spec Format.

(** number of values of [S] below [x] *)
Definition below (S : list Z) (x : Z) : Z := zlen (filter (fun v => v <? x) S).

(** [n] output words are enough to decode [S].  Inside a chunk stored as blocks, a block of at
    most 8 values is written with one vector of 8 words, one of 9 to 30 values with four;
    everything else is written value by value. *)
Definition decode_fits (S : list Z) (n : Z) : Prop :=
  zlen S <= n
  /\ forall b, as_blocks S (b / 256) = true -> 0 < card 256 S b ->
       (card 256 S b <= 8 -> below S (256 * b) + 8 <= n)
       /\ (8 < card 256 S b < 31 -> below S (256 * b) + 32 <= n).

(** [n] 64-bit words are enough to uncompress [S]: 1024 for every chunk up to the last *)
Definition uncompress_fits (S : list Z) (n : Z) : Prop := 1024 * (last S 0 / 65536 + 1) <= n.
