(** Specification vocabulary for C51: where the parts of an encoding lie, modulo 8.
    Nothing here is used by the model. *)
From Verif Require Import Base Spec Format.
Local Open Scope Z_scope.

(** values of chunk [h] that lie in blocks of fewer than 31 values, which are stored as one byte each *)
Definition listed_in (S : list Z) (h : Z) : Z :=
  total (fun b => let n := card 256 S (256 * h + b) in if n <? 31 then n else 0) (zrange 0 256).

(** the number of bytes of chunk [h] but for its bitmaps: two for each block and one for each listed value *)
Definition loose (S : list Z) (h : Z) : Z :=
  if as_blocks S h then 2 * blocks_in S h + listed_in S h else 0.
(** ... of the chunks before chunk [h] *)
Definition loose_before (S : list Z) (h : Z) : Z := total (loose S) (zrange 0 (Z.to_nat h)).
(** ... of a sequence, with the two bytes that hold its number of chunks *)
Definition loose_all (S : list Z) : Z := 2 + loose_before S 65536.

(** listed values of a sequence *)
Definition listed_all (S : list Z) : Z :=
  total (listed_in S) (filter (as_blocks S) (zrange 0 (Z.to_nat 65536))).
