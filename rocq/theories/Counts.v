(** The counters of [statistics] (util.hpp:97-134), written down directly from the list of
    values of a sequence.  Nothing here is used by the model. *)
From Verif Require Import Base M_Util Spec Format.

(** the sum of [w h] over the chunk identifiers [h] with [p h] *)
Definition over (p : Z -> bool) (w : Z -> Z) : Z := total w (filter p (zrange 0 (Z.to_nat 65536))).
(** the sum of [w n] over the blocks, of [n] values with [p n], of the chunks stored as blocks *)
Definition over_blocks (S : list Z) (p : Z -> bool) (w : Z -> Z) : Z :=
  over (as_blocks S) (fun h =>
    total (fun b => w (card 256 S (256 * h + b)))
      (filter (fun b => p (card 256 S (256 * h + b))) (zrange 0 256))).

(** a listed block; a block with a bitmap *)
Definition listed (n : Z) : bool := (0 <? n) && (n <? 31).
Definition bitmapped (n : Z) : bool := 31 <=? n.
Definition one : Z -> Z := fun _ => 1.
Definition same : Z -> Z := fun n => n.

(** blocks of chunk [h] up to the one that holds its largest value *)
Definition blocks_upto (S : list Z) (h : Z) : Z := last (part 65536 S h) 0 / 256 + 1.

(** non-empty chunks *)
Definition chunks_in (S : list Z) : Z := over (fun h => 0 <? card 65536 S h) one.

(** what building the list [S] adds to each counter; F_bits is the subject of C17 *)
Definition counts (S : list Z) (f : field) : Z :=
  match f with
  | F_sequences => 1
  | F_integers => zlen S
  | F_integers_in_sparse_chunks => over (as_blocks S) (card 65536 S)
  | F_integers_in_dense_chunks => over (as_bitmap S) (card 65536 S)
  | F_integers_in_full_chunks => 65536 * over (fun h => card 65536 S h =? 65536) one
  | F_integers_in_sparse_blocks => over_blocks S listed same
  | F_integers_in_dense_blocks => over_blocks S bitmapped same
  | F_chunks => last S 0 / 65536 + 1
  | F_empty_chunks => last S 0 / 65536 + 1 - chunks_in S
  | F_sparse_chunks => over (as_blocks S) one
  | F_dense_chunks => over (as_bitmap S) one
  | F_full_chunks => over (fun h => card 65536 S h =? 65536) one
  | F_blocks => over (as_blocks S) (blocks_upto S)
  | F_empty_blocks => over (as_blocks S) (fun h => blocks_upto S h - blocks_in S h)
  | F_sparse_blocks => over_blocks S listed one
  | F_dense_blocks => over_blocks S bitmapped one
  | F_bits => 0
  | F_chunks_header_bits => 64 * chunks_in S + 16 + 64 * (chunks_in S / 32)
  | F_blocks_header_bits => 16 * over_blocks S bitmapped one + 8 * over_blocks S listed one
  | F_dense_chunks_bits => 65536 * over (as_bitmap S) one
  | F_dense_blocks_bits => 256 * over_blocks S bitmapped one
  | F_sparse_blocks_bits => 8 * (over_blocks S listed same + over_blocks S listed one)
  | F_sparse_blocks_cardinalities i => if listed i then over_blocks S (Z.eqb i) one else 0
  | F_num_blocks_in_chunks i => over (sparse_with i S) one
  | F_num_integers i => over (sparse_with i S) (card 65536 S)
  end.
