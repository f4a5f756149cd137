(** How far behind the encodings the pairwise set operations read, in terms of the lists of values
    alone. *)
From Verif Require Import Base Spec Format Reads RoomSets.

(** ** intersection *)

(** bytes read of a block of [x] values when it is intersected with one of [y] values: a bitmap is
    read as a whole and a list against a bitmap byte by byte; of two lists, one of at most 16 values
    is read with one load of 16 bytes, one of more than 16 values with two such loads if the other
    one has at most 16, and byte by byte otherwise *)
Definition meet_bytes (x y : Z) : Z :=
  if (31 <=? x) || (31 <=? y) then data_bytes x
  else if x <=? 16 then 16
  else if y <=? 16 then 32
  else data_bytes x.

(** [s] and [t] readable bytes after the encodings of [S] and [T] are enough to intersect them.
    Blocks of two chunks stored as blocks are read with [meet_bytes]; a chunk stored as blocks that
    meets a full one is decoded; everything else is read without leaving the encoding. *)
Definition meet_reads (S T : list Z) (s t : Z) : Prop :=
  forall b, let h := b / 256 in
    (as_blocks S h = true -> as_blocks T h = true -> 0 < card 256 S b -> 0 < card 256 T b ->
       meet_bytes (card 256 S b) (card 256 T b) <= bytes_left S b + s
       /\ meet_bytes (card 256 T b) (card 256 S b) <= bytes_left T b + t)
    /\ (card 65536 T h = 65536 -> block_reads S s b)
    /\ (card 65536 S h = 65536 -> block_reads T t b).

(** ** union *)

(** bytes read when [n] values of a list are decoded; a list of which nothing is left is read as well *)
Definition decode_bytes (n : Z) : Z := if n <=? 8 then 16 else 40.

(** the blocks [A] and [B], [A] in the role of the left one, can be united if [a] bytes are readable
    from the start of [A] on and [b] bytes from the start of [B] on: what is left of a list when the
    other one ends is decoded, of the right one even if that is nothing *)
Definition join_block_reads (A B : list Z) (a b : Z) : Prop :=
  zlen A < 31 -> zlen B < 31 ->
  let ka := zlen (above (last B 0) A) in
  let kb := zlen (above (last A 0) B) in
  (0 < ka -> zlen A - ka + decode_bytes ka <= a) /\ zlen B - kb + decode_bytes kb <= b.

(** [s] and [t] readable bytes after the encodings of [S] and [T], stored at different places, are
    enough to unite them: the cases are those of [join_fits] *)
Definition join_reads (S T : list Z) (s t : Z) : Prop :=
  forall b, let h := b / 256 in
    (card 256 T b = 0 -> card 65536 T h = 0 \/ as_blocks T h = true -> block_reads S s b)
    /\ (card 256 S b = 0 -> card 65536 S h = 0 \/ as_blocks S h = true -> block_reads T t b)
    /\ (as_blocks S h = true -> as_blocks T h = true -> 0 < card 256 S b -> 0 < card 256 T b ->
          if blocks_in S h <? blocks_in T h
          then join_block_reads (part 256 S b) (part 256 T b) (bytes_left S b + s) (bytes_left T b + t)
          else join_block_reads (part 256 T b) (part 256 S b) (bytes_left T b + t) (bytes_left S b + s)).
