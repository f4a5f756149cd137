(** How large the output buffers of the set operations must be, in terms of the lists of values
    alone. *)
From Verif Require Import Base Spec Format Room.

(** the values of [A] that are also in [B] *)
Definition meet (A B : list Z) : list Z := filter (fun v => existsb (Z.eqb v) B) A.

(** words written when a block of [n] values is decoded *)
Definition decode_words (n : Z) : Z := if n <? 31 then (if n <=? 8 then 8 else 32) else n.

(** ** intersection *)

(** [m] matches found by one comparison of 16 by 16 bytes are written 8 words at a time *)
Definition vector_words (m : Z) : Z := if m <=? 8 then 8 else 16.

(** words written when the blocks [A] and [B] are intersected *)
Definition meet_words (A B : list Z) : Z :=
  if (31 <=? zlen A) && (31 <=? zlen B) then zlen (meet A B)
  else if 31 <=? zlen A then zlen (meet (removelast B) A) + 1
  else if 31 <=? zlen B then zlen (meet (removelast A) B) + 1
  else if (zlen A <=? 16) && (zlen B <=? 16) then vector_words (zlen (meet A B))
  else if zlen A <=? 16 then
    let m := zlen (meet (firstn 16 B) A) in
    Z.max (vector_words m) (m + vector_words (zlen (meet (skipn 16 B) A)))
  else if zlen B <=? 16 then
    let m := zlen (meet (firstn 16 A) B) in
    Z.max (vector_words m) (m + vector_words (zlen (meet (skipn 16 A) B)))
  else zlen (meet A B).

(** [n] output words are enough to intersect [S] and [T].  Blocks of two chunks stored as blocks
    are intersected with [meet_words]; a chunk stored as blocks that meets a full one is decoded;
    everything else is written value by value. *)
Definition meet_fits (S T : list Z) (n : Z) : Prop :=
  zlen (meet S T) <= n
  /\ forall b, let h := b / 256 in let p := below (meet S T) (256 * b) in
       (as_blocks S h = true -> as_blocks T h = true -> 0 < card 256 S b -> 0 < card 256 T b ->
          p + meet_words (part 256 S b) (part 256 T b) <= n)
       /\ (as_blocks S h = true -> card 65536 T h = 65536 -> 0 < card 256 S b ->
             p + decode_words (card 256 S b) <= n)
       /\ (as_blocks T h = true -> card 65536 S h = 65536 -> 0 < card 256 T b ->
             p + decode_words (card 256 T b) <= n).

(** ** union *)

(** number of values of the union of [S] and [T]; of those below [x] *)
Definition join_size (S T : list Z) : Z := zlen S + zlen T - zlen (meet S T).
Definition join_below (S T : list Z) (x : Z) : Z := below S x + below T x - below (meet S T) x.

(** words written when the blocks [A] and [B] are united, [A] in the role of the left one.  Two
    listed blocks are merged value by value until one ends; what is left of the other is decoded.
    After that the rest of the right one is decoded even when it is empty, which writes 8 words. *)
Definition above (x : Z) (V : list Z) : list Z := filter (fun v => x <? v) V.
Definition join_words (A B : list Z) : Z :=
  let u := join_size A B in
  if (31 <=? zlen A) || (31 <=? zlen B) then u
  else
    let ka := zlen (above (last B 0) A) in
    let kb := zlen (above (last A 0) B) in
    if 0 <? kb then u - kb + decode_words kb
    else if 0 <? ka then Z.max (u - ka + decode_words ka) (u + 8)
    else u + 8.

(** [n] output words are enough to unite [S] and [T], stored at different places.  A chunk or
    block present in only one of them is decoded.  Two chunks stored as blocks are merged block
    by block, the one with fewer blocks being the left one.  Any other pair of chunks is written
    value by value. *)
Definition join_fits (S T : list Z) (n : Z) : Prop :=
  join_size S T <= n
  /\ forall b, let h := b / 256 in let p := join_below S T (256 * b) in
       (as_blocks S h = true -> 0 < card 256 S b -> card 256 T b = 0 ->
          card 65536 T h = 0 \/ as_blocks T h = true -> p + decode_words (card 256 S b) <= n)
       /\ (as_blocks T h = true -> 0 < card 256 T b -> card 256 S b = 0 ->
             card 65536 S h = 0 \/ as_blocks S h = true -> p + decode_words (card 256 T b) <= n)
       /\ (as_blocks S h = true -> as_blocks T h = true -> 0 < card 256 S b -> 0 < card 256 T b ->
             p + (if blocks_in S h <? blocks_in T h
                  then join_words (part 256 S b) (part 256 T b)
                  else join_words (part 256 T b) (part 256 S b)) <= n).
