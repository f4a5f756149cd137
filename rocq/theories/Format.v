(** The byte format of an encoded sequence, written down directly from the list of
    values, without reference to the builder.  The property theorems of Prop_Format.v
    say that the builder writes exactly these bytes.  Nothing here is used by the model. *)
From Verif Require Import Base Spec.

(** identifiers, in increasing order, of the parts of size [k] among the first [n] that
    contain a value of [S]; the values of part [h], relative to its start *)
Definition ids (k : Z) (n : nat) (S : list Z) : list Z :=
  filter (fun h => existsb (fun v => v / k =? h) S) (zrange 0 n).
Definition part (k : Z) (S : list Z) (h : Z) : list Z :=
  map (fun v => v mod k) (filter (fun v => v / k =? h) S).

(** bit i of byte j of a bitmap says whether 8 j + i is present *)
Definition bitmap_byte (V : list Z) (j : Z) : Z :=
  total (fun i => if existsb (Z.eqb (8 * j + i)) V then 2 ^ i else 0) (zrange 0 8).
Definition bitmap_bytes (n : nat) (V : list Z) : list Z := map (bitmap_byte V) (zrange 0 n).

(** a block of 256 possible values: fewer than 31 are listed, otherwise a bitmap *)
Definition f_block (V : list Z) : list Z := if zlen V <? 31 then V else bitmap_bytes 32 V.

(** a chunk stored as blocks: identifier and cardinality of every block, then their data *)
Definition f_blocks (C : list Z) : list Z :=
  flat_map (fun b => [b; zlen (part 256 C b) - 1]) (ids 256 256 C)
  ++ flat_map (fun b => f_block (part 256 C b)) (ids 256 256 C).

(** type and data of a chunk of 65536 possible values *)
Definition f_chunk (C : list Z) : Z * list Z :=
  if zlen C =? 65536 then (2, [])
  else if (32768 <=? zlen C) || (8192 <=? zlen (f_blocks C))
  then (3, bitmap_bytes (Z.to_nat 8192) C)
  else (1 + 256 * (zlen (ids 256 256 C) - 1), f_blocks C).

(** little-endian integers *)
Definition le16 (v : Z) : list Z := [v mod 256; v / 256].
Definition le32 (v : Z) : list Z := [v mod 256; v / 256 mod 256; v / 65536 mod 256; v / 16777216].

(** a sequence: number of chunks, skip pointers (number of values and of data bytes in each
    complete run of 32 chunks), chunk headers, chunk data *)
Definition f_sequence (S : list Z) : list Z :=
  let chunks := ids 65536 (Z.to_nat 65536) S in
  let C := part 65536 S in
  le16 (zlen chunks - 1)
  ++ flat_map (fun g => let run := firstn 32 (skipn (Z.to_nat (32 * g)) chunks) in
       le32 (total (fun h => zlen (C h)) run) ++ le32 (total (fun h => zlen (snd (f_chunk (C h)))) run))
       (zrange 0 (Z.to_nat (zlen chunks / 32)))
  ++ flat_map (fun h => le16 h ++ le16 (zlen (C h) - 1) ++ le16 (fst (f_chunk (C h)))
                        ++ le16 (zlen (snd (f_chunk (C h))))) chunks
  ++ flat_map (fun h => snd (f_chunk (C h))) chunks.

(** ** Sizes, from the cardinalities alone *)
(** number of values of [S] in the part of size [k] with identifier [h] *)
Definition card (k : Z) (S : list Z) (h : Z) : Z := zlen (filter (fun v => v / k =? h) S).
Definition block_cost (n : Z) : Z := if n =? 0 then 0 else if n <? 31 then 2 + n else 34.
(** the 256 blocks of chunk [h] *)
Definition blocks_cost (S : list Z) (h : Z) : Z :=
  total (fun b => block_cost (card 256 S (256 * h + b))) (zrange 0 256).
Definition chunk_cost (S : list Z) (h : Z) : Z :=
  if card 65536 S h =? 65536 then 0
  else if card 65536 S h <? 32768 then Z.min (blocks_cost S h) 8192 else 8192.

(** ** The index file *)
Definition le64 (v : Z) : list Z := map (fun k => v / 256 ^ k mod 256) (zrange 0 8).

(** where each sequence starts, counted from the first one *)
Fixpoint f_offsets (at_ : Z) (Ks : list (list Z)) : list Z :=
  match Ks with
  | [] => []
  | L :: Ks => at_ :: f_offsets (at_ + zlen (f_sequence L)) Ks
  end.

(** number of 64-bit words that follow, universe, offsets; number of bytes that follow,
    the sequences one after the other *)
Definition f_index (universe : Z) (Ks : list (list Z)) : list Z :=
  le64 (1 + zlen Ks) ++ flat_map le64 (universe :: f_offsets 0 Ks)
  ++ le64 (zlen (flat_map f_sequence Ks)) ++ flat_map f_sequence Ks.

(** a single saved sequence *)
Definition f_sequence_file (S : list Z) : list Z := le64 (zlen (f_sequence S)) ++ f_sequence S.

(** ** Chunks stored as blocks *)
(** number of non-empty blocks of chunk [h] *)
Definition blocks_in (S : list Z) (h : Z) : Z :=
  zlen (filter (fun b => negb (card 256 S (256 * h + b) =? 0)) (zrange 0 256)).
(** chunk [h] of [S] is stored as [i] blocks *)
Definition sparse_with (i : Z) (S : list Z) (h : Z) : bool :=
  (0 <? card 65536 S h) && (card 65536 S h <? 32768) && (blocks_cost S h <? 8192)
  && (blocks_in S h =? i).
(** all such chunks of a collection, each with its sequence *)
Definition sparse_chunks (i : Z) (Ks : list (list Z)) : list (list Z * Z) :=
  flat_map (fun L => map (pair L) (filter (sparse_with i L) (zrange 0 (Z.to_nat 65536)))) Ks.

(** ** The representation of a chunk *)
(** chunk [h] of [S] is stored as blocks; as a bitmap *)
Definition as_blocks (S : list Z) (h : Z) : bool :=
  (0 <? card 65536 S h) && (card 65536 S h <? 32768) && (blocks_cost S h <? 8192).
Definition as_bitmap (S : list Z) (h : Z) : bool :=
  (0 <? card 65536 S h) && (card 65536 S h <? 65536) && negb (as_blocks S h).
(** no chunk is stored as blocks in one sequence and as a bitmap in the other *)
Definition unmixed (S T : list Z) : Prop :=
  forall h, as_blocks S h && as_bitmap T h = false /\ as_bitmap S h && as_blocks T h = false.
