(** Model of include/constants.hpp and include/util.hpp (except printing). *)
From Verif Require Import Base Hw.
From Coq Require Import Floats.SpecFloat.

(** ** include/constants.hpp:7-18 *)
Definition chunk_size : Z := 65536.
Definition block_size : Z := 256.
Definition chunk_size_in_64bit_words : Z := chunk_size / 64.
Definition block_size_in_64bit_words : Z := block_size / 64.
Definition chunk_sparseness_threshold : Z := chunk_size / 2.
Definition block_sparseness_threshold : Z := block_size / 8.
Definition associativity : Z := 32.
Definition not_found : Z := u32 (-1).

(** ** include/util.hpp:64  enum type { empty = 0, sparse = 1, dense = 3, full = 2 } *)
Definition t_sparse : Z := 1.
Definition t_dense : Z := 3.
Definition t_full : Z := 2.

(** include/util.hpp:9-10 *)
Definition chunk_pair (l r : Z) : Z := 3 * l + r.
Definition block_pair (l r : Z) : Z := 2 * l + r.

(** include/util.hpp:12 (and the inlined copies of the same test, e.g.
    decode.hpp:67-72): bytes taken by a block of cardinality c *)
Definition bytes_by_cardinality (c : Z) : Z := if c <? 31 then c else 32.
Definition block_type (c : Z) : Z := if c <? 31 then t_sparse else t_dense.

(** A [uint64_t const*] bitmap is modelled by its read function
    [index -> res word]: through memory, or into a (static) vector. *)
Definition words_mem (mem : list Z) (a : Z) : Z -> res Z :=
  fun i => rd64 mem (a + 8 * i).
Definition words_vec (v : list Z) : Z -> res Z := fun i => vget v i.

(** The inner loop shared by util.hpp:22-27 (OPERATE_BITMAPS) and
    decode.hpp:15-20 (decode_bitmap):
      while (w != 0) { t = w & (~w + 1); r = ctz(w); out[size++] = r + base; w ^= t; }
    [buf] is the buffer [out] points into, [pos] the index of out[0]. *)
Fixpoint word_loop (fuel : nat) (w base : Z) (buf : list Z) (pos size : Z)
  : res (list Z * Z) :=
  if w =? 0 then Ok (buf, size)
  else match fuel with
  | O => Fuel
  | S f =>
      let t := Z.land w (u64 (u64 (Z.lnot w) + 1)) in
      let r := ctzll w in
      let! buf := vset buf (pos + size) (u32 (r + base)) in
      word_loop f (Z.lxor w t) base buf pos (size + 1)
  end.

(** The outer loop over [n] words, [i] the current index *)
Fixpoint bitmap_loop (n : nat) (word : Z -> res Z) (i base : Z) (buf : list Z)
    (pos size : Z) : res (list Z * Z) :=
  match n with
  | O => Ok (buf, size)
  | S n' =>
      let! w := word i in
      let! (buf, size) := word_loop 64 w base buf pos size in
      bitmap_loop n' word (i + 1) (u32 (base + 64)) buf pos size
  end.

(** include/util.hpp:32-34 and_bitmaps: returns (buffer, size) *)
Definition and_bitmaps (l r : Z -> res Z) (size_in_64bit_words base : Z)
    (out : list Z) (pos : Z) : res (list Z * Z) :=
  bitmap_loop (Z.to_nat size_in_64bit_words)
    (fun i => let! a := l i in let! b := r i in Ok (Z.land a b)) 0 base out pos 0.

(** include/util.hpp:36-39 or_bitmaps *)
Definition or_bitmaps (l r : Z -> res Z) (size_in_64bit_words base : Z)
    (out : list Z) (pos : Z) : res (list Z * Z) :=
  bitmap_loop (Z.to_nat size_in_64bit_words)
    (fun i => let! a := l i in let! b := r i in Ok (Z.lor a b)) 0 base out pos 0.

(** include/util.hpp:41-54 bitmap_contains (bt / sbb) *)
Definition bitmap_contains (bitmap : Z -> res Z) (pos : Z) : res bool :=
  let! w := bitmap (Z.shiftr pos 6) in Ok (bt w pos).

(** include/util.hpp:56-58 *)
Definition bytes_for (bits : Z) : Z := (bits + 8 - 1) / 8.

(** include/util.hpp:60-62; the parameter is uint64_t, so u + 65536 does not wrap *)
Definition num_chunks (universe : Z) : Z := u32 ((universe + chunk_size) / chunk_size).

(** ** include/util.hpp:66-82 parameters and pass.
    Doubles are Coq's executable specification of IEEE 754 binary64
    (Coq.Floats.SpecFloat, round to nearest even). *)
Record parameters := mkParams {
  p_density : spec_float;
  p_size : Z
}.

(** conversion of a uint32_t to double (exact: 32 < 53 bits) *)
Definition double_of_u32 (n : Z) : spec_float := binary_normalize 53 1024 n 0 false.

Definition double_zero : spec_float := S754_zero false.

(** util.hpp:67-70: defaults density -1.0, size 0 *)
Definition default_params : parameters :=
  mkParams (binary_normalize 53 1024 (-1) 0 false) 0.

Definition pass (params : parameters) (n universe : Z) : bool :=
  if SFleb double_zero (p_density params)
     && SFltb (p_density params)
          (SFdiv 53 1024 (double_of_u32 n) (double_of_u32 universe))
  then true
  else if p_size params <? n then true
  else false.

(** ** include/util.hpp:96-149 statistics.
    The record of counters is a function from field names to values; array
    fields carry their index.  Counters are uint64_t and counted without wrap
    (they are bounded by the number of bits of the input). *)
Inductive field :=
| F_sequences
| F_integers
| F_integers_in_sparse_chunks
| F_integers_in_dense_chunks
| F_integers_in_full_chunks
| F_integers_in_sparse_blocks
| F_integers_in_dense_blocks
| F_chunks
| F_empty_chunks
| F_sparse_chunks
| F_dense_chunks
| F_full_chunks
| F_blocks
| F_empty_blocks
| F_sparse_blocks
| F_dense_blocks
| F_bits
| F_chunks_header_bits
| F_blocks_header_bits
| F_dense_chunks_bits
| F_dense_blocks_bits
| F_sparse_blocks_bits
| F_sparse_blocks_cardinalities (i : Z)
| F_num_blocks_in_chunks (i : Z)
| F_num_integers (i : Z).

Definition field_eq_dec (a b : field) : {a = b} + {a <> b}.
Proof. decide equality; apply Z.eq_dec. Defined.

Definition statistics := field -> Z.

(** util.hpp:97-99: memset to 0 *)
Definition stats0 : statistics := fun _ => 0.

(** st.f = x *)
Definition sset (f : field) (x : Z) (st : statistics) : statistics :=
  fun g => if field_eq_dec g f then x else st g.

(** st.f += x *)
Definition sadd (f : field) (x : Z) (st : statistics) : statistics :=
  sset f (st f + x) st.

(** util.hpp:145-148: the loop over i = 1 .. 30 of accumulate *)
Fixpoint accumulate_hist (n : nat) (i : Z) (other st : statistics) : statistics :=
  match n with
  | O => st
  | S n' =>
      accumulate_hist n' (i + 1) other
        (sadd (F_sparse_blocks_cardinalities i)
              (other (F_sparse_blocks_cardinalities i)) st)
  end.

(** util.hpp:136-149 *)
Definition accumulate (other st : statistics) : statistics :=
  let st := sadd F_dense_blocks (other F_dense_blocks) st in
  let st := sadd F_sparse_blocks (other F_sparse_blocks) st in
  let st := sadd F_empty_blocks (other F_empty_blocks) st in
  let st := sadd F_integers_in_dense_blocks (other F_integers_in_dense_blocks) st in
  let st := sadd F_integers_in_sparse_blocks (other F_integers_in_sparse_blocks) st in
  let st := sadd F_dense_blocks_bits (other F_dense_blocks_bits) st in
  let st := sadd F_sparse_blocks_bits (other F_sparse_blocks_bits) st in
  accumulate_hist 30 1 other st.
