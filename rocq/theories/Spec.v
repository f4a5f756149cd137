(** Specification vocabulary of the property theorems.  It mentions the model
    only to say "these bytes are what the builder produced" and "this table is
    the shuffle table"; everything else is lists of integers. *)
From Verif Require Import Base Hw M_Util M_Build.
From Coq Require Import Sorted Floats.SpecFloat.

(** a list the library can store: non-empty, strictly increasing, values below
    2^32 - 2^16 *)
Definition valid (S : list Z) : Prop :=
  S <> [] /\ StronglySorted Z.lt S /\ Forall (fun v => 0 <= v < 4294901760) S.

(** a 32-bit unsigned integer *)
Definition is_u32 (v : Z) : Prop := 0 <= v < 4294967296.

(** the bytes [bs] are in memory at address [a] *)
Definition bytes_at (mem : list Z) (a : Z) (bs : list Z) : Prop :=
  forall i, 0 <= i < zlen bs -> znth mem (a + i) = znth bs i.

(** [enc] is what a fresh s_sequence::builder holds after build(S) *)
Definition encoding (dbg : bool) (S enc : list Z) : Prop :=
  exists stats, builder_build dbg [] S = (Ok stats, enc).

(** memory holds an encoding of [S] at address [a], and at least [slack] more
    readable bytes follow it *)
Definition stored (slack : Z) (mem : list Z) (a : Z) (S : list Z) : Prop :=
  exists dbg enc, encoding dbg S enc /\ bytes_at mem a enc
                  /\ a + zlen enc + slack <= zlen mem.

(** [e] enumerates the set [P] in increasing order *)
Definition enumerates (P : Z -> Prop) (e : list Z) : Prop :=
  StronglySorted Z.lt e /\ forall x, In x e <-> P x.

(** buffer [buf'] is [buf] with [e] stored at index [pos]; of the other entries only
    the [slack] following ones may have changed *)
Definition wrote (slack : Z) (buf : list Z) (pos : Z) (e : list Z) (buf' : list Z) : Prop :=
  zlen buf' = zlen buf
  /\ (forall i, 0 <= i < zlen e -> znth buf' (pos + i) = znth e i)
  /\ (forall i, i < pos \/ pos + zlen e + slack <= i -> znth buf' i = znth buf i).

(** least element >= v, or 2^32 - 1 *)
Fixpoint spec_next_geq (S : list Z) (v : Z) : Z :=
  match S with
  | [] => 4294967295
  | x :: S' => if v <=? x then x else spec_next_geq S' v
  end.

(** position i, i+1, ..., i+n-1 *)
Fixpoint zrange (i : Z) (n : nat) : list Z :=
  match n with
  | O => []
  | S n' => i :: zrange (i + 1) n'
  end.

(** the table shuffle_mask of table.hpp: for every 16-bit mask m a 16-byte
    control vector whose first popcount(m) entries are the positions of the set
    bits of m in increasing order (the other entries are arbitrary) *)
Definition shuffle_table_ok (tbl : Z -> list Z) : Prop :=
  forall m, 0 <= m < 65536 ->
    let bits := filter (Z.testbit m) (zrange 0 16) in
    zlen (tbl m) = 16 /\ firstn (length bits) (tbl m) = bits.

(** the sequences stored at [a] and [b] are the same one, or occupy disjoint bytes *)
Definition apart (a : Z) (S : list Z) (b : Z) (T : list Z) : Prop :=
  a = b
  \/ exists dbg encS encT, encoding dbg S encS /\ encoding dbg T encT
       /\ (a + zlen encS <= b \/ b + zlen encT <= a).

(** every query but the first stays within 31 chunk ids of the previous answer *)
Fixpoint gentle (S : list Z) (prev : Z) (qs : list Z) : Prop :=
  match qs with
  | [] => True
  | q :: qs => q / 65536 < prev / 65536 + 32 /\ gentle S (spec_next_geq S q) qs
  end.
Fixpoint non_decreasing (prev : Z) (qs : list Z) : Prop :=
  match qs with
  | [] => True
  | q :: qs => prev <= q /\ non_decreasing q qs
  end.

(** contents of a collection file: 32-bit words, first a singleton list holding the universe *)
Definition collection (universe : Z) (Ls : list (list Z)) : list Z :=
  1 :: universe :: flat_map (fun L => zlen L :: L) Ls.

(** a list whose length plus one is below 2^32; every list a collection can hold, a length being one
    word, except one of exactly 2^32 - 1 values (see C37 for that one) *)
Definition short (L : list Z) : Prop := zlen L < 4294967295.

(** sum over a list *)
Definition total {A} (f : A -> Z) (l : list A) : Z := fold_right (fun x s => f x + s) 0 l.

(** values of [S] in chunk [h] *)
Definition in_ch (S : list Z) (h : Z) : list Z := filter (fun v => v / 65536 =? h) S.

(** a count over all chunk ids of a property of the values in the chunk *)
Definition count_ch (P : Z -> bool) (S : list Z) : Z :=
  zlen (filter (fun h => P (zlen (in_ch S h))) (zrange 0 (Z.to_nat (last S 0 / 65536 + 1)))).

(** equations between the counters of [statistics] *)
Record accounts (d : field -> Z) : Prop := {
  acc_ints : d F_integers_in_sparse_chunks + d F_integers_in_dense_chunks + d F_integers_in_full_chunks
             = d F_integers;
  acc_full : d F_integers_in_full_chunks = 65536 * d F_full_chunks;
  acc_bints : d F_integers_in_sparse_blocks + d F_integers_in_dense_blocks = d F_integers_in_sparse_chunks;
  acc_blocks : d F_sparse_blocks + d F_dense_blocks + d F_empty_blocks = d F_blocks;
  acc_hist : total (fun i => d (F_sparse_blocks_cardinalities i)) (zrange 1 30) = d F_sparse_blocks;
  acc_hist_ints : total (fun i => i * d (F_sparse_blocks_cardinalities i)) (zrange 1 30)
                  = d F_integers_in_sparse_blocks;
  acc_nb : total (fun i => d (F_num_blocks_in_chunks i)) (zrange 1 256) = d F_sparse_chunks;
  acc_nb_blocks : total (fun i => i * d (F_num_blocks_in_chunks i)) (zrange 1 256)
                  = d F_sparse_blocks + d F_dense_blocks;
  acc_ni : total (fun i => d (F_num_integers i)) (zrange 1 256) = d F_integers_in_sparse_chunks;
  acc_dcb : d F_dense_chunks_bits = 65536 * d F_dense_chunks;
  acc_dbb : d F_dense_blocks_bits = 256 * d F_dense_blocks;
  acc_sbb : d F_sparse_blocks_bits = 8 * (d F_integers_in_sparse_blocks + d F_sparse_blocks)
}.

(** what the statistics of a build of [Ls] say *)
Definition describes (st : statistics) (Ls : list (list Z)) : Prop :=
  st F_sequences = zlen Ls
  /\ st F_integers = total zlen Ls
  /\ st F_chunks = total (fun S => last S 0 / 65536 + 1) Ls
  /\ st F_empty_chunks = total (count_ch (fun n => n =? 0)) Ls
  /\ st F_full_chunks = total (count_ch (fun n => n =? 65536)) Ls
  /\ st F_sparse_chunks + st F_dense_chunks + st F_full_chunks + st F_empty_chunks = st F_chunks
  /\ accounts st.

(** ** Doubles, for the collection filter.  Non-negative finite doubles are the integers
    m * 2^e with m < 2^53 and 0 <= e <= 2045, in units of 2^-1074. *)
Definition is_double (Q : Z) : Prop := exists m e, 0 <= m < 2 ^ 53 /\ 0 <= e <= 2045 /\ Q = m * 2 ^ e.

(** [Q] is the double closest to n / u, and closer than any other (there are no ties) *)
Definition nearest (n u Q : Z) : Prop :=
  is_double Q
  /\ forall Q', is_double Q' -> Q' <> Q -> Z.abs (Q * u - n * 2 ^ 1074) < Z.abs (Q' * u - n * 2 ^ 1074).

(** the value, in units of 2^-1074, of a finite double >= 0 (and of -0.0) *)
Definition dval (x : spec_float) : option Z :=
  match x with
  | S754_zero _ => Some 0
  | S754_finite false m e => Some (Zpos m * 2 ^ (e + 1074))
  | _ => None
  end.

(** the call returned normally, with the count [zlen l], and left [l] in its output
    buffer from index [pos] on *)
Definition gives (pos : Z) (r : res (list Z * Z)) (l : list Z) : Prop :=
  exists buf, r = Ok (buf, zlen l) /\ forall i, 0 <= i < zlen l -> znth buf (pos + i) = znth l i.

(** a build with assertions ([debug]) stops at a failed assertion, or does exactly what one
    without does *)
Definition refines {A} (debug release : res A) : Prop := debug = Abort \/ debug = release.
(** no assertion fails, and both builds return the same *)
Definition same_in_both {A} (f : bool -> res A) : Prop := exists r, f true = Ok r /\ f false = Ok r.
