(** A program calling the set operations one after the other.

    The function-local static buffers of the library keep their content between calls.
    Here they form one record, threaded through the history; each call also names the
    memory it reads, since the program may map other sequences between calls. *)
From Verif Require Import Base M_Util M_Seq M_Intersect M_Union M_Many.

Record scratch := mkScratch {
  sc_inter : list Z;    (* intersection.hpp:187, x of ds_intersect_chunk *)
  sc_block : list Z;    (* union.hpp:64, x of ds_union_block *)
  sc_union : list Z;    (* union.hpp:160, x of ds_union_chunk *)
  sc_and : list Z;      (* uncompress_chunk_and_intersect.hpp:37, tmp *)
  sc_or : list Z;       (* uncompress_chunk_and_merge.hpp:9, tmp *)
  sc_headers : list Z;  (* intersection_many.hpp:19, headers *)
  sc_ibitmap : list Z;  (* intersection_many.hpp:44, bitmap *)
  sc_ubitmap : list Z   (* union_many.hpp:15, bitmap *)
}.

(** the buffers when the program starts: all zero, with the sizes of their declarations *)
Definition scratch0 : scratch :=
  mkScratch (repeat 0 (Z.to_nat 1024)) (repeat 0 4) (repeat 0 (Z.to_nat 1024))
    (repeat 0 (Z.to_nat 1024)) (repeat 0 (Z.to_nat 1024)) (repeat 0 (Z.to_nat 65536))
    (repeat 0 (Z.to_nat 1024)) (repeat 0 (Z.to_nat 1024)).

(** the four set operations (intersection.hpp:194, union.hpp:167, intersection_many.hpp:8,
    union_many.hpp:8): memory, sequences, output buffer and index of the first output word.
    The sequences of [CInterMany] are in the order chosen by the std::sort of
    intersection_many.hpp:10. *)
Inductive call :=
| CInter (mem : list Z) (l r : s_sequence) (out : list Z) (pos : Z)
| CUnion (mem : list Z) (l r : s_sequence) (out : list Z) (pos : Z)
| CInterMany (mem : list Z) (seqs : list s_sequence) (out : list Z) (pos : Z)
| CUnionMany (mem : list Z) (seqs : list s_sequence) (out : list Z) (pos : Z).

(** one call: the buffers it leaves behind, the output buffer and the returned size *)
Definition run_call (tbl : Z -> list Z) (dbg : bool) (sc : scratch) (c : call)
  : res (scratch * (list Z * Z)) :=
  match c with
  | CInter mem l r out pos =>
      let! (x, out, n) := pairwise_intersection tbl dbg mem l r (sc_inter sc) out pos in
      Ok (mkScratch x (sc_block sc) (sc_union sc) (sc_and sc) (sc_or sc) (sc_headers sc)
            (sc_ibitmap sc) (sc_ubitmap sc), (out, n))
  | CUnion mem l r out pos =>
      let! (x, y, out, n) := pairwise_union dbg mem l r (sc_block sc) (sc_union sc) out pos in
      Ok (mkScratch (sc_inter sc) x y (sc_and sc) (sc_or sc) (sc_headers sc)
            (sc_ibitmap sc) (sc_ubitmap sc), (out, n))
  | CInterMany mem seqs out pos =>
      let! (headers, tmp, bitmap, out, n) :=
        intersection_sorted dbg mem seqs (sc_headers sc) (sc_and sc) (sc_ibitmap sc) out pos in
      Ok (mkScratch (sc_inter sc) (sc_block sc) (sc_union sc) tmp (sc_or sc) headers
            bitmap (sc_ubitmap sc), (out, n))
  | CUnionMany mem seqs out pos =>
      let! (tmp, bitmap, out, n) :=
        union_many dbg mem seqs (sc_or sc) (sc_ubitmap sc) out pos in
      Ok (mkScratch (sc_inter sc) (sc_block sc) (sc_union sc) (sc_and sc) tmp (sc_headers sc)
            (sc_ibitmap sc) bitmap, (out, n))
  end.

(** calls in sequence, collecting their results; a call that does not return ends it *)
Fixpoint run_calls (tbl : Z -> list Z) (dbg : bool) (sc : scratch) (cs : list call)
  : res (list (list Z * Z)) :=
  match cs with
  | [] => Ok []
  | c :: cs =>
      let! (sc, r) := run_call tbl dbg sc c in
      let! rs := run_calls tbl dbg sc cs in
      Ok (r :: rs)
  end.

(** ** What the theorems about histories say *)
(** the buffers have the sizes of their declarations; nothing is said about their content *)
Definition sized (sc : scratch) : Prop :=
  zlen (sc_inter sc) = 1024 /\ zlen (sc_block sc) = 4 /\ zlen (sc_union sc) = 1024
  /\ zlen (sc_and sc) = 1024 /\ zlen (sc_or sc) = 1024 /\ zlen (sc_headers sc) = 65536
  /\ zlen (sc_ibitmap sc) = 1024 /\ zlen (sc_ubitmap sc) = 1024.
(** a call as the first call of a program *)
Definition isolated (tbl : Z -> list Z) (dbg : bool) (c : call) : res (list Z * Z) :=
  let! (_, r) := run_call tbl dbg scratch0 c in Ok r.
(** outcomes one after the other, up to the first that is not a result *)
Fixpoint in_order {A} (rs : list (res A)) : res (list A) :=
  match rs with
  | [] => Ok []
  | r :: rs => let! x := r in let! xs := in_order rs in Ok (x :: xs)
  end.
