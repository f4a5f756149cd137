(** Model of include/intersection_many.hpp and include/union_many.hpp. *)
From Verif Require Import Base Hw M_Util M_Seq M_Decode M_Uncompress.
From Coq Require Import Sorted Permutation.

(** intersection_many.hpp:10-13: the possible results of the std::sort by cardinality();
    the order of sequences of equal cardinality is unspecified *)
Definition sort_outcome (mem : list Z) (seqs seqs' : list s_sequence) : Prop :=
  Permutation seqs seqs'
  /\ exists cs, Forall2 (fun s c => cardinality mem s = Ok c) seqs' cs /\ StronglySorted Z.le cs.

(** vector access and update for vectors of iterators *)
Definition iget (its : list iterator) (i : Z) : res iterator :=
  match znth its i with
  | Some it => Ok it
  | None => UB
  end.
Definition iset (its : list iterator) (i : Z) (it : iterator) : list iterator :=
  firstn (Z.to_nat i) its ++ [it] ++ skipn (Z.to_nat (i + 1)) its.

(** intersection_many.hpp:25-33: the for loop; [n] = iterators left.
    Returns (iterators, candidate, i). *)
Fixpoint candidate_for (n : nat) (mem : list Z) (its : list iterator) (candidate i : Z)
  : res (list iterator * Z * Z) :=
  match n with
  | O => Ok (its, candidate, i)
  | S n' =>
      let! it := iget its i in
      let! it := skip_to_value mem it candidate in
      let its := iset its i it in
      let! val := it_id mem it in
      if negb (val =? candidate) then Ok (its, val, 0)
      else candidate_for n' mem its candidate (i + 1)
  end.

(** intersection_many.hpp:24-40: the while loop; returns (headers, num_headers) *)
Fixpoint candidate_loop (fuel : nat) (mem : list Z) (its : list iterator)
    (candidate i : Z) (headers : list Z) (num_headers : Z) : res (list Z * Z) :=
  if candidate <? 65536 then
    match fuel with
    | O => Fuel
    | S f =>
        let! (its, candidate, i) :=
          candidate_for (Z.to_nat (zlen its - i)) mem its candidate i in
        if i =? zlen its then
          let! headers := vset headers num_headers (u16 candidate) in
          let! it0 := iget its 0 in
          let! it0 := it_next mem it0 in
          let its := iset its 0 it0 in
          let! candidate := it_id mem it0 in
          candidate_loop f mem its candidate 1 headers (num_headers + 1)
        else candidate_loop f mem its candidate i headers num_headers
    end
  else Ok (headers, num_headers).

(** intersection_many.hpp:61-67: the loop over iterators 1, 2, ...; [its] are the
    iterators from index i on.  Returns (iterators, tmp, bitmap, cardinality, skip). *)
Fixpoint and_rest (dbg : bool) (mem : list Z) (its : list iterator) (header : Z)
    (tmp bitmap : list Z) (cardinality : Z)
  : res (list iterator * list Z * list Z * Z * bool) :=
  match its with
  | [] => Ok ([], tmp, bitmap, cardinality, false)
  | it :: its' =>
      let! it := it_advance mem it header in
      let! id := it_id mem it in
      let! _ := assert_ dbg (id =? header) in
      let! (tmp, bitmap, cardinality) :=
        uncompress_chunk_and_intersect dbg mem it tmp bitmap cardinality in
      if cardinality =? 0 then Ok (it :: its', tmp, bitmap, cardinality, true)
      else
        let! (its', tmp, bitmap, cardinality, skip) :=
          and_rest dbg mem its' header tmp bitmap cardinality in
        Ok (it :: its', tmp, bitmap, cardinality, skip)
  end.

(** intersection_many.hpp:48-70; [n] headers left from index i.
    Returns (tmp, bitmap, out, pos). *)
Fixpoint intersect_headers (n : nat) (dbg : bool) (mem : list Z) (its : list iterator)
    (headers : list Z) (i : Z) (tmp bitmap out : list Z) (pos : Z)
  : res (list Z * list Z * list Z * Z) :=
  match n with
  | O => Ok (tmp, bitmap, out, pos)
  | S n' =>
      let! header := vget headers i in
      let base := u32 (Z.shiftl header 16) in
      match its with
      | [] => UB
      | it0 :: its' =>
          let! it0 := it_advance mem it0 header in
          let! id := it_id mem it0 in
          let! _ := assert_ dbg (id =? header) in
          let! (bitmap, cardinality) := uncompress_chunk dbg mem it0 bitmap 0 in
          let! (its', tmp, bitmap, cardinality, skip) :=
            and_rest dbg mem its' header tmp bitmap (u32 cardinality) in
          if skip : bool then
            intersect_headers n' dbg mem (it0 :: its') headers (i + 1) tmp bitmap out pos
          else
            let! (out, k) := decode_bitmap (words_vec bitmap) 1024 base out pos in
            intersect_headers n' dbg mem (it0 :: its') headers (i + 1) tmp bitmap out (pos + k)
      end
  end.

(** loop bound for candidate_loop: of two consecutive iterations at least one moves the
    first iterator (at most 65536 chunks); see P_Total.candidate_loop_ends *)
Definition candidate_fuel (seqs : list s_sequence) : nat :=
  Z.to_nat (2 * 65536 + 3).

(** intersection_many.hpp:14-73: everything after the std::sort of line 10.
    [headers], [bitmap], [tmp]: static vectors.  Returns
    (headers, tmp, bitmap, out, size). *)
Definition intersection_sorted (dbg : bool) (mem : list Z) (seqs : list s_sequence)
    (headers tmp bitmap out : list Z) (pos : Z)
  : res (list Z * list Z * list Z * list Z * Z) :=
  let its := map seq_begin seqs in
  let! it0 := iget its 0 in
  let! candidate := it_id mem it0 in
  let! (headers, num_headers) :=
    candidate_loop (candidate_fuel seqs) mem its candidate 1 headers 0 in
  let its := map seq_begin seqs in
  let! (tmp, bitmap, out, e) :=
    intersect_headers (Z.to_nat num_headers) dbg mem its headers 0 tmp bitmap out pos in
  Ok (headers, tmp, bitmap, out, e - pos).

(** ** include/union_many.hpp *)

(** std::min_element(...)->id() of lines 16-20: the least id; UB when empty *)
Fixpoint min_id_loop (mem : list Z) (its : list iterator) (m : Z) : res Z :=
  match its with
  | [] => Ok m
  | it :: its' =>
      let! id := it_id mem it in
      min_id_loop mem its' (if id <? m then id else m)
  end.
Definition min_id (mem : list Z) (its : list iterator) : res Z :=
  match its with
  | [] => UB
  | it :: its' => let! id := it_id mem it in min_id_loop mem its' id
  end.

(** union_many.hpp:24-33; returns (tmp, bitmap) *)
Fixpoint merge_all (dbg : bool) (mem : list Z) (its : list iterator) (header : Z)
    (first : bool) (tmp bitmap : list Z) : res (list Z * list Z) :=
  match its with
  | [] => Ok (tmp, bitmap)
  | it :: its' =>
      let! id := it_id mem it in
      if id =? header then
        if first then
          let! (bitmap, _) := uncompress_chunk dbg mem it bitmap 0 in
          merge_all dbg mem its' header false tmp bitmap
        else
          let! (tmp, bitmap) := uncompress_chunk_and_merge dbg mem it tmp bitmap in
          merge_all dbg mem its' header false tmp bitmap
      else merge_all dbg mem its' header first tmp bitmap
  end.

(** union_many.hpp:37-40; returns (iterators, next) *)
Fixpoint next_headers (mem : list Z) (its : list iterator) (header next : Z)
  : res (list iterator * Z) :=
  match its with
  | [] => Ok ([], next)
  | it :: its' =>
      let! id := it_id mem it in
      let! it := (if id =? header then it_next mem it else Ok it) in
      let! id := it_id mem it in
      let! (its', next) := next_headers mem its' header (if id <? next then id else next) in
      Ok (it :: its', next)
  end.

(** union_many.hpp:22-42; returns (tmp, bitmap, out, pos) *)
Fixpoint union_loop (fuel : nat) (dbg : bool) (mem : list Z) (its : list iterator)
    (header : Z) (tmp bitmap out : list Z) (pos : Z)
  : res (list Z * list Z * list Z * Z) :=
  if header <? 65536 then
    match fuel with
    | O => Fuel
    | S f =>
        let base := u32 (Z.shiftl header 16) in
        let! (tmp, bitmap) := merge_all dbg mem its header true tmp bitmap in
        let! (out, k) := decode_bitmap (words_vec bitmap) 1024 base out pos in
        let! (its, next) := next_headers mem its header 65536 in
        union_loop f dbg mem its next tmp bitmap out (pos + k)
    end
  else Ok (tmp, bitmap, out, pos).

(** loop bound for union_loop: every iteration moves an iterator (and, when the chunk
    ids increase, increases the header) *)
Definition union_fuel (its : list iterator) : nat :=
  (Z.to_nat (65536 + 1) + fold_right (fun it n => it_fuel it + n) O its)%nat.

(** union_many.hpp:8-45; [tmp], [bitmap]: static vectors;
    returns (tmp, bitmap, out, size) *)
Definition union_many (dbg : bool) (mem : list Z) (seqs : list s_sequence)
    (tmp bitmap out : list Z) (pos : Z) : res (list Z * list Z * list Z * Z) :=
  let its := map seq_begin seqs in
  let! header := min_id mem its in
  let! (tmp, bitmap, out, e) :=
    union_loop (union_fuel its) dbg mem its header tmp bitmap out pos in
  Ok (tmp, bitmap, out, e - pos).
