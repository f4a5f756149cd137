(** Model of include/s_sequence.hpp. *)
From Verif Require Import Base Hw M_Util.

(** s_sequence.hpp:165-170: members; m_pointers, m_header, m_data are byte addresses.
    (The default constructor, lines 10-14, is only used before assignment.) *)
Record s_sequence := mkSeq {
  s_chunks : Z;
  s_pointers : Z;
  s_header : Z;
  s_data : Z
}.

(** s_sequence.hpp:16-25; unaligned 16/32-bit reads are allowed (x86) *)
Definition seq_at (mem : list Z) (addr : Z) : res s_sequence :=
  let! h := rd16 mem addr in
  let chunks := 1 + h in
  let ptr := addr + 2 in
  let pointers_bytes := chunks / associativity * 4 * 2 in
  let header_bytes := chunks * 4 * 2 in
  Ok (mkSeq chunks ptr (ptr + 2 * (pointers_bytes / 2))
            (addr + 2 + pointers_bytes + header_bytes)).

(** s_sequence.hpp:45-53: loop and function *)
Fixpoint cardinality_loop (n : nat) (mem : list Z) (h c : Z) : res Z :=
  match n with
  | O => Ok c
  | S n' =>
      let! x := rd16 mem (h + 2 * 1) in
      cardinality_loop n' mem (h + 2 * 4) (u32 (c + (x + 1)))
  end.
Definition cardinality (mem : list Z) (s : s_sequence) : res Z :=
  cardinality_loop (Z.to_nat (s_chunks s)) mem (s_header s) 0.

(** s_sequence.hpp:55-57 *)
Definition seq_size (mem : list Z) (s : s_sequence) : res Z := cardinality mem s.

(** s_sequence.hpp:145-149: iterator members; pointers, header, data are byte addresses *)
Record iterator := mkIt {
  i_pointers : Z;
  i_header : Z;
  i_data : Z;
  i_begin : Z;
  i_end : Z
}.

(** s_sequence.hpp:67-72, 161-163 *)
Definition seq_begin (s : s_sequence) : iterator :=
  mkIt (s_pointers s) (s_header s) (s_data s) 0 (s_chunks s).

(** s_sequence.hpp:105-107 *)
Definition it_has_next (it : iterator) : bool := i_begin it <? i_end it.

(** s_sequence.hpp:74-77 *)
Definition it_id (mem : list Z) (it : iterator) : res Z :=
  if it_has_next it then rd16 mem (i_header it) else Ok 65536.

(** s_sequence.hpp:79-81 *)
Definition it_base (mem : list Z) (it : iterator) : res Z :=
  let! id := it_id mem it in Ok (u32 (Z.shiftl id 16)).

(** s_sequence.hpp:83-85 *)
Definition it_cardinality (mem : list Z) (it : iterator) : res Z :=
  let! c := rd16 mem (i_header it + 2 * 1) in Ok (c + 1).

(** s_sequence.hpp:87-89 *)
Definition it_type (mem : list Z) (it : iterator) : res Z :=
  let! t := rd16 mem (i_header it + 2 * 2) in Ok (Z.land t 255).

(** s_sequence.hpp:91-93 *)
Definition it_blocks (mem : list Z) (it : iterator) : res Z :=
  let! t := rd16 mem (i_header it + 2 * 2) in Ok (Z.shiftr t 8 + 1).

(** s_sequence.hpp:95-97 *)
Definition it_offset (mem : list Z) (it : iterator) : res Z :=
  rd16 mem (i_header it + 2 * 3).

(** s_sequence.hpp:99-103 *)
Definition it_next (mem : list Z) (it : iterator) : res iterator :=
  let! o := it_offset mem it in
  Ok (mkIt (i_pointers it) (i_header it + 2 * 4) (i_data it + o)
           (u32 (i_begin it + 1)) (i_end it)).

(** s_sequence.hpp:109-111; at most end - begin iterations *)
Fixpoint advance_loop (fuel : nat) (mem : list Z) (it : iterator) (lower_bound : Z)
  : res iterator :=
  let! id := it_id mem it in
  if (id <? lower_bound) && it_has_next it then
    match fuel with
    | O => Fuel
    | S f => let! it := it_next mem it in advance_loop f mem it lower_bound
    end
  else Ok it.
Definition it_fuel (it : iterator) : nat := S (Z.to_nat (i_end it - i_begin it)).
Definition it_advance (mem : list Z) (it : iterator) (lower_bound : Z) : res iterator :=
  advance_loop (it_fuel it) mem it lower_bound.

(** s_sequence.hpp:152-158 *)
Definition skip_position (it : iterator) : Z := u32 (i_begin it + associativity).
Definition skip_header (it : iterator) : Z := i_header it + 2 * (4 * associativity).

(** one skip: lines 115-118 = 129-132 *)
Definition it_skip (mem : list Z) (it : iterator) : res iterator :=
  let! o := rd32 mem (i_pointers it + 4 * 1) in
  Ok (mkIt (i_pointers it + 4 * 2) (skip_header it) (i_data it + o)
           (skip_position it) (i_end it)).

(** s_sequence.hpp:114-119 *)
Fixpoint skip_to_value_loop (fuel : nat) (mem : list Z) (it : iterator) (lower_bound : Z)
  : res iterator :=
  if skip_position it <? i_end it then
    let! h := rd16 mem (skip_header it) in
    if h <=? lower_bound then
      match fuel with
      | O => Fuel
      | S f => let! it := it_skip mem it in skip_to_value_loop f mem it lower_bound
      end
    else Ok it
  else Ok it.

(** s_sequence.hpp:113-121 *)
Definition skip_to_value (mem : list Z) (it : iterator) (lower_bound : Z) : res iterator :=
  let! it := skip_to_value_loop (it_fuel it) mem it lower_bound in
  it_advance mem it lower_bound.

(** s_sequence.hpp:125-133 *)
Fixpoint skip_to_position_loop1 (fuel : nat) (mem : list Z) (it : iterator)
    (elements rank : Z) : res (Z * iterator) :=
  if skip_position it <? i_end it then
    let! c := rd32 mem (i_pointers it) in
    if rank <? u32 (elements + c) then Ok (elements, it)
    else
      match fuel with
      | O => Fuel
      | S f =>
          let! it := it_skip mem it in
          skip_to_position_loop1 f mem it (u32 (elements + c)) rank
      end
  else Ok (elements, it).

(** s_sequence.hpp:135-142 *)
Fixpoint skip_to_position_loop2 (fuel : nat) (mem : list Z) (it : iterator)
    (elements rank : Z) : res (Z * iterator) :=
  if it_has_next it then
    let! c := it_cardinality mem it in
    if rank <? u32 (elements + c) then Ok (elements, it)
    else
      match fuel with
      | O => Fuel
      | S f =>
          let! it := it_next mem it in
          skip_to_position_loop2 f mem it (u32 (elements + c)) rank
      end
  else Ok (elements, it).

(** s_sequence.hpp:123-143; returns (elements, new iterator) *)
Definition skip_to_position (mem : list Z) (it : iterator) (rank : Z) : res (Z * iterator) :=
  let! (elements, it) := skip_to_position_loop1 (it_fuel it) mem it 0 rank in
  skip_to_position_loop2 (it_fuel it) mem it elements rank.
