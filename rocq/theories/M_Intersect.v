(** Model of include/intersection.hpp (pairwise intersection).

    [tbl m] is the 16-byte entry of the array shuffle_mask (table.hpp, not part of
    the repository) for mask [m]; see [shuffle_table_ok] in Spec.v. *)
From Verif Require Import Base Hw M_Util M_Seq M_Decode M_Uncompress.

(** intersection.hpp:21-38 INTERSECT.  [pos] is the index of out[0]; returns
    (out, size). *)
Definition INTERSECT (tbl : Z -> list Z) (v_l : list Z) (card_l : Z) (v_r : list Z)
    (card_r base : Z) (out : list Z) (pos size : Z) : res (list Z * Z) :=
  let mask := cmpestrm v_l card_l v_r card_r in
  let matched := popcount mask in
  let size := size + matched in
  let shuf := tbl mask in
  let p := pshufb v_r shuf in
  let! out := store out pos (cvt_add base p) in
  if 8 <? matched then
    let p := bsrli8 p in
    let! out := store out (pos + 8) (cvt_add base p) in
    Ok (out, size)
  else Ok (out, size).

(** intersection.hpp:72-74 (and, with the roles exchanged, 75-77):
    while ( *l < *r) { if (++l == end_l) return size; }   [None]: returned *)
Fixpoint scalar_advance (fuel : nat) (mem : list Z) (l end_l r : Z) : res (option Z) :=
  let! a := rd8 mem l in
  let! b := rd8 mem r in
  if a <? b then
    match fuel with
    | O => Fuel
    | S f => if l + 1 =? end_l then Ok None else scalar_advance f mem (l + 1) end_l r
    end
  else Ok (Some l).

(** intersection.hpp:71-82 *)
Fixpoint scalar_intersect_loop (fuel : nat) (mem : list Z) (l end_l r end_r base : Z)
    (out : list Z) (pos size : Z) : res (list Z * Z) :=
  match fuel with
  | O => Fuel
  | S f =>
      let! ol := scalar_advance (S (Z.to_nat (end_l - l))) mem l end_l r in
      match ol with
      | None => Ok (out, size)
      | Some l =>
          let! or_ := scalar_advance (S (Z.to_nat (end_r - r))) mem r end_r l in
          match or_ with
          | None => Ok (out, size)
          | Some r =>
              let! a := rd8 mem l in
              let! b := rd8 mem r in
              if a =? b then
                let! out := vset out (pos + size) (u32 (a + base)) in
                if l + 1 =? end_l then Ok (out, size + 1)
                else if r + 1 =? end_r then Ok (out, size + 1)
                else scalar_intersect_loop f mem (l + 1) end_l (r + 1) end_r base out pos (size + 1)
              else scalar_intersect_loop f mem l end_l r end_r base out pos size
          end
      end
  end.

(** intersection.hpp:46-85, with INIT (13-19) and ADVANCE (40-44) *)
Definition ss_intersect_block (tbl : Z -> list Z) (dbg : bool) (mem : list Z)
    (l r card_l card_r base : Z) (out : list Z) (pos : Z) : res (list Z * Z) :=
  let! _ := assert_ dbg ((0 <? card_l) && (card_l <=? block_sparseness_threshold - 2)) in
  let! _ := assert_ dbg ((0 <? card_r) && (card_r <=? block_sparseness_threshold - 2)) in
  if (card_l <=? 16) && (card_r <=? 16) then
    let! v_l := load128 mem l in
    let! v_r := load128 mem r in
    INTERSECT tbl v_l card_l v_r card_r base out pos 0
  else if (card_l <=? 16) && (16 <? card_r) then
    let! v_l := load128 mem l in
    let! v_r := load128 mem r in
    let! (out, size) := INTERSECT tbl v_l card_l v_r card_r base out pos 0 in
    let! v_r := load128 mem (r + 16) in
    INTERSECT tbl v_l card_l v_r (card_r - 16) base out (pos + size) size
  else if (card_r <=? 16) && (16 <? card_l) then
    let! v_l := load128 mem l in
    let! v_r := load128 mem r in
    let! (out, size) := INTERSECT tbl v_l card_l v_r card_r base out pos 0 in
    let! v_l := load128 mem (l + 16) in
    INTERSECT tbl v_l (card_l - 16) v_r card_r base out (pos + size) size
  else
    scalar_intersect_loop (S (Z.to_nat (card_l + card_r))) mem l (l + card_l) r (r + card_r)
      base out pos 0.

(** intersection.hpp:92-102 *)
Fixpoint ds_intersect_block_loop (n : nat) (mem : list Z) (bitmap : Z -> res Z)
    (r i base : Z) (out : list Z) (pos k : Z) : res (list Z * Z) :=
  match n with
  | O => Ok (out, k)
  | S n' =>
      let! key := rd8 mem (r + i) in
      let! out := vset out (pos + k) (u32 (key + base)) in
      let! b := bitmap_contains bitmap key in
      ds_intersect_block_loop n' mem bitmap r (i + 1) base out pos
        (if b then u32 (k + 1) else k)
  end.
Definition ds_intersect_block (mem : list Z) (l r card base : Z) (out : list Z) (pos : Z)
  : res (list Z * Z) :=
  ds_intersect_block_loop (Z.to_nat card) mem (words_mem mem l) r 0 base out pos 0.

(** intersection.hpp:115-120 (and, with the roles exchanged, 121-126):
    skip the blocks of l whose id is below the one at r; [None]: the function returned *)
Fixpoint block_advance (fuel : nat) (mem : list Z) (l end_l data_l r : Z)
  : res (option (Z * Z)) :=
  let! a := rd8 mem l in
  let! b := rd8 mem r in
  if a <? b then
    match fuel with
    | O => Fuel
    | S f =>
        if l + 2 =? end_l then Ok None
        else
          let! c1 := rd8 mem (l + 1) in
          let c := c1 + 1 in
          block_advance f mem (l + 2) end_l (data_l + bytes_by_cardinality c) r
    end
  else Ok (Some (l, data_l)).

(** intersection.hpp:151-169: the switch on the pair of block types *)
Definition intersect_blocks (tbl : Z -> list Z) (dbg : bool) (mem : list Z)
    (data_l data_r cl cr b : Z) (out : list Z) (tmp : Z) : res (list Z * Z) :=
  let p := block_pair (block_type cl) (block_type cr) in
  if p =? block_pair t_sparse t_sparse then
    ss_intersect_block tbl dbg mem data_l data_r cl cr b out tmp
  else if p =? block_pair t_sparse t_dense then
    ds_intersect_block mem data_r data_l cl b out tmp
  else if p =? block_pair t_dense t_sparse then
    ds_intersect_block mem data_l data_r cr b out tmp
  else if p =? block_pair t_dense t_dense then
    and_bitmaps (words_mem mem data_l) (words_mem mem data_r) block_size_in_64bit_words b
      out tmp
  else UB.

(** intersection.hpp:114-180; returns (out, tmp) *)
Fixpoint ss_intersect_chunk_loop (fuel : nat) (tbl : Z -> list Z) (dbg : bool) (mem : list Z)
    (l r end_l end_r data_l data_r base : Z) (out : list Z) (tmp : Z) : res (list Z * Z) :=
  match fuel with
  | O => Fuel
  | S f =>
      let! ol := block_advance (S (Z.to_nat (end_l - l))) mem l end_l data_l r in
      match ol with
      | None => Ok (out, tmp)
      | Some (l, data_l) =>
          let! or_ := block_advance (S (Z.to_nat (end_r - r))) mem r end_r data_r l in
          match or_ with
          | None => Ok (out, tmp)
          | Some (r, data_r) =>
              let! id := rd8 mem l in
              let! id_r := rd8 mem r in
              if id =? id_r then
                let! c1 := rd8 mem (l + 1) in
                let! c2 := rd8 mem (r + 1) in
                let cl := c1 + 1 in
                let cr := c2 + 1 in
                let b := u32 (base + id * 256) in
                let! (out, n) := intersect_blocks tbl dbg mem data_l data_r cl cr b out tmp in
                let tmp := tmp + u32 n in
                if (l + 1 + 1 =? end_l) || (r + 1 + 1 =? end_r) then Ok (out, tmp)
                else
                  ss_intersect_chunk_loop f tbl dbg mem (l + 2) (r + 2) end_l end_r
                    (data_l + bytes_by_cardinality cl) (data_r + bytes_by_cardinality cr)
                    base out tmp
              else
                ss_intersect_chunk_loop f tbl dbg mem l r end_l end_r data_l data_r base out tmp
          end
      end
  end.

(** intersection.hpp:104-183 *)
Definition ss_intersect_chunk (tbl : Z -> list Z) (dbg : bool) (mem : list Z)
    (l r blocks_l blocks_r base : Z) (out : list Z) (pos : Z) : res (list Z * Z) :=
  let! _ := assert_ dbg ((1 <=? blocks_l) && (blocks_l <=? 256)) in
  let! _ := assert_ dbg ((1 <=? blocks_r) && (blocks_r <=? 256)) in
  let data_l := l + blocks_l * 2 in
  let data_r := r + blocks_r * 2 in
  let! (out, tmp) :=
    ss_intersect_chunk_loop (S (Z.to_nat (blocks_l + blocks_r))) tbl dbg mem
      l r data_l data_r data_l data_r base out pos in
  Ok (out, tmp - pos).

(** intersection.hpp:185-192; [x] is the previous content of the static vector;
    returns (x, out, size) *)
Definition ds_intersect_chunk (dbg : bool) (mem : list Z) (l r blocks_r base : Z)
    (x out : list Z) (pos : Z) : res (list Z * list Z * Z) :=
  let x := repeat 0 (length x) in
  let! x := uncompress_sparse_chunk dbg mem r blocks_r x 0 in
  let! (out, n) :=
    and_bitmaps (words_mem mem l) (words_vec x) chunk_size_in_64bit_words base out pos in
  Ok (x, out, n).

(** intersection.hpp:212-261: the switch on the pair of chunk types *)
Definition intersect_chunks (tbl : Z -> list Z) (dbg : bool) (mem : list Z)
    (it_l it_r : iterator) (base : Z) (x out : list Z) (pos : Z)
  : res (list Z * list Z * Z) :=
  let keep (y : res (list Z * Z)) := let! (out, n) := y in Ok (x, out, n) in
  let! type_l := it_type mem it_l in
  let! type_r := it_type mem it_r in
  let p := chunk_pair type_l type_r in
  if p =? chunk_pair t_sparse t_sparse then
    let! blocks_l := it_blocks mem it_l in
    let! blocks_r := it_blocks mem it_r in
    if blocks_l <? blocks_r then
      keep (ss_intersect_chunk tbl dbg mem (i_data it_l) (i_data it_r) blocks_l blocks_r
              base out pos)
    else
      keep (ss_intersect_chunk tbl dbg mem (i_data it_r) (i_data it_l) blocks_r blocks_l
              base out pos)
  else if p =? chunk_pair t_sparse t_dense then
    let! blocks_l := it_blocks mem it_l in
    ds_intersect_chunk dbg mem (i_data it_r) (i_data it_l) blocks_l base x out pos
  else if p =? chunk_pair t_sparse t_full then
    let! blocks_l := it_blocks mem it_l in
    keep (decode_sparse_chunk dbg mem (i_data it_l) blocks_l base out pos)
  else if p =? chunk_pair t_dense t_sparse then
    let! blocks_r := it_blocks mem it_r in
    ds_intersect_chunk dbg mem (i_data it_l) (i_data it_r) blocks_r base x out pos
  else if p =? chunk_pair t_dense t_dense then
    keep (and_bitmaps (words_mem mem (i_data it_l)) (words_mem mem (i_data it_r))
            chunk_size_in_64bit_words base out pos)
  else if p =? chunk_pair t_dense t_full then
    keep (decode_bitmap (words_mem mem (i_data it_l)) chunk_size_in_64bit_words base out pos)
  else if p =? chunk_pair t_full t_sparse then
    let! blocks_r := it_blocks mem it_r in
    keep (decode_sparse_chunk dbg mem (i_data it_r) blocks_r base out pos)
  else if p =? chunk_pair t_full t_dense then
    keep (decode_bitmap (words_mem mem (i_data it_r)) chunk_size_in_64bit_words base out pos)
  else if p =? chunk_pair t_full t_full then
    keep (decode_full_chunk base out pos)
  else UB.

(** intersection.hpp:199-272 *)
Fixpoint pairwise_intersection_loop (fuel : nat) (tbl : Z -> list Z) (dbg : bool)
    (mem : list Z) (it_l it_r : iterator) (x out : list Z) (pos : Z)
  : res (list Z * list Z * Z) :=
  if it_has_next it_l && it_has_next it_r then
    match fuel with
    | O => Fuel
    | S f =>
        let! id_l := it_id mem it_l in
        let! id_r := it_id mem it_r in
        let id_l := u16 id_l in
        let id_r := u16 id_r in
        if id_l =? id_r then
          let base := u32 (Z.shiftl id_l 16) in
          let! (x, out, n) := intersect_chunks tbl dbg mem it_l it_r base x out pos in
          let! it_l := it_next mem it_l in
          let! it_r := it_next mem it_r in
          pairwise_intersection_loop f tbl dbg mem it_l it_r x out (pos + u32 n)
        else if id_l <? id_r then
          let! it_l := it_advance mem it_l id_r in
          pairwise_intersection_loop f tbl dbg mem it_l it_r x out pos
        else
          let! it_r := it_advance mem it_r id_l in
          pairwise_intersection_loop f tbl dbg mem it_l it_r x out pos
    end
  else Ok (x, out, pos).

(** intersection.hpp:194-274; [x] is the content of the static vector of
    ds_intersect_chunk; returns (x, out, size) *)
Definition pairwise_intersection (tbl : Z -> list Z) (dbg : bool) (mem : list Z)
    (l r : s_sequence) (x out : list Z) (pos : Z) : res (list Z * list Z * Z) :=
  let it_l := seq_begin l in
  let it_r := seq_begin r in
  let! (x, out, e) :=
    pairwise_intersection_loop (it_fuel it_l + it_fuel it_r) tbl dbg mem it_l it_r x out pos in
  Ok (x, out, e - pos).
