(** What the builder makes of a list that is not increasing (C43): which values end up in which
    chunk, and what is stored for them. *)
From Verif Require Import Base Spec Lib L_Bits L_Group.

(** the longest beginning of a list with values below b, and the rest *)
Fixpoint upto (b : Z) (l : list Z) : list Z :=
  match l with
  | [] => []
  | v :: r => if v <? b then v :: upto b r else []
  end.
Fixpoint from (b : Z) (l : list Z) : list Z :=
  match l with
  | [] => []
  | v :: r => if v <? b then from b r else l
  end.

(** the list cut into the values taken for the chunks i, i + 1, ..., i + n - 1 *)
Fixpoint runs (n : nat) (i : Z) (l : list Z) : list (Z * list Z) :=
  match n with
  | O => []
  | S n' => (i, upto (65536 * (i + 1)) l) :: runs n' (i + 1) (from (65536 * (i + 1)) l)
  end.

(** number of chunks: given by the last value *)
Definition last_chunk (L : list Z) : Z := last L 0 / 65536.
Definition cuts (L : list Z) : list (Z * list Z) := runs (Z.to_nat (last_chunk L + 1)) 0 L.
(** the values after the last cut *)
Definition lost (L : list Z) : list Z := from (65536 * (last_chunk L + 1)) L.

(** no value occurs twice in a row *)
Fixpoint no_twins (l : list Z) : Prop :=
  match l with
  | [] => True
  | v :: r => match r with [] => True | w :: _ => v <> w end /\ no_twins r
  end.

(** [group 256 r] are the pieces of r: consecutive values of one block, as number of the block and
    offsets.  Bytes they take as a sparse chunk *)
Definition run_bytes (r : list Z) : Z :=
  total (fun p => 2 + (if zlen (snd p) <? 31 then zlen (snd p) else 32)) (group 256 r).
Definition run_sparse (r : list Z) : bool := (zlen r <? 32768) && (run_bytes r <? 8192).

(** up to 30 values are stored as they come, more as a bitmap *)
Definition piece_image (vs : list Z) : list Z :=
  if zlen vs <? 31 then vs else filter (memb vs) (zrange 0 256).

(** what is stored for the values r taken for chunk i *)
Definition run_image (c : Z * list Z) : list Z :=
  let i := fst c in
  let r := snd c in
  if run_sparse r then
    flat_map (fun p => map (fun x => 65536 * i + 256 * (fst p mod 256) + x) (piece_image (snd p)))
      (group 256 r)
  else if zlen r =? 65536 then zrange (65536 * i) (Z.to_nat 65536)
  else filter (memb r) (zrange (65536 * i) (Z.to_nat 65536)).

(** the values r can be stored for chunk i *)
Definition run_ok (c : Z * list Z) : Prop :=
  let i := fst c in
  let r := snd c in
  no_twins r /\ zlen r <= 65536
  /\ (zlen r < 32768 -> Forall (fun p => zlen (snd p) <= 256) (group 256 r))
  /\ (run_sparse r = true -> zlen (group 256 r) <= 256)
  /\ (run_sparse r = false -> zlen r <> 65536 -> Forall (fun v => 65536 * i <= v) r).

(** what is stored altogether *)
Definition kept (L : list Z) : list Z := flat_map run_image (cuts L).

(** no value lies below the chunk it is taken for *)
Definition run_above (c : Z * list Z) : Prop := Forall (fun v => 65536 * fst c <= v) (snd c).

(** ** any list of 32-bit words (C44) *)
(** values from 4294901760 on are taken for no chunk *)
Definition taken (L : list Z) : list (Z * list Z) :=
  runs (Z.to_nat (Z.min 65535 (last_chunk L + 1))) 0 L.

(** different neighbours are needed, then: not more than 256 pieces, or no value below a bitmap *)
Definition storable (c : Z * list Z) : Prop :=
  (run_sparse (snd c) = true -> zlen (group 256 (snd c)) <= 256)
  /\ (run_sparse (snd c) = false -> zlen (snd c) <> 65536 -> Forall (fun v => 65536 * fst c <= v) (snd c)).
Definition fine (c : Z * list Z) : Prop := no_twins (snd c) /\ storable c.

(** with assertions: two equal neighbours before any value below the chunk *)
Definition caught (c : Z * list Z) : Prop :=
  exists a v b, snd c = a ++ v :: v :: b /\ Forall (fun w => 65536 * fst c <= w) (a ++ [v]).
(** with assertions: the values can be stored and none lies below the chunk *)
Definition sound (c : Z * list Z) : Prop := run_ok c /\ run_above c.
