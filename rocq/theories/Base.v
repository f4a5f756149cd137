(** Primitives of the model: outcomes, fixed-width integers, memory, buffers.
    No proofs here. *)
From Coq Require Export ZArith List Bool.
Export ListNotations.
Open Scope Z_scope.

(** ** Outcomes of running a piece of C++ code.
    [Throw]: a C++ exception (the only one is std::runtime_error("duplicate
    element"), building_util.hpp:53).  [Abort]: a failed assert.  [UB]:
    undefined behaviour, in particular every out-of-bounds access and every
    [__builtin_unreachable].  [Fuel]: the loop bound of the model is exhausted;
    no theorem of this development has it as a possible outcome. *)
Inductive res (A : Type) : Type :=
| Ok (a : A)
| Throw
| Abort
| UB
| Fuel.
Arguments Ok {A} a.
Arguments Throw {A}.
Arguments Abort {A}.
Arguments UB {A}.
Arguments Fuel {A}.

Definition bind {A B} (x : res A) (f : A -> res B) : res B :=
  match x with
  | Ok a => f a
  | Throw => Throw
  | Abort => Abort
  | UB => UB
  | Fuel => Fuel
  end.

Notation "'let!' p ':=' e 'in' k" := (bind e (fun p => k))
  (at level 200, p pattern, e at level 100, k at level 200).

(** assert(b): checked iff [dbg] (CMake's default Release build type defines
    NDEBUG: [dbg = false]). *)
Definition assert_ (dbg b : bool) : res unit :=
  if dbg && negb b then Abort else Ok tt.

(** ** Fixed-width unsigned integers *)
Definition u8 (x : Z) : Z := x mod 2 ^ 8.
Definition u16 (x : Z) : Z := x mod 2 ^ 16.
Definition u32 (x : Z) : Z := x mod 2 ^ 32.
Definition u64 (x : Z) : Z := x mod 2 ^ 64.

(** ** Lists indexed by Z *)
Definition zlen {A} (l : list A) : Z := Z.of_nat (length l).

Definition znth {A} (l : list A) (i : Z) : option A :=
  if i <? 0 then None else nth_error l (Z.to_nat i).

(** v[i] on a vector: out of range is UB *)
Definition vget (v : list Z) (i : Z) : res Z :=
  match znth v i with
  | Some x => Ok x
  | None => UB
  end.

(** contiguous store of [vals] at index [pos] of a buffer of fixed length *)
Definition store (buf : list Z) (pos : Z) (vals : list Z) : res (list Z) :=
  if (0 <=? pos) && (pos + zlen vals <=? zlen buf)
  then Ok (firstn (Z.to_nat pos) buf ++ vals ++ skipn (Z.to_nat (pos + zlen vals)) buf)
  else UB.

(** v[i] = x *)
Definition vset (v : list Z) (i x : Z) : res (list Z) := store v i [x].

(** ** Byte-addressed readable memory, little endian (x86-64) *)
Definition rd8 (mem : list Z) (a : Z) : res Z := vget mem a.

(** [n] consecutive bytes starting at address [a] *)
Fixpoint rd_bytes (mem : list Z) (a : Z) (n : nat) : res (list Z) :=
  match n with
  | O => Ok []
  | S n' =>
      let! b := rd8 mem a in
      let! r := rd_bytes mem (a + 1) n' in
      Ok (b :: r)
  end.

(** value of a little-endian byte string *)
Fixpoint le_val (bs : list Z) : Z :=
  match bs with
  | [] => 0
  | b :: r => b + 256 * le_val r
  end.

(** [n] little-endian bytes of [v] (truncating) *)
Fixpoint le_bytes (n : nat) (v : Z) : list Z :=
  match n with
  | O => []
  | S n' => v mod 256 :: le_bytes n' (v / 256)
  end.

Definition rd_le (mem : list Z) (n : nat) (a : Z) : res Z :=
  let! bs := rd_bytes mem a n in Ok (le_val bs).

Definition rd16 (mem : list Z) (a : Z) : res Z := rd_le mem 2 a.
Definition rd32 (mem : list Z) (a : Z) : res Z := rd_le mem 4 a.
Definition rd64 (mem : list Z) (a : Z) : res Z := rd_le mem 8 a.

(** the bytes of an array of 64-bit / 16-bit words, as seen through uint8_t* *)
Definition bytes_of_u64s (ws : list Z) : list Z := flat_map (le_bytes 8) ws.
Definition bytes_of_u16s (ws : list Z) : list Z := flat_map (le_bytes 2) ws.
