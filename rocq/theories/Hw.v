(** Models of the compiler builtins and machine instructions the code uses.
    Semantics follow the GCC manual and the Intel SDM (trusted, see DESIGN.md). *)
From Verif Require Import Base.

(** number of trailing zeros of a positive number *)
Fixpoint pos_ctz (p : positive) : Z :=
  match p with
  | xO q => 1 + pos_ctz q
  | _ => 0
  end.

(** __builtin_ctzll (undefined on 0; all uses are guarded by w != 0; the model
    returns 64 on 0, like tzcnt) *)
Definition ctzll (w : Z) : Z :=
  match w with
  | Zpos p => pos_ctz p
  | _ => 64
  end.

(** tzcnt r64 *)
Definition tzcnt (w : Z) : Z := ctzll w.

(** __builtin_clzll for 0 < w < 2^64 *)
Definition clzll (w : Z) : Z := 63 - Z.log2 w.

Fixpoint pos_popcount (p : positive) : Z :=
  match p with
  | xH => 1
  | xO q => pos_popcount q
  | xI q => 1 + pos_popcount q
  end.

(** __builtin_popcountll, _mm_popcnt_u32 *)
Definition popcount (w : Z) : Z :=
  match w with
  | Zpos p => pos_popcount p
  | _ => 0
  end.

(** PDEP r64: bits of [src], lowest first, are deposited at the positions of the
    set bits of [mask].  Loop of the SDM pseudo code: [m] is the mask position,
    [k] the source position. *)
Fixpoint pdep_loop (n : nat) (m k src mask dest : Z) : Z :=
  match n with
  | O => dest
  | S n' =>
      if Z.testbit mask m
      then pdep_loop n' (m + 1) (k + 1) src mask
             (if Z.testbit src k then Z.lor dest (Z.shiftl 1 m) else dest)
      else pdep_loop n' (m + 1) k src mask dest
  end.
Definition pdep (src mask : Z) : Z := pdep_loop 64 0 0 src mask 0.

(** BT r64, r64 followed by SBB: tests bit (pos mod 64) *)
Definition bt (w pos : Z) : bool := Z.testbit w (pos mod 64).

(** BTS r64, r64: sets bit (pos mod 64) *)
Definition bts (pos w : Z) : Z := Z.lor w (Z.shiftl 1 (pos mod 64)).

(** SHRX r64: count is taken mod 64 *)
Definition shrx (cnt w : Z) : Z := Z.shiftr w (cnt mod 64).

(** _mm_lddqu_si128: unaligned 16-byte load *)
Definition load128 (mem : list Z) (a : Z) : res (list Z) := rd_bytes mem a 16.

(** _mm256_cvtepu8_epi32 then _mm256_add_epi32 with a broadcast base: the low 8
    bytes zero-extended to 32 bits, plus base (wrapping) *)
Definition cvt_add (base : Z) (v : list Z) : list Z :=
  map (fun b => u32 (base + b)) (firstn 8 v).

(** _mm_cmpestrm(a, la, b, lb, UBYTE_OPS | CMP_EQUAL_ANY | BIT_MASK): bit j of
    the result is set iff j < lb and b[j] equals some a[i] with i < la; explicit
    lengths saturate at 16 *)
Fixpoint equal_any_mask (set b : list Z) : Z :=
  match b with
  | [] => 0
  | x :: b' => (if existsb (Z.eqb x) set then 1 else 0) + 2 * equal_any_mask set b'
  end.
Definition cmpestrm (a : list Z) (la : Z) (b : list Z) (lb : Z) : Z :=
  equal_any_mask (firstn (Z.to_nat (Z.min 16 (Z.abs la))) a)
                 (firstn (Z.to_nat (Z.min 16 (Z.abs lb))) b).

(** _mm_shuffle_epi8: control byte with the top bit set gives 0, otherwise its low 4 bits
    index the source *)
Definition pshufb (v ctrl : list Z) : list Z :=
  map (fun c => if 128 <=? c then 0 else nth (Z.to_nat (c mod 16)) v 0) ctrl.

(** _mm_bsrli_si128(p, 8): shift right by 8 bytes, shifting in zeros *)
Definition bsrli8 (v : list Z) : list Z := skipn 8 v ++ repeat 0 8.
