(** How an execution can end on arbitrary bytes. *)
From Verif Require Import Base.

(** the execution ends: with a result, in undefined behaviour or, in a build with assertions
    ([dbg]), at a failed assertion.  Excluded are an endless loop, an exception and, without
    assertions, an abort. *)
Definition settles {A} (dbg : bool) (r : res A) : Prop :=
  match r with
  | Ok _ | UB => True
  | Abort => dbg = true
  | Throw | Fuel => False
  end.

(** a byte, a 64-bit word *)
Definition is_byte (x : Z) : Prop := 0 <= x < 256.
Definition is_word (x : Z) : Prop := 0 <= x < 2 ^ 64.
