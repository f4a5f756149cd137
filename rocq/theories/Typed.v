(** Specification vocabulary for text and command lines (C47, C48).  Characters are codes. *)
From Coq Require Import String Ascii.
From Verif Require Import Base.

(** space, tab, newline, vertical tab, form feed, carriage return *)
Definition blank (c : Z) : Prop := c = 32 \/ 9 <= c <= 13.

(** value of decimal digits, the most significant one first *)
Definition value_of (ds : list Z) : Z := fold_left (fun v d => 10 * v + d) ds 0.

(** [w] is the integer [n] in decimal, perhaps with a sign *)
Definition numeral (w : list Z) (n : Z) : Prop :=
  exists ds, ds <> [] /\ Forall (fun d => 0 <= d <= 9) ds
    /\ (w = map (Z.add 48) ds /\ n = value_of ds
        \/ w = 43 :: map (Z.add 48) ds /\ n = value_of ds
        \/ w = 45 :: map (Z.add 48) ds /\ n = - value_of ds).

(** the text [t] is the integers [ns], separated by blanks *)
Inductive typed : list Z -> list Z -> Prop :=
| typed_end b : Forall blank b -> typed b []
| typed_next b w n t ns :
    Forall blank b -> numeral w n -> typed t ns -> match t with [] => True | c :: _ => blank c end ->
    typed (b ++ w ++ t) (n :: ns).

(** the text [g] does not start with a blank, a digit or a sign, and is not empty *)
Definition garbage (g : list Z) : Prop :=
  exists c g', g = c :: g' /\ ~ blank c /\ ~ 48 <= c <= 57 /\ c <> 43 /\ c <> 45.

(** the text [r] does not start with a digit *)
Definition no_digit (r : list Z) : Prop := match r with [] => True | c :: _ => ~ 48 <= c <= 57 end.

(** the word [w] begins with the integer [n]: blanks before it and anything after it are ignored *)
Definition begins (w : list Z) (n : Z) : Prop :=
  exists b v j, w = b ++ v ++ j /\ Forall blank b /\ numeral v n /\ no_digit j.

(** integers which scanf("%d") stores: those of an int, or, with glibc, those of 64 bits *)
Definition storable_int (iso : bool) (n : Z) : Prop :=
  if iso then - 2 ^ 31 <= n < 2 ^ 31 else - 2 ^ 63 <= n < 2 ^ 63.

(** modulo 2^32 *)
Definition low (n : Z) : Z := n mod 2 ^ 32.
Definition low2 (q : Z * Z) : Z * Z := (low (fst q), low (snd q)).

(** the numbers of pairs in a row *)
Definition in_a_row (qs : list (Z * Z)) : list Z := flat_map (fun q => [fst q; snd q]) qs.

(** lines of text, each with its newline *)
Definition lines (ls : list (list Z)) : list Z := flat_map (fun l => l ++ [10]) ls.

(** the line [l], without newline, is the integers [ns], and perhaps then something else *)
Definition line_of (l ns : list Z) : Prop :=
  ~ In 10 l /\ exists t g, l = t ++ g /\ typed t ns /\ (g = [] \/ garbage g).

(** a word of a command line *)
Definition word (s : string) : list Z := map (fun c => Z.of_nat (nat_of_ascii c)) (list_ascii_of_string s).

(** options of build and of the tests, and what else may be among them *)
Inductive argument := Density (v : list Z) | Size (v : list Z) | Out (v : list Z) | Other (w : list Z).
Definition spelled (a : argument) : list (list Z) :=
  match a with
  | Density v => [word "--density"; v]
  | Size v => [word "--size"; v]
  | Out v => [word "--out"; v]
  | Other w => [w]
  end.

(** [b] is what the last argument that [says] something says, [initial] if there is none *)
Definition settled {B : Type} (says : argument -> B -> Prop) (args : list argument) (initial b : B) : Prop :=
  (exists before a after, args = before ++ a :: after /\ says a b
     /\ forall a' b', In a' after -> ~ says a' b')
  \/ (b = initial /\ forall a' b', In a' args -> ~ says a' b').

(** what std::atoi makes of a word *)
Definition int_word (iso : bool) (w : list Z) (s : Z) : Prop :=
  (exists n, begins w n /\ storable_int iso n /\ s = low n) \/ ((forall n, ~ begins w n) /\ s = 0).

(** an argument with a proper value; [stod v d]: the word [v] is the double [d] *)
Definition proper {D : Type} (iso : bool) (stod : list Z -> D -> Prop) (a : argument) : Prop :=
  match a with
  | Density v => exists d, stod v d
  | Size v => exists s, int_word iso v s
  | Out _ => True
  | Other w => w <> word "--density" /\ w <> word "--size" /\ w <> word "--out"
  end.
Definition says_density {D : Type} (stod : list Z -> D -> Prop) (a : argument) (d : D) : Prop :=
  exists v, a = Density v /\ stod v d.
Definition says_size (iso : bool) (a : argument) (s : Z) : Prop := exists v, a = Size v /\ int_word iso v s.
Definition says_out (a : argument) (o : option (list Z)) : Prop := exists v, a = Out v /\ o = Some v.

(** the same for the tests, for which "--out" and what follows it are ordinary words *)
Definition proper_test {D : Type} (iso : bool) (stod : list Z -> D -> Prop) (a : argument) : Prop :=
  match a with
  | Density v => exists d, stod v d
  | Size v => exists s, int_word iso v s
  | Out v => v <> word "--density" /\ v <> word "--size"
  | Other w => w <> word "--density" /\ w <> word "--size"
  end.

(** the words after which a value must follow *)
Definition wants_value (w : list Z) : Prop := w = word "--density" \/ w = word "--size" \/ w = word "--out".

(** what std::stoull makes of a word: a negative number is taken modulo 2^64 *)
Definition count_word (w : list Z) (num : Z) : Prop :=
  exists n, begins w n /\ - 2 ^ 64 < n < 2 ^ 64 /\ num = n mod 2 ^ 64.

(** a word std::stoull does not accept *)
Definition bad_count (w : list Z) : Prop :=
  (forall n, ~ begins w n) \/ exists n, begins w n /\ (n <= - 2 ^ 64 \/ 2 ^ 64 <= n).

(** integers the operator >> stores in a uint32_t *)
Definition fits_word (n : Z) : Prop := - 2 ^ 32 < n < 2 ^ 32.

(** what follows the last newline: nothing, or one more line *)
Definition last_line (e : list Z) (ens : list (list Z)) : Prop :=
  e = [] /\ ens = [] \/ e <> [] /\ exists ns, line_of e ns /\ Forall fits_word ns /\ ens = [ns].
