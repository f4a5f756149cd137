(** Model of the text which build.cpp writes to std::cout: util.hpp:151-242 and builder.hpp:236-252
    with the text between the numbers, and operator<< for numbers. *)
From Coq Require Import String Ascii Floats.SpecFloat.
From Verif Require Import Base M_Util M_Build M_Index M_Print M_Text.

(** ** std::cout << x for a double x (util.hpp:157): the default format, "%.6g" of printf *)
(** the last [n] decimal digits of [d], the least significant one last *)
Fixpoint last_digits (n : nat) (d : Z) : list Z :=
  match n with
  | O => []
  | S n => last_digits n (d / 10) ++ [d mod 10]
  end.

(** "%g" removes trailing zeros *)
Fixpoint strip (ds : list Z) : list Z :=
  match ds with
  | [] => []
  | d :: ds =>
      match strip ds with
      | [] => if d =? 0 then [] else [d]
      | ds' => d :: ds'
      end
  end.
Definition chars (ds : list Z) : list Z := map (fun d => 48 + d) ds.
(** the fraction, after a decimal point if there is one *)
Definition dot (ds : list Z) : list Z := match ds with [] => [] | _ => 46 :: chars ds end.

(** num / den, scaled by a power of ten to lie between 1 and 10, and its exponent *)
Fixpoint scale (fuel : nat) (num den x : Z) : Z * Z * Z :=
  match fuel with
  | O => (num, den, x)
  | S f =>
      if num <? den then scale f (10 * num) den (x - 1)
      else if 10 * den <=? num then scale f num (10 * den) (x + 1)
      else (num, den, x)
  end.

(** num / den rounded to the nearest integer, ties to even *)
Definition round_even (num den : Z) : Z :=
  let q := num / den in
  let r := num mod den in
  if 2 * r <? den then q
  else if den <? 2 * r then q + 1
  else if Z.even q then q else q + 1.

(** the six digits of [d] as the number d.ddddd * 10^x: with an exponent of at least two digits
    if x < -4 or x >= 6 *)
Definition show_decimal (d x : Z) : list Z :=
  let ds := last_digits 6 d in
  if (x <? -4) || (6 <=? x) then
    chars (firstn 1 ds) ++ dot (strip (skipn 1 ds))
    ++ [101; if x <? 0 then 45 else 43] ++ (if Z.abs x <? 10 then [48] else []) ++ show (Z.abs x)
  else if 0 <=? x then
    chars (firstn (Z.to_nat (x + 1)) ds) ++ dot (strip (skipn (Z.to_nat (x + 1)) ds))
  else
    chars [0] ++ dot (repeat 0 (Z.to_nat (- x - 1)) ++ strip ds).

(** [nan] is the text for a NaN, which has a sign in C++ and none here *)
Definition show_double (nan : list Z) (x : spec_float) : list Z :=
  match x with
  | S754_zero s => (if s then [45] else []) ++ [48]
  | S754_infinity s => (if s then [45] else []) ++ codes "inf"
  | S754_nan => nan
  | S754_finite s m e =>
      let num := Zpos m * 2 ^ Z.max 0 e in
      let den := 2 ^ Z.max 0 (- e) in
      let '(num, den, x) := scale (Z.to_nat (Z.log2 num + Z.log2 den + 2)) num den 0 in
      let d := round_even (num * 100000) den in
      (if s then [45] else [])
      ++ (if d =? 1000000 then show_decimal 100000 (x + 1) else show_decimal d x)
  end.

Definition show_token (nan : list Z) (t : token) : list Z :=
  match t with
  | TNum n => show n
  | TReal x => show_double nan x
  end.

(** ** statistics::print *)
Definition endl : list Z := [10].

(** util.hpp:151-194: the text before each number *)
Definition summary_frame : list (list Z) :=
  [codes "processed "; codes " sequences, "; codes " integers" ++ endl ++ codes "chunks: ";
   endl ++ codes "full chunks: "; codes " (";
   codes "% of ints)" ++ endl ++ codes "empty chunks: "; codes " (";
   codes "% of chunks)" ++ endl ++ codes "dense chunks: "; codes " (";
   codes "% of ints)" ++ endl ++ codes "sparse chunks: "; codes " (";
   codes "% of ints)" ++ endl ++ codes "blocks: ";
   endl ++ codes "empty blocks: "; codes " (";
   codes "% of blocks)" ++ endl ++ codes "dense blocks: "; codes " (";
   codes "% of ints)" ++ endl ++ codes "sparse blocks: "; codes " (";
   codes "% of ints)" ++ endl; codes " [bpi] for chunks' headers" ++ endl;
   codes " [bpi] for blocks' headers" ++ endl; codes " [bpi] for dense chunks" ++ endl;
   codes " [bpi] for dense blocks" ++ endl;
   codes " [bpi] for sparse blocks" ++ endl ++ codes "total bytes: ";
   endl ++ codes "total bpi: "].
(** util.hpp:196-202 *)
Definition card_frame (before : list Z) : list (list Z) :=
  [before ++ codes "sparse blocks with card. "; codes ": "].
(** util.hpp:210-239 *)
Definition dist_frame (before : list Z) : list (list Z) :=
  [before ++ codes "sparse chunks with "; codes " blocks: ";
   codes "%; avg_num_integers_per_block = "; codes "; avg_num_integers_per_chunk = ";
   endl ++ codes "Elias-Fano avg. bpi "; codes " vs. 8" ++ endl ++ codes " -- total integers covered "].
Definition print_frame : list (list Z) :=
  summary_frame
  ++ card_frame (endl ++ codes "== sparse blocks cardinalities (%) ==" ++ endl)
  ++ concat (repeat (card_frame endl) 29)
  ++ [endl ++ codes "expected_value ";
      endl ++ codes "== distribution of blocks in sparse chunks ("]
  ++ dist_frame (codes "% of ints) ==" ++ endl)
  ++ concat (repeat (dist_frame (codes "%" ++ endl)) 255)
  ++ [codes "%" ++ endl ++ codes "expected_value "; endl].

(** the numbers put into the frame *)
Fixpoint fill (nan : list Z) (frame : list (list Z)) (tokens : list token) : list Z :=
  match frame, tokens with
  | w :: frame, t :: tokens => w ++ show_token nan t ++ fill nan frame tokens
  | w :: _, [] => w
  | [], _ => []
  end.

(** util.hpp:151-242 statistics::print *)
Definition print_text (nan : list Z) (st : statistics) : res (list Z) :=
  let! tokens := print st in
  Ok (fill nan print_frame tokens).

(** builder.hpp:249-252: the lines of progress; [n] of them from the [k] thousandth sequence on *)
Fixpoint progress (n : nat) (k : Z) : list Z :=
  match n with
  | O => []
  | S n => codes "processed " ++ show (1000 * k) ++ codes " sequences" ++ endl ++ progress n (k + 1)
  end.

(** build.cpp:9-13 with builder.hpp:236 and 249-252: what the program writes before it saves the index.
    The counter [sequences] grows by one with every list kept and a line of progress is
    written when it is a multiple of 1000; so its final value tells which lines there were. *)
Definition build_text (nan : list Z) (dbg : bool) (params : parameters) (data : list Z) : res (list Z) :=
  let! (stats, _, _) := index_build dbg params data in
  let! universe := vget data 1 in
  let! text := print_text nan stats in
  Ok (codes "universe size: " ++ show universe ++ endl
      ++ progress (Z.to_nat (stats F_sequences / 1000)) 1 ++ text).
