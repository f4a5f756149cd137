(** Model of the programs under tools/.  A random number is the next element of [tape], a list of
    integers (0 when it is exhausted), reduced to the wanted range: every sequence of
    outcomes of the random generators is that of some tape.  The arguments are 32-bit
    words (std::atoi is in M_Text); messages and files that cannot be opened are not modelled. *)
From Verif Require Import Base M_Util M_Seq M_Decode M_Query M_Index M_Drivers.

(** essentials::uniform_int_rng<uint32_t>(from, to) wraps std::uniform_int_distribution (its
    source, external/essentials, is not in the repository): from <= to is a precondition *)
Definition distr (from to : Z) : res unit := if from <=? to then Ok tt else UB.

(** gen() of the same: any of the numbers from, ..., to *)
Definition draw (from to : Z) (tape : list Z) : Z * list Z :=
  match tape with
  | [] => (from, [])
  | r :: tape => (from + r mod (to - from + 1), tape)
  end.

(** the loops "for (uint32_t k = 0; k != n; ++k)" that draw [n] numbers (gen_uniform_data.cpp:25,
    gen_clustered_data.cpp:85-87, gen_random_select_queries.cpp:22-24) *)
Fixpoint draws (n : nat) (from to : Z) (tape : list Z) : list Z * list Z :=
  match n with
  | O => ([], tape)
  | S n =>
      let (x, tape) := draw from to tape in
      let (l, tape) := draws n from to tape in
      (x :: l, tape)
  end.

(** std::sort (gen_uniform_data.cpp:26, gen_clustered_data.cpp:97): any sorting algorithm gives
    the same list of integers *)
Fixpoint insert (x : Z) (l : list Z) : list Z :=
  match l with
  | [] => [x]
  | y :: l' => if x <=? y then x :: l else y :: insert x l'
  end.
Fixpoint std_sort (l : list Z) : list Z :=
  match l with
  | [] => []
  | x :: l => insert x (std_sort l)
  end.

(** std::unique (gen_uniform_data.cpp:27, gen_clustered_data.cpp:98): the elements before the
    returned iterator *)
Fixpoint std_unique (l : list Z) : list Z :=
  match l with
  | [] => []
  | x :: l' =>
      match l' with
      | [] => l
      | y :: _ => if x =? y then std_unique l' else x :: std_unique l'
      end
  end.

(** ** gen_uniform_data.cpp *)
(** lines 22-32: the words written for [m] more lists *)
Fixpoint uniform_lists (m : nat) (min_length max_length universe : Z) (tape : list Z) : list Z * list Z :=
  match m with
  | O => ([], tape)
  | S m =>
      let (n, tape) := draw min_length max_length tape in
      let (list, tape) := draws (Z.to_nat n) 0 universe tape in
      let list := std_unique (std_sort list) in
      let (out, tape) := uniform_lists m min_length max_length universe tape in
      (zlen list :: list ++ out, tape)
  end.

(** lines 10-34: the 32-bit words of the file *)
Definition gen_uniform (num_lists min_length max_length universe : Z) (tape : list Z) : res (list Z) :=
  let! _ := distr min_length max_length in
  let! _ := distr 0 universe in
  let (out, _) := uniform_lists (Z.to_nat num_lists) min_length max_length universe tape in
  Ok (1 :: universe :: out).

(** ** gen_clustered_data.cpp *)
(** rounding of a non-negative number to the 24 significant bits of a float, ties to even; all
    floats here are multiples of 2^-31, and are represented by that multiple (0 and
    infinities do not matter: the numbers are at most 2^31) *)
Definition f32 (x : Z) : Z :=
  if x <? 2 ^ 24 then x
  else
    let ulp := 2 ^ (Z.log2 x - 23) in
    let q := x / ulp in
    let r := x mod ulp in
    if (2 * r <? ulp) || (2 * r =? ulp) && Z.even q then q * ulp else (q + 1) * ulp.

(** lines 59-62: the probabilities 0.3, 0.2 and 0.5 as floats, 10066330 * 2^-25,
    13421773 * 2^-26 and 2^-1 *)
Definition event_probs : list Z := [10066330 * 2 ^ 6; 13421773 * 2 ^ 5; 2 ^ 30].

(** lines 21-24; the code of an event (lines 10 and 60-62) is its index *)
Fixpoint gen_event_loop (fuel : nat) (cumulative p i : Z) : res Z :=
  if cumulative <? p then
    match fuel with
    | O => Fuel
    | S fuel =>
        let! e := vget event_probs (i + 1) in
        gen_event_loop fuel (f32 (cumulative + e)) p (i + 1)
    end
  else Ok i.

(** lines 17-27 *)
Definition gen_event (dbg : bool) (p : Z) : res Z :=
  let! _ := assert_ dbg ((0 <=? p) && (p <=? 2 ^ 31)) in
  let! cumulative := vget event_probs 0 in
  let! i := gen_event_loop 3 cumulative p 0 in
  let! _ := assert_ dbg (i <? 3) in
  Ok i.

(** line 69: float(rand()) / RAND_MAX with RAND_MAX = 2^31 - 1; the conversion of RAND_MAX to
    float gives 2^31, the division by it is exact *)
Definition float_rand (r : Z) : Z := f32 r.

(** lines 69-92: one slice; what is pushed to [list] *)
Definition one_slice (dbg : bool) (universe left right : Z) (tape : list Z) : res (list Z * list Z) :=
  let (r, tape) := draw 0 2147483647 tape in
  let! code := gen_event dbg (float_rand r) in
  let end_ := Z.min right universe in
  if code =? 0 then Ok ([], tape)
  else if code =? 1 then
    (* k goes from left to end_ modulo 2^32 *)
    Ok (map (fun j => u32 (left + Z.of_nat j)) (seq 0 (Z.to_nat (u32 (end_ - left)))), tape)
  else if code =? 2 then
    let! _ := distr left end_ in
    let (n, tape) := draw 10 16384 tape in
    Ok (draws (Z.to_nat n) left end_ tape)
  else let! _ := assert_ dbg false in UB.

(** lines 67-95 *)
Fixpoint slices (fuel : nat) (dbg : bool) (universe left right : Z) (list_ tape : list Z) : res (list Z * list Z) :=
  if left <? universe then
    match fuel with
    | O => Fuel
    | S fuel =>
        let! (new, tape) := one_slice dbg universe left right tape in
        slices fuel dbg universe right (u32 (right + 65536)) (list_ ++ new) tape
    end
  else Ok (list_, tape).

(** lines 64-109; [junk] is what std::unique leaves behind the elements it keeps *)
Fixpoint clustered_lists (m fuel : nat) (dbg binary : bool) (junk : nat -> Z) (universe : Z) (tape : list Z)
    : res (list Z) :=
  match m with
  | O => Ok []
  | S m =>
      let! (list, tape) := slices fuel dbg universe 0 65536 [] tape in
      let kept := std_unique (std_sort list) in
      let list := if binary then kept else kept ++ map junk (seq (length kept) (length list - length kept)) in
      let! out := clustered_lists m fuel dbg binary junk universe tape in
      Ok (zlen kept :: list ++ out)
  end.

(** lines 29-111: the words of the binary file, or the numbers of the text file *)
Definition gen_clustered (fuel : nat) (dbg binary : bool) (junk : nat -> Z) (num_lists universe : Z) (tape : list Z)
    : res (list Z) :=
  let! out := clustered_lists (Z.to_nat num_lists) fuel dbg binary junk universe tape in
  Ok (if binary then 1 :: universe :: out else out).

(** ** Queries *)
(** gen_random_select_queries.cpp:11-29 *)
Definition gen_select_queries (dbg : bool) (mem : list Z) (f n : Z) (tape : list Z) : res (list Z) :=
  let! ix := index_mmap mem f in
  let! (queries, _) := each (Z.to_nat (ix_size ix)) 0 (fun i st =>
      let (queries, tape) := (st : list Z * list Z) in
      let! s := index_get dbg mem ix i in
      let! c := cardinality mem s in
      let! _ := distr 0 (u32 (c - 1)) in
      let (qs, tape) := draws (Z.to_nat n) 0 (u32 (c - 1)) tape in
      Ok (queries ++ qs, tape)) ([], tape) in
  Ok queries.

(** gen_random_next_geq_queries.cpp:24-26; [m] more queries *)
Fixpoint pick (m : nat) (out : list Z) (hi : Z) (queries tape : list Z) : res (list Z * list Z) :=
  match m with
  | O => Ok (queries, tape)
  | S m =>
      let (j, tape) := draw 0 hi tape in
      let! x := vget out j in
      pick m out hi (queries ++ [x]) tape
  end.

(** gen_random_next_geq_queries.cpp:12-31 *)
Definition gen_next_geq_queries (dbg : bool) (mem : list Z) (f n : Z) (tape : list Z) : res (list Z) :=
  let! ix := index_mmap mem f in
  let! (_, queries, _) := each (Z.to_nat (ix_size ix)) 0 (fun i st =>
      let '(out, queries, tape) := (st : list Z * list Z * list Z) in
      let! s := index_get dbg mem ix i in
      let! (out, decoded) := decode dbg mem s out 0 in
      let! _ := distr 0 (u32 (decoded - 1)) in
      let! (queries, tape) := pick (Z.to_nat n) out (u32 (decoded - 1)) queries tape in
      Ok (out, queries, tape))
    (repeat 0 (Z.to_nat (ix_universe ix)), [], tape) in
  Ok queries.

(** gen_random_pairwise_queries.cpp:5-10; C++14 leaves the order of the two calls of a line open *)
Definition gen_pairwise_queries (num_queries num_sequences : Z) (tape : list Z) : list Z :=
  fst (draws (2 * Z.to_nat num_queries) 0 (u32 (num_sequences - 1)) tape).
