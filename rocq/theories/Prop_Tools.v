(** C36: the programs under /repo/tools.  A tape is the sequence of random numbers; what holds for
    every tape always holds, what some tape does can happen. *)
From Verif Require Import Base Spec Format Room Holds Told Drawn M_Util M_Build M_Index M_Drivers M_Tools P_Ex P_Tests5 P_Tools.
From Coq Require Import Sorted.

(** gen_uniform_data writes a collection of [num] lists, each the distinct values, in increasing
    order, of [a] to [b] draws from 0, ..., [u] -- so [u] itself may occur -- and any such collection
    may come out; with [b] < [a] its behaviour is undefined *)
Theorem C36_uniform : forall num a b u, is_u32 num -> is_u32 a -> is_u32 b -> is_u32 u ->
  (a <= b ->
     (forall tape, exists data, gen_uniform num a b u tape = Ok data)
     /\ forall data, (exists tape, gen_uniform num a b u tape = Ok data)
          <-> (exists Ls, zlen Ls = num /\ Forall (uniform_list a b u) Ls /\ data = collection u Ls))
  /\ (b < a -> forall tape, gen_uniform num a b u tape = UB).
Proof. exact c36_uniform. Qed.
Print Assumptions C36_uniform.

(** ... and an index can be built of it, which contains the lists that pass the filter *)
Theorem C36_uniform_index : forall dbg params num a b u tape,
  is_u32 num -> is_u32 a -> is_u32 b -> 0 <= u < 4294901760 -> a <= b -> 0 <= p_size params ->
  exists Ls, gen_uniform num a b u tape = Ok (collection u Ls)
    /\ Forall valid (kept_lists params Ls)
    /\ exists stats offsets sequences,
         index_build dbg params (collection u Ls) = Ok (stats, offsets, sequences)
         /\ index_file offsets sequences = f_index u (kept_lists params Ls).
Proof. exact c36_uniform_index. Qed.
Print Assumptions C36_uniform_index.

(** ... but the list of all values 0, ..., [u] may come out, and then decode.cpp, whose buffer has [u]
    words, writes past its end *)
Theorem C36_uniform_decode : forall params num a b u,
  is_u32 num -> 1 <= num -> is_u32 a -> is_u32 b -> 0 <= u < 4294901760 -> a <= b -> u + 1 <= b ->
  0 <= p_size params -> pass params (u + 1) u = true ->
  exists tape Ls, gen_uniform num a b u tape = Ok (collection u Ls)
    /\ forall dbg dbg' mem f, holds_index dbg params u Ls 31 mem f -> decode_cpp dbg' mem f = UB.
Proof. exact c36_uniform_decode. Qed.
Print Assumptions C36_uniform_decode.

(** gen_clustered_data: which of the three events a value of rand() selects (0 skip, 1 all, 2 some);
    the search never leaves the vector of events *)
Theorem C36_event : forall dbg r, 0 <= r < 2 ^ 31 ->
  gen_event dbg (float_rand r) = Ok (if r <=? 644245152 then 0 else if r <=? 1073741888 then 1 else 2).
Proof. exact c36_event. Qed.
Print Assumptions C36_event.

(** gen_clustered_data writes a collection of [num] lists, each the union of what it draws for the
    slices of the universe, and any such collection may come out *)
Theorem C36_clustered : forall fuel dbg junk num u, is_u32 num -> 0 <= u <= 4294901760 -> u <= 65536 * Z.of_nat fuel ->
  (forall tape, exists data, gen_clustered fuel dbg true junk num u tape = Ok data)
  /\ forall data, (exists tape, gen_clustered fuel dbg true junk num u tape = Ok data)
       <-> (exists Ls, zlen Ls = num /\ Forall (clustered_list u) Ls /\ data = collection u Ls).
Proof. exact c36_clustered. Qed.
Print Assumptions C36_clustered.

(** ... and an index can be built of it *)
Theorem C36_clustered_index : forall fuel dbg dbg' params junk num u tape,
  is_u32 num -> 0 <= u < 4294901760 -> u <= 65536 * Z.of_nat fuel -> 0 <= p_size params ->
  exists Ls, gen_clustered fuel dbg true junk num u tape = Ok (collection u Ls)
    /\ Forall valid (kept_lists params Ls)
    /\ exists stats offsets sequences,
         index_build dbg' params (collection u Ls) = Ok (stats, offsets, sequences)
         /\ index_file offsets sequences = f_index u (kept_lists params Ls).
Proof. exact c36_clustered_index. Qed.
Print Assumptions C36_clustered_index.

(** with a universe above 2^32 - 2^16 the bounds of the slice wrap around: the program never ends
    (or has undefined behaviour), e.g. it never ends when rand() always yields 0 *)
Theorem C36_clustered_endless : forall dbg binary junk num u, is_u32 num -> 1 <= num -> is_u32 u -> 4294901760 < u ->
  (forall fuel tape data, gen_clustered fuel dbg binary junk num u tape <> Ok data)
  /\ (forall fuel, gen_clustered fuel dbg binary junk num u [] = Fuel).
Proof. exact c36_clustered_endless. Qed.
Print Assumptions C36_clustered_endless.

(** in text mode it also writes what std::unique left behind the distinct values: here 10 values follow
    the number 1 *)
Theorem C36_clustered_text : forall dbg junk,
  gen_clustered 1 dbg false junk 1 5 [2000000000] = Ok (1 :: 0 :: map junk (seq 1 9)).
Proof. exact c36_clustered_text. Qed.
Print Assumptions C36_clustered_text.

(** gen_random_select_queries writes [n] ranks for every list that exist in the list, any of them
    possible, and select.cpp then prints four times the sum of the values of these ranks *)
Theorem C36_select : forall dbg dbg' params u Ls mem f n,
  is_u32 u -> is_u32 n -> Forall valid (kept_lists params Ls) -> holds_index dbg params u Ls 0 mem f ->
  let Ks := kept_lists params Ls in
  let good qs := zlen qs = zlen Ks * n /\ Forall (fun q => 0 <= snd q < zlen (fst q)) (asked Ks n qs) in
  (forall tape, exists qs, gen_select_queries dbg' mem f n tape = Ok qs)
  /\ (forall qs, (exists tape, gen_select_queries dbg' mem f n tape = Ok qs) <-> good qs)
  /\ (forall qs, good qs -> zlen Ks * n < 2 ^ 32 -> zlen Ks < 2 ^ 32 ->
        select_cpp dbg' mem f n qs
        = Ok (zlen qs, 4 * total (fun q => nth (Z.to_nat (snd q)) (fst q) 0) (asked Ks n qs) mod 2 ^ 64)).
Proof. exact c36_select. Qed.
Print Assumptions C36_select.

(** gen_random_next_geq_queries writes [n] values of every list, any of them possible, if every
    list can be decoded into as many words as the universe, and otherwise writes past the end;
    next_geq.cpp then prints four times their sum *)
Theorem C36_next_geq : forall dbg dbg' params u Ls mem f n,
  is_u32 u -> is_u32 n -> Forall valid (kept_lists params Ls) -> holds_index dbg params u Ls 31 mem f ->
  let Ks := kept_lists params Ls in
  let good qs := zlen qs = zlen Ks * n /\ Forall (fun q => In (snd q) (fst q)) (asked Ks n qs) in
  (Forall (fun S => decode_fits S u) Ks ->
     (forall tape, exists qs, gen_next_geq_queries dbg' mem f n tape = Ok qs)
     /\ (forall qs, (exists tape, gen_next_geq_queries dbg' mem f n tape = Ok qs) <-> good qs))
  /\ (Exists (fun S => ~ decode_fits S u) Ks -> forall tape, gen_next_geq_queries dbg' mem f n tape = UB)
  /\ (forall qs, good qs -> zlen Ks * n < 2 ^ 32 -> zlen Ks < 2 ^ 32 ->
        next_geq_cpp dbg' mem f n qs = Ok (zlen qs, 4 * total (fun q => q) qs mod 2 ^ 64)).
Proof. exact c36_next_geq. Qed.
Print Assumptions C36_next_geq.

(** gen_random_pairwise_queries writes [num] pairs of positions below [m], any of them possible (any
    words if [m] is 0), which intersect.cpp and union.cpp read as they are when the index has [m]
    lists *)
Theorem C36_pairwise : forall num m, is_u32 num -> is_u32 m ->
  let hi := if m =? 0 then 4294967295 else m - 1 in
  let good qs := zlen qs = num /\ Forall (fun q => 0 <= fst q <= hi /\ 0 <= snd q <= hi) qs in
  (forall out, (exists tape, gen_pairwise_queries num m tape = out)
     <-> exists qs : list (Z * Z), good qs /\ out = flat_map (fun q => [fst q; snd q]) qs)
  /\ (forall Ks qs, 1 <= m -> zlen Ks = m -> good qs ->
        pairs_read num (flat_map (fun q => [fst q; snd q]) qs) qs /\ pairs_of Ks qs).
Proof. exact c36_pairwise. Qed.
Print Assumptions C36_pairwise.

Example C36_example :
  gen_uniform 2 1 4 10 [3; 10; 4; 10; 0; 2; 7; 7; 9] = Ok (collection 10 [[0; 4; 10]; [7; 9]])
  /\ gen_uniform 2 5 4 10 [] = UB
  /\ uniform_list 1 4 10 [0; 4; 10]
  /\ pass t_params (10 + 1) 10 = true
  /\ gen_event true (float_rand 2147483647) = Ok 2
  /\ (forall junk, gen_clustered 2 true true junk 2 65540 [1000000; 2000000000; 2; 4; 3; 4; 3; 4; 3; 2; 2; 2; 0; 1; 1; 5; 1000000000; 9]
        = Ok (collection 65540 [[65536; 65537; 65538; 65539; 65540]; [65536; 65537; 65538; 65539]]))
  /\ (let Ks := t_kept in
      kept_lists t_params t_lists = Ks /\ Forall valid Ks /\ holds_index true t_params 1000 t_lists 31 t_mem 1
      /\ Forall (fun S => decode_fits S 1000) Ks
      /\ gen_select_queries true t_mem 1 2 [2; 4; 4; 5; 600; 1] = Ok [2; 1; 4; 0; 0; 1]
      /\ gen_next_geq_queries true t_mem 1 2 [2; 4; 4; 5; 600; 1] = Ok [3; 2; 71; 2; 0; 3]
      /\ select_cpp true t_mem 1 2 [2; 1; 4; 0; 0; 1] = Ok (6, 4 * (3 + 2 + 71 + 2 + 0 + 3))
      /\ next_geq_cpp true t_mem 1 2 [3; 2; 71; 2; 0; 3] = Ok (6, 4 * (3 + 2 + 71 + 2 + 0 + 3)))
  /\ gen_pairwise_queries 2 3 [5; 1; 0; 7] = [2; 1; 0; 1].
Proof. exact c36_ex. Qed.
