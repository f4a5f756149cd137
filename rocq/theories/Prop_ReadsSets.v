(** C46: exactly how many readable bytes the pairwise set operations need after the encodings. *)
From Verif Require Import Base Hw Spec Format Room RoomSets Reads ReadsSets M_Util M_Seq M_Decode M_Intersect M_Union P_Ex
  P_RoomSets P_ReadsEx.

(** [s_extra] and [t_extra] bytes of memory follow the encodings, [zlen out - pos] words are free in
    the buffer.  Both requirements are computed from the values alone.  If they hold the result is
    exact; otherwise the intersection reads behind the memory or writes behind the buffer. *)
Theorem C46_intersection : forall tbl mem a b S T,
  shuffle_table_ok tbl -> valid S -> valid T -> stored 0 mem a S -> stored 0 mem b T ->
  let s_extra := zlen mem - (a + zlen (f_sequence S)) in
  let t_extra := zlen mem - (b + zlen (f_sequence T)) in
  exists s t e, seq_at mem a = Ok s /\ seq_at mem b = Ok t /\ enumerates (fun v => In v S /\ In v T) e
    /\ forall dbg x out pos, zlen x = 1024 -> 0 <= pos <= zlen out ->
       (meet_fits S T (zlen out - pos) -> meet_reads S T s_extra t_extra -> exists x' out',
          pairwise_intersection tbl dbg mem s t x out pos = Ok (x', out', zlen e)
          /\ zlen x' = 1024 /\ wrote 23 out pos e out')
       /\ (~ (meet_fits S T (zlen out - pos) /\ meet_reads S T s_extra t_extra) ->
             pairwise_intersection tbl dbg mem s t x out pos = UB).
Proof. exact c46_intersection. Qed.
Print Assumptions C46_intersection.

(** the same for the union of sequences stored at different places *)
Theorem C46_union : forall mem a b S T,
  valid S -> valid T -> stored 0 mem a S -> stored 0 mem b T -> apart a S b T -> a <> b ->
  let s_extra := zlen mem - (a + zlen (f_sequence S)) in
  let t_extra := zlen mem - (b + zlen (f_sequence T)) in
  exists s t e, seq_at mem a = Ok s /\ seq_at mem b = Ok t /\ enumerates (fun v => In v S \/ In v T) e
    /\ forall dbg x y out pos, zlen x = 4 -> zlen y = 1024 -> 0 <= pos <= zlen out ->
       (join_fits S T (zlen out - pos) -> join_reads S T s_extra t_extra -> exists x' y' out',
          pairwise_union dbg mem s t x y out pos = Ok (x', y', out', zlen e)
          /\ zlen x' = 4 /\ zlen y' = 1024 /\ wrote 23 out pos e out')
       /\ (~ (join_fits S T (zlen out - pos) /\ join_reads S T s_extra t_extra) ->
             pairwise_union dbg mem s t x y out pos = UB).
Proof. exact c46_union. Qed.
Print Assumptions C46_union.

(** a sequence united with itself is read without leaving its encoding *)
Theorem C46_union_self : forall mem a S, valid S -> stored 0 mem a S ->
  exists s, seq_at mem a = Ok s
    /\ forall dbg x y out pos, zlen x = 4 -> zlen y = 1024 -> 0 <= pos <= zlen out ->
       (pos + zlen S <= zlen out -> exists x' y' out',
          pairwise_union dbg mem s s x y out pos = Ok (x', y', out', zlen S)
          /\ zlen x' = 4 /\ zlen y' = 1024 /\ wrote 23 out pos S out')
       /\ (zlen out < pos + zlen S -> pairwise_union dbg mem s s x y out pos = UB).
Proof. exact c46_union_self. Qed.
Print Assumptions C46_union_self.

(** 31 bytes are always enough *)
Theorem C46_enough : forall S T s t, valid S -> valid T -> 31 <= s -> 31 <= t ->
  meet_reads S T s t /\ join_reads S T s t.
Proof. exact c46_enough. Qed.
Print Assumptions C46_enough.

(** Two sequences of one value, [5] being the last thing in memory but for [n] bytes.  15 bytes are
    needed to decode [5] and to intersect it with [9].  To unite [5] with [9], 16 are needed, because
    the decoder is started behind the only byte of its block; to unite [9] with [5], none, and
    15 behind [9], 13 of which are the encoding of [5]. *)
Example C46_example :
  valid [5] /\ valid [9] /\ apart at5 [5] 0 [9] /\ apart 0 [9] at5 [5] /\ at5 <> 0 /\ 0 <> at5
  /\ (forall n, stored 0 (pair_mem n) at5 [5] /\ stored 0 (pair_mem n) 0 [9])
  /\ (forall s t, meet_reads [5] [9] s t <-> 15 <= s /\ 15 <= t)
  /\ (forall s t, join_reads [5] [9] s t -> 16 <= s)
  /\ (forall s t, 16 <= s -> 15 <= t -> join_reads [5] [9] s t)
  /\ (forall s t, 15 <= s -> 0 <= t -> join_reads [9] [5] s t)
  /\ (let run n := let! s := seq_at (pair_mem n) at5 in
        let! (out, m) := decode true (pair_mem n) s (repeat 0 40) 0 in Ok (m, firstn 1 out) in
      run 14%nat = UB /\ run 15%nat = Ok (1, [5]))
  /\ (let run n := let! s := seq_at (pair_mem n) at5 in let! t := seq_at (pair_mem n) 0 in
        let! (_, out, m) := pairwise_intersection ex_tbl true (pair_mem n) s t (repeat 3 (Z.to_nat 1024)) (repeat 0 40) 0 in
        Ok m in
      run 14%nat = UB /\ run 15%nat = Ok 0)
  /\ (let run n := let! s := seq_at (pair_mem n) at5 in let! t := seq_at (pair_mem n) 0 in
        let! (_, _, out, m) := pairwise_union true (pair_mem n) s t [1; 2; 3; 4] (repeat 3 (Z.to_nat 1024)) (repeat 0 40) 0 in
        Ok (m, firstn 2 out) in
      run 15%nat = UB /\ run 16%nat = Ok (2, [5; 9]))
  /\ (let run n := let! s := seq_at (pair_mem n) at5 in let! t := seq_at (pair_mem n) 0 in
        let! (_, _, out, m) := pairwise_union true (pair_mem n) t s [1; 2; 3; 4] (repeat 3 (Z.to_nat 1024)) (repeat 0 40) 0 in
        Ok (m, firstn 2 out) in
      run 1%nat = UB /\ run 2%nat = Ok (2, [5; 9]))
  /\ (let run n := let! s := seq_at (pair_mem n) at5 in
        let! (_, _, out, m) := pairwise_union true (pair_mem n) s s [1; 2; 3; 4] (repeat 3 (Z.to_nat 1024)) (repeat 0 1) 0 in
        Ok (m, out) in
      run 0%nat = Ok (1, [5])).
Proof.
  split; [exact valid_5|]. split; [exact valid_n|]. split; [exact apart_5|]. split; [exact apart_n|].
  split; [vm_compute; discriminate|]. split; [vm_compute; discriminate|].
  split; [intro n; exact (conj (stored_5 n) (stored_n n))|]. split; [exact meet_59|]. split; [exact join_59|].
  split; [exact join_59_ok|]. split; [exact join_95_ok|].
  split; [split; vm_compute; reflexivity|]. split; [split; vm_compute; reflexivity|].
  split; [split; vm_compute; reflexivity|]. split; [split; vm_compute; reflexivity|]. vm_compute; reflexivity.
Qed.
