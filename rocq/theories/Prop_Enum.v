(** uncompress and the enumerators: C08 - C10. *)
From Verif Require Import Base Spec M_Seq M_Decode M_Query M_Uncompress P_Ex P_Ng P_Fin1 P_Fin2.
From Coq Require Import Sorted.

(** C08: uncompress writes the exact bitmap of every non-empty chunk and nothing else *)
Theorem C08_uncompress : forall dbg mem a S out pos,
  valid S -> stored 0 mem a S -> 0 <= pos ->
  (forall v, In v S -> pos + 1024 * (v / 65536 + 1) <= zlen out) ->
  exists s out', seq_at mem a = Ok s /\ uncompress dbg mem s out pos = Ok (out', zlen S)
    /\ zlen out' = zlen out
    /\ (forall i, 0 <= i -> (exists v, In v S /\ v / 65536 = i / 1024) ->
          exists w, znth out' (pos + i) = Some w /\ 0 <= w < 2 ^ 64
            /\ forall j, 0 <= j < 64 -> (Z.testbit w j = true <-> In (64 * i + j) S))
    /\ (forall i, i < 0 \/ (forall v, In v S -> v / 65536 <> i / 1024) ->
          znth out' (pos + i) = znth out (pos + i)).
Proof. exact c08_uncompress. Qed.
Print Assumptions C08_uncompress.

Example C08_example :
  valid exA /\ stored 0 ex_mem ex_a exA
  /\ (forall v, In v exA -> 1 + 1024 * (v / 65536 + 1) <= zlen (repeat 7 (Z.to_nat 4097)))
  /\ (let! s := seq_at ex_mem ex_a in
      let! (out, n) := uncompress true ex_mem s (repeat 7 (Z.to_nat 4097)) 1 in
      Ok (znth out 0, znth out 1, znth out 1025, znth out 2049, n))
     = Ok (Some 7, Some 160, Some 7, Some 512, 45).
Proof.
  split; [exact valid_A|]. split; [exact stored_A0|]. split.
  - intros v Hv. replace (zlen (repeat 7 (Z.to_nat 4097))) with 4097 by (vm_compute; reflexivity).
    assert (H : forallb (fun v => 1 + 1024 * (v / 65536 + 1) <=? 4097) exA = true) by (vm_compute; reflexivity).
    rewrite forallb_forall in H. specialize (H v Hv). now apply Z.leb_le.
  - vm_compute. reflexivity.
Qed.

(** C09: after k next() calls the enumerator is at the k-th value; [buf]: any previous
    content of its own buffer.  k may exceed |S|; after 2^32 further calls the counter wraps. *)
Theorem C09_enumerator : forall dbg mem a S p buf k,
  valid S -> stored 31 mem a S -> zlen buf = 65536 -> Z.of_nat k < zlen S + 4294967296 ->
  exists s e0 e, seq_at mem a = Ok s
    /\ enum_init dbg mem buf s p = Ok e0 /\ enum_steps k dbg mem e0 = Ok e
    /\ (en_has_next e = true <-> Z.of_nat k < zlen S)
    /\ (forall x, znth S (Z.of_nat k) = Some x -> enum_value e = Ok x)
    /\ (zlen S <= Z.of_nat k -> enum_value e = Ok p).
Proof. exact c09_enumerator. Qed.
Print Assumptions C09_enumerator.

Example C09_example :
  valid exA /\ stored 31 ex_mem ex_a exA /\ zlen (repeat 9 (Z.to_nat 65536)) = 65536
  /\ (let! s := seq_at ex_mem ex_a in
      let! e := enum_init true ex_mem (repeat 9 (Z.to_nat 65536)) s 777 in
      let! e1 := enum_steps 44 true ex_mem e in
      let! v1 := enum_value e1 in
      let! e2 := enum_steps 2 true ex_mem e1 in
      let! v2 := enum_value e2 in
      Ok (en_has_next e1, v1, en_has_next e2, v2)) = Ok (true, 196608, false, 777).
Proof.
  split; [exact valid_A|]. split; [exact stored_A|]. split; vm_compute; reflexivity.
Qed.

(** C10, first positive part: at most 32 non-empty chunks, any non-decreasing history *)
Theorem C10_next_geq_enumerator_small : forall dbg mem a S qs,
  valid S -> stored 0 mem a S -> Forall is_u32 qs -> non_decreasing 0 qs ->
  zlen (nodup Z.eq_dec (map (fun v => v / 65536) S)) <= 32 ->
  exists s g, seq_at mem a = Ok s /\ ng_init mem s = Ok g /\ ng_size g = zlen S
    /\ ng_run dbg mem g qs = Ok (map (spec_next_geq S) qs).
Proof. exact ng_history_small. Qed.
Print Assumptions C10_next_geq_enumerator_small.

(** C10, second positive part: any number of chunks, provided every query stays within 31
    chunk ids of the previous answer *)
Theorem C10_next_geq_enumerator_gentle : forall dbg mem a S q qs,
  valid S -> stored 0 mem a S -> Forall is_u32 (q :: qs) -> non_decreasing q qs ->
  gentle S (spec_next_geq S q) qs ->
  exists s g, seq_at mem a = Ok s /\ ng_init mem s = Ok g /\ ng_size g = zlen S
    /\ ng_run dbg mem g (q :: qs) = Ok (map (spec_next_geq S) (q :: qs)).
Proof. exact ng_history_gentle. Qed.
Print Assumptions C10_next_geq_enumerator_gentle.

Example C10_example :
  valid exA /\ stored 0 ex_mem ex_a exA /\ Forall is_u32 [6; 8; 600; 200000]
  /\ non_decreasing 0 [6; 8; 600; 200000]
  /\ zlen (nodup Z.eq_dec (map (fun v => v / 65536) exA)) <= 32
  /\ gentle exA (spec_next_geq exA 6) [8; 600; 200000]
  /\ (let! s := seq_at ex_mem ex_a in
      let! g := ng_init ex_mem s in ng_run true ex_mem g [6; 8; 600; 200000])
     = Ok [7; 300; 131081; 4294967295].
Proof.
  split; [exact valid_A|]. split; [exact stored_A0|].
  split; [repeat constructor; vm_compute; congruence|].
  repeat split; vm_compute; congruence.
Qed.

(** C10 is false in general: a non-decreasing history on which the enumerator returns a value
    that is not in S (41 chunks; queries 65536*1, 65536*33 answer 65536*33+5) *)
Theorem C10_next_geq_enumerator_refuted : exists S mem a qs s g r,
  valid S /\ stored 31 mem a S /\ Forall is_u32 qs /\ non_decreasing 0 qs
  /\ seq_at mem a = Ok s /\ ng_init mem s = Ok g
  /\ (forall dbg, ng_run dbg mem g qs = Ok r)
  /\ ~ (forall x, In x r -> In x S).
Proof. exact c10_refuted. Qed.
Print Assumptions C10_next_geq_enumerator_refuted.

