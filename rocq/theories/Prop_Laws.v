(** Laws relating the operations: C23, C24, C26. *)
From Verif Require Import Base Spec M_Build M_Seq M_Decode M_Query M_Intersect M_Union M_Many P_Ex P_Fin3 P_Laws.

(** C23; [walk] (P_Laws.v) collects v0 = next_geq(0), v1 = next_geq(v0 + 1), ... *)
Theorem C23_point_queries : forall mem a S,
  valid S -> stored 0 mem a S ->
  exists s n, seq_at mem a = Ok s /\ seq_size mem s = Ok n
    /\ (forall dbg i value, 0 <= i < n ->
          exists x, select dbg mem s i value = Ok (true, x)
            /\ contains dbg mem s x = Ok true
            /\ next_geq dbg mem s x = Ok x
            /\ (i + 1 < n -> exists y, select dbg mem s (i + 1) value = Ok (true, y) /\ x < y
                  /\ next_geq dbg mem s (x + 1) = Ok y)
            /\ (i + 1 = n -> next_geq dbg mem s (x + 1) = Ok 4294967295))
    /\ (forall dbg v, 0 <= v < 4294967295 ->
          (contains dbg mem s v = Ok true <-> next_geq dbg mem s v = Ok v))
    /\ (forall dbg fuel, n < Z.of_nat fuel -> walk fuel dbg mem s 0 = Ok S).
Proof. exact c23_point_queries. Qed.
Print Assumptions C23_point_queries.

Example C23_example :
  valid exA /\ stored 0 ex_mem ex_a exA
  /\ (let! s := seq_at ex_mem ex_a in walk 46 true ex_mem s 0) = Ok exA
  /\ (let! s := seq_at ex_mem ex_a in next_geq true ex_mem s 8) = Ok 300
  /\ (let! s := seq_at ex_mem ex_a in contains true ex_mem s 4294967295) = Ok false
  /\ (let! s := seq_at ex_mem ex_a in next_geq true ex_mem s 4294967295) = Ok 4294967295.
Proof.
  split; [exact valid_A|]. split; [exact stored_A0|].
  split; [vm_compute; reflexivity|]. split; [vm_compute; reflexivity|].
  split; vm_compute; reflexivity.
Qed.

(** C24: no encoding is a prefix of another one *)
Theorem C24_prefix_free : forall dbg dbg' S T enc rest,
  valid S -> valid T -> encoding dbg S enc -> encoding dbg' T (enc ++ rest) -> S = T /\ rest = [].
Proof. exact c24_prefix_free. Qed.
Print Assumptions C24_prefix_free.

(** C24: the bytes depend on the list only, and are appended *)
Theorem C24_append : forall S, valid S ->
  exists enc, forall dbg out, exists stats, builder_build dbg out S = (Ok stats, out ++ enc).
Proof. exact c24_append. Qed.
Print Assumptions C24_append.

Example C24_example :
  valid exA /\ encoding true exA encA /\ encoding false exA encA /\ valid exB
  /\ snd (builder_build false encA exB) = encA ++ encB.
Proof.
  split; [exact valid_A|].
  split; [apply encoding_ok; exact valid_A|]. split; [apply encoding_ok; exact valid_A|].
  split; [exact valid_B|]. vm_compute. reflexivity.
Qed.

(** C26: commutativity, idempotence, cardinalities, closure *)
Theorem C26_pairwise : forall tbl mem a b S T,
  shuffle_table_ok tbl -> valid S -> valid T -> stored 31 mem a S -> stored 31 mem b T -> apart a S b T ->
  exists s t i u, seq_at mem a = Ok s /\ seq_at mem b = Ok t
    /\ zlen i + zlen u = zlen S + zlen T /\ (i <> [] -> valid i) /\ valid u
    /\ forall dbg x y z out pos,
         zlen x = 1024 -> zlen y = 4 -> zlen z = 1024 -> 0 <= pos -> pos + zlen u + 23 <= zlen out ->
         let inter p q := let! (_, o, n) := pairwise_intersection tbl dbg mem p q x out pos in Ok (o, n) in
         let union p q := let! (_, _, o, n) := pairwise_union dbg mem p q y z out pos in Ok (o, n) in
         gives pos (inter s t) i /\ gives pos (inter t s) i
         /\ gives pos (union s t) u /\ gives pos (union t s) u
         /\ gives pos (decode dbg mem s out pos) S
         /\ gives pos (inter s s) S /\ gives pos (union s s) S.
Proof. exact c26_pairwise. Qed.
Print Assumptions C26_pairwise.

(** C26: intersecting one more sequence with the (rebuilt) intersection of many is the
    intersection of all of them *)
Theorem C26_chain_intersection : forall tbl mem a S d D addrs Ss seqs seqs' dbg headers tmp bitmap out pos,
  shuffle_table_ok tbl -> Ss <> [] -> Forall valid Ss -> Forall2 (stored 0 mem) addrs Ss ->
  Forall2 (fun a s => seq_at mem a = Ok s) addrs seqs -> sort_outcome mem seqs seqs' ->
  zlen headers = 65536 -> zlen tmp = 1024 -> zlen bitmap = 1024 ->
  0 <= pos -> pos + zlen (hd [] Ss) <= zlen out ->
  gives pos (let! (_, _, _, o, n) := intersection_sorted dbg mem seqs' headers tmp bitmap out pos in Ok (o, n)) D ->
  D <> [] -> stored 31 mem d D -> valid S -> stored 31 mem a S ->
  exists s t e, seq_at mem a = Ok s /\ seq_at mem d = Ok t /\ zlen e <= zlen S
    /\ forall dbg x headers tmp bitmap out pos all,
         zlen x = 1024 -> zlen headers = 65536 -> zlen tmp = 1024 -> zlen bitmap = 1024 ->
         0 <= pos -> pos + zlen e + 23 <= zlen out -> sort_outcome mem (s :: seqs) all ->
         gives pos (let! (_, o, n) := pairwise_intersection tbl dbg mem s t x out pos in Ok (o, n)) e
         /\ gives pos (let! (_, _, _, o, n) := intersection_sorted dbg mem all headers tmp bitmap out pos in Ok (o, n)) e.
Proof. exact c26_chain_intersection. Qed.
Print Assumptions C26_chain_intersection.

Theorem C26_chain_union : forall mem a S d D addrs Ss seqs dbg tmp bitmap out pos,
  Ss <> [] -> Forall valid Ss -> Forall2 (stored 0 mem) addrs Ss ->
  Forall2 (fun a s => seq_at mem a = Ok s) addrs seqs ->
  zlen tmp = 1024 -> zlen bitmap = 1024 ->
  0 <= pos -> pos + total zlen Ss <= zlen out ->
  gives pos (let! (_, _, o, n) := union_many dbg mem seqs tmp bitmap out pos in Ok (o, n)) D ->
  stored 31 mem d D -> valid S -> stored 31 mem a S -> apart a S d D ->
  exists s t e, seq_at mem a = Ok s /\ seq_at mem d = Ok t /\ zlen e <= zlen S + zlen D
    /\ forall dbg x y tmp bitmap out pos,
         zlen x = 4 -> zlen y = 1024 -> zlen tmp = 1024 -> zlen bitmap = 1024 ->
         0 <= pos -> pos + zlen e + 23 <= zlen out ->
         gives pos (let! (_, _, o, n) := pairwise_union dbg mem s t x y out pos in Ok (o, n)) e
         /\ gives pos (let! (_, _, o, n) := union_many dbg mem (s :: seqs) tmp bitmap out pos in Ok (o, n)) e.
Proof. exact c26_chain_union. Qed.
Print Assumptions C26_chain_union.

(** the hypotheses are met by exA (= the intersection and union of itself) and exB; the
    intersection of the two has 3 elements, the union 106 *)
Example C26_example :
  shuffle_table_ok ex_tbl /\ valid exA /\ valid exB
  /\ stored 31 ex_mem ex_a exA /\ stored 31 ex_mem ex_b exB /\ apart ex_a exA ex_b exB
  /\ apart ex_b exB ex_a exA
  /\ 3 + 106 = zlen exA + zlen exB
  /\ gives 0 (let! s := seq_at ex_mem ex_a in
        let! (_, _, _, o, n) := intersection_sorted true ex_mem [s] (repeat 1 (Z.to_nat 65536))
          (repeat 2 (Z.to_nat 1024)) (repeat 3 (Z.to_nat 1024)) (repeat 0 50) 0 in Ok (o, n)) exA.
Proof.
  split; [exact ex_tbl_ok|]. split; [exact valid_A|]. split; [exact valid_B|].
  split; [exact stored_A|]. split; [exact stored_B|]. split; [exact apart_AB|].
  split; [exact (apart_sym _ _ _ _ apart_AB)|]. split; [reflexivity|].
  exists (exA ++ repeat 0 (Z.to_nat (50 - zlen exA))).
  split; [vm_compute; reflexivity|]. intros i Hi. rewrite Z.add_0_l.
  apply Lib.znth_app_l. exact (proj2 Hi).
Qed.
