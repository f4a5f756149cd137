(** Bytes read and words written: C19, C20. *)
From Verif Require Import Base Spec M_Seq M_Decode M_Query M_Uncompress M_Intersect M_Union M_Many P_Ex P_Fin5.

(** C19: cardinality, contains, select, next_geq and uncompress give the same answers in a memory
    that consists of the encoding alone as in any memory that holds it (an access outside
    memory would be UB) *)
Theorem C19_own_bytes : forall dbg0 S enc mem a,
  valid S -> encoding dbg0 S enc -> bytes_at mem a enc ->
  exists s0 s, seq_at enc 0 = Ok s0 /\ seq_at mem a = Ok s
    /\ (exists n, cardinality enc s0 = Ok n /\ cardinality mem s = Ok n)
    /\ (forall dbg v, is_u32 v -> exists b, contains dbg enc s0 v = Ok b /\ contains dbg mem s v = Ok b)
    /\ (forall dbg i value, is_u32 i ->
          exists r, select dbg enc s0 i value = Ok r /\ select dbg mem s i value = Ok r)
    /\ (forall dbg v, is_u32 v -> exists r, next_geq dbg enc s0 v = Ok r /\ next_geq dbg mem s v = Ok r)
    /\ (forall dbg out pos, 0 <= pos -> (forall v, In v S -> pos + 1024 * (v / 65536 + 1) <= zlen out) ->
          exists r, uncompress dbg enc s0 out pos = Ok r /\ uncompress dbg mem s out pos = Ok r).
Proof. exact c19_own_bytes. Qed.
Print Assumptions C19_own_bytes.

Example C19_example :
  valid exA /\ bytes_at ex_mem ex_a encA
  /\ (let! s := seq_at encA 0 in next_geq true encA s 600) = Ok 131081
  /\ (let! s := seq_at encA 0 in let! (_, n) := uncompress true encA s (repeat 0 (Z.to_nat 4096)) 0 in Ok n) = Ok 45.
Proof. split; [exact valid_A|]. split; [exact bytes_A|]. split; vm_compute; reflexivity. Qed.

(** the same for intersection and union_many: any two memories that hold the encodings *)
Theorem C19_many : forall mem mem' addrs addrs' Ss,
  Ss <> [] -> Forall valid Ss -> Forall2 (stored 0 mem) addrs Ss -> Forall2 (stored 0 mem') addrs' Ss ->
  exists seqs seqs', Forall2 (fun a s => seq_at mem a = Ok s) addrs seqs
    /\ Forall2 (fun a s => seq_at mem' a = Ok s) addrs' seqs'
    /\ (forall dbg headers tmp bitmap out pos q q',
          zlen headers = 65536 -> zlen tmp = 1024 -> zlen bitmap = 1024 ->
          0 <= pos -> pos + zlen (hd [] Ss) <= zlen out ->
          sort_outcome mem seqs q -> sort_outcome mem' seqs' q' ->
          exists out' n,
            (let! (_, _, _, o, k) := intersection_sorted dbg mem q headers tmp bitmap out pos in Ok (o, k)) = Ok (out', n)
            /\ (let! (_, _, _, o, k) := intersection_sorted dbg mem' q' headers tmp bitmap out pos in Ok (o, k)) = Ok (out', n))
    /\ (forall dbg tmp bitmap out pos,
          zlen tmp = 1024 -> zlen bitmap = 1024 ->
          0 <= pos -> pos + total zlen Ss <= zlen out ->
          exists out' n,
            (let! (_, _, o, k) := union_many dbg mem seqs tmp bitmap out pos in Ok (o, k)) = Ok (out', n)
            /\ (let! (_, _, o, k) := union_many dbg mem' seqs' tmp bitmap out pos in Ok (o, k)) = Ok (out', n)).
Proof. exact c19_many. Qed.
Print Assumptions C19_many.

(** decode, enumerator, pairwise_intersection and pairwise_union are correct with 31 readable
    bytes after the encodings (C01, C09, C11, C12); 30 are not enough *)
Theorem C19_decode_refuted : exists S mem a buf s,
  valid S /\ stored 30 mem a S /\ zlen S + 23 <= zlen buf /\ seq_at mem a = Ok s
  /\ forall dbg, decode dbg mem s buf 0 = UB.
Proof. exact c19_decode_refuted. Qed.
Print Assumptions C19_decode_refuted.

Theorem C19_enumerator_refuted : exists S mem a buf s,
  valid S /\ stored 30 mem a S /\ zlen buf = 65536 /\ seq_at mem a = Ok s
  /\ forall dbg p, enum_init dbg mem buf s p = UB.
Proof. exact c19_enumerator_refuted. Qed.
Print Assumptions C19_enumerator_refuted.

Theorem C19_intersection_refuted : forall tbl, exists S T mem a b s t x out,
  valid S /\ valid T /\ stored 30 mem a S /\ stored 30 mem b T
  /\ seq_at mem a = Ok s /\ seq_at mem b = Ok t
  /\ zlen x = 1024 /\ zlen S + 23 <= zlen out
  /\ forall dbg, pairwise_intersection tbl dbg mem s t x out 0 = UB.
Proof. exact c19_intersection_refuted. Qed.
Print Assumptions C19_intersection_refuted.

Theorem C19_union_refuted : exists S T mem a b s t x y out,
  valid S /\ valid T /\ stored 30 mem a S /\ stored 30 mem b T /\ apart a S b T
  /\ seq_at mem a = Ok s /\ seq_at mem b = Ok t
  /\ zlen x = 4 /\ zlen y = 1024 /\ zlen S + zlen T + 23 <= zlen out
  /\ forall dbg, pairwise_union dbg mem s t x y out 0 = UB.
Proof. exact c19_union_refuted. Qed.
Print Assumptions C19_union_refuted.

(** C20: at most 23 words after the result are written *)
Theorem C20_decode : forall dbg mem a S buf pos,
  valid S -> stored 31 mem a S -> 0 <= pos -> pos + zlen S + 23 <= zlen buf ->
  exists s buf', seq_at mem a = Ok s /\ decode dbg mem s buf pos = Ok (buf', zlen S)
    /\ forall i, i < pos \/ pos + zlen S + 23 <= i -> znth buf' i = znth buf i.
Proof. exact c20_decode. Qed.
Print Assumptions C20_decode.

Theorem C20_intersection : forall tbl dbg mem a b S T x out pos,
  shuffle_table_ok tbl -> valid S -> valid T -> stored 31 mem a S -> stored 31 mem b T ->
  zlen x = 1024 -> 0 <= pos -> pos + Z.min (zlen S) (zlen T) + 23 <= zlen out ->
  exists s t x' out' n, seq_at mem a = Ok s /\ seq_at mem b = Ok t
    /\ pairwise_intersection tbl dbg mem s t x out pos = Ok (x', out', n)
    /\ 0 <= n <= Z.min (zlen S) (zlen T)
    /\ forall i, i < pos \/ pos + n + 23 <= i -> znth out' i = znth out i.
Proof. exact c20_intersection. Qed.
Print Assumptions C20_intersection.

Theorem C20_union : forall dbg mem a b S T x y out pos,
  valid S -> valid T -> stored 31 mem a S -> stored 31 mem b T -> apart a S b T ->
  zlen x = 4 -> zlen y = 1024 -> 0 <= pos -> pos + zlen S + zlen T + 23 <= zlen out ->
  exists s t x' y' out' n, seq_at mem a = Ok s /\ seq_at mem b = Ok t
    /\ pairwise_union dbg mem s t x y out pos = Ok (x', y', out', n)
    /\ 0 <= n <= zlen S + zlen T
    /\ forall i, i < pos \/ pos + n + 23 <= i -> znth out' i = znth out i.
Proof. exact c20_union. Qed.
Print Assumptions C20_union.

Example C20_example :
  shuffle_table_ok ex_tbl /\ valid exA /\ valid exB /\ stored 31 ex_mem ex_a exA /\ stored 31 ex_mem ex_b exB
  /\ apart ex_a exA ex_b exB
  /\ (let! s := seq_at ex_mem ex_a in let! (buf, n) := decode true ex_mem s (repeat 0 90) 2 in
      Ok (n, firstn 3 buf, skipn (2 + 45 + 23) buf)) = Ok (45, [0; 0; 5], repeat 0 20).
Proof.
  split; [exact ex_tbl_ok|]. split; [exact valid_A|]. split; [exact valid_B|].
  split; [exact stored_A|]. split; [exact stored_B|]. split; [exact apart_AB|]. vm_compute. reflexivity.
Qed.

(** ... and 22 are not enough, let alone a buffer of size() words *)
Theorem C20_decode_refuted : exists S mem a s,
  valid S /\ stored 31 mem a S /\ seq_at mem a = Ok s
  /\ (forall dbg, decode dbg mem s (repeat 0 (Z.to_nat (zlen S + 22))) 0 = UB)
  /\ (forall dbg, decode dbg mem s (repeat 0 (Z.to_nat (zlen S))) 0 = UB)
  /\ (forall dbg, exists buf', decode dbg mem s (repeat 0 (Z.to_nat (zlen S + 23))) 0 = Ok (buf', zlen S)
        /\ forall i, zlen S <= i < zlen S + 23 -> znth buf' i = Some 7).
Proof. exact c20_decode_refuted. Qed.
Print Assumptions C20_decode_refuted.

Theorem C20_intersection_refuted : forall tbl, exists S T mem a b s t x,
  valid S /\ valid T /\ stored 31 mem a S /\ stored 31 mem b T
  /\ seq_at mem a = Ok s /\ seq_at mem b = Ok t /\ zlen x = 1024
  /\ enumerates (fun v => In v S /\ In v T) S
  /\ forall dbg, pairwise_intersection tbl dbg mem s t x (repeat 0 (Z.to_nat (zlen S + 22))) 0 = UB.
Proof. exact c20_intersection_refuted. Qed.
Print Assumptions C20_intersection_refuted.

Theorem C20_union_refuted : exists S T mem a b s t x y,
  valid S /\ valid T /\ stored 31 mem a S /\ stored 31 mem b T /\ apart a S b T
  /\ seq_at mem a = Ok s /\ seq_at mem b = Ok t /\ zlen x = 4 /\ zlen y = 1024
  /\ (forall v, In v S -> ~ In v T)
  /\ forall dbg, pairwise_union dbg mem s t x y (repeat 0 (Z.to_nat (zlen S + zlen T + 22))) 0 = UB.
Proof. exact c20_union_refuted. Qed.
Print Assumptions C20_union_refuted.
