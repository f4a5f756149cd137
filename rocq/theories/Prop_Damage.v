(** C52: which bytes of a sequence an operation depends on.  [intact slack ok mem a S] (Damage.v) says that memory at
    [a] holds an encoding of [S] of which only the head (number of chunks, skip pointers, chunk headers) and the data
    of the chunks [h] with [ok h] are right: every other byte is arbitrary.  The chunk of a value is its upper half. *)
From Verif Require Import Base Spec Format Damage M_Util M_Build M_Seq M_Query M_Intersect M_Many
  P_Ex P_Damage P_Damage2.
Local Open Scope Z_scope.

(** With every chunk intact this is what the other properties assume. *)
Theorem C52_whole : forall slack mem a S, valid S ->
  (intact slack (fun _ => True) mem a S <-> stored slack mem a S).
Proof. exact c52_whole. Qed.
Print Assumptions C52_whole.

(** Writing anything over the data of one chunk leaves the others intact. *)
Theorem C52_overwritten : forall dbg S enc h junk pre post slack,
  valid S -> encoding dbg S enc -> 0 <= h < 65536 -> zlen junk = chunk_cost S h -> slack <= zlen post ->
  intact slack (fun x => x <> h) (pre ++ overwrite enc (chunk_start S h) junk ++ post) (zlen pre) S.
Proof. exact c52_overwritten. Qed.
Print Assumptions C52_overwritten.

(** The size depends on the head only. *)
Theorem C52_size : forall mem a S,
  valid S -> intact 0 (fun _ => False) mem a S ->
  exists s, seq_at mem a = Ok s /\ seq_size mem s = Ok (zlen S) /\ cardinality mem s = Ok (zlen S).
Proof. exact c52_size. Qed.
Print Assumptions C52_size.

(** Searching a value depends on the data of its own chunk only. *)
Theorem C52_contains : forall dbg mem a S v,
  valid S -> is_u32 v -> intact 0 (eq (v / 65536)) mem a S ->
  exists s b, seq_at mem a = Ok s /\ contains dbg mem s v = Ok b /\ (b = true <-> In v S).
Proof. exact c52_contains. Qed.
Print Assumptions C52_contains.

(** Selecting depends on the data of the chunk of the selected value only, on none if the rank is too large. *)
Theorem C52_select : forall dbg mem a S i value,
  valid S -> is_u32 i -> intact 0 (fun h => exists x, znth S i = Some x /\ x / 65536 = h) mem a S ->
  exists s, seq_at mem a = Ok s
    /\ (forall x, znth S i = Some x -> select dbg mem s i value = Ok (true, x))
    /\ (zlen S <= i -> select dbg mem s i value = Ok (false, value)).
Proof. exact c52_select. Qed.
Print Assumptions C52_select.

(** The next value [r] depends on the data of the chunks of the bound and of [r]; 4294967295 is "none". *)
Theorem C52_next_geq : forall dbg mem a S v r,
  valid S -> is_u32 v ->
  (In r S /\ v <= r /\ (forall x, In x S -> v <= x -> r <= x)) \/ (r = 4294967295 /\ forall x, In x S -> x < v) ->
  intact 0 (fun h => h = v / 65536 \/ h = r / 65536) mem a S ->
  exists s, seq_at mem a = Ok s /\ next_geq dbg mem s v = Ok r.
Proof. exact c52_next_geq. Qed.
Print Assumptions C52_next_geq.

(** Intersecting two sequences depends on the data of the chunks that occur in both. *)
Theorem C52_intersection : forall tbl mem a b S T,
  shuffle_table_ok tbl -> valid S -> valid T ->
  intact 31 (has_chunk T) mem a S -> intact 31 (has_chunk S) mem b T ->
  exists e, enumerates (fun v => In v S /\ In v T) e
    /\ forall dbg x out pos,
         zlen x = 1024 -> 0 <= pos -> pos + zlen e + 23 <= zlen out ->
         exists s t x' out', seq_at mem a = Ok s /\ seq_at mem b = Ok t
           /\ pairwise_intersection tbl dbg mem s t x out pos = Ok (x', out', zlen e)
           /\ zlen x' = 1024 /\ wrote 23 out pos e out'.
Proof. exact c52_intersection. Qed.
Print Assumptions C52_intersection.

(** Intersecting many depends on the data of the chunks that occur in all. *)
Theorem C52_intersection_many : forall mem addrs Ss,
  Ss <> [] -> Forall valid Ss ->
  Forall2 (intact 0 (fun h => forall S, In S Ss -> has_chunk S h) mem) addrs Ss ->
  exists seqs e, Forall2 (fun a s => seq_at mem a = Ok s) addrs seqs
    /\ enumerates (fun v => forall S, In S Ss -> In v S) e
    /\ (exists seqs', sort_outcome mem seqs seqs')
    /\ forall seqs', sort_outcome mem seqs seqs' ->
       forall dbg headers tmp bitmap out pos,
       zlen headers = 65536 -> zlen tmp = 1024 -> zlen bitmap = 1024 -> 0 <= pos -> pos + zlen e <= zlen out ->
       exists headers' tmp' bitmap' out', intersection_sorted dbg mem seqs' headers tmp bitmap out pos
           = Ok (headers', tmp', bitmap', out', zlen e)
         /\ zlen headers' = 65536 /\ zlen tmp' = 1024 /\ zlen bitmap' = 1024 /\ wrote 0 out pos e out'.
Proof. exact c52_intersection_many. Qed.
Print Assumptions C52_intersection_many.

(** The data of the value's own chunk do matter, also in debug mode: 5 is not found. *)
Theorem C52_contains_refuted : exists mem a S v s,
  valid S /\ is_u32 v /\ intact 0 (fun h => h <> v / 65536) mem a S
  /\ In v S /\ seq_at mem a = Ok s /\ forall dbg, contains dbg mem s v = Ok false.
Proof.
  exists mem_first, ex_a, exA, 5, (mkSeq 3 5 5 29). split; [exact valid_A|]. split; [split; reflexivity || discriminate|].
  split; [eapply intact_weaken; [exact intact_first|discriminate]|]. split; [now left|].
  split; [vm_compute; reflexivity|]. intros []; vm_compute; reflexivity.
Qed.
Print Assumptions C52_contains_refuted.

(** [exA] with its chunk 3 overwritten, beside [exB] which has no chunk 3 *)
Example C52_example :
  valid exA /\ intact 31 (has_chunk exB) mem_last ex_a exA /\ intact 31 (has_chunk exA) mem_last ex_b exB
  /\ zlen mem_last = zlen ex_mem /\ mem_last <> ex_mem
  /\ (let! s := seq_at mem_last ex_a in contains true mem_last s 131081) = Ok true
  /\ (let! s := seq_at mem_last ex_a in contains true mem_last s 131082) = Ok false
  /\ (let! s := seq_at mem_last ex_a in select true mem_last s 43 0) = Ok (true, 131081)
  /\ (let! s := seq_at mem_last ex_a in next_geq true mem_last s 301) = Ok 512
  /\ (let! s := seq_at mem_last ex_a in seq_size mem_last s) = Ok 45
  /\ (let! s := seq_at mem_last ex_a in let! t := seq_at mem_last ex_b in
      let! p := pairwise_intersection ex_tbl true mem_last s t (repeat 0 (Z.to_nat 1024)) (repeat 0 60) 0 in
      let '(_, out, n) := p in Ok (firstn (Z.to_nat n) out)) = Ok [7; 513; 520].
Proof.
  split; [exact valid_A|]. split.
  { eapply intact_mono; [exact intact_last|]. intros h Hh ->. exact (no_chunk_3 Hh). }
  split; [apply intact_B|].
  repeat match goal with |- _ /\ _ => split end; vm_compute; (reflexivity || discriminate).
Qed.
