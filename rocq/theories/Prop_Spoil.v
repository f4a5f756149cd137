(** What damage does to operations that go through a whole sequence: C56. *)
From Verif Require Import Base Spec Outcome Format Damage M_Seq M_Decode M_Uncompress P_Ex P_Damage2 P_Spoil P_Spoil2.

(** C56: The head is intact, and the data of the chunks with [ok h]; the other bytes are arbitrary.  If uncompress
    ends, it returns the number of values, writes the right words for the intact chunks, and nothing outside of the
    words of the chunks. *)
Theorem C56_uncompress : forall dbg mem a S ok s out pos out' n,
  valid S -> Forall is_byte mem -> intact 0 ok mem a S -> seq_at mem a = Ok s -> 0 <= pos ->
  uncompress dbg mem s out pos = Ok (out', n) ->
  n = zlen S /\ zlen out' = zlen out
  /\ (forall i, 0 <= i -> has_chunk S (i / 1024) -> ok (i / 1024) ->
        exists w, znth out' (pos + i) = Some w /\ 0 <= w < 2 ^ 64
          /\ forall j, 0 <= j < 64 -> (Z.testbit w j = true <-> In (64 * i + j) S))
  /\ (forall i, ~ (0 <= i /\ has_chunk S (i / 1024)) -> znth out' (pos + i) = znth out (pos + i)).
Proof. exact c56_uncompress. Qed.
Print Assumptions C56_uncompress.

(** The enumerator yields as many values as there are, and in every intact chunk the right ones, also behind
    damaged chunks. *)
Theorem C56_enumerator : forall dbg mem a S ok s p buf k e,
  valid S -> Forall is_byte mem -> intact 0 ok mem a S -> seq_at mem a = Ok s -> zlen buf = 65536 ->
  Z.of_nat k < zlen S + 4294967296 ->
  (let! e := enum_init dbg mem buf s p in enum_steps k dbg mem e) = Ok e ->
  (en_has_next e = true <-> Z.of_nat k < zlen S)
  /\ (forall x, znth S (Z.of_nat k) = Some x -> ok (x / 65536) -> enum_value e = Ok x)
  /\ (zlen S <= Z.of_nat k -> enum_value e = Ok p).
Proof. exact c56_enumerator. Qed.
Print Assumptions C56_enumerator.

(** decode writes nothing before [pos], and puts every value in its place up to the first damaged chunk. *)
Theorem C56_decode : forall dbg mem a S ok s out pos out' n,
  valid S -> Forall is_byte mem -> intact 0 ok mem a S -> seq_at mem a = Ok s -> 0 <= pos <= zlen out ->
  decode dbg mem s out pos = Ok (out', n) ->
  zlen out' = zlen out /\ 0 <= n /\ (forall i, i < pos -> znth out' i = znth out i)
  /\ forall i x, znth S i = Some x -> (forall h, h <= x / 65536 -> has_chunk S h -> ok h) -> znth out' (pos + i) = Some x.
Proof. exact c56_decode. Qed.
Print Assumptions C56_decode.

(** Unlike those of the enumerator, the later values of decode are not in their places, even if their own chunk is
    intact, and the number it returns is wrong; debug mode does not notice. *)
Theorem C56_decode_refuted : exists mem a S s out i x,
  valid S /\ Forall is_byte mem /\ intact 0 (fun h => h <> 0) mem a S /\ seq_at mem a = Ok s
  /\ znth S i = Some x /\ x / 65536 <> 0
  /\ forall dbg, exists out' n, decode dbg mem s out 0 = Ok (out', n) /\ n <> zlen S /\ znth out' i <> Some x.
Proof.
  exists mem_first, ex_a, exA, (mkSeq 3 5 5 29), (repeat 0 (Z.to_nat 400)), 43, 131081.
  split; [exact valid_A|]. split; [exact bytes_first|].
  split; [eapply intact_weaken; [exact intact_first|discriminate]|].
  split; [vm_compute; reflexivity|]. split; [vm_compute; reflexivity|]. split; [discriminate|].
  intros []; eexists; eexists; (split; [vm_compute; reflexivity|split; vm_compute; discriminate]).
Qed.
Print Assumptions C56_decode_refuted.

(** If 8712 more bytes can be read behind the sequence, all three end, whatever the damaged bytes are: uncompress in
    a buffer that is large enough for the list, decode in one with room for 65536 values for each chunk, the
    enumerator in its own. *)
Theorem C56_defined : forall dbg mem a S s,
  valid S -> Forall is_byte mem -> intact 0 (fun _ => False) mem a S -> seq_at mem a = Ok s ->
  a + zlen (f_sequence S) + 8712 <= zlen mem ->
  (forall out pos, 0 <= pos -> (forall v, In v S -> pos + 1024 * (v / 65536 + 1) <= zlen out) ->
     exists r, uncompress dbg mem s out pos = Ok r)
  /\ (forall out pos, 0 <= pos -> pos + 65536 * zlen (ids 65536 (Z.to_nat 65536) S) <= zlen out ->
     exists r, decode dbg mem s out pos = Ok r)
  /\ (forall buf p k, zlen buf = 65536 -> Z.of_nat k < zlen S + 4294967296 ->
     exists e, (let! e := enum_init dbg mem buf s p in enum_steps k dbg mem e) = Ok e).
Proof. exact c56_defined. Qed.
Print Assumptions C56_defined.

(** [exA] with its chunk 0, which holds its first 43 values, overwritten by 255s *)
Example C56_example :
  valid exA /\ Forall is_byte mem_first /\ intact 0 (fun h => h <> 0) mem_first ex_a exA
  /\ Forall is_byte mem_far /\ intact 0 (fun h => h <> 0) mem_far ex_a exA /\ zlen mem_far = zlen mem_first + 8712
  /\ firstn 3 exA = [5; 7; 300] /\ skipn 43 exA = [131081; 196608]
  /\ seq_at mem_first ex_a = Ok (mkSeq 3 5 5 29)
  /\ (let! (out, n) := uncompress true mem_first (mkSeq 3 5 5 29) (repeat 7 (Z.to_nat 4097)) 1 in
      Ok (n, firstn 2 out, znth out 1025, znth out 2049)) = Ok (45, [7; 0], Some 7, Some 512)
  /\ (let! e := enum_init true mem_first (repeat 0 (Z.to_nat 65536)) (mkSeq 3 5 5 29) 9 in
      let! x := enum_value e in
      let! e := enum_steps 43 true mem_first e in let! y := enum_value e in
      let! e := enum_steps 2 true mem_first e in let! z := enum_value e in Ok (x, y, z)) = Ok (65280, 131081, 9)
  /\ (let! (out, n) := decode true mem_first (mkSeq 3 5 5 29) (repeat 7 (Z.to_nat 400)) 1 in
      Ok (n, firstn 2 out, znth out 44, znth out 376)) = Ok (377, [7; 65280], Some 65323, Some 131081).
Proof.
  split; [exact valid_A|]. split; [exact bytes_first|].
  split; [eapply intact_weaken; [exact intact_first|discriminate]|]. split; [exact bytes_far|].
  split; [eapply intact_weaken; [exact intact_far|discriminate]|].
  repeat match goal with |- _ /\ _ => split end; vm_compute; reflexivity.
Qed.
