(** C39: exactly how many readable bytes decode and enumerator need after an encoding. *)
From Verif Require Import Base Hw Spec Format Room Reads M_Util M_Seq M_Decode P_Ex P_Reads.

(** [extra] bytes of memory follow the encoding, [zlen out - pos] words are free in the buffer.  Both
    requirements are computed from the values alone.  If they hold the result is exact; otherwise
    decode reads behind the memory or writes behind the buffer. *)
Theorem C39_decode : forall dbg mem a S out pos,
  valid S -> stored 0 mem a S -> 0 <= pos <= zlen out ->
  let extra := zlen mem - (a + zlen (f_sequence S)) in
  exists s, seq_at mem a = Ok s
    /\ (decode_fits S (zlen out - pos) -> decode_reads S extra ->
          exists out', decode dbg mem s out pos = Ok (out', zlen S) /\ zlen out' = zlen out
            /\ (forall i, 0 <= i < zlen S -> znth out' (pos + i) = znth S i)
            /\ (forall i, i < pos \/ pos + zlen S + 23 <= i -> znth out' i = znth out i))
    /\ (~ (decode_fits S (zlen out - pos) /\ decode_reads S extra) -> decode dbg mem s out pos = UB).
Proof. exact c39_decode. Qed.
Print Assumptions C39_decode.

(** 31 bytes are always enough *)
Theorem C39_enough : forall S n, valid S -> 31 <= n -> decode_reads S n.
Proof. exact c39_enough. Qed.
Print Assumptions C39_enough.

(** the enumerator: [k] calls of next need exactly the bytes that the chunks visited so far need *)
Theorem C39_enumerator : forall dbg mem a S p buf k,
  valid S -> stored 0 mem a S -> zlen buf = 65536 -> Z.of_nat k < zlen S + 4294967296 ->
  let extra := zlen mem - (a + zlen (f_sequence S)) in
  exists s, seq_at mem a = Ok s
    /\ (enum_reads S (Z.of_nat k) extra ->
          exists e, (let! e := enum_init dbg mem buf s p in enum_steps k dbg mem e) = Ok e
            /\ (en_has_next e = true <-> Z.of_nat k < zlen S)
            /\ (forall x, znth S (Z.of_nat k) = Some x -> enum_value e = Ok x)
            /\ (zlen S <= Z.of_nat k -> enum_value e = Ok p))
    /\ (~ enum_reads S (Z.of_nat k) extra -> (let! e := enum_init dbg mem buf s p in enum_steps k dbg mem e) = UB).
Proof. exact c39_enumerator. Qed.
Print Assumptions C39_enumerator.

(** 45 values, the last of them alone in the last chunk: its block is 1 byte long and read with a load
    of 16 bytes, so that 15 bytes must follow *)
Example C39_example :
  valid exA /\ (forall n, stored 0 (short_mem n) 0 exA)
  /\ as_blocks exA (196608 / 256 / 256) = true /\ card 256 exA (196608 / 256) = 1
  /\ bytes_left exA (196608 / 256) = 1 /\ bytes_left exA (131081 / 256) = 4
  /\ decode_reads exA 15 /\ ~ decode_reads exA 14
  /\ zlen (short_mem 15) - (0 + zlen (f_sequence exA)) = 15
  /\ (let! s := seq_at (short_mem 15) 0 in let! (out, n) := decode true (short_mem 15) s (repeat 0 68) 0 in
      Ok (firstn 45 out, n)) = Ok (exA, 45)
  /\ (let! s := seq_at (short_mem 14) 0 in decode true (short_mem 14) s (repeat 0 68) 0) = UB
  /\ (let! s := seq_at (short_mem 14) 0 in
      let! e := enum_init true (short_mem 14) (repeat 0 (Z.to_nat 65536)) s 777 in
      let! e := enum_steps 43 true (short_mem 14) e in let! x := enum_value e in
      Ok (x, match enum_next true (short_mem 14) e with UB => true | _ => false end)) = Ok (131081, true).
Proof.
  split; [exact valid_A|]. split; [exact stored_short|]. split; [vm_compute; reflexivity|].
  split; [vm_compute; reflexivity|]. split; [exact ex_left|]. split; [exact ex_left'|]. split; [exact ex_reads|].
  split.
  { intro H. destruct (H (196608 / 256)) as [H8 _]; [vm_compute; reflexivity|vm_compute; reflexivity|].
    specialize (H8 ltac:(vm_compute; discriminate)). rewrite ex_left in H8. revert H8. vm_compute. congruence. }
  split; [rewrite <- (P_Format.layout_format exA valid_A); vm_compute; reflexivity|].
  split; [vm_compute; reflexivity|]. split; vm_compute; reflexivity.
Qed.

(** 9 values in one block: 31 bytes cannot be lowered *)
Example C39_31 : valid (zrange 0 9) /\ ~ decode_reads (zrange 0 9) 30.
Proof. exact (conj valid_9 ex_31). Qed.
