(** C34: exactly how large the output buffers of decode and uncompress must be. *)
From Verif Require Import Base Hw Spec Format Room M_Util M_Seq M_Decode M_Uncompress P_Ex P_Room.

(** [out] has room for [zlen out - pos] words: [decode_fits] says from the values alone whether that is
    enough.  If it is, the result is exact; if not, decode writes past the end of the buffer. *)
Theorem C34_decode : forall dbg mem a S out pos,
  valid S -> stored 31 mem a S -> 0 <= pos <= zlen out ->
  exists s, seq_at mem a = Ok s
    /\ (decode_fits S (zlen out - pos) ->
          exists out', decode dbg mem s out pos = Ok (out', zlen S) /\ zlen out' = zlen out
            /\ (forall i, 0 <= i < zlen S -> znth out' (pos + i) = znth S i)
            /\ (forall i, i < pos \/ pos + zlen S + 23 <= i -> znth out' i = znth out i))
    /\ (~ decode_fits S (zlen out - pos) -> decode dbg mem s out pos = UB).
Proof. exact c34_decode. Qed.
Print Assumptions C34_decode.

(** 23 words more than there are values are always enough *)
Theorem C34_enough : forall S n, valid S -> zlen S + 23 <= n -> decode_fits S n.
Proof. exact c34_enough. Qed.
Print Assumptions C34_enough.

Theorem C34_uncompress : forall dbg mem a S out pos,
  valid S -> stored 0 mem a S -> 0 <= pos ->
  exists s, seq_at mem a = Ok s
    /\ (uncompress_fits S (zlen out - pos) -> exists out', uncompress dbg mem s out pos = Ok (out', zlen S))
    /\ (~ uncompress_fits S (zlen out - pos) -> uncompress dbg mem s out pos = UB).
Proof. exact c34_uncompress. Qed.
Print Assumptions C34_uncompress.

(** 45 values, the last of them alone in its block: 44 + 8 = 52 words are needed *)
Example C34_example :
  valid exA /\ stored 31 ex_mem ex_a exA /\ zlen exA = 45
  /\ as_blocks exA (196608 / 256 / 256) = true /\ card 256 exA (196608 / 256) = 1
  /\ below exA (256 * (196608 / 256)) = 44
  /\ ~ decode_fits exA 51
  /\ (let! s := seq_at ex_mem ex_a in decode true ex_mem s (repeat 0 51) 0) = UB
  /\ (let! s := seq_at ex_mem ex_a in let! (out, n) := decode true ex_mem s (repeat 0 52) 0 in
      Ok (firstn 45 out, n)) = Ok (exA, 45)
  /\ ~ uncompress_fits exA 4095 /\ uncompress_fits exA 4096.
Proof.
  split; [exact valid_A|]. split; [exact stored_A|]. split; [vm_compute; reflexivity|].
  split; [vm_compute; reflexivity|]. split; [vm_compute; reflexivity|]. split; [vm_compute; reflexivity|].
  split.
  { intros (_ & H). destruct (H (196608 / 256)) as [H8 _]; [vm_compute; reflexivity|vm_compute; reflexivity|].
    specialize (H8 ltac:(vm_compute; discriminate)). revert H8. vm_compute. congruence. }
  split; [vm_compute; reflexivity|]. split; [vm_compute; reflexivity|].
  split; unfold uncompress_fits; vm_compute; congruence.
Qed.
