(** Examples for C46: two sequences of one value, stored behind one another. *)
From Verif Require Import Base Hw Spec Format Lib Layout M_Util M_Seq M_Build P_Build3 P_Ex P_Format Reads P_Reads
  RoomSets ReadsSets P_RoomInter P_RoomUnion P_RoomJoin P_ReadsJoin.
From Coq Require Import Lia.

Definition enc5 : list Z := Eval vm_compute in snd (builder_build false [] [5]).
Definition enc9 : list Z := Eval vm_compute in snd (builder_build false [] [9]).
(** [9], [5], and [n] more bytes *)
Definition pair_mem (n : nat) : list Z := enc9 ++ enc5 ++ repeat 0 n.
Definition at5 : Z := Eval vm_compute in zlen enc9.

Lemma valid_5 : valid [5]. Proof. apply valid_b_ok. vm_compute. reflexivity. Qed.
Lemma valid_n : valid [9]. Proof. apply valid_b_ok. vm_compute. reflexivity. Qed.
Lemma stored_n n : stored 0 (pair_mem n) 0 [9].
Proof. refine (stored_mid false [9] enc9 [] (enc5 ++ repeat 0 n) 0 (encoding_ok false [9] valid_n) _). apply zlen_nonneg. Qed.
Lemma stored_5 n : stored 0 (pair_mem n) at5 [5].
Proof. refine (stored_mid false [5] enc5 enc9 (repeat 0 n) 0 (encoding_ok false [5] valid_5) _). apply zlen_nonneg. Qed.
Lemma apart_5 : apart at5 [5] 0 [9].
Proof.
  right. exists false, enc5, enc9. split; [exact (encoding_ok false [5] valid_5)|]. split; [exact (encoding_ok false [9] valid_n)|].
  right. vm_compute. discriminate.
Qed.
Lemma apart_n : apart 0 [9] at5 [5].
Proof.
  right. exists false, enc9, enc5. split; [exact (encoding_ok false [9] valid_n)|]. split; [exact (encoding_ok false [5] valid_5)|].
  left. vm_compute. discriminate.
Qed.
Lemma left_5 : bytes_left [5] 0 = 1.
Proof.
  pose proof (bytes_left_eq [5] [] 0 [5] [] [] 0 [5] [] valid_5 ltac:(vm_compute; reflexivity) ltac:(vm_compute; reflexivity)) as E.
  change (256 * 0 + 0) with 0 in E. rewrite E. vm_compute. reflexivity.
Qed.
Lemma left_n : bytes_left [9] 0 = 1.
Proof.
  pose proof (bytes_left_eq [9] [] 0 [9] [] [] 0 [9] [] valid_n ltac:(vm_compute; reflexivity) ltac:(vm_compute; reflexivity)) as E.
  change (256 * 0 + 0) with 0 in E. rewrite E. vm_compute. reflexivity.
Qed.
Lemma meet_59 s t : meet_reads [5] [9] s t <-> 15 <= s /\ 15 <= t.
Proof.
  split.
  - intro H. destruct (H 0) as (H0 & _).
    specialize (H0 ltac:(vm_compute; reflexivity) ltac:(vm_compute; reflexivity) ltac:(vm_compute; reflexivity) ltac:(vm_compute; reflexivity)).
    rewrite left_5, left_n in H0. change (card 256 [5] 0) with 1 in H0. change (card 256 [9] 0) with 1 in H0.
    change (meet_bytes 1 1) with 16 in H0. lia.
  - intros [Hs Ht] b. cbn zeta.
    assert (F : forall v h, card 65536 [v] h = 65536 -> False).
    { intros v h. unfold card. cbn [filter]. destruct (v / 65536 =? h); discriminate. }
    assert (C : forall v, 0 <= v < 256 -> 0 < card 256 [v] b -> b = 0).
    { intros v Hv. unfold card. cbn [filter]. destruct (Z.eqb_spec (v / 256) b) as [<-|_]; [|discriminate].
      intros _. now apply Z.div_small. }
    split; [|split; intro; exfalso; eauto].
    intros _ _ C5 _. rewrite (C 5 ltac:(lia) C5), left_5, left_n. change (card 256 [5] 0) with 1. change (card 256 [9] 0) with 1.
    change (meet_bytes 1 1) with 16. lia.
Qed.
Lemma join_59 s t : join_reads [5] [9] s t -> 16 <= s.
Proof.
  intro H. destruct (H 0) as (_ & _ & H0).
  specialize (H0 ltac:(vm_compute; reflexivity) ltac:(vm_compute; reflexivity) ltac:(vm_compute; reflexivity) ltac:(vm_compute; reflexivity)).
  rewrite left_5, left_n in H0.
  change (blocks_in [5] (0 / 256) <? blocks_in [9] (0 / 256)) with false in H0. cbv iota in H0.
  change (part 256 [5] 0) with [5] in H0. change (part 256 [9] 0) with [9] in H0.
  specialize (H0 ltac:(vm_compute; reflexivity) ltac:(vm_compute; reflexivity)). cbn zeta in H0.
  change (zlen [5] - zlen (above (last [9] 0) [5]) + decode_bytes (zlen (above (last [9] 0) [5]))) with 17 in H0. lia.
Qed.
Lemma join_mono S T s t s' t' : join_reads S T s t -> s <= s' -> t <= t' -> join_reads S T s' t'.
Proof.
  intros H Hs Ht b. destruct (H b) as (H1 & H2 & H3).
  assert (BR : forall V e e', e <= e' -> block_reads V e b -> block_reads V e' b).
  { intros V e e' Le G A C. destruct (G A C). lia. }
  assert (JR : forall A B p q p' q', p <= p' -> q <= q' -> join_block_reads A B p q -> join_block_reads A B p' q').
  { intros A B p q p' q' Lp Lq G LA LB. specialize (G LA LB). cbn zeta in *. lia. }
  split; [|split].
  - intros. eapply BR; [exact Hs|]. auto.
  - intros. eapply BR; [exact Ht|]. auto.
  - intros A B C D. specialize (H3 A B C D).
    destruct (blocks_in S (b / 256) <? blocks_in T (b / 256)); (eapply JR; [| |exact H3]; lia).
Qed.
Lemma join_59_ok s t : 16 <= s -> 15 <= t -> join_reads [5] [9] s t.
Proof.
  intros Hs Ht. apply (join_mono _ _ 16 15); auto.
  pose proof (join_reads_iff [5] [9] 20 1 2 valid_5 valid_n) as R.
  change (zlen (cdatas (chunks_of [5]))) with 3 in R. change (zlen (cdatas (chunks_of [9]))) with 3 in R.
  apply R; try lia. vm_compute. discriminate.
Qed.
Lemma join_95_ok s t : 15 <= s -> 0 <= t -> join_reads [9] [5] s t.
Proof.
  intros Hs Ht. apply (join_mono _ _ 15 0); auto.
  pose proof (join_reads_iff [9] [5] 18 0 15 valid_n valid_5) as R.
  change (zlen (cdatas (chunks_of [5]))) with 3 in R. change (zlen (cdatas (chunks_of [9]))) with 3 in R.
  apply R; try lia. vm_compute. discriminate.
Qed.
