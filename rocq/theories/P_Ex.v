(** A concrete memory holding two sequences, used to show that the hypotheses of the
    property theorems can be met. *)
From Verif Require Import Base Hw Spec Lib L_Bits L_Group Layout M_Util M_Build M_Seq
  P_Build1 P_Build2 P_Build3.
From Coq Require Import Lia Sorted.

(** sparse and dense blocks, three chunks *)
Definition exA : list Z := [5; 7; 300] ++ zrange 512 40 ++ [131081; 196608].
(** two chunks, the second with a dense block *)
Definition exB : list Z := [7; 20; 513; 520] ++ map (fun x => 131072 + 2 * x) (zrange 0 60).

Definition encA : list Z := Eval vm_compute in snd (builder_build false [] exA).
Definition encB : list Z := Eval vm_compute in snd (builder_build false [] exB).

(** 3 bytes, exA, 2 bytes, exB, 31 bytes *)
Definition ex_mem : list Z := [1; 2; 3] ++ encA ++ [4; 5] ++ encB ++ repeat 9 31.
Definition ex_a : Z := 3.
Definition ex_b : Z := Eval vm_compute in 3 + zlen encA + 2.

Fixpoint sorted_b (l : list Z) : bool :=
  match l with
  | x :: (y :: _) as l' => (x <? y) && sorted_b l'
  | _ => true
  end.
Lemma sorted_b_ok l : sorted_b l = true -> StronglySorted Z.lt l.
Proof.
  intro H. apply Sorted_StronglySorted; [intros ? ? ?; apply Z.lt_trans|].
  induction l as [|x l IH]; constructor.
  - apply IH. destruct l; auto. cbn in H. now apply andb_true_iff in H.
  - destruct l as [|y l]; constructor. cbn in H. apply andb_true_iff in H as [H _]. now apply Z.ltb_lt.
Qed.
Definition valid_b (l : list Z) : bool :=
  match l with [] => false | _ => sorted_b l && forallb (fun v => (0 <=? v) && (v <? 4294901760)) l end.
Lemma valid_b_ok l : valid_b l = true -> valid l.
Proof.
  unfold valid_b, valid. destruct l as [|x l]; [discriminate|]. intros [H1 H2]%andb_true_iff.
  split; [discriminate|]. split; [now apply sorted_b_ok|].
  rewrite forallb_forall in H2. apply Forall_forall. intros y Hy. specialize (H2 y Hy). lia.
Qed.

Lemma encoding_ok dbg S : valid S -> encoding dbg S (snd (builder_build dbg [] S)).
Proof.
  intro H. destruct (builder_ok dbg [] S H) as (st & m & _ & E & _). exists st. rewrite E. reflexivity.
Qed.

(** the output of the builder, surrounded by other bytes *)
Lemma bytes_mid enc pre post : bytes_at (pre ++ enc ++ post) (zlen pre) enc.
Proof.
  intros i Hi. pose proof (zlen_nonneg _ pre). rewrite znth_app_r by lia.
  replace (zlen pre + i - zlen pre) with i by lia. rewrite znth_app_l by lia. reflexivity.
Qed.
Lemma stored_mid dbg S enc pre post slack :
  encoding dbg S enc -> slack <= zlen post -> stored slack (pre ++ enc ++ post) (zlen pre) S.
Proof.
  intros E Hs. exists dbg, enc. split; auto. split; [apply bytes_mid|]. rewrite !zlen_app. lia.
Qed.

Lemma valid_A : valid exA.
Proof. apply valid_b_ok. vm_compute. reflexivity. Qed.
Lemma valid_B : valid exB.
Proof. apply valid_b_ok. vm_compute. reflexivity. Qed.
Lemma encoding_A : encoding false exA encA.
Proof. exact (encoding_ok false exA valid_A). Qed.
Lemma encoding_B : encoding false exB encB.
Proof. exact (encoding_ok false exB valid_B). Qed.
Lemma stored_weaken s s' mem a S : stored s mem a S -> s' <= s -> stored s' mem a S.
Proof. intros (d & e & E & B & L) H. exists d, e. repeat split; auto. lia. Qed.
Lemma stored_A : stored 31 ex_mem ex_a exA.
Proof.
  exact (stored_mid false exA encA [1; 2; 3] ([4; 5] ++ encB ++ repeat 9 31) 31 encoding_A
    ltac:(vm_compute; discriminate)).
Qed.
Lemma stored_B : stored 31 ex_mem ex_b exB.
Proof.
  exact (stored_mid false exB encB ([1; 2; 3] ++ encA ++ [4; 5]) (repeat 9 31) 31 encoding_B
    ltac:(vm_compute; discriminate)).
Qed.
Lemma stored_A0 : stored 0 ex_mem ex_a exA.
Proof. eapply stored_weaken; [exact stored_A|lia]. Qed.
Lemma stored_B0 : stored 0 ex_mem ex_b exB.
Proof. eapply stored_weaken; [exact stored_B|lia]. Qed.
Lemma apart_AB : apart ex_a exA ex_b exB.
Proof.
  right. exists false, encA, encB. split; [exact encoding_A|]. split; [exact encoding_B|].
  left. vm_compute. discriminate.
Qed.

(** a shuffle table: the positions of the set bits, then 255 *)
Definition ex_tbl (m : Z) : list Z := firstn 16 (filter (Z.testbit m) (zrange 0 16) ++ repeat 255 16).
Lemma ex_tbl_ok : shuffle_table_ok ex_tbl.
Proof.
  intros m _ bits. unfold ex_tbl. fold bits.
  assert (L : (length bits <= 16)%nat).
  { pose proof (zlen_filter_le _ (Z.testbit m) (zrange 0 16)) as H. fold bits in H.
    unfold zlen in H. change (length (zrange 0 16)) with 16%nat in H. lia. }
  split.
  - unfold zlen. rewrite firstn_length, app_length, repeat_length. lia.
  - rewrite firstn_firstn, Nat.min_l by lia. rewrite firstn_app, firstn_all2 by lia.
    replace (length bits - length bits)%nat with 0%nat by lia. apply app_nil_r.
Qed.
Lemma bytes_A : bytes_at ex_mem ex_a encA.
Proof. exact (bytes_mid encA [1; 2; 3] ([4; 5] ++ encB ++ repeat 9 31)). Qed.
