(** Examples for C61. *)
From Verif Require Import Base Spec Outcome Format Damage Lib M_Seq M_Union P_Ex P_Build3 P_Format P_Damage P_Damage2 P_Spoil2.
From Coq Require Import Lia.

(** [mem_first] with 9000 more bytes *)
Definition mem_wide : list Z := [1; 2; 3] ++ overwrite encA 26 (repeat 255 41) ++ rest ++ repeat 0 (Z.to_nat 9000).
Lemma intact_wide : intact 0 (fun h => h <> 0) mem_wide ex_a exA.
Proof.
  unfold mem_wide. replace 26 with (chunk_start exA 0) by (rewrite chunk_start_def, head_A; vm_compute; reflexivity).
  eapply intact_weaken;
    [apply (c52_overwritten false exA encA 0 (repeat 255 41) [1; 2; 3] (rest ++ repeat 0 (Z.to_nat 9000)) 31 valid_A encoding_A)|discriminate].
  - lia.
  - vm_compute. reflexivity.
  - vm_compute. discriminate.
Qed.
Lemma bytes_wide : Forall is_byte mem_wide.
Proof. apply bytes_all. vm_compute. reflexivity. Qed.
Lemma intact_wide_B ok : intact 0 ok mem_wide ex_b exB.
Proof.
  apply (intact_mono 0 (fun _ => True)); [apply (c52_whole 0 mem_wide ex_b exB valid_B)|].
  - exact (stored_mid false exB encB ([1; 2; 3] ++ overwrite encA 26 (repeat 255 41) ++ [4; 5]) (repeat 9 31 ++ repeat 0 (Z.to_nat 9000)) 0
      encoding_B ltac:(vm_compute; discriminate)).
  - auto.
Qed.
Lemma wide_room : ex_a + zlen (f_sequence exA) + 8733 <= zlen mem_wide /\ ex_b + zlen (f_sequence exB) + 8733 <= zlen mem_wide.
Proof.
  rewrite <- (layout_format exA valid_A), <- (layout_format exB valid_B),
    <- (encoding_layout _ _ _ valid_A encoding_A), <- (encoding_layout _ _ _ valid_B encoding_B).
  split; vm_compute; discriminate.
Qed.

(** room for the values of both lists is not enough for the union *)
Lemma c61_union_refuted : exists mem a b S T s t x y out,
  valid S /\ valid T /\ Forall is_byte mem /\ intact 0 (fun h => h <> 0) mem a S /\ intact 0 (fun _ => True) mem b T
  /\ seq_at mem a = Ok s /\ seq_at mem b = Ok t
  /\ a + zlen (f_sequence S) + 8733 <= zlen mem /\ b + zlen (f_sequence T) + 8733 <= zlen mem
  /\ zlen x = 4 /\ Forall is_word x /\ zlen y = 1024 /\ zlen out = zlen S + zlen T
  /\ forall dbg, pairwise_union dbg mem s t x y out 0 = UB.
Proof.
  exists mem_wide, ex_a, ex_b, exA, exB.
  destruct (seq_at mem_wide ex_a) as [s| | | |] eqn:Es; [|exfalso; vm_compute in Es; discriminate..].
  destruct (seq_at mem_wide ex_b) as [t| | | |] eqn:Et; [|exfalso; vm_compute in Et; discriminate..].
  exists s, t, (repeat 0 4), (repeat 0 (Z.to_nat 1024)), (repeat 0 (Z.to_nat (zlen exA + zlen exB))).
  split; [exact valid_A|]. split; [exact valid_B|]. split; [exact bytes_wide|]. split; [exact intact_wide|].
  split; [apply intact_wide_B|]. split; [reflexivity|]. split; [reflexivity|].
  split; [exact (proj1 wide_room)|]. split; [exact (proj2 wide_room)|]. split; [reflexivity|].
  split; [repeat constructor; vm_compute; congruence|]. split; [vm_compute; reflexivity|]. split; [vm_compute; reflexivity|].
  vm_compute in Es, Et. injection Es as <-. injection Et as <-.
  intros []; vm_compute; reflexivity.
Qed.
