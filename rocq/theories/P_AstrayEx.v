(** Examples for C60. *)
From Verif Require Import Base Spec Outcome Format Damage Lib M_Seq M_Union P_Ex P_Format P_Damage P_Damage2 P_Spoil2.
From Coq Require Import Lia.

Lemma intact_first_B ok : intact 0 ok mem_first ex_b exB.
Proof.
  apply (intact_mono 0 (fun _ => True)); [apply (c52_whole 0 mem_first ex_b exB valid_B)|].
  - exact (stored_mid false exB encB ([1; 2; 3] ++ overwrite encA 26 (repeat 255 41) ++ [4; 5]) (repeat 9 31) 0 encoding_B
      ltac:(vm_compute; discriminate)).
  - auto.
Qed.

Lemma c60_union_refuted : exists mem a b S T s t x y out,
  valid S /\ valid T /\ Forall is_byte mem /\ intact 0 (fun h => h <> 0) mem a S /\ intact 0 (fun _ => True) mem b T
  /\ apart a S b T /\ a <> b /\ seq_at mem a = Ok s /\ seq_at mem b = Ok t /\ zlen x = 4 /\ Forall is_word x /\ zlen y = 1024
  /\ forall dbg, exists x' y' out' n i j v, pairwise_union dbg mem s t x y out 0 = Ok (x', y', out', n)
       /\ 0 <= i < j /\ j < n /\ znth out' i = Some v /\ znth out' j = Some v /\ ~ In v S /\ ~ In v T.
Proof.
  exists mem_first, ex_a, ex_b, exA, exB.
  destruct (seq_at mem_first ex_a) as [s| | | |] eqn:Es; [|exfalso; vm_compute in Es; discriminate..].
  destruct (seq_at mem_first ex_b) as [t| | | |] eqn:Et; [|exfalso; vm_compute in Et; discriminate..].
  exists s, t, (repeat 0 4), (repeat 0 (Z.to_nat 1024)), (repeat 0 800).
  split; [exact valid_A|]. split; [exact valid_B|]. split; [exact bytes_first|].
  split; [eapply intact_weaken; [exact intact_first|discriminate]|]. split; [apply intact_first_B|]. split; [exact apart_AB|].
  split; [vm_compute; discriminate|]. split; [reflexivity|]. split; [reflexivity|]. split; [reflexivity|].
  split; [repeat constructor; vm_compute; congruence|]. split; [vm_compute; reflexivity|].
  vm_compute in Es, Et. injection Es as <-. injection Et as <-.
  assert (NA : ~ In 65280 exA).
  { intro H. assert (F : forallb (fun v => negb (v =? 65280)) exA = true) by (vm_compute; reflexivity).
    rewrite forallb_forall in F. specialize (F _ H). discriminate. }
  assert (NB : ~ In 65280 exB).
  { intro H. assert (F : forallb (fun v => negb (v =? 65280)) exB = true) by (vm_compute; reflexivity).
    rewrite forallb_forall in F. specialize (F _ H). discriminate. }
  intros dbg. do 4 eexists. exists 4, 260, 65280.
  split; [destruct dbg; vm_compute; reflexivity|].
  split; [lia|]. split; [vm_compute; reflexivity|]. split; [vm_compute; reflexivity|]. split; [vm_compute; reflexivity|]. auto.
Qed.
