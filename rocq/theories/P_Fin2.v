(** The property theorems C10 - C12 in the form in which Prop_*.v states them. *)
From Verif Require Import Base Hw Spec Lib L_Bits L_Group Layout M_Util M_Build M_Seq M_Decode
  M_Query M_Uncompress M_Intersect M_Union P_Build1 P_Build2 P_Build3 P_Seq P_Decode P_Query
  P_NextGeq P_Ng P_Enum P_Uncompress P_Sets P_Inter P_Union P_Ex.
From Coq Require Import Lia Sorted.

(** ** C10: witness of the stale data pointer *)
Definition exG : list Z :=
  [0; 1] ++ map (fun i => 65536 * i + if i =? 33 then 7 else if i =? 34 then 256 * 5 else 3) (zrange 1 40).
Definition encG : list Z := Eval vm_compute in snd (builder_build false [] exG).
Definition memG : list Z := Eval vm_compute in encG ++ repeat 0 31.
Lemma valid_G : valid exG.
Proof. apply valid_b_ok. vm_compute. reflexivity. Qed.
Lemma stored_G : stored 31 memG 0 exG.
Proof. exact (stored_mid false exG encG [] (repeat 0 31) 31 (encoding_ok false exG valid_G) ltac:(vm_compute; discriminate)). Qed.

Lemma c10_refuted : exists S mem a qs s g r,
  valid S /\ stored 31 mem a S /\ Forall is_u32 qs /\ non_decreasing 0 qs
  /\ seq_at mem a = Ok s /\ ng_init mem s = Ok g
  /\ (forall dbg, ng_run dbg mem g qs = Ok r)
  /\ ~ (forall x, In x r -> In x S).
Proof.
  destruct (seq_at memG 0) as [s| | | |] eqn:E; [|exfalso; vm_compute in E; discriminate..].
  destruct (ng_init memG s) as [g| | | |] eqn:E2.
  2-5: exfalso; vm_compute in E; injection E as <-; vm_compute in E2; discriminate.
  exists exG, memG, 0, [65536; 65536 * 33], s, g, [65536 + 3; 65536 * 33 + 5].
  split; [exact valid_G|]. split; [exact stored_G|].
  split; [repeat constructor; vm_compute; congruence|].
  split; [repeat split; vm_compute; congruence|].
  do 2 (split; auto).
  vm_compute in E; injection E as <-; vm_compute in E2; injection E2 as <-.
  split; [intros []; vm_compute; reflexivity|].
  intro H. specialize (H (65536 * 33 + 5)). apply memb_In in H; [vm_compute in H; discriminate|].
  right; left; auto.
Qed.

(** ** C11, C12 *)
Lemma c11_intersection : forall tbl mem a b S T,
  shuffle_table_ok tbl -> valid S -> valid T -> stored 31 mem a S -> stored 31 mem b T ->
  exists e, enumerates (fun v => In v S /\ In v T) e
    /\ forall dbg x out pos,
         zlen x = 1024 -> 0 <= pos -> pos + zlen e + 23 <= zlen out ->
         exists s t x' out', seq_at mem a = Ok s /\ seq_at mem b = Ok t
           /\ pairwise_intersection tbl dbg mem s t x out pos = Ok (x', out', zlen e)
           /\ zlen x' = 1024 /\ wrote 23 out pos e out'.
Proof.
  intros tbl mem a b S T Ht VS VT HS HT. exists (isect S T). split.
  - split; [apply sorted_isect, VS|]. intro. apply In_isect.
  - intros. apply pairwise_intersection_ok; auto.
Qed.

Lemma c12_union : forall mem a b S T,
  valid S -> valid T -> stored 31 mem a S -> stored 31 mem b T -> apart a S b T ->
  exists e, enumerates (fun v => In v S \/ In v T) e
    /\ forall dbg x y out pos,
         zlen x = 4 -> zlen y = 1024 -> 0 <= pos -> pos + zlen e + 23 <= zlen out ->
         exists s t x' y' out', seq_at mem a = Ok s /\ seq_at mem b = Ok t
           /\ pairwise_union dbg mem s t x y out pos = Ok (x', y', out', zlen e)
           /\ zlen x' = 4 /\ zlen y' = 1024 /\ wrote 23 out pos e out'.
Proof.
  intros mem a b S T VS VT HS HT HA. exists (uni S T). split.
  - split; [apply sorted_uni; [apply VS|apply VT]|]. intro. apply In_uni.
  - intros. apply pairwise_union_ok; auto.
Qed.
