(** Examples for C65. *)
From Coq Require Import Lia Sorted String Floats.SpecFloat.
From Verif Require Import Base Hw Spec Lib Layout M_Util M_Build M_Seq M_Index M_Drivers M_Text M_Out M_Say M_Session M_Bench M_Live
  Holds Room Told Format Shown Typed Printed Report Session Bench Live P_Ex P_Index P_Drivers P_Text3 P_Tests4 P_Tests5 P_Text6 P_Say P_SessionEx P_BenchEx.
Local Open Scope Z_scope.

Definition v_index : list (list Z) := [[3; 5; 9]; [4; 700]].
Definition v_small : list (list Z) := [[1; 2; 300; 70000]].
Definition v_i : list Z := Eval vm_compute in f_index 1000 v_index.
Definition v_j : list Z := Eval vm_compute in f_index 9 v_small.
Definition v_disk : files :=
  [(word "i", v_i); (word "j", v_j);
   (word "same", words32 (collection 1000 v_index));
   (word "cut", words32 (collection 1000 [[3; 6; 9]; [4; 700]] ++ [5; 1; 2]));
   (word "more", words32 (collection 1000 [[3; 5; 9]; [4; 700]] ++ [2; 1; 2]));
   (word "small", words32 (collection 9 v_small));
   (word "old", words32 [2; 1000; 1; 7])].
Definition v_run test (idx coll : string) : list Z * files * res Z :=
  run_live no_stod true test t_mapped (word "test") [word idx; word coll; word "--size"; word "1"] v_disk.

Lemma v_i_is : f_index 1000 v_index = v_i.
Proof. vm_compute. reflexivity. Qed.
Lemma v_j_is : f_index 9 v_small = v_j.
Proof. vm_compute. reflexivity. Qed.
Lemma v_on : index_on v_disk t_mapped (word "i") 1000 v_index /\ index_on v_disk t_mapped (word "j") 9 v_small.
Proof.
  assert (V : Forall valid (v_index ++ v_small)).
  { repeat constructor; unfold is_u32; try discriminate; cbn; lia. }
  apply Forall_app in V as [V1 V2].
  unfold index_on. rewrite v_i_is, v_j_is.
  split; (split; [unfold is_u32; lia|]; split; [assumption|]; split; [|apply t_mapped_ok; vm_compute; discriminate]).
  - exists [], (tl v_disk). split; [reflexivity|]. intros [].
  - exists [(word "i", v_i)], (tl (tl v_disk)). split; [reflexivity|].
    intros [E|[]]. vm_compute in E. discriminate.
Qed.

Lemma c65_ex_tests :
  index_on v_disk t_mapped (word "i") 1000 v_index
  /\ has_file v_disk (word "cut") (words32 (collection 1000 [[3; 6; 9]; [4; 700]] ++ [5; 1; 2]))
  /\ v_run (live_decode true) "i" "same" = (word
"universe size: 1000
decoded 2 sequences
everything good
", v_disk, Ok 0)
  /\ v_run (live_decode true) "i" "cut" = (word
"universe size: 1000
error at 1/3: expected 6 but got 5
", v_disk, UB)
  /\ v_run (live_contains true) "i" "cut" = (word
"universe size: 1000
6 should have been found
", v_disk, UB)
  /\ v_run (live_select true) "i" "more" = (word
"universe size: 1000
", v_disk, Abort)
  /\ v_run (live_decode true) "j" "small" = (word
"universe size: 9
", v_disk, UB)
  /\ v_run (live_uncompress true) "j" "small" = (word
"universe size: 9
", v_disk, UB).
Proof.
  split; [exact (proj1 v_on)|]. split.
  { exists (firstn 3 v_disk), (skipn 4 v_disk). split; [reflexivity|].
    cbn [firstn v_disk map fst]. intro I. repeat (destruct I as [I|I]; [vm_compute in I; discriminate|]). exact I. }
  split; [vm_compute; reflexivity|]. split; [vm_compute; reflexivity|]. split; [vm_compute; reflexivity|].
  split; [vm_compute; reflexivity|]. split; vm_compute; reflexivity.
Qed.

Lemma c65_ex_refuse :
  v_run (live_enumerator true) "x" "same" = ([], v_disk, Throw)
  /\ v_run (live_enumerator true) "i" "x" = ([], v_disk, Throw)
  /\ v_run (live_enumerator true) "i" "old" = ([], v_disk, Abort)
  /\ v_run (live_enumerator false) "i" "old" = (word
"universe size: 1000
decoded 0 sequences
everything good
", v_disk, Ok 0).
Proof. split; [vm_compute; reflexivity|]. split; [vm_compute; reflexivity|]. split; vm_compute; reflexivity. Qed.
