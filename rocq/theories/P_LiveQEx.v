(** Examples for C66. *)
From Coq Require Import Lia Sorted String.
From Verif Require Import Base Hw Spec Lib Layout M_Util M_Build M_Seq M_Index M_Drivers M_Tests M_Text M_Out M_Say M_Session M_Bench M_Live M_LiveQ
  Holds Room Told Format Shown Typed Printed Report Session Bench P_Ex P_Index P_Text3 P_Tests4 P_Tests5 P_Text6 P_Say P_SessionEx P_BenchEx.
Local Open Scope Z_scope.

Definition x_small : list (list Z) := [[3; 5]; [1; 2; 7; 9]; [1; 2]].
Definition x_k : list Z := Eval vm_compute in f_index 5 x_small.
Definition x_disk : files := [(word "i", t_file); (word "k", x_k)].
Definition x_sort (idx : string) : list s_sequence -> list s_sequence :=
  by_card (fst (t_mapped (if String.eqb idx "i" then t_file else x_k))).
Definition x_and dbg idx w text := run_test_intersect true ex_tbl (x_sort idx) dbg t_mapped (word "t") [word idx; word w] (word text) x_disk.
Definition x_or dbg idx w text := run_test_union true ex_tbl dbg t_mapped (word "t") [word idx; word w] (word text) x_disk.
Definition x_ands dbg idx w text := run_test_intersect_many ex_tbl (x_sort idx) dbg t_mapped (word "t") [word idx; word w] (word text) x_disk.
Definition x_ors dbg idx w text := run_test_union_many ex_tbl dbg t_mapped (word "t") [word idx; word w] (word text) x_disk.

Lemma x_i_is : f_index 1000 t_kept = t_file.
Proof. symmetry. exact (proj1 c62_ex_tests). Qed.
Lemma x_k_is : f_index 5 x_small = x_k.
Proof. vm_compute. reflexivity. Qed.
Lemma x_on : index_on x_disk t_mapped (word "i") 1000 t_kept /\ index_on x_disk t_mapped (word "k") 5 x_small.
Proof.
  pose proof t_example as (_ & V1 & _).
  assert (V2 : Forall valid x_small) by (repeat constructor; unfold is_u32; try discriminate; cbn; lia).
  unfold index_on. rewrite x_i_is, x_k_is.
  split; (split; [unfold is_u32; lia|]; split; [assumption|]; split; [|apply t_mapped_ok; vm_compute; discriminate]).
  - exists [], (tl x_disk). split; [reflexivity|]. intros [].
  - exists [(word "i", t_file)], []. split; [reflexivity|].
    intros [E|[]]. vm_compute in E. discriminate.
Qed.

Lemma c66_ex_pairs :
  index_on x_disk t_mapped (word "i") 1000 t_kept /\ index_on x_disk t_mapped (word "k") 5 x_small
  /\ sorts_by_cardinality (fst (t_mapped (f_index 1000 t_kept))) (x_sort "i")
  /\ x_and true "i" "2" "0 1 2 1" = (word
"reading queries...
tested 2 queries
everything good
", x_disk, Ok 0)
  /\ x_or true "i" "2" "0 1 2 1" = (word
"reading queries...
tested 2 queries
everything good
", x_disk, Ok 0)
  /\ x_and true "i" "2" "0 1 7 1" = (word
"reading queries...
", x_disk, Abort)
  /\ x_or true "k" "2" "0 2 7 7" = (word
"reading queries...
", x_disk, UB).
Proof.
  split; [exact (proj1 x_on)|]. split; [exact (proj2 x_on)|]. split; [rewrite x_i_is; apply by_card_sorts|].
  split; [vm_compute; reflexivity|]. split; [vm_compute; reflexivity|]. split; [vm_compute; reflexivity|]. vm_compute; reflexivity.
Qed.
Lemma c66_ex_pairs_stop :
  x_and true "x" "2" "0 1 2 1" = (word
"reading queries...
", x_disk, Throw)
  /\ x_or true "i" "2" "0 1 2 a" = (word
"reading queries...
", x_disk, UB)
  /\ x_or true "i" "-1" "0 1" = ([], x_disk, Throw)
  /\ x_or true "i" "two" "0 1" = ([], x_disk, Throw).
Proof.
  split; [vm_compute; reflexivity|]. split; [vm_compute; reflexivity|]. split; [vm_compute; reflexivity|]. vm_compute; reflexivity.
Qed.
Lemma c66_ex_many :
  index_on x_disk t_mapped (word "i") 1000 t_kept /\ index_on x_disk t_mapped (word "k") 5 x_small
  /\ x_ands true "i" "3" "1 0
2
1 0 1 2" = (word
"reading queries...
running test...
intersection has size 2
intersection has size 1
tested 2 queries
everything good
", x_disk, Ok 0)
  /\ x_ors true "k" "3" "0 2
2
1 0" = (word
"reading queries...
running test...
union has size 4
", x_disk, UB)
  /\ x_ors true "k" "3" "0 2
2
1 7" = (word
"reading queries...
running test...
union has size 4
", x_disk, Abort).
Proof.
  split; [exact (proj1 x_on)|]. split; [exact (proj2 x_on)|]. split; [vm_compute; reflexivity|]. split; [vm_compute; reflexivity|]. vm_compute; reflexivity.
Qed.
Lemma c66_ex_many_stop :
  x_ors true "x" "3" "0 1" = (word
"reading queries...
running test...
", x_disk, Throw)
  /\ x_ors true "i" "-1" "0 1" = (word
"reading queries...
", x_disk, Throw)
  /\ x_ands true "i" "3" "0 1
no
" = (word
"reading queries...
", x_disk, Abort)
  /\ x_ands true "i" "three" "0 1" = ([], x_disk, Throw).
Proof.
  split; [vm_compute; reflexivity|]. split; [vm_compute; reflexivity|]. split; [vm_compute; reflexivity|]. vm_compute; reflexivity.
Qed.
