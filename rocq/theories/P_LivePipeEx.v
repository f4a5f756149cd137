(** Examples for C67. *)
From Coq Require Import Lia Sorted String Floats.SpecFloat.
From Verif Require Import Base Hw Spec Lib Layout M_Util M_Build M_Seq M_Index M_Drivers M_Tools M_Text M_Out M_Say M_Session M_Lax M_Bench M_Live M_LiveQ
  Holds Told Format Room RoomSets Shown Typed Drawn Printed Report Session Lax Bench P_Ex P_Index P_Tools P_Drivers P_Text3 P_Tests4 P_Tests5 P_Text2 P_Text6 P_Say P_Session
  P_SessionEx P_LaxEx P_BenchEx P_Live P_LiveQEx.
Local Open Scope Z_scope.

Definition y_and m tape idx := piped (run_pairs_of true (word "gen") [word "2"; word m] tape)
  (run_test_intersect true ex_tbl (x_sort idx) true t_mapped (word "t") [word idx; word "2"]) x_disk.
Definition y_or m tape idx := piped (run_pairs_of true (word "gen") [word "2"; word m] tape)
  (run_test_union true ex_tbl true t_mapped (word "t") [word idx; word "2"]) x_disk.

Lemma c67_ex_pairs :
  index_on x_disk t_mapped (word "i") 1000 t_kept /\ index_on x_disk t_mapped (word "k") 5 x_small
  /\ begins (word "2") 2 /\ begins (word "3") (zlen t_kept) /\ begins (word "8") 8
  /\ run_pairs_of true (word "gen") [word "2"; word "3"] [3; 1; 2; 4] x_disk = (word
"0	1
2	1
", x_disk, Ok 0)
  /\ y_and "3" [3; 1; 2; 4] "i" = (word
"reading queries...
tested 2 queries
everything good
", x_disk, Ok 0)
  /\ y_or "3" [0; 2; 2; 2] "k" = (word
"reading queries...
", x_disk, UB)
  /\ y_and "8" [7; 1; 2; 4] "i" = (word
"reading queries...
", x_disk, Abort).
Proof.
  split; [exact (proj1 x_on)|]. split; [exact (proj2 x_on)|].
  split; [apply numeral_begins, (numeral_digits [2]); [discriminate|reflexivity]|].
  split; [apply numeral_begins, (numeral_digits [3]); [discriminate|reflexivity]|].
  split; [apply numeral_begins, (numeral_digits [8]); [discriminate|reflexivity]|].
  split; [vm_compute; reflexivity|]. split; [vm_compute; reflexivity|]. split; vm_compute; reflexivity.
Qed.

Definition y_file : list Z := Eval vm_compute in f_index 40 [[5]; [2; 7]].
Definition y_disk : files := [(word "i", y_file); (word "c", words32 (collection 40 [[5]; [2; 7]]))].
Lemma y_file_is : f_index 40 [[5]; [2; 7]] = y_file.
Proof. vm_compute. reflexivity. Qed.
Lemma c67_ex_session :
  let words := [word "--density"; word "0"; word "--size"; word "0"] in
  let built := run_build_lax zero_stod true x86 (word "-nan") true (fun _ => word "") (word "build")
                 (word "c" :: words ++ [word "--out"; word "i"]) (tl y_disk) in
  let sort := by_card (fst (t_mapped y_file)) in
  run_uniform true (word "gen") [word "2"; word "1"; word "3"; word "40"; word "c"] [0; 5; 1; 7; 2] [] = ([], tl y_disk, Ok 0)
  /\ snd (fst built) = y_disk /\ snd built = Ok 0
  /\ sorts_by_cardinality (fst (t_mapped (f_index 40 [[5]; [2; 7]]))) sort
  /\ piped (run_pairs_of true (word "gen") [word "1"; word "2"] [0; 1])
       (run_test_union true ex_tbl true t_mapped (word "t") [word "i"; word "1"]) y_disk = (word
"reading queries...
tested 1 queries
everything good
", y_disk, Ok 0).
Proof.
  cbn zeta. split; [vm_compute; reflexivity|]. split; [vm_compute; reflexivity|]. split; [vm_compute; reflexivity|].
  split; [rewrite y_file_is; apply by_card_sorts|]. vm_compute; reflexivity.
Qed.

Definition z_tape : list Z := [2000000000; 0; 9; 9; 5; 9; 5; 5; 9; 5; 5; 9; 2000000000; 0; 30; 9; 30; 9; 9; 30; 30; 9; 30; 30].
Definition z_lists : list (list Z) := [[5; 9]; [9; 30]].
Definition z_file : list Z := Eval vm_compute in f_index 60 z_lists.
Definition z_disk : files := [(word "i", z_file); (word "c", words32 (collection 60 z_lists))].
Lemma z_file_is : f_index 60 z_lists = z_file.
Proof. vm_compute. reflexivity. Qed.
Lemma c67_ex_clustered :
  let words := [word "--density"; word "0"; word "--size"; word "0"] in
  let built := run_build_lax zero_stod true x86 (word "-nan") true (fun _ => word "") (word "build")
                 (word "c" :: words ++ [word "--out"; word "i"]) (tl z_disk) in
  let sort := by_card (fst (t_mapped z_file)) in
  run_clustered true 1 true (fun _ => 0) (word "gen") [word "2"; word "60"; word "c"; word "--binary"] z_tape [] = ([], tl z_disk, Ok 0)
  /\ snd (fst built) = z_disk /\ snd built = Ok 0
  /\ sorts_by_cardinality (fst (t_mapped (f_index 60 z_lists))) sort
  /\ piped (run_pairs_of true (word "gen") [word "1"; word "2"] [0; 1])
       (run_test_intersect true ex_tbl sort true t_mapped (word "t") [word "i"; word "1"]) z_disk = (word
"reading queries...
tested 1 queries
everything good
", z_disk, Ok 0).
Proof.
  cbn zeta. split; [vm_compute; reflexivity|]. split; [vm_compute; reflexivity|]. split; [vm_compute; reflexivity|].
  split; [rewrite z_file_is; apply by_card_sorts|]. vm_compute; reflexivity.
Qed.

(** 22 instead of 23 is not enough *)
Definition w_lists : list (list Z) := [[1; 3; 4; 6; 8; 11; 17; 20; 22]].
Definition w_file : list Z := Eval vm_compute in f_index 31 w_lists.
Definition w_disk : files := [(word "i", w_file); (word "c", words32 (collection 31 w_lists))].
Lemma w_file_is : f_index 31 w_lists = w_file.
Proof. vm_compute. reflexivity. Qed.
Lemma c67_ex_tight :
  run_uniform true (word "gen") [word "1"; word "9"; word "9"; word "31"; word "c"] [9; 1; 3; 4; 6; 8; 11; 17; 20; 22] [] = ([], tl w_disk, Ok 0)
  /\ index_on w_disk t_mapped (word "i") 31 w_lists /\ zlen (hd [] w_lists) + 22 = 31
  /\ piped (run_pairs_of true (word "gen") [word "1"; word "1"] [0; 0])
       (run_test_intersect true ex_tbl (by_card (fst (t_mapped w_file))) true t_mapped (word "t") [word "i"; word "1"]) w_disk = (word
"reading queries...
", w_disk, UB).
Proof.
  split; [vm_compute; reflexivity|]. split.
  { unfold index_on. rewrite w_file_is. split; [unfold is_u32; lia|]. split.
    - repeat constructor; unfold is_u32; try discriminate; cbn; lia.
    - split; [|apply t_mapped_ok; vm_compute; discriminate]. exists [], (tl w_disk). split; [reflexivity|]. intros []. }
  split; [reflexivity|]. vm_compute; reflexivity.
Qed.

Definition w_S : list Z := map Z.of_nat (seq 0 121).
Definition w_T : list Z := map Z.of_nat (seq 144 121).
Lemma c67_ex_tight_union :
  uniform_list 121 121 264 w_S /\ uniform_list 121 121 264 w_T /\ 2 * 121 + 22 = 264 /\ ~ join_fits w_S w_T 264.
Proof.
  assert (SO : forall a n, StronglySorted Z.lt (map Z.of_nat (seq a n))).
  { intros a n. revert a. induction n as [|n IH]; intro a; cbn [seq map]; constructor; [apply IH|].
    apply Forall_forall. intros v Hv. apply in_map_iff in Hv as (k & <- & Hk). apply in_seq in Hk. lia. }
  assert (B : forall a, (a <= 144)%nat -> uniform_list 121 121 264 (map Z.of_nat (seq a 121))).
  { intros a Ha. split; [apply SO|]. split; [|split; [unfold zlen; rewrite map_length, seq_length; lia|discriminate]].
    apply Forall_forall. intros v Hv. apply in_map_iff in Hv as (k & <- & Hk). apply in_seq in Hk. lia. }
  split; [apply B; lia|]. split; [apply B; lia|]. split; [reflexivity|].
  intros [_ F]. destruct (F 1) as (_ & K & _).
  assert (X : join_below w_S w_T (256 * 1) + decode_words (card 256 w_T 1) <= 264).
  { apply K; [vm_compute; reflexivity|vm_compute; reflexivity|vm_compute; reflexivity|]. right. vm_compute. reflexivity. }
  vm_compute in X. congruence.
Qed.

(** a list may contain the universe itself (gen_uniform_data draws it); then a union may have one value too many *)
Definition v1_file : list Z := Eval vm_compute in f_index 1 [[0]; [1]].
Definition v1_disk : files := [(word "i", v1_file); (word "c", words32 (collection 1 [[0]; [1]]))].
Lemma v1_file_is : f_index 1 [[0]; [1]] = v1_file.
Proof. vm_compute. reflexivity. Qed.
Lemma c67_ex_many :
  index_on x_disk t_mapped (word "i") 1000 t_kept /\ Forall (Forall (fun v => v < 1000)) t_kept
  /\ x_ands true "i" "3" "1 0
2
1 0 1 2" = (word
"reading queries...
running test...
intersection has size 2
intersection has size 1
tested 2 queries
everything good
", x_disk, Ok 0)
  /\ run_uniform true (word "gen") [word "2"; word "1"; word "1"; word "1"; word "c"] [1; 0; 1; 1] [] = ([], tl v1_disk, Ok 0)
  /\ index_on v1_disk t_mapped (word "i") 1 [[0]; [1]]
  /\ run_test_union_many ex_tbl true t_mapped (word "t") [word "i"; word "1"] (word "0 1") v1_disk = (word
"reading queries...
running test...
", v1_disk, UB).
Proof.
  split; [exact (proj1 x_on)|]. split; [unfold t_kept; repeat constructor|]. split; [exact (proj1 (proj2 (proj2 c66_ex_many)))|].
  split; [vm_compute; reflexivity|]. split.
  { unfold index_on. rewrite v1_file_is. split; [unfold is_u32; lia|]. split.
    - repeat constructor; unfold is_u32; try discriminate; cbn; lia.
    - split; [|apply t_mapped_ok; vm_compute; discriminate]. exists [], (tl v1_disk). split; [reflexivity|]. intros []. }
  vm_compute; reflexivity.
Qed.
