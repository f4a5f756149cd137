(** Examples for C64. *)
From Coq Require Import Lia Sorted String Floats.SpecFloat.
From Verif Require Import Base Hw Spec Lib Layout M_Util M_Build M_Seq M_Index M_Drivers M_Tools M_Text M_Out M_Say M_Session M_Lax M_Bench
  Holds Told Format Shown Typed Drawn Printed Report Session Lax Bench P_Ex P_Index P_Tools P_Drivers P_Text3 P_Tests4 P_Tests5 P_Text2 P_Text6 P_Say P_Session P_SessionEx P_LaxEx.
Local Open Scope Z_scope.

Lemma t_mapped_ok b : zlen b <= 2 ^ 63 -> in_memory b (fst (t_mapped b)) (snd (t_mapped b)).
Proof.
  intro H. unfold t_mapped. cbn [fst snd].
  assert (R : zlen (repeat 0 (Z.to_nat 31)) = 31) by reflexivity.
  split; [lia|]. rewrite zlen_cons, zlen_app, R. split; [|lia].
  intros i Hi. rewrite znth_cons_pos by lia. replace (1 + i - 1) with i by lia. apply znth_app_l. lia.
Qed.
Lemma c64_ex_on : index_on t_disk t_mapped (word "i") 1000 t_kept.
Proof.
  pose proof c62_ex_tests as (E & _). pose proof t_example as (_ & V & _). split; [unfold is_u32; lia|]. split; [exact V|]. rewrite <- E. split.
  - exists [], [(word "c", words32 (collection 1000 t_lists))]. split; [reflexivity|]. intros [].
  - apply t_mapped_ok. vm_compute. discriminate.
Qed.

Definition b_time : spec_float := dbl 5.
Definition b_intersect (dbg : bool) (idx : list Z) (stdin : list Z) :=
  run_intersect true (word "nan") b_time ex_tbl dbg t_mapped (word "intersect") [idx; word "2"] stdin t_disk.

Lemma c64_ex_pairs :
  index_on t_disk t_mapped (word "i") 1000 t_kept
  /\ b_intersect true (word "i") (word "0 1 2 1") = (word
"reading queries...
DONE
performing 2 pairwise-intersections...
33
Mean per run: 5 [musec]
Mean per query: 2.5 [musec]
", t_disk, Ok 0)
  /\ fst (fst (run_union true (word "nan") b_time ex_tbl true t_mapped (word "union") [word "i"; word "2"] (word "0 1 2 1") t_disk)) = word
"reading queries...
DONE
performing 2 pairwise-unions...
143
Mean per run: 5 [musec]
Mean per query: 2.5 [musec]
".
Proof. split; [exact c64_ex_on|]. split; vm_compute; reflexivity. Qed.

Lemma c64_ex_pairs_stop :
  b_intersect true (word "x") (word "0 1 2 1") = (word
"reading queries...
DONE
", t_disk, Throw)
  /\ b_intersect true (word "i") (word "0 1 2 a") = (word
"reading queries...
", t_disk, UB)
  /\ b_intersect true (word "i") (word "0 1 2147483648 1") = (word
"reading queries...
", t_disk, UB)
  /\ run_contains true (word "nan") b_time true t_mapped (word "contains") [word "i"; word "x"] (word "0 1") t_disk = ([], t_disk, Throw).
Proof.
  split; [vm_compute; reflexivity|]. split; [vm_compute; reflexivity|]. split; vm_compute; reflexivity.
Qed.

Lemma c64_ex_pairs_abort :
  b_intersect true (word "i") (word "0 1 7 0") = (word
"reading queries...
DONE
performing 2 pairwise-intersections...
", t_disk, Abort)
  /\ positions t_kept [(0, 1)] /\ pairs_of t_kept [(0, 1)] /\ zlen t_kept <= 7 /\ pairs_read 2 [0; 1; 7; 0] [(0, 1); (7, 0)].
Proof.
  assert (S0 : exists S, znth t_kept 0 = Some S) by (eexists; reflexivity). assert (S1 : exists S, znth t_kept 1 = Some S) by (eexists; reflexivity).
  split; [vm_compute; reflexivity|]. split; [constructor; [cbn [fst snd]; unfold is_u32; intuition lia|constructor]|].
  split; [constructor; [cbn [fst snd]; unfold is_u32; intuition lia|constructor]|]. split; [vm_compute; discriminate|].
  exists []. split; [reflexivity|]. left. cbn. lia.
Qed.

Definition b_select (n : list Z) (stdin : list Z) :=
  run_select true (word "nan") b_time true t_mapped (word "select") [word "i"; n] stdin t_disk.
Lemma c64_ex_words :
  b_select (word "1") (word "2 4 9") = (word
"reading queries...
DONE
performing 3 select queries...
580
Mean per run: 5 [musec]
Mean per query: 1.66667 [musec]
", t_disk, Ok 0)
  /\ selected 0 (asked t_kept 1 [2; 4; 9]) = [3; 71; 71] /\ 4 * (3 + 71 + 71) = 580
  /\ b_select (word "1") (word "2 4") = (word
"reading queries...
DONE
performing 2 select queries...
", t_disk, UB)
  /\ fst (fst (run_next_geq true (word "nan") b_time true t_mapped (word "next_geq") [word "i"; word "1"] (word "2 4 9") t_disk)) = word
"reading queries...
DONE
performing 3 next_geq queries...
2428
Mean per run: 5 [musec]
Mean per query: 1.66667 [musec]
"
  /\ 4 * (2 + 5 + 600) = 2428.
Proof.
  split; [vm_compute; reflexivity|]. split; [vm_compute; reflexivity|]. split; [reflexivity|]. split; [vm_compute; reflexivity|].
  split; [vm_compute; reflexivity|reflexivity].
Qed.
Lemma c64_ex_words_stop :
  b_select (word "9223372036854775807") (word "") = ([], t_disk, Throw)
  /\ b_select (word "1") (word "2 4 x") = (word
"reading queries...
", t_disk, UB)
  /\ (zlen t_kept * 9223372036854775807) mod 2 ^ 64 = 9223372036854775805.
Proof. split; [vm_compute; reflexivity|]. split; vm_compute; reflexivity. Qed.

Lemma c64_ex_index :
  run_cardinality (word "nan") b_time true t_mapped (word "cardinality") [word "i"] t_disk = (word
"11
Mean per run: 5 [musec]
Mean per query: 1666.67 [ns]
", t_disk, Ok 0)
  /\ fst (fst (run_uncompress (word "nan") b_time true t_mapped (word "uncompress") [word "i"] t_disk)) = word
"universe size: 1000
decoded 3 sequences
decoded 11 integers
Elapsed time: 5e-06 [sec]
Mean per sequence: 1.66667 [musec]
Mean per integer: 454.545 [ns]
".
Proof. split; vm_compute; reflexivity. Qed.

Definition b_ranks (tape : list Z) :=
  run_queries_of true (fun mem f n => gen_select_queries true mem f n tape) t_mapped (word "gen") [word "i"; word "2"].
Lemma c64_ex_generators :
  b_ranks [5; 1; 8; 4; 2; 0] t_disk = (word
"2
1
3
4
2
0
", t_disk, Ok 0)
  /\ run_queries_of true (fun mem f n => gen_next_geq_queries true mem f n [5; 1; 8]) t_mapped (word "gen") [word "i"; word "1"] t_disk = (word
"3
3
600
", t_disk, Ok 0).
Proof. split; vm_compute; reflexivity. Qed.

Lemma c64_ex_pipe_pairs :
  piped (run_pairs_of true (word "gen") [word "2"; word "3"] [3; 1; 2; 4]) (run_intersect true (word "nan") b_time ex_tbl true t_mapped (word "intersect") [word "i"; word "2"]) t_disk
  = b_intersect true (word "i") (word "0 1 2 1")
  /\ begins (word "2") 2 /\ begins (word "3") (zlen t_kept) /\ Forall (fun S => zlen S + 23 <= 1000) t_kept
  /\ (forall S T, In S t_kept -> In T t_kept -> zlen S + zlen T - common S T + 23 <= 1000).
Proof.
  split; [vm_compute; reflexivity|].
  split; [apply numeral_begins, (numeral_digits [2]); [discriminate|reflexivity]|].
  split; [apply numeral_begins, (numeral_digits [3]); [discriminate|reflexivity]|]. split; [repeat constructor; vm_compute; congruence|].
  intros S T HS HT. unfold t_kept in *. cbn [In] in HS, HT. intuition (subst; vm_compute; congruence).
Qed.

Lemma c64_ex_pipe_words :
  piped (b_ranks [5; 1; 8; 4; 2; 0]) (run_select true (word "nan") b_time true t_mapped (word "select") [word "i"; word "2"]) t_disk = (word
"reading queries...
DONE
performing 6 select queries...
2984
Mean per run: 5 [musec]
Mean per query: 0.833333 [musec]
", t_disk, Ok 0)
  /\ 4 * (3 + 2 + 70 + 71 + 600 + 0) = 2984.
Proof. split; [vm_compute; reflexivity|reflexivity]. Qed.

Lemma c64_ex_session :
  let words := [word "--density"; word "0"; word "--size"; word "2"] in
  let d1 : files := [(word "c", words32 (collection 9 [[5]; [2; 7]]))] in
  let d2 : files := (word "i", f_index 9 [[5]; [2; 7]]) :: d1 in
  let built := run_build_lax zero_stod true x86 (word "-nan") true (fun _ => word "") (word "build")
                 (word "c" :: words ++ [word "--out"; word "i"]) d1 in
  (forall b, zlen b <= 2 ^ 63 -> in_memory b (fst (t_mapped b)) (snd (t_mapped b)))
  /\ run_uniform true (word "gen") [word "2"; word "1"; word "3"; word "9"; word "c"] [0; 5; 1; 7; 2] [] = ([], d1, Ok 0)
  /\ snd (fst built) = d2 /\ snd built = Ok 0
  /\ piped (run_queries_of true (fun mem f n => gen_select_queries true mem f n [0; 1]) t_mapped (word "gen") [word "i"; word "1"])
       (run_select true (word "-nan") b_time true t_mapped (word "select") [word "i"; word "1"]) d2
     = (word
"reading queries...
DONE
performing 2 select queries...
48
Mean per run: 5 [musec]
Mean per query: 2.5 [musec]
", d2, Ok 0).
Proof.
  cbn zeta. split; [exact t_mapped_ok|]. split; [vm_compute; reflexivity|]. split; [vm_compute; reflexivity|]. split; vm_compute; reflexivity.
Qed.

Lemma c64_ex_usage :
  run_union true (word "nan") b_time ex_tbl true t_mapped (word "./union") [word "i"] [] t_disk = (word
"./union index_filename num_queries < queries
", t_disk, Ok 1)
  /\ run_decode (word "nan") b_time true t_mapped (word "./decode") [] t_disk = (word
"./decode <index_filename>
", t_disk, Ok 1).
Proof. split; vm_compute; reflexivity. Qed.
