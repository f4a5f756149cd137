(** Examples for C62. *)
From Coq Require Import Lia Sorted String Floats.SpecFloat.
From Verif Require Import Base Hw Spec Lib Layout M_Util M_Build M_Seq M_Index M_Drivers M_Tools M_Text M_Out M_Say M_Session
  Holds Format Shown Typed Drawn Session P_Index P_Tools P_Drivers P_Text3 P_Tests4 P_Tests5 P_Text2 P_Session.
Local Open Scope Z_scope.

Definition no_stod : list Z -> res spec_float := fun _ => Throw.
Definition s_files (ws : list Z) : files := [(word "c", words32 ws)].
Definition s_build (dbg : bool) (argv : list (list Z)) (d : files) :=
  run_build no_stod true (word "nan") dbg (fun _ => word "") (word "build") argv d.

Lemma c62_ex_build :
  (exists t, s_build true [word "c"] (s_files (collection 9 [[1; 2]; [4]])) = (t, s_files (collection 9 [[1; 2]; [4]]), UB))
  /\ s_build true [word "c"; word "--out"; word "i"] (s_files (collection 9 [[1; 2]; [4; 4]; [5]]))
     = (word
"universe size: 9
", s_files (collection 9 [[1; 2]; [4; 4]; [5]]), Throw)
  /\ s_build true [word "c"] (s_files [1; 9; 2; 1; 3; 5; 4])
     = (word
"universe size: 9
", s_files [1; 9; 2; 1; 3; 5; 4], UB)
  /\ s_build true [word "c"] (s_files [2; 9]) = ([], s_files [2; 9], Abort)
  /\ s_build false [word "d"] (s_files [1; 9]) = ([], s_files [1; 9], Throw).
Proof.
  split; [eexists; vm_compute; reflexivity|]. split; [vm_compute; reflexivity|]. split; [vm_compute; reflexivity|].
  split; vm_compute; reflexivity.
Qed.

(** a collection for which build comes to its end *)
Definition ladder_top : Z := 16842784.
Lemma c62_ex_ladder :
  let d := s_files (collection ladder_top [ladder]) in
  has_file d (word "c") (words32 (collection ladder_top [ladder])) /\ Forall is_u32 (collection ladder_top [ladder])
  /\ Forall short [ladder] /\ kept_lists (mkParams (p_density default_params) 0) [ladder] = [ladder]
  /\ Forall valid [ladder] /\ total zlen [ladder] < 2 ^ 37
  /\ (forall i, 1 <= i <= 256 -> sparse_chunks i [ladder] <> [])
  /\ exists tape, gen_uniform 1 1 100000 ladder_top tape = Ok (collection ladder_top [ladder]).
Proof.
  cbn zeta. pose proof ladder_valid as V. pose proof V as (N & HL & HF).
  assert (B : Forall (fun v => 0 <= v <= ladder_top) ladder).
  { apply Forall_forall. intros v Hv. apply (proj1 (Forall_forall (fun v => (0 <=? v) && (v <=? ladder_top) = true) ladder)) with (x := v) in Hv.
    - apply andb_prop in Hv as [H1 H2]. apply Z.leb_le in H1, H2. lia.
    - apply Forall_forall. apply forallb_forall. vm_compute. reflexivity. }
  assert (ZL : 1 <= zlen ladder <= 100000) by (vm_compute; split; discriminate).
  split; [exists [], []; split; [reflexivity|]; intros []|]. split.
  { unfold collection. constructor; [unfold is_u32; lia|]. constructor; [unfold is_u32, ladder_top; lia|].
    cbn [flat_map]. rewrite app_nil_r. constructor; [unfold is_u32; lia|].
    eapply Forall_impl; [|exact HF]. unfold is_u32. intros; lia. }
  split; [constructor; [apply short_valid, V|constructor]|]. split; [exact (kept_default ladder N)|].
  split; [constructor; [exact V|constructor]|]. split; [unfold total; cbn [fold_right]; lia|]. split; [exact ladder_sparse|].
  destruct (c36_uniform 1 1 100000 ladder_top) as [C _]; try (unfold is_u32, ladder_top; lia).
  destruct (C ltac:(lia)) as [_ S]. apply S. exists [ladder]. split; [reflexivity|]. split; [|reflexivity].
  constructor; [|constructor]. split; [exact HL|]. split; [exact B|]. split; [lia|]. intro E. now destruct N.
Qed.

Definition t_file : list Z := firstn (length t_mem - 32) (skipn 1 t_mem).
Definition t_disk : files := [(word "i", t_file); (word "c", words32 (collection 1000 t_lists))].
Definition t_mapped (b : list Z) : list Z * Z := (7 :: b ++ repeat 0 (Z.to_nat 31), 1).
Lemma c62_ex_tests :
  t_file = f_index 1000 t_kept /\ t_mapped t_file = (t_mem, 1)
  /\ run_test no_stod true (say_test_decode true) t_mapped (word "test_decode") [word "i"; word "c"; word "--size"; word "1"] t_disk
     = (word
"universe size: 1000
decoded 3 sequences
everything good
", t_disk, Ok 0)
  /\ run_test no_stod true (say_test_decode true) t_mapped (word "test_decode") [word "i"; word "x"] t_disk = ([], t_disk, Throw).
Proof.
  split; [vm_compute; reflexivity|]. split; [vm_compute; reflexivity|]. split; vm_compute; reflexivity.
Qed.

Lemma c62_ex_tools :
  run_uniform true (word "gen") [word "2"; word "1"; word "3"; word "9"; word "c"] [0; 5; 1; 7; 2] []
  = ([], [(word "c", words32 (collection 9 [[5]; [2; 7]]))], Ok 0)
  /\ forall tape, run_uniform true (word "gen") [word "2"; word "1"] tape [] = (word
"gen num_lists min_length max_length universe output_filename
", [], Ok 1).
Proof. split; [vm_compute; reflexivity|]. intro. vm_compute. reflexivity. Qed.

Lemma c62_ex_example : forall heap,
  let run argv stdin := run_example (word "nan") true (fun _ => word "") heap t_mapped (word "example") argv stdin [] in
  run [word "-o"; word "s"; word "-h"] [] = (word
"example -o output_filename < input
", [], Ok 1)
  /\ run [word "--out"] [] = (word
"unknown option '--out'
", [], Ok 1)
  /\ run [word "-o"; word "s"] (word "3 7 7 9") = ([], [], Throw)
  /\ exists t, typed t (zlen ladder :: ladder ++ []).
Proof.
  intro heap. split; [vm_compute; reflexivity|]. split; [vm_compute; reflexivity|]. split; [vm_compute; reflexivity|].
  exists (show_lines (zlen ladder :: ladder ++ [])). apply P_Text2.typed_lines. constructor; [apply zlen_nonneg|].
  rewrite app_nil_r. destruct ladder_valid as (_ & _ & F). eapply Forall_impl; [|exact F]. cbv beta. intros; lia.
Qed.
