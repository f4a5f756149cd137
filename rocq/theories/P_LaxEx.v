(** Examples for C63. *)
From Coq Require Import String Floats.SpecFloat.
From Verif Require Import Base Spec Layout M_Util M_Build M_Index M_Drivers M_Text M_Out M_Say M_Session M_Lax Format Typed Session Lax P_SessionEx.
Local Open Scope Z_scope.

Definition lax_disk : files := s_files (collection 9 [[1; 2]; [4]]).
Definition lax_run (conv : spec_float -> Z) :=
  run_build_lax no_stod true conv (word "-nan") true (fun _ => word "") (word "build") [word "c"; word "--out"; word "i"] lax_disk.

Lemma c63_ex_build :
  let text := fst (fst (lax_run x86)) in
  firstn (Z.to_nat 468) text = word
"universe size: 9
processed 2 sequences, 3 integers
chunks: 2
full chunks: 0 (0% of ints)
empty chunks: 0 (0% of chunks)
dense chunks: 0 (0% of ints)
sparse chunks: 2 (100% of ints)
blocks: 2
empty blocks: 0 (0% of blocks)
dense blocks: 0 (0% of ints)
sparse blocks: 2 (100% of ints)
53.3333 [bpi] for chunks' headers
5.33333 [bpi] for blocks' headers
0 [bpi] for dense chunks
0 [bpi] for dense blocks
13.3333 [bpi] for sparse blocks
total bytes: 67
total bpi: 178.667
"
  /\ firstn (Z.to_nat 294) (skipn (Z.to_nat 1670) text) = word
"sparse chunks with 2 blocks: 0%; avg_num_integers_per_block = -nan; avg_num_integers_per_chunk = 9223372036854775808
Elias-Fano avg. bpi 0 vs. 8
 -- total integers covered 100%
sparse chunks with 3 blocks: 0%; avg_num_integers_per_block = -nan; avg_num_integers_per_chunk = 9223372036854775808
"
  /\ snd (fst (lax_run x86)) = (word "i", f_index 9 [[1; 2]; [4]]) :: lax_disk
  /\ snd (lax_run x86) = Ok 0.
Proof. cbn zeta. split; [vm_compute; reflexivity|]. split; [vm_compute; reflexivity|]. split; vm_compute; reflexivity. Qed.

Definition lax_input : list Z := word "8 0 10 20 30 40 50 60 70".
Definition lax_small : list Z := word "3 1 4 9".
Definition lax_example (stdin : list Z) :=
  run_example_lax aarch64 (word "nan") true (fun _ => word "") t_mapped t_mapped (word "example") [word "-o"; word "s"] stdin [].
Lemma c63_ex_example :
  snd (lax_example lax_input) = Ok 0
  /\ snd (fst (lax_example lax_input)) = [(word "s", f_sequence_file [0; 10; 20; 30; 40; 50; 60; 70])]
  /\ snd (lax_example lax_small) = UB
  /\ snd (fst (lax_example lax_small)) = [(word "s", f_sequence_file [1; 4; 9])].
Proof. vm_compute. repeat split. Qed.

Definition zero_stod : list Z -> res spec_float := fun _ => Ok (S754_zero false).
Lemma c63_ex_session :
  let words := [word "--density"; word "0"; word "--size"; word "2"] in
  let d1 : files := [(word "c", words32 (collection 9 [[5]; [2; 7]]))] in
  let d2 : files := (word "i", f_index 9 [[5]; [2; 7]]) :: d1 in
  let built := run_build_lax zero_stod true x86 (word "-nan") true (fun _ => word "") (word "build")
                 (word "c" :: words ++ [word "--out"; word "i"]) d1 in
  run_uniform true (word "gen") [word "2"; word "1"; word "3"; word "9"; word "c"] [0; 5; 1; 7; 2] [] = ([], d1, Ok 0)
  /\ snd (fst built) = d2 /\ snd built = Ok 0
  /\ run_test zero_stod true (say_test_decode true) t_mapped (word "test_decode") (word "i" :: word "c" :: words) d2
     = (word
"universe size: 9
decoded 2 sequences
everything good
", d2, Ok 0).
Proof.
  cbn zeta. split; [vm_compute; reflexivity|]. split; [vm_compute; reflexivity|]. split; vm_compute; reflexivity.
Qed.
