(** Proofs for C49: examples, and command lines without options. *)
From Coq Require Import Lia String Ascii QArith Floats.SpecFloat.
From Verif Require Import Base Hw Spec Format Lib M_Util M_Build M_Seq M_Index M_Print M_Drivers M_Text M_Out
  Counts Shown Typed Printed P_Print P_Shown P_Text2 P_Text6 P_Out P_Out2 P_Out3 P_Index P_Fin4.
Local Open Scope Z_scope.

Lemma c49_integer : forall n t, 0 <= n -> (t = show n <-> natural n t).
Proof.
  intros n t H. pose proof (show_natural n H) as S. split; [intros ->; exact S|].
  intro T. exact (natural_unique _ _ _ T S).
Qed.
Lemma c49_double : forall nan x t, t = show_double nan x <-> real nan x t.
Proof.
  intros nan x t. pose proof (double_ok nan x) as D. split; [intros ->; exact D|].
  intro T. exact (real_unique _ _ _ _ T D).
Qed.

(** the output of build in README.md *)
Definition readme (f : field) : Z :=
  match f with
  | F_sequences => 100
  | F_integers => 45911859
  | F_integers_in_sparse_chunks => 1418752
  | F_integers_in_dense_chunks => 13953331
  | F_integers_in_full_chunks => 65536 * 466
  | F_integers_in_sparse_blocks => 253390
  | F_integers_in_dense_blocks => 1165362
  | F_chunks => 1572
  | F_empty_chunks => 310
  | F_sparse_chunks => 283
  | F_dense_chunks => 513
  | F_full_chunks => 466
  | F_blocks => 23395
  | F_empty_blocks => 14
  | F_sparse_blocks => 15767
  | F_dense_blocks => 7614
  | F_bits => 8 * 4757416
  | F_chunks_header_bits => 64 * (1572 - 310) + 16 * 100
  | F_blocks_header_bits => 16 * 7614 + 8 * 15767
  | F_dense_chunks_bits => 65536 * 513
  | F_dense_blocks_bits => 256 * 7614
  | F_sparse_blocks_bits => 8 * (253390 + 15767)
  (* not shown in README.md; chosen to agree with the others *)
  | F_sparse_blocks_cardinalities i => if i =? 16 then 14649 else if i =? 17 then 1118 else 0
  | F_num_blocks_in_chunks i => if i =? 82 then 108 else if i =? 83 then 175 else 0
  | F_num_integers i => if i =? 82 then 418752 else if i =? 83 then 1000000 else 0
  end.
Definition readme_log : list Z := lines (map word
  ["processed 100 sequences, 45911859 integers";
   "chunks: 1572";
   "full chunks: 466 (66.5183% of ints)";
   "empty chunks: 310 (19.7201% of chunks)";
   "dense chunks: 513 (30.3916% of ints)";
   "sparse chunks: 283 (3.09016% of ints)";
   "blocks: 23395";
   "empty blocks: 14 (0.0598418% of blocks)";
   "dense blocks: 7614 (2.53826% of ints)";
   "sparse blocks: 15767 (0.551905% of ints)";
   "0.00179405 [bpi] for chunks' headers";
   "0.00540078 [bpi] for blocks' headers";
   "0.732272 [bpi] for dense chunks";
   "0.0424549 [bpi] for dense blocks";
   "0.0468998 [bpi] for sparse blocks";
   "total bytes: 4757416";
   "total bpi: 0.828965"]%string).
Lemma c49_readme : accounts readme
  /\ readme F_sparse_chunks + readme F_dense_chunks + readme F_full_chunks + readme F_empty_chunks = readme F_chunks
  /\ readme F_bits = readme F_chunks_header_bits + readme F_blocks_header_bits + readme F_dense_chunks_bits
       + readme F_dense_blocks_bits + readme F_sparse_blocks_bits + 64 * (readme F_sequences + 3)
  /\ fill [] summary_frame (summary readme) ++ endl = readme_log
  /\ forall nan, page nan (summary_lines readme) readme_log.
Proof.
  split; [constructor; vm_compute; reflexivity|]. split; [reflexivity|]. split; [reflexivity|].
  assert (E : forall nan, fill nan summary_frame (summary readme) ++ endl = readme_log).
  { intro nan. vm_compute. reflexivity. }
  split; [apply E|]. intro nan. rewrite <- (E nan), summary_text. apply ptext_page.
  unfold summary_lines. repeat (apply Forall_cons || apply Forall_nil); cbn [nonneg readme]; auto; try lia.
Qed.

(** lines of the logs in statistics/README.md *)
Lemma c49_logs : forall nan,
  Forall (fun r : Z * string => show_double nan (quot (ef_bits (fst r)) (fst r)) = word (snd r))
    [(1, "18"); (4, "16"); (7, "16"); (353, "10"); (306, "10"); (1850, "8"); (1849, "8"); (609, "9"); (9755, "5");
     (7081, "6"); (4475, "6")]%string
  /\ Forall (fun r : Z * Z * string => show_double nan (pct (fst (fst r)) (snd (fst r))) = word (snd r))
    [(65536 * 16850, 5322883266, "20.7459"); (6050670, 14584293, "41.4876"); (1448054662, 1730604715, "83.6733");
     (65536 * 712, 14858833259, "0.314033"); (9567963, 73708490, "12.9808"); (11602569856, 13193655562, "87.9405");
     (0, 19691599096, "0"); (705012, 50843195, "1.38664")]%string
  /\ Forall (fun r : Z * Z * string => show_double nan (quot (fst (fst r)) (snd (fst r))) = word (snd r))
    [(16 * 24883799 + 8 * 257666254, 5322883266, "0.462056"); (65536 * 23094, 5322883266, "0.284336");
     (256 * 24883799, 5322883266, "1.19677"); (8 * 2867702750, 5322883266, "4.31");
     (65536 * 84429, 14858833259, "0.37238"); (8 * 13109831357, 14858833259, "7.05834")]%string.
Proof. intro nan. split; [|split]; repeat constructor. Qed.

(** ** words that are no options *)
Lemma others words : flat_map spelled (map Other words) = words.
Proof. induction words as [|w words IH]; [reflexivity|]. cbn [map flat_map spelled app]. now rewrite IH. Qed.
Lemma settled_others (B : Type) (says : argument -> B -> Prop) words i b :
  (forall w b, ~ says (Other w) b) -> settled says (map Other words) i b -> b = i.
Proof.
  intros H [(before & a & after & E & S & _)|(-> & _)]; [|reflexivity]. exfalso.
  assert (I : In a (map Other words)) by (rewrite E; apply in_or_app; right; now left).
  apply in_map_iff in I as (w & <- & _). now apply (H w b).
Qed.
Lemma c48_script : forall stod iso dbg file name words,
  Forall (fun w => ~ wants_value w) words ->
  build_main stod iso dbg file (name :: words)
  = (let! (shown, bytes) := build_cpp dbg default_params (file name) in Ok (Some (shown, None))).
Proof.
  intros stod iso dbg file name words H.
  destruct (c48_build stod iso dbg file name (map Other words)) as (d & s & o & D & S & O & E & _).
  - apply Forall_forall. intros a Ha. apply in_map_iff in Ha as (w & <- & Hw). cbn [proper].
    rewrite Forall_forall in H. specialize (H w Hw). unfold wants_value in H. tauto.
  - rewrite others in E. rewrite E. apply settled_others in D, S, O.
    + subst. reflexivity.
    + intros w b (v & X & _). discriminate.
    + intros w b (v & X & _). discriminate.
    + intros w b (v & X & _). discriminate.
Qed.
Lemma c48_script_test : forall (A : Type) stod iso (test : list Z -> list Z -> parameters -> res A) index coll words,
  Forall (fun w => w <> word "--density" /\ w <> word "--size") words ->
  test_main stod iso test (index :: coll :: words) = (let! r := test index coll default_params in Ok (Some r)).
Proof.
  intros A stod iso test index coll words H.
  destruct (c48_test stod iso test index coll (map Other words)) as (d & s & D & S & E & _).
  - apply Forall_forall. intros a Ha. apply in_map_iff in Ha as (w & <- & Hw). cbn [proper_test].
    rewrite Forall_forall in H. exact (H w Hw).
  - rewrite others in E. rewrite E. apply settled_others in D; [|intros w b (v & X & _); discriminate].
    apply settled_others in S; [|intros w b (v & X & _); discriminate]. subst. reflexivity.
Qed.

Lemma c49_occurs : forall nan dbg u, 0 <= u -> exists t, build_text nan dbg default_params (collection u combs) = Ok t.
Proof.
  intros nan dbg u Hu. destruct (c28_shown_combs dbg u) as (st & o & q & E & P).
  unfold build_text. rewrite E. cbn [bind]. change (vget (collection u combs) 1) with (Ok u). cbn [bind].
  unfold print_text. rewrite P. cbn [bind]. eexists. reflexivity.
Qed.
