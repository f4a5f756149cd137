(** Building and decoding: C01, C02, C03. *)
From Verif Require Import Base Spec M_Build M_Seq M_Decode P_Ex P_Fin1.
From Coq Require Import Sorted.

(** C01: build then decode is the identity, wherever the bytes are placed *)
Theorem C01_build_decode : forall dbg out S,
  valid S ->
  exists stats enc, builder_build dbg out S = (Ok stats, out ++ enc)
    /\ forall dbg' mem a buf pos,
         bytes_at mem a enc -> a + zlen enc + 31 <= zlen mem ->
         0 <= pos -> pos + zlen S + 23 <= zlen buf ->
         exists s buf', seq_at mem a = Ok s
           /\ decode dbg' mem s buf pos = Ok (buf', zlen S)
           /\ wrote 23 buf pos S buf'.
Proof. exact c01_build_decode. Qed.
Print Assumptions C01_build_decode.

Example C01_example :
  valid exA /\ bytes_at ex_mem ex_a encA /\ ex_a + zlen encA + 31 <= zlen ex_mem
  /\ (let! s := seq_at ex_mem ex_a in
      let! (out, n) := decode true ex_mem s (repeat 0 80) 3 in
      Ok (firstn 48 out, n)) = Ok (repeat 0 3 ++ exA, 45).
Proof.
  split; [exact valid_A|]. split; [exact bytes_A|].
  split; [vm_compute; congruence|vm_compute; reflexivity].
Qed.

(** C02: values in the last 65536 of the 32-bit range abort a build with assertions and are
    silently lost otherwise; a list of such values only is encoded as the bytes 255 255 ... *)
Theorem C02_high_values : forall out S,
  StronglySorted Z.lt S -> Forall is_u32 S -> Exists (fun v => 4294901760 <= v) S ->
  let kept := filter (fun v => v <? 4294901760) S in
  builder_build true out S = (Abort, out)
  /\ (kept <> [] ->
      exists st st' enc, builder_build false out S = (Ok st, out ++ enc)
                         /\ builder_build false [] kept = (Ok st', enc))
  /\ (kept = [] -> exists st, builder_build false out S = (Ok st, out ++ [255; 255])).
Proof. exact c02_high_values. Qed.
Print Assumptions C02_high_values.

(** ... whose decode and size() read outside the encoding *)
Theorem C02_only_high_unreadable : forall dbg pre out pos,
  let mem := pre ++ [255; 255] in
  exists s, seq_at mem (zlen pre) = Ok s
    /\ cardinality mem s = UB /\ decode dbg mem s out pos = UB.
Proof. exact c02_only_high_unreadable. Qed.
Print Assumptions C02_only_high_unreadable.

Example C02_example :
  StronglySorted Z.lt [5; 4294901760; 4294967295] /\ Forall is_u32 [5; 4294901760; 4294967295]
  /\ Exists (fun v => 4294901760 <= v) [5; 4294901760; 4294967295]
  /\ snd (builder_build false [] [5; 4294901760; 4294967295]) = snd (builder_build false [] [5])
  /\ snd (builder_build false [] [4294967295]) = [255; 255].
Proof.
  split; [apply sorted_b_ok; reflexivity|].
  split; [repeat constructor; vm_compute; congruence|].
  split; [apply Exists_cons_tl, Exists_cons_hd; vm_compute; congruence|].
  split; vm_compute; reflexivity.
Qed.

(** C03: a repeated value makes build throw and leaves the builder's bytes alone *)
Theorem C03_duplicates_rejected : forall dbg out S,
  S <> [] -> StronglySorted Z.le S -> ~ NoDup S -> Forall (fun v => 0 <= v < 4294901760) S ->
  builder_build dbg out S = (Throw, out).
Proof. exact c03_duplicates_rejected. Qed.
Print Assumptions C03_duplicates_rejected.

Example C03_example :
  StronglySorted Z.le [3; 70000; 70000; 80000] /\ ~ NoDup [3; 70000; 70000; 80000]
  /\ builder_build false [1; 2] [3; 70000; 70000; 80000] = (Throw, [1; 2]).
Proof.
  split; [repeat constructor; vm_compute; congruence|].
  split; [intro H; inversion H; subst; inversion H3; subst; apply H4; left; reflexivity|].
  vm_compute. reflexivity.
Qed.
