(** Set operations on many sequences: C13, C14. *)
From Verif Require Import Base Spec M_Seq M_Many P_Ex P_Fin3.
From Coq Require Import Sorted Permutation.

(** C13: intersection.  [headers], [tmp] and [bitmap] are the static scratch vectors;
    [seqs'] is any order in which std::sort may leave the vector. *)
Theorem C13_intersection_many : forall mem addrs Ss,
  Ss <> [] -> Forall valid Ss -> Forall2 (stored 0 mem) addrs Ss ->
  exists seqs e, Forall2 (fun a s => seq_at mem a = Ok s) addrs seqs
    /\ enumerates (fun v => forall S, In S Ss -> In v S) e
    /\ (exists seqs', sort_outcome mem seqs seqs')
    /\ forall seqs', sort_outcome mem seqs seqs' ->
       forall dbg headers tmp bitmap out pos,
       zlen headers = 65536 -> zlen tmp = 1024 -> zlen bitmap = 1024 -> 0 <= pos -> pos + zlen e <= zlen out ->
       exists headers' tmp' bitmap' out', intersection_sorted dbg mem seqs' headers tmp bitmap out pos
           = Ok (headers', tmp', bitmap', out', zlen e)
         /\ zlen headers' = 65536 /\ zlen tmp' = 1024 /\ zlen bitmap' = 1024 /\ wrote 0 out pos e out'.
Proof. exact c13_intersection_many. Qed.
Print Assumptions C13_intersection_many.

Example C13_example :
  Forall valid [exB; exA; exA] /\ Forall2 (stored 0 ex_mem) [ex_b; ex_a; ex_a] [exB; exA; exA]
  /\ (let! s := seq_at ex_mem ex_a in let! t := seq_at ex_mem ex_b in
      let! (_, _, _, out, n) := intersection_sorted true ex_mem [s; s; t] (repeat 1 (Z.to_nat 65536))
        (repeat 2 (Z.to_nat 1024)) (repeat 3 (Z.to_nat 1024)) (repeat 0 5) 1 in
      Ok (out, n)) = Ok ([0; 7; 513; 520; 0], 3).
Proof.
  split; [repeat (constructor; [first [exact valid_A | exact valid_B]|]); constructor|].
  split; [|vm_compute; reflexivity].
  repeat (constructor; [first [exact stored_A0 | exact stored_B0]|]); constructor.
Qed.

(** C14: union_many.  [tmp], [bitmap] are the static scratch vectors. *)
Theorem C14_union_many : forall mem addrs Ss,
  Ss <> [] -> Forall valid Ss -> Forall2 (stored 0 mem) addrs Ss ->
  exists seqs e, Forall2 (fun a s => seq_at mem a = Ok s) addrs seqs
    /\ enumerates (fun v => exists S, In S Ss /\ In v S) e
    /\ forall dbg tmp bitmap out pos,
       zlen tmp = 1024 -> zlen bitmap = 1024 -> 0 <= pos -> pos + zlen e <= zlen out ->
       exists tmp' bitmap' out', union_many dbg mem seqs tmp bitmap out pos
           = Ok (tmp', bitmap', out', zlen e)
         /\ zlen tmp' = 1024 /\ zlen bitmap' = 1024 /\ wrote 0 out pos e out'.
Proof. exact c14_union_many. Qed.
Print Assumptions C14_union_many.

Example C14_example :
  Forall valid [exB; exA; exA] /\ Forall2 (stored 0 ex_mem) [ex_b; ex_a; ex_a] [exB; exA; exA]
  /\ (let! s := seq_at ex_mem ex_a in let! t := seq_at ex_mem ex_b in
      let! (_, _, out, n) := union_many true ex_mem [t; s; s]
        (repeat 2 (Z.to_nat 1024)) (repeat 3 (Z.to_nat 1024)) (repeat 0 108) 1 in
      Ok (firstn 7 out, skipn 104 out, n)) = Ok ([0; 5; 7; 20; 300; 512; 513], [131188; 131190; 196608; 0], 106).
Proof.
  split; [repeat (constructor; [first [exact valid_A | exact valid_B]|]); constructor|].
  split; [|vm_compute; reflexivity].
  repeat (constructor; [first [exact stored_A0 | exact stored_B0]|]); constructor.
Qed.
