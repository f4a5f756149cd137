(** C42: exactly how large the output buffers of the set operations must be. *)
From Verif Require Import Base Hw Spec Format Room RoomSets M_Util M_Seq M_Intersect M_Union M_Many P_Ex P_RoomSets.

(** [out] has room for [zlen out - pos] words: [meet_fits] says from the values alone whether that is
    enough.  If it is, the result is exact; if not, the intersection writes past the end of the buffer. *)
Theorem C42_intersection : forall tbl mem a b S T,
  shuffle_table_ok tbl -> valid S -> valid T -> stored 31 mem a S -> stored 31 mem b T ->
  exists s t e, seq_at mem a = Ok s /\ seq_at mem b = Ok t /\ enumerates (fun v => In v S /\ In v T) e
    /\ forall dbg x out pos, zlen x = 1024 -> 0 <= pos <= zlen out ->
       (meet_fits S T (zlen out - pos) -> exists x' out',
          pairwise_intersection tbl dbg mem s t x out pos = Ok (x', out', zlen e)
          /\ zlen x' = 1024 /\ wrote 23 out pos e out')
       /\ (~ meet_fits S T (zlen out - pos) -> pairwise_intersection tbl dbg mem s t x out pos = UB).
Proof. exact c42_intersection. Qed.
Print Assumptions C42_intersection.

(** the same for the union of sequences stored at different places *)
Theorem C42_union : forall mem a b S T,
  valid S -> valid T -> stored 31 mem a S -> stored 31 mem b T -> apart a S b T -> a <> b ->
  exists s t e, seq_at mem a = Ok s /\ seq_at mem b = Ok t /\ enumerates (fun v => In v S \/ In v T) e
    /\ forall dbg x y out pos, zlen x = 4 -> zlen y = 1024 -> 0 <= pos <= zlen out ->
       (join_fits S T (zlen out - pos) -> exists x' y' out',
          pairwise_union dbg mem s t x y out pos = Ok (x', y', out', zlen e)
          /\ zlen x' = 4 /\ zlen y' = 1024 /\ wrote 23 out pos e out')
       /\ (~ join_fits S T (zlen out - pos) -> pairwise_union dbg mem s t x y out pos = UB).
Proof. exact c42_union. Qed.
Print Assumptions C42_union.

(** a sequence united with itself needs only the room of the result *)
Theorem C42_union_self : forall mem a S, valid S -> stored 31 mem a S ->
  exists s, seq_at mem a = Ok s
    /\ forall dbg x y out pos, zlen x = 4 -> zlen y = 1024 -> 0 <= pos <= zlen out ->
       (pos + zlen S <= zlen out -> exists x' y' out',
          pairwise_union dbg mem s s x y out pos = Ok (x', y', out', zlen S)
          /\ zlen x' = 4 /\ zlen y' = 1024 /\ wrote 23 out pos S out')
       /\ (zlen out < pos + zlen S -> pairwise_union dbg mem s s x y out pos = UB).
Proof. exact c42_union_self. Qed.
Print Assumptions C42_union_self.

(** so do the operations on any number of sequences *)
Theorem C42_intersection_many : forall mem addrs Ss,
  Ss <> [] -> Forall valid Ss -> Forall2 (stored 0 mem) addrs Ss ->
  exists seqs e, Forall2 (fun a s => seq_at mem a = Ok s) addrs seqs
    /\ enumerates (fun v => forall S, In S Ss -> In v S) e
    /\ forall seqs', sort_outcome mem seqs seqs' ->
       forall dbg headers tmp bitmap out pos,
       zlen headers = 65536 -> zlen tmp = 1024 -> zlen bitmap = 1024 -> 0 <= pos <= zlen out ->
       (pos + zlen e <= zlen out -> exists headers' tmp' bitmap' out',
          intersection_sorted dbg mem seqs' headers tmp bitmap out pos = Ok (headers', tmp', bitmap', out', zlen e)
          /\ wrote 0 out pos e out')
       /\ (zlen out < pos + zlen e -> intersection_sorted dbg mem seqs' headers tmp bitmap out pos = UB).
Proof. exact c42_intersection_many. Qed.
Print Assumptions C42_intersection_many.

Theorem C42_union_many : forall mem addrs Ss,
  Ss <> [] -> Forall valid Ss -> Forall2 (stored 0 mem) addrs Ss ->
  exists seqs e, Forall2 (fun a s => seq_at mem a = Ok s) addrs seqs
    /\ enumerates (fun v => exists S, In S Ss /\ In v S) e
    /\ forall dbg tmp bitmap out pos,
       zlen tmp = 1024 -> zlen bitmap = 1024 -> 0 <= pos <= zlen out ->
       (pos + zlen e <= zlen out -> exists tmp' bitmap' out',
          union_many dbg mem seqs tmp bitmap out pos = Ok (tmp', bitmap', out', zlen e) /\ wrote 0 out pos e out')
       /\ (zlen out < pos + zlen e -> union_many dbg mem seqs tmp bitmap out pos = UB).
Proof. exact c42_union_many. Qed.
Print Assumptions C42_union_many.

(** 23 words more than the result are always enough *)
Theorem C42_enough : forall S T e n, valid S -> valid T ->
  (enumerates (fun v => In v S /\ In v T) e -> zlen e + 23 <= n -> meet_fits S T n)
  /\ (enumerates (fun v => In v S \/ In v T) e -> zlen e + 23 <= n -> join_fits S T n).
Proof. exact c42_enough. Qed.
Print Assumptions C42_enough.

(** The intersection has 3 values but needs 8 words, because blocks are intersected 8 words at a time;
    the union has 106 and needs 113, because its last block is decoded 8 words at a time. *)
Example C42_example :
  shuffle_table_ok ex_tbl /\ valid exA /\ valid exB
  /\ stored 31 ex_mem ex_a exA /\ stored 31 ex_mem ex_b exB /\ apart ex_a exA ex_b exB /\ ex_a <> ex_b
  /\ meet exA exB = [7; 513; 520] /\ ~ meet_fits exA exB 7
  /\ join_size exA exB = 106 /\ ~ join_fits exA exB 112
  /\ (let run n := let! s := seq_at ex_mem ex_a in let! t := seq_at ex_mem ex_b in
        let! (_, out, m) := pairwise_intersection ex_tbl true ex_mem s t (repeat 3 (Z.to_nat 1024)) (repeat 0 n) 0 in
        Ok (m, firstn 3 out) in
      run 7%nat = UB /\ run 8%nat = Ok (3, [7; 513; 520]))
  /\ (let run n := let! s := seq_at ex_mem ex_a in let! t := seq_at ex_mem ex_b in
        let! (_, _, out, m) := pairwise_union true ex_mem s t [1; 2; 3; 4] (repeat 3 (Z.to_nat 1024)) (repeat 0 n) 0 in
        Ok (m, firstn 3 out) in
      run 112%nat = UB /\ run 113%nat = Ok (106, [5; 7; 20]))
  /\ (let run n := let! s := seq_at ex_mem ex_a in
        let! (_, _, out, m) := pairwise_union true ex_mem s s [1; 2; 3; 4] (repeat 3 (Z.to_nat 1024)) (repeat 0 n) 0 in
        Ok (m, out) in
      run 44%nat = UB /\ run 45%nat = Ok (45, exA)).
Proof.
  split; [exact ex_tbl_ok|]. split; [exact valid_A|]. split; [exact valid_B|].
  split; [exact stored_A|]. split; [exact stored_B|]. split; [exact apart_AB|]. split; [vm_compute; discriminate|].
  split; [vm_compute; reflexivity|]. split.
  { intros (_ & H). destruct (H 0) as [H8 _].
    specialize (H8 ltac:(vm_compute; reflexivity) ltac:(vm_compute; reflexivity) ltac:(vm_compute; reflexivity)
      ltac:(vm_compute; reflexivity)). revert H8. vm_compute. congruence. }
  split; [vm_compute; reflexivity|]. split.
  { intros (_ & H). destruct (H 768) as [H8 _].
    specialize (H8 ltac:(vm_compute; reflexivity) ltac:(vm_compute; reflexivity) ltac:(vm_compute; reflexivity)
      ltac:(left; vm_compute; reflexivity)). revert H8. vm_compute. congruence. }
  split; [split; vm_compute; reflexivity|]. split; [split; vm_compute; reflexivity|]. split; vm_compute; reflexivity.
Qed.

(** the n-ary operations need exactly the room of the result *)
Example C42_many_example :
  Forall valid [exB; exA; exA] /\ Forall2 (stored 0 ex_mem) [ex_b; ex_a; ex_a] [exB; exA; exA]
  /\ (let run n := let! s := seq_at ex_mem ex_a in let! t := seq_at ex_mem ex_b in
        let! (_, _, out, m) := union_many true ex_mem [t; s; s]
          (repeat 2 (Z.to_nat 1024)) (repeat 3 (Z.to_nat 1024)) (repeat 0 n) 0 in
        Ok (m, firstn 3 out) in
      run 105%nat = UB /\ run 106%nat = Ok (106, [5; 7; 20])).
Proof.
  split; [repeat (constructor; [first [exact valid_A | exact valid_B]|]); constructor|].
  split; [repeat (constructor; [first [exact stored_A0 | exact stored_B0]|]); constructor|].
  split; vm_compute; reflexivity.
Qed.
