(** Building from any list: C44. *)
From Verif Require Import Base Spec Lib M_Util M_Build M_Index L_Group Disorder P_Ex P_Ends P_Release Prop_Disorder.
From Coq Require Import Lia.

(** C44: build ends whatever the values are.  It throws only if two neighbours are equal, and aborts
    only in a build with assertions; in both cases the bytes of the builder stay as they were.
    Otherwise it appends to them, or its behaviour is undefined. *)
Theorem C44_builder : forall dbg out data,
  match builder_build dbg out data with
  | (Ok _, out') => exists enc, out' = out ++ enc
  | (Throw, out') => out' = out /\ exists a v b, data = a ++ v :: v :: b
  | (Abort, out') => out' = out /\ dbg = true
  | (UB, _) => True
  | (Fuel, _) => False
  end.
Proof. exact c44_builder. Qed.
Print Assumptions C44_builder.

(** each outcome occurs: success, exception, abort, undefined behaviour *)
Example C44_builder_example :
  snd (builder_build false [7] [5; 3]) = [7; 0; 0; 0; 0; 1; 0; 1; 0; 4; 0; 0; 1; 5; 3]
  /\ builder_build false [7] [9; 9] = (Throw, [7])
  /\ builder_build true [7] [70000; 5] = (Abort, [7])
  /\ fst (builder_build false [7] []) = UB.
Proof.
  split; [vm_compute; reflexivity|]. split; [vm_compute; reflexivity|].
  split; vm_compute; reflexivity.
Qed.

(** "two equal neighbours always throw" is false: values that are dropped are not looked at *)
Theorem C44_twins_refuted : exists a v b st enc,
  builder_build false [] (a ++ v :: v :: b) = (Ok st, enc).
Proof.
  exists [5], 70000, [3].
  destruct (C43_tail [] [5] 70000 [70000; 3]) as (_ & st & _ & enc & E & _).
  - split; [discriminate|]. split; [apply sorted_b_ok; reflexivity|]. constructor; [lia|constructor].
  - constructor; [vm_compute; reflexivity|constructor].
  - vm_compute. congruence.
  - cbn [last app]. lia.
  - exists st, enc. exact E.
Qed.
Print Assumptions C44_twins_refuted.

(** only the empty list and lists that descend somewhere have undefined behaviour *)
Theorem C44_defined : forall dbg out data,
  Forall is_u32 data -> fst (builder_build dbg out data) = UB ->
  data = [] \/ exists a v w b, data = a ++ v :: w :: b /\ w < v.
Proof. exact c44_defined. Qed.
Print Assumptions C44_defined.

(** both occur: 5 lies below chunk 1, which is stored as a bitmap *)
Example C44_defined_example :
  fst (builder_build false [] []) = UB
  /\ exists n, fst (builder_build false [] (65536 :: 5 :: 65537 :: zrange 65538 n)) = UB
       /\ Forall is_u32 (65536 :: 5 :: 65537 :: zrange 65538 n).
Proof.
  split; [reflexivity|]. destruct (Z_of_nat_complete 32766 ltac:(lia)) as [n Hn].
  exists n. split; [apply (below_bitmap_ub n); auto|].
  eapply Forall_impl; [|apply (below_bitmap_range n); auto]. unfold is_u32. intros; lia.
Qed.

(** C44: without assertions the outcome is that of the first piece which is not fine: an exception for
    equal neighbours, undefined behaviour if it cannot be stored.  [taken L] is [cuts L] of C43, except
    that values from 4294901760 on are taken for no chunk *)
Theorem C44_release : forall out L,
  L <> [] -> Forall is_u32 L -> zlen L < 4294967296 ->
  (Forall fine (taken L) -> exists st enc, builder_build false out L = (Ok st, out ++ enc))
  /\ forall pre c post, taken L = pre ++ c :: post -> Forall fine pre ->
      (~ no_twins (snd c) -> builder_build false out L = (Throw, out))
      /\ (no_twins (snd c) -> ~ storable c -> fst (builder_build false out L) = UB).
Proof. exact c44_release. Qed.
Print Assumptions C44_release.

(** there are no other cases *)
Theorem C44_release_cases : forall L,
  Forall fine (taken L)
  \/ exists pre c post, taken L = pre ++ c :: post /\ Forall fine pre
       /\ (~ no_twins (snd c) \/ no_twins (snd c) /\ ~ storable c).
Proof. exact (fun L => release_cases (taken L)). Qed.
Print Assumptions C44_release_cases.

(** pieces 0: fine, 1: two equal values; the first value that does not fit, 300000, is not looked at *)
Example C44_release_example :
  let L := [5; 70000; 9; 9; 300000; 66000] in
  taken L = [(0, [5])] ++ (1, [70000; 9; 9]) :: [] /\ Forall fine [(0, [5])] /\ ~ no_twins [70000; 9; 9]
  /\ builder_build false [7] L = (Throw, [7])
  /\ taken [4294967295; 5] = [(0, [])]
  /\ snd (builder_build false [7] [4294967295; 5]) = [7; 255; 255].
Proof.
  split; [vm_compute; reflexivity|]. split.
  - constructor; [|constructor]. split; [cbn; auto|]. split; intro H; [vm_compute; discriminate|discriminate].
  - split; [cbn [no_twins]; lia|]. split; [vm_compute; reflexivity|]. split; vm_compute; reflexivity.
Qed.

(** C44: the same for a whole collection of at most 2^32 + 1 words, whatever lengths it gives; a
    longer one may be read forever (C37) *)
Theorem C44_index : forall dbg params data,
  Forall is_u32 data -> zlen data <= 4294967297 ->
  match index_build dbg params data with
  | Ok _ | UB => True
  | Throw => exists a v b, data = a ++ v :: v :: b
  | Abort => dbg = true
  | Fuel => False
  end.
Proof. exact c44_index. Qed.
Print Assumptions C44_index.

(** a sequence with two equal values; a collection that does not start with 1; one cut short *)
Example C44_index_example :
  index_build false default_params [1; 100; 3; 4; 9; 9] = Throw
  /\ index_build true default_params [2; 100; 1; 4] = Abort
  /\ index_build false default_params [1; 100; 3; 4; 9] = UB
  /\ (let! (_, offsets, sequences) := index_build false default_params [1; 100; 2; 9; 4] in
      Ok (offsets, sequences)) = Ok ([100; 0], [0; 0; 0; 0; 1; 0; 1; 0; 4; 0; 0; 1; 9; 4]).
Proof.
  split; [vm_compute; reflexivity|]. split; [vm_compute; reflexivity|].
  split; vm_compute; reflexivity.
Qed.
