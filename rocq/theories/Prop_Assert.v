(** Building with assertions from any list: C44, second part. *)
From Verif Require Import Base Spec Lib M_Util M_Build L_Group Disorder P_Release P_Assert.
From Coq Require Import Lia.

(** C44: with assertions the outcome is that of the first piece which is not sound: an exception if two
    neighbours are equal before any value lies below the chunk, otherwise an abort.  If all pieces are
    sound, build aborts exactly if not every value is taken for some chunk. *)
Theorem C44_debug : forall out L,
  L <> [] -> Forall is_u32 L -> zlen L < 4294967296 ->
  (Forall sound (taken L) ->
    (flat_map snd (taken L) = L -> exists st enc, builder_build true out L = (Ok st, out ++ enc))
    /\ (flat_map snd (taken L) <> L -> builder_build true out L = (Abort, out)))
  /\ forall pre c post, taken L = pre ++ c :: post -> Forall sound pre ->
      (caught c -> builder_build true out L = (Throw, out))
      /\ (~ caught c -> ~ sound c -> builder_build true out L = (Abort, out)).
Proof. exact c44_debug. Qed.
Print Assumptions C44_debug.

(** there are no other cases, and they exclude each other *)
Theorem C44_debug_cases : forall L,
  (Forall sound (taken L)
   \/ exists pre c post, taken L = pre ++ c :: post /\ Forall sound pre
        /\ (caught c \/ ~ caught c /\ ~ sound c))
  /\ forall c, caught c -> ~ sound c.
Proof. exact (fun L => conj (debug_cases (taken L)) caught_unsound). Qed.
Print Assumptions C44_debug_cases.

(** hence the assertions catch every list whose build would be undefined, except the empty one *)
Theorem C44_assertions : forall out L,
  L <> [] -> Forall is_u32 L -> zlen L < 4294967296 ->
  (exists st enc, builder_build true out L = (Ok st, out ++ enc))
  \/ builder_build true out L = (Throw, out) \/ builder_build true out L = (Abort, out).
Proof. exact c44_assertions. Qed.
Print Assumptions C44_assertions.

Example C44_assertions_empty : fst (builder_build true [] []) = UB.
Proof. reflexivity. Qed.

(** equal values after and before a value below the chunk; a value that is dropped; 258 values of one
    block, which are stored without assertions *)
Example C44_debug_example :
  taken [70000; 3; 9; 9; 70001] = [(0, [])] ++ (1, [70000; 3; 9; 9; 70001]) :: []
  /\ builder_build true [7] [70000; 3; 9; 9; 70001] = (Abort, [7])
  /\ builder_build false [7] [70000; 3; 9; 9; 70001] = (Throw, [7])
  /\ caught (1, [70000; 70000; 3; 70001]) /\ builder_build true [7] [70000; 70000; 3; 70001] = (Throw, [7])
  /\ flat_map snd (taken [5; 70000; 3]) = [5] /\ builder_build true [7] [5; 70000; 3] = (Abort, [7])
  /\ (let L := flat_map (fun _ => [0; 1]) (repeat tt 129) in
      builder_build true [7] L = (Abort, [7]) /\ zlen (snd (builder_build false [7] L)) = 45).
Proof.
  split; [vm_compute; reflexivity|]. split; [vm_compute; reflexivity|]. split; [vm_compute; reflexivity|].
  split; [exists [], 70000, [3; 70001]; split; [reflexivity|constructor; [cbn; lia|constructor]]|].
  split; [vm_compute; reflexivity|]. split; [vm_compute; reflexivity|]. split; [vm_compute; reflexivity|].
  split; vm_compute; reflexivity.
Qed.

(** 257 pieces in one chunk: an abort with assertions, undefined without them *)
Example C44_debug_example_pieces :
  let L := flat_map (fun _ => [0; 256]) (repeat tt 128) ++ [0] in
  builder_build true [7] L = (Abort, [7]) /\ fst (builder_build false [7] L) = UB.
Proof.
  cbv zeta. set (L := _ ++ [0]).
  assert (U : Forall is_u32 L).
  { assert (F : forallb (fun v => (0 <=? v) && (v <? 4294967296)) L = true) by (vm_compute; reflexivity).
    apply Forall_forall. intros v Hv. rewrite forallb_forall in F. apply F, andb_prop in Hv as [A B].
    apply Z.leb_le in A. apply Z.ltb_lt in B. split; auto. }
  assert (N : L <> []) by discriminate.
  assert (Z1 : zlen L < 4294967296) by (vm_compute; reflexivity).
  assert (T : taken L = [] ++ (0, L) :: []) by (vm_compute; reflexivity).
  assert (G : run_sparse L = true /\ ~ zlen (group 256 L) <= 256) by (vm_compute; auto).
  assert (W : no_twins L) by (vm_compute; repeat split; discriminate).
  destruct G as [G1 G2]. split.
  - destruct (C44_debug [7] L N U Z1) as (_ & B). destruct (B [] (0, L) [] T (Forall_nil _)) as (_ & B2). clear B.
    apply B2.
    + intro C. destruct C as (a & v & b & E & _). cbn [snd] in E. clear - W E. rewrite E in W. clear E.
      induction a as [|x a IH]; cbn [app no_twins] in W.
      * destruct W as [W _]. congruence.
      * apply IH. destruct a; apply W.
    + intros [(_ & _ & _ & H & _) _]. apply G2, H. exact G1.
  - destruct (c44_release [7] L N U Z1) as (_ & B). destruct (B [] (0, L) [] T (Forall_nil _)) as (_ & B2). clear B.
    apply B2; [exact W|]. intros [H _]. apply G2, H. exact G1.
Qed.
