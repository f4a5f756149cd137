(** Lists that are not increasing: C43.  The definitions used in the statements are in Disorder.v. *)
From Verif Require Import Base Spec M_Util M_Build M_Seq M_Decode M_Query Disorder P_Ex P_Disorder4.
From Coq Require Import Lia.

(** C43: the list is cut into one piece for each chunk up to that of its last value; a piece ends at
    the first value above its chunk, and what follows the last piece is dropped *)
Theorem C43_cuts : forall L,
  L <> [] -> Forall (fun v => 0 <= v < 4294901760) L ->
  flat_map snd (cuts L) ++ lost L = L
  /\ map fst (cuts L) = zrange 0 (Z.to_nat (last L 0 / 65536 + 1))
  /\ Forall (fun c => Forall (fun v => v < 65536 * (fst c + 1)) (snd c)) (cuts L)
  /\ match lost L with [] => True | v :: _ => 65536 * (last L 0 / 65536 + 1) <= v end.
Proof. exact c43_cuts. Qed.
Print Assumptions C43_cuts.

(** build accepts the list, in a build with assertions unless a value lies below its chunk or is
    dropped; decode gives back [kept L] *)
Theorem C43_unordered : forall out L,
  L <> [] -> Forall (fun v => 0 <= v < 4294901760) L -> Forall run_ok (cuts L) ->
  Exists (fun c => snd c <> []) (cuts L) ->
  exists st enc, builder_build false out L = (Ok st, out ++ enc)
    /\ (Forall run_above (cuts L) /\ lost L = [] -> builder_build true out L = (Ok st, out ++ enc))
    /\ (~ (Forall run_above (cuts L) /\ lost L = []) -> builder_build true out L = (Abort, out))
    /\ forall dbg mem a buf pos,
         bytes_at mem a enc -> a + zlen enc + 31 <= zlen mem ->
         0 <= pos -> pos + zlen (kept L) + 23 <= zlen buf ->
         exists s buf', seq_at mem a = Ok s
           /\ decode dbg mem s buf pos = Ok (buf', zlen (kept L))
           /\ wrote 23 buf pos (kept L) buf'.
Proof. exact c43_unordered. Qed.
Print Assumptions C43_unordered.

(** with at most 30 values in a chunk, each value comes back with its low 16 bits and the number of
    the chunk it was taken for *)
Theorem C43_few : forall L,
  Forall (fun c => zlen (snd c) <= 30 /\ no_twins (snd c)) (cuts L) ->
  Forall run_ok (cuts L)
  /\ kept L = flat_map (fun c => map (fun v => 65536 * fst c + v mod 65536) (snd c)) (cuts L).
Proof. exact c43_few. Qed.
Print Assumptions C43_few.

(** 3 lies below chunk 1: it aborts a build with assertions and otherwise comes back as 65539 *)
Example C43_example_below :
  let L := [5; 70000; 3; 70001] in
  builder_build true [] L = (Abort, [])
  /\ exists st enc, builder_build false [] L = (Ok st, enc)
       /\ forall dbg mem a buf, bytes_at mem a enc -> a + zlen enc + 31 <= zlen mem -> 27 <= zlen buf ->
            exists s buf', seq_at mem a = Ok s /\ decode dbg mem s buf 0 = Ok (buf', 4)
              /\ wrote 23 buf 0 [5; 70000; 65539; 70001] buf'.
Proof.
  intro L.
  assert (F : Forall (fun c => zlen (snd c) <= 30 /\ no_twins (snd c)) (cuts L)).
  { change (cuts L) with [(0, [5]); (1, [70000; 3; 70001])].
    constructor; [|constructor; [|constructor]]; cbn [snd no_twins]; (split; [vm_compute; congruence|lia]). }
  assert (K : kept L = [5; 70000; 65539; 70001]) by (vm_compute; reflexivity).
  destruct (C43_few L F) as [H1 _].
  destruct (C43_unordered [] L) as (st & enc & R & _ & A & D); auto.
  { discriminate. }
  { unfold L. repeat (constructor; [lia|]). constructor. }
  { change (cuts L) with [(0, [5]); (1, [70000; 3; 70001])]. left. discriminate. }
  split.
  - apply A. intros [H _]. change (cuts L) with [(0, [5]); (1, [70000; 3; 70001])] in H.
    inversion H as [|? ? _ H']; subst. inversion H' as [|? ? H'' _]; subst.
    unfold run_above in H''. cbn [fst snd] in H''. inversion H'' as [|? ? _ X]; subst.
    inversion X; subst. lia.
  - exists st, enc. split; [exact R|]. rewrite K in D. intros dbg mem a buf B HL HB.
    apply (D dbg mem a buf 0 B HL); [lia|]. change (zlen [5; 70000; 65539; 70001]) with 4. lia.
Qed.

(** at most 30 values of one chunk, no two equal ones in a row: build accepts them in any order, even
    with assertions, and decode gives them back in that order *)
Theorem C43_one_chunk : forall out c L,
  L <> [] -> 0 <= c < 65535 -> Forall (fun v => v / 65536 = c) L -> zlen L <= 30 -> no_twins L ->
  exists st enc, (forall dbg, builder_build dbg out L = (Ok st, out ++ enc))
    /\ forall dbg mem a buf pos,
         bytes_at mem a enc -> a + zlen enc + 31 <= zlen mem ->
         0 <= pos -> pos + zlen L + 23 <= zlen buf ->
         exists s buf', seq_at mem a = Ok s /\ decode dbg mem s buf pos = Ok (buf', zlen L)
           /\ wrote 23 buf pos L buf'.
Proof. exact c43_one_chunk. Qed.
Print Assumptions C43_one_chunk.

Example C43_one_chunk_example :
  let L := [5; 3; 5] in
  Forall (fun v => v / 65536 = 0) L /\ no_twins L /\ ~ NoDup L
  /\ snd (builder_build true [] L) = [0; 0; 0; 0; 2; 0; 1; 0; 5; 0; 0; 2; 5; 3; 5].
Proof.
  split; [repeat (constructor; [reflexivity|]); constructor|].
  split; [cbn [no_twins]; lia|].
  split; [intro H; inversion H as [|? ? X]; subst; apply X; right; left; reflexivity|].
  vm_compute. reflexivity.
Qed.

(** "a list that build accepts with assertions can be queried" is false: 3 is in the list and in
    what decode gives, but contains denies it and next_geq passes over it *)
Theorem C43_queries_refuted :
  exists L enc st mem s,
    builder_build true [] L = (Ok st, enc) /\ bytes_at mem 0 enc /\ zlen enc + 31 <= zlen mem
    /\ seq_at mem 0 = Ok s /\ In 3 L
    /\ contains true mem s 3 = Ok false /\ next_geq true mem s 3 = Ok 5
    /\ next_geq true mem s 4 = Ok 4294967295 /\ In 5 L.
Proof.
  exists [5; 3], [0; 0; 0; 0; 1; 0; 1; 0; 4; 0; 0; 1; 5; 3].
  destruct (C43_one_chunk [] 0 [5; 3]) as (st & e & E & _).
  { discriminate. } { lia. } { repeat (constructor; [reflexivity|]). constructor. }
  { vm_compute. congruence. } { cbn [no_twins]. lia. }
  specialize (E true). cbn [app] in E.
  assert (Ee : [0; 0; 0; 0; 1; 0; 1; 0; 4; 0; 0; 1; 5; 3] = e).
  { transitivity (snd (builder_build true [] [5; 3])); [vm_compute; reflexivity|now rewrite E]. }
  exists st, ([0; 0; 0; 0; 1; 0; 1; 0; 4; 0; 0; 1; 5; 3] ++ repeat 0 31).
  eexists. split; [now rewrite Ee|]. split; [intros i Hi; rewrite Z.add_0_l; apply Lib.znth_app_l; lia|].
  split; [vm_compute; congruence|]. split; [vm_compute; reflexivity|].
  split; [right; left; reflexivity|].
  split; [vm_compute; reflexivity|]. split; [vm_compute; reflexivity|].
  split; [vm_compute; reflexivity|left; reflexivity].
Qed.
Print Assumptions C43_queries_refuted.

(** a valid list followed by values the first of which lies above the chunk of the last one: those
    values abort a build with assertions and are dropped otherwise; the statistics count them among
    the integers all the same *)
Theorem C43_tail : forall out P r R,
  valid P -> let L := P ++ r :: R in
  Forall (fun v => v < 65536 * (last L 0 / 65536 + 1)) P -> 65536 * (last L 0 / 65536 + 1) <= r ->
  0 <= last L 0 < 4294901760 ->
  builder_build true out L = (Abort, out)
  /\ exists st st' enc, builder_build false out L = (Ok st, out ++ enc)
       /\ builder_build false [] P = (Ok st', enc)
       /\ st F_integers = zlen L /\ st F_chunks = last L 0 / 65536 + 1
       /\ forall f, f <> F_integers -> f <> F_chunks -> f <> F_empty_chunks -> st f = st' f.
Proof. exact c43_tail. Qed.
Print Assumptions C43_tail.

Example C43_tail_example :
  valid [5] /\ 65536 * (last ([5] ++ 70000 :: [3]) 0 / 65536 + 1) <= 70000
  /\ snd (builder_build false [] [5; 70000; 3]) = snd (builder_build false [] [5]).
Proof.
  split; [|split; [vm_compute; congruence|vm_compute; reflexivity]].
  split; [discriminate|]. split; [apply sorted_b_ok; reflexivity|]. constructor; [lia|constructor].
Qed.

(** every value dropped: the bytes 255 255, which cannot be read (C02) *)
Theorem C43_nothing : forall out L,
  L <> [] -> Forall (fun v => 0 <= v < 4294901760) L -> Forall (fun c => snd c = []) (cuts L) ->
  builder_build true out L = (Abort, out)
  /\ exists st, builder_build false out L = (Ok st, out ++ [255; 255]).
Proof. exact c43_nothing. Qed.
Print Assumptions C43_nothing.

Example C43_nothing_example :
  Forall (fun c => snd c = []) (cuts [70000; 5])
  /\ snd (builder_build false [] [70000; 5]) = [255; 255].
Proof.
  split; [|vm_compute; reflexivity]. change (cuts [70000; 5]) with [(0, @nil Z)].
  constructor; [reflexivity|constructor].
Qed.
