(** C35: example.cpp on lists that are not increasing.  The definitions used in the statements are in
    Disorder.v, Outcome.v, Counts.v and Room.v. *)
From Verif Require Import Base Spec Format Room M_Util M_Build M_Print M_Drivers Counts Shown Disorder Outcome L_Group P_Release P_Assert P_Drivers P_Example.
From Coq Require Import Lia.

(** what the builder does not accept (C44) ends example.cpp with an exception, with an abort or in
    undefined behaviour *)
Theorem C35_example_cpp_invalid : forall place L, Forall is_u32 L -> zlen L < 4294967296 ->
  (forall dbg, L = [] -> example_cpp dbg place L = UB)
  /\ (L <> [] -> forall pre c post, taken L = pre ++ c :: post ->
        (Forall fine pre ->
           (~ no_twins (snd c) -> example_cpp false place L = Throw)
           /\ (no_twins (snd c) -> ~ storable c -> example_cpp false place L = UB))
        /\ (Forall sound pre ->
           (caught c -> example_cpp true place L = Throw)
           /\ (~ caught c -> ~ sound c -> example_cpp true place L = Abort)))
  /\ (L <> [] -> Forall sound (taken L) -> flat_map snd (taken L) <> L -> example_cpp true place L = Abort).
Proof. exact c35_example_invalid. Qed.
Print Assumptions C35_example_cpp_invalid.

Example C35_example_cpp_invalid_example :
  taken [5; 70000; 9; 9; 66000] = [(0, [5])] ++ (1, [70000; 9; 9; 66000]) :: []
  /\ Forall fine [(0, [5])] /\ ~ no_twins [70000; 9; 9; 66000]
  /\ example_cpp false (fun enc => (enc, 0)) [5; 70000; 9; 9; 66000] = Throw
  /\ example_cpp true (fun enc => (enc, 0)) [5; 70000; 9; 9; 66000] = Abort.
Proof.
  split; [vm_compute; reflexivity|]. split.
  - constructor; [|constructor]. split; [cbn; auto|]. split; intro H; [vm_compute; discriminate|discriminate].
  - split; [cbn [no_twins]; lia|]. split; vm_compute; reflexivity.
Qed.

(** "example.cpp returns 0 only if all values of its input are stored" is false without assertions: a
    valid list [P] followed by values above the chunk of the last one is stored as [P] (C43), and only as
    many values as are stored are compared *)
Theorem C35_example_cpp_dropped : forall place P r R,
  valid P -> let L := P ++ r :: R in
  Forall (fun v => v < 65536 * (last L 0 / 65536 + 1)) P -> 65536 * (last L 0 / 65536 + 1) <= r ->
  0 <= last L 0 < 4294901760 ->
  (forall enc, bytes_at (fst (place enc)) (snd (place enc)) enc
     /\ snd (place enc) + zlen enc + 31 <= zlen (fst (place enc))) ->
  (forall i, 1 <= i <= 256 -> sparse_chunks i [P] <> []) -> decode_fits P (zlen P) ->
  example_cpp true place L = Abort /\ example_cpp false place L = Ok true.
Proof. exact c43_example_cpp. Qed.
Print Assumptions C35_example_cpp_dropped.

(** [ladder] ends in chunk 257; the value 2^31 is dropped *)
Example C35_example_cpp_dropped_example :
  valid ladder /\ (forall i, 1 <= i <= 256 -> sparse_chunks i [ladder] <> []) /\ decode_fits ladder (zlen ladder)
  /\ let L := ladder ++ 2147483648 :: [16842783] in
     Forall (fun v => v < 65536 * (last L 0 / 65536 + 1)) ladder
     /\ 65536 * (last L 0 / 65536 + 1) <= 2147483648 /\ 0 <= last L 0 < 4294901760.
Proof.
  destruct c35_example_occurs as [(V & S & D) _]. split; [exact V|]. split; [exact S|]. split; [exact D|].
  intro L. assert (E : last L 0 = 16842783).
  { unfold L. change (2147483648 :: [16842783]) with ([2147483648] ++ [16842783]). rewrite app_assoc. apply last_last. }
  rewrite E. change (16842783 / 65536) with 257. split; [|lia].
  unfold ladder. apply Forall_app. split.
  - apply Forall_forall. intros v Hv. apply in_flat_map in Hv as (i & Hi & Hv). apply in_map_iff in Hv as (x & <- & Hx).
    apply Lib.In_zrange in Hi. assert (x < 65536); [|lia].
    unfold P_Print.comb in Hx. apply in_map_iff in Hx as (b & <- & Hb). apply Lib.In_zrange in Hb. lia.
  - apply Forall_forall. intros v Hv. apply in_map_iff in Hv as (x & <- & Hx). apply Lib.In_zrange in Hx. lia.
Qed.
