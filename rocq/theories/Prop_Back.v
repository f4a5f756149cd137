(** next_geq_enumerator with queries in any order: C41. *)
From Verif Require Import Base Spec Format Back M_Seq M_Query P_Ex P_Back.

(** C41: the answers to every history, in whatever order, as long as 0 is not asked after "not found" and
    either there are at most 32 chunks or no query goes 32 chunk ids beyond the previous answer *)
Theorem C41_any_order : forall dbg mem a S q qs,
  valid S -> stored 0 mem a S -> Forall is_u32 (q :: qs) -> no_restart S 0 (q :: qs) ->
  zlen (nodup Z.eq_dec (map (fun v => v / 65536) S)) <= 32
    \/ (answer S 0 q <> 4294967295 -> near S (moved S 0 q) (answer S 0 q) qs) ->
  exists s g, seq_at mem a = Ok s /\ ng_init mem s = Ok g /\ ng_size g = zlen S
    /\ ng_run dbg mem g (q :: qs) = Ok (answers S 0 (q :: qs)).
Proof. exact back_history. Qed.
Print Assumptions C41_any_order.

(** the second query goes back to the first chunk and gets the first value of the current one; the
    third one asks for that value and gets a later one *)
Example C41_example :
  valid exM /\ stored 0 memM 0 exM
  /\ Forall is_u32 [70001; 5; 70000; 65537; 70301; 66000; 140000; 140001; 7]
  /\ no_restart exM 0 [70001; 5; 70000; 65537; 70301; 66000; 140000; 140001; 7]
  /\ zlen (nodup Z.eq_dec (map (fun v => v / 65536) exM)) <= 32
  /\ near exM (moved exM 0 70001) (answer exM 0 70001) [5; 70000; 65537; 70301; 66000; 140000; 140001; 7]
  /\ answers exM 0 [70001; 5; 70000; 65537; 70301; 66000; 140000; 140001; 7]
     = [70300; 70000; 70300; 70300; 70301; 70300; 140000; 4294967295; 4294967295]
  /\ (let! s := seq_at memM 0 in let! g := ng_init memM s in
      ng_run true memM g [70001; 5; 70000; 65537; 70301; 66000; 140000; 140001; 7])
     = Ok [70300; 70000; 70300; 70300; 70301; 70300; 140000; 4294967295; 4294967295].
Proof.
  split; [exact valid_M|]. split; [eapply stored_weaken; [exact stored_M|discriminate]|].
  split; [repeat constructor; vm_compute; congruence|].
  split; [exact no_restart_M|]. split; [vm_compute; discriminate|]. split; [exact near_M|].
  split; vm_compute; reflexivity.
Qed.

(** C41: asked for a value of the sequence, the enumerator can answer with a later one *)
Theorem C41_lost_refuted : exists S mem a qs s g r,
  valid S /\ stored 31 mem a S /\ Forall is_u32 qs /\ seq_at mem a = Ok s /\ ng_init mem s = Ok g
  /\ (forall dbg, ng_run dbg mem g qs = Ok r)
  /\ exists i q x, znth qs i = Some q /\ znth r i = Some x /\ In q S /\ x <> q.
Proof. exact back_lost. Qed.
Print Assumptions C41_lost_refuted.

(** C41: 0 asked after "not found" can be answered with a value that is not in the sequence ... *)
Theorem C41_restart_refuted : exists S mem a qs s g r,
  valid S /\ stored 31 mem a S /\ Forall is_u32 qs /\ seq_at mem a = Ok s /\ ng_init mem s = Ok g
  /\ (forall dbg, ng_run dbg mem g qs = Ok r)
  /\ exists x, In x r /\ x <> 4294967295 /\ ~ In x S.
Proof. exact back_restart. Qed.
Print Assumptions C41_restart_refuted.

(** ... or is undefined *)
Theorem C41_restart_ub_refuted : exists S mem a qs s g,
  valid S /\ stored 31 mem a S /\ Forall is_u32 qs /\ seq_at mem a = Ok s /\ ng_init mem s = Ok g
  /\ (forall dbg, ng_run dbg mem g qs = UB).
Proof. exact back_restart_ub. Qed.
Print Assumptions C41_restart_ub_refuted.
