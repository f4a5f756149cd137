(** The skips of next_geq_enumerator: C38. *)
From Verif Require Import Base Spec Format Jumps M_Seq M_Query P_Ex P_Jumps.

(** C38: if every skip moves the data pointer by the right number of bytes, all answers are right *)
Theorem C38_faithful : forall dbg mem a S qs,
  valid S -> stored 0 mem a S -> Forall is_u32 qs -> non_decreasing 0 qs -> faithful S 0 0 qs ->
  exists s g, seq_at mem a = Ok s /\ ng_init mem s = Ok g /\ ng_size g = zlen S
    /\ ng_run dbg mem g qs = Ok (map (spec_next_geq S) qs).
Proof. exact ng_history_faithful. Qed.
Print Assumptions C38_faithful.

(** two skips, the second one after a query that leaves the enumerator off the skip pointers; neither
    "at most 32 chunks", nor "gentle", nor "even" holds *)
Example C38_example :
  valid exJ /\ stored 0 memJ 0 exJ /\ Forall is_u32 [65536; 65536 * 33 + 2]
  /\ non_decreasing 0 [65536; 65536 * 33 + 2] /\ faithful exJ 0 0 [65536; 65536 * 33 + 2]
  /\ skips exJ (lands exJ 65536) (65536 * 33 + 2) = 1
  /\ (span exJ 0 32 = 97 /\ span exJ 1 33 = 97 /\ span exJ 2 34 = 99)
  /\ (let! s := seq_at memJ 0 in
      let! g := ng_init memJ s in ng_run true memJ g [65536; 65536 * 33 + 2]) = Ok [65536; 65536 * 33 + 7].
Proof.
  split; [exact valid_J|]. split; [eapply stored_weaken; [exact stored_J|discriminate]|].
  split; [repeat constructor; vm_compute; congruence|].
  split; [repeat split; vm_compute; congruence|].
  split; [exact faithful_J|]. split; [exact skips_J|]. split; [exact span_J|]. vm_compute. reflexivity.
Qed.

(** C38: in particular when chunks 32 apart occupy equally many bytes, for any number of chunks
    and any non-decreasing history *)
Theorem C38_even : forall dbg mem a S qs,
  valid S -> stored 0 mem a S -> Forall is_u32 qs -> non_decreasing 0 qs -> even S ->
  exists s g, seq_at mem a = Ok s /\ ng_init mem s = Ok g /\ ng_size g = zlen S
    /\ ng_run dbg mem g qs = Ok (map (spec_next_geq S) qs).
Proof. exact ng_history_even. Qed.
Print Assumptions C38_even.

Example C38_even_example :
  valid exK /\ stored 0 encK 0 exK /\ even exK /\ zlen (chunks exK) = 70
  /\ (let! s := seq_at encK 0 in
      let! g := ng_init encK s in ng_run true encK g [65536; 65536 * 34 + 35; 65536 * 68])
     = Ok [65537; 65536 * 35 + 35; 65536 * 68 + 68].
Proof.
  split; [exact valid_K|]. split; [exact stored_K|]. split; [exact even_K|]. split; [exact chunks_K|]. vm_compute. reflexivity.
Qed.

(** C38: how far off a skip lands.  The answer to the start of chunk number b leaves the enumerator
    there; moving from there to chunk number b + 32 brings the header to chunk number b + 32, and the
    data pointer to its data plus the difference between the sizes of two runs of 32 chunks *)
Theorem C38_off : forall dbg mem a S b h h',
  valid S -> stored 0 mem a S ->
  znth (chunks S) b = Some h -> znth (chunks S) (b + 32) = Some h' ->
  exists s g0 g it, seq_at mem a = Ok s /\ ng_init mem s = Ok g0
    /\ ng_next_geq dbg mem g0 (65536 * h) = Ok (g, spec_next_geq S (65536 * h))
    /\ skip_to_value mem (g_it g) h' = Ok it
    /\ i_begin it = b + 32
    /\ i_data it = a + zlen (f_sequence S) - span S (b + 32) (zlen (chunks S))
         + (span S (32 * (b / 32)) (32 * (b / 32) + 32) - span S b (b + 32)).
Proof. exact ng_skip_off. Qed.
Print Assumptions C38_off.

Example C38_off_example :
  valid exU /\ stored 0 memU 0 exU /\ znth (chunks exU) 1 = Some 1 /\ znth (chunks exU) (1 + 32) = Some 33
  /\ (span exU 0 32 = 273 /\ span exU 1 33 = 96)
  /\ (let! s := seq_at memU 0 in let! g := ng_init memU s in
      let! (g, _) := ng_next_geq true memU g 65536 in let! it := skip_to_value memU (g_it g) 33 in
      Ok (i_begin it, i_data it)) = Ok (33, 791)
  /\ zlen (f_sequence exU) = 638 /\ zlen memU = 669.
Proof.
  split; [exact valid_U|]. split; [eapply stored_weaken; [exact stored_U|discriminate]|].
  split; [apply chunks_U|]. split; [apply chunks_U|]. split; [exact span_U|].
  split; [vm_compute; reflexivity|]. split; [exact size_U|]. vm_compute. reflexivity.
Qed.

(** C38: the enumerator can be made to read outside the memory: even 31 readable bytes after the
    encoding, which are enough for every other operation, do not suffice *)
Theorem C38_outside_refuted : exists S mem a qs s g,
  valid S /\ stored 31 mem a S /\ Forall is_u32 qs /\ non_decreasing 0 qs
  /\ seq_at mem a = Ok s /\ ng_init mem s = Ok g
  /\ (forall dbg, ng_run dbg mem g qs = UB).
Proof. exact ng_outside. Qed.
Print Assumptions C38_outside_refuted.
