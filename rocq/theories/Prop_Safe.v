(** When operations on damaged sequences end: C61. *)
From Verif Require Import Base Spec Outcome Format Damage M_Seq M_Intersect M_Union M_Many P_Ex P_Damage2 P_Spoil2
  P_Safe2 P_Safe3 P_SafeEx.
From Coq Require Import Sorted Lia.

(** C61: Only the heads are intact, all other bytes are arbitrary.  If 8712 more bytes can be read behind each sequence,
    and there is room for 65536 values for each chunk of the operand with fewer chunks, the intersection ends without
    an exception, a failed assertion or an access outside memory or the buffers. *)
Theorem C61_intersection : forall tbl dbg mem a b S T s t x out pos,
  shuffle_table_ok tbl -> valid S -> valid T -> Forall is_byte mem ->
  intact 0 (fun _ => False) mem a S -> intact 0 (fun _ => False) mem b T -> seq_at mem a = Ok s -> seq_at mem b = Ok t ->
  a + zlen (f_sequence S) + 8712 <= zlen mem -> b + zlen (f_sequence T) + 8712 <= zlen mem ->
  zlen x = 1024 -> 0 <= pos ->
  pos + 65536 * Z.min (zlen (ids 65536 (Z.to_nat 65536) S)) (zlen (ids 65536 (Z.to_nat 65536) T)) <= zlen out ->
  exists r, pairwise_intersection tbl dbg mem s t x out pos = Ok r.
Proof. exact c61_intersection. Qed.
Print Assumptions C61_intersection.

(** The union reads up to 21 bytes more, and needs room for 65536 values for each chunk of each operand. *)
Theorem C61_union : forall dbg mem a b S T s t x y out pos,
  valid S -> valid T -> Forall is_byte mem ->
  intact 0 (fun _ => False) mem a S -> intact 0 (fun _ => False) mem b T -> seq_at mem a = Ok s -> seq_at mem b = Ok t ->
  a + zlen (f_sequence S) + 8733 <= zlen mem -> b + zlen (f_sequence T) + 8733 <= zlen mem ->
  zlen x = 4 -> Forall is_word x -> zlen y = 1024 -> 0 <= pos ->
  pos + 65536 * (zlen (ids 65536 (Z.to_nat 65536) S) + zlen (ids 65536 (Z.to_nat 65536) T)) <= zlen out ->
  exists r, pairwise_union dbg mem s t x y out pos = Ok r.
Proof. exact c61_union. Qed.
Print Assumptions C61_union.

(** The intersection of many sequences needs room for 65536 values for each common chunk, their union for each chunk of
    any of them. *)
Theorem C61_intersection_many : forall dbg mem addrs Ss seqs seqs' headers tmp bitmap out pos Hs,
  Ss <> [] -> Forall valid Ss -> Forall is_byte mem -> Forall2 (intact 0 (fun _ => False) mem) addrs Ss ->
  Forall2 (fun a s => seq_at mem a = Ok s) addrs seqs -> sort_outcome mem seqs seqs' ->
  Forall2 (fun a S => a + zlen (f_sequence S) + 8712 <= zlen mem) addrs Ss ->
  zlen headers = 65536 -> zlen tmp = 1024 -> Forall is_word tmp -> zlen bitmap = 1024 -> Forall is_word bitmap -> 0 <= pos ->
  (forall h, (forall S, In S Ss -> has_chunk S h) -> In h Hs) -> pos + 65536 * zlen Hs <= zlen out ->
  exists r, intersection_sorted dbg mem seqs' headers tmp bitmap out pos = Ok r.
Proof. exact c61_intersection_many. Qed.
Print Assumptions C61_intersection_many.

Theorem C61_union_many : forall dbg mem addrs Ss seqs tmp bitmap out pos Hs,
  Ss <> [] -> Forall valid Ss -> Forall is_byte mem -> Forall2 (intact 0 (fun _ => False) mem) addrs Ss ->
  Forall2 (fun a s => seq_at mem a = Ok s) addrs seqs ->
  Forall2 (fun a S => a + zlen (f_sequence S) + 8712 <= zlen mem) addrs Ss ->
  zlen tmp = 1024 -> Forall is_word tmp -> zlen bitmap = 1024 -> Forall is_word bitmap -> 0 <= pos ->
  (forall h S, In S Ss -> has_chunk S h -> In h Hs) -> pos + 65536 * zlen Hs <= zlen out ->
  exists r, union_many dbg mem seqs tmp bitmap out pos = Ok r.
Proof. exact c61_union_many. Qed.
Print Assumptions C61_union_many.

(** Room for the values of both lists is not enough: with one damaged chunk the union writes behind the buffer. *)
Theorem C61_union_refuted : exists mem a b S T s t x y out,
  valid S /\ valid T /\ Forall is_byte mem /\ intact 0 (fun h => h <> 0) mem a S /\ intact 0 (fun _ => True) mem b T
  /\ seq_at mem a = Ok s /\ seq_at mem b = Ok t
  /\ a + zlen (f_sequence S) + 8733 <= zlen mem /\ b + zlen (f_sequence T) + 8733 <= zlen mem
  /\ zlen x = 4 /\ Forall is_word x /\ zlen y = 1024 /\ zlen out = zlen S + zlen T
  /\ forall dbg, pairwise_union dbg mem s t x y out 0 = UB.
Proof. exact c61_union_refuted. Qed.
Print Assumptions C61_union_refuted.

(** [exA] with its chunk 0 overwritten, and [exB] *)
Example C61_example :
  valid exA /\ valid exB /\ Forall is_byte mem_wide /\ intact 0 (fun _ => False) mem_wide ex_a exA
  /\ intact 0 (fun _ => False) mem_wide ex_b exB /\ shuffle_table_ok ex_tbl
  /\ ex_a + zlen (f_sequence exA) + 8733 <= zlen mem_wide /\ ex_b + zlen (f_sequence exB) + 8733 <= zlen mem_wide
  /\ (forall h, has_chunk exA h -> In h [0; 2; 3])
  /\ (let! s := seq_at mem_wide ex_a in let! t := seq_at mem_wide ex_b in
      let! p := pairwise_union true mem_wide s t (repeat 0 4) (repeat 0 (Z.to_nat 1024)) (repeat 0 800) 0 in
      let '(_, _, _, n) := p in Ok n) = Ok 441.
Proof.
  split; [exact valid_A|]. split; [exact valid_B|]. split; [exact bytes_wide|].
  split; [apply (intact_mono 0 (fun h => h <> 0)); [exact intact_wide|easy]|]. split; [apply intact_wide_B|].
  split; [exact ex_tbl_ok|]. split; [exact (proj1 wide_room)|]. split; [exact (proj2 wide_room)|]. split; [|vm_compute; reflexivity].
  intros h (v & Hv & <-). assert (F : forallb (fun v => let h := v / 65536 in (h =? 0) || (h =? 2) || (h =? 3)) exA = true)
    by (vm_compute; reflexivity).
  rewrite forallb_forall in F. specialize (F v Hv). cbn [In]. cbv zeta in F. lia.
Qed.
