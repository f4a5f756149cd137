(** C40: on arbitrary bytes every reading operation ends. *)
From Verif Require Import Base Hw Outcome M_Util M_Seq M_Decode M_Uncompress M_Query
  M_Intersect M_Union M_Many M_Index P_Total.

(** whatever bytes a sequence is made of, every operation on it ends, without an exception and,
    in a build without assertions, without an abort *)
Theorem C40_one dbg mem a s :
  Forall is_byte mem -> seq_at mem a = Ok s ->
  (forall v, settles dbg (contains dbg mem s v))
  /\ (forall r v, settles dbg (select dbg mem s r v))
  /\ (forall v, settles dbg (next_geq dbg mem s v))
  /\ settles dbg (seq_size mem s)
  /\ (forall out pos, settles dbg (decode dbg mem s out pos))
  /\ (forall out pos, Forall is_word out -> settles dbg (uncompress dbg mem s out pos))
  /\ (forall buf past k, settles dbg (let! e := enum_init dbg mem buf s past in
                                     let! e := enum_steps k dbg mem e in enum_value e))
  /\ (forall qs, settles dbg (let! g := ng_init mem s in ng_run dbg mem g qs)).
Proof. exact (c40_one dbg mem a s). Qed.
Print Assumptions C40_one.

(** two sequences; [tbl] is any shuffle table, [x], [y] the static buffers *)
Theorem C40_pair dbg mem a b l r tbl x y out pos :
  Forall is_byte mem -> seq_at mem a = Ok l -> seq_at mem b = Ok r ->
  settles dbg (pairwise_intersection tbl dbg mem l r x out pos)
  /\ (Forall is_word x -> settles dbg (pairwise_union dbg mem l r x y out pos)).
Proof. exact (c40_pair dbg mem a b l r tbl x y out pos). Qed.
Print Assumptions C40_pair.

(** any number of sequences, in any order *)
Theorem C40_many dbg mem seqs headers tmp bitmap out pos :
  Forall is_byte mem -> Forall (fun s => exists a, seq_at mem a = Ok s) seqs ->
  Forall is_word tmp -> Forall is_word bitmap ->
  settles dbg (intersection_sorted dbg mem seqs headers tmp bitmap out pos)
  /\ settles dbg (union_many dbg mem seqs tmp bitmap out pos).
Proof. exact (c40_many dbg mem seqs headers tmp bitmap out pos). Qed.
Print Assumptions C40_many.

(** opening any file as an index and taking any sequence of it *)
Theorem C40_open dbg mem f i :
  Forall is_byte mem -> settles dbg (let! ix := index_mmap mem f in index_get dbg mem ix i).
Proof. exact (c40_open dbg mem f i). Qed.
Print Assumptions C40_open.

(** malformed inputs: chunks in the wrong order (results are produced, in the order stored), and
    bytes that are all 255 (the first query leaves the memory) *)
Example C40_swapped :
  Forall is_byte swapped
  /\ exists s, seq_at swapped 0 = Ok s
     /\ (exists out, decode false swapped s (repeat 0 10) 0 = Ok (out, 2) /\ firstn 2 out = [589831; 327687])
     /\ contains false swapped s 327687 = Ok false
     /\ (exists t b o, union_many false swapped [s; s] (repeat 0 (Z.to_nat 1024)) (repeat 0 (Z.to_nat 1024))
                         (repeat 0 4) 0 = Ok (t, b, o, 2) /\ o = [589831; 327687; 0; 0])
     /\ exists h t b o, intersection_sorted false swapped [s; s] (repeat 0 8) (repeat 0 (Z.to_nat 1024))
                         (repeat 0 (Z.to_nat 1024)) (repeat 0 4) 0 = Ok (h, t, b, o, 1) /\ o = [589831; 0; 0; 0].
Proof.
  split; [exact swapped_bytes|]. eexists. split; [vm_compute; reflexivity|].
  split; [eexists; split; [vm_compute; reflexivity|reflexivity]|]. split; [vm_compute; reflexivity|].
  split; [do 3 eexists; split; [vm_compute; reflexivity|reflexivity]|].
  do 4 eexists; split; [vm_compute; reflexivity|reflexivity].
Qed.
Example C40_junk :
  let mem := repeat 255 100 in
  exists s, seq_at mem 0 = Ok s /\ contains false mem s 5 = UB /\ decode true mem s (repeat 0 10) 0 = UB.
Proof. eexists. split; [vm_compute; reflexivity|]. split; vm_compute; reflexivity. Qed.
