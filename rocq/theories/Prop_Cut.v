(** C55: files that are cut short.  [cut n mem] (Cut.v) is the memory of which only the first [n] bytes are left. *)
From Verif Require Import Base Hw Spec Format Damage Cut M_Util M_Build M_Seq M_Decode M_Uncompress M_Query M_Index
  P_Ex Prop_Index P_Cut.
Local Open Scope Z_scope.

(** Opening an index reads its first 16 bytes, so it succeeds with the right size and universe wherever the file is cut
    behind them; taking the i-th sequence needs the bytes up to the first two of the sequence, and not one less. *)
Theorem C55_index : forall dbg params u Ls,
  is_u32 u ->
  let kept := filter (fun L => pass params (zlen L) (last L 0)) Ls in
  Forall valid kept -> Forall short Ls ->
  exists stats offsets sequences,
    index_build dbg params (collection u Ls) = Ok (stats, offsets, sequences)
    /\ forall mem f slack,
         0 <= f -> 0 <= slack -> bytes_at mem f (index_file offsets sequences) ->
         f + zlen (index_file offsets sequences) + slack <= zlen mem -> zlen mem <= 2 ^ 64 ->
         exists ix, ix_size ix = zlen kept /\ ix_universe ix = u
           /\ (forall n, f + 16 <= n -> index_mmap (cut n mem) f = Ok ix)
           /\ (forall n, n < f + 16 -> index_mmap (cut n mem) f = UB)
           /\ forall i S, znth kept i = Some S ->
                exists a s, seq_at mem a = Ok s /\ stored slack mem a S
                  /\ forall dbg' n, (a + 2 <= n -> index_get dbg' (cut n mem) ix i = Ok s)
                       /\ (n < a + 2 -> index_get dbg' (cut n mem) ix i = UB).
Proof. exact c55_index. Qed.
Print Assumptions C55_index.

(** A list all of whose bytes are left is stored as before; of one whose head is left the chunks whose data are left
    are intact in the sense of C52. *)
Theorem C55_whole : forall slack mem a S n,
  valid S -> stored slack mem a S -> 0 <= slack -> a + zlen (f_sequence S) + slack <= n -> stored slack (cut n mem) a S.
Proof. exact c55_whole. Qed.
Print Assumptions C55_whole.

Theorem C55_part : forall slack mem a S n,
  valid S -> stored slack mem a S -> 0 <= slack -> a + head_size S <= n ->
  intact slack (fun h => a + chunk_start S h + chunk_cost S h + slack <= n) (cut n mem) a S.
Proof. exact c55_part. Qed.
Print Assumptions C55_part.

(** The size is right exactly if all but the last four bytes of the head are left. *)
Theorem C55_size : forall mem a S n s,
  valid S -> stored 0 mem a S -> seq_at mem a = Ok s ->
  (a + head_size S - 4 <= n -> seq_size (cut n mem) s = Ok (zlen S))
  /\ (n < a + head_size S - 4 -> seq_size (cut n mem) s = UB).
Proof. exact c55_size. Qed.
Print Assumptions C55_size.

(** Queries that touch only chunks whose data are left are answered as before. *)
Theorem C55_contains : forall dbg mem a S n s v,
  valid S -> stored 0 mem a S -> seq_at mem a = Ok s -> a + head_size S <= n ->
  is_u32 v -> kept_chunk n a S (v / 65536) ->
  exists b, contains dbg (cut n mem) s v = Ok b /\ (b = true <-> In v S).
Proof. exact c55_contains. Qed.
Print Assumptions C55_contains.

Theorem C55_select : forall dbg mem a S n s i x value,
  valid S -> stored 0 mem a S -> seq_at mem a = Ok s -> a + head_size S <= n ->
  is_u32 i -> znth S i = Some x -> kept_chunk n a S (x / 65536) -> select dbg (cut n mem) s i value = Ok (true, x).
Proof. exact c55_select. Qed.
Print Assumptions C55_select.

Theorem C55_next_geq : forall dbg mem a S n s v r,
  valid S -> stored 0 mem a S -> seq_at mem a = Ok s -> a + head_size S <= n -> is_u32 v ->
  (In r S /\ v <= r /\ (forall x, In x S -> v <= x -> r <= x)) \/ (r = 4294967295 /\ forall x, In x S -> x < v) ->
  kept_chunk n a S (v / 65536) -> kept_chunk n a S (r / 65536) -> next_geq dbg (cut n mem) s v = Ok r.
Proof. exact c55_next_geq. Qed.
Print Assumptions C55_next_geq.

(** Decoding and uncompressing a list of which one byte is missing always leaves the memory. *)
Theorem C55_all : forall dbg mem a S n s out pos,
  valid S -> stored 0 mem a S -> seq_at mem a = Ok s -> n < a + zlen (f_sequence S) ->
  decode dbg (cut n mem) s out pos = UB /\ uncompress dbg (cut n mem) s out pos = UB.
Proof. exact c55_all. Qed.
Print Assumptions C55_all.

(** The index of C15_example, 173 bytes, cut to 139: the first list, 73 bytes from byte 40 on, is whole, of the second
    the head and the data of chunk 0 are left. *)
Example C55_example :
  let mem := cut 139 ex_index in
  zlen ex_index = 173 /\ zlen mem = 139
  /\ (let! ix := index_mmap mem 0 in Ok (ix_size ix, ix_universe ix)) = Ok (2, 200000)
  /\ (let! ix := index_mmap mem 0 in let! s := index_get true mem ix 0 in
      let! (buf, n) := decode true mem s (repeat 0 90) 0 in Ok (firstn 45 buf, n)) = Ok (exA, 45)
  /\ (let! ix := index_mmap mem 0 in let! s := index_get true mem ix 1 in seq_size mem s) = Ok 64
  /\ (let! ix := index_mmap mem 0 in let! s := index_get true mem ix 1 in contains true mem s 7) = Ok true
  /\ (let! ix := index_mmap mem 0 in let! s := index_get true mem ix 1 in decode true mem s (repeat 0 90) 0) = UB.
Proof. repeat split; vm_compute; reflexivity. Qed.
