(** C22: threads that share the static vector of ds_intersect_chunk. *)
From Verif Require Import Base Spec Format M_Seq M_Intersect M_Conc P_Ex P_Conc.

(** the thread, when nobody interrupts it, is the sequential model *)
Theorem C22_alone : forall tbl dbg mem l r x out pos, zlen x = 1024 ->
  alone x (pairwise_intersection_c tbl dbg mem l r out pos)
  = let! (x, out, n) := pairwise_intersection tbl dbg mem l r x out pos in Ok (x, (out, n)).
Proof. exact c22_alone. Qed.
Print Assumptions C22_alone.

(** whatever was executed so far, all threads can still finish *)
Theorem C22_can_finish : forall (ts : list (prog (list Z * Z))) x,
  exists sched x' rs, interleave x ts sched = (x', map Ret rs) /\ length rs = length ts.
Proof. exact (c22_can_finish _). Qed.
Print Assumptions C22_can_finish.

(** any number of threads, all but one ([k]) intersecting sequences that have no chunk stored
    as blocks in one and as a bitmap in the other: every finished thread has its own result *)
Theorem C22_safe : forall tbl dbg mem (js : list (job * list Z)) k x sched x' ts i j e r,
  shuffle_table_ok tbl -> zlen x = 1024 ->
  Forall (fun p => job_ok mem (fst p) (snd p)) js ->
  (forall i p, nth_error js i = Some p -> i <> k -> unmixed (j_S (fst p)) (j_T (fst p))) ->
  interleave x (map (fun p => thread tbl dbg mem (fst p)) js) sched = (x', ts) ->
  nth_error js i = Some (j, e) -> nth_error ts i = Some (Ret r) ->
  exists out', r = Ok (out', zlen e) /\ wrote 23 (j_out j) (j_pos j) e out'.
Proof. exact c22_safe. Qed.
Print Assumptions C22_safe.

Example C22_safe_example :
  shuffle_table_ok ex_tbl
  /\ Forall (fun p => job_ok cmem (fst p) (snd p)) [(job56, []); (job5, [5]); (job56, [])]
  /\ (forall i p, nth_error [(job56, []); (job5, [5]); (job56, [] : list Z)] i = Some p -> i <> 1%nat ->
        unmixed (j_S (fst p)) (j_T (fst p)))
  /\ ~ unmixed (j_S job5) (j_T job5).
Proof. split; [exact ex_tbl_ok|exact c22_ex_hyps]. Qed.

(** two threads that intersect a bitmap with blocks, in the same chunk [h]: there is always an
    interleaving in which both finish and the first one returns the common values of its
    bitmap and of the blocks of the other thread *)
Theorem C22_race : forall tbl dbg mem j j' e e' e2 h x,
  zlen x = 1024 -> job_ok mem j e -> job_ok mem j' e' ->
  Forall (fun v => v / 65536 = h) (j_S j ++ j_T j ++ j_S j' ++ j_T j') ->
  as_bitmap (j_S j) h = true -> as_blocks (j_T j) h = true ->
  as_bitmap (j_S j') h = true -> as_blocks (j_T j') h = true ->
  enumerates (fun v => In v (j_S j) /\ In v (j_T j')) e2 -> j_pos j + zlen e2 + 23 <= zlen (j_out j) ->
  exists sched x' out out',
    interleave x [thread tbl dbg mem j; thread tbl dbg mem j'] sched
    = (x', [Ret (Ok (out, zlen e2)); Ret (Ok (out', zlen e'))])
    /\ wrote 23 (j_out j) (j_pos j) e2 out /\ wrote 23 (j_out j') (j_pos j') e' out'.
Proof. exact c22_race. Qed.
Print Assumptions C22_race.

Example C22_race_example :
  job_ok cmem job5 [5] /\ job_ok cmem job6 [6]
  /\ Forall (fun v => v / 65536 = 0) (j_S job5 ++ j_T job5 ++ j_S job6 ++ j_T job6)
  /\ as_bitmap (j_S job5) 0 = true /\ as_blocks (j_T job5) 0 = true
  /\ as_bitmap (j_S job6) 0 = true /\ as_blocks (j_T job6) 0 = true
  /\ enumerates (fun v => In v (j_S job5) /\ In v (j_T job6)) [6].
Proof.
  exact (conj job5_ok (conj job6_ok (conj chunk_dn (conj bitmap_dn (conj blocks_5 (conj bitmap_dn (conj blocks_6
    enum_6))))))).
Qed.

(** so the answer can be wrong: it contains a value that is not in the second sequence *)
Theorem C22_isolation_refuted : forall dbg x, zlen x = 1024 ->
  exists tbl mem j j' e e' sched x' out n r',
    shuffle_table_ok tbl /\ job_ok mem j e /\ job_ok mem j' e'
    /\ interleave x [thread tbl dbg mem j; thread tbl dbg mem j'] sched = (x', [Ret (Ok (out, n)); Ret (Ok r')])
    /\ exists i v, 0 <= i < n /\ znth out (j_pos j + i) = Some v /\ ~ In v (j_T j).
Proof. exact c22_refuted. Qed.
Print Assumptions C22_isolation_refuted.
