(** Output buffers that are too small. *)
From Verif Require Import Base Hw Spec Lib L_Bits L_Group Layout M_Util M_Seq M_Decode M_Uncompress
  P_Build1 P_Build2 P_Build3 P_Seq P_Decode P_Query P_Uncompress.
From Coq Require Import Lia.

Lemma store_short out pos vals : zlen out < pos + zlen vals -> store out pos vals = UB.
Proof.
  intro H. unfold store. destruct (Z.leb_spec (pos + zlen vals) (zlen out)); [lia|]. now rewrite andb_false_r.
Qed.
Lemma fill_short x : forall n i out pos, 0 <= pos + i -> (0 < n)%nat -> zlen out < pos + i + Z.of_nat n ->
  fill_loop n i x out pos = UB.
Proof.
  induction n; intros i out pos H1 H0 H2; [lia|]. cbn [fill_loop].
  destruct (Z_lt_le_dec (pos + i) (zlen out)).
  - destruct (vset_ok out (pos + i) x) as (out1 & -> & W1); [lia|]. cbn [bind].
    apply IHn; rewrite ?(wrote_zlen _ _ _ _ _ W1); lia.
  - unfold vset. rewrite store_short; auto. zl.
Qed.

Lemma uncompress_chunk_short dbg mem slack it id c cs out pos :
  it_view slack mem it ((id, c) :: cs) -> 0 <= pos -> zlen out < pos + 1024 ->
  uncompress_chunk dbg mem it out pos = UB.
Proof.
  intros V Hp Hl. unfold uncompress_chunk. rewrite (id_view_type _ _ _ _ _ (proj1 V)). cbn [bind].
  destruct (kind_of c) eqn:K.
  - rewrite Z.eqb_refl. rewrite fill_short; auto; lia.
  - cbn [t_dense t_sparse Z.eqb Pos.eqb]. unfold uncompress_dense_chunk, memcpy_words.
    change (M_Util.chunk_size / 8 / 8) with 1024.
    destruct (load_words_ok mem (memb c) (Z.to_nat 1024) (i_data it)) as (ws & -> & L & _).
    { intros i Hi. apply (view_dense _ _ _ _ _ _ V K). lia. }
    cbn [bind]. rewrite store_short; auto. lia.
  - cbn [t_full t_dense t_sparse Z.eqb Pos.eqb]. unfold uncompress_full_chunk.
    change (Z.to_nat M_Util.chunk_size_in_64bit_words) with (Z.to_nat 1024).
    rewrite fill_short; auto; lia.
Qed.

Lemma uncompress_loop_short dbg mem slack cs : forall it prev u out pos0,
  it_view slack mem it cs -> 0 <= pos0 -> cs <> [] -> zlen out < pos0 + 1024 * (last_id cs + 1) ->
  uncompress_loop (length cs) dbg mem it prev u out (pos0 + 1024 * prev) = UB.
Proof.
  induction cs as [|[id c] cs IH]; intros it prev u out pos0 V Hp N Hl; [easy|].
  cbn [length uncompress_loop]. rewrite (id_view_id _ _ _ (proj1 V)). cbn [bind fst].
  pose proof (proj1 (proj1 V)) as W. pose proof W as W0. apply wf_cons in W as (W1 & W & F). pose proof W1 as (Hid & _).
  cbn [fst] in *. rewrite u16_id by lia.
  change M_Util.chunk_size_in_64bit_words with 1024.
  replace (pos0 + 1024 * prev + (id - prev) * 1024) with (pos0 + 1024 * id) by lia.
  destruct (Z_lt_le_dec (zlen out) (pos0 + 1024 * id + 1024)).
  - erewrite uncompress_chunk_short; eauto. lia.
  - destruct (uncompress_chunk_ok dbg mem slack it id c cs out (pos0 + 1024 * id)) as (out1 & -> & B1 & L1 & S1);
      auto; try lia.
    cbn [bind]. destruct (view_next _ _ _ _ _ _ V) as (it' & -> & V' & _). cbn [bind].
    destruct cs as [|ch cs]; [unfold last_id in Hl; cbn [last fst] in Hl; lia|].
    apply IH; auto; [easy|]. rewrite L1. exact Hl.
Qed.

(** uncompress stores all 1024 words of every non-empty chunk *)
Lemma uncompress_short dbg mem a S out pos :
  valid S -> stored 0 mem a S -> 0 <= pos -> zlen out < pos + 1024 * (last S 0 / 65536 + 1) ->
  exists s, seq_at mem a = Ok s /\ uncompress dbg mem s out pos = UB.
Proof.
  intros H St Hp Hl. destruct (stored_seq 0 mem a S H St ltac:(lia)) as (s & Es & En & V & A & B0).
  destruct (valid_chunks S H) as (W & N & U & SC & L). unfold uncompress. exists s. split; auto.
  pose proof (uncompress_loop_short dbg mem 0 (chunks_of S) (seq_begin s) 0 0 out pos V Hp N) as E.
  replace (pos + 1024 * 0) with pos in E by lia. rewrite En, <- length_zlen, E; auto.
  rewrite (last_id_max S (last S 0)); auto.
Qed.
Lemma last_nonneg S : valid S -> 0 <= last S 0.
Proof.
  intros (N & _ & R). destruct (exists_last N) as (l & x & ->). rewrite last_last.
  apply Forall_app in R as [_ R]. inversion R; subst. lia.
Qed.
