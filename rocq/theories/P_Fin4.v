(** The property theorems C15, C17, C18 in the form in which Prop_Index.v states them. *)
From Verif Require Import Base Hw Spec Lib L_Bits L_Group Layout M_Util M_Build M_Seq M_Decode
  M_Index P_Build1 P_Build2 P_Build3 P_Seq P_Decode P_Sets P_Index P_Stats.
From Coq Require Import Lia Sorted.

Lemma c15_index : forall dbg params u Ls,
  is_u32 u ->
  let kept := filter (fun L => pass params (zlen L) (last L 0)) Ls in
  Forall valid kept -> Forall short Ls ->
  exists stats offsets sequences,
    index_build dbg params (collection u Ls) = Ok (stats, offsets, sequences)
    /\ forall mem f slack,
         0 <= f -> 0 <= slack -> bytes_at mem f (index_file offsets sequences) ->
         f + zlen (index_file offsets sequences) + slack <= zlen mem -> zlen mem <= 2 ^ 64 ->
         exists ix, index_mmap mem f = Ok ix /\ ix_size ix = zlen kept /\ ix_universe ix = u
           /\ forall i S, znth kept i = Some S ->
                exists a s, seq_at mem a = Ok s /\ stored slack mem a S
                  /\ forall dbg', index_get dbg' mem ix i = Ok s.
Proof.
  intros dbg params u Ls Hu kept V HS.
  destruct (index_build_ok dbg params u Ls V HS) as (st & E & _).
  exists st, (u :: starts 0 kept), (lays kept). split; [exact E|].
  intros mem f slack Hf Hs B L HM.
  destruct (index_mmap_ok u kept mem f slack) as (ix & E1 & E2 & E3 & G); auto.
  { unfold is_u32 in Hu. lia. }
  exists ix. split; auto. split; auto. split; auto. intros i S Hi.
  destruct (G i S Hi) as (s & Hs' & St & EG). exists (addr kept f i), s. auto.
Qed.

Lemma c15_index_decode : forall dbg params u Ls,
  is_u32 u ->
  let kept := filter (fun L => pass params (zlen L) (last L 0)) Ls in
  Forall valid kept -> Forall short Ls ->
  exists stats offsets sequences,
    index_build dbg params (collection u Ls) = Ok (stats, offsets, sequences)
    /\ forall mem f,
         0 <= f -> bytes_at mem f (index_file offsets sequences) ->
         f + zlen (index_file offsets sequences) + 31 <= zlen mem -> zlen mem <= 2 ^ 64 ->
         exists ix, index_mmap mem f = Ok ix
           /\ forall i S, znth kept i = Some S ->
                forall dbg' buf pos, 0 <= pos -> pos + zlen S + 23 <= zlen buf ->
                exists s buf', index_get dbg' mem ix i = Ok s
                  /\ decode dbg' mem s buf pos = Ok (buf', zlen S) /\ wrote 23 buf pos S buf'.
Proof.
  intros dbg params u Ls Hu kept V HS.
  destruct (c15_index dbg params u Ls Hu V HS) as (st & o & q & E & K). exists st, o, q. split; auto.
  intros mem f Hf B L HM. destruct (K mem f 31 Hf ltac:(lia) B L HM) as (ix & E1 & _ & _ & G).
  exists ix. split; auto. intros i S Hi dbg' buf pos Hp Hb.
  destruct (G i S Hi) as (a & s & Es & St & EG).
  assert (VS : valid S) by (rewrite Forall_forall in V; apply V; eapply znth_In; eauto).
  destruct (decode_ok dbg' mem a S buf pos VS St Hp Hb) as (s' & buf' & Es' & ED & W).
  rewrite Es in Es'. injection Es' as <-. exists s, buf'. auto.
Qed.

Lemma c17_size_index : forall dbg params u Ls,
  let kept := filter (fun L => pass params (zlen L) (last L 0)) Ls in
  Forall valid kept -> Forall short Ls ->
  exists stats offsets sequences,
    index_build dbg params (collection u Ls) = Ok (stats, offsets, sequences)
    /\ stats F_bits = 8 * zlen (index_file offsets sequences).
Proof.
  intros dbg params u Ls kept V HS. destruct (index_build_ok dbg params u Ls V HS) as (st & E & D).
  exists st, (u :: starts 0 kept), (lays kept). split; [exact E|].
  fold (keep params) in D. change (filter (keep params) Ls) with kept in D.
  rewrite D. unfold sadd, sset. destruct (field_eq_dec F_bits F_bits); [|congruence].
  rewrite finish_bits, size_bits_total by auto. unfold index_file.
  rewrite !zlen_app, !zlen_le_bytes, zlen_bytes_of_u64s, zlen_cons, zlen_starts. lia.
Qed.

Lemma c17_size_sequence : forall dbg out S,
  valid S ->
  exists stats enc, builder_build dbg out S = (Ok stats, out ++ enc)
    /\ stats F_bits = 8 * zlen enc + 128
    /\ stats F_bits = 8 * zlen (sequence_file enc) + 64.
Proof.
  intros dbg out S V. destruct (builder_ok dbg out S V) as (st & m & Em & E & D).
  exists st, (lay S). split; [exact E|].
  assert (EB : st F_bits = 8 * zlen (lay S) + 128).
  { rewrite D, finish_bits. rewrite <- size_bits_delta by auto. unfold delta, n_chunks.
    erewrite znth_last; eauto. apply V. }
  split; auto. rewrite EB. unfold sequence_file. rewrite zlen_app, zlen_le_bytes. lia.
Qed.

Definition not_total (g : field) : Prop := g <> F_bits /\ g <> F_blocks_header_bits.
Lemma finish_other d g : not_total g -> finish_stats d g = d g.
Proof.
  intros [H1 H2]. unfold finish_stats, sadd, sset.
  repeat match goal with |- context [field_eq_dec ?a ?b] => destruct (field_eq_dec a b); try congruence end.
Qed.

(** the equations hold for the statistics of any set of lists *)
Lemma stats_of_lists st kept :
  Forall valid kept ->
  (forall g, not_total g -> st g = total (fun S => delta S g) kept) ->
  describes st kept.
Proof.
  intros V D. unfold describes.
  assert (B : forall f, not_total f -> forall g, (forall S, valid S -> delta S f = g S) -> st f = total g kept).
  { intros f Hf g H. rewrite D by auto. apply total_ext. intros S HS. apply H. rewrite Forall_forall in V. auto. }
  assert (K : forall S, valid S -> delta S F_sparse_chunks + delta S F_dense_chunks + delta S F_full_chunks
      + delta S F_empty_chunks = delta S F_chunks).
  { intros S HS. destruct (kinds_count (chunks_of S)) as (K1 & K2 & K3 & K4 & K5). unfold delta, seq_delta. lia. }
  split.
  { rewrite (B F_sequences ltac:(split; discriminate) (fun _ => 1)).
    - clear. induction kept; auto. rewrite total_cons, zlen_cons. lia.
    - intros S HS. destruct (kinds_count (chunks_of S)) as (K1 & K2 & K3 & K4 & K5). unfold delta, seq_delta. lia. }
  split.
  { apply B; [split; discriminate|]. intros S HS. destruct (kinds_count (chunks_of S)) as (K1 & K2 & K3 & K4 & K5).
    unfold delta, seq_delta. lia. }
  split.
  { apply B; [split; discriminate|]. intros S HS. destruct (kinds_count (chunks_of S)) as (K1 & K2 & K3 & K4 & K5).
    unfold delta, seq_delta, n_chunks. lia. }
  split.
  { apply B; [split; discriminate|]. intros S HS. destruct (kinds_count (chunks_of S)) as (K1 & K2 & K3 & K4 & K5).
    rewrite empty_count by auto. unfold delta, seq_delta. lia. }
  split.
  { apply B; [split; discriminate|]. intros S HS. rewrite full_count by auto. unfold delta, seq_delta. lia. }
  split.
  { rewrite !D by (split; discriminate). rewrite <- !total_add. apply total_ext. intros S HS.
    apply K. rewrite Forall_forall in V. auto. }
  assert (AC : accounts (fun g => total (fun S => delta S g) kept)).
  { apply accounts_total. rewrite Forall_forall in V. apply Forall_forall. intros S HS. apply delta_accounts. auto. }
  destruct AC. constructor; rewrite ?D by (split; discriminate); auto.
  all: erewrite total_ext; [|intros i _; rewrite D by (split; discriminate); reflexivity]; assumption.
Qed.

Lemma c18_statistics_index : forall dbg params u Ls,
  let kept := filter (fun L => pass params (zlen L) (last L 0)) Ls in
  Forall valid kept -> Forall short Ls ->
  exists stats offsets sequences,
    index_build dbg params (collection u Ls) = Ok (stats, offsets, sequences) /\ describes stats kept.
Proof.
  intros dbg params u Ls kept V HS. destruct (index_build_ok dbg params u Ls V HS) as (st & E & D).
  exists st, (u :: starts 0 kept), (lays kept). split; [exact E|]. apply stats_of_lists; auto.
  intros g Hg. rewrite D. unfold sadd, sset. destruct (field_eq_dec g F_bits); [destruct Hg; congruence|].
  now rewrite finish_other.
Qed.

Lemma c18_statistics_sequence : forall dbg out S,
  valid S ->
  exists stats enc, builder_build dbg out S = (Ok stats, out ++ enc) /\ describes stats [S].
Proof.
  intros dbg out S V. destruct (builder_ok dbg out S V) as (st & m & Em & E & D).
  exists st, (lay S). split; [exact E|]. apply stats_of_lists; auto.
  intros g Hg. rewrite D, finish_other by auto. cbn [total fold_right]. unfold delta, n_chunks.
  rewrite (znth_last S m); auto; [lia|apply V].
Qed.
