(** Every counter of [statistics] is what [counts] says. *)
From Verif Require Import Base Hw Spec Lib L_Bits L_Group Layout M_Util M_Build M_Seq M_Index
  P_Build1 P_Build2 P_Build3 P_Seq P_Sets P_Index P_Stats Format P_Format P_Print P_Fin4 Counts.

Definition ov (n : nat) (p : Z -> bool) (w : Z -> Z) : Z := total w (filter p (zrange 0 n)).
Lemma ov_0 n p : ov n p (fun _ => 0) = 0.
Proof. unfold ov. apply total_zero. auto. Qed.
Lemma ov_ext n p w w' : (forall h, 0 <= h < Z.of_nat n -> p h = true -> w h = w' h) -> ov n p w = ov n p w'.
Proof.
  intro H. unfold ov. apply total_ext. intros h Hh. apply filter_In in Hh as [Hh Hp]. apply In_zrange in Hh.
  apply H; auto.
Qed.
Lemma ov_add n p w w' : ov n p (fun h => w h + w' h) = ov n p w + ov n p w'.
Proof. apply total_add. Qed.
Lemma ov_scale n p c w : ov n p (fun h => c * w h) = c * ov n p w.
Proof. apply total_scale. Qed.

Lemma kind_format n S h : valid S -> Z.of_nat n = 65536 -> In h (ids 65536 n S) ->
  wfc1 (h, part 65536 S h) /\ 0 < card 65536 S h <= 65536
  /\ kind_of (part 65536 S h)
     = if as_blocks S h then KSparse else if as_bitmap S h then KDense else KFull.
Proof.
  intros V N Hh.
  assert (W : wfc1 (h, part 65536 S h)).
  { destruct (valid_chunks S V) as ((_ & W) & _). rewrite Forall_forall in W. apply W.
    rewrite (chunks_format S V). apply in_map_iff. exists h. split; auto.
    replace (Z.to_nat 65536) with n by (rewrite <- N; symmetry; apply Nat2Z.id). exact Hh. }
  split; auto. assert (L := W). apply wf1_zlen in L; [|lia]. cbn [snd] in L. rewrite card_part in L.
  split; [lia|].
  unfold kind_of, as_bitmap, as_blocks. rewrite (sparse_format h _ W), blocks_cost_sub, card_part.
  rewrite (proj2 (Z.ltb_lt 0 (card 65536 S h))) by lia. cbn [andb].
  destruct (Z.ltb_spec (card 65536 S h) 32768); cbn [andb].
  - destruct (Z.leb_spec 8192 (blocks_cost S h)), (Z.ltb_spec (blocks_cost S h) 8192); try lia; auto.
    cbn [negb andb]. now rewrite (proj2 (Z.ltb_lt (card 65536 S h) 65536)) by lia.
  - cbn [negb andb]. destruct (Z.eqb_spec (card 65536 S h) 65536), (Z.ltb_spec (card 65536 S h) 65536);
      try lia; auto.
Qed.

Lemma delta_kinds n S f a b c : valid S -> Z.of_nat n = 65536 ->
  (forall h, In h (ids 65536 n S) -> chunk_delta (part 65536 S h) f
     = match kind_of (part 65536 S h) with KSparse => a h | KDense => b h | KFull => c h end) ->
  chunks_delta (map (fun h => (h, part 65536 S h)) (ids 65536 n S)) f
  = ov n (as_blocks S) a + ov n (as_bitmap S) b + ov n (fun h => card 65536 S h =? 65536) c.
Proof.
  intros V N H. rewrite chunks_delta_total, total_map. cbn [snd]. unfold ov.
  rewrite <- (total_if _ (as_blocks S)), <- (total_if _ (as_bitmap S)), <- (total_if _ (fun h => card 65536 S h =? 65536)).
  rewrite <- !total_add.
  rewrite <- (total_ids 65536 n S).
  - apply total_ext. intros h Hh. destruct (kind_format n S h V N Hh) as (W & B & K). rewrite (H h Hh), K.
    unfold as_bitmap. destruct (as_blocks S h) eqn:A.
    + cbn [negb andb]. rewrite andb_false_r. unfold as_blocks in A.
      apply andb_prop in A as [A _]. apply andb_prop in A as [_ A]. apply Z.ltb_lt in A.
      destruct (Z.eqb_spec (card 65536 S h) 65536); lia.
    + cbn [negb]. rewrite andb_true_r. rewrite (proj2 (Z.ltb_lt 0 (card 65536 S h))) by lia. cbn [andb].
      destruct (Z.ltb_spec (card 65536 S h) 65536), (Z.eqb_spec (card 65536 S h) 65536); lia.
  - intros h Hh. unfold as_bitmap, as_blocks. rewrite Hh. reflexivity.
Qed.

(** the blocks of a chunk *)
Lemma block_delta_chunk S h (g : field) (w : Z -> Z) (p : Z -> bool) :
  wfc1 (h, part 65536 S h) -> block_delta 0 g = 0 ->
  (forall m, 0 <= m -> block_delta m g = if p m then w m else 0) ->
  blocks_delta (blocks_of (part 65536 S h)) g
  = total (fun b => w (card 256 S (256 * h + b)))
      (filter (fun b => p (card 256 S (256 * h + b))) (zrange 0 256)).
Proof.
  intros W G0 G. rewrite blocks_delta_total, (blocks_format h _ W), total_map. cbn [snd].
  rewrite (total_ids 256 256).
  - rewrite <- total_if. apply total_ext. intros b Hb. apply In_zrange in Hb.
    rewrite card_part, card_sub by lia. apply G, card_nonneg.
  - intros b Hb. rewrite card_part, Hb. exact G0.
Qed.

Lemma gaps_last bs : forall i, gaps i bs = match bs with [] => 0 | _ => last (map fst bs) 0 + 1 - i - zlen bs end.
Proof.
  induction bs as [|b bs IH]; intro i; auto. cbn [gaps]. rewrite IH, zlen_cons.
  destruct bs as [|b' bs]; [cbn; change (zlen (@nil (Z * list Z))) with 0; lia|].
  change (last (map fst (b :: b' :: bs)) 0) with (last (map fst (b' :: bs)) 0). lia.
Qed.
Lemma last_mono_div l k : 0 < k -> Forall (fun v => 0 <= v) l -> sorted l -> l <> [] ->
  forall m, sorted m -> (forall x, In x m <-> exists v, In v l /\ v / k = x) -> last m 0 = last l 0 / k.
Proof.
  intros Hk P Hs N m Hm I.
  assert (Nm : m <> []).
  { destruct l as [|v l]; [easy|]. intros ->. destruct (proj2 (I (v / k)) (ex_intro _ v (conj (in_eq _ _) eq_refl))). }
  pose proof (last_max _ _ _ Hs (last_znth l N)) as M1. rewrite Forall_forall in M1.
  pose proof (last_max _ _ _ Hm (last_znth m Nm)) as M2. rewrite Forall_forall in M2.
  assert (L1 : In (last l 0) l) by (eapply znth_In, last_znth; auto).
  assert (L2 : In (last m 0) m) by (eapply znth_In, last_znth; auto).
  apply I in L2 as (v & Hv & E). specialize (M1 v Hv).
  assert (H : In (last l 0 / k) m) by (apply I; exists (last l 0); auto). specialize (M2 _ H).
  pose proof (Z.div_le_mono v (last l 0) k Hk ltac:(lia)). lia.
Qed.
Lemma blocks_last h c : wfc1 (h, c) ->
  gaps 0 (blocks_of c) + zlen (blocks_of c) = last c 0 / 256 + 1.
Proof.
  intro W. rewrite gaps_last. pose proof (blocks_format h c W) as B.
  destruct W as (_ & N & Hs & R). cbn [snd] in *.
  assert (E : last (ids 256 256 c) 0 = last c 0 / 256).
  { apply last_mono_div; auto; [lia| |apply sorted_filter, sorted_zrange|].
    - eapply Forall_impl; [|exact R]. cbn. lia.
    - intro x. unfold ids. rewrite filter_In, existsb_exists. split.
      + intros (_ & v & Hv & E). apply Z.eqb_eq in E. eauto.
      + intros (v & Hv & E). rewrite Forall_forall in R. specialize (R v Hv). cbn beta in R. split.
        * apply In_zrange. subst x. pose proof (Z.div_pos v 256). pose proof (Z.div_lt_upper_bound v 256 256). lia.
        * exists v. split; auto. now apply Z.eqb_eq. }
  assert (F : map fst (blocks_of c) = ids 256 256 c).
  { rewrite B, map_map. cbn [fst]. apply map_id. }
  rewrite F, E. destruct (blocks_of c) as [|b bs] eqn:EB; [|lia].
  exfalso. destruct c as [|v c]; [easy|].
  assert (In (v / 256) (ids 256 256 (v :: c))); [|now rewrite <- F in H].
  unfold ids. rewrite filter_In, existsb_exists. inversion R; subst. split.
  - apply In_zrange. pose proof (Z.div_pos v 256). pose proof (Z.div_lt_upper_bound v 256 256). lia.
  - exists v. split; [now left|]. apply Z.eqb_refl.
Qed.

Definition ov_blocks (n : nat) (S : list Z) (p : Z -> bool) (w : Z -> Z) : Z :=
  ov n (as_blocks S) (fun h =>
    total (fun b => w (card 256 S (256 * h + b)))
      (filter (fun b => p (card 256 S (256 * h + b))) (zrange 0 256))).
Definition counts_n (n : nat) (S : list Z) (f : field) : Z :=
  let over := ov n in
  let over_blocks := ov_blocks n in
  let chunks_in S := ov n (fun h => 0 <? card 65536 S h) one in
match f with
  | F_sequences => 1
  | F_integers => zlen S
  | F_integers_in_sparse_chunks => over (as_blocks S) (card 65536 S)
  | F_integers_in_dense_chunks => over (as_bitmap S) (card 65536 S)
  | F_integers_in_full_chunks => 65536 * over (fun h => card 65536 S h =? 65536) one
  | F_integers_in_sparse_blocks => over_blocks S listed same
  | F_integers_in_dense_blocks => over_blocks S bitmapped same
  | F_chunks => last S 0 / 65536 + 1
  | F_empty_chunks => last S 0 / 65536 + 1 - chunks_in S
  | F_sparse_chunks => over (as_blocks S) one
  | F_dense_chunks => over (as_bitmap S) one
  | F_full_chunks => over (fun h => card 65536 S h =? 65536) one
  | F_blocks => over (as_blocks S) (blocks_upto S)
  | F_empty_blocks => over (as_blocks S) (fun h => blocks_upto S h - blocks_in S h)
  | F_sparse_blocks => over_blocks S listed one
  | F_dense_blocks => over_blocks S bitmapped one
  | F_bits => 0
  | F_chunks_header_bits => 64 * chunks_in S + 16 + 64 * (chunks_in S / 32)
  | F_blocks_header_bits => 16 * over_blocks S bitmapped one + 8 * over_blocks S listed one
  | F_dense_chunks_bits => 65536 * over (as_bitmap S) one
  | F_dense_blocks_bits => 256 * over_blocks S bitmapped one
  | F_sparse_blocks_bits => 8 * (over_blocks S listed same + over_blocks S listed one)
  | F_sparse_blocks_cardinalities i => if listed i then over_blocks S (Z.eqb i) one else 0
  | F_num_blocks_in_chunks i => over (sparse_with i S) one
  | F_num_integers i => over (sparse_with i S) (card 65536 S)
  end.
Lemma counts_eq S f : counts S f = counts_n (Z.to_nat 65536) S f.
Proof.
  unfold counts, counts_n, chunks_in, over_blocks, over, ov_blocks, ov. generalize (Z.to_nat 65536). reflexivity.
Qed.
Lemma counts_header S :
  counts S F_blocks_header_bits = 16 * counts S F_dense_blocks + 8 * counts S F_sparse_blocks.
Proof. cbv beta iota delta [counts]. reflexivity. Qed.
Opaque counts.

Lemma ids_filter_chunks n S : zlen (ids 65536 n S) = ov n (fun h => 0 <? card 65536 S h) one.
Proof.
  unfold ov, one. rewrite total_one. f_equal. unfold ids. apply filter_ext_in. intros h Hh. apply In_zrange in Hh.
  pose proof (card_nonneg 65536 S h).
  destruct (Z.ltb_spec 0 (card 65536 S h)) as [L|L].
  - assert (E : card 65536 S h <> 0) by lia. apply (card_ids 65536 n) in E; [|lia]. apply filter_In in E. easy.
  - destruct (existsb _ S) eqn:X; auto. exfalso. apply (ids_card 65536 n S h); [|lia]. apply filter_In.
    split; auto. apply In_zrange. lia.
Qed.


Lemma delta_counts_n n S f : valid S -> Z.of_nat n = 65536 -> f <> F_bits -> f <> F_blocks_header_bits ->
  chunks_delta (map (fun h => (h, part 65536 S h)) (ids 65536 n S)) f
  + match f with
    | F_sequences => 1
    | F_integers => zlen S
    | F_chunks => n_chunks S
    | F_empty_chunks => n_chunks S - zlen (ids 65536 n S)
    | F_chunks_header_bits => 64 * zlen (ids 65536 n S) + 16 + 64 * (zlen (ids 65536 n S) / 32)
    | _ => 0
    end
  = counts_n n S f.
Proof.
  intros V N F1 F2.
  assert (K : forall a b c,
    (forall h, In h (ids 65536 n S) -> chunk_delta (part 65536 S h) f
       = match kind_of (part 65536 S h) with KSparse => a h | KDense => b h | KFull => c h end) ->
    chunks_delta (map (fun h => (h, part 65536 S h)) (ids 65536 n S)) f
    = ov n (as_blocks S) a + ov n (as_bitmap S) b + ov n (fun h => card 65536 S h =? 65536) c)
    by (intros; apply delta_kinds; auto).
  assert (Z0 : (forall c, chunk_delta c f = 0) ->
    chunks_delta (map (fun h => (h, part 65536 S h)) (ids 65536 n S)) f = 0).
  { intro H. rewrite (K (fun _ => 0) (fun _ => 0) (fun _ => 0)), !ov_0; auto. intros. rewrite H.
    now destruct (kind_of _). }
  assert (KF : forall h, In h (ids 65536 n S) -> kind_of (part 65536 S h) = KFull -> card 65536 S h = 65536).
  { intros h Hh E. destruct (kind_format n S h V N Hh) as (_ & B & E2). rewrite E in E2.
    destruct (as_blocks S h) eqn:A; [easy|]. destruct (as_bitmap S h) eqn:A2; [easy|].
    unfold as_bitmap in A2. rewrite A in A2. cbn [negb] in A2. rewrite andb_true_r in A2.
    rewrite (proj2 (Z.ltb_lt 0 (card 65536 S h))) in A2 by lia. cbn [andb] in A2. apply Z.ltb_ge in A2. lia. }
  assert (BD : forall (g : field) (w : Z -> Z) (p : Z -> bool), f = g -> block_delta 0 g = 0 ->
    (forall c, chunk_delta c g = match kind_of c with KSparse => blocks_delta (blocks_of c) g | _ => 0 end) ->
    (forall m, 0 <= m -> block_delta m g = if p m then w m else 0) ->
    chunks_delta (map (fun h => (h, part 65536 S h)) (ids 65536 n S)) f = ov_blocks n S p w).
  { intros g w p -> G0 GC G. rewrite (K (fun h => total (fun b => w (card 256 S (256 * h + b)))
      (filter (fun b => p (card 256 S (256 * h + b))) (zrange 0 256))) (fun _ => 0) (fun _ => 0)).
    - rewrite !ov_0. unfold ov_blocks. lia.
    - intros h Hh. rewrite GC. destruct (kind_of _); auto.
      apply (block_delta_chunk S h g w p); auto. apply (kind_format n S h V N Hh). }
  destruct f as [| | | | | | | | | | | | | | | | | | | | | |i|i|i]; try easy; cbn [counts_n]; rewrite ?Z.add_0_r.
  - rewrite Z0; auto. intro c. unfold chunk_delta. now destruct (kind_of c).
  - rewrite Z0; auto. intro c. unfold chunk_delta. now destruct (kind_of c).
  - rewrite (K (card 65536 S) (fun _ => 0) (fun _ => 0)), !ov_0; [lia|].
    intros h Hh. unfold chunk_delta. rewrite card_part. now destruct (kind_of _).
  - rewrite (K (fun _ => 0) (card 65536 S) (fun _ => 0)), !ov_0; [lia|].
    intros h Hh. unfold chunk_delta. rewrite card_part. now destruct (kind_of _).
  - rewrite (K (fun _ => 0) (fun _ => 0) (fun _ => 65536 * 1)), !ov_0; [rewrite (ov_scale n _ 65536 one); lia|].
    intros h Hh. unfold chunk_delta. rewrite card_part. pose proof (KF h Hh). destruct (kind_of _); auto.
  - apply (BD F_integers_in_sparse_blocks); auto; intro c; unfold chunk_delta; now destruct (kind_of c).
  - apply (BD F_integers_in_dense_blocks); auto; intro c; unfold chunk_delta; now destruct (kind_of c).
  - rewrite Z0; auto. intro c. unfold chunk_delta. now destruct (kind_of c).
  - rewrite Z0; [now rewrite ids_filter_chunks|]. intro c. unfold chunk_delta. now destruct (kind_of c).
  - rewrite (K one (fun _ => 0) (fun _ => 0)), !ov_0; [lia|].
    intros h Hh. unfold chunk_delta. now destruct (kind_of _).
  - rewrite (K (fun _ => 0) one (fun _ => 0)), !ov_0; [lia|].
    intros h Hh. unfold chunk_delta. now destruct (kind_of _).
  - rewrite (K (fun _ => 0) (fun _ => 0) one), !ov_0; [lia|].
    intros h Hh. unfold chunk_delta. now destruct (kind_of _).
  - rewrite (K (blocks_upto S) (fun _ => 0) (fun _ => 0)), !ov_0; [lia|].
    intros h Hh. unfold chunk_delta, blocks_upto. destruct (kind_format n S h V N Hh) as (W & _).
    pose proof (blocks_last h _ W). destruct (kind_of _); auto. lia.
  - rewrite (K (fun h => blocks_upto S h - blocks_in S h) (fun _ => 0) (fun _ => 0)), !ov_0; [lia|].
    intros h Hh. unfold chunk_delta, blocks_upto. destruct (kind_format n S h V N Hh) as (W & _).
    pose proof (blocks_last h _ W). rewrite <- blocks_in_ids.
    assert (zlen (blocks_of (part 65536 S h)) = zlen (ids 256 256 (part 65536 S h)))
      by (rewrite (blocks_format h _ W) at 1; apply zlen_map).
    destruct (kind_of _); auto. lia.
  - apply (BD F_sparse_blocks); auto; intro c; unfold chunk_delta; now destruct (kind_of c).
  - apply (BD F_dense_blocks); auto; intro c; unfold chunk_delta; now destruct (kind_of c).
  - rewrite Z0; [now rewrite ids_filter_chunks|]. intro c. unfold chunk_delta. now destruct (kind_of c).
  - rewrite (K (fun _ => 0) (fun _ => 65536 * 1) (fun _ => 0)), !ov_0; [rewrite (ov_scale n _ 65536 one); lia|].
    intros h Hh. unfold chunk_delta. now destruct (kind_of _).
  - rewrite (BD F_dense_blocks_bits (fun _ => 256 * 1) bitmapped); auto.
    unfold ov_blocks. rewrite <- ov_scale. apply ov_ext. intros. now rewrite <- total_scale.
  - rewrite (BD F_sparse_blocks_bits (fun m => 8 * (same m + 1)) listed); auto.
    unfold ov_blocks. rewrite <- ov_add, <- ov_scale. apply ov_ext. intros. now rewrite <- total_add, <- total_scale.
  - destruct (listed i) eqn:L.
    + apply (BD (F_sparse_blocks_cardinalities i)); auto.
      intros m _. cbn [block_delta]. rewrite (Z.eqb_sym i). destruct (Z.eqb_spec m i) as [->|];
          rewrite ?andb_true_r, ?andb_false_r; auto. unfold listed in L. now rewrite L.
    + rewrite (BD (F_sparse_blocks_cardinalities i) one (fun _ => false)); auto.
      * unfold ov_blocks. rewrite (ov_ext n _ _ (fun _ => 0)), ov_0; auto.
      * intros m _. cbn [block_delta]. destruct (Z.eqb_spec m i) as [->|];
          rewrite ?andb_true_r, ?andb_false_r; auto. unfold listed in L. now rewrite L.
  - rewrite (delta_sparse n i _ (fun _ => 1)); auto. intro c. unfold chunk_delta. now destruct (kind_of c).
  - rewrite (delta_sparse n i _ zlen); auto;
      [apply total_ext; intros; apply card_part|intro c; unfold chunk_delta; now destruct (kind_of c)].
Qed.

Lemma delta_counts S f : valid S -> f <> F_bits -> f <> F_blocks_header_bits -> delta S f = counts S f.
Proof.
  intros V F1 F2. rewrite counts_eq. rewrite <- (delta_counts_n (Z.to_nat 65536) S f V) by (auto; lia).
  unfold delta, seq_delta. pose proof (chunks_format S V) as E. rewrite E.
  rewrite zlen_map. reflexivity.
Qed.

Lemma total_map_counts Ks f : Forall valid Ks -> f <> F_bits -> f <> F_blocks_header_bits ->
  total (fun S => delta S f) Ks = total (fun S => counts S f) Ks.
Proof.
  intros V F1 F2. apply total_ext. intros S HS. rewrite Forall_forall in V. apply delta_counts; auto.
Qed.
Lemma finish_counts Ks d f : Forall valid Ks -> (forall g, d g = total (fun S => delta S g) Ks) -> f <> F_bits ->
  finish_stats d f = total (fun S => counts S f) Ks.
Proof.
  intros V D F. destruct (field_eq_dec f F_blocks_header_bits) as [->|F2].
  - transitivity (total (fun S => 16 * counts S F_dense_blocks + 8 * counts S F_sparse_blocks) Ks).
    + rewrite total_add, !total_scale, <- !total_map_counts by (auto; easy). rewrite <- !D.
      unfold finish_stats, sadd, sset.
      repeat match goal with |- context [field_eq_dec ?a ?b] => destruct (field_eq_dec a b); try congruence end.
      rewrite D. lia.
    + apply total_ext. intros S _. symmetry. apply counts_header.
  - rewrite finish_other by (split; auto). rewrite D. now apply total_map_counts.
Qed.

Lemma c18_exact_index : forall dbg params u Ls,
  let kept := filter (fun L => pass params (zlen L) (last L 0)) Ls in
  Forall valid kept -> Forall short Ls ->
  exists stats offsets sequences,
    index_build dbg params (collection u Ls) = Ok (stats, offsets, sequences)
    /\ forall f, f <> F_bits -> stats f = total (fun L => counts L f) kept.
Proof.
  intros dbg params u Ls kept V HS. destruct (index_build_ok dbg params u Ls V HS) as (st & E & D).
  exists st, (u :: starts 0 kept), (lays kept). split; [exact E|].
  intros f F. rewrite D. unfold sadd, sset. destruct (field_eq_dec f F_bits); [congruence|].
  now apply finish_counts.
Qed.
Lemma c18_exact_sequence : forall dbg out S,
  valid S ->
  exists stats enc, builder_build dbg out S = (Ok stats, out ++ enc)
    /\ forall f, f <> F_bits -> stats f = counts S f.
Proof.
  intros dbg out S V. destruct (builder_ok dbg out S V) as (st & m & Em & E & D).
  exists st, (lay S). split; [exact E|].
  intros f F. rewrite D, (finish_counts [S]); auto.
  - unfold total. cbn [fold_right]. lia.
  - intro g. cbn [total fold_right]. unfold delta, n_chunks. rewrite (znth_last S m); auto; [lia|apply V].
Qed.
