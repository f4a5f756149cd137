(** The abstract layout of an encoding, as a function of the grouped values, and
    its elementary properties.  The encoder is shown to produce it (P_Build.v);
    the readers are shown correct on it. *)
From Verif Require Import Base Hw Spec Lib L_Bits L_Group M_Util.

(** ** bitmaps *)
Definition word_of (vs : list Z) (i : Z) : Z :=
  fold_right (fun v w => if v / 64 =? i then Z.lor (2 ^ (v mod 64)) w else w) 0 vs.
Definition bitmap_words (n : nat) (vs : list Z) : list Z := map (word_of vs) (zrange 0 n).

Lemma word_of_testbit vs i j :
  0 <= j < 64 -> Z.testbit (word_of vs i) j = memb vs (64 * i + j).
Proof.
  intro Hj. induction vs as [|v vs IH]; cbn [word_of fold_right].
  - apply Z.bits_0.
  - fold (word_of vs i). unfold memb. cbn [existsb]. fold (memb vs (64 * i + j)).
    pose proof (Z.div_mod v 64). pose proof (Z.mod_pos_bound v 64).
    destruct (Z.eqb_spec (v / 64) i) as [<-|].
    + rewrite Z.lor_spec, testbit_pow2, IH by lia. f_equal.
      destruct (Z.eqb_spec j (v mod 64)), (Z.eqb_spec (64 * (v / 64) + j) v); auto; lia.
    + rewrite IH. destruct (Z.eqb_spec (64 * i + j) v) as [E|]; auto.
      exfalso. apply n. rewrite <- E. symmetry. apply Z.div_unique with j; lia.
Qed.
Lemma word_of_w64 vs i : w64 (word_of vs i).
Proof.
  induction vs as [|v vs IH]; cbn [word_of fold_right].
  - unfold w64. lia.
  - fold (word_of vs i). destruct (v / 64 =? i); auto.
    pose proof (Z.mod_pos_bound v 64).
    apply w64_of_bits.
    + apply Z.lor_nonneg. split; [apply Z.pow_nonneg; lia|]. apply IH.
    + intros j Hj. rewrite Z.lor_spec, testbit_pow2, w64_testbit_high by (auto; lia).
      destruct (Z.eqb_spec j (v mod 64)); [exfalso; lia|reflexivity].
Qed.
(** words with the same 64 bits are equal *)
Lemma w64_ext w w' :
  w64 w -> w64 w' -> (forall j, 0 <= j < 64 -> Z.testbit w j = Z.testbit w' j) -> w = w'.
Proof.
  intros H H' E. apply Z.bits_inj'. intros j Hj. destruct (Z_lt_le_dec j 64).
  - apply E; lia.
  - rewrite !w64_testbit_high; auto.
Qed.

Lemma zlen_bitmap_words n vs : zlen (bitmap_words n vs) = Z.of_nat n.
Proof. unfold bitmap_words. now rewrite zlen_map, zlen_zrange. Qed.
Lemma znth_bitmap_words n vs i :
  0 <= i < Z.of_nat n -> znth (bitmap_words n vs) i = Some (word_of vs i).
Proof. intro H. unfold bitmap_words. rewrite znth_map, znth_zrange by lia. reflexivity. Qed.

Lemma zlen_bytes_of_u64s ws : zlen (bytes_of_u64s ws) = 8 * zlen ws.
Proof.
  induction ws as [|w ws IH]; auto. unfold bytes_of_u64s in *. cbn [flat_map].
  rewrite zlen_app, zlen_le_bytes, zlen_cons. lia.
Qed.
Lemma zlen_bytes_of_u16s ws : zlen (bytes_of_u16s ws) = 2 * zlen ws.
Proof.
  induction ws as [|w ws IH]; auto. unfold bytes_of_u16s in *. cbn [flat_map].
  rewrite zlen_app, zlen_le_bytes, zlen_cons. lia.
Qed.
Global Hint Rewrite zlen_bytes_of_u64s zlen_bytes_of_u16s zlen_bitmap_words : zlen.

Lemma rd64_words mem a ws i w :
  bytes_at mem a (bytes_of_u64s ws) -> znth ws i = Some w -> w64 w ->
  rd64 mem (a + 8 * i) = Ok w.
Proof.
  revert a i; induction ws as [|x ws IH]; intros a i H E Hw.
  - rewrite znth_nil in E. easy.
  - pose proof (znth_lt _ _ _ _ E). unfold bytes_of_u64s in H. cbn [flat_map] in H.
    apply bytes_at_app in H as [H1 H2]. rewrite zlen_le_bytes in H2.
    destruct (Z.eq_dec i 0) as [->|].
    + rewrite znth_cons_0 in E. injection E as ->. rewrite Z.mul_0_r, Z.add_0_r.
      apply rd64_at; auto.
    + rewrite znth_cons_pos in E by lia.
      replace (a + 8 * i) with (a + Z.of_nat 8 + 8 * (i - 1)) by lia. apply IH; auto.
Qed.

Lemma bm_bitmap mem a n vs :
  bytes_at mem a (bytes_of_u64s (bitmap_words n vs)) ->
  bm_at (words_mem mem a) (Z.of_nat n) (memb vs).
Proof.
  intros H i Hi. exists (word_of vs i). split; [|split].
  - unfold words_mem. eapply rd64_words; eauto using word_of_w64.
    now apply znth_bitmap_words.
  - apply word_of_w64.
  - intros j Hj. now apply word_of_testbit.
Qed.

(** ** blocks *)
Definition block_data (vs : list Z) : list Z :=
  if zlen vs <? 31 then vs else bytes_of_u64s (bitmap_words 4 vs).
Definition block_hdr (b : Z * list Z) : list Z := [fst b; zlen (snd b) - 1].
Definition hdrs (bs : list (Z * list Z)) : list Z := flat_map block_hdr bs.
Definition datas (bs : list (Z * list Z)) : list Z := flat_map (fun b => block_data (snd b)) bs.

Lemma zlen_block_data vs : zlen (block_data vs) = bytes_by_cardinality (zlen vs).
Proof.
  unfold block_data, bytes_by_cardinality. destruct (zlen vs <? 31); auto.
Qed.
Lemma zlen_hdrs bs : zlen (hdrs bs) = 2 * zlen bs.
Proof.
  induction bs as [|b bs IH]; auto. unfold hdrs in *. cbn [flat_map].
  rewrite zlen_app, IH, zlen_cons. change (zlen (block_hdr b)) with 2. lia.
Qed.
Global Hint Rewrite zlen_block_data zlen_hdrs : zlen.
Lemma datas_cons b bs : datas (b :: bs) = block_data (snd b) ++ datas bs.
Proof. reflexivity. Qed.
Lemma hdrs_cons b bs : hdrs (b :: bs) = block_hdr b ++ hdrs bs.
Proof. reflexivity. Qed.

(** well-formed blocks of a chunk, well-formed chunks *)
Notation wfb := (wf 256 256).
Notation wfb1 := (wf1 256 256).
Notation wfc := (wf 65536 65535).
Notation wfc1 := (wf1 65536 65535).

(** ** chunks *)
Definition blocks_of (c : list Z) : list (Z * list Z) := group 256 c.
Definition sparse_data (c : list Z) : list Z := hdrs (blocks_of c) ++ datas (blocks_of c).

Inductive kind := KSparse | KDense | KFull.
Definition kind_of (c : list Z) : kind :=
  if zlen c <? 32768 then
    if 8192 <=? zlen (sparse_data c) then KDense else KSparse
  else if zlen c =? 65536 then KFull else KDense.

Definition chunk_data (c : list Z) : list Z :=
  match kind_of c with
  | KSparse => sparse_data c
  | KDense => bytes_of_u64s (bitmap_words (Z.to_nat 1024) c)
  | KFull => []
  end.
Definition chunk_type (c : list Z) : Z :=
  match kind_of c with
  | KSparse => 1 + 256 * (zlen (blocks_of c) - 1)
  | KDense => 3
  | KFull => 2
  end.
Definition chunk_hdr (ch : Z * list Z) : list Z :=
  [fst ch; zlen (snd ch) - 1; chunk_type (snd ch); zlen (chunk_data (snd ch))].
Definition chdrs (cs : list (Z * list Z)) : list Z := flat_map chunk_hdr cs.
Definition cdatas (cs : list (Z * list Z)) : list Z := flat_map (fun ch => chunk_data (snd ch)) cs.

(** sums over chunks *)
Definition sum_card (cs : list (Z * list Z)) : Z :=
  fold_right (fun ch s => zlen (snd ch) + s) 0 cs.

(** skip pointers: one per complete group of 32 chunks *)
Fixpoint ptrs (n : nat) (cs : list (Z * list Z)) : list Z :=
  match n with
  | O => []
  | S n' =>
      le_bytes 4 (sum_card (firstn 32 cs)) ++ le_bytes 4 (zlen (cdatas (firstn 32 cs)))
      ++ ptrs n' (skipn 32 cs)
  end.

Definition layout (cs : list (Z * list Z)) : list Z :=
  le_bytes 2 (zlen cs - 1)
  ++ ptrs (Z.to_nat (zlen cs / 32)) cs
  ++ bytes_of_u16s (chdrs cs)
  ++ cdatas cs.

Definition chunks_of (l : list Z) : list (Z * list Z) := group 65536 l.

Lemma zlen_ptrs n cs : zlen (ptrs n cs) = 8 * Z.of_nat n.
Proof.
  revert cs; induction n; intro cs; cbn [ptrs]; auto.
  rewrite !zlen_app, !zlen_le_bytes, IHn. lia.
Qed.
Lemma zlen_chdrs cs : zlen (chdrs cs) = 4 * zlen cs.
Proof.
  induction cs as [|c cs IH]; auto. unfold chdrs in *. cbn [flat_map].
  rewrite zlen_app, IH, zlen_cons. change (zlen (chunk_hdr c)) with 4. lia.
Qed.
Global Hint Rewrite zlen_ptrs zlen_chdrs : zlen.
Lemma chdrs_cons c cs : chdrs (c :: cs) = chunk_hdr c ++ chdrs cs.
Proof. reflexivity. Qed.
Lemma cdatas_cons c cs : cdatas (c :: cs) = chunk_data (snd c) ++ cdatas cs.
Proof. reflexivity. Qed.
Lemma cdatas_app c cs : cdatas (c ++ cs) = cdatas c ++ cdatas cs.
Proof. apply flat_map_app. Qed.
Lemma chdrs_app c cs : chdrs (c ++ cs) = chdrs c ++ chdrs cs.
Proof. apply flat_map_app. Qed.
Lemma u16s_app l r : bytes_of_u16s (l ++ r) = bytes_of_u16s l ++ bytes_of_u16s r.
Proof. apply flat_map_app. Qed.
Lemma sum_card_app l r : sum_card (l ++ r) = sum_card l + sum_card r.
Proof. induction l as [|x l IH]; cbn [app sum_card fold_right]; auto. fold (sum_card (l ++ r)).
  fold (sum_card l). lia. Qed.
Lemma sum_card_ungroup k cs : zlen (ungroup k cs) = sum_card cs.
Proof.
  induction cs as [|c cs IH]; auto. rewrite ungroup_cons, zlen_app, zlen_ungroup1, IH. reflexivity.
Qed.
Lemma sum_card_nonneg cs : 0 <= sum_card cs.
Proof. rewrite <- (sum_card_ungroup 1). apply zlen_nonneg. Qed.

Lemma zlen_layout cs :
  zlen (layout cs) = 2 + 8 * (zlen cs / 32) + 8 * zlen cs + zlen (cdatas cs).
Proof.
  unfold layout. autorewrite with zlen. pose proof (zlen_nonneg _ cs).
  rewrite Z2Nat.id by (apply Z.div_pos; lia). lia.
Qed.

(** facts about one well-formed chunk *)
Lemma blocks_wf id c : wfc1 (id, c) -> wfb (blocks_of c).
Proof. intros (H1 & H2 & H3 & H4). apply group_wf; auto. lia. Qed.
Lemma blocks_ungroup c : ungroup 256 (blocks_of c) = c.
Proof. apply ungroup_group. lia. Qed.
Lemma blocks_nonempty c : c <> [] -> blocks_of c <> [].
Proof. intros H E. apply H. eapply group_nil; eauto. Qed.
Lemma blocks_count id c : wfc1 (id, c) -> 1 <= zlen (blocks_of c) <= 256.
Proof.
  intro H. pose proof (blocks_wf id c H) as Hb.
  destruct H as (_ & H & _). apply blocks_nonempty in H. cbn [snd] in H.
  destruct (blocks_of c) eqn:E; [easy|]. split; [zl|].
  pose proof (wf_zlen_le 256 256%nat _ Hb). lia.
Qed.
Lemma zlen_chunk_data id c : wfc1 (id, c) -> zlen (chunk_data c) <= 8192.
Proof.
  intro H. unfold chunk_data, kind_of.
  destruct (Z.ltb_spec (zlen c) 32768).
  - destruct (Z.leb_spec 8192 (zlen (sparse_data c))); [|lia].
    autorewrite with zlen. lia.
  - destruct (zlen c =? 65536); autorewrite with zlen; lia.
Qed.
Lemma chunk_card id c : wfc1 (id, c) -> 1 <= zlen c <= 65536.
Proof. intro H. apply wf1_zlen in H; cbn [snd] in H; lia. Qed.
Lemma kind_full id c : wfc1 (id, c) -> kind_of c = KFull -> c = zrange 0 (Z.to_nat 65536).
Proof.
  intros H K. pose proof (chunk_card _ _ H). unfold kind_of in K.
  destruct (Z.ltb_spec (zlen c) 32768). { destruct (8192 <=? _) in K; easy. }
  destruct (Z.eqb_spec (zlen c) 65536) as [E|]; [|easy].
  destruct H as (_ & _ & Hs & Hr). cbn [snd] in *.
  apply full_zrange; auto; now rewrite Z2Nat.id by lia.
Qed.
