(** Proofs for C54: the shuffle table. *)
From Coq Require Import Lia Sorted.
From Verif Require Import Base Hw Spec Lib L_Bits L_Group Layout M_Util M_Build M_Seq M_Decode M_Uncompress
  M_Intersect M_Union M_Many M_Calls Table P_Build1 P_Build2 P_Build3 P_Seq P_Decode P_Query P_Uncompress P_Sets P_Inter
  P_Scratch P_Fin2 P_RoomSets P_Ex.
Local Open Scope Z_scope.

(** ** tables that give the same bytes *)
Definition plain_entry (entry : list Z) : list Z := map (fun c => if 128 <=? c then c else c mod 16) entry.

Lemma pshufb_plain v entry : pshufb v (plain_entry entry) = pshufb v entry.
Proof.
  unfold pshufb, plain_entry. rewrite map_map. apply map_ext. intro c. destruct (Z.leb_spec 128 c) as [H|H].
  - destruct (Z.leb_spec 128 c); [reflexivity|lia].
  - pose proof (Z.mod_pos_bound c 16). destruct (Z.leb_spec 128 (c mod 16)); [lia|].
    now rewrite Z.mod_mod by lia.
Qed.

Lemma ones_def m : ones m = filter (Z.testbit m) (zrange 0 16).
Proof. reflexivity. Qed.
Lemma ones_le m : zlen (ones m) <= 16.
Proof. rewrite ones_def. pose proof (zlen_filter_le _ (Z.testbit m) (zrange 0 16)) as H. rewrite zlen_zrange in H. lia. Qed.
Lemma ones_in m k j : znth (ones m) k = Some j -> 0 <= j < 16 /\ Z.testbit m j = true.
Proof.
  rewrite ones_def. intro H. apply znth_In in H. apply filter_In in H as [H1 H2]. apply In_zrange in H1. split; [lia|exact H2].
Qed.

Lemma plain_firstn o entry : zlen o <= 16 -> zlen entry = 16 -> (forall k j, znth o k = Some j -> selects entry k j) ->
  firstn (length o) (plain_entry entry) = o.
Proof.
  intros O L R. apply znth_ext.
  - unfold plain_entry. rewrite zlen_firstn, zlen_map. unfold zlen in *. lia.
  - intros k Hk. rewrite zlen_firstn in Hk. rewrite znth_firstn by (unfold zlen in Hk; lia).
    destruct (znth o k) as [j|] eqn:E.
    + destruct (R k j E) as (c & E1 & E2 & E3). unfold plain_entry. rewrite znth_map, E1. cbn [option_map].
      destruct (Z.leb_spec 128 c); [lia|]. now rewrite E3.
    + apply znth_None in E. unfold zlen in *. lia.
Qed.
Lemma plain_ok tbl : table tbl -> right_table tbl -> shuffle_table_ok (fun m => plain_entry (tbl m)).
Proof.
  intros T R m Hm. cbv zeta. rewrite <- ones_def. destruct (T m Hm) as [L _]. split.
  - unfold plain_entry. rewrite zlen_map. exact L.
  - apply plain_firstn; [apply ones_le|exact L|]. exact (R m Hm).
Qed.

Section Same.
Variables tbl tbl' : Z -> list Z.
Hypothesis H : forall v m, pshufb v (tbl m) = pshufb v (tbl' m).

Lemma INTERSECT_same v_l cl v_r cr base out pos size :
  INTERSECT tbl v_l cl v_r cr base out pos size = INTERSECT tbl' v_l cl v_r cr base out pos size.
Proof. unfold INTERSECT. now rewrite H. Qed.
Lemma bind_same {A B : Type} (r : res A) (f g : A -> res B) : (forall a, f a = g a) -> bind r f = bind r g.
Proof. intro E. destruct r; cbn [bind]; auto. Qed.
Lemma block_same dbg mem l r cl cr base out pos :
  ss_intersect_block tbl dbg mem l r cl cr base out pos = ss_intersect_block tbl' dbg mem l r cl cr base out pos.
Proof.
  unfold ss_intersect_block. apply bind_same. intros _. apply bind_same. intros _.
  destruct ((cl <=? 16) && (cr <=? 16)); [|destruct ((cl <=? 16) && (16 <? cr)); [|destruct ((cr <=? 16) && (16 <? cl)); [|reflexivity]]];
    apply bind_same; intro w; apply bind_same; intro w'; rewrite INTERSECT_same; auto;
    apply bind_same; intros [o s]; apply bind_same; intro; apply INTERSECT_same.
Qed.
Lemma blocks_same dbg mem dl dr cl cr b out tmp :
  intersect_blocks tbl dbg mem dl dr cl cr b out tmp = intersect_blocks tbl' dbg mem dl dr cl cr b out tmp.
Proof. unfold intersect_blocks. now rewrite block_same. Qed.
Lemma chunk_loop_same dbg mem end_l end_r base : forall fuel l r dl dr out tmp,
  ss_intersect_chunk_loop fuel tbl dbg mem l r end_l end_r dl dr base out tmp
  = ss_intersect_chunk_loop fuel tbl' dbg mem l r end_l end_r dl dr base out tmp.
Proof.
  induction fuel as [|f IH]; intros; cbn [ss_intersect_chunk_loop]; [reflexivity|].
  apply bind_same. intros [[l' dl']|]; [|reflexivity]. apply bind_same. intros [[r' dr']|]; [|reflexivity].
  apply bind_same. intro id. apply bind_same. intro id_r. destruct (id =? id_r); [|apply IH].
  apply bind_same. intro c1. apply bind_same. intro c2. rewrite blocks_same. apply bind_same. intros [o n].
  destruct (_ || _); [reflexivity|apply IH].
Qed.
Lemma chunk_same dbg mem l r bl br base out pos :
  ss_intersect_chunk tbl dbg mem l r bl br base out pos = ss_intersect_chunk tbl' dbg mem l r bl br base out pos.
Proof. unfold ss_intersect_chunk. now rewrite chunk_loop_same. Qed.
Lemma chunks_same dbg mem itl itr base x out pos :
  intersect_chunks tbl dbg mem itl itr base x out pos = intersect_chunks tbl' dbg mem itl itr base x out pos.
Proof.
  unfold intersect_chunks. apply bind_same. intro tl. apply bind_same. intro tr.
  destruct (_ =? _); [|reflexivity]. apply bind_same. intro bl. apply bind_same. intro br. now rewrite !chunk_same.
Qed.
Lemma loop_same dbg mem : forall fuel itl itr x out pos,
  pairwise_intersection_loop fuel tbl dbg mem itl itr x out pos
  = pairwise_intersection_loop fuel tbl' dbg mem itl itr x out pos.
Proof.
  induction fuel as [|f IH]; intros; cbn [pairwise_intersection_loop]; destruct (_ && _); auto.
  apply bind_same. intro i. apply bind_same. intro j. destruct (_ =? _).
  - rewrite chunks_same. apply bind_same. intros [[x' o'] n]. apply bind_same. intro. apply bind_same. intro. apply IH.
  - destruct (_ <? _); apply bind_same; intro; apply IH.
Qed.
Lemma pairwise_same dbg mem s t x out pos :
  pairwise_intersection tbl dbg mem s t x out pos = pairwise_intersection tbl' dbg mem s t x out pos.
Proof. unfold pairwise_intersection. now rewrite loop_same. Qed.
Lemma call_same dbg sc c : run_call tbl dbg sc c = run_call tbl' dbg sc c.
Proof. unfold run_call. destruct c; auto. now rewrite pairwise_same. Qed.
End Same.

Theorem c54_same : forall tbl, table tbl -> right_table tbl ->
  exists tbl', shuffle_table_ok tbl' /\ forall dbg sc c, run_call tbl dbg sc c = run_call tbl' dbg sc c.
Proof.
  intros tbl T R. exists (fun m => plain_entry (tbl m)). split; [now apply plain_ok|].
  intros. apply call_same. intros. symmetry. apply pshufb_plain.
Qed.

(** ** the entry of one mask *)
Lemma mask_bit a : forall b i, 0 <= i -> Z.testbit (equal_any_mask a b) i
  = match znth b i with Some x => existsb (Z.eqb x) a | None => false end.
Proof.
  induction b as [|x b IH]; intros i Hi; cbn [equal_any_mask].
  - rewrite Z.testbit_0_l. replace (znth (@nil Z) i) with (@None Z) by (symmetry; apply znth_None; unfold zlen; cbn [length]; lia). reflexivity.
  - remember (existsb (Z.eqb x) a) as e eqn:He.
    replace ((if e then 1 else 0) + 2 * equal_any_mask a b) with (2 * equal_any_mask a b + Z.b2z e) by (destruct e; cbn [Z.b2z]; lia).
    destruct (Z.eq_dec i 0) as [->|N].
    + change (znth (x :: b) 0) with (Some x). cbv iota. rewrite <- He. apply Z.testbit_0_r.
    + replace i with (Z.succ (i - 1)) at 1 by lia. rewrite Z.testbit_succ_r by lia. rewrite IH by lia.
      now rewrite znth_cons_pos by lia.
Qed.
Lemma mask_of m : 0 <= m < 65536 -> equal_any_mask (map (Z.add 1) (ones m)) (zrange 1 16) = m.
Proof.
  intro Hm. apply Z.bits_inj'. intros i Hi. rewrite mask_bit by exact Hi.
  destruct (Z.ltb_spec i 16) as [L|L].
  - rewrite znth_zrange by lia. destruct (existsb _ _) eqn:E.
    + apply existsb_exists in E as (y & Hy & E). apply Z.eqb_eq in E. apply in_map_iff in Hy as (j & <- & Hj).
      apply filter_In in Hj as [_ Hj]. replace i with j by lia. auto.
    + destruct (Z.testbit m i) eqn:B; [|reflexivity]. exfalso. rewrite <- not_true_iff_false in E. apply E.
      apply existsb_exists. exists (1 + i). split; [|apply Z.eqb_refl]. apply in_map, filter_In.
      split; [apply In_zrange; lia|exact B].
  - replace (znth (zrange 1 16) i) with (@None Z) by (symmetry; apply znth_None; rewrite zlen_zrange; lia).
    symmetry. apply (Z.bits_above_log2 m i); [lia|]. destruct (Z.eq_dec m 0) as [->|N]; [cbn; lia|].
    assert (Z.log2 m < 16); [|lia]. apply Z.log2_lt_pow2; [lia|]. change (2 ^ 16) with 65536. lia.
Qed.

Lemma INTERSECT_any tbl v_l cl v_r cr base out pos size m :
  cmpestrm v_l cl v_r cr = m -> 0 <= m < 65536 -> zlen (tbl m) = 16 ->
  0 <= pos -> pos + 16 <= zlen out ->
  exists out', INTERSECT tbl v_l cl v_r cr base out pos size = Ok (out', size + zlen (ones m))
    /\ zlen out' = zlen out
    /\ forall k, 0 <= k < zlen (ones m) -> exists c, znth (tbl m) k = Some c
         /\ znth out' (pos + k) = Some (u32 (base + (if 128 <=? c then 0 else nth (Z.to_nat (c mod 16)) v_r 0))).
Proof.
  intros Em Hm Lt Hp Ho. unfold INTERSECT. rewrite Em.
  rewrite (popcount_n 16) by (change (2 ^ Z.of_nat 16) with 65536; exact Hm). rewrite <- ones_def.
  pose proof (ones_le m) as O16. set (f := fun x => u32 (base + x)).
  set (p := pshufb v_r (tbl m)). assert (Lp : zlen p = 16) by (unfold p, pshufb; rewrite zlen_map; exact Lt).
  assert (PK : forall k, 0 <= k < 16 -> exists c, znth (tbl m) k = Some c
     /\ znth p k = Some (if 128 <=? c then 0 else nth (Z.to_nat (c mod 16)) v_r 0)).
  { intros k Hk. destruct (znth (tbl m) k) as [c|] eqn:E; [|apply znth_None in E; lia].
    exists c. split; [reflexivity|]. unfold p, pshufb. now rewrite znth_map, E. }
  unfold cvt_add. fold f.
  destruct (store_ok out pos (map f (firstn 8 p))) as (out1 & -> & W1); [lia|rewrite zlen_map, zlen_firstn; lia|].
  cbn [bind]. pose proof (wrote_zlen _ _ _ _ _ W1) as L1. destruct W1 as (_ & W1 & _).
  assert (L8 : zlen (map f (firstn 8 p)) = 8) by (rewrite zlen_map, zlen_firstn; lia). rewrite L8 in W1.
  assert (F1 : forall k, 0 <= k < 8 -> znth out1 (pos + k) = option_map f (znth p k)).
  { intros k Hk. rewrite W1 by lia. rewrite znth_map, znth_firstn by lia. reflexivity. }
  destruct (Z.ltb_spec 8 (zlen (ones m))) as [H8|H8].
  - assert (E : firstn 8 (bsrli8 p) = skipn 8 p).
    { unfold bsrli8. rewrite firstn_prefix by (rewrite skipn_length; unfold zlen in Lp; lia).
      apply firstn_all2. rewrite skipn_length. unfold zlen in Lp. lia. }
    rewrite E. assert (L8' : zlen (map f (skipn 8 p)) = 8) by (rewrite zlen_map, zlen_skipn; lia).
    destruct (store_ok out1 (pos + 8) (map f (skipn 8 p))) as (out2 & -> & W2); [lia|lia|].
    cbn [bind]. exists out2. split; [reflexivity|]. split; [now rewrite (wrote_zlen _ _ _ _ _ W2)|].
    destruct W2 as (_ & W2 & W3). rewrite L8' in W2, W3. intros k Hk. destruct (PK k ltac:(lia)) as (c & E1 & E2). exists c. split; [exact E1|].
    destruct (Z.ltb_spec k 8).
    + rewrite W3 by lia. rewrite F1 by lia. now rewrite E2.
    + replace (pos + k) with (pos + 8 + (k - 8)) by lia. rewrite W2 by lia. rewrite znth_map, znth_skipn by lia.
      replace (Z.of_nat 8 + (k - 8)) with k by lia. now rewrite E2.
  - exists out1. split; [reflexivity|]. split; [exact L1|]. intros k Hk. destruct (PK k ltac:(lia)) as (c & E1 & E2).
    exists c. split; [exact E1|]. rewrite F1 by lia. now rewrite E2.
Qed.

(** ** any table: the number is right *)
Definition len1 (p q : list Z * Z) : Prop := zlen (fst p) = zlen (fst q) /\ snd p = snd q.
Definition len2 (p q : list Z * list Z * Z) : Prop := fst (fst p) = fst (fst q) /\ len1 (snd (fst p), snd p) (snd (fst q), snd q).
Definition leno (o o' : list Z) : Prop := zlen o = zlen o'.

Lemma store_lens o o' p v v' : leno o o' -> zlen v = zlen v' -> sim leno (store o p v) (store o' p v').
Proof.
  unfold leno. intros H Hv. unfold store. rewrite <- H, <- Hv. destruct ((0 <=? p) && (p + zlen v <=? zlen o)) eqn:E; cbn [sim]; auto.
  apply andb_prop in E as [E1 E2]. apply Z.leb_le in E1, E2. pose proof (zlen_nonneg _ v).
  unfold leno. rewrite !zlen_app, !zlen_firstn, !zlen_skipn by lia. lia.
Qed.
Lemma vset_lens o o' p x : leno o o' -> sim leno (vset o p x) (vset o' p x).
Proof. intro H. now apply store_lens. Qed.
Lemma word_loop_lens base pos : forall f w o o' size, leno o o' ->
  sim len1 (word_loop f w base o pos size) (word_loop f w base o' pos size).
Proof.
  induction f as [|f IH]; intros w o o' size H; cbn [word_loop]; destruct (w =? 0); cbn [sim]; auto; try (split; auto; fail).
  cbv zeta. eapply sim_bind; [now apply vset_lens|]. intros. now apply IH.
Qed.
Lemma bitmap_loop_lens word pos : forall n i base o o' size, leno o o' ->
  sim len1 (bitmap_loop n word i base o pos size) (bitmap_loop n word i base o' pos size).
Proof.
  induction n as [|n IH]; intros i base o o' size H; cbn [bitmap_loop]; [split; auto|].
  apply sim_bind_eq. intros w _. eapply sim_bind; [now apply word_loop_lens|].
  intros [a s] [a' s'] _ _ [L E]. cbn [fst snd] in *. subst s'. now apply IH.
Qed.
Lemma and_lens l r n base o o' pos : leno o o' -> sim len1 (and_bitmaps l r n base o pos) (and_bitmaps l r n base o' pos).
Proof. intro H. now apply bitmap_loop_lens. Qed.
Lemma decode_bitmap_lens w n base o o' pos : leno o o' -> sim len1 (decode_bitmap w n base o pos) (decode_bitmap w n base o' pos).
Proof.
  intro H. unfold decode_bitmap. eapply sim_bind; [now apply bitmap_loop_lens|].
  intros [a s] [a' s'] _ _ [L E]. cbn [fst snd] in *. subst s'. cbn [sim]. split; auto.
Qed.
Lemma decode_step_lens mem b base o o' pos off : leno o o' -> sim leno (decode_step mem b base o pos off) (decode_step mem b base o' pos off).
Proof. intro H. unfold decode_step. apply sim_bind_eq. intros v _. now apply store_lens. Qed.
Lemma decode_block_lens mem b c base o o' pos : leno o o' ->
  sim len1 (decode_sparse_block mem b c base o pos) (decode_sparse_block mem b c base o' pos).
Proof.
  intro H. unfold decode_sparse_block. eapply sim_bind; [now apply decode_step_lens|]. intros o1 o1' _ _ H1.
  destruct (_ <=? _); [cbn [sim]; split; auto|].
  eapply sim_bind; [now apply decode_step_lens|]. intros o2 o2' _ _ H2.
  eapply sim_bind; [now apply decode_step_lens|]. intros o3 o3' _ _ H3.
  eapply sim_bind; [now apply decode_step_lens|]. intros o4 o4' _ _ H4. cbn [sim]. split; auto.
Qed.
Lemma decode_chunk_loop_lens mem e base : forall f b d o o' t, leno o o' ->
  sim len1 (decode_sparse_chunk_loop f mem b e d base o t) (decode_sparse_chunk_loop f mem b e d base o' t).
Proof.
  induction f as [|f IH]; intros b d o o' t H; cbn [decode_sparse_chunk_loop]; destruct (b =? e); cbn [sim]; auto; try (split; auto; fail).
  apply sim_bind_eq. intros i _. apply sim_bind_eq. intros c _. cbv zeta.
  eapply (sim_bind _ _ _ _ len1).
  - destruct (_ =? _); [now apply decode_block_lens|now apply decode_bitmap_lens].
  - intros [a s] [a' s'] _ _ [L E]. cbn [fst snd] in *. subst s'. now apply IH.
Qed.
Lemma decode_chunk_lens dbg mem b n base o o' pos : leno o o' ->
  sim len1 (decode_sparse_chunk dbg mem b n base o pos) (decode_sparse_chunk dbg mem b n base o' pos).
Proof.
  intro H. unfold decode_sparse_chunk. apply sim_bind_eq. intros _ _. cbv zeta.
  eapply sim_bind; [now apply decode_chunk_loop_lens|].
  intros [a s] [a' s'] _ _ [L E]. cbn [fst snd] in *. subst s'. cbn [sim]. split; auto.
Qed.
Lemma full_loop_lens base pos : forall n i o o', leno o o' -> sim leno (decode_full_loop n i base o pos) (decode_full_loop n i base o' pos).
Proof.
  induction n as [|n IH]; intros i o o' H; cbn [decode_full_loop]; [exact H|].
  eapply sim_bind; [now apply vset_lens|]. intros. now apply IH.
Qed.
Lemma full_lens base o o' pos : leno o o' -> sim len1 (decode_full_chunk base o pos) (decode_full_chunk base o' pos).
Proof.
  intro H. unfold decode_full_chunk. eapply sim_bind; [now apply full_loop_lens|]. intros. cbn [sim]. split; auto.
Qed.
Lemma ds_block_lens mem w r base pos : forall n i o o' k, leno o o' ->
  sim len1 (ds_intersect_block_loop n mem w r i base o pos k) (ds_intersect_block_loop n mem w r i base o' pos k).
Proof.
  induction n as [|n IH]; intros i o o' k H; cbn [ds_intersect_block_loop]; [split; auto|].
  apply sim_bind_eq. intros key _. eapply sim_bind; [now apply vset_lens|]. intros o1 o1' _ _ H1.
  apply sim_bind_eq. intros b _. now apply IH.
Qed.
Lemma scalar_lens mem el er base pos : forall f l r o o' k, leno o o' ->
  sim len1 (scalar_intersect_loop f mem l el r er base o pos k) (scalar_intersect_loop f mem l el r er base o' pos k).
Proof.
  induction f as [|f IH]; intros l r o o' k H; cbn [scalar_intersect_loop]; [exact I|].
  apply sim_bind_eq. intros [l1|] _; [|split; auto]. apply sim_bind_eq. intros [r1|] _; [|split; auto].
  apply sim_bind_eq. intros a _. apply sim_bind_eq. intros b _. destruct (a =? b); [|now apply IH].
  eapply sim_bind; [now apply vset_lens|]. intros o1 o1' _ _ H1.
  destruct (_ =? _); [split; auto|]. destruct (_ =? _); [split; auto|]. now apply IH.
Qed.

Section Any.
Variables tbl tbl' : Z -> list Z.
Hypothesis H : forall m, 0 <= m < 65536 -> zlen (tbl m) = zlen (tbl' m).

Lemma cmpestrm_range a la b lb : 0 <= cmpestrm a la b lb < 65536.
Proof.
  unfold cmpestrm. set (a' := firstn _ a). set (b' := firstn _ b).
  destruct (mask_ok a' b' 16) as [R _].
  - unfold b'. rewrite firstn_length. pose proof (Z.le_min_l 16 (Z.abs lb)). lia.
  - change (2 ^ Z.of_nat 16) with 65536 in R. exact R.
Qed.
Lemma cvt_lens base v v' : zlen v = zlen v' -> zlen (cvt_add base v) = zlen (cvt_add base v').
Proof. intro L. unfold cvt_add. rewrite !zlen_map, !zlen_firstn, L. reflexivity. Qed.
Lemma INTERSECT_lens v_l cl v_r cr base o o' pos size : leno o o' ->
  sim len1 (INTERSECT tbl v_l cl v_r cr base o pos size) (INTERSECT tbl' v_l cl v_r cr base o' pos size).
Proof.
  intro Ho. unfold INTERSECT. pose proof (cmpestrm_range v_l cl v_r cr) as R. set (m := cmpestrm v_l cl v_r cr) in *. clearbody m.
  cbv zeta. assert (L : zlen (pshufb v_r (tbl m)) = zlen (pshufb v_r (tbl' m))) by (unfold pshufb; rewrite !zlen_map; now apply H).
  eapply sim_bind; [apply store_lens; [exact Ho|apply cvt_lens, L]|]. intros o1 o1' _ _ H1.
  destruct (8 <? popcount m); [|split; auto].
  eapply sim_bind; [apply store_lens; [exact H1|apply cvt_lens]|].
  - unfold bsrli8. rewrite !zlen_app. f_equal. unfold zlen in *. rewrite !skipn_length. lia.
  - intros o2 o2' _ _ H2. split; auto.
Qed.
Lemma block_lens dbg mem l r cl cr base o o' pos : leno o o' ->
  sim len1 (ss_intersect_block tbl dbg mem l r cl cr base o pos) (ss_intersect_block tbl' dbg mem l r cl cr base o' pos).
Proof.
  intro Ho. unfold ss_intersect_block. apply sim_bind_eq. intros _ _. apply sim_bind_eq. intros _ _.
  destruct ((cl <=? 16) && (cr <=? 16)).
  { apply sim_bind_eq. intros w _. apply sim_bind_eq. intros w' _. now apply INTERSECT_lens. }
  destruct ((cl <=? 16) && (16 <? cr)); [|destruct ((cr <=? 16) && (16 <? cl)); [|now apply scalar_lens]].
  all: apply sim_bind_eq; intros w _; apply sim_bind_eq; intros w' _;
    (eapply sim_bind; [apply INTERSECT_lens, Ho|]); intros [a s] [a' s'] _ _ [L E]; cbn [fst snd] in *; subst s';
    apply sim_bind_eq; intros w2 _; now apply INTERSECT_lens.
Qed.
Lemma blocks_lens dbg mem dl dr cl cr b o o' tmp : leno o o' ->
  sim len1 (intersect_blocks tbl dbg mem dl dr cl cr b o tmp) (intersect_blocks tbl' dbg mem dl dr cl cr b o' tmp).
Proof.
  intro Ho. unfold intersect_blocks. cbv zeta. unfold ds_intersect_block.
  destruct (_ =? _); [now apply block_lens|]. destruct (_ =? _); [now apply ds_block_lens|].
  destruct (_ =? _); [now apply ds_block_lens|]. destruct (_ =? _); [now apply and_lens|exact I].
Qed.
Lemma chunk_loop_lens dbg mem el er base : forall fuel l r dl dr o o' tmp, leno o o' ->
  sim len1 (ss_intersect_chunk_loop fuel tbl dbg mem l r el er dl dr base o tmp)
           (ss_intersect_chunk_loop fuel tbl' dbg mem l r el er dl dr base o' tmp).
Proof.
  induction fuel as [|f IH]; intros l r dl dr o o' tmp Ho; cbn [ss_intersect_chunk_loop]; [exact I|].
  apply sim_bind_eq. intros [[l1 dl1]|] _; [|split; auto]. apply sim_bind_eq. intros [[r1 dr1]|] _; [|split; auto].
  apply sim_bind_eq. intros id _. apply sim_bind_eq. intros id_r _. destruct (id =? id_r); [|now apply IH].
  apply sim_bind_eq. intros c1 _. apply sim_bind_eq. intros c2 _. cbv zeta.
  eapply sim_bind; [apply blocks_lens, Ho|]. intros [a s] [a' s'] _ _ [L E]. cbn [fst snd] in *. subst s'.
  destruct (_ || _); [split; auto|now apply IH].
Qed.
Lemma ss_chunk_lens dbg mem l r bl br base o o' pos : leno o o' ->
  sim len1 (ss_intersect_chunk tbl dbg mem l r bl br base o pos) (ss_intersect_chunk tbl' dbg mem l r bl br base o' pos).
Proof.
  intro Ho. unfold ss_intersect_chunk. apply sim_bind_eq. intros _ _. apply sim_bind_eq. intros _ _. cbv zeta.
  eapply sim_bind; [now apply chunk_loop_lens|]. intros [a s] [a' s'] _ _ [L E]. cbn [fst snd] in *. subst s'. split; auto.
Qed.
Lemma keep_lens (x : list Z) r r' : sim len1 r r' ->
  sim len2 (let! (o, n) := r in Ok (x, o, n)) (let! (o, n) := r' in Ok (x, o, n)).
Proof.
  intro S. eapply sim_bind; [exact S|]. intros [a s] [a' s'] _ _ [L E]. split; [reflexivity|]. split; [exact L|exact E].
Qed.
Lemma ds_chunk_lens dbg mem l r b base x o o' pos : leno o o' ->
  sim len2 (ds_intersect_chunk dbg mem l r b base x o pos) (ds_intersect_chunk dbg mem l r b base x o' pos).
Proof.
  intro Ho. unfold ds_intersect_chunk. cbv zeta. apply sim_bind_eq. intros y _. apply keep_lens. now apply and_lens.
Qed.
Lemma chunks_lens dbg mem l r base x o o' pos : leno o o' ->
  sim len2 (intersect_chunks tbl dbg mem l r base x o pos) (intersect_chunks tbl' dbg mem l r base x o' pos).
Proof.
  intro Ho. unfold intersect_chunks. cbv zeta. apply sim_bind_eq. intros tl _. apply sim_bind_eq. intros tr _.
  destruct (_ =? _).
  { apply sim_bind_eq. intros bl _. apply sim_bind_eq. intros br _. destruct (bl <? br); apply keep_lens; now apply ss_chunk_lens. }
  destruct (_ =? _); [apply sim_bind_eq; intros bl _; now apply ds_chunk_lens|].
  destruct (_ =? _); [apply sim_bind_eq; intros bl _; apply keep_lens; now apply decode_chunk_lens|].
  destruct (_ =? _); [apply sim_bind_eq; intros bl _; now apply ds_chunk_lens|].
  destruct (_ =? _); [apply keep_lens; now apply and_lens|].
  destruct (_ =? _); [apply keep_lens; now apply decode_bitmap_lens|].
  destruct (_ =? _); [apply sim_bind_eq; intros bl _; apply keep_lens; now apply decode_chunk_lens|].
  destruct (_ =? _); [apply keep_lens; now apply decode_bitmap_lens|].
  destruct (_ =? _); [apply keep_lens; now apply full_lens|exact I].
Qed.
Lemma loop_lens dbg mem : forall fuel l r x o o' pos, leno o o' ->
  sim len2 (pairwise_intersection_loop fuel tbl dbg mem l r x o pos) (pairwise_intersection_loop fuel tbl' dbg mem l r x o' pos).
Proof.
  induction fuel as [|f IH]; intros l r x o o' pos Ho; cbn [pairwise_intersection_loop];
    destruct (it_has_next l && it_has_next r); cbn [sim]; auto; try (split; [|split]; auto; fail).
  apply sim_bind_eq. intros il _. apply sim_bind_eq. intros ir _. cbv zeta. destruct (u16 il =? u16 ir).
  - eapply sim_bind; [apply chunks_lens, Ho|]. intros [[a o1] n] [[a' o1'] n'] _ _ (E & L & En). cbn [fst snd] in *. subst a' n'.
    apply sim_bind_eq. intros l' _. apply sim_bind_eq. intros r' _. now apply IH.
  - destruct (u16 il <? u16 ir); apply sim_bind_eq; intros; now apply IH.
Qed.
Lemma pairwise_lens dbg mem s t x o o' pos : leno o o' ->
  sim len2 (pairwise_intersection tbl dbg mem s t x o pos) (pairwise_intersection tbl' dbg mem s t x o' pos).
Proof.
  intro Ho. unfold pairwise_intersection. eapply sim_bind; [apply loop_lens, Ho|].
  intros [[a o1] n] [[a' o1'] n'] _ _ (E & L & En). cbn [fst snd] in *. subst a' n'. split; [|split]; auto.
Qed.
End Any.

Theorem c54_count : forall tbl mem a b S T,
  table tbl -> valid S -> valid T -> stored 31 mem a S -> stored 31 mem b T ->
  exists e, enumerates (fun v => In v S /\ In v T) e
    /\ forall dbg x out pos, zlen x = 1024 -> 0 <= pos -> pos + zlen e + 23 <= zlen out ->
       exists s t x' out', seq_at mem a = Ok s /\ seq_at mem b = Ok t
         /\ pairwise_intersection tbl dbg mem s t x out pos = Ok (x', out', zlen e)
         /\ zlen x' = 1024 /\ zlen out' = zlen out.
Proof.
  intros tbl mem a b S T Ht VS VT HS HT.
  destruct (c11_intersection ex_tbl mem a b S T) as (e & En & K); auto using ex_tbl_ok.
  exists e. split; [exact En|]. intros dbg x out pos Hx Hp Ho.
  destruct (K dbg x out pos Hx Hp Ho) as (s & t & x' & out' & Es & Et & R & Lx & W).
  assert (SM : sim len2 (pairwise_intersection ex_tbl dbg mem s t x out pos) (pairwise_intersection tbl dbg mem s t x out pos)).
  { apply pairwise_lens; [|reflexivity]. intros m Hm. destruct (Ht m Hm) as [-> _]. now destruct (ex_tbl_ok m Hm) as [-> _]. }
  rewrite R in SM. destruct (pairwise_intersection tbl dbg mem s t x out pos) as [[[y o] n]| | | |] eqn:E; cbn [sim] in SM; try contradiction.
  destruct SM as (Ex & L & Ez). cbn [fst snd] in *. subst y n. exists s, t, x', o.
  repeat split; auto. rewrite <- L. apply W.
Qed.

(** ** one block against one block *)
Lemma group_low k : forall l, l <> [] -> Forall (fun v => 0 <= v < k) l -> group k l = [(0, l)].
Proof.
  induction l as [|v l IH]; intros N F; [congruence|]. inversion F as [|? ? Hv F']; subst. cbn [group].
  rewrite Z.div_small, Z.mod_small by lia. destruct l as [|v' l]; [reflexivity|].
  rewrite IH by (auto; discriminate). reflexivity.
Qed.
Lemma low_sparse c : c <> [] -> Forall (fun v => 0 <= v < 256) c -> zlen c <= 30 ->
  chunks_of c = [(0, c)] /\ blocks_of c = [(0, c)] /\ kind_of c = KSparse.
Proof.
  intros N F L. assert (B : blocks_of c = [(0, c)]) by (apply group_low; auto). split; [|split]; auto.
  - apply group_low; auto. eapply Forall_impl; [|exact F]. cbv beta. lia.
  - unfold kind_of, sparse_data. rewrite B. destruct (Z.ltb_spec (zlen c) 32768); [|lia].
    rewrite zlen_app, zlen_datas_cons, zlen_hdrs, zlen_cons. cbn [snd].
    change (zlen (datas [])) with 0. rewrite zlen_nil. unfold bytes_by_cardinality.
    change (block_sparseness_threshold - 1) with 31. destruct (Z.ltb_spec (zlen c) 31); [|lia].
    destruct (Z.leb_spec 8192 (2 * (0 + 1) + (zlen c + 0))); [lia|reflexivity].
Qed.

Lemma nth_of_znth (l : list Z) i x : znth l i = Some x -> nth (Z.to_nat i) l 0 = x.
Proof.
  unfold znth. destruct (i <? 0); [discriminate|]. apply nth_error_nth.
Qed.

Lemma block_run tbl dbg mem a b m S T x out pos :
  0 < m < 65536 -> zlen (tbl m) = 16 -> valid S -> valid T -> stored 31 mem a S -> stored 31 mem b T ->
  zlen S = 16 -> zlen T <= 16 -> Forall (fun v => 0 <= v < 256) S -> Forall (fun v => 0 <= v < 256) T ->
  (forall i, 0 <= i < 16 -> znth S i = Some (1 + i)) -> equal_any_mask T S = m ->
  zlen x = 1024 -> 0 <= pos -> pos + 16 <= zlen out ->
  exists s t x' out', seq_at mem a = Ok s /\ seq_at mem b = Ok t
    /\ pairwise_intersection tbl dbg mem s t x out pos = Ok (x', out', zlen (ones m))
    /\ forall k, 0 <= k < zlen (ones m) -> exists c, znth (tbl m) k = Some c
         /\ znth out' (pos + k) = Some (if 128 <=? c then 0 else 1 + c mod 16).
Proof.
  intros Hm Lt VS VT SS ST LS LT FS FT NS EQ Hx Hp Ho. pose proof (ones_le m) as O16. pose proof (zlen_nonneg _ (ones m)) as O0.
  destruct (low_sparse S) as (CS & BS & KS); [apply VS|exact FS|lia|].
  destruct (low_sparse T) as (CT & BT & KT); [apply VT|exact FT|lia|].
  destruct (stored_seq 31 mem a S VS SS ltac:(lia)) as (s & Es & _ & Vs & _).
  destruct (stored_seq 31 mem b T VT ST ltac:(lia)) as (t & Et & _ & Vt & _).
  rewrite CS in Vs. rewrite CT in Vt.
  exists s, t.
  destruct (view_sparse _ _ _ _ _ _ Vs KS) as (BA & Hna & Hda & Hma).
  destruct (view_sparse _ _ _ _ _ _ Vt KT) as (BB & Hnb & Hdb & Hmb).
  rewrite BS in *. rewrite BT in *. cbv zeta in *. change (zlen [(0, S)]) with 1 in *. change (zlen [(0, T)]) with 1 in *.
  pose proof (blocks_at_cons _ _ _ _ _ _ BA) as (WA & IA & CA & DA & _).
  pose proof (blocks_at_cons _ _ _ _ _ _ BB) as (WB & IB & CB & DB & _).
  apply block_sparse in DA; [|lia]. apply block_sparse in DB; [|lia].
  rewrite zlen_datas_cons in Hma, Hmb. cbn [snd] in Hma, Hmb. unfold bytes_by_cardinality in Hma, Hmb.
  change (block_sparseness_threshold - 1) with 31 in Hma, Hmb. change (zlen (datas [])) with 0 in Hma, Hmb.
  destruct (Z.ltb_spec (zlen S) 31) as [_|]; [|lia]. destruct (Z.ltb_spec (zlen T) 31) as [_|]; [|lia].
  assert (T1 : 1 <= zlen T) by (pose proof (blocks_wf1_zlen _ _ WB); lia).
  pose proof (it_fuel_ok _ _ _ (proj1 Vs)) as F1. unfold pairwise_intersection. cbv zeta.
  destruct (it_fuel (seq_begin s)) as [|f1]; [cbn [length] in F1; lia|]. cbn [Nat.add].
  set (its := seq_begin s) in *. set (itt := seq_begin t) in *. cbn [pairwise_intersection_loop].
  rewrite (id_view_has_next _ _ _ (proj1 Vs)), (id_view_has_next _ _ _ (proj1 Vt)). cbn [andb].
  destruct (chunk_base _ _ _ _ _ (proj1 Vs)) as (Ei & Ebi & Hi).
  destruct (chunk_base _ _ _ _ _ (proj1 Vt)) as (Ej & Ebj & Hj).
  rewrite Ei, Ej. cbn [bind]. change (u16 0) with 0. cbn [Z.eqb]. change (u32 (Z.shiftl 0 16)) with 0.
  unfold intersect_chunks at 1.
  rewrite (id_view_type _ _ _ _ _ (proj1 Vs)), (id_view_type _ _ _ _ _ (proj1 Vt)). cbn [bind].
  rewrite KS, KT, Z.eqb_refl.
  rewrite (id_view_blocks _ _ _ _ _ (proj1 Vs) KS), (id_view_blocks _ _ _ _ _ (proj1 Vt) KT). cbn [bind].
  rewrite BS, BT. change (zlen [(0, S)]) with 1. change (zlen [(0, T)]) with 1. cbn [Z.ltb Z.compare Pos.compare Pos.compare_cont].
  unfold ss_intersect_chunk. rewrite assert_ok by reflexivity. cbn [bind].
  change (1 * 2) with 2. change (Z.to_nat (1 + 1)) with 2%nat. cbn [ss_intersect_chunk_loop].
  assert (AD : forall n l r e d, rd8 mem l = Ok 0 -> rd8 mem r = Ok 0 -> block_advance (Datatypes.S n) mem l e d r = Ok (Some (l, d))).
  { intros n l r e d E1 E2. cbn [block_advance]. rewrite E1, E2. reflexivity. }
  rewrite !AD by assumption. cbn [bind]. rewrite AD by assumption. cbn [bind]. rewrite IA, IB. cbn [bind Z.eqb].
  rewrite CA, CB. cbn [bind]. replace (zlen T - 1 + 1) with (zlen T) by lia. replace (zlen S - 1 + 1) with (zlen S) by lia.
  change (u32 (0 + 0 * 256)) with 0. unfold intersect_blocks at 1. rewrite !block_type_val.
  destruct (Z.ltb_spec (zlen T) 31) as [_|]; [|lia]. destruct (Z.ltb_spec (zlen S) 31) as [_|]; [|lia]. rewrite Z.eqb_refl.
  unfold ss_intersect_block. change (block_sparseness_threshold - 2) with 30.
  rewrite assert_ok by (apply andb_true_intro; split; [apply Z.ltb_lt|apply Z.leb_le]; lia). cbn [bind].
  rewrite assert_ok by (apply andb_true_intro; split; [apply Z.ltb_lt|apply Z.leb_le]; lia). cbn [bind].
  destruct (Z.leb_spec (zlen T) 16) as [_|]; [|lia]. destruct (Z.leb_spec (zlen S) 16) as [_|]; [|lia]. cbn [andb].
  destruct (load_block mem (i_data its + 2 * 1) S) as (ws & Ews & Zs & Fs); auto; try lia.
  destruct (load_block mem (i_data itt + 2 * 1) T) as (wt & Ewt & Zt & Ft); auto; try lia.
  change (2 * 1) with 2 in Ews, Ewt. rewrite Ews, Ewt. cbn [bind].
  assert (EwS : ws = S).
  { rewrite <- (firstn_all2 (n := 16) ws) by (unfold zlen in Zs; lia). rewrite Fs by (unfold zlen in LS; lia).
    apply firstn_all2. unfold zlen in LS. lia. }
  assert (EM : cmpestrm wt (zlen T) ws (zlen S) = m).
  { unfold cmpestrm. rewrite Ft by (unfold zlen in *; lia). rewrite EwS.
    rewrite !firstn_all2 by (unfold zlen in *; lia). exact EQ. }
  destruct (INTERSECT_any tbl wt (zlen T) ws (zlen S) 0 out pos 0 m EM ltac:(lia) Lt Hp Ho) as (out' & -> & Lo & K).
  cbn [bind]. rewrite Z.add_0_l. rewrite u32_id by lia.
  replace (i_data itt + 1 + 1 =? i_data itt + 2) with true by (symmetry; apply Z.eqb_eq; lia). cbn [orb bind].
  destruct (view_next _ _ _ _ _ _ Vs) as (its1 & -> & Vs1 & _). cbn [bind].
  destruct (view_next _ _ _ _ _ _ Vt) as (itt1 & -> & Vt1 & _). cbn [bind].
  assert (LOOP : forall f y q, pairwise_intersection_loop f tbl dbg mem its1 itt1 x y q = Ok (x, y, q)).
  { intros f y q. destruct f; cbn [pairwise_intersection_loop]; rewrite (id_view_has_next _ _ _ (proj1 Vs1)); reflexivity. }
  rewrite LOOP. cbn [bind]. exists x, out'. split; [exact Es|]. split; [exact Et|].
  replace (pos + zlen (ones m) - pos) with (zlen (ones m)) by lia. rewrite u32_id by lia.
  split; [f_equal; f_equal; lia|]. intros k Hk. destruct (K k Hk) as (c & Ec & Eo). exists c. split; [exact Ec|].
  rewrite Eo. f_equal. rewrite EwS. destruct (128 <=? c); [reflexivity|].
  pose proof (Z.mod_pos_bound c 16 ltac:(lia)) as Hc. rewrite Z.add_0_l.
  assert (En : znth S (c mod 16) = Some (1 + c mod 16)) by (apply NS; lia).
  rewrite (nth_of_znth _ _ _ En). apply u32_id. lia.
Qed.

Lemma entry_run tbl dbg mem a b m x out pos :
  0 < m < 65536 -> zlen (tbl m) = 16 -> valid (zrange 1 16) -> valid (map (Z.add 1) (ones m)) ->
  stored 31 mem a (zrange 1 16) -> stored 31 mem b (map (Z.add 1) (ones m)) ->
  zlen x = 1024 -> 0 <= pos -> pos + 16 <= zlen out ->
  exists s t x' out', seq_at mem a = Ok s /\ seq_at mem b = Ok t
    /\ pairwise_intersection tbl dbg mem s t x out pos = Ok (x', out', zlen (ones m))
    /\ forall k, 0 <= k < zlen (ones m) -> exists c, znth (tbl m) k = Some c
         /\ znth out' (pos + k) = Some (if 128 <=? c then 0 else 1 + c mod 16).
Proof.
  intros Hm Lt VS VT SS ST Hx Hp Ho. apply (block_run tbl dbg mem a b m (zrange 1 16) (map (Z.add 1) (ones m)) x out pos); auto.
  - rewrite zlen_map. apply ones_le.
  - apply Forall_forall. intros v Hv. apply In_zrange in Hv. lia.
  - apply Forall_forall. intros v Hv. apply in_map_iff in Hv as (j & <- & Hj). rewrite ones_def in Hj.
    apply filter_In in Hj as [Hj _]. apply In_zrange in Hj. lia.
  - intros i Hi. apply znth_zrange. lia.
  - apply mask_of. lia.
Qed.

(** ** the operands that show an entry *)
Lemma ones_sorted_ m : sorted (ones m).
Proof. rewrite ones_def. apply sorted_filter. apply sorted_zrange. Qed.
Lemma first_valid : valid (zrange 1 16).
Proof.
  split; [discriminate|]. split; [apply sorted_zrange|]. apply Forall_forall. intros v Hv. apply In_zrange in Hv. lia.
Qed.
Lemma ones_some_ m : 0 < m < 65536 -> ones m <> [].
Proof.
  intros Hm E. pose proof (mask_of m ltac:(lia)) as M. rewrite E in M. cbn [map] in M. vm_compute in M. lia.
Qed.
Lemma second_valid m : 0 < m < 65536 -> valid (map (Z.add 1) (ones m)).
Proof.
  intro Hm. split; [|split].
  - intro E. apply map_eq_nil in E. now apply (ones_some_ m).
  - apply sorted_map; [apply ones_sorted_|]. intros. lia.
  - apply Forall_forall. intros v Hv. apply in_map_iff in Hv as (j & <- & Hj). rewrite ones_def in Hj.
    apply filter_In in Hj as [Hj _]. apply In_zrange in Hj. lia.
Qed.

Theorem c54_entry : forall tbl m mem a b,
  0 < m < 65536 -> zlen (tbl m) = 16 ->
  stored 31 mem a (zrange 1 16) -> stored 31 mem b (map (Z.add 1) (ones m)) ->
  forall dbg x out pos, zlen x = 1024 -> 0 <= pos -> pos + 16 <= zlen out ->
  exists s t x' out', seq_at mem a = Ok s /\ seq_at mem b = Ok t
    /\ pairwise_intersection tbl dbg mem s t x out pos = Ok (x', out', zlen (ones m))
    /\ forall k j, znth (ones m) k = Some j -> (znth out' (pos + k) = Some (1 + j) <-> selects (tbl m) k j).
Proof.
  intros tbl m mem a b Hm Lt SS ST dbg x out pos Hx Hp Ho.
  destruct (entry_run tbl dbg mem a b m x out pos Hm Lt first_valid (second_valid m Hm) SS ST Hx Hp Ho)
    as (s & t & x' & out' & Es & Et & R & K).
  exists s, t, x', out'. split; [exact Es|]. split; [exact Et|]. split; [exact R|]. intros k j E.
  destruct (ones_in m k j E) as [Hj _].
  destruct (K k (znth_lt _ _ _ _ E)) as (c & Ec & Eo). rewrite Eo. split.
  - intro Q. exists c. split; [exact Ec|]. assert (Q' : (if 128 <=? c then 0 else 1 + c mod 16) = 1 + j) by congruence.
    destruct (Z.leb_spec 128 c); lia.
  - intros (c' & Ec' & L & M). rewrite Ec in Ec'. injection Ec' as <-. destruct (Z.leb_spec 128 c); [lia|]. now rewrite M.
Qed.

Theorem c54_right : forall tbl mem a b S T,
  table tbl -> right_table tbl -> valid S -> valid T -> stored 31 mem a S -> stored 31 mem b T ->
  exists e, enumerates (fun v => In v S /\ In v T) e
    /\ forall dbg x out pos, zlen x = 1024 -> 0 <= pos -> pos + zlen e + 23 <= zlen out ->
       exists s t x' out', seq_at mem a = Ok s /\ seq_at mem b = Ok t
         /\ pairwise_intersection tbl dbg mem s t x out pos = Ok (x', out', zlen e)
         /\ zlen x' = 1024 /\ wrote 23 out pos e out'.
Proof.
  intros tbl mem a b S T Ht Hr VS VT HS HT.
  destruct (c11_intersection _ mem a b S T (plain_ok tbl Ht Hr) VS VT HS HT) as (e & En & K). exists e. split; [exact En|].
  intros dbg x out pos Hx Hp Ho. destruct (K dbg x out pos Hx Hp Ho) as (s & t & x' & out' & Es & Et & R & Q).
  exists s, t, x', out'. split; [exact Es|]. split; [exact Et|]. split; [|exact Q]. rewrite <- R.
  apply pairwise_same. intros. symmetry. apply pshufb_plain.
Qed.

Theorem c54_exact : forall tbl, table tbl ->
  (right_table tbl <->
   forall mem a b S T, valid S -> valid T -> stored 31 mem a S -> stored 31 mem b T ->
   exists e, enumerates (fun v => In v S /\ In v T) e
     /\ forall dbg x out pos, zlen x = 1024 -> 0 <= pos -> pos + zlen e + 23 <= zlen out ->
        exists s t x' out', seq_at mem a = Ok s /\ seq_at mem b = Ok t
          /\ pairwise_intersection tbl dbg mem s t x out pos = Ok (x', out', zlen e)
          /\ forall i, 0 <= i < zlen e -> znth out' (pos + i) = znth e i).
Proof.
  intros tbl Ht. split.
  - intros Hr mem a b S T VS VT HS HT. destruct (c54_right tbl mem a b S T Ht Hr VS VT HS HT) as (e & En & K).
    exists e. split; [exact En|]. intros dbg x out pos Hx Hp Ho.
    destruct (K dbg x out pos Hx Hp Ho) as (s & t & x' & out' & Es & Et & R & _ & W).
    exists s, t, x', out'. repeat split; auto. apply W.
  - intros H m Hm k j E. assert (Hm0 : 0 < m < 65536).
    { destruct (Z.eq_dec m 0) as [->|]; [|lia]. change (ones 0) with (@nil Z) in E. apply znth_lt in E. rewrite zlen_nil in E. lia. }
    pose proof (second_valid m Hm0) as VT.
    destruct (two_stored (zrange 1 16) (map (Z.add 1) (ones m)) first_valid VT) as (mem & a & b & SS & ST & _).
    destruct (H mem a b _ _ first_valid VT SS ST) as (e & En & K).
    assert (Ee : e = map (Z.add 1) (ones m)).
    { eapply enumerates_unique; [exact En|]. split; [apply VT|]. intro v. split; [|intros [_ Q]; exact Q].
      intro Q. split; [|exact Q]. apply in_map_iff in Q as (i & <- & Hi). rewrite ones_def in Hi.
      apply filter_In in Hi as [Hi _]. apply In_zrange in Hi. apply In_zrange. lia. }
    assert (Le : zlen e = zlen (ones m)) by (rewrite Ee; apply zlen_map). pose proof (ones_le m).
    set (x := repeat 0 1024%nat). set (out := repeat 0 39%nat).
    assert (Lx : zlen x = 1024) by (unfold x; rewrite zlen_repeat; reflexivity).
    assert (Lo : zlen out = 39) by reflexivity.
    destruct (K false x out 0 Lx ltac:(lia) ltac:(lia)) as (s & t & x' & out' & Es & Et & R & V).
    destruct (c54_entry tbl m mem a b Hm0 (proj1 (Ht m Hm)) SS ST false x out 0 Lx ltac:(lia) ltac:(lia))
      as (s2 & t2 & x2 & out2 & Es2 & Et2 & R2 & V2).
    rewrite Es in Es2. injection Es2 as <-. rewrite Et in Et2. injection Et2 as <-. rewrite R in R2. injection R2 as _ <- _.
    apply (V2 k j E). rewrite V by (rewrite Le; eapply znth_lt; exact E). rewrite Ee, znth_map, E. reflexivity.
Qed.

(** ** a wrong entry *)
(** the table with the last two positions of mask 7 exchanged *)
Definition bad_tbl (m : Z) : list Z := if m =? 7 then [0; 2; 1] ++ repeat 255 13 else ex_tbl m.
Lemma ok_right tbl : shuffle_table_ok tbl -> right_table tbl.
Proof.
  intros H m Hm k j E. destruct (H m Hm) as [_ F]. rewrite <- ones_def in F. destruct (ones_in m k j E) as [Hj _].
  exists j. split; [|split; [lia|apply Z.mod_small; lia]]. rewrite <- F in E.
  assert (k < zlen (ones m)) by (apply znth_lt in E; rewrite zlen_firstn in E; unfold zlen; lia).
  rewrite znth_firstn in E by (unfold zlen in *; lia). exact E.
Qed.
Lemma Forall_firstn_ {A} (P : A -> Prop) n l : Forall P l -> Forall P (firstn n l).
Proof. rewrite !Forall_forall. intros H x Hx. apply H. rewrite <- (firstn_skipn n l). apply in_or_app. now left. Qed.
Lemma ex_tbl_right : table ex_tbl /\ right_table ex_tbl.
Proof.
  split; [|apply ok_right, ex_tbl_ok]. intros m Hm. split; [apply (ex_tbl_ok m Hm)|].
  unfold ex_tbl. rewrite <- ones_def. apply Forall_firstn_, Forall_app. split.
  - apply Forall_forall. intros j Hj. rewrite ones_def in Hj. apply filter_In in Hj as [Hj _]. apply In_zrange in Hj. lia.
  - apply Forall_forall. intros j Hj. apply repeat_spec in Hj. lia.
Qed.
Lemma bad_tbl_table : table bad_tbl.
Proof.
  intros m Hm. unfold bad_tbl. destruct (m =? 7); [|now apply ex_tbl_right]. split; [reflexivity|].
  apply Forall_app. split; [repeat constructor; lia|]. apply Forall_forall. intros j Hj. apply repeat_spec in Hj. lia.
Qed.
Lemma bad_tbl_wrong : ~ right_table bad_tbl.
Proof.
  intro R. destruct (R 7 ltac:(lia) 1 1) as (c & E & _ & M); [reflexivity|]. vm_compute in E. injection E as <-. vm_compute in M. lia.
Qed.
