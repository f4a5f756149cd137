(** Statistics: reported size, accounting. *)
From Verif Require Import Base Hw Spec Lib L_Bits L_Group Layout M_Util M_Build M_Seq M_Index
  P_Build1 P_Build2 P_Build3 P_Seq P_Sets P_Index.

(** ** totals *)
Lemma total_app A (f : A -> Z) l r : total f (l ++ r) = total f l + total f r.
Proof. induction l; cbn [app total fold_right]; auto. fold (total f (l ++ r)). fold (total f l). lia. Qed.
Lemma total_cons A (f : A -> Z) x l : total f (x :: l) = f x + total f l.
Proof. reflexivity. Qed.
Lemma total_ext A (f g : A -> Z) l : (forall x, In x l -> f x = g x) -> total f l = total g l.
Proof.
  induction l as [|x l IH]; intro H; auto. rewrite !total_cons, IH, H; auto; [now left|].
  intros. apply H. now right.
Qed.
Lemma total_add A (f g : A -> Z) l : total (fun x => f x + g x) l = total f l + total g l.
Proof. induction l; auto. rewrite !total_cons. lia. Qed.
Lemma total_scale A c (f : A -> Z) l : total (fun x => c * f x) l = c * total f l.
Proof. induction l; [cbn; lia|]. rewrite !total_cons. lia. Qed.
Lemma total_0 A (l : list A) : total (fun _ => 0) l = 0.
Proof. induction l; auto. Qed.
Lemma total_zero A (f : A -> Z) l : (forall x, f x = 0) -> total f l = 0.
Proof. intro H. induction l; auto. rewrite total_cons, H. lia. Qed.
Lemma total_swap A B (f : A -> B -> Z) l m :
  total (fun x => total (f x) m) l = total (fun y => total (fun x => f x y) l) m.
Proof.
  induction l as [|x l IH]; [cbn; now rewrite total_0|]. rewrite total_cons, IH.
  rewrite <- total_add. reflexivity.
Qed.
Lemma chunks_delta_total cs g : chunks_delta cs g = total (fun ch => chunk_delta (snd ch) g) cs.
Proof. reflexivity. Qed.
Lemma blocks_delta_total bs g : blocks_delta bs g = total (fun b => block_delta (zlen (snd b)) g) bs.
Proof. reflexivity. Qed.

(** a sum of indicator functions *)
Lemma total_indicator (f : Z -> Z) a : forall n i,
  total (fun j => if j =? a then f j else 0) (zrange i n) = if (i <=? a) && (a <? i + Z.of_nat n) then f a else 0.
Proof.
  induction n; intro i; cbn [zrange].
  - cbn [total fold_right]. destruct (Z.leb_spec i a), (Z.ltb_spec a (i + Z.of_nat 0)); auto; lia.
  - rewrite total_cons, IHn. destruct (Z.eqb_spec i a) as [->|].
    + destruct (Z.leb_spec a a), (Z.ltb_spec a (a + Z.of_nat (Datatypes.S n))), (Z.leb_spec (a + 1) a);
        cbn [andb]; try lia.
    + destruct (Z.leb_spec i a), (Z.ltb_spec a (i + Z.of_nat (Datatypes.S n))), (Z.leb_spec (i + 1) a),
        (Z.ltb_spec a (i + 1 + Z.of_nat n)); cbn [andb]; try lia.
Qed.

(** ** reported size *)
Definition size_bits (d : field -> Z) : Z :=
  d F_chunks_header_bits + (d F_dense_blocks * 16 + d F_sparse_blocks * 8)
  + d F_dense_chunks_bits + d F_dense_blocks_bits + d F_sparse_blocks_bits.

Lemma chunk_bits id c : wfc1 (id, c) ->
  chunk_delta c F_dense_blocks * 16 + chunk_delta c F_sparse_blocks * 8
  + chunk_delta c F_dense_chunks_bits + chunk_delta c F_dense_blocks_bits
  + chunk_delta c F_sparse_blocks_bits = 8 * zlen (chunk_data c).
Proof.
  intro W. unfold chunk_delta, chunk_data. destruct (kind_of c) eqn:K.
  - pose proof (blocks_delta_bytes (blocks_of c) (blocks_wf _ _ W)). unfold sparse_data. rewrite zlen_app. lia.
  - rewrite zlen_bytes_of_u64s, zlen_bitmap_words. lia.
  - rewrite zlen_nil. lia.
Qed.
Lemma chunks_bits cs : Forall wfc1 cs ->
  chunks_delta cs F_dense_blocks * 16 + chunks_delta cs F_sparse_blocks * 8
  + chunks_delta cs F_dense_chunks_bits + chunks_delta cs F_dense_blocks_bits
  + chunks_delta cs F_sparse_blocks_bits = 8 * zlen (cdatas cs).
Proof.
  induction 1 as [|[id c] cs H1 H2 IH]; [reflexivity|].
  rewrite !chunks_delta_cons, cdatas_cons, zlen_app. cbn [snd]. pose proof (chunk_bits _ _ H1). lia.
Qed.
Lemma size_bits_delta S : valid S -> size_bits (delta S) = 8 * zlen (lay S).
Proof.
  intro V. destruct (valid_chunks S V) as ((_ & W) & _). unfold size_bits, delta, seq_delta, lay.
  rewrite chunks_delta_hdr, zlen_layout. pose proof (chunks_bits _ W). lia.
Qed.
Lemma size_bits_total k : Forall valid k ->
  size_bits (fun g => total (fun S => delta S g) k) = 8 * zlen (lays k).
Proof.
  induction 1 as [|S k H1 H2 IH]; [reflexivity|]. unfold lays. cbn [flat_map]. fold (lays k).
  rewrite zlen_app. pose proof (size_bits_delta S H1). unfold size_bits in *. rewrite !total_cons. lia.
Qed.
Lemma finish_bits d : finish_stats d F_bits = size_bits d + 128.
Proof.
  unfold finish_stats, size_bits, sadd, sset.
  repeat match goal with |- context [field_eq_dec ?a ?b] => destruct (field_eq_dec a b); try congruence end; lia.
Qed.

(** ** accounting: linear equations between the counters *)
Lemma accounts_ext d e : (forall g, d g = e g) -> accounts d -> accounts e.
Proof.
  intros E []. constructor; rewrite <- ?E; auto.
  all: erewrite total_ext; [|intros; rewrite <- E; reflexivity]; assumption.
Qed.
Lemma accounts_0 : accounts (fun _ => 0).
Proof.
  constructor; try reflexivity.
  all: rewrite ?total_0; try reflexivity.
  all: apply total_zero; intros; lia.
Qed.
Lemma accounts_add d e : accounts d -> accounts e -> accounts (fun g => d g + e g).
Proof.
  intros [] []. constructor; rewrite ?total_add; try lia.
  - rewrite (total_ext _ _ (fun i => i * d (F_sparse_blocks_cardinalities i) + i * e (F_sparse_blocks_cardinalities i)))
      by (intros; lia). rewrite total_add; lia.
  - rewrite (total_ext _ _ (fun i => i * d (F_num_blocks_in_chunks i) + i * e (F_num_blocks_in_chunks i)))
      by (intros; lia). rewrite total_add; lia.
Qed.
Lemma accounts_total A (d : A -> field -> Z) l :
  Forall (fun x => accounts (d x)) l -> accounts (fun g => total (fun x => d x g) l).
Proof.
  induction 1 as [|x l H1 H2 IH]; [apply accounts_0|].
  apply (accounts_ext (fun g => d x g + total (fun x => d x g) l)); auto. now apply accounts_add.
Qed.

Definition block_acc (bs : list (Z * list Z)) : Prop :=
  let d := blocks_delta bs in
  d F_integers_in_sparse_blocks + d F_integers_in_dense_blocks = sum_card bs
  /\ total (fun i => d (F_sparse_blocks_cardinalities i)) (zrange 1 30) = d F_sparse_blocks
  /\ total (fun i => i * d (F_sparse_blocks_cardinalities i)) (zrange 1 30) = d F_integers_in_sparse_blocks
  /\ d F_dense_blocks_bits = 256 * d F_dense_blocks
  /\ d F_sparse_blocks_bits = 8 * (d F_integers_in_sparse_blocks + d F_sparse_blocks).
Lemma block_acc_ok bs : Forall wfb1 bs -> block_acc bs.
Proof.
  unfold block_acc. induction 1 as [|[id c] bs W F IH]; [repeat split; auto; rewrite total_ext with (g := fun _ => 0);
    auto using total_0; intros; cbn; lia|].
  destruct IH as (I1 & I2 & I3 & I4 & I5). rewrite !blocks_delta_cons. cbn [snd].
  apply wf1_zlen in W; [|lia]. cbn [snd] in W.
  cbn [sum_card fold_right snd]. fold (sum_card bs).
  rewrite (total_ext _ (fun i => blocks_delta ((id, c) :: bs) (F_sparse_blocks_cardinalities i))
     (fun i => (if i =? zlen c then block_delta (zlen c) F_sparse_blocks else 0)
        + blocks_delta bs (F_sparse_blocks_cardinalities i))).
  2:{ intros i _. rewrite blocks_delta_cons. cbn [block_delta snd]. f_equal. rewrite (Z.eqb_sym i).
      destruct (zlen c =? i); rewrite ?andb_true_r, ?andb_false_r; auto. }
  rewrite (total_ext _ (fun i => i * blocks_delta ((id, c) :: bs) (F_sparse_blocks_cardinalities i))
     (fun i => (if i =? zlen c then i * block_delta (zlen c) F_sparse_blocks else 0)
        + i * blocks_delta bs (F_sparse_blocks_cardinalities i))).
  2:{ intros i _. rewrite blocks_delta_cons. cbn [block_delta snd]. rewrite Z.mul_add_distr_l. f_equal. rewrite (Z.eqb_sym i).
      destruct (Z.eqb_spec (zlen c) i); rewrite ?andb_true_r, ?andb_false_r; lia. }
  rewrite !total_add, !total_indicator, I2, I3. cbn [block_delta].
  card_cases (zlen c); destruct (Z.leb_spec 1 (zlen c)), (Z.ltb_spec (zlen c) (1 + Z.of_nat 30)); cbn [andb]; try lia.
  all: repeat split; lia.
Qed.

Lemma chunk_accounts id c : wfc1 (id, c) ->
  accounts (fun g => chunk_delta c g + match g with F_integers => zlen c | _ => 0 end).
Proof.
  intro W. pose proof (blocks_wf _ _ W) as [_ WB]. pose proof (blocks_count _ _ W) as NB.
  destruct (block_acc_ok _ WB) as (I1 & I2 & I3 & I4 & I5).
  rewrite <- (sum_card_ungroup 256), blocks_ungroup in I1.
  pose proof (blocks_delta_count _ (blocks_wf _ _ W)) as I6.
  unfold chunk_delta. destruct (kind_of c) eqn:K.
  - constructor; rewrite ?Z.add_0_r; try lia.
    + rewrite (total_ext _ _ (fun i => blocks_delta (blocks_of c) (F_sparse_blocks_cardinalities i))) by (intros; lia). exact I2.
    + rewrite (total_ext _ _ (fun i => i * blocks_delta (blocks_of c) (F_sparse_blocks_cardinalities i))) by (intros; lia). exact I3.
    + rewrite (total_ext _ _ (fun i => if i =? zlen (blocks_of c) then 1 else 0)) by (intros; lia).
      rewrite (total_indicator (fun _ => 1)). destruct (Z.leb_spec 1 (zlen (blocks_of c))), (Z.ltb_spec (zlen (blocks_of c)) (1 + Z.of_nat 256)); cbn [andb]; lia.
    + rewrite (total_ext _ _ (fun i => if i =? zlen (blocks_of c) then i else 0))
        by (intros i _; destruct (i =? zlen (blocks_of c)); lia).
      rewrite (total_indicator (fun i => i)). destruct (Z.leb_spec 1 (zlen (blocks_of c))), (Z.ltb_spec (zlen (blocks_of c)) (1 + Z.of_nat 256)); cbn [andb]; lia.
    + rewrite (total_ext _ _ (fun i => if i =? zlen (blocks_of c) then zlen c else 0)) by (intros; lia).
      rewrite (total_indicator (fun _ => zlen c)). destruct (Z.leb_spec 1 (zlen (blocks_of c))), (Z.ltb_spec (zlen (blocks_of c)) (1 + Z.of_nat 256)); cbn [andb]; lia.
  - constructor; rewrite ?Z.add_0_r; try lia.
    all: apply total_zero; intros; lia.
  - assert (zlen c = 65536).
    { rewrite (kind_full _ _ W K), zlen_zrange. apply Z2Nat.id. lia. }
    constructor; rewrite ?Z.add_0_r; try lia.
    all: apply total_zero; intros; lia.
Qed.

Lemma delta_accounts S : valid S -> accounts (delta S).
Proof.
  intro V. destruct (valid_chunks S V) as ((_ & W) & _ & _ & SC & _).
  apply (accounts_ext (fun g => (fun g => total (fun ch => chunk_delta (snd ch) g
     + match g with F_integers => zlen (snd ch) | _ => 0 end) (chunks_of S)) g
     + match g with F_sequences => 1 | F_chunks => n_chunks S | F_empty_chunks => n_chunks S - zlen (chunks_of S)
       | F_chunks_header_bits => 64 * zlen (chunks_of S) + 16 + 64 * (zlen (chunks_of S) / 32) | _ => 0 end)).
  - intro g. unfold delta, seq_delta. rewrite total_add, chunks_delta_total.
    destruct g; rewrite ?total_0; try lia.
    change (total (fun x => zlen (snd x)) (chunks_of S)) with (sum_card (chunks_of S)). lia.
  - apply accounts_add.
    + apply (accounts_total _ (fun ch g => chunk_delta (snd ch) g + match g with F_integers => zlen (snd ch) | _ => 0 end)).
      eapply Forall_impl; [|exact W]. intros [id c] Hc. apply (chunk_accounts id). exact Hc.
    + constructor; try reflexivity.
      all: apply total_zero; intros; lia.
Qed.

(** every non-empty chunk has one kind *)
Lemma kinds_count cs :
  chunks_delta cs F_sparse_chunks + chunks_delta cs F_dense_chunks + chunks_delta cs F_full_chunks = zlen cs
  /\ chunks_delta cs F_integers = 0 /\ chunks_delta cs F_chunks = 0 /\ chunks_delta cs F_empty_chunks = 0
  /\ chunks_delta cs F_sequences = 0.
Proof.
  induction cs as [|[id c] cs IH]; [repeat split|]. rewrite !chunks_delta_cons, zlen_cons. cbn [snd].
  unfold chunk_delta. destruct (kind_of c); lia.
Qed.

Lemma filter_all (f : Z -> bool) l : (forall x, In x l -> f x = true) -> filter f l = l.
Proof.
  induction l as [|x l IH]; intro H; cbn [filter]; auto. rewrite (H x (in_eq _ _)). f_equal. apply IH.
  intros. apply H. now right.
Qed.

(** *** counting chunks by their values *)
Lemma chunk_filter g h c : wfc g -> In (h, c) g ->
  filter (fun v => v / 65536 =? h) (ungroup 65536 g) = ungroup1 65536 (h, c).
Proof.
  intros W Hi. apply in_split in Hi as (p & q & ->). rewrite ungroup_app, ungroup_cons, !filter_app.
  apply wf_app in W as Wx. destruct Wx as [W1 W2].
  assert (F1 : filter (fun v => v / 65536 =? h) (ungroup 65536 p) = []).
  { apply filter_none. intros x Hx. apply (In_ungroup_id 65536 65535) in Hx; auto; [|lia].
    apply in_map_iff in Hx as (ch & E & Hch). pose proof (wf_app_lt _ _ _ _ _ _ W Hch (in_eq _ _)) as L.
    cbn [fst] in L. apply Z.eqb_neq. lia. }
  apply wf_cons in W2 as (W2 & W3 & W4).
  assert (F2 : filter (fun v => v / 65536 =? h) (ungroup 65536 q) = []).
  { apply filter_none. intros x Hx. apply (In_ungroup_id 65536 65535) in Hx; auto; [|lia].
    apply in_map_iff in Hx as (ch & E & Hch). rewrite Forall_forall in W4. specialize (W4 _ Hch).
    cbn [fst] in W4. apply Z.eqb_neq. lia. }
  rewrite F1, F2, app_nil_r. cbn [app]. apply filter_all.
  intros x Hx. apply (In_ungroup1 65536 65535) in Hx; auto; [|lia]. cbn [fst] in Hx. apply Z.eqb_eq. lia.
Qed.

Lemma in_ch_some S h c : valid S -> In (h, c) (chunks_of S) -> zlen (in_ch S h) = zlen c.
Proof.
  intros V Hi. destruct (valid_chunks S V) as (W & _ & U & _). unfold in_ch. rewrite <- U at 1.
  rewrite (chunk_filter _ h c) by auto. apply zlen_ungroup1.
Qed.
Lemma in_ch_none S h : valid S -> ~ In h (map fst (chunks_of S)) -> in_ch S h = [].
Proof.
  intros V Hi. destruct (valid_chunks S V) as (W & _ & U & _). unfold in_ch. apply filter_none.
  intros x Hx. apply Z.eqb_neq. intro E. apply Hi. rewrite <- E.
  apply (In_ungroup_id 65536 65535); auto; [lia|]. rewrite U. exact Hx.
Qed.
Lemma ids_range S h : valid S -> In h (map fst (chunks_of S)) -> 0 <= h < n_chunks S.
Proof.
  intros V Hi. destruct (valid_chunks S V) as (W & _ & U & _).
  apply in_map_iff in Hi as ([h' c] & <- & Hc). cbn [fst].
  assert (R : 0 <= h') by (destruct W as [_ W]; rewrite Forall_forall in W; apply (W _ Hc)).
  split; auto. unfold n_chunks.
  destruct V as (N & Hs & _). pose proof (last_max _ _ _ Hs (last_znth S N)) as M. rewrite Forall_forall in M.
  assert (WC : wfc1 (h', c)) by (destruct W as [_ W]; rewrite Forall_forall in W; apply (W _ Hc)).
  destruct c as [|x c]; [destruct WC as (_ & WC & _); easy|].
  assert (Hx : In (h' * 65536 + x) S).
  { rewrite <- U. unfold ungroup. apply in_flat_map. exists (h', x :: c). split; auto. now left. }
  destruct WC as (_ & _ & _ & WC). cbn [snd] in WC. inversion WC; subst.
  specialize (M _ Hx). assert (h' <= last S 0 / 65536); [|lia].
  apply Z.div_le_lower_bound; lia.
Qed.

Lemma map_fst_sorted cs : wfc cs -> sorted (map fst cs).
Proof. intros [H _]. exact H. Qed.

Lemma count_ch_pos P S : valid S -> P 0 = false ->
  count_ch P S = zlen (filter (fun ch => P (zlen (snd ch))) (chunks_of S)).
Proof.
  intros V P0. destruct (valid_chunks S V) as (W & _ & U & _). unfold count_ch.
  rewrite <- (zlen_map _ _ fst (filter _ (chunks_of S))). f_equal. apply sorted_ext.
  - apply sorted_filter, sorted_zrange.
  - clear -W. induction (chunks_of S) as [|ch cs IH]; [apply sorted_nil|].
    apply wf_cons in W as (W1 & W2 & W3). specialize (IH W2). cbn [filter].
    destruct (P (zlen (snd ch))); auto. cbn [map]. apply sorted_cons; auto.
    apply Forall_forall. intros x Hx. apply in_map_iff in Hx as (b & <- & Hb).
    apply filter_In in Hb as [Hb _]. rewrite Forall_forall in W3. auto.
  - intro h. rewrite filter_In, in_map_iff. split.
    + intros [Hh HP]. destruct (in_dec Z.eq_dec h (map fst (chunks_of S))) as [Hi|Hi].
      * apply in_map_iff in Hi as ([h' c] & E & Hc). cbn [fst] in E. subst h'.
        exists (h, c). split; auto. apply filter_In. split; auto. cbn [snd]. now rewrite <- (in_ch_some S h c).
      * rewrite in_ch_none in HP by auto. change (zlen (@nil Z)) with 0 in HP. congruence.
    + intros ([h' c] & E & Hc). cbn [fst] in E. subst h'. apply filter_In in Hc as [Hc HP]. cbn [snd] in HP.
      split; [|now rewrite (in_ch_some S h c)].
      assert (In h (map fst (chunks_of S))) as Hi by (apply in_map_iff; exists (h, c); auto).
      apply (ids_range S h V) in Hi. apply In_zrange. unfold n_chunks in Hi. rewrite Z2Nat.id; lia.
Qed.

Lemma filter_compl (f : Z -> bool) l : zlen (filter f l) + zlen (filter (fun x => negb (f x)) l) = zlen l.
Proof. induction l as [|x l IH]; auto. cbn [filter]. destruct (f x); cbn [negb]; rewrite !zlen_cons; lia. Qed.

Lemma n_chunks_pos S : valid S -> 0 < n_chunks S.
Proof.
  intro V. destruct (valid_chunks S V) as (W & N & _). destruct (chunks_of S) as [|[h c] cs] eqn:E; [easy|].
  pose proof (ids_range S h V). rewrite E in H. cbn [map] in H. specialize (H (in_eq _ _)). lia.
Qed.

Lemma empty_count S : valid S -> count_ch (fun n => n =? 0) S = n_chunks S - zlen (chunks_of S).
Proof.
  intro V. pose proof (n_chunks_pos S V).
  pose proof (count_ch_pos (fun n => negb (n =? 0)) S V eq_refl) as E.
  unfold count_ch in *. pose proof (filter_compl (fun h => zlen (in_ch S h) =? 0)
    (zrange 0 (Z.to_nat (last S 0 / 65536 + 1)))) as C. cbn beta in E.
  rewrite zlen_zrange in C. unfold n_chunks in *. rewrite Z2Nat.id in C by lia.
  assert (F : filter (fun ch : Z * list Z => negb (zlen (snd ch) =? 0)) (chunks_of S) = chunks_of S).
  { destruct (valid_chunks S V) as ((_ & W) & _). clear -W. induction W as [|[h c] cs W1 W2 IH]; auto.
    cbn [filter snd]. apply wf1_zlen in W1; [|lia]. cbn [snd] in W1.
    destruct (Z.eqb_spec (zlen c) 0); [lia|]. cbn [negb]. now rewrite IH. }
  rewrite F in E. lia.
Qed.
Lemma full_count S : valid S -> count_ch (fun n => n =? 65536) S = chunks_delta (chunks_of S) F_full_chunks.
Proof.
  intro V. rewrite (count_ch_pos _ S V eq_refl). induction (chunks_of S) as [|[h c] cs IH]; auto.
  rewrite chunks_delta_cons. cbn [filter snd]. unfold chunk_delta, kind_of.
  destruct (Z.eqb_spec (zlen c) 65536) as [E|E].
  - rewrite zlen_cons, IH. destruct (Z.ltb_spec (zlen c) 32768); lia.
  - rewrite IH. destruct (zlen c <? 32768); [destruct (8192 <=? _); lia|lia].
Qed.
(** chunks with at least 32768 values, not full, are dense *)
Lemma dense_count S : valid S ->
  count_ch (fun n => (32768 <=? n) && (n <? 65536)) S <= chunks_delta (chunks_of S) F_dense_chunks.
Proof.
  intro V. rewrite (count_ch_pos _ S V eq_refl). induction (chunks_of S) as [|[h c] cs IH]; [cbn; lia|].
  rewrite chunks_delta_cons. cbn [filter snd]. unfold chunk_delta, kind_of.
  destruct (Z.leb_spec 32768 (zlen c)), (Z.ltb_spec (zlen c) 65536), (Z.ltb_spec (zlen c) 32768),
    (Z.eqb_spec (zlen c) 65536); cbn [andb]; rewrite ?zlen_cons; try lia.
  all: destruct (8192 <=? _); lia.
Qed.
