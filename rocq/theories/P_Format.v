(** The builder writes the bytes of Format.v. *)
From Verif Require Import Base Hw Spec Format Lib L_Bits L_Group Layout M_Util M_Build
  P_Build1 P_Build2 P_Build3 P_Seq P_Sets M_Index P_Index P_Stats.
From Coq Require Import Lia Sorted.

Lemma memb_existsb V x : existsb (Z.eqb x) V = memb V x.
Proof. reflexivity. Qed.

(** ** grouping *)
Lemma part_filter k lim g h c : 0 < k -> wf k lim g -> In (h, c) g ->
  filter (fun v => v / k =? h) (ungroup k g) = ungroup1 k (h, c).
Proof.
  intros K W Hi. apply in_split in Hi as (p & q & ->). rewrite ungroup_app, ungroup_cons, !filter_app.
  apply wf_app in W as Wx. destruct Wx as [W1 W2].
  assert (F1 : filter (fun v => v / k =? h) (ungroup k p) = []).
  { apply filter_none. intros x Hx. apply (In_ungroup_id k lim) in Hx; auto.
    apply in_map_iff in Hx as (ch & E & Hch). pose proof (wf_app_lt _ _ _ _ _ _ W Hch (in_eq _ _)) as L.
    cbn [fst] in L. apply Z.eqb_neq. lia. }
  apply wf_cons in W2 as (W2 & W3 & W4).
  assert (F2 : filter (fun v => v / k =? h) (ungroup k q) = []).
  { apply filter_none. intros x Hx. apply (In_ungroup_id k lim) in Hx; auto.
    apply in_map_iff in Hx as (ch & E & Hch). rewrite Forall_forall in W4. specialize (W4 _ Hch).
    cbn [fst] in W4. apply Z.eqb_neq. lia. }
  rewrite F1, F2, app_nil_r. cbn [app]. apply filter_all.
  intros x Hx. apply (In_ungroup1 k lim) in Hx; auto. cbn [fst] in Hx. apply Z.eqb_eq. symmetry. apply Hx.
Qed.
Lemma mod_ungroup1 k lim h c : 0 < k -> wf1 k lim (h, c) -> map (fun v => v mod k) (ungroup1 k (h, c)) = c.
Proof.
  intros K (_ & _ & _ & R). cbn [snd] in R. unfold ungroup1. cbn [fst snd]. rewrite map_map.
  rewrite <- (map_id c) at 2. apply map_ext_in. intros x Hx. rewrite Forall_forall in R. specialize (R x Hx).
  rewrite Z.add_comm, Z.mod_add, Z.mod_small; lia.
Qed.
Lemma ids_group k n S : 0 < k -> wf k (Z.of_nat n) (group k S) -> map fst (group k S) = ids k n S.
Proof.
  intros K W. apply sorted_ext.
  - apply W.
  - apply sorted_filter, sorted_zrange.
  - intro h. unfold ids. rewrite filter_In, In_zrange, existsb_exists. split.
    + intro Hi. apply in_map_iff in Hi as ([h' c] & <- & Hc). cbn [fst].
      destruct W as [_ W]. rewrite Forall_forall in W. specialize (W _ Hc).
      destruct W as (W1 & W2 & W3 & W4). cbn [fst snd] in *. split; [lia|].
      destruct c as [|x c]; [easy|]. exists (h' * k + x). split.
      * rewrite <- (ungroup_group k S K). unfold ungroup. apply in_flat_map. exists (h', x :: c). split; auto.
        now left.
      * rewrite Forall_forall in W4. specialize (W4 x (in_eq _ _)). apply Z.eqb_eq.
        rewrite Z.div_add_l by lia. rewrite Z.div_small; lia.
    + intros [R (v & Hv & E)]. apply Z.eqb_eq in E. subst h.
      apply (In_ungroup_id k (Z.of_nat n)); auto. now rewrite ungroup_group.
Qed.
Lemma group_parts k n S : 0 < k -> wf k (Z.of_nat n) (group k S) ->
  group k S = map (fun h => (h, part k S h)) (ids k n S).
Proof.
  intros K W. rewrite <- (ids_group k n S K W), map_map.
  rewrite <- (map_id (group k S)) at 1. apply map_ext_in. intros [h c] Hi. cbn [fst]. f_equal.
  unfold part. rewrite <- (ungroup_group k S K) at 1. rewrite (part_filter k (Z.of_nat n) _ h c) by auto.
  symmetry. eapply mod_ungroup1; eauto. destruct W as [_ W]. rewrite Forall_forall in W. now apply W.
Qed.

(** ** bitmaps *)
Lemma byte_total b : 0 <= b < 256 ->
  b = total (fun i => if Z.testbit b i then 2 ^ i else 0) (zrange 0 8).
Proof.
  intro H.
  assert (A : forallb (fun b => b =? total (fun i => if Z.testbit b i then 2 ^ i else 0) (zrange 0 8))
                (zrange 0 256) = true) by (vm_compute; reflexivity).
  rewrite forallb_forall in A. specialize (A b). rewrite In_zrange in A. apply Z.eqb_eq, A. lia.
Qed.
Lemma word_byte vs i k : 0 <= k < 8 ->
  (word_of vs i / 2 ^ (8 * k)) mod 256 = bitmap_byte vs (8 * i + k).
Proof.
  intro Hk. pose proof (Z.mod_pos_bound (word_of vs i / 2 ^ (8 * k)) 256 ltac:(lia)) as R.
  rewrite (byte_total _ R). unfold bitmap_byte. apply total_ext. intros j Hj. apply In_zrange in Hj.
  change 256 with (2 ^ 8). rewrite Z.mod_pow2_bits_low by lia. rewrite Z.div_pow2_bits by lia.
  rewrite word_of_testbit by lia. rewrite memb_existsb.
  now replace (64 * i + (j + 8 * k)) with (8 * (8 * i + k) + j) by lia.
Qed.
Lemma le_bytes_map n : forall w s, 0 <= s ->
  le_bytes n (w / 2 ^ (8 * s)) = map (fun k => (w / 2 ^ (8 * k)) mod 256) (zrange s n).
Proof.
  induction n as [|n IH]; intros w s Hs; auto. cbn [le_bytes zrange map]. f_equal.
  rewrite <- (IH w (s + 1)) by lia. f_equal.
  rewrite Z.div_div by (try apply Z.pow_nonzero; lia). f_equal. replace (8 * (s + 1)) with (8 * s + 8) by lia.
  rewrite Z.pow_add_r by lia. reflexivity.
Qed.
Lemma zrange_shift a n : forall i, zrange (a + i) n = map (fun k => a + k) (zrange i n).
Proof.
  induction n as [|n IH]; intro i; auto. cbn [zrange map]. f_equal. rewrite <- IH. f_equal. lia.
Qed.
Lemma word_bytes vs i : le_bytes 8 (word_of vs i) = map (bitmap_byte vs) (zrange (8 * i) 8).
Proof.
  rewrite <- (Z.div_1_r (word_of vs i)). change 1 with (2 ^ (8 * 0)). rewrite le_bytes_map by lia.
  rewrite <- (Z.add_0_r (8 * i)), zrange_shift, map_map. apply map_ext_in. intros k Hk. apply In_zrange in Hk.
  rewrite word_byte by lia. reflexivity.
Qed.
Lemma zrange_app n m : forall i, zrange i (n + m) = zrange i n ++ zrange (i + Z.of_nat n) m.
Proof.
  induction n as [|n IH]; intro i; [now rewrite Z.add_0_r|]. cbn [Nat.add zrange app]. f_equal. rewrite IH.
  do 2 f_equal. lia.
Qed.
Lemma bitmap_words_bytes vs n : forall i,
  flat_map (le_bytes 8) (map (word_of vs) (zrange i n)) = map (bitmap_byte vs) (zrange (8 * i) (8 * n)).
Proof.
  induction n as [|n IH]; intro i; [reflexivity|].
  replace (8 * S n)%nat with (8 + 8 * n)%nat by lia. rewrite zrange_app, map_app.
  cbn [zrange map flat_map]. rewrite word_bytes, IH. do 2 f_equal. f_equal. lia.
Qed.
Lemma bitmap_format vs n m : m = (8 * n)%nat -> bytes_of_u64s (bitmap_words n vs) = bitmap_bytes m vs.
Proof. intros ->. apply (bitmap_words_bytes vs n 0). Qed.

(** ** blocks and chunks *)
Lemma block_format vs : block_data vs = f_block vs.
Proof. unfold block_data, f_block. destruct (zlen vs <? 31); auto. now apply bitmap_format. Qed.
Lemma blocks_format id c : wfc1 (id, c) ->
  blocks_of c = map (fun b => (b, part 256 c b)) (ids 256 256 c).
Proof. intro W. apply group_parts; [lia|]. exact (blocks_wf id c W). Qed.
Lemma sparse_format id c : wfc1 (id, c) -> sparse_data c = f_blocks c.
Proof.
  intro W. unfold sparse_data, f_blocks, hdrs, datas. rewrite (blocks_format id c W).
  rewrite !flat_map_concat_map, !map_map. f_equal. f_equal. apply map_ext. intro b. apply block_format.
Qed.
Lemma chunk_format id c : wfc1 (id, c) -> (chunk_type c, chunk_data c) = f_chunk c.
Proof.
  intro W. unfold chunk_type, chunk_data, kind_of, f_chunk. rewrite (sparse_format id c W).
  rewrite (blocks_format id c W), zlen_map. rewrite (bitmap_format c _ (Z.to_nat 8192)) by lia.
  destruct (Z.ltb_spec (zlen c) 32768), (Z.eqb_spec (zlen c) 65536), (Z.leb_spec 32768 (zlen c)); try lia; auto.
  cbn [orb]. destruct (8192 <=? zlen (f_blocks c)); auto.
Qed.
Lemma le2_le16 v : 0 <= v < 65536 -> le_bytes 2 v = le16 v.
Proof.
  intro H. cbn [le_bytes]. unfold le16. do 2 f_equal. apply Z.mod_small.
  split; [apply Z.div_pos; lia|apply Z.div_lt_upper_bound; lia].
Qed.
Lemma le4_le32 v : 0 <= v < 4294967296 -> le_bytes 4 v = le32 v.
Proof.
  intro H. cbn [le_bytes]. unfold le32. rewrite !Z.div_div by lia. do 4 f_equal. apply Z.mod_small.
  split; [apply Z.div_pos; lia|apply Z.div_lt_upper_bound; lia].
Qed.

Lemma chunks_format S : valid S ->
  chunks_of S = map (fun h => (h, part 65536 S h)) (ids 65536 (Z.to_nat 65536) S).
Proof.
  intro V. destruct (valid_chunks S V) as ([W1 W2] & _). apply group_parts; [lia|]. split; auto.
  eapply Forall_impl; [|exact W2]. intros [h c] (A & B & C & D). cbn [fst snd] in *.
  split; [|auto]. cbn [fst]. rewrite Z2Nat.id; lia.
Qed.

Lemma ptrs_format (f : Z -> Z * list Z) hs n : forall i, 0 <= i ->
  ptrs n (map f (skipn (Z.to_nat (32 * i)) hs))
  = flat_map (fun g => let run := firstn 32 (skipn (Z.to_nat (32 * g)) hs) in
       le_bytes 4 (sum_card (map f run)) ++ le_bytes 4 (zlen (cdatas (map f run)))) (zrange i n).
Proof.
  induction n as [|n IH]; intros i Hi; auto. cbn [ptrs zrange flat_map]. cbv zeta.
  rewrite firstn_map, skipn_map, <- app_assoc. f_equal. f_equal.
  rewrite <- IH by lia. do 2 f_equal.
  replace (Z.to_nat (32 * (i + 1))) with (32 + Z.to_nat (32 * i))%nat by lia.
  generalize (Z.to_nat (32 * i)) as k. intro k. clear. revert hs.
  induction k as [|k IH]; intro hs; [now rewrite Nat.add_0_r|].
  rewrite <- plus_n_Sm. destruct hs as [|h hs]; [now rewrite !skipn_nil|]. cbn [skipn]. apply IH.
Qed.
Lemma flat_map_ext_in {A B} (f g : A -> list B) l : (forall x, In x l -> f x = g x) -> flat_map f l = flat_map g l.
Proof. intro H. rewrite !flat_map_concat_map. f_equal. now apply map_ext_in. Qed.
Lemma total_bound A (f : A -> Z) M l : (forall x, In x l -> 0 <= f x <= M) -> 0 <= total f l <= M * zlen l.
Proof.
  induction l as [|x l IH]; intro H; [cbn; lia|]. rewrite total_cons, zlen_cons.
  pose proof (H x (in_eq _ _)). specialize (IH (fun y Hy => H y (in_cons _ _ _ Hy))). lia.
Qed.
Lemma sum_card_total cs : sum_card cs = total (fun ch => zlen (snd ch)) cs.
Proof. reflexivity. Qed.
Lemma cdatas_total cs : zlen (cdatas cs) = total (fun ch => zlen (chunk_data (snd ch))) cs.
Proof. induction cs as [|c cs IH]; auto. rewrite cdatas_cons, zlen_app, IH. reflexivity. Qed.
Lemma total_map A B (f : A -> B) (g : B -> Z) l : total g (map f l) = total (fun x => g (f x)) l.
Proof. induction l as [|x l IH]; auto. cbn [map]. now rewrite !total_cons, IH. Qed.

Lemma in_run A (x : A) n m l : In x (firstn n (skipn m l)) -> In x l.
Proof.
  intro H. rewrite <- (firstn_skipn m l). apply in_or_app. right.
  rewrite <- (firstn_skipn n (skipn m l)). apply in_or_app. now left.
Qed.

Lemma zlen_ids k n S : zlen (ids k n S) <= Z.of_nat n.
Proof.
  unfold ids. pose proof (filter_compl (fun h => existsb (fun v => v / k =? h) S) (zrange 0 n)) as F.
  rewrite zlen_zrange in F.
  pose proof (zlen_nonneg _ (filter (fun x => negb (existsb (fun v => v / k =? x) S)) (zrange 0 n))). lia.
Qed.
Definition f_layout (chunks : list Z) (C : Z -> list Z) : list Z :=
  le16 (zlen chunks - 1)
  ++ flat_map (fun g => let run := firstn 32 (skipn (Z.to_nat (32 * g)) chunks) in
       le32 (total (fun h => zlen (C h)) run) ++ le32 (total (fun h => zlen (snd (f_chunk (C h)))) run))
       (zrange 0 (Z.to_nat (zlen chunks / 32)))
  ++ flat_map (fun h => le16 h ++ le16 (zlen (C h) - 1) ++ le16 (fst (f_chunk (C h)))
                        ++ le16 (zlen (snd (f_chunk (C h))))) chunks
  ++ flat_map (fun h => snd (f_chunk (C h))) chunks.
Lemma layout_gen hs C : (forall h, In h hs -> wfc1 (h, C h)) -> 1 <= zlen hs <= 65536 ->
  layout (map (fun h => (h, C h)) hs) = f_layout hs C.
Proof.
  intros WC LH.
  assert (B1 : forall h, In h hs -> 1 <= zlen (C h) <= 65536) by (intros h Hh; exact (chunk_card _ _ (WC h Hh))).
  assert (CD : forall h, In h hs -> chunk_type (C h) = fst (f_chunk (C h)) /\ chunk_data (C h) = snd (f_chunk (C h))).
  { intros h Hh. rewrite <- (chunk_format _ _ (WC h Hh)). auto. }
  assert (B2 : forall h, In h hs -> 0 <= zlen (snd (f_chunk (C h))) <= 8192).
  { intros h Hh. rewrite <- (proj2 (CD h Hh)). split; [apply zlen_nonneg|]. exact (zlen_chunk_data _ _ (WC h Hh)). }
  assert (B3 : forall h, In h hs -> 0 <= fst (f_chunk (C h)) < 65536).
  { intros h Hh. rewrite <- (proj1 (CD h Hh)). pose proof (blocks_count _ _ (WC h Hh)).
    unfold chunk_type. destruct (kind_of (C h)); lia. }
  unfold layout, f_layout. rewrite !zlen_map. rewrite le2_le16 by lia. f_equal. f_equal; [|f_equal].
  - pose proof (ptrs_format (fun h => (h, C h)) hs (Z.to_nat (zlen hs / 32)) 0 ltac:(lia)) as P.
    change (skipn (Z.to_nat (32 * 0)) hs) with hs in P. rewrite P. apply flat_map_ext_in.
    intros g _. cbv beta zeta. set (run := firstn 32 (skipn (Z.to_nat (32 * g)) hs)).
    assert (IR : forall h, In h run -> In h hs) by (intros h Hh; eapply in_run; exact Hh).
    assert (LR : 0 <= zlen run <= 32).
    { unfold run, zlen. rewrite firstn_length. lia. }
    rewrite sum_card_total, cdatas_total, !total_map. cbn [snd].
    rewrite (total_ext _ (fun h => zlen (chunk_data (C h))) (fun h => zlen (snd (f_chunk (C h)))) run)
      by (intros h Hh; now rewrite (proj2 (CD h (IR h Hh)))).
    pose proof (total_bound _ (fun h => zlen (C h)) 65536 run) as T1.
    pose proof (total_bound _ (fun h => zlen (snd (f_chunk (C h)))) 8192 run) as T2.
    rewrite !le4_le32; auto.
    + assert (0 <= total (fun h => zlen (snd (f_chunk (C h)))) run <= 8192 * zlen run) by (apply T2; auto). lia.
    + assert (0 <= total (fun h => zlen (C h)) run <= 65536 * zlen run).
      { apply T1. intros h Hh. specialize (B1 h (IR h Hh)). lia. } lia.
  - unfold bytes_of_u16s, chdrs. rewrite (flat_map_concat_map chunk_hdr), map_map.
    clear -WC B1 B2 B3 CD. induction hs as [|h hs IH]; auto. cbn [map concat flat_map].
    rewrite flat_map_app, IH; auto; try (intros; first [apply WC|apply B1|apply B2|apply B3|apply CD]; now right).
    f_equal. destruct (CD h (in_eq _ _)) as [C1 C2].
    destruct (WC h (in_eq _ _)) as (R & _). cbn [fst] in R.
    specialize (B1 h (in_eq _ _)). specialize (B2 h (in_eq _ _)). specialize (B3 h (in_eq _ _)).
    unfold chunk_hdr. cbn [fst snd flat_map]. rewrite C1, C2. rewrite !le2_le16 by lia.
    now rewrite app_nil_r.
  - unfold cdatas. rewrite flat_map_concat_map, map_map, <- flat_map_concat_map.
    apply flat_map_ext_in. intros h Hh. cbn [snd]. apply (CD h Hh).
Qed.

Lemma layout_format S : valid S -> layout (chunks_of S) = f_sequence S.
Proof.
  intro V. pose proof (chunks_format S V) as E. destruct (valid_chunks S V) as ([_ W] & NE & _).
  pose proof (zlen_ids 65536 (Z.to_nat 65536) S) as F. rewrite Z2Nat.id in F by lia.
  change (f_sequence S) with (f_layout (ids 65536 (Z.to_nat 65536) S) (part 65536 S)).
  generalize dependent (ids 65536 (Z.to_nat 65536) S). intros hs E F.
  rewrite E in W, NE |- *. apply layout_gen.
  - intros h Hh. rewrite Forall_forall in W. apply W. apply in_map_iff. eauto.
  - split; auto. destruct hs as [|h hs']; [exfalso; apply NE; reflexivity|]. rewrite zlen_cons.
    pose proof (zlen_nonneg _ hs'). lia.
Qed.
Lemma c25_format : forall dbg out S, valid S ->
  exists stats, builder_build dbg out S = (Ok stats, out ++ f_sequence S).
Proof.
  intros dbg out S V. destruct (builder_ok dbg out S V) as (st & m & _ & E & _).
  exists st. rewrite <- layout_format; auto.
Qed.

(** ** sizes *)
Lemma card_part k S h : zlen (part k S h) = card k S h.
Proof. unfold part, card. apply zlen_map. Qed.
Lemma card_cons k v S h : card k (v :: S) h = (if v / k =? h then 1 else 0) + card k S h.
Proof. unfold card. cbn [filter]. destruct (v / k =? h); [rewrite zlen_cons|]; lia. Qed.
Lemma part_cons k v S h : part k (v :: S) h = if v / k =? h then v mod k :: part k S h else part k S h.
Proof. unfold part. cbn [filter]. destruct (v / k =? h); reflexivity. Qed.
Lemma sub_block v h b : 0 <= b < 256 ->
  (v / 256 =? 256 * h + b) = (v / 65536 =? h) && (v mod 65536 / 256 =? b).
Proof.
  intro Hb. pose proof (Z.div_mod v 65536 ltac:(lia)). pose proof (Z.mod_pos_bound v 65536 ltac:(lia)).
  set (q := v / 65536) in *. set (r := v mod 65536) in *.
  assert (E : v / 256 = 256 * q + r / 256).
  { replace v with (256 * q * 256 + r) by lia. rewrite Z.div_add_l by lia. reflexivity. }
  assert (0 <= r / 256 < 256) by (split; [apply Z.div_pos; lia|apply Z.div_lt_upper_bound; lia]).
  rewrite E. destruct (Z.eqb_spec q h), (Z.eqb_spec (r / 256) b), (Z.eqb_spec (256 * q + r / 256) (256 * h + b));
    cbn [andb]; auto; lia.
Qed.
Lemma card_sub S h b : 0 <= b < 256 -> card 256 (part 65536 S h) b = card 256 S (256 * h + b).
Proof.
  intro Hb. induction S as [|v S IH]; auto. rewrite part_cons, (card_cons _ v), sub_block by auto.
  destruct (v / 65536 =? h); cbn [andb]; [rewrite card_cons|]; lia.
Qed.
Lemma card_nonneg k S h : 0 <= card k S h.
Proof. apply zlen_nonneg. Qed.
Lemma card_ids k n S h : card k S h <> 0 -> 0 <= h < Z.of_nat n -> In h (ids k n S).
Proof.
  intros H R. unfold ids. apply filter_In. split; [apply In_zrange; lia|]. apply existsb_exists.
  unfold card in H. destruct (filter (fun v => v / k =? h) S) as [|v l] eqn:E; [easy|].
  exists v. apply (proj1 (filter_In (fun v => v / k =? h) v S)). rewrite E. now left.
Qed.
Lemma total_ids k n S (f : Z -> Z) : (forall h, card k S h = 0 -> f h = 0) ->
  total f (ids k n S) = total f (zrange 0 n).
Proof.
  intro H. unfold ids.
  assert (G : forall l, (forall h, In h l -> 0 <= h < Z.of_nat n) ->
     total f (filter (fun h => existsb (fun v => v / k =? h) S) l) = total f l); [|apply G].
  - induction l as [|h l IH]; intro R; auto. cbn [filter].
    destruct (existsb (fun v => v / k =? h) S) eqn:E; rewrite !total_cons, ?IH; auto;
      try (intros; apply R; now right).
    rewrite (H h); auto. destruct (Z.eq_dec (card k S h) 0) as [|N]; auto. exfalso.
    apply (card_ids _ n) in N; [|apply R; now left]. unfold ids in N. apply filter_In in N as [_ N]. congruence.
  - intros h Hh. apply In_zrange in Hh. lia.
Qed.
Lemma zlen_flat_map A B (f : A -> list B) l : zlen (flat_map f l) = total (fun x => zlen (f x)) l.
Proof. induction l as [|x l IH]; auto. cbn [flat_map]. now rewrite zlen_app, IH. Qed.
Lemma zlen_f_block V : zlen (f_block V) = if zlen V <? 31 then zlen V else 32.
Proof. unfold f_block. destruct (zlen V <? 31); reflexivity. Qed.
Lemma ids_card k n C b : In b (ids k n C) -> card k C b <> 0.
Proof.
  intro Hb. unfold ids in Hb. apply filter_In in Hb as [_ Hb]. apply existsb_exists in Hb as (v & Hv & E).
  unfold card. intro Z0. assert (I : In v (filter (fun v => v / k =? b) C)) by (apply filter_In; auto).
  destruct (filter (fun v => v / k =? b) C); [easy|]. rewrite zlen_cons in Z0. pose proof (zlen_nonneg _ l). lia.
Qed.
Lemma block_bytes V : zlen V <> 0 -> 2 + zlen (f_block V) = block_cost (zlen V).
Proof.
  intro N. rewrite zlen_f_block. unfold block_cost. destruct (Z.eqb_spec (zlen V) 0); [lia|].
  destruct (zlen V <? 31); lia.
Qed.
Lemma zlen_blocks_gen n C :
  zlen (flat_map (fun b => [b; zlen (part 256 C b) - 1]) (ids 256 n C)
        ++ flat_map (fun b => f_block (part 256 C b)) (ids 256 n C))
  = total (fun b => block_cost (card 256 C b)) (zrange 0 n).
Proof.
  rewrite <- (total_ids 256 n C) by (intros h E; rewrite E; reflexivity).
  rewrite zlen_app, !zlen_flat_map, <- total_add. apply total_ext. intros b Hb.
  apply ids_card in Hb. rewrite <- card_part in Hb |- *. rewrite <- block_bytes by auto. reflexivity.
Qed.
Lemma zlen_f_blocks C : zlen (f_blocks C) = total (fun b => block_cost (card 256 C b)) (zrange 0 256).
Proof. exact (zlen_blocks_gen 256 C). Qed.
Lemma blocks_cost_sub S h : zlen (f_blocks (part 65536 S h)) = blocks_cost S h.
Proof.
  rewrite zlen_f_blocks. unfold blocks_cost. apply total_ext. intros b Hb. apply In_zrange in Hb.
  rewrite card_sub by lia. reflexivity.
Qed.
Lemma zlen_f_chunk S h : zlen (snd (f_chunk (part 65536 S h))) = chunk_cost S h.
Proof.
  unfold f_chunk, chunk_cost. rewrite card_part, blocks_cost_sub.
  assert (BM : zlen (bitmap_bytes (Z.to_nat 8192) (part 65536 S h)) = 8192).
  { unfold bitmap_bytes. rewrite zlen_map, zlen_zrange. apply Z2Nat.id. lia. }
  destruct (card 65536 S h =? 65536); auto.
  destruct (Z.ltb_spec (card 65536 S h) 32768), (Z.leb_spec 32768 (card 65536 S h)); try lia; cbn [orb snd]; auto.
  destruct (Z.leb_spec 8192 (blocks_cost S h)); cbn [snd]; auto; [lia|]. rewrite blocks_cost_sub. lia.
Qed.
Lemma block_cost_bound n : 0 <= n -> 0 <= block_cost n <= 3 * n.
Proof. intro H. unfold block_cost. destruct (Z.eqb_spec n 0); [lia|]. destruct (Z.ltb_spec n 31); lia. Qed.
Lemma total_le A (f g : A -> Z) l : (forall x, In x l -> f x <= g x) -> total f l <= total g l.
Proof.
  induction l as [|x l IH]; intro H; [cbn; lia|]. rewrite !total_cons. pose proof (H x (in_eq _ _)).
  specialize (IH (fun y Hy => H y (in_cons _ _ _ Hy))). lia.
Qed.
Lemma total_cards S h : total (fun b => card 256 S (256 * h + b)) (zrange 0 256) = card 65536 S h.
Proof.
  induction S as [|v S IH]; [now apply total_zero|].
  rewrite (total_ext _ _ (fun b => (if v / 256 =? 256 * h + b then 1 else 0) + card 256 S (256 * h + b)))
    by (intros; apply card_cons).
  rewrite total_add, IH, card_cons. f_equal.
  rewrite (total_ext _ _ (fun b => if b =? v mod 65536 / 256 then (if v / 65536 =? h then 1 else 0) else 0)).
  - rewrite total_indicator. pose proof (Z.mod_pos_bound v 65536 ltac:(lia)).
    assert (0 <= v mod 65536 / 256 < 256) by (split; [apply Z.div_pos; lia|apply Z.div_lt_upper_bound; lia]).
    destruct (Z.leb_spec 0 (v mod 65536 / 256)); [|lia].
    destruct (Z.ltb_spec (v mod 65536 / 256) (0 + Z.of_nat 256)); [reflexivity|lia].
  - intros b Hb. apply In_zrange in Hb. rewrite sub_block by lia. rewrite (Z.eqb_sym b).
    destruct (v / 65536 =? h), (v mod 65536 / 256 =? b); reflexivity.
Qed.
Lemma chunk_cost_bound S h : 0 <= chunk_cost S h <= 8192 /\ chunk_cost S h <= 3 * card 65536 S h.
Proof.
  pose proof (card_nonneg 65536 S h).
  assert (B : 0 <= blocks_cost S h <= 3 * card 65536 S h).
  { unfold blocks_cost. split.
    - assert (L : total (fun _ => 0) (zrange 0 256) <= total (fun b => block_cost (card 256 S (256 * h + b))) (zrange 0 256)).
      { apply total_le. intros b _. apply block_cost_bound, card_nonneg. }
      now rewrite total_0 in L.
    - rewrite <- total_cards, <- total_scale. apply total_le. intros b _. apply block_cost_bound, card_nonneg. }
  unfold chunk_cost. destruct (Z.eqb_spec (card 65536 S h) 65536); [lia|].
  destruct (Z.ltb_spec (card 65536 S h) 32768); lia.
Qed.
Lemma total_card_all n S : (forall v, In v S -> 0 <= v / 65536 < Z.of_nat n) ->
  total (card 65536 S) (zrange 0 n) = zlen S.
Proof.
  induction S as [|v S IH]; intro H; [now apply total_zero|].
  rewrite (total_ext _ _ (fun h => (if h =? v / 65536 then 1 else 0) + card 65536 S h))
    by (intros; rewrite (Z.eqb_sym x); apply card_cons).
  rewrite total_add, IH by (intros; apply H; now right). rewrite zlen_cons.
  rewrite total_indicator. specialize (H v (in_eq _ _)).
  destruct (Z.leb_spec 0 (v / 65536)); [|lia]. destruct (Z.ltb_spec (v / 65536) (0 + Z.of_nat n)); [cbn [andb]; lia|lia].
Qed.

Lemma c25_size : forall dbg S enc, valid S -> encoding dbg S enc ->
  let c := zlen (ids 65536 (Z.to_nat 65536) S) in
  zlen enc = 2 + 8 * (c / 32) + 8 * c + total (chunk_cost S) (zrange 0 (Z.to_nat 65536))
  /\ (forall h, 0 <= chunk_cost S h <= 8192)
  /\ zlen enc <= 2 + 8 * (c / 32) + 8 * c + 8192 * c
  /\ zlen enc <= 2 + 8 * (c / 32) + 8 * c + 3 * zlen S.
Proof.
  intros dbg S enc V E c. rewrite (encoding_layout _ _ _ V E).
  assert (L : zlen (layout (chunks_of S)) = 2 + 8 * (c / 32) + 8 * c + total (chunk_cost S) (ids 65536 (Z.to_nat 65536) S)).
  { rewrite zlen_layout, cdatas_total. rewrite (chunks_format S V), zlen_map, total_map. fold c. f_equal.
    apply total_ext. intros h Hh. cbn [snd]. rewrite <- zlen_f_chunk.
    destruct (valid_chunks S V) as ([_ W] & _). rewrite Forall_forall in W.
    rewrite <- (chunk_format h); [reflexivity|]. apply W. rewrite (chunks_format S V). apply in_map_iff. eauto. }
  assert (Z0 : forall h, card 65536 S h = 0 -> chunk_cost S h = 0).
  { intros h H. pose proof (chunk_cost_bound S h). lia. }
  split; [rewrite L, total_ids by auto; reflexivity|]. split; [intro; apply chunk_cost_bound|]. split.
  - rewrite L. pose proof (total_bound _ (chunk_cost S) 8192 (ids 65536 (Z.to_nat 65536) S)) as B.
    fold c in B. specialize (B (fun h _ => proj1 (chunk_cost_bound S h))). lia.
  - rewrite L, total_ids by auto.
    rewrite <- (total_card_all (Z.to_nat 65536) S).
    + rewrite <- total_scale. apply Z.add_le_mono_l. apply total_le. intros h _. apply chunk_cost_bound.
    + intros v Hv. destruct V as (_ & _ & R). rewrite Forall_forall in R. specialize (R v Hv).
      rewrite Z2Nat.id by lia. split; [apply Z.div_pos; lia|apply Z.div_lt_upper_bound; lia].
Qed.

(** the choice of representation is not the smallest one: a chunk made of 128 complete blocks *)
Lemma filter_zrange_block n b : 0 <= b -> 256 * b + 256 <= Z.of_nat n ->
  filter (fun v => v / 256 =? b) (zrange 0 n) = zrange (256 * b) 256.
Proof.
  intros Hb Hn. apply sorted_ext; [apply sorted_filter, sorted_zrange|apply sorted_zrange|].
  intro x. rewrite filter_In, !In_zrange, Z.eqb_eq. split.
  - intros [_ <-]. pose proof (Z.div_mod x 256 ltac:(lia)). pose proof (Z.mod_pos_bound x 256 ltac:(lia)). lia.
  - intro H. split; [lia|]. symmetry. apply (Z.div_unique_pos x 256 b (x - 256 * b)); lia.
Qed.
Lemma filter_zrange_none n b : Z.of_nat n <= 256 * b -> filter (fun v => v / 256 =? b) (zrange 0 n) = [].
Proof.
  intros Hn. apply filter_none. intros x Hx. apply In_zrange in Hx. apply Z.eqb_neq. intro E.
  pose proof (Z.div_mod x 256 ltac:(lia)). pose proof (Z.mod_pos_bound x 256 ltac:(lia)). lia.
Qed.
Lemma card_zrange m n b : 0 <= b -> Z.of_nat n = 256 * m ->
  card 256 (zrange 0 n) b = if b <? m then 256 else 0.
Proof.
  intros Hb Hn. unfold card. destruct (Z.ltb_spec b m).
  - rewrite filter_zrange_block by lia. apply zlen_zrange.
  - rewrite filter_zrange_none by lia. reflexivity.
Qed.
Lemma one_chunk S : valid S -> Forall (fun v => v < 65536) S -> ids 65536 (Z.to_nat 65536) S = [0].
Proof.
  intros (N & _ & R) L. apply sorted_ext.
  - apply sorted_filter, sorted_zrange.
  - apply sorted_cons; [apply sorted_nil|constructor].
  - assert (D : forall v, In v S -> v / 65536 = 0).
    { intros v Hv. rewrite Forall_forall in R, L. specialize (R v Hv). specialize (L v Hv). apply Z.div_small. lia. }
    intro h. unfold ids. rewrite filter_In, In_zrange, existsb_exists. cbn [In]. split.
    + intros [_ (v & Hv & E)]. apply Z.eqb_eq in E. rewrite D in E; auto.
    + intros [<-|[]]. split; [lia|]. destruct S as [|v S]; [congruence|]. exists v. split; [now left|].
      rewrite D by now left. reflexivity.
Qed.
Lemma size_one_chunk dbg S enc : valid S -> Forall (fun v => v < 65536) S -> encoding dbg S enc ->
  zlen enc = 10 + chunk_cost S 0 /\ card 65536 S 0 = zlen S.
Proof.
  intros V L E. destruct (c25_size dbg S enc V E) as (Z1 & _). cbv zeta in Z1.
  rewrite <- (total_ids 65536 (Z.to_nat 65536) S) in Z1.
  2:{ intros h H. pose proof (chunk_cost_bound S h). lia. }
  rewrite (one_chunk S V L) in Z1. change (zlen [0]) with 1 in Z1. cbn [total fold_right] in Z1.
  change (1 / 32) with 0 in Z1. split; [lia|].
  unfold card. f_equal. apply filter_all. intros v Hv. destruct V as (_ & _ & R).
  rewrite Forall_forall in R, L. specialize (R v Hv). specialize (L v Hv).
  rewrite Z.div_small by lia. reflexivity.
Qed.

Lemma smallest_gen n : Z.of_nat n = 32768 ->
  exists S enc, valid S /\ Forall (fun v => v < 65536) S /\ encoding false S enc
    /\ zlen enc = 10 + 8192 /\ blocks_cost S 0 = 4352.
Proof.
  intro Hn. exists (zrange 0 n).
  assert (R : forall x, In x (zrange 0 n) -> 0 <= x < 32768).
  { intros x Hx. apply In_zrange in Hx. lia. }
  assert (V : valid (zrange 0 n)).
  { split; [|split]; [|apply sorted_zrange|].
    - destruct n; [lia|]. discriminate.
    - apply Forall_forall. intros x Hx. apply R in Hx. lia. }
  assert (L : Forall (fun v => v < 65536) (zrange 0 n)).
  { apply Forall_forall; intros x Hx; apply R in Hx; lia. }
  destruct (c25_format false [] _ V) as (st & E). rewrite app_nil_l in E. exists (f_sequence (zrange 0 n)).
  assert (EE : encoding false (zrange 0 n) (f_sequence (zrange 0 n))) by (exists st; exact E).
  split; [exact V|]. split; [exact L|]. split; [exact EE|]. split.
  - destruct (size_one_chunk _ _ _ V L EE) as [-> C]. unfold chunk_cost. rewrite C, zlen_zrange, Hn. reflexivity.
  - unfold blocks_cost. rewrite (total_ext _ _ (fun b => if b <? 128 then 34 else 0)).
    + vm_compute. reflexivity.
    + intros b Hb. apply In_zrange in Hb. rewrite Z.mul_0_r, Z.add_0_l, (card_zrange 128) by lia.
      destruct (b <? 128); reflexivity.
Qed.
Lemma c25_smallest_refuted :
  exists S enc, valid S /\ Forall (fun v => v < 65536) S /\ encoding false S enc
    /\ zlen enc = 10 + 8192 /\ blocks_cost S 0 = 4352.
Proof. apply (smallest_gen (Z.to_nat 32768)). apply Z2Nat.id. lia. Qed.

(** ** index file *)
Lemma le8_le64 v : le_bytes 8 v = le64 v.
Proof.
  rewrite <- (Z.div_1_r v) at 1. change 1 with (2 ^ (8 * 0)). rewrite le_bytes_map by lia. unfold le64.
  apply map_ext_in. intros k Hk. apply In_zrange in Hk. change 256 with (2 ^ 8) at 2.
  rewrite <- Z.pow_mul_r by lia. reflexivity.
Qed.
Lemma lays_format Ks : Forall valid Ks -> lays Ks = flat_map f_sequence Ks.
Proof.
  intro V. unfold lays. apply flat_map_ext_in. intros S HS. rewrite Forall_forall in V.
  unfold lay. apply layout_format, V, HS.
Qed.
Lemma starts_format Ks : Forall valid Ks -> forall b, starts b Ks = f_offsets b Ks.
Proof.
  induction 1 as [|S Ks V _ IH]; intro b; [reflexivity|]. cbn [starts f_offsets]. unfold lay.
  rewrite (layout_format S V), IH. reflexivity.
Qed.
Lemma index_file_format u Ks : Forall valid Ks -> index_file (u :: starts 0 Ks) (lays Ks) = f_index u Ks.
Proof.
  intro V. unfold index_file, f_index, bytes_of_u64s.
  rewrite zlen_cons, zlen_starts, (lays_format Ks V), (starts_format Ks V), !le8_le64, (Z.add_comm (zlen Ks)).
  f_equal. f_equal. apply flat_map_ext_in. intros x _. apply le8_le64.
Qed.
Lemma c29_index : forall dbg params u Ls,
  let kept := filter (fun L => pass params (zlen L) (last L 0)) Ls in
  Forall valid kept -> Forall short Ls ->
  exists stats offsets sequences,
    index_build dbg params (collection u Ls) = Ok (stats, offsets, sequences)
    /\ index_file offsets sequences = f_index u kept.
Proof.
  intros dbg params u Ls kept V HS. destruct (index_build_ok dbg params u Ls V HS) as (st & E & _).
  exists st, (u :: starts 0 kept), (lays kept). split; [exact E|]. now apply index_file_format.
Qed.
Lemma c29_sequence : forall dbg S, valid S ->
  exists stats enc, builder_build dbg [] S = (Ok stats, enc)
    /\ sequence_file enc = f_sequence_file S.
Proof.
  intros dbg S V. destruct (c25_format dbg [] S V) as (st & E). rewrite app_nil_l in E.
  exists st, (f_sequence S). split; auto. unfold sequence_file, f_sequence_file. now rewrite le8_le64.
Qed.
