(** Proofs for C51: addresses modulo 8. *)
From Verif Require Import Base Hw Spec Format Places Holds Lib L_Bits L_Group Layout M_Util M_Build M_Seq M_Index
  P_Build1 P_Build2 P_Build3 P_Seq P_Stats P_Format P_Print P_Index P_Jumps.
Local Open Scope Z_scope.

Lemma total_mod A (f g : A -> Z) l : (forall x, In x l -> f x mod 8 = g x mod 8) -> total f l mod 8 = total g l mod 8.
Proof.
  induction l as [|x l IH]; intro H; [reflexivity|]. rewrite !total_cons.
  rewrite (Z.add_mod (f x)), (Z.add_mod (g x)) by lia. rewrite (H x (in_eq _ _)), IH; auto.
  intros y Hy. apply H. now right.
Qed.

(** ** sizes *)
Lemma block_cost_mod n : 0 <= n ->
  block_cost n mod 8 = (2 * (if negb (n =? 0) then 1 else 0) + (if n <? 31 then n else 0)) mod 8.
Proof.
  intro H. unfold block_cost. destruct (Z.eqb_spec n 0) as [->|N]; [reflexivity|]. cbn [negb].
  destruct (n <? 31); [f_equal; lia|reflexivity].
Qed.
Lemma blocks_cost_mod S h : blocks_cost S h mod 8 = (2 * blocks_in S h + listed_in S h) mod 8.
Proof.
  unfold blocks_cost, blocks_in, listed_in. rewrite <- total_one, <- total_if, <- total_scale, <- total_add.
  apply total_mod. intros b _. apply block_cost_mod. apply card_nonneg.
Qed.
Lemma cost_mod S h : chunk_cost S h mod 8 = loose S h mod 8.
Proof.
  unfold chunk_cost, loose, as_blocks. pose proof (card_nonneg 65536 S h) as N.
  destruct (Z.eqb_spec (card 65536 S h) 65536) as [->|].
  { change (65536 <? 32768) with false. rewrite andb_false_r. reflexivity. }
  destruct (Z.ltb_spec (card 65536 S h) 32768).
  2:{ rewrite andb_false_r. reflexivity. }
  rewrite andb_true_r. destruct (Z.ltb_spec (blocks_cost S h) 8192).
  - rewrite Z.min_l by lia. destruct (Z.ltb_spec 0 (card 65536 S h)); cbn [andb]; [apply blocks_cost_mod|].
    assert (E : chunk_cost S h = 0) by (pose proof (chunk_cost_bound S h); lia).
    unfold chunk_cost in E. destruct (Z.eqb_spec (card 65536 S h) 65536); [lia|].
    destruct (Z.ltb_spec (card 65536 S h) 32768); [|lia]. rewrite Z.min_l in E by lia. rewrite E. reflexivity.
  - rewrite Z.min_r by lia. rewrite andb_false_r. reflexivity.
Qed.

(** the data of the chunks before [h] *)
Lemma zrange_below n : forall i h, i <= h <= i + Z.of_nat n ->
  filter (fun x => x <? h) (zrange i n) = zrange i (Z.to_nat (h - i)).
Proof.
  induction n as [|n IH]; intros i h H.
  - replace (h - i) with 0 by lia. reflexivity.
  - cbn [zrange filter]. destruct (Z.ltb_spec i h).
    + rewrite IH by lia. replace (Z.to_nat (h - i)) with (S (Z.to_nat (h - (i + 1)))) by lia. reflexivity.
    + replace (h - i) with 0 by lia. cbn [Z.to_nat zrange].
      apply filter_none. apply Forall_forall. intros x Hx. apply In_zrange in Hx. apply Z.ltb_ge. lia.
Qed.
Lemma pre_data n S h pre suf : Z.to_nat 65536 = n -> valid S -> 0 <= h <= 65536 -> dropped h (chunks_of S) pre suf ->
  zlen (cdatas pre) = total (chunk_cost S) (zrange 0 (Z.to_nat h)).
Proof.
  intros N V H (E & F & G).
  replace (Z.to_nat h) with (Z.to_nat (h - 0)) by lia. rewrite <- (zrange_below n 0 h) by lia.
  rewrite <- total_if, <- (total_ids 65536 n S).
  2:{ intros x Hx. pose proof (chunk_cost_bound S x). destruct (x <? h); lia. }
  pose proof (chunks_format S V) as C. rewrite N in C.
  transitivity (total (fun y => if fst y <? h then chunk_cost S (fst y) else 0) (chunks_of S)).
  2:{ rewrite C, total_map. reflexivity. }
  rewrite E, total_app, cdatas_total.
  rewrite (total_ext _ _ (fun y => 0) suf), total_0, Z.add_0_r.
  - apply total_ext. intros [x c] Hx. cbn [fst snd]. rewrite Forall_forall in F. specialize (F _ Hx). cbn [fst] in F.
    rewrite (proj2 (Z.ltb_lt x h)) by lia. symmetry. apply cost_data; auto. rewrite E. apply in_app_iff. now left.
  - intros y Hy. rewrite Forall_forall in G. specialize (G _ Hy). destruct (Z.ltb_spec (fst y) h); [lia|reflexivity].
Qed.

Lemma before_mod S h : total (chunk_cost S) (zrange 0 (Z.to_nat h)) mod 8 = loose_before S h mod 8.
Proof. apply total_mod. intros x _. apply cost_mod. Qed.

(** ** pointers of a sequence *)
Lemma seq_fields mem a s : seq_at mem a = Ok s ->
  s_pointers s = a + 2 /\ s_header s = a + 2 + 8 * (s_chunks s / 32)
  /\ s_data s = a + 2 + 8 * (s_chunks s / 32) + 8 * s_chunks s.
Proof.
  unfold seq_at. destruct (rd16 mem a) as [x| | | |]; try discriminate. cbn [bind]. intro E.
  assert (G : forall A (u v : A), Ok u = Ok v -> v = u) by (intros A u v H; now inversion H).
  apply G in E. rewrite E. cbn [s_pointers s_header s_data s_chunks]. clear. change M_Util.associativity with 32. lia.
Qed.
Lemma mod8 a b k : a = b + 8 * k -> a mod 8 = b mod 8.
Proof. intros ->. rewrite (Z.mul_comm 8). apply Z_mod_plus_full. Qed.

Lemma c51_pointers : forall mem a s, seq_at mem a = Ok s ->
  s_pointers s mod 8 = (a + 2) mod 8 /\ s_header s mod 8 = (a + 2) mod 8 /\ s_data s mod 8 = (a + 2) mod 8.
Proof.
  intros mem a s E. apply seq_fields in E as (-> & -> & ->). split; [reflexivity|]. split.
  - apply (mod8 _ _ (s_chunks s / 32)). lia.
  - apply (mod8 _ _ (s_chunks s / 32 + s_chunks s)). lia.
Qed.
Lemma c51_chunk : forall slack mem a S s h it, valid S -> stored slack mem a S -> 0 <= slack -> 0 <= h <= 65536 ->
  seq_at mem a = Ok s -> it_advance mem (seq_begin s) h = Ok it ->
  i_data it mod 8 = (a + 2 + loose_before S h) mod 8.
Proof.
  intros slack mem a S s h it V St Hs Hh E A.
  destruct (stored_seq slack mem a S V St Hs) as (s' & E' & _ & (IV & _) & _).
  rewrite E in E'. injection E' as <-.
  destruct (it_advance_id mem (seq_begin s) (chunks_of S) h IV ltac:(lia)) as (it' & pre & suf & A' & D & _ & _ & _ & ED & _).
  rewrite A in A'. injection A' as <-.
  rewrite ED, (pre_data _ S h pre suf eq_refl V Hh D).
  change (i_data (seq_begin s)) with (s_data s).
  rewrite Z.add_mod, before_mod, <- Z.add_mod by lia.
  rewrite Z.add_mod, (proj2 (proj2 (c51_pointers mem a s E))), <- Z.add_mod by lia. reflexivity.
Qed.

(** ** sequences of an index *)
Lemma lay_mod S : valid S -> zlen (lay S) mod 8 = loose_all S mod 8.
Proof.
  intro V. destruct (c25_size true S (lay S) V (encoding_lay true S V)) as (L & _). cbv zeta in L.
  set (c := zlen (ids 65536 (Z.to_nat 65536) S)) in *. clearbody c.
  rewrite L. unfold loose_all.
  transitivity ((2 + total (chunk_cost S) (zrange 0 (Z.to_nat 65536))) mod 8).
  { apply (mod8 _ _ (c / 32 + c)). lia. }
  rewrite Z.add_mod, before_mod, <- Z.add_mod by lia. reflexivity.
Qed.
Lemma lays_mod Ks : Forall valid Ks -> zlen (lays Ks) mod 8 = total loose_all Ks mod 8.
Proof.
  intro V. unfold lays. rewrite zlen_flat_map. apply total_mod. intros S HS.
  rewrite Forall_forall in V. apply lay_mod, V, HS.
Qed.
Lemma firstn_valid n (Ks : list (list Z)) : Forall valid Ks -> Forall valid (firstn n Ks).
Proof.
  intro V. rewrite <- (firstn_skipn n Ks) in V. apply Forall_app in V. apply V.
Qed.

Lemma c51_sequence : forall dbg params u Ls stats offsets sequences mem f ix i S dbg' s,
  let kept := filter (fun L => pass params (zlen L) (last L 0)) Ls in
  is_u32 u -> Forall valid kept -> Forall short Ls ->
  index_build dbg params (collection u Ls) = Ok (stats, offsets, sequences) ->
  bytes_at mem f (index_file offsets sequences) -> f + zlen (index_file offsets sequences) <= zlen mem ->
  zlen mem <= 2 ^ 64 -> 0 <= f -> f mod 8 = 0 ->
  index_mmap mem f = Ok ix -> znth kept i = Some S -> index_get dbg' mem ix i = Ok s ->
  exists a, seq_at mem a = Ok s /\ stored 0 mem a S
    /\ a mod 8 = total loose_all (firstn (Z.to_nat i) kept) mod 8.
Proof.
  intros dbg params u Ls stats offsets sequences mem f ix i S dbg' s kept Hu V HS E B L HM Hf F8 Ei Hi G.
  destruct (index_build_ok dbg params u Ls V HS) as (st & E' & _). rewrite E in E'. injection E' as -> -> ->.
  change (filter (keep params) Ls) with kept in *.
  destruct (index_mmap_ok u kept mem f 0) as (ix' & E1 & _ & _ & K); auto; try lia.
  { unfold is_u32 in Hu. lia. }
  rewrite Ei in E1. injection E1 as <-. destruct (K i S Hi) as (s' & A & St & G'). rewrite G' in G. injection G as ->.
  exists (addr kept f i). split; [exact A|]. split; [exact St|].
  rewrite <- (lays_mod _ (firstn_valid (Z.to_nat i) kept V)). unfold addr.
  apply (mod8 _ _ (f / 8 + 3 + zlen kept)). pose proof (Z.div_mod f 8 ltac:(lia)). lia.
Qed.

(** ** consequences *)
Lemma loose_0 S h : as_blocks S h = false -> loose S h = 0.
Proof. intro H. unfold loose. now rewrite H. Qed.
Lemma loose_before_0 S h : (forall x, 0 <= x < h -> as_blocks S x = false) -> loose_before S h = 0.
Proof.
  intro H. unfold loose_before. rewrite (total_ext _ _ (fun _ => 0)); [apply total_0|].
  intros x Hx. apply In_zrange in Hx. apply loose_0, H. lia.
Qed.
Lemma mod2_mod8 a b : a mod 8 = b mod 8 -> a mod 2 = b mod 2.
Proof.
  intro H. rewrite (Z.div_mod a 8), (Z.div_mod b 8), H by lia.
  replace (8 * (a / 8)) with (4 * (a / 8) * 2) by lia. replace (8 * (b / 8)) with (4 * (b / 8) * 2) by lia.
  now rewrite !(Z.add_comm _ (b mod 8)), !Z_mod_plus_full.
Qed.
Lemma total_mod2 A (f g : A -> Z) l : (forall x, In x l -> f x mod 2 = g x mod 2) -> total f l mod 2 = total g l mod 2.
Proof.
  induction l as [|x l IH]; intro H; [reflexivity|]. rewrite !total_cons.
  rewrite (Z.add_mod (f x)), (Z.add_mod (g x)) by lia. rewrite (H x (in_eq _ _)), IH; auto.
  intros y Hy. apply H. now right.
Qed.
Lemma loose_all_mod2 S : loose_all S mod 2 = listed_all S mod 2.
Proof.
  unfold loose_all, listed_all, loose_before. rewrite <- total_if.
  rewrite Z.add_mod by lia. change (2 mod 2) with 0. rewrite Z.add_0_l, Z.mod_mod by lia.
  apply total_mod2. intros h _. unfold loose. destruct (as_blocks S h); [|reflexivity].
  rewrite (Z.add_comm (2 * _)), (Z.mul_comm 2). apply Z_mod_plus_full.
Qed.

Lemma add_mod_l a b c : a mod 8 = b mod 8 -> (a + c) mod 8 = (b + c) mod 8.
Proof. intro H. rewrite (Z.add_mod a), H, <- Z.add_mod by lia. reflexivity. Qed.
Lemma kept_same params Ls : kept_lists params Ls = filter (fun L => pass params (zlen L) (last L 0)) Ls.
Proof. reflexivity. Qed.

Lemma c51_places : forall dbg params u Ls mem f ix i S dbg' s,
  is_u32 u -> Forall valid (kept_lists params Ls) -> holds_index dbg params u Ls 0 mem f -> f mod 8 = 0 ->
  index_mmap mem f = Ok ix -> znth (kept_lists params Ls) i = Some S -> index_get dbg' mem ix i = Ok s ->
  let p := total loose_all (firstn (Z.to_nat i) (kept_lists params Ls)) + 2 in
  s_pointers s mod 8 = p mod 8 /\ s_header s mod 8 = p mod 8
  /\ forall h it, 0 <= h <= 65536 -> it_advance mem (seq_begin s) h = Ok it ->
       i_data it mod 8 = (p + loose_before S h) mod 8.
Proof.
  intros dbg params u Ls mem f ix i S dbg' s Hu V (HS & st & o & q & E & F0 & B & L & HM) F8 Ei Hi G p.
  destruct (c51_sequence dbg params u Ls st o q mem f ix i S dbg' s Hu V HS E B ltac:(lia) HM F0 F8 Ei Hi G)
    as (a & A & St & M). pose proof (add_mod_l _ _ 2 M) as M'. fold (kept_lists params Ls) in M'. fold p in M'.
  destruct (c51_pointers mem a s A) as (P1 & P2 & _). split; [congruence|]. split; [congruence|].
  intros h it Hh EA.
  assert (VS : valid S) by (rewrite Forall_forall in V; apply V; eapply znth_In; eauto).
  rewrite (c51_chunk 0 mem a S s h it VS St ltac:(lia) Hh A EA). apply add_mod_l. exact M'.
Qed.

Lemma c51_first : forall dbg params u Ls mem f ix S dbg' s,
  is_u32 u -> Forall valid (kept_lists params Ls) -> holds_index dbg params u Ls 0 mem f -> f mod 8 = 0 ->
  index_mmap mem f = Ok ix -> znth (kept_lists params Ls) 0 = Some S -> index_get dbg' mem ix 0 = Ok s ->
  s_pointers s mod 4 = 2
  /\ forall h it, 0 <= h <= 65536 -> (forall x, 0 <= x < h -> as_blocks S x = false) ->
       it_advance mem (seq_begin s) h = Ok it -> i_data it mod 8 = 2.
Proof.
  intros dbg params u Ls mem f ix S dbg' s Hu V H F8 Ei Hi G.
  destruct (c51_places dbg params u Ls mem f ix 0 S dbg' s Hu V H F8 Ei Hi G) as (P & _ & D).
  cbn [Z.to_nat firstn total fold_right] in P, D. change (0 + 2) with 2 in *. split; [lia|].
  intros h it Hh N E. rewrite (D h it Hh E), loose_before_0 by auto. reflexivity.
Qed.

Lemma c51_odd : forall dbg params u Ls mem f ix i S dbg' s,
  is_u32 u -> Forall valid (kept_lists params Ls) -> holds_index dbg params u Ls 0 mem f -> f mod 8 = 0 ->
  index_mmap mem f = Ok ix -> znth (kept_lists params Ls) i = Some S -> index_get dbg' mem ix i = Ok s ->
  s_header s mod 2 = total listed_all (firstn (Z.to_nat i) (kept_lists params Ls)) mod 2.
Proof.
  intros dbg params u Ls mem f ix i S dbg' s Hu V H F8 Ei Hi G.
  destruct (c51_places dbg params u Ls mem f ix i S dbg' s Hu V H F8 Ei Hi G) as (_ & P & _).
  rewrite (mod2_mod8 _ _ P). clear.
  change 2 with (1 * 2) at 1. rewrite Z_mod_plus_full. apply total_mod2. intros L _. apply loose_all_mod2.
Qed.

Lemma c51_bitmaps : forall dbg params u Ls mem f ix i S dbg' s h it,
  is_u32 u -> Forall valid (kept_lists params Ls) -> holds_index dbg params u Ls 0 mem f -> f mod 8 = 0 ->
  (forall L x, In L (kept_lists params Ls) -> 0 <= x < 65536 -> as_blocks L x = false) ->
  index_mmap mem f = Ok ix -> znth (kept_lists params Ls) i = Some S -> index_get dbg' mem ix i = Ok s ->
  0 <= h <= 65536 -> it_advance mem (seq_begin s) h = Ok it ->
  (i_data it mod 8 = 0 <-> i mod 4 = 3).
Proof.
  intros dbg params u Ls mem f ix i S dbg' s h it Hu V H F8 N Ei Hi G Hh E.
  destruct (c51_places dbg params u Ls mem f ix i S dbg' s Hu V H F8 Ei Hi G) as (_ & _ & D).
  specialize (D h it Hh E).
  rewrite loose_before_0 in D by (intros x Hx; apply N; [eapply znth_In; eauto|lia]).
  pose proof (znth_lt _ _ _ _ Hi) as Ri.
  rewrite (total_ext _ _ (fun _ => 2 * 1)) in D.
  2:{ intros L HL. unfold loose_all. rewrite loose_before_0; [reflexivity|]. intros x Hx. apply N; [|lia].
      rewrite <- (firstn_skipn (Z.to_nat i)). apply in_app_iff. now left. }
  rewrite total_scale, total_one, zlen_firstn in D. rewrite Z2Nat.id, Z.min_l in D by lia. lia.
Qed.

Lemma long_no_blocks S x : valid S -> Forall (fun v => v < 65536) S -> 32768 <= zlen S -> as_blocks S x = false.
Proof.
  intros V L H. unfold as_blocks. destruct V as (_ & _ & R).
  assert (C : card 65536 S x = if x =? 0 then zlen S else 0).
  { unfold card. destruct (Z.eqb_spec x 0) as [->|N].
    - f_equal. apply filter_all. rewrite Forall_forall in *. intros v Hv. specialize (L v Hv). specialize (R v Hv).
      apply Z.eqb_eq. cbn beta in *. lia.
    - rewrite filter_none; [reflexivity|]. rewrite Forall_forall in *. intros v Hv. specialize (L v Hv). specialize (R v Hv).
      apply Z.eqb_neq. cbn beta in *. lia. }
  rewrite C. destruct (x =? 0); [|reflexivity]. destruct (Z.ltb_spec (zlen S) 32768); [lia|]. rewrite andb_false_r. reflexivity.
Qed.

(** ** a witness *)
Lemma bytes_at_self l : bytes_at l 0 l.
Proof. intros i _. reflexivity. Qed.
Lemma holds_alone dbg params u Ls : is_u32 u -> Forall valid (kept_lists params Ls) -> Forall short Ls ->
  zlen (index_file (u :: starts 0 (kept_lists params Ls)) (lays (kept_lists params Ls))) <= 2 ^ 64 ->
  exists mem ix, holds_index dbg params u Ls 0 mem 0 /\ index_mmap mem 0 = Ok ix
    /\ forall i S, znth (kept_lists params Ls) i = Some S ->
         exists a s, seq_at mem a = Ok s /\ stored 0 mem a S /\ forall dbg', index_get dbg' mem ix i = Ok s.
Proof.
  intros Hu V HS HM. set (mem := index_file (u :: starts 0 (kept_lists params Ls)) (lays (kept_lists params Ls))) in *.
  destruct (index_mmap_ok u (kept_lists params Ls) mem 0 0) as (ix & E1 & _ & _ & G); auto; try lia.
  { unfold is_u32 in Hu. lia. }
  { apply bytes_at_self. }
  { change (0 + zlen mem + 0 <= zlen mem). lia. }
  exists mem, ix. split; [|split; auto].
  - split; [exact HS|]. destruct (index_build_ok dbg params u Ls V HS) as (st & E & _).
    exists st, (u :: starts 0 (kept_lists params Ls)), (lays (kept_lists params Ls)).
    split; [exact E|]. split; [lia|]. fold mem. split; [apply bytes_at_self|]. split; [lia|exact HM].
  - intros i S Hi. destruct (G i S Hi) as (s & A & St & K). exists (addr (kept_lists params Ls) 0 i), s. auto.
Qed.

Lemma one_kept params S : pass params (zlen S) (last S 0) = true -> kept_lists params [S] = [S].
Proof. intro H. unfold kept_lists. cbn [filter]. now rewrite H. Qed.
Lemma pass_default n m : 0 < n -> pass default_params n m = true.
Proof.
  intro H. unfold pass, default_params. cbn [p_density p_size].
  destruct (_ && _); [reflexivity|]. apply Z.ltb_lt in H. now rewrite H.
Qed.

Lemma c51_aligned_refuted n : Z.of_nat n = 40000 -> forall dbg, exists S mem ix s it,
  valid S /\ holds_index dbg default_params 65535 [S] 0 mem 0 /\ kept_lists default_params [S] = [S]
  /\ index_mmap mem 0 = Ok ix /\ index_get dbg mem ix 0 = Ok s
  /\ it_advance mem (seq_begin s) 0 = Ok it /\ it_type mem it = Ok t_dense
  /\ i_data it mod 8 = 2.
Proof.
  intros Hn dbg. set (S := zrange 0 n).
  assert (LS : zlen S = 40000) by (unfold S; rewrite zlen_zrange; exact Hn).
  assert (R : Forall (fun v => 0 <= v < 65536) S).
  { apply Forall_forall. intros v Hv. apply In_zrange in Hv. lia. }
  assert (V : valid S).
  { split; [|split].
    - intros E. rewrite E in LS. discriminate LS.
    - apply sorted_zrange.
    - eapply Forall_impl; [|exact R]. cbn. lia. }
  clearbody S.
  assert (K : kept_lists default_params [S] = [S]) by (apply one_kept, pass_default; lia).
  destruct (holds_alone dbg default_params 65535 [S]) as (mem & ix & H & E & G).
  { unfold is_u32. lia. }
  { rewrite K. constructor; auto. }
  { constructor; [|constructor]. unfold short. lia. }
  { rewrite K. unfold index_file. rewrite !zlen_app, !zlen_le_bytes, zlen_bytes_of_u64s, zlen_cons, zlen_starts.
    unfold lays. cbn [flat_map]. rewrite app_nil_r.
    destruct (c25_size true S (lay S) V (encoding_lay true S V)) as (_ & _ & L & _). cbv zeta in L.
    pose proof (zlen_ids 65536 (Z.to_nat 65536) S) as I.
    set (c := zlen (ids 65536 (Z.to_nat 65536) S)) in *. clearbody c. rewrite Z2Nat.id in I by lia.
    change (zlen [S]) with 1. lia. }
  destruct (G 0 S) as (a & s & A & St & Gs). { now rewrite K. }
  destruct (stored_seq 0 mem a S V St ltac:(lia)) as (s' & A' & _ & (IV & _) & _). rewrite A in A'. injection A' as <-.
  destruct (it_advance_id mem (seq_begin s) (chunks_of S) 0 IV ltac:(lia)) as (it & pre & suf & EA & D & IV' & _).
  exists S, mem, ix, s, it. split; [exact V|]. split; [exact H|]. split; [exact K|]. split; [exact E|].
  split; [apply Gs|]. split; [exact EA|]. split.
  - destruct D as (D & D1 & D2).
    assert (pre = []) as ->.
    { destruct pre as [|x pre]; [reflexivity|]. exfalso. inversion D1 as [|? ? Hx _]; subst.
      destruct (valid_chunks S V) as (W & _). rewrite D in W. cbn [app] in W. apply wf_cons in W as ((W & _) & _). lia. }
    cbn [app] in D. subst suf. destruct (chunks_of S) as [|[h c] cs] eqn:EC.
    { destruct (valid_chunks S V) as (_ & N & _). congruence. }
    rewrite (id_view_type _ _ _ _ _ IV').
    assert (I : In (h, c) (chunks_of S)) by (rewrite EC; now left).
    assert (Ec : c = part 65536 S h /\ In h (ids 65536 (Z.to_nat 65536) S)).
    { rewrite (chunks_format S V) in I. apply in_map_iff in I as (x & [= <- <-] & I). auto. }
    destruct Ec as (Ec & Ih). apply ids_card in Ih.
    assert (h = 0).
    { destruct (Z.eq_dec h 0); auto. exfalso. assert (card 65536 S h = 0); [|lia].
      unfold card. rewrite filter_none; [reflexivity|]. apply Forall_forall. intros v Hv. rewrite Forall_forall in R.
      specialize (R v Hv). cbn beta in R. apply Z.eqb_neq. lia. }
    subst h. assert (Lc : zlen c = 40000).
    { rewrite Ec, card_part. unfold card. rewrite filter_all; [exact LS|]. apply Forall_forall. intros v Hv.
      rewrite Forall_forall in R. specialize (R v Hv). cbn beta in R. apply Z.eqb_eq. lia. }
    unfold kind_of. rewrite Lc. reflexivity.
  - destruct (c51_first dbg default_params 65535 [S] mem 0 ix S dbg s) as (_ & F); auto.
    + unfold is_u32. lia.
    + rewrite K. constructor; auto.
    + now rewrite K.
    + apply (F 0 it); [lia| |exact EA]. intros x Hx. lia.
Qed.
