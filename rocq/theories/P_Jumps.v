(** The skips of next_geq_enumerator. *)
From Verif Require Import Base Hw Spec Format Jumps Lib L_Bits L_Group Layout M_Util M_Seq M_Query
  P_Build1 P_Build2 P_Build3 P_Seq P_Decode P_Query P_NextGeq P_Ng P_Stats P_Format P_Fin1.

(** ** chunks and their sizes *)
Lemma chunks_map S : valid S -> chunks S = map fst (chunks_of S).
Proof.
  intro V. rewrite (chunks_format S V), map_map. cbn [fst]. now rewrite map_id.
Qed.
Lemma cost_data S id c : valid S -> In (id, c) (chunks_of S) -> chunk_cost S id = zlen (chunk_data c).
Proof.
  intros V H. destruct (valid_chunks S V) as (W & _).
  assert (E : c = part 65536 S id).
  { rewrite (chunks_format S V) in H. apply in_map_iff in H as (h & [= <- <-] & _). reflexivity. }
  rewrite <- zlen_f_chunk, <- E. rewrite <- (chunk_format id); [reflexivity|].
  destruct W as [_ W]. rewrite Forall_forall in W. exact (W _ H).
Qed.
Lemma span_data S i j : valid S ->
  span S i j = zlen (cdatas (firstn (Z.to_nat (j - i)) (skipn (Z.to_nat i) (chunks_of S)))).
Proof.
  intro V. unfold span. rewrite chunks_map by auto. rewrite skipn_map, firstn_map, total_map, cdatas_total.
  apply total_ext. intros [id c] H. apply in_run in H. cbn [fst snd]. now apply cost_data.
Qed.

(** ** reading a skip pointer *)
Lemma skipn_skipn A x y : forall l : list A, skipn x (skipn y l) = skipn (x + y) l.
Proof.
  induction y as [|y IH]; intro l; [now rewrite Nat.add_0_r|].
  rewrite <- plus_n_Sm. destruct l as [|h l]; [now rewrite !skipn_nil|]. cbn [skipn]. apply IH.
Qed.
Lemma ptr_at mem : forall i m cs ptr0,
  (i < m)%nat -> Forall wfc1 cs -> bytes_at mem ptr0 (ptrs m cs) ->
  rd32 mem (ptr0 + 8 * Z.of_nat i + 4 * 1) = Ok (zlen (cdatas (firstn 32 (skipn (32 * i) cs)))).
Proof.
  induction i as [|i IH]; intros m cs ptr0 Hi W B; (destruct m as [|m]; [lia|]); cbn [ptrs] in B;
    apply bytes_at_app in B as [B1 B]; apply bytes_at_app in B as [B2 B]; rewrite !zlen_le_bytes in *.
  - replace (32 * 0)%nat with 0%nat by lia. rewrite skipn_O.
    replace (ptr0 + 8 * Z.of_nat 0 + 4 * 1) with (ptr0 + Z.of_nat 4) by lia.
    apply rd32_at; [exact B2|]. assert (W1 : Forall wfc1 (firstn 32 cs)).
    { rewrite <- (firstn_skipn 32 cs) in W. apply Forall_app in W. apply W. }
    pose proof (zlen_cdatas_le _ W1). rewrite zlen_firstn in *. zpos. lia.
  - replace (ptr0 + 8 * Z.of_nat (S i) + 4 * 1) with (ptr0 + Z.of_nat 4 + Z.of_nat 4 + 8 * Z.of_nat i + 4 * 1) by lia.
    rewrite (IH m (skipn 32 cs)); [|lia| |exact B].
    + rewrite skipn_skipn. do 5 f_equal. lia.
    + rewrite <- (firstn_skipn 32 cs) in W. apply Forall_app in W. apply W.
Qed.

(** ** the loop of skip_to_value, wherever the iterator stands *)
Lemma run_split A (l : list A) a b c : 0 <= a -> 0 <= b -> 0 <= c ->
  firstn (Z.to_nat b) (skipn (Z.to_nat a) l) ++ firstn (Z.to_nat c) (skipn (Z.to_nat (a + b)) l)
  = firstn (Z.to_nat (b + c)) (skipn (Z.to_nat a) l).
Proof.
  intros. rewrite (Z2Nat.inj_add a b), Nat.add_comm by lia.
  rewrite <- skipn_skipn. rewrite (Z2Nat.inj_add b c) by lia.
  rewrite <- (firstn_skipn (Z.to_nat b) (skipn (Z.to_nat a) l)) at 3.
  destruct (Nat.le_gt_cases (Z.to_nat b) (length (skipn (Z.to_nat a) l))) as [L|L].
  - rewrite firstn_app, firstn_length, Nat.min_l by auto.
    replace (Z.to_nat b + Z.to_nat c - Z.to_nat b)%nat with (Z.to_nat c) by lia.
    rewrite (firstn_all2 (n := Z.to_nat b + Z.to_nat c)); auto. rewrite firstn_length. lia.
  - rewrite (skipn_all2 (n := Z.to_nat b)) by lia. rewrite firstn_nil, !app_nil_r.
    rewrite (firstn_all2 (n := Z.to_nat b + Z.to_nat c)); auto. rewrite firstn_length. lia.
Qed.

Lemma skip_loop_data lb mem all ptr0 : Forall wfc1 all ->
  bytes_at mem ptr0 (ptrs (Z.to_nat (zlen all / 32)) all) ->
  forall fuel cs it p, (length cs <= fuel)%nat -> id_view mem it cs ->
  i_pointers it = ptr0 + 8 * p -> 0 <= p -> 32 * p + zlen cs <= zlen all ->
  exists it' k, skip_to_value_loop fuel mem it lb = Ok it' /\ 0 <= k
    /\ (k = 0 \/ exists ch, znth cs (32 * k) = Some ch /\ fst ch <= lb)
    /\ (forall ch, znth cs (32 * (k + 1)) = Some ch -> lb < fst ch)
    /\ id_view mem it' (skipn (Z.to_nat (32 * k)) cs)
    /\ i_begin it' = i_begin it + 32 * k /\ i_end it' = i_end it
    /\ i_pointers it' = ptr0 + 8 * (p + k)
    /\ i_data it' = i_data it + zlen (cdatas (firstn (Z.to_nat (32 * k)) (skipn (Z.to_nat (32 * p)) all))).
Proof.
  intros WA BA. induction fuel; intros cs it p Hf V EP Hp Hl.
  - assert (cs = []) by (destruct cs; [auto|cbn in Hf; lia]). subst.
    exists it, 0. change (Z.to_nat (32 * 0)) with 0%nat. rewrite skipn_O, firstn_O. cbn [cdatas flat_map].
    split; [|split; [lia|split; [auto|split; [intros ch; now rewrite znth_nil|split; auto; zl]]]].
    cbn [skip_to_value_loop]. rewrite (skip_pos _ _ _ V).
    destruct V as (_ & _ & H1 & H2 & _). rewrite zlen_nil in H2.
    destruct (Z.ltb_spec (i_begin it + 32) (i_end it)); [lia|reflexivity].
  - cbn [skip_to_value_loop]. rewrite (skip_pos _ _ _ V).
    assert (HE : i_end it = i_begin it + zlen cs) by apply V.
    assert (ST : (forall ch, znth cs 32 = Some ch -> lb < fst ch) ->
      exists it' k, Ok it = Ok it' /\ 0 <= k
      /\ (k = 0 \/ exists ch, znth cs (32 * k) = Some ch /\ fst ch <= lb)
      /\ (forall ch, znth cs (32 * (k + 1)) = Some ch -> lb < fst ch)
      /\ id_view mem it' (skipn (Z.to_nat (32 * k)) cs)
      /\ i_begin it' = i_begin it + 32 * k /\ i_end it' = i_end it
      /\ i_pointers it' = ptr0 + 8 * (p + k)
      /\ i_data it' = i_data it + zlen (cdatas (firstn (Z.to_nat (32 * k)) (skipn (Z.to_nat (32 * p)) all)))).
    { intro H. exists it, 0. change (Z.to_nat (32 * 0)) with 0%nat. rewrite skipn_O, firstn_O. cbn [cdatas flat_map].
      split; auto. split; [lia|]. split; auto. split; [exact H|]. split; auto. zl. }
    destruct (Z.ltb_spec (i_begin it + 32) (i_end it)) as [L|L].
    2:{ apply ST. intros ch H. apply znth_lt in H. lia. }
    destruct (it_skip_id mem it cs V) as (id & c & cs2 & it1 & o & ES & -> & Eo & E1 & V1 & B1 & D1 & P1 & N1);
      [lia|]. cbn [bind].
    assert (H32 : znth cs 32 = Some (id, c)).
    { pose proof (znth_skipn _ cs 32 0 ltac:(lia)) as H. rewrite ES, znth_cons_0 in H. symmetry. exact H. }
    destruct (Z.leb_spec id lb).
    2:{ apply ST. rewrite H32. intros ch [= <-]. exact H. }
    rewrite E1. cbn [bind].
    destruct (IHfuel (skipn 32 cs) it1 (p + 1)) as (it2 & k & E2 & K0 & K1 & K2 & V2 & B2 & N2 & P2 & D2); auto.
    { rewrite skipn_length. lia. }
    { lia. } { lia. } { rewrite zlen_skipn. lia. }
    exists it2, (k + 1). split; auto. split; [lia|].
    split.
    { right. destruct K1 as [->|(ch & K1 & K3)].
      - exists (id, c). split; auto.
      - exists ch. split; auto. rewrite znth_skipn in K1 by lia. rewrite <- K1. f_equal. lia. }
    split.
    { intros ch Hch. apply K2. rewrite znth_skipn by lia. rewrite <- Hch. f_equal. lia. }
    split.
    { rewrite skipn_skipn in V2. replace (Z.to_nat (32 * (k + 1))) with (Z.to_nat (32 * k) + 32)%nat by lia. exact V2. }
    split; [lia|]. split; [congruence|]. split; [lia|].
    rewrite D2, D1.
    assert (Ho : o = zlen (cdatas (firstn (Z.to_nat 32) (skipn (Z.to_nat (32 * p)) all)))).
    { pose proof (ptr_at mem (Z.to_nat p) (Z.to_nat (zlen all / 32)) all ptr0) as HP.
      rewrite Z2Nat.id in HP by lia. rewrite <- EP, Eo in HP.
      replace (32 * Z.to_nat p)%nat with (Z.to_nat (32 * p)) in HP by lia.
      assert (HH : (Z.to_nat p < Z.to_nat (zlen all / 32))%nat) by lia.
      specialize (HP HH WA BA). now injection HP. }
    replace (32 * (k + 1)) with (32 + 32 * k) by lia.
    rewrite <- (run_split _ all (32 * p) 32 (32 * k)) by lia.
    rewrite cdatas_app, zlen_app, <- Ho. replace (32 * p + 32) with (32 * (p + 1)) by lia. lia.
Qed.

Lemma filter_all A (f : A -> bool) l : Forall (fun x => f x = true) l -> filter f l = l.
Proof. induction 1 as [|x l H _ IH]; cbn [filter]; auto. rewrite H, IH. reflexivity. Qed.
Lemma filter_none A (f : A -> bool) l : Forall (fun x => f x = false) l -> filter f l = [].
Proof. induction 1 as [|x l H _ IH]; cbn [filter]; auto. now rewrite H. Qed.
(** in a sorted list, being at most [lb] is being among the first ones *)
Lemma sorted_cut lb : forall l i x, sorted l -> znth l i = Some x ->
  (x <= lb <-> i < zlen (filter (fun h => h <=? lb) l)).
Proof.
  induction l as [|y l IH]; intros i x Hs Hx; [now rewrite znth_nil in Hx|].
  apply sorted_inv in Hs as [Hs Hy]. cbn [filter].
  assert (H0 : ~ y <= lb -> filter (fun h => h <=? lb) l = []).
  { intro N. destruct (filter _ l) as [|z r] eqn:E; auto. exfalso.
    assert (Hz : In z (filter (fun h => h <=? lb) l)) by (rewrite E; apply in_eq).
    apply filter_In in Hz as [Hz Hl]. rewrite Forall_forall in Hy. specialize (Hy z Hz). apply Z.leb_le in Hl. lia. }
  destruct (Z.eq_dec i 0) as [->|Ni].
  - rewrite znth_cons_0 in Hx. injection Hx as <-. destruct (Z.leb_spec y lb).
    + rewrite zlen_cons. pose proof (zlen_nonneg _ (filter (fun h => h <=? lb) l)). lia.
    + rewrite H0 by lia. rewrite zlen_nil. lia.
  - pose proof (znth_lt _ _ _ _ Hx) as Hi. rewrite znth_cons_pos in Hx by lia.
    specialize (IH (i - 1) x Hs Hx). destruct (Z.leb_spec y lb).
    + rewrite zlen_cons. lia.
    + rewrite H0 by lia. rewrite zlen_nil. rewrite Forall_forall in Hy.
      specialize (Hy x (znth_In _ _ _ _ Hx)). lia.
Qed.

Lemma skip_value_data mem S it done cs ptr0 p q :
  valid S -> chunks_of S = done ++ cs -> Forall (fun ch => fst ch <= q / 65536) done ->
  id_view mem it cs -> bytes_at mem ptr0 (ptrs (Z.to_nat (zlen (chunks_of S) / 32)) (chunks_of S)) ->
  i_pointers it = ptr0 + 8 * p -> 0 <= p -> 32 * p <= zlen done -> q / 65536 <= 65536 ->
  let k := skips S (zlen done) q in
  exists it' pre suf, skip_to_value mem it (q / 65536) = Ok it' /\ dropped (q / 65536) cs pre suf
    /\ id_view mem it' suf /\ i_begin it' = i_begin it + zlen pre /\ i_end it' = i_end it
    /\ i_pointers it' = ptr0 + 8 * (p + k) /\ 0 <= k /\ 32 * k <= zlen pre
    /\ i_data it' = i_data it + zlen (cdatas pre)
         + (span S (32 * p) (32 * (p + k)) - span S (zlen done) (zlen done + 32 * k)).
Proof.
  intros VS EC FD V BA EP Hp Hb Hq k. destruct (valid_chunks S VS) as (W & _).
  assert (WA : Forall wfc1 (chunks_of S)) by apply W.
  assert (HL : zlen (chunks_of S) = zlen done + zlen cs) by (rewrite EC; zl).
  unfold skip_to_value.
  destruct (skip_loop_data (q / 65536) mem (chunks_of S) ptr0 WA BA (it_fuel it) cs it p) as
    (it1 & k1 & -> & K0 & K1 & K2 & V1 & B1 & N1 & P1 & D1); auto; [eapply it_fuel_ok; eauto|lia|].
  cbn [bind].
  (* the number of skips *)
  assert (SC : sorted (map fst cs)) by apply V.
  assert (HC : zlen (filter (fun h => h <=? q / 65536) (chunks S))
    = zlen done + zlen (filter (fun h => h <=? q / 65536) (map fst cs))).
  { rewrite chunks_map by auto. rewrite EC, map_app, filter_app, zlen_app. f_equal.
    rewrite <- (zlen_map _ _ fst done). f_equal. apply filter_all. apply Forall_map.
    eapply Forall_impl; [|exact FD]. cbn beta. intros ch Hch. now apply Z.leb_le. }
  assert (EK : k = k1).
  { unfold k, skips. rewrite HC. set (n := zlen (filter (fun h => h <=? q / 65536) (map fst cs))) in *.
    assert (U : n <= 32 * (k1 + 1)).
    { destruct (Z_lt_le_dec (32 * (k1 + 1)) (zlen cs)) as [L|L].
      - destruct (znth_Some _ cs (32 * (k1 + 1)) ltac:(lia)) as (ch & Ech). specialize (K2 ch Ech).
        pose proof (sorted_cut (q / 65536) (map fst cs) (32 * (k1 + 1)) (fst ch) SC) as SCu.
        rewrite znth_map, Ech in SCu. specialize (SCu eq_refl). fold n in SCu. lia.
      - pose proof (zlen_filter_le _ (fun h => h <=? q / 65536) (map fst cs)) as ZL.
        fold n in ZL. rewrite zlen_map in ZL. lia. }
    destruct K1 as [->|(ch & Ech & Hch)].
    - replace (zlen done + n - zlen done - 1) with (n - 1) by lia. lia.
    - pose proof (sorted_cut (q / 65536) (map fst cs) (32 * k1) (fst ch) SC) as SCu.
      rewrite znth_map, Ech in SCu. specialize (SCu eq_refl). fold n in SCu. lia. }
  rewrite EK. clear k EK.
  destruct (it_advance_id mem it1 (skipn (Z.to_nat (32 * k1)) cs) (q / 65536) V1 Hq) as
    (it2 & pre2 & suf & E & D & V2 & B2 & P2 & D2 & N2).
  exists it2, (firstn (Z.to_nat (32 * k1)) cs ++ pre2), suf. split; auto.
  assert (L1 : zlen (firstn (Z.to_nat (32 * k1)) cs) = 32 * k1).
  { rewrite zlen_firstn. destruct K1 as [->|(ch & Ech & _)]; [zl|]. apply znth_lt in Ech. lia. }
  split.
  { rewrite <- (firstn_skipn (Z.to_nat (32 * k1)) cs) at 1. apply dropped_app; auto.
    apply Forall_forall. intros ch Hch. destruct K1 as [->|(ch1 & Ech & Hch1)]; [easy|].
    assert (fst ch < fst ch1); [|lia].
    apply (wf_app_lt 65536 65535 (firstn (Z.to_nat (32 * k1)) cs) (skipn (Z.to_nat (32 * k1)) cs)); auto.
    - rewrite firstn_skipn. apply V.
    - apply (znth_In _ _ 0). rewrite znth_skipn by lia. rewrite <- Ech. f_equal. lia. }
  split; auto. rewrite zlen_app, cdatas_app, zlen_app, L1. split; [lia|]. split; [congruence|]. split; [lia|]. split; auto.
  split; [zpos; pose proof (zlen_nonneg _ pre2); lia|].
  rewrite D2, D1, !span_data by auto.
  replace (32 * (p + k1) - 32 * p) with (32 * k1) by lia.
  replace (zlen done + 32 * k1 - zlen done) with (32 * k1) by lia.
  assert (ES : skipn (Z.to_nat (zlen done)) (chunks_of S) = cs).
  { rewrite EC. replace (Z.to_nat (zlen done)) with (length done) by (rewrite length_zlen; lia).
    rewrite skipn_app, skipn_all, Nat.sub_diag. reflexivity. }
  rewrite ES. lia.
Qed.

(** ** histories *)
Lemma chunk_value S id c : valid S -> In (id, c) (chunks_of S) ->
  exists x, In x S /\ x / 65536 = id.
Proof.
  intros V H. destruct (valid_chunks S V) as (W & _ & U & _).
  assert (W1 : wfc1 (id, c)) by (destruct W as [_ W]; rewrite Forall_forall in W; auto).
  destruct W1 as (_ & N & _ & R). cbn [snd] in *. destruct c as [|x c]; [easy|]. inversion R; subst.
  exists (id * 65536 + x). split; [|lia].
  rewrite <- U. unfold ungroup. apply in_flat_map. exists (id, x :: c). split; auto. cbn. auto.
Qed.

Lemma landed S done ch r v : valid S -> chunks_of S = done ++ ch :: r ->
  spec_next_geq S v / 65536 = fst ch ->
  lands S v = zlen done /\ Forall (fun ch => fst ch <= v / 65536) done.
Proof.
  intros V EC EH. destruct (valid_chunks S V) as (W & _). rewrite EC in W.
  split.
  - unfold lands. rewrite EH, chunks_map, EC, map_app, filter_app, zlen_app by auto.
    rewrite filter_all, zlen_map.
    + rewrite (filter_none _ _ (map fst (ch :: r))); [zl|].
      apply Forall_map. apply wf_app in W as [_ W]. apply wf_cons in W as (_ & _ & W).
      constructor; [apply Z.ltb_ge; lia|]. eapply Forall_impl; [|exact W]. cbn beta. intros; apply Z.ltb_ge; lia.
    + apply Forall_map, Forall_forall. intros d Hd. apply Z.ltb_lt.
      eapply wf_app_lt; eauto. apply in_eq.
  - apply Forall_forall. intros [id c] Hd. cbn [fst].
    assert (L : id < fst ch) by (eapply (wf_app_lt _ _ _ _ (id, c)); eauto; apply in_eq).
    destruct (Z_le_gt_dec id (v / 65536)) as [|G]; auto. exfalso.
    destruct (chunk_value S id c V) as (x & Hx & Ex); [rewrite EC; apply in_or_app; auto|].
    destruct (spec_next_geq_spec S v (proj1 (proj2 V))) as [(_ & _ & M)|(_ & M)].
    + specialize (M x Hx ltac:(lia)). assert (spec_next_geq S v / 65536 <= x / 65536) by (apply Z.div_le_mono; lia). lia.
    + specialize (M x Hx). assert (x / 65536 <= v / 65536) by (apply Z.div_le_mono; lia). lia.
Qed.

Definition ng_at (mem S : list Z) (ptr0 dend : Z) (g : ng_enumerator) (p b v0 : Z) : Prop :=
  exists cs, ng_inv mem S g cs v0 /\
    (cs = [] \/ exists done, chunks_of S = done ++ cs /\ zlen done = b
       /\ Forall (fun ch => fst ch <= v0 / 65536) done
       /\ i_pointers (g_it g) = ptr0 + 8 * p /\ 0 <= p /\ 32 * p <= b
       /\ i_end (g_it g) = zlen (chunks_of S) /\ i_data (g_it g) + zlen (cdatas cs) = dend).

Lemma ng_at_step dbg mem S ptr0 dend g p b v0 v :
  valid S -> bytes_at mem ptr0 (ptrs (Z.to_nat (zlen (chunks_of S) / 32)) (chunks_of S)) ->
  ng_at mem S ptr0 dend g p b v0 -> v0 <= v -> is_u32 v ->
  span S (32 * p) (32 * (p + skips S b v)) = span S b (b + 32 * skips S b v) ->
  exists g', ng_next_geq dbg mem g v = Ok (g', spec_next_geq S v)
    /\ ng_at mem S ptr0 dend g' (p + skips S b v) (lands S v) v.
Proof.
  intros V BA (cs & I & [->|(done & EC & Eb & FD & EP & Hp & Hb & HE & HD)]) Hv Hu HS.
  - destruct (ng_next_geq_ok dbg mem S g [] v0 v V I Hv Hu) as (g' & cs' & E & I' & _ & L & _).
    { right; left. rewrite zlen_nil. lia. }
    exists g'. split; auto. exists cs'. split; auto. left.
    rewrite zlen_nil in L. destruct cs'; auto. exfalso. rewrite zlen_cons in L. pose proof (zlen_nonneg _ cs'). lia.
  - assert (H65 : v0 / 65536 <= v / 65536) by (apply Z.div_le_mono; lia).
    destruct (skip_value_data mem S (g_it g) done cs ptr0 p v) as
      (it & pre & suf & E & D & V1 & B1 & N1 & P1 & K0 & K1 & D1); auto; try (rewrite ?Eb; lia).
    { eapply Forall_impl; [|exact FD]. cbn beta. intros; lia. }
    { apply I. } { unfold is_u32 in Hu. lia. }
    rewrite Eb in *.
    assert (V2 : it_view 0 mem it suf).
    { destruct D as (Ecs & _). eapply view_sub; [rewrite <- Ecs; apply I|exact V1|]. lia. }
    destruct (ng_next_geq_skip dbg mem S g cs v0 v it pre suf V I Hv Hu E D V2) as
      (g' & cs' & E' & I' & _ & L & H5 & H6 & H7 & H8).
    exists g'. split; auto. exists cs'. split; auto.
    destruct cs' as [|ch r]; [now left|]. right.
    pose proof I' as (_ & (done' & EC') & _). exists done'. split; auto.
    destruct (landed S done' ch r v V EC' (H5 _ _ eq_refl)) as [-> F]. split; auto. split; auto.
    split; [lia|]. split; [lia|].
    assert (EF : zlen (cdatas cs) = zlen (cdatas pre) + zlen (cdatas suf)).
    { destruct D as (-> & _). now rewrite cdatas_app, zlen_app. }
    split; [|split; [congruence|lia]].
    (* 32 (p + k) chunks have been passed *)
    assert (HL : zlen done' + zlen (ch :: r) = zlen done + zlen cs).
    { rewrite <- !zlen_app, <- EC, <- EC'. reflexivity. }
    assert (EL : zlen cs = zlen pre + zlen suf) by (destruct D as (-> & _); now rewrite zlen_app).
    lia.
Qed.

Lemma ng_at_run dbg mem S ptr0 dend qs : forall g p b v0,
  valid S -> bytes_at mem ptr0 (ptrs (Z.to_nat (zlen (chunks_of S) / 32)) (chunks_of S)) ->
  ng_at mem S ptr0 dend g p b v0 -> non_decreasing v0 qs -> Forall is_u32 qs -> faithful S p b qs ->
  ng_run dbg mem g qs = Ok (map (spec_next_geq S) qs).
Proof.
  induction qs as [|q qs IH]; intros g p b v0 V BA A Hn Hq HF; cbn [ng_run map]; auto.
  inversion Hq as [|? ? Hq1 Hq2]. cbn [non_decreasing faithful] in *. destruct Hn as [Hn1 Hn2]. destruct HF as [HF1 HF2].
  destruct (ng_at_step dbg mem S ptr0 dend g p b v0 q V BA A Hn1 Hq1 HF1) as (g' & -> & A').
  cbn [bind]. now rewrite (IH g' _ _ q V BA A' Hn2 Hq2 HF2).
Qed.

Lemma ng_at_init mem a S :
  valid S -> stored 0 mem a S ->
  exists s g ptr0, seq_at mem a = Ok s /\ ng_init mem s = Ok g /\ ng_size g = zlen S
    /\ bytes_at mem ptr0 (ptrs (Z.to_nat (zlen (chunks_of S) / 32)) (chunks_of S))
    /\ ng_at mem S ptr0 (a + zlen (f_sequence S)) g 0 0 0.
Proof.
  intros V St. destruct (ng_init_ok mem a S V St) as (s & g & E1 & E2 & E3 & I & A).
  destruct (stored_seq 0 mem a S V St ltac:(lia)) as (s' & Es & En & _). rewrite E1 in Es. injection Es as <-.
  exists s, g, (i_pointers (g_it g)). split; auto. split; auto. split; auto. split; [exact A|].
  exists (chunks_of S). split; auto. right. exists []. rewrite zlen_nil. cbn [app].
  assert (EI : g_it g = seq_begin s).
  { unfold ng_init in E2. destruct (seq_size mem s); cbn [bind] in E2; try easy. injection E2 as <-. reflexivity. }
  split; auto. split; auto. split; auto. split; [lia|]. split; [lia|]. split; [lia|]. rewrite EI.
  unfold seq_at in E1. destruct (rd16 mem a) as [n| | | |] eqn:ER; cbn [bind] in E1; try easy.
  injection E1 as <-. cbn [s_chunks seq_begin i_end i_data s_data] in *.
  split; auto. rewrite <- layout_format, zlen_layout by auto.
  change associativity with 32. rewrite En. lia.
Qed.

Lemma ng_history_faithful dbg mem a S qs :
  valid S -> stored 0 mem a S -> Forall is_u32 qs -> non_decreasing 0 qs -> faithful S 0 0 qs ->
  exists s g, seq_at mem a = Ok s /\ ng_init mem s = Ok g /\ ng_size g = zlen S
    /\ ng_run dbg mem g qs = Ok (map (spec_next_geq S) qs).
Proof.
  intros V St Hq Hn HF. destruct (ng_at_init mem a S V St) as (s & g & ptr0 & E1 & E2 & E3 & BA & A).
  exists s, g. repeat split; auto. exact (ng_at_run dbg mem S ptr0 _ qs g 0 0 0 V BA A Hn Hq HF).
Qed.

(** ** evenly sized chunks *)
Lemma span_split S i j k : 0 <= i <= j -> j <= k -> span S i k = span S i j + span S j k.
Proof.
  intros. unfold span. rewrite <- total_app. f_equal.
  pose proof (run_split _ (chunks S) i (j - i) (k - j) ltac:(lia) ltac:(lia) ltac:(lia)) as R.
  replace (i + (j - i)) with j in R by lia. replace (j - i + (k - j)) with (k - i) in R by lia. now symmetry.
Qed.
Lemma span_one S i h : znth (chunks S) i = Some h -> span S i (i + 1) = chunk_cost S h.
Proof.
  intro H. pose proof (znth_lt _ _ _ _ H). unfold span. replace (i + 1 - i) with 1 by lia.
  pose proof (znth_skipn _ (chunks S) (Z.to_nat i) 0 ltac:(lia)) as E.
  rewrite Z2Nat.id, Z.add_0_r, H in E by lia. destruct (skipn _ (chunks S)) as [|x l]; [now rewrite znth_nil in E|].
  rewrite znth_cons_0 in E. injection E as ->. change (Z.to_nat 1) with 1%nat. cbn [firstn]. rewrite total_cons.
  unfold total. cbn. lia.
Qed.
Lemma even_shift S : even S -> forall i, 0 <= i -> i + 32 < zlen (chunks S) -> span S i (i + 32) = span S (i + 1) (i + 33).
Proof.
  intros HE i Hi Hl.
  destruct (znth_Some _ (chunks S) i ltac:(lia)) as (h & H1).
  destruct (znth_Some _ (chunks S) (i + 32) ltac:(lia)) as (h' & H2).
  rewrite (span_split S i (i + 1) (i + 32)), (span_split S (i + 1) (i + 32) (i + 33)) by lia.
  rewrite (span_one S i h H1). replace (i + 33) with (i + 32 + 1) by lia. rewrite (span_one S (i + 32) h' H2).
  rewrite (HE i h h' H1 H2). lia.
Qed.
Lemma even_run S : even S -> forall i, 0 <= i -> i + 32 <= zlen (chunks S) -> span S i (i + 32) = span S 0 32.
Proof.
  intros HE i Hi. pattern i. apply natlike_ind; auto. clear i Hi. intros i Hi IH Hl.
  unfold Z.succ in *. replace (i + 1 + 32) with (i + 33) by lia. rewrite <- even_shift by (auto; lia). apply IH. lia.
Qed.
Lemma even_runs S : even S -> forall k, 0 <= k -> forall i, 0 <= i -> i + 32 * k <= zlen (chunks S) ->
  span S i (i + 32 * k) = k * span S 0 32.
Proof.
  intros HE k Hk. pattern k. apply natlike_ind; auto; clear k Hk.
  - intros i Hi _. unfold span. replace (i + 32 * 0 - i) with 0 by lia. reflexivity.
  - intros k Hk IH i Hi Hl. unfold Z.succ in *. rewrite (span_split S i (i + 32) _) by lia.
    rewrite even_run by (auto; lia). replace (i + 32 * (k + 1)) with (i + 32 + 32 * k) by lia.
    rewrite IH by lia. lia.
Qed.

Lemma filter_le_mono (f g : Z -> bool) l : (forall x, f x = true -> g x = true) ->
  zlen (filter f l) <= zlen (filter g l).
Proof.
  intro H. induction l as [|x l IH]; cbn [filter]; [lia|].
  destruct (f x) eqn:E; [rewrite (H x E), !zlen_cons; lia|]. destruct (g x); rewrite ?zlen_cons; lia.
Qed.
Lemma sorted_step l h : sorted l ->
  zlen (filter (fun x => x <=? h) l) <= zlen (filter (fun x => x <? h) l) + 1.
Proof.
  induction l as [|y l IH]; intro Hs; cbn [filter]; [rewrite !zlen_nil; lia|].
  apply sorted_inv in Hs as [Hs Hy]. specialize (IH Hs).
  destruct (Z.leb_spec y h); destruct (Z.ltb_spec y h); rewrite ?zlen_cons; try lia.
  rewrite (filter_none _ (fun x => x <=? h)); [rewrite zlen_nil; zpos; pose proof (zlen_nonneg _ (filter (fun x => x <? h) l)); lia|].
  eapply Forall_impl; [|exact Hy]. cbn beta. intros; apply Z.leb_gt; lia.
Qed.
Lemma next_geq_mono S v w : valid S -> is_u32 w -> v <= w ->
  w <= spec_next_geq S w /\ spec_next_geq S v <= spec_next_geq S w.
Proof.
  intros V Hw H. unfold is_u32 in Hw.
  assert (B : forall x, In x S -> x <= 4294967295).
  { destruct V as (_ & _ & R). intros x Hx. rewrite Forall_forall in R. specialize (R x Hx). cbn beta in R. lia. }
  destruct (spec_next_geq_spec S w (proj1 (proj2 V))) as [(I & L & M)|(-> & M)].
  - split; auto. destruct (spec_next_geq_spec S v (proj1 (proj2 V))) as [(_ & _ & M')|(_ & M')].
    + apply M'; auto. lia.
    + specialize (M' _ I). lia.
  - split; [lia|]. destruct (spec_next_geq_spec S v (proj1 (proj2 V))) as [(I' & _)|(-> & _)]; [auto|lia].
Qed.
Lemma lands_mono S v w : valid S -> is_u32 w -> v <= w -> lands S v <= lands S w.
Proof.
  intros V Hw H. unfold lands. apply filter_le_mono. intros x Hx. apply Z.ltb_lt in Hx. apply Z.ltb_lt.
  destruct (next_geq_mono S v w V Hw H) as [_ M].
  assert (spec_next_geq S v / 65536 <= spec_next_geq S w / 65536) by (apply Z.div_le_mono; lia). lia.
Qed.
Lemma lands_count S q : valid S -> is_u32 q ->
  zlen (filter (fun h => h <=? q / 65536) (chunks S)) <= lands S q + 1.
Proof.
  intros V Hq. destruct (next_geq_mono S q q V Hq ltac:(lia)) as [M _].
  pose proof (sorted_step (chunks S) (q / 65536)) as ST.
  rewrite chunks_map in ST at 1 by auto. destruct (valid_chunks S V) as (W & _). specialize (ST (proj1 W)).
  assert (zlen (filter (fun x => x <? q / 65536) (chunks S)) <= lands S q); [|lia].
  apply filter_le_mono. intros x Hx. apply Z.ltb_lt in Hx. apply Z.ltb_lt.
  assert (q / 65536 <= spec_next_geq S q / 65536) by (apply Z.div_le_mono; lia). lia.
Qed.

Lemma even_faithful S : valid S -> even S -> forall qs p b v0,
  0 <= p -> 32 * p <= b -> (forall w, is_u32 w -> v0 <= w -> b <= lands S w) ->
  Forall is_u32 qs -> non_decreasing v0 qs -> faithful S p b qs.
Proof.
  intros V HE. induction qs as [|q qs IH]; intros p b v0 Hp Hb HB Hq Hn; [exact I|].
  cbn [faithful non_decreasing] in *. inversion Hq as [|? ? Hq1 Hq2]. destruct Hn as [Hn1 Hn2].
  pose proof (lands_count S q V Hq1) as LC. pose proof (HB q Hq1 Hn1) as LB.
  assert (K0 : 0 <= skips S b q) by (unfold skips; lia).
  pose proof (zlen_filter_le _ (fun h => h <=? q / 65536) (chunks S)) as FL.
  assert (K1 : skips S b q = 0 \/ b + 32 * skips S b q < zlen (filter (fun h => h <=? q / 65536) (chunks S))).
  { unfold skips. set (n := zlen (filter (fun h => h <=? q / 65536) (chunks S))) in *.
    destruct (Z_le_gt_dec ((n - b - 1) / 32) 0); [left|right]; lia. }
  split.
  - replace (32 * (p + skips S b q)) with (32 * p + 32 * skips S b q) by lia.
    destruct K1 as [->|K1].
    + unfold span. replace (32 * p + 32 * 0 - 32 * p) with 0 by lia. replace (b + 32 * 0 - b) with 0 by lia. reflexivity.
    + rewrite !even_runs by (auto; lia). reflexivity.
  - apply (IH _ _ q); auto; [lia|lia|].
    intros w Hw Hqw. apply lands_mono; auto.
Qed.

Lemma ng_history_even dbg mem a S qs :
  valid S -> stored 0 mem a S -> Forall is_u32 qs -> non_decreasing 0 qs -> even S ->
  exists s g, seq_at mem a = Ok s /\ ng_init mem s = Ok g /\ ng_size g = zlen S
    /\ ng_run dbg mem g qs = Ok (map (spec_next_geq S) qs).
Proof.
  intros V St Hq Hn HE. apply ng_history_faithful; auto.
  apply (even_faithful S V HE qs 0 0 0); auto; try lia.
  intros w _ _. unfold lands. apply zlen_nonneg.
Qed.

(** ** how far off a skip lands *)
Lemma count_at : forall l i x, sorted l -> znth l i = Some x ->
  zlen (filter (fun h => h <=? x) l) = i + 1 /\ zlen (filter (fun h => h <? x) l) = i.
Proof.
  induction l as [|y l IH]; intros i x Hs Hx; [now rewrite znth_nil in Hx|].
  apply sorted_inv in Hs as [Hs Hy]. cbn [filter].
  destruct (Z.eq_dec i 0) as [->|Ni].
  - rewrite znth_cons_0 in Hx. injection Hx as <-. rewrite Z.leb_refl, Z.ltb_irrefl.
    rewrite !filter_none; [zl| |]; (eapply Forall_impl; [|exact Hy]); cbn beta; intros; [apply Z.ltb_ge|apply Z.leb_gt]; lia.
  - pose proof (znth_lt _ _ _ _ Hx) as Hi. rewrite znth_cons_pos in Hx by lia.
    destruct (IH (i - 1) x Hs Hx) as [H1 H2].
    assert (y < x) by (rewrite Forall_forall in Hy; apply Hy; eapply znth_In; eauto).
    destruct (Z.leb_spec y x); [|lia]. destruct (Z.ltb_spec y x); [|lia]. rewrite !zlen_cons. lia.
Qed.

Lemma chunk_answer S h : valid S -> In h (chunks S) ->
  spec_next_geq S (65536 * h) / 65536 = h /\ 0 <= h < 65535 /\ exists x, In x S /\ x / 65536 = h.
Proof.
  intros V H. rewrite chunks_map in H by auto. apply in_map_iff in H as ([id c] & <- & Hc). cbn [fst].
  destruct (chunk_value S id c V Hc) as (x & Hx & Ex).
  split; [|split; [|eauto]].
  - destruct (spec_next_geq_spec S (65536 * id) (proj1 (proj2 V))) as [(_ & L & M)|(_ & M)].
    + specialize (M x Hx ltac:(lia)). lia.
    + specialize (M x Hx). lia.
  - destruct (valid_chunks S V) as ([_ W] & _). rewrite Forall_forall in W. apply (W _ Hc).
Qed.

Lemma ng_skip_off dbg mem a S b h h' :
  valid S -> stored 0 mem a S ->
  znth (chunks S) b = Some h -> znth (chunks S) (b + 32) = Some h' ->
  exists s g0 g it, seq_at mem a = Ok s /\ ng_init mem s = Ok g0
    /\ ng_next_geq dbg mem g0 (65536 * h) = Ok (g, spec_next_geq S (65536 * h))
    /\ skip_to_value mem (g_it g) h' = Ok it
    /\ i_begin it = b + 32
    /\ i_data it = a + zlen (f_sequence S) - span S (b + 32) (zlen (chunks S))
         + (span S (32 * (b / 32)) (32 * (b / 32) + 32) - span S b (b + 32)).
Proof.
  intros V St Hh Hh'. destruct (ng_at_init mem a S V St) as (s & g0 & ptr0 & E1 & E2 & _ & BA & A).
  destruct (valid_chunks S V) as (W & _).
  assert (SC : sorted (chunks S)) by (rewrite chunks_map by auto; apply W).
  destruct (count_at _ _ _ SC Hh) as [C1 C2]. destruct (count_at _ _ _ SC Hh') as [C3 C4].
  destruct (chunk_answer S h V (znth_In _ _ _ _ Hh)) as (AN & RH & x & Hx & Ex).
  destruct (chunk_answer S h' V (znth_In _ _ _ _ Hh')) as (_ & RH' & _).
  pose proof (znth_lt _ _ _ _ Hh) as Hb. pose proof (znth_lt _ _ _ _ Hh') as Hb'.
  assert (D1 : 65536 * h / 65536 = h) by lia. assert (D2 : 65536 * h' / 65536 = h') by lia.
  assert (Hlt : h < h').
  { pose proof (sorted_cut h (chunks S) (b + 32) h' SC Hh') as SCu. rewrite C1 in SCu. lia. }
  assert (HS : span S (32 * 0) (32 * (0 + skips S 0 (65536 * h))) = span S 0 (0 + 32 * skips S 0 (65536 * h))).
  { replace (32 * 0) with 0 by lia.
    replace (32 * (0 + skips S 0 (65536 * h))) with (0 + 32 * skips S 0 (65536 * h)) by lia. apply eq_refl. }
  destruct (ng_at_step dbg mem S ptr0 (a + zlen (f_sequence S)) g0 0 0 0 (65536 * h) V BA A
    ltac:(lia) ltac:(unfold is_u32; lia) HS) as (g & EG & cs & I & AT).
  assert (K : 0 + skips S 0 (65536 * h) = b / 32).
  { unfold skips. rewrite D1, C1. replace (b + 1 - 0 - 1) with b by lia. lia. }
  assert (LD : lands S (65536 * h) = b) by (unfold lands; now rewrite AN).
  rewrite K, LD in AT.
  destruct AT as [->|(done & EC & Eb & FD & EP & Hp & Hp2 & HE & HD)].
  { exfalso. destruct I as (_ & _ & F & _). specialize (F (65536 * h) ltac:(lia)).
    change (fg (ungroup 65536 []) (65536 * h)) with (@None Z) in F. apply fg_None in F.
    rewrite Forall_forall in F. specialize (F x Hx). cbn beta in F. lia. }
  destruct (skip_value_data mem S (g_it g) done cs ptr0 (b / 32) (65536 * h')) as
    (it & pre & suf & E & D & V1 & B1 & N1 & P1 & _ & _ & DD); auto; try (rewrite ?Eb; lia).
  { eapply Forall_impl; [|exact FD]. cbn beta. intros; lia. }
  { apply I. }
  assert (K2 : skips S b (65536 * h') = 1).
  { unfold skips. rewrite D2, C3. replace (b + 32 + 1 - b - 1) with 32 by lia. reflexivity. }
  rewrite D2, Eb, K2 in *.
  exists s, g0, g, it. do 4 (split; auto).
  assert (LP : zlen done + zlen pre = b + 32).
  { rewrite <- C4, chunks_map, EC by auto. destruct D as (-> & F1 & F2).
    rewrite !map_app, !filter_app, !zlen_app.
    rewrite (filter_all _ _ (map fst done)), (filter_all _ _ (map fst pre)), (filter_none _ _ (map fst suf)).
    - rewrite !zlen_map. zl.
    - apply Forall_map. eapply Forall_impl; [|exact F2]. cbn beta. intros; apply Z.ltb_ge; lia.
    - apply Forall_map. eapply Forall_impl; [|exact F1]. cbn beta. intros; apply Z.ltb_lt; lia.
    - apply Forall_map. eapply Forall_impl; [|exact FD]. cbn beta. intros; apply Z.ltb_lt; lia. }
  assert (Ecs : cs = pre ++ suf) by apply D.
  assert (LN : zlen (chunks_of S) = zlen done + zlen pre + zlen suf) by (rewrite EC, Ecs; zl).
  assert (LS : span S (b + 32) (zlen (chunks S)) = zlen (cdatas suf)).
  { rewrite span_data by auto. do 2 f_equal. rewrite chunks_map, zlen_map by auto.
    rewrite EC, Ecs, app_assoc. replace (Z.to_nat (b + 32)) with (length (done ++ pre)) by (rewrite length_zlen, zlen_app; lia).
    rewrite skipn_app, skipn_all, Nat.sub_diag. cbn [app skipn]. apply firstn_all2.
    rewrite length_zlen, !zlen_app. lia. }
  assert (EF : zlen (cdatas cs) = zlen (cdatas pre) + zlen (cdatas suf)) by (rewrite Ecs, cdatas_app; zl).
  split.
  - destruct V1 as (_ & _ & _ & EE & _). lia.
  - rewrite LS. replace (32 * (b / 32) + 32) with (32 * (b / 32 + 1)) by lia. change (32 * 1) with 32 in DD. lia.
Qed.

(** ** witnesses *)
From Verif Require Import M_Build P_Ex.
(** 41 chunks, of which chunk 0 occupies 180 bytes and the others 3 each *)
Definition exU : list Z := map (fun i => 256 * i) (zrange 0 60) ++ map (fun i => 65536 * i) (zrange 1 40).
Definition encU : list Z := Eval vm_compute in snd (builder_build false [] exU).
Definition memU : list Z := Eval vm_compute in encU ++ repeat 0 31.
Lemma valid_U : valid exU.
Proof. apply valid_b_ok. vm_compute. reflexivity. Qed.
Lemma stored_U : stored 31 memU 0 exU.
Proof. exact (stored_mid false exU encU [] (repeat 0 31) 31 (encoding_ok false exU valid_U) ltac:(vm_compute; discriminate)). Qed.

Lemma ng_outside : exists S mem a qs s g,
  valid S /\ stored 31 mem a S /\ Forall is_u32 qs /\ non_decreasing 0 qs
  /\ seq_at mem a = Ok s /\ ng_init mem s = Ok g
  /\ (forall dbg, ng_run dbg mem g qs = UB).
Proof.
  exists exU, memU, 0, [65536; 65536 * 33].
  destruct (seq_at memU 0) as [s| | | |] eqn:Es; try (vm_compute in Es; discriminate).
  destruct (ng_init memU s) as [g| | | |] eqn:Eg.
  2-5: exfalso; revert Eg; vm_compute in Es; injection Es as <-; vm_compute; discriminate.
  exists s, g. split; [exact valid_U|]. split; [exact stored_U|].
  split; [repeat constructor; vm_compute; congruence|]. split; [repeat split; vm_compute; congruence|].
  split; auto. split; auto. vm_compute in Es. injection Es as <-. vm_compute in Eg. injection Eg as <-.
  intros []; vm_compute; reflexivity.
Qed.

(** 41 chunks; chunks 0 and 32 occupy 4 bytes, chunk 33 occupies 5, the others 3 *)
Definition exJ : list Z :=
  flat_map (fun i => 65536 * i :: (if (i =? 0) || (i =? 32) then [65536 * i + 1]
    else if i =? 33 then [65536 * i + 1; 65536 * i + 7] else [])) (zrange 0 41).
Definition encJ : list Z := Eval vm_compute in snd (builder_build false [] exJ).
Definition memJ : list Z := Eval vm_compute in encJ ++ repeat 0 31.
Lemma valid_J : valid exJ.
Proof. apply valid_b_ok. vm_compute. reflexivity. Qed.
Lemma stored_J : stored 31 memJ 0 exJ.
Proof. exact (stored_mid false exJ encJ [] (repeat 0 31) 31 (encoding_ok false exJ valid_J) ltac:(vm_compute; discriminate)). Qed.
(** 70 chunks of 3 bytes *)
Definition exK : list Z := map (fun i => 65536 * i + i) (zrange 0 70).
Definition encK : list Z := Eval vm_compute in snd (builder_build false [] exK).
Lemma valid_K : valid exK.
Proof. apply valid_b_ok. vm_compute. reflexivity. Qed.
Lemma stored_K : stored 0 encK 0 exK.
Proof.
  pose proof (stored_mid false exK encK [] [] 0 (encoding_ok false exK valid_K) ltac:(vm_compute; discriminate)) as H.
  cbn [app] in H. rewrite app_nil_r in H. exact H.
Qed.
Lemma even_K : even exK.
Proof.
  assert (F : forallb (fun ch => zlen (chunk_data (snd ch)) =? 3) (chunks_of exK) = true) by (vm_compute; reflexivity).
  rewrite forallb_forall in F.
  assert (G : forall h, In h (chunks exK) -> chunk_cost exK h = 3).
  { intros h H. rewrite (chunks_map exK valid_K) in H. apply in_map_iff in H as ([id c] & <- & Hc).
    change (fst (id, c)) with id. rewrite (cost_data exK id c valid_K Hc). apply Z.eqb_eq, (F _ Hc). }
  intros i h h' H H'. apply znth_In in H. apply znth_In in H'. rewrite (G _ H), (G _ H'). reflexivity.
Qed.
Lemma chunks_K : zlen (chunks exK) = 70.
Proof. rewrite (chunks_map exK valid_K). vm_compute. reflexivity. Qed.

Lemma skips_J : skips exJ (lands exJ 65536) (65536 * 33 + 2) = 1.
Proof. unfold skips, lands. rewrite (chunks_map exJ valid_J). vm_compute. reflexivity. Qed.
Lemma span_J : span exJ 0 32 = 97 /\ span exJ 1 33 = 97 /\ span exJ 2 34 = 99.
Proof. rewrite !(span_data exJ _ _ valid_J). vm_compute. auto. Qed.
Lemma faithful_two S q q' b : skips S 0 q = 0 -> lands S q = b -> skips S b q' = 1 ->
  span S 0 32 = span S b (b + 32) -> faithful S 0 0 [q; q'].
Proof.
  intros K0 L K1 E. cbn [faithful]. rewrite K0, L, K1. split; [|split; [exact E|exact I]].
  unfold span. replace (32 * (0 + 0) - 32 * 0) with 0 by lia. replace (0 + 32 * 0 - 0) with 0 by lia. reflexivity.
Qed.
Lemma faithful_J : faithful exJ 0 0 [65536; 65536 * 33 + 2].
Proof.
  apply (faithful_two exJ _ _ (lands exJ 65536)).
  - unfold skips. rewrite (chunks_map exJ valid_J). vm_compute. reflexivity.
  - apply eq_refl.
  - exact skips_J.
  - destruct span_J as (P1 & P2 & _). rewrite P1.
    unfold lands. rewrite (chunks_map exJ valid_J), (span_data exJ _ _ valid_J). vm_compute. reflexivity.
Qed.

Lemma chunks_U : znth (chunks exU) 1 = Some 1 /\ znth (chunks exU) (1 + 32) = Some 33.
Proof. rewrite (chunks_map exU valid_U). vm_compute. auto. Qed.
Lemma span_U : span exU 0 32 = 273 /\ span exU 1 33 = 96.
Proof. rewrite (span_data exU 0 32 valid_U), (span_data exU 1 33 valid_U). vm_compute. auto. Qed.
Lemma size_U : zlen (f_sequence exU) = 638.
Proof. rewrite <- (layout_format exU valid_U). vm_compute. reflexivity. Qed.
