(** next_geq_enumerator with queries in any order: C41. *)
From Verif Require Import Base Hw Spec Format Back Lib L_Bits L_Group Layout M_Util M_Build M_Seq M_Query
  P_Build1 P_Build2 P_Build3 P_Seq P_Decode P_Query P_NextGeq P_Ng P_Conc P_Format P_Fin1 P_Ex.
From Coq Require Import Lia.

(** the block cursor of the enumerator stands at the blocks [sb] *)
Definition cur (mem : list Z) (g : ng_enumerator) (sb : list (Z * list Z)) : Prop :=
  blocks_at mem (g_begin g) (g_data g) sb
  /\ g_end g = g_begin g + 2 * zlen sb /\ 0 <= g_end g < zlen mem
  /\ (forall b r, sb = b :: r -> g_id g = fst b).

Lemma ng_sparse_cur dbg mem g id c cs v sb :
  it_view 0 mem (g_it g) ((id, c) :: cs) -> kind_of c = KSparse -> 0 <= v < 65536 ->
  (g_chunk_id g = id -> cur mem g sb) -> (g_chunk_id g <> id -> sb = blocks_of c) ->
  exists g' pre suf, ng_sparse dbg mem g v = Ok (g', nf (fg (ungroup 256 sb) v)) /\ g_it g' = g_it g
    /\ g_chunk_id g' = id /\ g_size g' = g_size g /\ sb = pre ++ suf /\ cur mem g' suf
    /\ (forall x, fg (ungroup 256 sb) v = Some x -> exists vs r, suf = (x / 256, vs) :: r).
Proof.
  intros V K Hv HS HN. unfold ng_sparse. rewrite (id_view_id _ _ _ (proj1 V)). cbn [bind fst].
  assert (R : exists g1,
    (if negb (g_chunk_id g =? id) then
       let! blocks := it_blocks mem (g_it g) in
       let! _ := assert_ dbg ((1 <=? blocks) && (blocks <=? 256)) in
       let begin := i_data (g_it g) in
       let data := begin + blocks * 2 in
       let! id0 := rd8 mem begin in
       Ok (mkNg id id0 begin data data (g_size g) (g_it g))
     else Ok g) = Ok g1 /\ g_it g1 = g_it g /\ g_chunk_id g1 = id /\ g_size g1 = g_size g
    /\ cur mem g1 sb).
  { destruct (Z.eqb_spec (g_chunk_id g) id) as [Eg|Eg]; cbn [negb].
    - exists g. specialize (HS Eg). auto.
    - rewrite (HN Eg). clear HS HN. rewrite (id_view_blocks _ _ _ _ _ (proj1 V) K). cbn [bind].
      destruct (view_blocks _ _ _ _ _ _ V ltac:(lia) K) as (B & Hn & Hd & Hm & U).
      rewrite assert_ok by (apply andb_true_intro; split; apply Z.leb_le; lia). cbn [bind].
      replace (i_data (g_it g) + zlen (blocks_of c) * 2) with (i_data (g_it g) + 2 * zlen (blocks_of c)) by lia.
      assert (R : exists i, rd8 mem (i_data (g_it g)) = Ok i /\ forall b r, blocks_of c = b :: r -> i = fst b).
      { destruct (blocks_of c) as [|[i vs] bs]; [rewrite zlen_nil in *; lia|].
        apply blocks_at_cons in B as (_ & E & _). exists i. split; auto. now intros b r [= <- <-]. }
      destruct R as (i & -> & Hi). cbn [bind].
      eexists. split; [reflexivity|]. cbn [g_it g_chunk_id g_size]. do 3 (split; auto).
      unfold cur. cbn [g_begin g_data g_end g_id]. split; auto. split; auto. split; [lia|]. auto. }
  destruct R as (g1 & R & I1 & I2 & I3 & (B & He & Hm & Hid)).
  cbn [bind] in R |- *. rewrite R. cbn [bind].
  rewrite shiftr_8. pose proof (zlen_nonneg _ sb) as Hsb.
  destruct (find_block_ok mem (g_end g1) (v / 256) sb (S (Z.to_nat (g_end g1 - g_begin g1))) (g_begin g1)
    (g_data g1) (g_id g1)) as (pre & suf & d & id2 & -> & E & F & B2 & L); auto; try lia.
  { rewrite length_zlen. lia. }
  pose proof (proj1 B) as W. cbn [bind g_end g_chunk_id g_size g_it].
  assert (Hfg' : fg (ungroup 256 sb) v = fg (ungroup 256 suf) v).
  { rewrite E in W |- *. apply (fg_pre 256 256); auto; [lia|]. apply wf_app in W. apply W. }
  rewrite Hfg'.
  rewrite E in W. apply wf_app in W as [_ W].
  rewrite E, zlen_app in He.
  assert (ST : forall j, (forall b r, suf = b :: r -> j = fst b) ->
    cur mem (mkNg (g_chunk_id g1) j (g_begin g1 + 2 * zlen pre) (g_end g1) d (g_size g1) (g_it g1)) suf).
  { intros j Hj. unfold cur. cbn [g_begin g_data g_end g_id]. split; auto. split; [lia|]. auto. }
  destruct suf as [|[i vs] suf].
  - rewrite zlen_nil in *. destruct (Z.eqb_spec (g_begin g1 + 2 * zlen pre) (g_end g1)); [|lia].
    cbn [negb]. eexists _, pre, []. split; [reflexivity|]. cbn [g_it g_chunk_id g_size]. do 4 (split; auto).
    split; [apply ST; easy|]. discriminate.
  - destruct (L _ _ eq_refl) as [-> Hi]. cbn [fst] in Hi |- *. rewrite zlen_cons in *. zpos.
    destruct (Z.eqb_spec (g_begin g1 + 2 * zlen pre) (g_end g1)); [lia|].
    cbn [negb]. pose proof (wfb_id _ _ _ W) as Hi2.
    assert (Hhd : forall b r, (i, vs) :: suf = b :: r -> i = fst b) by (now intros b r [= <- <-]).
    specialize (ST i Hhd).
    destruct (wf_snd_cons _ _ _ _ _ W) as (x & r & -> & Hx).
    destruct (Z.leb_spec v (i * 256)).
    + rewrite (fg_head 256 256) by (auto; lia). cbn [nf].
      rewrite (block_min_ok _ _ _ _ _ _ _ (i * 256) B2) by lia. cbn [bind].
      eexists _, pre, ((i, x :: r) :: suf). split; [reflexivity|]. cbn [g_it g_chunk_id g_size]. do 4 (split; auto).
      split; [exact ST|]. intros z [= <-]. replace ((i * 256 + x) / 256) with i by lia. eauto.
    + assert (Ei : i = v / 256) by lia. rewrite land_255 by lia.
      rewrite (fg_same 256 256) by (auto; lia).
      destruct (max_value_in_block_ok _ _ _ _ _ _ B2) as (m & -> & Hm1 & Hm2). cbn [bind].
      destruct (block_search _ _ _ _ _ _ (v mod 256) B2 ltac:(lia)) as (E2 & S1 & S2).
      destruct (Z.ltb_spec m (v mod 256)).
      * assert (N1 : Forall (fun z => z < v mod 256) (x :: r)).
        { eapply Forall_impl; [|exact Hm2]. cbn beta; intros; lia. }
        rewrite (fg_none (x :: r)) by auto.
        pose proof B2 as B5.
        apply blocks_at_cons in B2 as (W1 & _ & _ & _ & B3 & HF).
        destruct suf as [|[i2 v2] suf].
        -- rewrite zlen_nil in *. destruct (Z.eqb_spec (g_begin g1 + 2 * zlen pre + 2) (g_end g1)); [|lia].
           eexists _, pre, [(i, x :: r)]. split; [reflexivity|]. cbn [g_it g_chunk_id g_size]. do 4 (split; auto).
           split; [exact ST|]. discriminate.
        -- rewrite zlen_cons in He. zpos.
           destruct (Z.eqb_spec (g_begin g1 + 2 * zlen pre + 2) (g_end g1)); [lia|].
           rewrite E2. cbn [bind]. replace (zlen (x :: r) - 1 + 1) with (zlen (x :: r)) by lia.
           pose proof (proj1 B3) as W3. pose proof (wfb_id _ _ _ W3) as Hi3.
           destruct (wf_snd_cons _ _ _ _ _ W3) as (y & r2 & -> & Hy).
           inversion HF as [|? ? HF1 HF2]. cbn [fst] in HF1.
           rewrite (fg_head 256 256) by (auto; lia). cbn [nf].
           pose proof B3 as B4. apply blocks_at_cons in B4 as (_ & -> & _). cbn [bind].
           rewrite (block_min_ok _ _ _ _ _ _ _ (i2 * 256) B3) by lia. cbn [bind].
           eexists _, (pre ++ [(i, x :: r)]), ((i2, y :: r2) :: suf). split; [reflexivity|].
           cbn [g_it g_chunk_id g_size]. do 3 (split; auto).
           split; [rewrite <- app_assoc; exact E|].
           split; [|intros z [= <-]; replace ((i2 * 256 + y) / 256) with i2 by lia; eauto].
           unfold cur. cbn [g_begin g_data g_end g_id].
           split; auto. split; [rewrite zlen_cons; lia|]. split; auto. now intros b r' [= <- <-].
      * destruct (fg (x :: r) (v mod 256)) as [z|] eqn:Ez.
        2:{ apply fg_None in Ez. rewrite Forall_forall in Ez. specialize (Ez m Hm1). lia. }
        assert (Hz : 0 <= z < 256).
        { apply fg_Some in Ez as [Ez _]. apply wf_cons in W as (W & _). destruct W as (_ & _ & _ & W).
          rewrite Forall_forall in W. auto. }
        rewrite E2. cbn [bind]. replace (zlen (x :: r) - 1 + 1) with (zlen (x :: r)) by lia.
        assert (EZ : u32 (z + i * 256) = i * 256 + z) by (rewrite u32_id by lia; lia).
        assert (EB : forall y, Some (i * 256 + z) = Some y -> exists vs r', (i, x :: r) :: suf = (y / 256, vs) :: r').
        { intros y [= <-]. replace ((i * 256 + z) / 256) with i by lia. eauto. }
        destruct (Z.ltb_spec (zlen (x :: r)) 31).
        -- rewrite S1 by lia. cbn [bind nf]. rewrite EZ.
           eexists _, pre, ((i, x :: r) :: suf). split; [reflexivity|]. cbn [g_it g_chunk_id g_size]. auto 10.
        -- rewrite S2 by lia. cbn [bind nf]. rewrite EZ.
           eexists _, pre, ((i, x :: r) :: suf). split; [reflexivity|]. cbn [g_it g_chunk_id g_size]. auto 10.
Qed.

(** the enumerator stands at the chunks [cs] and at [f] *)
Definition back_inv (mem S : list Z) (g : ng_enumerator) (cs : list (Z * list Z)) (f : Z) : Prop :=
  0 <= f /\ it_view 0 mem (g_it g) cs
  /\ (exists pre, chunks_of S = pre ++ cs /\ Forall (fun ch => fst ch < f / 65536) pre)
  /\ Forall (fun ch => fst ch <> g_chunk_id g) (tl cs)
  /\ (forall id c r, cs = (id, c) :: r -> f / 65536 <= id
       /\ (g_chunk_id g <> id -> f <= 65536 * id)
       /\ (g_chunk_id g = id -> kind_of c = KSparse
           /\ exists pb bid vs sb, f = 65536 * id + 256 * bid /\ blocks_of c = pb ++ (bid, vs) :: sb
                /\ cur mem g ((bid, vs) :: sb))).

Lemma kind_blocks S id c : valid S -> In (id, c) (chunks_of S) ->
  as_blocks S id = match kind_of c with KSparse => true | _ => false end.
Proof.
  intros V H. pose proof (kind_rep S id c V H) as K. destruct (rep_kind S id c V H) as [R1 R2].
  destruct (kind_of c); auto; destruct (as_blocks S id); auto; specialize (R1 eq_refl); discriminate.
Qed.

Lemma chunk_range S id c x : valid S -> In (id, c) (chunks_of S) -> In x c ->
  0 <= id < 65535 /\ 0 <= x < 65536.
Proof.
  intros V Hi Hx. destruct (valid_chunks S V) as ([_ W] & _). rewrite Forall_forall in W.
  destruct (W _ Hi) as (A & _ & _ & R). cbn [fst snd] in *. rewrite Forall_forall in R. specialize (R x Hx). cbn beta in R. lia.
Qed.

(** the position afterwards *)
Lemma moved_start S f q id : (answer S f q) / 65536 = id -> q <= 65536 * id -> moved S f q = Z.max f (65536 * id).
Proof. intros E H. unfold moved. rewrite E. destruct (Z.ltb_spec (65536 * id) q); [lia|]. reflexivity. Qed.
Lemma moved_in S f q id c : valid S -> In (id, c) (chunks_of S) ->
  (answer S f q) / 65536 = id -> 65536 * id < q ->
  moved S f q = match kind_of c with KSparse => 256 * (answer S f q / 256) | _ => Z.max f (65536 * id) end.
Proof.
  intros V Hi E H. unfold moved. rewrite E, (kind_blocks S id c V Hi).
  destruct (Z.ltb_spec (65536 * id) q); [|lia]. cbn [andb]. destruct (kind_of c); reflexivity.
Qed.

(** one call, once the iterator has been moved to the right chunk *)
Lemma back_step dbg mem S g cs f q it pre suf :
  valid S -> back_inv mem S g cs f -> cs <> [] -> is_u32 q ->
  skip_to_value mem (g_it g) (q / 65536) = Ok it -> dropped (q / 65536) cs pre suf ->
  it_view 0 mem it suf ->
  exists g' cs', ng_next_geq dbg mem g q = Ok (g', answer S f q) /\ zlen cs' <= zlen cs
    /\ (answer S f q = 4294967295 -> it_view 0 mem (g_it g') [])
    /\ (answer S f q <> 4294967295 -> back_inv mem S g' cs' (moved S f q) /\ cs' <> []
        /\ forall ch r, cs' = ch :: r -> answer S f q / 65536 = fst ch).
Proof.
  intros HV (Hf & V & (pre0 & EC & F0) & Htl & Hst) Hne Hq ESK D V'. unfold is_u32 in Hq.
  destruct D as (E & F1 & F2).
  destruct (valid_chunks S HV) as (W & _ & U & _).
  assert (EC2 : chunks_of S = (pre0 ++ pre) ++ suf) by (rewrite <- app_assoc, <- E; exact EC).
  assert (INs : forall ch, In ch suf -> In ch (chunks_of S)) by (intros; rewrite EC2; apply in_or_app; auto).
  assert (Ln : zlen suf <= zlen cs) by (rewrite E, zlen_app; pose proof (zlen_nonneg _ pre); lia).
  pose proof (proj1 (proj1 V')) as W2.
  (* what the current chunk says about the position *)
  assert (HF : exists id0 c0 r0, cs = (id0, c0) :: r0 /\ f / 65536 <= id0 /\ f < 65536 * (id0 + 1)
    /\ (g_chunk_id g <> id0 -> f <= 65536 * id0)).
  { destruct cs as [|[id0 c0] r0]; [easy|]. destruct (Hst _ _ _ eq_refl) as (A1 & A2 & A3).
    exists id0, c0, r0. do 2 (split; auto).
    split; auto. destruct (Z.eq_dec (g_chunk_id g) id0) as [e|n]; [|specialize (A2 n); lia].
    destruct (A3 e) as (_ & pb & bid & vs & sb & -> & Eb & (B & _)).
    destruct B as (Wb & _). apply wfb_id in Wb. lia. }
  destruct HF as (id0 & c0 & r0 & Ecs & Hf1 & Hf2 & Hf3).
  unfold ng_next_geq. rewrite shiftr_16, ESK. cbn [bind].
  rewrite (id_view_base _ _ _ (proj1 V')). cbn [bind].
  rewrite (id_view_has_next _ _ _ (proj1 V')).
  set (start := 65536 * (f / 65536)).
  assert (Hstart : start <= f < start + 65536) by (unfold start; lia).
  destruct (Z.leb_spec q start) as [Hqs|Hqs].
  { (* a query up to the start of the current chunk *)
    assert (Ea : answer S f q = nf (fg S start)).
    { unfold answer. fold start. destruct (Z.leb_spec q start); [|lia]. apply fg_spec. }
    assert (Ep : pre = []).
    { destruct pre as [|ch pre]; auto. rewrite Ecs in E. injection E as E _. subst ch. inversion F1; subst. cbn [fst] in *. lia. }
    subst pre. cbn [app] in E. subst suf. rewrite Ecs in *.
    cbn [fst] in *. destruct (Z.leb_spec q (id0 * 65536)); [|lia].
    destruct (wf_snd_cons _ _ _ _ _ W2) as (x & r & -> & Hx).
    assert (Ef : fg S start = Some (id0 * 65536 + x)).
    { rewrite <- U, EC. rewrite (fg_pre 65536 65535); [|lia|rewrite EC in W; apply wf_app in W; apply W|].
      - apply (fg_head 65536 65535); auto; lia.
      - replace (start / 65536) with (f / 65536) by lia. exact F0. }
    rewrite Ef in Ea. cbn [nf] in Ea.
    destruct (chunk_range S id0 (x :: r) x HV (INs _ (or_introl eq_refl)) (or_introl eq_refl)) as [Hid _].
    rewrite (chunk_min_ok _ _ _ _ _ _ _ _ V') by lia. cbn [bind].
    exists (ng_set_it g it), ((id0, x :: r) :: r0). rewrite Ea. split; [reflexivity|]. split; auto.
    split; [lia|]. intros _. split; [|split; [discriminate|intros ch r' [= <- <-]; cbn [fst]; lia]].
    rewrite (moved_start S f q id0) by lia.
    destruct (Hst _ _ _ eq_refl) as (A1 & A2 & A3).
    split; [lia|]. split; [exact V'|]. split.
    { exists pre0. split; auto. eapply Forall_impl; [|exact F0]. cbn beta. intros ch Hc.
      assert (f / 65536 <= Z.max f (65536 * id0) / 65536) by (apply Z.div_le_mono; lia). lia. }
    split; [exact Htl|]. intros id c r' [= <- <- <-]. cbn [ng_set_it g_chunk_id].
    split; [lia|]. split; [intro n; specialize (A2 n); lia|].
    intro e. destruct (A3 e) as (K & pb & bid & vs & sb & E1 & E2 & E3). split; auto.
    exists pb, bid, vs, sb. split; auto. pose proof (proj1 (proj1 E3)) as Wb. apply wfb_id in Wb. lia. }
  (* a later query *)
  set (e := Z.max q f).
  assert (Ea : answer S f q = nf (fg (ungroup 65536 suf) e)).
  { unfold answer. fold start. destruct (Z.leb_spec q start); [lia|]. fold e. rewrite fg_spec, <- U, EC2.
    rewrite (fg_pre 65536 65535); auto; [lia|rewrite EC2 in W; apply wf_app in W; apply W|].
    apply Forall_app. split.
    - eapply Forall_impl; [|exact F0]. cbn beta. intros ch Hc. assert (f / 65536 <= e / 65536) by (apply Z.div_le_mono; lia). lia.
    - eapply Forall_impl; [|exact F1]. cbn beta. intros ch Hc. assert (q / 65536 <= e / 65536) by (apply Z.div_le_mono; lia). lia. }
  destruct suf as [|[id c] suf].
  { destruct (Z.leb_spec q 0); [lia|]. exists (ng_set_it g it), []. rewrite Ea. cbn [ungroup flat_map fg find nf].
    split; [reflexivity|]. split; auto. split; [intros _; exact V'|]. intro n. exfalso. apply n. reflexivity. }
  cbn [fst]. pose proof (Forall_inv F2) as F2a. cbn [fst] in F2a.
  (* the cursor is not in this chunk unless the iterator stays and the position is in the chunk *)
  assert (HC : g_chunk_id g = id -> pre = [] /\ id0 = id /\ c0 = c /\ r0 = suf).
  { intro Eg. destruct pre as [|p pre]; [rewrite Ecs in E; now injection E as -> -> ->|].
    exfalso. rewrite E in Htl. apply Forall_tl in Htl; [|easy]. inversion Htl; subst. cbn [fst] in *. lia. }
  assert (Hid0 : id0 <= id).
  { destruct pre as [|p pre]; [rewrite Ecs in E; injection E as <-; lia|].
    rewrite Ecs in E. injection E as Ep _. subst p. inversion F1; subst. cbn [fst] in *. lia. }
  assert (Hfid : g_chunk_id g <> id -> f <= 65536 * id).
  { intro Ng. destruct (Z.eq_dec id0 id) as [->|]; [auto|]. lia. }
  assert (Htl2 : Forall (fun ch => fst ch <> g_chunk_id g) suf).
  { destruct pre as [|p pre]; [cbn [app] in E; rewrite E in Htl; exact Htl|].
    rewrite E in Htl. apply Forall_tl in Htl; [|easy]. inversion Htl; auto. }
  assert (Hpre : forall y, y / 65536 = id -> Forall (fun ch => fst ch < y / 65536) (pre0 ++ pre)).
  { intros y ->. rewrite EC2 in W. destruct W as [W _]. rewrite map_app in W. cbn [map fst] in W.
    apply Forall_forall. intros ch Hc. apply sorted_app_inv in W as (_ & _ & W). apply W; [now apply in_map|now left]. }
  destruct (Z.leb_spec q (id * 65536)) as [Hqi|Hqi].
  { (* the start of a later chunk *)
    assert (Ng : g_chunk_id g <> id).
    { intro Eg. destruct (HC Eg) as (-> & -> & -> & ->).
      destruct (Hst _ _ _ Ecs) as (A1 & _ & A3). destruct (A3 Eg) as (_ & pb & bid & vs & sb & E1 & _ & (B & _)).
      destruct B as (Wb & _). apply wfb_id in Wb. unfold start in Hqs. lia. }
    specialize (Hfid Ng).
    destruct (wf_snd_cons _ _ _ _ _ W2) as (x & r & -> & Hx).
    rewrite (fg_head 65536 65535) in Ea by (auto; lia). cbn [nf] in Ea.
    destruct (chunk_range S id (x :: r) x HV (INs _ (or_introl eq_refl)) (or_introl eq_refl)) as [Hid _].
    rewrite (chunk_min_ok _ _ _ _ _ _ _ _ V') by lia. cbn [bind].
    exists (ng_set_it g it), ((id, x :: r) :: suf). rewrite Ea. split; [reflexivity|]. split; auto.
    split; [lia|]. intros _. split; [|split; [discriminate|intros ch r' [= <- <-]; cbn [fst]; lia]].
    rewrite (moved_start S f q id) by lia. replace (Z.max f (65536 * id)) with (65536 * id) by lia.
    split; [lia|]. split; [exact V'|]. split; [exists (pre0 ++ pre); split; [exact EC2|apply Hpre; lia]|].
    split; [exact Htl2|]. intros id' c' r' [= <- <- <-]. cbn [ng_set_it g_chunk_id].
    split; [lia|]. split; [lia|]. intro; easy. }
  assert (Ei : id = q / 65536) by lia. rewrite land_65535 by lia.
  assert (INc : In (id, c) (chunks_of S)) by (apply INs; now left).
  pose proof (view_wf _ _ _ _ _ V') as (Hidr & _ & Hsc & Hr). cbn [fst snd] in Hidr, Hsc, Hr.
  assert (Hfe : f < 65536 * (id + 1)) by lia.
  assert (Ee : e / 65536 = id) by (unfold e; lia).
  (* the search inside the chunk *)
  assert (CS : exists g2, (let! t := it_type mem it in
    if t =? t_sparse then ng_sparse dbg mem (ng_set_it g it) (q mod 65536)
    else if t =? t_dense then
      let! v := next_geq_bitmap (words_mem mem (i_data it)) M_Util.chunk_size_in_64bit_words (q mod 65536) in
      Ok (ng_set_it g it, v)
    else if t =? t_full then Ok (ng_set_it g it, q mod 65536) else UB)
    = Ok (g2, nf (fg c (e mod 65536))) /\ g_it g2 = it
    /\ Forall (fun ch => fst ch <> g_chunk_id g2) suf
    /\ (forall x, fg c (e mod 65536) = Some x -> answer S f q = id * 65536 + x ->
          back_inv mem S g2 ((id, c) :: suf) (moved S f q))).
  { pose proof (chunk_search dbg mem 0 it id c suf (q mod 65536) V' ltac:(lia) ltac:(lia)) as CS.
    revert CS. rewrite (id_view_type _ _ _ _ _ (proj1 V')). cbn [bind].
    assert (NS : kind_of c <> KSparse -> g_chunk_id g <> id /\ e = q).
    { intro N. assert (Ng : g_chunk_id g <> id).
      { intro Eg. destruct (HC Eg) as (-> & -> & -> & ->). destruct (Hst _ _ _ Ecs) as (_ & _ & A3).
        destruct (A3 Eg) as (K & _). easy. }
      split; auto. specialize (Hfid Ng). unfold e. lia. }
    assert (NSinv : kind_of c <> KSparse -> forall x, fg c (e mod 65536) = Some x -> answer S f q = id * 65536 + x ->
          back_inv mem S (ng_set_it g it) ((id, c) :: suf) (moved S f q)).
    { intros N x Ex Ax. destruct (NS N) as [Ng Eq]. specialize (Hfid Ng).
      apply fg_Some in Ex as [Ex _]. destruct (chunk_range S id c x HV INc Ex) as [_ Hx].
      rewrite (moved_in S f q id c HV INc) by lia.
      replace (match kind_of c with KSparse => _ | _ => _ end) with (65536 * id) by (destruct (kind_of c); try easy; lia).
      split; [lia|]. split; [exact V'|]. split; [exists (pre0 ++ pre); split; [exact EC2|apply Hpre; lia]|].
      split; [exact Htl2|]. intros id' c' r' [= <- <- <-]. cbn [ng_set_it g_chunk_id].
      split; [lia|]. split; [lia|]. intro; easy. }
    destruct (kind_of c) eqn:K.
    - rewrite Z.eqb_refl. intros _.
      assert (SB : exists pb sb, blocks_of c = pb ++ sb /\ (g_chunk_id g = id -> cur mem g sb)
        /\ (g_chunk_id g <> id -> sb = blocks_of c)
        /\ fg (ungroup 256 sb) (q mod 65536) = fg c (e mod 65536)).
      { destruct (view_blocks _ _ _ _ _ _ V' ltac:(lia) K) as (B & _ & _ & _ & Uc).
        destruct (Z.eq_dec (g_chunk_id g) id) as [Eg|Ng].
        - destruct (HC Eg) as (-> & -> & -> & ->). destruct (Hst _ _ _ Ecs) as (_ & _ & A3).
          destruct (A3 Eg) as (_ & pb & bid & vs & sb & E1 & E2 & E3).
          exists pb, ((bid, vs) :: sb). split; auto. split; auto. split; [easy|].
          pose proof (proj1 (proj1 E3)) as Wb. pose proof (wfb_id _ _ _ Wb) as Hb.
          assert (Ee2 : e mod 65536 = Z.max (q mod 65536) (256 * bid)) by (unfold e; lia).
          rewrite <- Uc, E2. pose proof (proj1 B) as Wc. rewrite E2 in Wc.
          rewrite (fg_pre 256 256); [|lia|apply wf_app in Wc; apply Wc|].
          + destruct (Z_le_gt_dec (q mod 65536) (256 * bid)).
            * destruct (wf_snd_cons _ _ _ _ _ Wb) as (y & r & -> & Hy).
              rewrite !(fg_head 256 256) by (auto; lia). reflexivity.
            * f_equal. lia.
          + destruct Wc as [Wc _]. rewrite map_app in Wc. cbn [map fst] in Wc.
            apply Forall_forall. intros b Hb'.
            apply sorted_app_inv in Wc as (_ & _ & Wc).
            specialize (Wc (fst b) bid (in_map fst _ _ Hb') (or_introl eq_refl)).
            assert (bid <= e mod 65536 / 256) by (apply Z.div_le_lower_bound; lia). lia.
        - exists [], (blocks_of c). split; auto. split; [easy|]. split; auto. rewrite Uc. f_equal.
          specialize (Hfid Ng). unfold e. f_equal. lia. }
      destruct SB as (pb & sb & Eb & SB1 & SB2 & Efg).
      destruct (ng_sparse_cur dbg mem (ng_set_it g it) id c suf (q mod 65536) sb)
        as (g2 & pre2 & suf2 & -> & G1 & G2 & G3 & G4 & G5 & G6); auto; [lia|].
      exists g2. rewrite Efg in *. split; auto. split; auto. split.
      { rewrite G2. apply wf_cons in W2 as (_ & _ & W2).
        eapply Forall_impl; [|exact W2]. cbn. intros; lia. }
      intros x Ex Ax. destruct (G6 x Ex) as (vs & r & E2).
      apply fg_Some in Ex as [Ex _]. destruct (chunk_range S id c x HV INc Ex) as [_ Hx].
      rewrite (moved_in S f q id c HV INc) by lia. rewrite K, Ax.
      assert (Em : 256 * ((id * 65536 + x) / 256) = 65536 * id + 256 * (x / 256)) by lia. rewrite Em.
      split; [lia|]. split; [now rewrite G1|]. split; [exists (pre0 ++ pre); split; [exact EC2|apply Hpre; lia]|].
      cbn [tl]. split.
      { rewrite G2. apply wf_cons in W2 as (_ & _ & W2).
        eapply Forall_impl; [|exact W2]. cbn. intros; lia. }
      intros id' c' r' [= <- <- <-]. split; [lia|]. split; [easy|]. intros _. split; auto.
      exists (pb ++ pre2), (x / 256), vs, r. split; auto. split; [rewrite <- app_assoc, <- E2, <- G4; exact Eb|].
      now rewrite <- E2.
    - cbn [t_dense t_sparse Z.eqb Pos.eqb]. intros ->. cbn [bind].
      destruct (NS ltac:(discriminate)) as [_ Eq]. rewrite Eq in NSinv |- *.
      exists (ng_set_it g it). split; auto. split; auto. split; auto. apply NSinv. discriminate.
    - cbn [t_full t_dense t_sparse Z.eqb Pos.eqb]. 
      destruct (NS ltac:(discriminate)) as [_ Eq]. rewrite Eq in NSinv |- *. intros [= <-].
      exists (ng_set_it g it). split; auto. split; auto. split; auto. apply NSinv. discriminate. }
  destruct CS as (g2 & CS & Jit & Jtl & Jinv). revert CS.
  rewrite (id_view_type _ _ _ _ _ (proj1 V')). cbn [bind]. intros ->. cbn [bind].
  rewrite (fg_same 65536 65535) in Ea by (auto; lia).
  destruct (fg c (e mod 65536)) as [x|] eqn:Ex; cbn [nf].
  - pose proof Ex as Ex2. apply fg_Some in Ex2 as [Ex2 _]. destruct (chunk_range S id c x HV INc Ex2) as [_ Hx].
    change not_found with 4294967295. destruct (Z.eqb_spec x 4294967295); [lia|]. cbn [negb bind].
    cbn [nf] in Ea. rewrite u32_id by lia. replace (x + id * 65536) with (id * 65536 + x) by lia.
    exists g2, ((id, c) :: suf). rewrite Ea at 1. split; [reflexivity|]. split; auto.
    split; [lia|]. intros _. split; [now apply (Jinv x)|]. split; [discriminate|].
    intros ch r' [= <- <-]. cbn [fst]. lia.
  - rewrite Z.eqb_refl. cbn [negb]. destruct (view_next _ _ _ _ _ _ V') as (it' & -> & V2 & _).
    cbn [bind]. rewrite (id_view_has_next _ _ _ (proj1 V2)).
    assert (L2 : zlen suf <= zlen cs) by (rewrite zlen_cons in Ln; lia).
    destruct suf as [|[id2 c2] suf].
    + exists (ng_set_it g2 it'), []. rewrite Ea. cbn [ungroup flat_map fg find nf].
      split; [reflexivity|]. split; auto. split; [intros _; exact V2|]. intro n. exfalso. apply n. reflexivity.
    + apply wf_cons in W2 as (_ & W3 & F). pose proof (Forall_inv F) as FF1. cbn [fst] in FF1.
      destruct (wf_snd_cons _ _ _ _ _ W3) as (x & r & -> & Hx).
      rewrite (fg_head 65536 65535) in Ea by (auto; lia). cbn [nf] in Ea.
      rewrite (chunk_min_ok _ _ _ _ _ _ _ _ V2) by lia. cbn [bind].
      destruct (chunk_range S id2 (x :: r) x HV (INs _ (or_intror (or_introl eq_refl))) (or_introl eq_refl)) as [Hid _].
      exists (ng_set_it g2 it'), ((id2, x :: r) :: suf). rewrite Ea. split; [reflexivity|]. split; auto.
      split; [lia|]. intros _. split; [|split; [discriminate|intros ch r' [= <- <-]; cbn [fst]; lia]].
      rewrite (moved_start S f q id2) by lia. replace (Z.max f (65536 * id2)) with (65536 * id2) by lia.
      pose proof (Forall_inv Jtl) as JT1. pose proof (Forall_inv_tail Jtl) as JT2. cbn [fst] in JT1.
      split; [lia|]. split; [exact V2|]. split.
      { exists ((pre0 ++ pre) ++ [(id, c)]). split; [rewrite <- app_assoc; exact EC2|].
        replace (65536 * id2 / 65536) with id2 by lia. apply Forall_app. split.
        - specialize (Hpre (65536 * id) ltac:(lia)). replace (65536 * id / 65536) with id in Hpre by lia.
          eapply Forall_impl; [|exact Hpre]. cbn beta. intros; lia.
        - constructor; [cbn [fst]; lia|constructor]. }
      split; [exact JT2|]. intros id' c' r' [= <- <- <-]. cbn [ng_set_it g_chunk_id].
      split; [lia|]. split; [lia|]. intro; congruence.
Qed.

(** ** histories *)
Lemma back_end dbg mem g q :
  it_view 0 mem (g_it g) [] -> is_u32 q -> q <> 0 ->
  exists g', ng_next_geq dbg mem g q = Ok (g', 4294967295) /\ it_view 0 mem (g_it g') [].
Proof.
  intros V Hq N. unfold is_u32 in Hq. unfold ng_next_geq. rewrite shiftr_16.
  destruct (skip_to_value_ok 0 mem (g_it g) [] (q / 65536)) as (it & pre & suf & -> & D & V' & _);
    [exact V|lia|right; left; rewrite zlen_nil; lia|]. cbn [bind].
  destruct D as (E & _). symmetry in E. apply app_eq_nil in E as [-> ->].
  rewrite (id_view_base _ _ _ (proj1 V')). cbn [bind]. destruct (Z.leb_spec q 0); [lia|].
  rewrite (id_view_has_next _ _ _ (proj1 V')). eexists. split; [reflexivity|exact V'].
Qed.
Lemma back_end_run dbg mem qs : forall g,
  it_view 0 mem (g_it g) [] -> Forall is_u32 qs -> Forall (fun q => q <> 0) qs ->
  ng_run dbg mem g qs = Ok (map (fun _ => 4294967295) qs).
Proof.
  induction qs as [|q qs IH]; intros g V Hq Hn; cbn [ng_run map]; auto.
  inversion Hq; subst. inversion Hn; subst.
  destruct (back_end dbg mem g q) as (g' & -> & V'); auto. cbn [bind]. rewrite (IH g'); auto.
Qed.

Lemma back_run dbg mem S qs : forall g cs f prev,
  valid S -> back_inv mem S g cs f -> cs <> [] -> Forall is_u32 qs -> no_restart S f qs ->
  (zlen cs <= 32 \/ near S f prev qs /\ forall ch r, cs = ch :: r -> prev / 65536 = fst ch) ->
  ng_run dbg mem g qs = Ok (answers S f qs).
Proof.
  induction qs as [|q qs IH]; intros g cs f prev HV I Ne Hq Hr Hn; cbn [ng_run answers]; auto.
  inversion Hq as [|? ? Hq1 Hq2]; subst. cbn [no_restart near] in *.
  destruct (skip_to_value_ok 0 mem (g_it g) cs (q / 65536)) as (it & pre & suf & E & D & V' & _).
  { apply I. } { unfold is_u32 in Hq1; lia. }
  { right. destruct Hn as [Hn|[[Hn _] Hp]]; auto. right. destruct cs as [|ch r]; [easy|].
    exists ch, r. split; auto. rewrite <- (Hp ch r eq_refl). exact Hn. }
  destruct (back_step dbg mem S g cs f q it pre suf) as (g' & cs' & -> & L & A1 & A2); auto.
  cbn [bind]. destruct (Z.eqb_spec (answer S f q) 4294967295) as [Ea|Na].
  - rewrite (back_end_run dbg mem qs g'); auto.
  - destruct (A2 Na) as (I' & Ne' & Hp'). rewrite (IH g' cs' (moved S f q) (answer S f q)); auto.
    destruct Hn as [Hn|[[_ Hn] _]]; [left; lia|right; auto].
Qed.

Lemma back_init mem a S :
  valid S -> stored 0 mem a S ->
  exists s g, seq_at mem a = Ok s /\ ng_init mem s = Ok g /\ ng_size g = zlen S
    /\ back_inv mem S g (chunks_of S) 0 /\ aligned mem (g_it g) (chunks_of S) /\ chunks_of S <> [].
Proof.
  intros H St. destruct (ng_init_ok mem a S H St) as (s & g & E1 & E2 & E3 & (V & _ & _ & Htl & _) & A).
  exists s, g. do 3 (split; auto). destruct (valid_chunks S H) as (W & N & _). split; [|split; auto].
  split; [lia|]. split; auto. split; [exists []; split; [reflexivity|constructor]|]. split; auto.
  intros id c r E.
  assert (Hid : 0 <= id < 65535).
  { destruct W as [_ W]. rewrite Forall_forall in W. destruct (W (id, c)) as (Hb & _); [rewrite E; now left|exact Hb]. }
  change (0 / 65536) with 0. split; [lia|]. split; [lia|]. intro Eg. exfalso.
  unfold ng_init in E2. destruct (seq_size mem s); try discriminate. cbn [bind] in E2.
  injection E2 as <-. cbn [g_chunk_id] in Eg. change (u32 (-1)) with 4294967295 in Eg. lia.
Qed.

Lemma back_history dbg mem a S q qs :
  valid S -> stored 0 mem a S -> Forall is_u32 (q :: qs) -> no_restart S 0 (q :: qs) ->
  zlen (nodup Z.eq_dec (map (fun v => v / 65536) S)) <= 32
    \/ (answer S 0 q <> 4294967295 -> near S (moved S 0 q) (answer S 0 q) qs) ->
  exists s g, seq_at mem a = Ok s /\ ng_init mem s = Ok g /\ ng_size g = zlen S
    /\ ng_run dbg mem g (q :: qs) = Ok (answers S 0 (q :: qs)).
Proof.
  intros HV St Hq Hr Hn. destruct (back_init mem a S HV St) as (s & g & E1 & E2 & E3 & I & A & Ne).
  exists s, g. do 3 (split; auto). inversion Hq as [|? ? Hq1 Hq2]; subst. cbn [no_restart ng_run answers] in *.
  destruct (skip_to_value_ok 0 mem (g_it g) (chunks_of S) (q / 65536)) as (it & pre & suf & E & D & V' & _).
  { apply I. } { unfold is_u32 in Hq1; lia. } { now left. }
  destruct (back_step dbg mem S g (chunks_of S) 0 q it pre suf) as (g' & cs' & -> & L & A1 & A2); auto.
  cbn [bind]. destruct (Z.eqb_spec (answer S 0 q) 4294967295) as [Ea|Na].
  - rewrite (back_end_run dbg mem qs g'); auto.
  - destruct (A2 Na) as (I' & Ne' & Hp'). rewrite (back_run dbg mem S qs g' cs' (moved S 0 q) (answer S 0 q)); auto.
    destruct Hn as [Hn|Hn]; [left; rewrite <- chunks_of_nodup in Hn by auto; lia|right; auto].
Qed.

(** ** examples *)
Definition exM : list Z := [7; 300; 301; 70000; 70300; 70301; 140000].
Definition encM : list Z := Eval vm_compute in snd (builder_build false [] exM).
Definition memM : list Z := Eval vm_compute in encM ++ repeat 0 31.
Lemma valid_M : valid exM.
Proof. apply valid_b_ok. vm_compute. reflexivity. Qed.
Lemma stored_M : stored 31 memM 0 exM.
Proof. exact (stored_mid false exM encM [] (repeat 0 31) 31 (encoding_ok false exM valid_M) ltac:(vm_compute; discriminate)). Qed.
Lemma no_restart_M : no_restart exM 0 [70001; 5; 70000; 65537; 70301; 66000; 140000; 140001; 7].
Proof. vm_compute. constructor; [discriminate|constructor]. Qed.
Lemma near_M : near exM (moved exM 0 70001) (answer exM 0 70001) [5; 70000; 65537; 70301; 66000; 140000; 140001; 7].
Proof. vm_compute. repeat (split; [reflexivity|intros _]). exact I. Qed.

Definition exN : list Z := [5; 300; 600].
Definition encN : list Z := Eval vm_compute in snd (builder_build false [] exN).
Definition memN : list Z := Eval vm_compute in encN ++ repeat 0 31.
Lemma valid_N : valid exN.
Proof. apply valid_b_ok. vm_compute. reflexivity. Qed.
Lemma stored_N : stored 31 memN 0 exN.
Proof. exact (stored_mid false exN encN [] (repeat 0 31) 31 (encoding_ok false exN valid_N) ltac:(vm_compute; discriminate)). Qed.

Lemma back_lost : exists S mem a qs s g r,
  valid S /\ stored 31 mem a S /\ Forall is_u32 qs /\ seq_at mem a = Ok s /\ ng_init mem s = Ok g
  /\ (forall dbg, ng_run dbg mem g qs = Ok r)
  /\ exists i q x, znth qs i = Some q /\ znth r i = Some x /\ In q S /\ x <> q.
Proof.
  exists exM, memM, 0, [70001; 70000]. do 3 eexists. split; [exact valid_M|]. split; [exact stored_M|].
  split; [repeat constructor; vm_compute; congruence|].
  split; [vm_compute; reflexivity|]. split; [vm_compute; reflexivity|].
  split; [intros []; vm_compute; reflexivity|].
  exists 1, 70000, 70300. split; [reflexivity|]. split; [reflexivity|]. split; [cbn; auto 10|discriminate].
Qed.
Lemma back_restart : exists S mem a qs s g r,
  valid S /\ stored 31 mem a S /\ Forall is_u32 qs /\ seq_at mem a = Ok s /\ ng_init mem s = Ok g
  /\ (forall dbg, ng_run dbg mem g qs = Ok r)
  /\ exists x, In x r /\ x <> 4294967295 /\ ~ In x S.
Proof.
  exists exN, memN, 0, [601; 0]. do 3 eexists. split; [exact valid_N|]. split; [exact stored_N|].
  split; [repeat constructor; vm_compute; congruence|].
  split; [vm_compute; reflexivity|]. split; [vm_compute; reflexivity|].
  split; [intros []; vm_compute; reflexivity|].
  exists 0. split; [right; now left|]. split; [discriminate|]. cbn. lia.
Qed.
Lemma back_restart_ub : exists S mem a qs s g,
  valid S /\ stored 31 mem a S /\ Forall is_u32 qs /\ seq_at mem a = Ok s /\ ng_init mem s = Ok g
  /\ (forall dbg, ng_run dbg mem g qs = UB).
Proof.
  exists exM, memM, 0, [140001; 0]. do 2 eexists. split; [exact valid_M|]. split; [exact stored_M|].
  split; [repeat constructor; vm_compute; congruence|].
  split; [vm_compute; reflexivity|]. split; [vm_compute; reflexivity|]. intros []; vm_compute; reflexivity.
Qed.
