(** next_geq_enumerator. *)
From Verif Require Import Base Hw Spec Lib L_Bits L_Group Layout M_Util M_Seq M_Query
  P_Build1 P_Build2 P_Build3 P_Seq P_Decode P_Query P_NextGeq.

(** the block cursor of the enumerator stands at a suffix of the blocks of [c] that
    answers every query >= w *)
Definition blk_state (mem : list Z) (g : ng_enumerator) (c : list Z) (w : Z) : Prop :=
  exists sufb, blocks_at mem (g_begin g) (g_data g) sufb
    /\ g_end g = g_begin g + 2 * zlen sufb /\ 0 <= g_end g < zlen mem
    /\ (forall b r, sufb = b :: r -> g_id g = fst b)
    /\ (forall v, w <= v -> fg c v = fg (ungroup 256 sufb) v).

Lemma ng_sparse_ok dbg mem g id c cs v w :
  it_view 0 mem (g_it g) ((id, c) :: cs) -> kind_of c = KSparse -> 0 <= v < 65536 ->
  (g_chunk_id g = id -> blk_state mem g c w /\ w <= v) ->
  exists g', ng_sparse dbg mem g v = Ok (g', nf (fg c v)) /\ g_it g' = g_it g
    /\ g_chunk_id g' = id /\ g_size g' = g_size g /\ blk_state mem g' c v.
Proof.
  intros V K Hv HS. unfold ng_sparse. rewrite (id_view_id _ _ _ (proj1 V)). cbn [bind fst].
  assert (R : exists g1,
    (if negb (g_chunk_id g =? id) then
       let! blocks := it_blocks mem (g_it g) in
       let! _ := assert_ dbg ((1 <=? blocks) && (blocks <=? 256)) in
       let begin := i_data (g_it g) in
       let data := begin + blocks * 2 in
       let! id0 := rd8 mem begin in
       Ok (mkNg id id0 begin data data (g_size g) (g_it g))
     else Ok g) = Ok g1 /\ g_it g1 = g_it g /\ g_chunk_id g1 = id /\ g_size g1 = g_size g
    /\ blk_state mem g1 c v).
  { destruct (Z.eqb_spec (g_chunk_id g) id) as [Eg|Eg]; cbn [negb].
    - exists g. destruct (HS Eg) as ((sb & H1 & H2 & H3 & H4 & H5) & Hw).
      split; auto. split; auto. split; auto. split; auto.
      exists sb. do 4 (split; auto). intros; apply H5; lia.
    - rewrite (id_view_blocks _ _ _ _ _ (proj1 V) K). cbn [bind].
      destruct (view_blocks _ _ _ _ _ _ V ltac:(lia) K) as (B & Hn & Hd & Hm & U).
      rewrite assert_ok by (apply andb_true_intro; split; apply Z.leb_le; lia). cbn [bind].
      replace (i_data (g_it g) + zlen (blocks_of c) * 2) with (i_data (g_it g) + 2 * zlen (blocks_of c)) by lia.
      assert (R : exists i, rd8 mem (i_data (g_it g)) = Ok i /\ forall b r, blocks_of c = b :: r -> i = fst b).
      { destruct (blocks_of c) as [|[i vs] bs]; [rewrite zlen_nil in *; lia|].
        apply blocks_at_cons in B as (_ & E & _). exists i. split; auto. now intros b r [= <- <-]. }
      destruct R as (i & -> & Hi). cbn [bind].
      eexists. split; [reflexivity|]. cbn [g_it g_chunk_id g_size]. do 3 (split; auto).
      exists (blocks_of c). cbn [g_begin g_data g_end g_id]. split; auto. split; auto. split; [lia|].
      split; auto. intros. now rewrite U. }
  destruct R as (g1 & R & I1 & I2 & I3 & (sb & B & He & Hm & Hid & Hfg)).
  cbn [bind] in R |- *. rewrite R. cbn [bind].
  rewrite shiftr_8. pose proof (zlen_nonneg _ sb) as Hsb.
  destruct (find_block_ok mem (g_end g1) (v / 256) sb (S (Z.to_nat (g_end g1 - g_begin g1))) (g_begin g1)
    (g_data g1) (g_id g1)) as (pre & suf & d & id2 & -> & E & F & B2 & L); auto; try lia.
  { rewrite length_zlen. lia. }
  pose proof (proj1 B) as W. cbn [bind g_end g_chunk_id g_size g_it]. rewrite Hfg by lia.
  assert (Hfg' : forall u, v <= u -> fg c u = fg (ungroup 256 suf) u).
  { intros u Hu. rewrite Hfg by lia. rewrite E in W |- *. apply (fg_pre 256 256); auto; [lia| |].
    - apply wf_app in W. apply W.
    - eapply Forall_impl; [|exact F]. cbn. intros b Hb. assert (v / 256 <= u / 256) by (apply Z.div_le_mono; lia). lia. }
  rewrite <- Hfg by lia. rewrite Hfg' by lia.
  rewrite E in W. apply wf_app in W as [_ W].
  rewrite E, zlen_app in He.
  assert (ST : forall j, (forall b r, suf = b :: r -> j = fst b) ->
    blk_state mem (mkNg (g_chunk_id g1) j (g_begin g1 + 2 * zlen pre) (g_end g1) d (g_size g1) (g_it g1)) c v).
  { intros j Hj. exists suf. cbn [g_begin g_data g_end g_id]. split; auto. split; [lia|]. auto. }
  destruct suf as [|[i vs] suf].
  - rewrite zlen_nil in *. destruct (Z.eqb_spec (g_begin g1 + 2 * zlen pre) (g_end g1)); [|lia].
    cbn [negb]. eexists. split; [reflexivity|]. cbn [g_it g_chunk_id g_size]. do 3 (split; auto).
    apply ST. easy.
  - destruct (L _ _ eq_refl) as [-> Hi]. cbn [fst] in Hi |- *. rewrite zlen_cons in *. zpos.
    destruct (Z.eqb_spec (g_begin g1 + 2 * zlen pre) (g_end g1)); [lia|].
    cbn [negb]. pose proof (wfb_id _ _ _ W) as Hi2.
    assert (Hhd : forall b r, (i, vs) :: suf = b :: r -> i = fst b) by (now intros b r [= <- <-]).
    specialize (ST i Hhd).
    destruct (wf_snd_cons _ _ _ _ _ W) as (x & r & -> & Hx).
    destruct (Z.leb_spec v (i * 256)).
    + rewrite (fg_head 256 256) by (auto; lia). cbn [nf].
      rewrite (block_min_ok _ _ _ _ _ _ _ (i * 256) B2) by lia. cbn [bind].
      eexists. split; [reflexivity|]. cbn [g_it g_chunk_id g_size]. auto.
    + assert (Ei : i = v / 256) by lia. rewrite land_255 by lia.
      rewrite (fg_same 256 256) by (auto; lia).
      destruct (max_value_in_block_ok _ _ _ _ _ _ B2) as (m & -> & Hm1 & Hm2). cbn [bind].
      destruct (block_search _ _ _ _ _ _ (v mod 256) B2 ltac:(lia)) as (E2 & S1 & S2).
      destruct (Z.ltb_spec m (v mod 256)).
      * assert (N1 : Forall (fun z => z < v mod 256) (x :: r)).
        { eapply Forall_impl; [|exact Hm2]. cbn beta; intros; lia. }
        rewrite (fg_none (x :: r)) by auto.
        pose proof B2 as B5.
        apply blocks_at_cons in B2 as (W1 & _ & _ & _ & B3 & HF).
        destruct suf as [|[i2 v2] suf].
        -- rewrite zlen_nil in *. destruct (Z.eqb_spec (g_begin g1 + 2 * zlen pre + 2) (g_end g1)); [|lia].
           eexists. split; [reflexivity|]. cbn [g_it g_chunk_id g_size]. auto.
        -- rewrite zlen_cons in He. zpos.
           destruct (Z.eqb_spec (g_begin g1 + 2 * zlen pre + 2) (g_end g1)); [lia|].
           rewrite E2. cbn [bind]. replace (zlen (x :: r) - 1 + 1) with (zlen (x :: r)) by lia.
           pose proof (proj1 B3) as W3. pose proof (wfb_id _ _ _ W3) as Hi3.
           destruct (wf_snd_cons _ _ _ _ _ W3) as (y & r2 & -> & Hy).
           inversion HF as [|? ? HF1 HF2]. cbn [fst] in HF1.
           rewrite (fg_head 256 256) by (auto; lia). cbn [nf].
           pose proof B3 as B4. apply blocks_at_cons in B4 as (_ & -> & _). cbn [bind].
           rewrite (block_min_ok _ _ _ _ _ _ _ (i2 * 256) B3) by lia. cbn [bind].
           eexists. split; [reflexivity|]. cbn [g_it g_chunk_id g_size]. do 3 (split; auto).
           exists ((i2, y :: r2) :: suf). cbn [g_begin g_data g_end g_id].
           split; auto. split; [rewrite zlen_cons; lia|]. split; auto. split; [now intros b r' [= <- <-]|].
           intros u Hu. rewrite Hfg' by lia. rewrite ungroup_cons, fg_app, fg_none; auto.
           unfold ungroup1. cbn [fst snd]. apply Forall_map.
           eapply Forall_impl; [|exact N1]. cbn beta; intros; lia.
      * destruct (fg (x :: r) (v mod 256)) as [z|] eqn:Ez.
        2:{ apply fg_None in Ez. rewrite Forall_forall in Ez. specialize (Ez m Hm1). lia. }
        assert (Hz : 0 <= z < 256).
        { apply fg_Some in Ez as [Ez _]. apply wf_cons in W as (W & _). destruct W as (_ & _ & _ & W).
          rewrite Forall_forall in W. auto. }
        rewrite E2. cbn [bind]. replace (zlen (x :: r) - 1 + 1) with (zlen (x :: r)) by lia.
        assert (EZ : u32 (z + i * 256) = i * 256 + z) by (rewrite u32_id by lia; lia).
        destruct (Z.ltb_spec (zlen (x :: r)) 31).
        -- rewrite S1 by lia. cbn [bind nf]. rewrite EZ.
           eexists. split; [reflexivity|]. cbn [g_it g_chunk_id g_size]. auto.
        -- rewrite S2 by lia. cbn [bind nf]. rewrite EZ.
           eexists. split; [reflexivity|]. cbn [g_it g_chunk_id g_size]. auto.
Qed.

(** the enumerator stands at chunks [cs], which answer every query >= v0 *)
Definition ng_inv (mem : list Z) (S : list Z) (g : ng_enumerator) (cs : list (Z * list Z)) (v0 : Z) : Prop :=
  it_view 0 mem (g_it g) cs
  /\ (exists pre, chunks_of S = pre ++ cs)
  /\ (forall v, v0 <= v -> fg S v = fg (ungroup 65536 cs) v)
  /\ Forall (fun ch => fst ch <> g_chunk_id g) (tl cs)
  /\ (forall id c r, cs = (id, c) :: r -> g_chunk_id g = id ->
        exists w, blk_state mem g c w /\ id * 65536 + w <= v0).

Lemma blk_state_it mem g it c w : blk_state mem g c w -> blk_state mem (ng_set_it g it) c w.
Proof. exact (fun H => H). Qed.

Lemma Forall_tl A (P : A -> Prop) pre suf : pre <> [] -> Forall P (tl (pre ++ suf)) -> Forall P suf.
Proof. intros N F. destruct pre as [|x pre]; [easy|]. cbn [app tl] in F. apply Forall_app in F. apply F. Qed.
Lemma Forall_tl' A (P : A -> Prop) l : Forall P l -> Forall P (tl l).
Proof. destruct 1; cbn; auto. Qed.

(** one call, once the iterator has been moved to the right chunk *)
Lemma ng_next_geq_skip dbg mem S g cs v0 v it pre suf :
  valid S -> ng_inv mem S g cs v0 -> v0 <= v -> is_u32 v ->
  skip_to_value mem (g_it g) (v / 65536) = Ok it -> dropped (v / 65536) cs pre suf ->
  it_view 0 mem it suf ->
  exists g' cs', ng_next_geq dbg mem g v = Ok (g', spec_next_geq S v)
    /\ ng_inv mem S g' cs' v /\ g_size g' = g_size g /\ zlen cs' <= zlen suf
    /\ (forall ch r, cs' = ch :: r -> spec_next_geq S v / 65536 = fst ch)
    /\ i_pointers (g_it g') = i_pointers it /\ i_end (g_it g') = i_end it
    /\ i_data (g_it g') + zlen (cdatas cs') = i_data it + zlen (cdatas suf).
Proof.
  intros HV (V & (pre0 & EC) & Hfg & Htl & Hst) Hv0 Hv ESK D V'. unfold is_u32 in Hv.
  unfold ng_next_geq. rewrite shiftr_16, ESK. cbn [bind].
  pose proof (proj1 (proj1 V)) as W.
  rewrite fg_spec, Hfg by lia. destruct D as (E & F1 & F2).
  assert (Hfg' : forall u, v <= u -> fg S u = fg (ungroup 65536 suf) u).
  { intros u Hu. rewrite Hfg by lia. rewrite E in W |- *. apply (fg_pre 65536 65535); auto; [lia| |].
    - apply wf_app in W. apply W.
    - eapply Forall_impl; [|exact F1]. cbn. intros b Hb.
      assert (v / 65536 <= u / 65536) by (apply Z.div_le_mono; lia). lia. }
  rewrite <- Hfg by lia. rewrite Hfg' by lia.
  assert (I1 : ng_inv mem S (ng_set_it g it) suf v).
  { split; auto. split. { exists (pre0 ++ pre). rewrite <- app_assoc. now rewrite <- E. }
    split; auto. cbn [ng_set_it g_chunk_id]. destruct pre as [|p pre].
    - cbn [app] in E. subst suf. split; auto. intros id c r E1 E2.
      destruct (Hst id c r E1 E2) as (w & Hw1 & Hw2). exists w. split; [exact Hw1|lia].
    - rewrite E in Htl. apply Forall_tl in Htl; [|easy]. split; [now apply Forall_tl'|].
      intros id c r E1 E2. rewrite E1 in Htl. inversion Htl; subst. cbn [fst] in *. easy. }
  assert (L1 : zlen suf <= zlen suf) by lia.
  rewrite (id_view_base _ _ _ (proj1 V')). cbn [bind].
  rewrite (id_view_has_next _ _ _ (proj1 V')).
  pose proof (proj1 (proj1 V')) as W2.
  destruct suf as [|[id c] suf].
  - destruct (Z.leb_spec v 0).
    { (* only possible before the first chunk *)
      destruct pre as [|ch pre].
      - exfalso. destruct HV as (N & _ & R). destruct S as [|y S]; [easy|].
        inversion R; subst. specialize (Hfg' v ltac:(lia)). rewrite fg_hd in Hfg' by lia. easy.
      - exfalso. inversion F1; subst. cbn [app] in W. destruct ch as [i c]. apply wfc_id in W. cbn [fst] in *. lia. }
    exists (ng_set_it g it), []. split; [reflexivity|]. split; auto. split; auto. split; auto. split; [easy|]. auto.
  - cbn [fst]. pose proof (wfc_id _ _ _ W2) as Hid. inversion F2; subst. cbn [fst] in *.
    destruct (Z.leb_spec v (id * 65536)).
    + destruct (wf_snd_cons _ _ _ _ _ W2) as (x & r & -> & Hx).
      rewrite (fg_head 65536 65535) by (auto; lia). cbn [nf].
      rewrite (chunk_min_ok _ _ _ _ _ _ _ _ V') by lia. cbn [bind].
      eexists _, _. split; [reflexivity|]. split; [exact I1|]. split; auto. split; auto.
      split; [|auto]. intros ch r' [= <- <-]. cbn [fst]. lia.
    + assert (Ei : id = v / 65536) by lia. rewrite (fg_same 65536 65535) by (auto; lia).
      rewrite land_65535 by lia.
      pose proof (view_wf _ _ _ _ _ V') as (_ & _ & _ & Hr). cbn [snd] in Hr.
      (* the search inside the chunk *)
      assert (CS : exists g2, (let! t := it_type mem it in
        if t =? t_sparse then ng_sparse dbg mem (ng_set_it g it) (v mod 65536)
        else if t =? t_dense then
          let! v := next_geq_bitmap (words_mem mem (i_data it)) M_Util.chunk_size_in_64bit_words (v mod 65536) in
          Ok (ng_set_it g it, v)
        else if t =? t_full then Ok (ng_set_it g it, v mod 65536) else UB)
        = Ok (g2, nf (fg c (v mod 65536))) /\ ng_inv mem S g2 ((id, c) :: suf) v /\ g_size g2 = g_size g
        /\ g_it g2 = it).
      { pose proof (chunk_search dbg mem 0 it id c suf (v mod 65536) V' ltac:(lia) ltac:(lia)) as CS.
        revert CS. rewrite (id_view_type _ _ _ _ _ (proj1 V')). cbn [bind].
        destruct (kind_of c) eqn:K.
        - rewrite Z.eqb_refl. intros _. destruct I1 as (J1 & J2 & J3 & J4 & J5).
          destruct (ng_sparse_ok dbg mem (ng_set_it g it) id c suf (v mod 65536) (v mod 65536))
            as (g2 & -> & G1 & G2 & G3 & G4); auto; [lia| |].
          { intro Eg. destruct (J5 id c suf eq_refl Eg) as (w & (sb & S1 & S2 & S3 & S4 & S5) & Hw).
            split; [|lia]. exists sb. do 4 (split; auto). intros; apply S5; lia. }
          exists g2. split; auto. split; [|split; auto].
          split; [now rewrite G1|]. split; auto. split; auto. split.
          + rewrite G2. cbn [tl]. apply wf_cons in W2 as (_ & _ & W2).
            eapply Forall_impl; [|exact W2]. cbn. intros; lia.
          + intros id' c' r' [= <- <- <-] _. exists (v mod 65536). split; auto. lia.
        - cbn [t_dense t_sparse Z.eqb Pos.eqb]. intros ->. cbn [bind].
          exists (ng_set_it g it). auto.
        - cbn [t_full t_dense t_sparse Z.eqb Pos.eqb]. intros [= <-].
          exists (ng_set_it g it). auto. }
      destruct CS as (g2 & CS & J & Jsz & Jit). revert CS.
      rewrite (id_view_type _ _ _ _ _ (proj1 V')). cbn [bind]. intros ->. cbn [bind].
      destruct (fg c (v mod 65536)) as [x|] eqn:Ex; cbn [nf].
      * apply fg_Some in Ex as [Ex _]. rewrite Forall_forall in Hr. specialize (Hr x Ex).
        change not_found with 4294967295. destruct (Z.eqb_spec x 4294967295); [lia|]. cbn [negb bind].
        rewrite u32_id by lia. replace (x + id * 65536) with (id * 65536 + x) by lia.
        eexists _, _. split; [reflexivity|]. split; [exact J|]. split; auto. split; auto.
        split; [|rewrite Jit; auto]. intros ch r' [= <- <-]. cbn [fst]. lia.
      * rewrite Z.eqb_refl. cbn [negb]. destruct (view_next _ _ _ _ _ _ V') as (it' & -> & V2 & _ & EP & ED & EE).
        cbn [bind]. rewrite (id_view_has_next _ _ _ (proj1 V2)).
        assert (J' : ng_inv mem S (ng_set_it g2 it') suf v).
        { destruct J as (J1 & J2 & J3 & J4 & J5). split; auto. split.
          { exists (pre0 ++ pre ++ [(id, c)]). rewrite <- !app_assoc. exact EC. }
          split.
          { intros u Hu. rewrite Hfg' by auto. rewrite ungroup_cons, fg_app, fg_none; auto.
            apply fg_None in Ex. unfold ungroup1. cbn [fst snd]. apply Forall_map.
            eapply Forall_impl; [|exact Ex]. cbn beta; intros; lia. }
          cbn [tl] in J4. split; [now apply Forall_tl'|].
          intros id' c' r' E1 E2. rewrite E1 in J4. inversion J4; subst. cbn [fst] in *. easy. }
        assert (ED2 : i_data it' + zlen (cdatas suf) = i_data it + zlen (cdatas ((id, c) :: suf))).
        { rewrite cdatas_cons, zlen_app, ED. cbn [snd]. lia. }
        assert (L2 : zlen suf <= zlen ((id, c) :: suf)) by (rewrite zlen_cons; lia).
        destruct suf as [|[id2 c2] suf].
        -- eexists _, _. split; [reflexivity|]. split; [exact J'|]. split; auto. split; [exact L2|]. split; [easy|]. split; [exact EP|]. split; [exact EE|exact ED2].
        -- apply wf_cons in W2 as (_ & W3 & F). inversion F; subst. cbn [fst] in *.
           destruct (wf_snd_cons _ _ _ _ _ W3) as (x & r & -> & Hx).
           rewrite (fg_head 65536 65535) by (auto; lia). cbn [nf].
           rewrite (chunk_min_ok _ _ _ _ _ _ _ _ V2) by lia. cbn [bind].
           eexists _, _. split; [reflexivity|]. split; [exact J'|]. split; auto. split; [exact L2|]. split; [|split; [exact EP|]; split; [exact EE|exact ED2]].
           intros ch r' [= <- <-]. cbn [fst]. lia.
Qed.

Lemma ng_next_geq_ok dbg mem S g cs v0 v :
  valid S -> ng_inv mem S g cs v0 -> v0 <= v -> is_u32 v ->
  (aligned mem (g_it g) cs \/ zlen cs <= 32 \/ exists ch r, cs = ch :: r /\ v / 65536 < fst ch + 32) ->
  exists g' cs', ng_next_geq dbg mem g v = Ok (g', spec_next_geq S v)
    /\ ng_inv mem S g' cs' v /\ g_size g' = g_size g /\ zlen cs' <= zlen cs
    /\ (forall ch r, cs' = ch :: r -> spec_next_geq S v / 65536 = fst ch).
Proof.
  intros HV I Hv0 Hv Hc.
  destruct (skip_to_value_ok 0 mem (g_it g) cs (v / 65536)) as (it & pre & suf & E & D & V' & _);
    [apply I|unfold is_u32 in Hv; lia|exact Hc|].
  destruct (ng_next_geq_skip dbg mem S g cs v0 v it pre suf) as (g' & cs' & H1 & H2 & H3 & H4 & H5 & _); auto.
  assert (zlen suf <= zlen cs) by (destruct D as (-> & _); rewrite zlen_app; pose proof (zlen_nonneg _ pre); lia).
  exists g', cs'. repeat split; auto; try apply H2. lia.
Qed.

(** ** histories *)
Lemma ng_run_small dbg mem S qs : forall g cs v0,
  valid S -> ng_inv mem S g cs v0 -> Forall is_u32 qs -> non_decreasing v0 qs -> zlen cs <= 32 ->
  ng_run dbg mem g qs = Ok (map (spec_next_geq S) qs).
Proof.
  induction qs as [|q qs IH]; intros g cs v0 HV I Hq Hn Hl; cbn [ng_run map]; auto.
  inversion Hq; subst. cbn [non_decreasing] in Hn.
  destruct (ng_next_geq_ok dbg mem S g cs v0 q) as (g' & cs' & -> & I' & _ & L & _); auto; try lia.
  cbn [bind]. rewrite (IH g' cs' q); auto; try lia. tauto.
Qed.
Lemma ng_run_gentle dbg mem S qs : forall g cs v0 prev,
  valid S -> ng_inv mem S g cs v0 -> Forall is_u32 qs -> non_decreasing v0 qs -> gentle S prev qs ->
  (forall ch r, cs = ch :: r -> prev / 65536 = fst ch) ->
  ng_run dbg mem g qs = Ok (map (spec_next_geq S) qs).
Proof.
  induction qs as [|q qs IH]; intros g cs v0 prev HV I Hq Hn Hg Hp; cbn [ng_run map]; auto.
  inversion Hq; subst. cbn [non_decreasing gentle] in *. destruct Hg as [Hg1 Hg2].
  destruct (ng_next_geq_ok dbg mem S g cs v0 q) as (g' & cs' & -> & I' & _ & L & L'); auto; try lia.
  { destruct cs as [|ch r]; [right; left; rewrite zlen_nil; lia|].
    right; right. exists ch, r. split; auto. rewrite <- (Hp ch r); auto. }
  cbn [bind]. rewrite (IH g' cs' q (spec_next_geq S q)); auto; try lia. tauto.
Qed.

Lemma chunks_of_nodup S : valid S -> zlen (chunks_of S) = zlen (nodup Z.eq_dec (map (fun v => v / 65536) S)).
Proof.
  intro H. destruct (valid_chunks S H) as (W & _ & U & _).
  rewrite <- (zlen_map _ _ fst (chunks_of S)).
  assert (ND : NoDup (map fst (chunks_of S))).
  { apply sorted_NoDup. exact (proj1 W). }
  assert (I1 : incl (map fst (chunks_of S)) (nodup Z.eq_dec (map (fun v => v / 65536) S))).
  { intros i Hi. apply nodup_In. apply in_map_iff in Hi as ((id & c) & <- & Hc). cbn [fst].
    assert (W1 : wf1 65536 65535 (id, c)) by (destruct W as [_ W]; rewrite Forall_forall in W; auto).
    destruct W1 as (_ & N & _ & R). cbn [snd] in *. destruct c as [|x c]; [easy|]. inversion R; subst.
    apply in_map_iff. exists (id * 65536 + x). split; [lia|].
    rewrite <- U. unfold ungroup. apply in_flat_map. exists (id, x :: c). split; auto. cbn. auto. }
  assert (I2 : incl (nodup Z.eq_dec (map (fun v => v / 65536) S)) (map fst (chunks_of S))).
  { intros i Hi. apply nodup_In in Hi. apply in_map_iff in Hi as (v & <- & Hv).
    rewrite <- U in Hv. apply (In_ungroup_id 65536 65535) in Hv; auto. lia. }
  apply NoDup_incl_length in I1; auto. apply NoDup_incl_length in I2; [|apply NoDup_nodup].
  unfold zlen. lia.
Qed.

Lemma ng_init_ok mem a S :
  valid S -> stored 0 mem a S ->
  exists s g, seq_at mem a = Ok s /\ ng_init mem s = Ok g /\ ng_size g = zlen S
    /\ ng_inv mem S g (chunks_of S) 0 /\ aligned mem (g_it g) (chunks_of S).
Proof.
  intros H St. destruct (stored_seq 0 mem a S H St ltac:(lia)) as (s & Es & En & V & A & B0).
  destruct (valid_chunks S H) as (W & N & U & SC & L).
  exists s. unfold ng_init, seq_size. rewrite (cardinality_ok 0 mem s (chunks_of S)) by (auto; lia).
  cbn [bind]. eexists. split; auto. split; [reflexivity|]. unfold ng_size. cbn [g_size]. split; [lia|].
  split; [|exact A]. split; [exact V|]. split; [now exists []|]. split; [now rewrite U|].
  cbn [g_chunk_id]. change (u32 (-1)) with 4294967295.
  assert (F : Forall (fun ch => fst ch <> 4294967295) (chunks_of S)).
  { eapply Forall_impl; [|exact (proj2 W)]. cbn. intros b (Hb & _). lia. }
  split; [now apply Forall_tl'|].
  intros id c r E1 E2. rewrite E1 in F. inversion F; subst. cbn [fst] in *. easy.
Qed.

Lemma ng_history_small dbg mem a S qs :
  valid S -> stored 0 mem a S -> Forall is_u32 qs -> non_decreasing 0 qs ->
  zlen (nodup Z.eq_dec (map (fun v => v / 65536) S)) <= 32 ->
  exists s g, seq_at mem a = Ok s /\ ng_init mem s = Ok g /\ ng_size g = zlen S
    /\ ng_run dbg mem g qs = Ok (map (spec_next_geq S) qs).
Proof.
  intros H St Hq Hn Hl. destruct (ng_init_ok mem a S H St) as (s & g & E1 & E2 & E3 & I & _).
  exists s, g. split; auto. split; auto. split; auto.
  apply (ng_run_small dbg mem S qs g (chunks_of S) 0); auto. now rewrite chunks_of_nodup.
Qed.
Lemma ng_history_gentle dbg mem a S q qs :
  valid S -> stored 0 mem a S -> Forall is_u32 (q :: qs) -> non_decreasing q qs ->
  gentle S (spec_next_geq S q) qs ->
  exists s g, seq_at mem a = Ok s /\ ng_init mem s = Ok g /\ ng_size g = zlen S
    /\ ng_run dbg mem g (q :: qs) = Ok (map (spec_next_geq S) (q :: qs)).
Proof.
  intros H St Hq Hn Hl. destruct (ng_init_ok mem a S H St) as (s & g & E1 & E2 & E3 & I & A).
  exists s, g. split; auto. split; auto. split; auto. inversion Hq; subst.
  assert (0 <= q) by (unfold is_u32 in *; lia).
  cbn [ng_run map]. destruct (ng_next_geq_ok dbg mem S g (chunks_of S) 0 q) as (g' & cs' & -> & I' & _ & _ & L'); auto.
  cbn [bind]. rewrite (ng_run_gentle dbg mem S qs g' cs' q (spec_next_geq S q)); auto.
Qed.
