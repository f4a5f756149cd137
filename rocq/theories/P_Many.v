(** Intersection and union of many sequences. *)
From Verif Require Import Base Hw Spec Lib L_Bits L_Group Layout M_Util M_Seq M_Decode M_Uncompress
  M_Many P_Build1 P_Build2 P_Build3 P_Seq P_Decode P_Query P_Uncompress P_Sets P_Inter P_Union.

Notation in_chunk := (Forall (fun x : Z => 0 <= x < 65536)).

(** ** one chunk against a bitmap *)
Lemma full_words_ok out :
  1024 <= zlen out ->
  exists out', fill_loop (Z.to_nat 1024) 0 (u64 (-1)) out 0 = Ok out'
    /\ bm_at (reg out' 0) 1024 (fun _ => true) /\ same_outside out out' 0 1024.
Proof.
  intro Hl. destruct (fill_ok (u64 (-1)) true (Z.to_nat 1024) out 0) as (out1 & E & B1 & S1);
    rewrite ?Z2Nat.id in * by lia; auto; try lia.
  { unfold w64, u64. apply Z.mod_pos_bound. lia. }
  { apply testbit_ones64. }
  exists out1. auto.
Qed.

Lemma chunk_and_ok dbg mem slack it id c cs tmp out a :
  it_view slack mem it ((id, c) :: cs) -> zlen tmp = 1024 -> zlen out = 1024 ->
  bm_at (reg out 0) 1024 (memb a) -> sorted a -> in_chunk a ->
  exists tmp' out', uncompress_chunk_and_intersect dbg mem it tmp out (zlen a)
      = Ok (tmp', out', zlen (isect a c))
    /\ zlen tmp' = 1024 /\ zlen out' = 1024 /\ bm_at (reg out' 0) 1024 (memb (isect a c)).
Proof.
  intros V Ht Ho B Sa Ra. pose proof (view_wf _ _ _ _ _ V) as W1.
  assert (AND : forall word, bm_at word 1024 (memb c) ->
    exists out', and_words_loop (Z.to_nat M_Util.chunk_size_in_64bit_words) word 0 0 out
        = Ok (out', zlen (isect a c))
      /\ zlen out' = 1024 /\ bm_at (reg out' 0) 1024 (memb (isect a c))).
  { intros word Hw. change M_Util.chunk_size_in_64bit_words with 1024.
    destruct (and_words_loop_ok word (memb c) (Z.to_nat 1024) 0 0 out (memb a)) as (out' & E & B' & S');
      rewrite ?Z2Nat.id in * by lia; try lia; auto.
    exists out'. rewrite E. split.
    - f_equal. f_equal. rewrite Z.add_0_l. f_equal.
      rewrite (filter_ext _ (memb (isect a c))) by (intro; now rewrite memb_isect).
      apply filter_memb; [now apply sorted_isect|]. apply Forall_isect.
      eapply Forall_impl; [|exact Ra]. cbn beta. intros. lia.
    - split; [destruct S'; lia|]. eapply bm_at_ext; [exact B'|]. intros x Hx. cbn beta.
      destruct (Z.ltb_spec x (64 * 0)); [lia|]. now rewrite memb_isect. }
  unfold uncompress_chunk_and_intersect. rewrite (id_view_type _ _ _ _ _ (proj1 V)). cbn [bind].
  destruct (kind_of c) eqn:K.
  - rewrite Z.eqb_refl. rewrite (id_view_blocks _ _ _ _ _ (proj1 V) K). cbn [bind].
    unfold uncompress_sparse_chunk_and_intersect.
    destruct (uncompress_sparse_chunk_ok dbg mem slack it id c cs (repeat 0 (length tmp)) 0) as (y & -> & By & Sy);
      auto; try lia.
    { rewrite zlen_repeat. unfold zlen in Ht. lia. }
    { apply bm_zeros; [lia|]. unfold zlen in Ht. lia. }
    cbn [bind]. destruct (AND (words_vec y)) as (out' & -> & L & B'); [exact By|].
    cbn [bind]. exists y, out'. split; auto. split; auto.
    destruct Sy as [Sy _]. rewrite Sy, zlen_repeat. exact Ht.
  - cbn [t_dense t_sparse Z.eqb Pos.eqb]. unfold uncompress_dense_chunk_and_intersect.
    destruct (AND (words_mem mem (i_data it))) as (out' & -> & L & B'); [eapply view_dense; eauto|].
    cbn [bind]. exists tmp, out'. auto.
  - cbn [t_full t_dense t_sparse Z.eqb Pos.eqb]. exists tmp, out.
    rewrite (isect_full_r id a c) by auto. auto.
Qed.

Lemma chunk_or_ok dbg mem slack it id c cs tmp out a :
  it_view slack mem it ((id, c) :: cs) -> zlen tmp = 1024 -> zlen out = 1024 ->
  bm_at (reg out 0) 1024 (memb a) ->
  exists tmp' out', uncompress_chunk_and_merge dbg mem it tmp out = Ok (tmp', out')
    /\ zlen tmp' = 1024 /\ zlen out' = 1024 /\ bm_at (reg out' 0) 1024 (memb (uni a c)).
Proof.
  intros V Ht Ho B. pose proof (view_wf _ _ _ _ _ V) as W1.
  assert (OR : forall word, bm_at word 1024 (memb c) ->
    exists out', or_words_loop (Z.to_nat M_Util.chunk_size_in_64bit_words) word 0 out = Ok out'
      /\ zlen out' = 1024 /\ bm_at (reg out' 0) 1024 (memb (uni a c))).
  { intros word Hw. change M_Util.chunk_size_in_64bit_words with 1024.
    destruct (or_words_loop_ok word (memb c) (Z.to_nat 1024) 0 out (memb a)) as (out' & E & B' & S');
      rewrite ?Z2Nat.id in * by lia; try lia; auto.
    exists out'. rewrite E. split; auto.
    split; [destruct S'; lia|]. eapply bm_at_ext; [exact B'|]. intros x Hx. cbn beta.
    destruct (Z.ltb_spec x (64 * 0)); [lia|]. now rewrite memb_uni. }
  unfold uncompress_chunk_and_merge. rewrite (id_view_type _ _ _ _ _ (proj1 V)). cbn [bind].
  destruct (kind_of c) eqn:K.
  - rewrite Z.eqb_refl. rewrite (id_view_blocks _ _ _ _ _ (proj1 V) K). cbn [bind].
    unfold uncompress_sparse_chunk_and_merge.
    destruct (uncompress_sparse_chunk_ok dbg mem slack it id c cs (repeat 0 (length tmp)) 0) as (y & -> & By & Sy);
      auto; try lia.
    { rewrite zlen_repeat. unfold zlen in Ht. lia. }
    { apply bm_zeros; [lia|]. unfold zlen in Ht. lia. }
    cbn [bind]. destruct (OR (words_vec y)) as (out' & -> & L & B'); [exact By|].
    cbn [bind]. exists y, out'. split; auto. split; auto.
    destruct Sy as [Sy _]. rewrite Sy, zlen_repeat. exact Ht.
  - cbn [t_dense t_sparse Z.eqb Pos.eqb]. unfold uncompress_dense_chunk_and_merge.
    destruct (OR (words_mem mem (i_data it))) as (out' & -> & L & B'); [eapply view_dense; eauto|].
    cbn [bind]. exists tmp, out'. auto.
  - cbn [t_full t_dense t_sparse Z.eqb Pos.eqb]. unfold uncompress_full_chunk_and_merge.
    change M_Util.chunk_size_in_64bit_words with 1024.
    destruct (full_words_ok out) as (out' & -> & B' & S'); [lia|]. cbn [bind].
    exists tmp, out'. split; auto. split; auto. split; [destruct S'; lia|].
    eapply bm_at_ext; [exact B'|]. intros x Hx. cbn beta. rewrite memb_uni.
    rewrite (full_memb id c x) by (auto; lia). now rewrite orb_true_r.
Qed.

(** ** union *)
Definition hd_id (cs : list (Z * list Z)) : Z := match cs with [] => 65536 | ch :: _ => fst ch end.
Definition top (h : Z) (cs : list (Z * list Z)) : list (list Z) :=
  match cs with [] => [] | ch :: _ => if fst ch =? h then [snd ch] else [] end.
Definition popped (h : Z) (cs : list (Z * list Z)) : list (Z * list Z) :=
  match cs with [] => [] | ch :: r => if fst ch =? h then r else cs end.
Definition tops (h : Z) (css : list (list (Z * list Z))) : list (list Z) := flat_map (top h) css.
Definition unis (ls : list (list Z)) : list Z := fold_left uni ls [].

Lemma fold_uni_app ls : forall a, sorted a -> Forall sorted ls ->
  sorted (fold_left uni ls a) /\ (forall x, In x (fold_left uni ls a) <-> In x a \/ exists l, In l ls /\ In x l).
Proof.
  induction ls as [|l ls IH]; intros a Sa Sl; cbn [fold_left].
  - split; auto. intro x. split; auto. intros [H|(l & [] & _)]; auto.
  - inversion Sl; subst. destruct (IH (uni a l)) as [H3 H4]; auto; [now apply sorted_uni|].
    split; auto. intro x. rewrite H4, In_uni. cbn [In]. split.
    + intros [[H|H]|(l' & H & H')]; auto; right; eauto.
    + intros [H|(l' & [<-|H] & H')]; auto. right; eauto.
Qed.
Lemma In_unis ls x : Forall sorted ls -> In x (unis ls) <-> exists l, In l ls /\ In x l.
Proof.
  intro H. destruct (fold_uni_app ls [] sorted_nil H) as [_ E]. unfold unis. rewrite E. cbn [In]. tauto.
Qed.
Lemma sorted_unis ls : Forall sorted ls -> sorted (unis ls).
Proof. intro H. apply (fold_uni_app ls [] sorted_nil H). Qed.

Section Union.
Variables (dbg : bool) (mem : list Z).
Notation view := (it_view 0 mem).

Lemma merge_all_ok h : forall its css first tmp bitmap a,
  Forall2 view its css -> zlen tmp = 1024 -> zlen bitmap = 1024 -> h < 65536 ->
  (if first : bool then a = [] else bm_at (reg bitmap 0) 1024 (memb a)) ->
  exists tmp' bitmap', merge_all dbg mem its h first tmp bitmap = Ok (tmp', bitmap')
    /\ zlen tmp' = 1024 /\ zlen bitmap' = 1024
    /\ (first = false \/ tops h css <> [] -> bm_at (reg bitmap' 0) 1024 (memb (fold_left uni (tops h css) a))).
Proof.
  induction its as [|it its IH]; intros css first tmp bitmap a V Ht Hb Hh Ha.
  - inversion V; subst. exists tmp, bitmap. cbn [merge_all]. split; auto. split; auto. split; auto.
    intros [->|H]; [exact Ha|now cbn in H].
  - inversion V as [|? cs ? css' V1 V2]; subst. cbn [merge_all].
    rewrite (id_view_id _ _ _ (proj1 V1)). cbn [bind].
    unfold tops. cbn [flat_map]. fold (tops h css'). unfold top. destruct cs as [|[id c] cs].
    { destruct (Z.eqb_spec 65536 h); [lia|]. cbn [app]. apply IH; auto. }
    cbn [fst snd]. destruct (Z.eqb_spec id h) as [E|E].
    2:{ cbn [app]. apply IH; auto. }
    subst h. cbn [app fold_left]. destruct first.
    + subst a. destruct (uncompress_chunk_ok dbg mem 0 it id c cs bitmap 0) as (b' & -> & B' & S'); auto; try lia.
      cbn [bind]. rewrite uni_nil_l.
      destruct (IH css' false tmp b' c) as (t2 & b2 & E2 & L1 & L2 & B2); auto; [destruct S'; lia|].
      exists t2, b2. split; auto.
    + destruct (chunk_or_ok dbg mem 0 it id c cs tmp bitmap a) as (t' & b' & -> & L1 & L2 & B'); auto.
      cbn [bind].
      destruct (IH css' false t' b' (uni a c)) as (t2 & b2 & E2 & L3 & L4 & B2); auto.
      exists t2, b2. split; auto.
Qed.

Lemma next_headers_ok h : forall its css next,
  Forall2 view its css -> h < 65536 ->
  exists its' next', next_headers mem its h next = Ok (its', next')
    /\ Forall2 view its' (map (popped h) css)
    /\ next' = fold_left Z.min (map hd_id (map (popped h) css)) next.
Proof.
  induction its as [|it its IH]; intros css next V Hh.
  - inversion V; subst. exists [], next. cbn. auto.
  - inversion V as [|? cs ? css' V1 V2]; subst. cbn [next_headers].
    rewrite (id_view_id _ _ _ (proj1 V1)). cbn [bind map fold_left].
    assert (P : exists it', (if (match cs with [] => 65536 | ch :: _ => fst ch end) =? h
                             then it_next mem it else Ok it) = Ok it' /\ view it' (popped h cs)).
    { unfold popped. destruct cs as [|[id c] cs].
      - destruct (Z.eqb_spec 65536 h); [lia|]. exists it. auto.
      - cbn [fst]. destruct (Z.eqb_spec id h); [|exists it; auto].
        destruct (view_next _ _ _ _ _ _ V1) as (it' & -> & V' & _). exists it'. auto. }
    destruct P as (it' & -> & V'). cbn [bind].
    rewrite (id_view_id _ _ _ (proj1 V')). cbn [bind].
    destruct (IH css' (Z.min next (hd_id (popped h cs))) V2 Hh) as (its2 & n2 & E2 & V3 & N2).
    fold (hd_id (popped h cs)).
    replace (if hd_id (popped h cs) <? next then hd_id (popped h cs) else next)
      with (Z.min next (hd_id (popped h cs))) by (destruct (Z.ltb_spec (hd_id (popped h cs)) next); lia).
    rewrite E2. cbn [bind]. exists (it' :: its2), n2. auto.
Qed.

Lemma fold_min l : forall n,
  fold_left Z.min l n <= n /\ Forall (fun x => fold_left Z.min l n <= x) l
  /\ (fold_left Z.min l n = n \/ In (fold_left Z.min l n) l).
Proof.
  induction l as [|x l IH]; intro n; cbn [fold_left]; [repeat split; auto; lia|].
  destruct (IH (Z.min n x)) as (H1 & H2 & H3). split; [lia|]. split; [constructor; auto; lia|].
  destruct H3 as [H3|H3]; [|right; right; auto].
  destruct (Z.min_spec n x) as [[? E]|[? E]]; rewrite E in *; [left; auto|right; left; auto].
Qed.

Definition least (h : Z) (css : list (list (Z * list Z))) : Prop :=
  Forall (fun cs => h <= hd_id cs) css /\ (h = 65536 \/ exists cs, In cs css /\ hd_id cs = h).

Lemma tops_In h css c : In c (tops h css) <-> exists r, In ((h, c) :: r) css.
Proof.
  unfold tops. rewrite in_flat_map. split.
  - intros (cs & Hcs & Hc). unfold top in Hc. destruct cs as [|[id c'] cs]; [destruct Hc|].
    cbn [fst snd] in Hc. destruct (Z.eqb_spec id h); [|destruct Hc]. destruct Hc as [<-|[]]. subst. eauto.
  - intros (r & Hr). exists ((h, c) :: r). split; auto. cbn. rewrite Z.eqb_refl. now left.
Qed.

(** the union, chunk by chunk *)
Lemma unis_step h css :
  Forall wfc css -> least h css -> h < 65536 ->
  unis (map (ungroup 65536) css)
  = map (addb (h * 65536)) (unis (tops h css)) ++ unis (map (ungroup 65536) (map (popped h) css)).
Proof.
  intros W [L1 L2] Hh.
  assert (ST : Forall sorted (tops h css)).
  { apply Forall_forall. intros c (r & Hr)%tops_In. rewrite Forall_forall in W. specialize (W _ Hr).
    apply wf_cons in W as ((_ & _ & Hc & _) & _). exact Hc. }
  assert (RT : forall c, In c (tops h css) -> in_chunk c).
  { intros c (r & Hr)%tops_In. rewrite Forall_forall in W. specialize (W _ Hr).
    apply wf_cons in W as ((_ & _ & _ & Hc) & _). exact Hc. }
  assert (WP : Forall wfc (map (popped h) css)).
  { apply Forall_map. eapply Forall_impl; [|exact W]. intros cs Hcs. unfold popped.
    destruct cs as [|ch cs]; auto. destruct (fst ch =? h); auto. apply wf_cons in Hcs. apply Hcs. }
  assert (SU : forall l, Forall wfc l -> Forall sorted (map (ungroup 65536) l)).
  { intros l Hl. apply Forall_map. eapply Forall_impl; [|exact Hl]. intros cs Hcs.
    eapply sorted_ungroup; eauto. lia. }
  assert (GT : forall cs ch, In cs (map (popped h) css) -> In ch cs -> h < fst ch).
  { intros cs ch (cs0 & <- & H0)%in_map_iff Hch. rewrite Forall_forall in W, L1.
    specialize (W _ H0). specialize (L1 _ H0). unfold popped in Hch. destruct cs0 as [|ch0 cs0]; [destruct Hch|].
    apply wf_cons in W as (_ & _ & W). rewrite Forall_forall in W. cbn [hd_id] in L1.
    destruct (Z.eqb_spec (fst ch0) h) as [E|E].
    - specialize (W _ Hch). lia.
    - destruct Hch as [<-|Hch]; [lia|]. specialize (W _ Hch). lia. }
  assert (IU : forall l x, Forall wfc l -> In x (unis (map (ungroup 65536) l))
             <-> exists cs vs, In cs l /\ In (x / 65536, vs) cs /\ In (x mod 65536) vs).
  { intros l x Hl. rewrite In_unis by auto. split.
    - intros (g & (cs & <- & Hcs)%in_map_iff & Hx). rewrite Forall_forall in Hl.
      apply (In_ungroup 65536 65535) in Hx as (vs & H1 & H2); auto; [|lia]. eauto.
    - intros (cs & vs & H1 & H2 & H3). exists (ungroup 65536 cs). split; [now apply in_map|].
      rewrite Forall_forall in Hl. apply (In_ungroup 65536 65535); auto; [lia|]. eauto. }
  apply sorted_ext.
  - apply sorted_unis. auto.
  - apply sorted_app.
    + apply sorted_map; [now apply sorted_unis|intros; unfold addb; lia].
    + apply sorted_unis; auto.
    + intros x y Hx Hy. apply in_map_iff in Hx as (z & <- & Hz). apply In_unis in Hz as (c & Hc & Hz); auto.
      specialize (RT c Hc). rewrite Forall_forall in RT. specialize (RT z Hz). cbn beta in RT.
      apply IU in Hy as (cs & vs & H1 & H2 & _); auto. specialize (GT _ _ H1 H2). cbn [fst] in GT.
      unfold addb. lia.
  - intro x. rewrite in_app_iff, in_map_iff. rewrite !IU by auto. split.
    + intros (cs & vs & H1 & H2 & H3). pose proof W as W'. rewrite Forall_forall in W', L1.
      specialize (W' _ H1). specialize (L1 _ H1). destruct cs as [|[id c] cs]; [destruct H2|].
      destruct H2 as [H2|H2].
      * injection H2 as -> ->. cbn [hd_id fst] in L1. destruct (Z.eq_dec (x / 65536) h) as [E|E].
        -- left. exists (x mod 65536). split; [unfold addb; lia|]. apply In_unis; auto.
           exists vs. split; auto. apply tops_In. rewrite E in H1. eauto.
        -- right. exists ((x / 65536, vs) :: cs), vs. split; [|split; auto; now left].
           apply in_map_iff. exists ((x / 65536, vs) :: cs). split; auto. cbn.
           destruct (Z.eqb_spec (x / 65536) h); [contradiction|reflexivity].
      * right. exists (popped h ((id, c) :: cs)), vs. split; [now apply in_map|]. split; auto.
        unfold popped. destruct (fst (id, c) =? h); auto. now right.
    + intros [(z & <- & Hz)|(cs & vs & (cs0 & <- & H0)%in_map_iff & H2 & H3)].
      * apply In_unis in Hz as (c & Hc & Hz); auto. pose proof (RT c Hc) as R. rewrite Forall_forall in R.
        specialize (R z Hz). cbn beta in R. apply tops_In in Hc as (r & Hr). unfold addb.
        exists ((h, c) :: r), c. split; auto. replace ((h * 65536 + z) / 65536) with h by lia.
        replace ((h * 65536 + z) mod 65536) with z by lia. split; auto. now left.
      * exists cs0, vs. split; auto. split; auto. unfold popped in H2. destruct cs0 as [|ch cs0]; [destruct H2|].
        destruct (fst ch =? h); auto. now right.
Qed.

Lemma hd_id_range mem' it cs : id_view mem' it cs -> 0 <= hd_id cs <= 65536.
Proof.
  intros V. destruct cs as [|ch cs]; cbn [hd_id]; [lia|]. pose proof (id_view_wf _ _ _ _ V) as (H & _). lia.
Qed.

Lemma union_loop_ok : forall fuel its css h tmp bitmap out pos,
  Forall2 view its css -> least h css -> 0 <= h <= 65536 -> 65536 - h <= Z.of_nat fuel ->
  zlen tmp = 1024 -> zlen bitmap = 1024 ->
  0 <= pos -> pos + zlen (unis (map (ungroup 65536) css)) <= zlen out ->
  exists tmp' bitmap' out', union_loop fuel dbg mem its h tmp bitmap out pos
      = Ok (tmp', bitmap', out', pos + zlen (unis (map (ungroup 65536) css)))
    /\ zlen tmp' = 1024 /\ zlen bitmap' = 1024
    /\ wrote 0 out pos (unis (map (ungroup 65536) css)) out'.
Proof.
  induction fuel; intros its css h tmp bitmap out pos V L Hh Hf Ht Hb Hp Ho.
  all: assert (W : Forall wfc css) by
    (clear -V; induction V as [|it cs its css V1 V2]; constructor; auto; apply V1).
  all: assert (NIL : h = 65536 -> unis (map (ungroup 65536) css) = [])
    by (intro E; destruct L as [L _]; subst h;
        assert (forall cs, In cs css -> cs = []) as EN by
          (intros cs Hcs; rewrite Forall_forall in L, W; specialize (L _ Hcs); specialize (W _ Hcs);
           destruct cs as [|ch cs]; auto; apply wf_cons in W as ((W & _) & _); cbn [hd_id] in L; lia);
        clear -EN; unfold unis; induction css as [|cs css IH]; auto; cbn [map fold_left];
        rewrite (EN cs) by (now left); cbn; apply IH; intros; apply EN; now right).
  - cbn [union_loop]. destruct (Z.ltb_spec h 65536); [lia|]. rewrite NIL in * by lia.
    exists tmp, bitmap, out. rewrite zlen_nil, Z.add_0_r. split; auto. split; auto. split; auto.
    apply wrote_nil. lia.
  - cbn [union_loop]. destruct (Z.ltb_spec h 65536) as [Hlt|].
    2:{ rewrite NIL in * by lia. exists tmp, bitmap, out. rewrite zlen_nil, Z.add_0_r.
        split; auto. split; auto. split; auto. apply wrote_nil. lia. }
    rewrite (unis_step h) in * by auto.
    destruct (merge_all_ok h its css true tmp bitmap [] V Ht Hb Hlt eq_refl) as (t1 & b1 & -> & L1 & L2 & B1).
    cbn [bind].
    assert (NT : tops h css <> []).
    { destruct L as [_ [L|(cs & Hcs & E)]]; [lia|]. destruct cs as [|[id c] cs]; cbn [hd_id fst] in E; [lia|].
      subst id. intro E. assert (In c (tops h css)) as Hc by (apply tops_In; eauto). rewrite E in Hc. destruct Hc. }
    specialize (B1 (or_intror NT)). fold (unis (tops h css)) in B1.
    assert (ST : Forall sorted (tops h css)).
    { apply Forall_forall. intros c (r & Hr)%tops_In. rewrite Forall_forall in W. specialize (W _ Hr).
      apply wf_cons in W as ((_ & _ & Hc & _) & _). exact Hc. }
    assert (RT : in_chunk (unis (tops h css))).
    { apply Forall_forall. intros x (c & Hc & Hx)%In_unis; auto. apply tops_In in Hc as (r & Hr).
      rewrite Forall_forall in W. specialize (W _ Hr).
      apply wf_cons in W as ((_ & _ & _ & R) & _). cbn [snd] in R. rewrite Forall_forall in R. auto. }
    assert (Hh2 : h < 65535).
    { destruct L as [_ [L|(cs & Hcs & E)]]; [lia|]. destruct cs as [|[id c] cs]; cbn [hd_id fst] in E; [lia|].
      rewrite Forall_forall in W. specialize (W _ Hcs). apply wf_cons in W as ((W & _) & _). cbn [fst] in W. lia. }
    rewrite zlen_app, zlen_map in Ho |- *. zpos.
    rewrite Z.shiftl_mul_pow2 by lia. change (2 ^ 16) with 65536. rewrite u32_id by lia.
    destruct (decode_bitmap_ok (words_vec b1) (Z.to_nat 1024) (unis (tops h css)) (h * 65536) out pos)
      as (out1 & E1 & W1); rewrite ?Z2Nat.id in * by lia; auto using sorted_unis; try lia.
    rewrite E1. cbn [bind].
    destruct (next_headers_ok h its css 65536 V Hlt) as (its1 & n1 & -> & V1 & N1). cbn [bind].
    destruct (fold_min (map hd_id (map (popped h) css)) 65536) as (F1 & F2 & F3). rewrite <- N1 in F1, F2, F3.
    assert (LE : least n1 (map (popped h) css)).
    { split; [apply (proj1 (Forall_map _ _ _)) in F2; exact F2|]. destruct F3 as [F3|F3]; auto. right.
      apply in_map_iff in F3 as (cs & E & Hcs). eauto. }
    assert (GT : h < n1).
    { destruct F3 as [F3|F3]; [lia|]. apply in_map_iff in F3 as (cs & E & Hcs).
      apply in_map_iff in Hcs as (cs0 & <- & H0c). destruct L as [L _]. rewrite Forall_forall in L, W.
      specialize (L _ H0c). specialize (W _ H0c). unfold popped in E. destruct cs0 as [|ch0 cs0]; cbn [hd_id] in E; [lia|].
      apply wf_cons in W as (_ & _ & W). cbn [hd_id] in L. destruct (Z.eqb_spec (fst ch0) h) as [E0|E0].
      - destruct cs0 as [|ch1 cs0]; cbn [hd_id] in E; [lia|]. inversion W; subst. lia.
      - cbn [hd_id] in E. lia. }
    pose proof (wrote_zlen _ _ _ _ _ W1) as LZ.
    destruct (IHfuel its1 (map (popped h) css) n1 t1 b1 out1 (pos + zlen (unis (tops h css))))
      as (t2 & b2 & out2 & -> & L3 & L4 & W2); auto; try lia.
    exists t2, b2, out2. split; [f_equal; f_equal; lia|]. split; auto. split; auto.
    eapply wrote_app; [lia|exact W1|]. rewrite zlen_map. exact W2.
Qed.

Lemma min_id_ok its css :
  Forall2 view its css -> its <> [] ->
  exists h, min_id mem its = Ok h /\ least h css /\ 0 <= h <= 65536.
Proof.
  intros V N. destruct V as [|it cs its css V1 V2]; [easy|].
  assert (LP : forall its css m, Forall2 view its css ->
    min_id_loop mem its m = Ok (fold_left Z.min (map hd_id css) m)).
  { clear. induction its as [|it its IH]; intros css m V; inversion V as [|? cs ? css' V1 V2]; subst; auto.
    cbn [min_id_loop]. rewrite (id_view_id _ _ _ (proj1 V1)). cbn [bind map fold_left].
    fold (hd_id cs). rewrite (IH css') by auto. f_equal. f_equal. destruct (Z.ltb_spec (hd_id cs) m); lia. }
  cbn [min_id]. rewrite (id_view_id _ _ _ (proj1 V1)). cbn [bind]. fold (hd_id cs).
  rewrite (LP its css) by auto. eexists. split; [reflexivity|].
  destruct (fold_min (map hd_id css) (hd_id cs)) as (F1 & F2 & F3).
  set (m := fold_left Z.min (map hd_id css) (hd_id cs)) in *. split.
  - split; [constructor; auto; apply (proj1 (Forall_map _ _ _)) in F2; exact F2|]. right. destruct F3 as [F3|F3].
    + exists cs. split; [now left|auto].
    + apply in_map_iff in F3 as (cs' & E & H). exists cs'. split; [now right|auto].
  - pose proof (hd_id_range _ _ _ (proj1 V1)). destruct F3 as [F3|F3]; [lia|].
    apply in_map_iff in F3 as (cs' & E & Hin). rewrite <- E.
    assert (HV : forall l l', Forall2 view l l' -> In cs' l' -> exists it, view it cs').
    { clear. induction 1; intros []; subst; eauto. }
    destruct (HV _ _ V2 Hin) as (it' & V'). eapply hd_id_range. apply V'.
Qed.
End Union.

(** ** stored vectors *)
Lemma stored_vector slack mem addrs Ss :
  0 <= slack -> Forall valid Ss -> Forall2 (stored slack mem) addrs Ss ->
  exists seqs, Forall2 (fun a s => seq_at mem a = Ok s) addrs seqs
    /\ Forall2 (it_view slack mem) (map seq_begin seqs) (map chunks_of Ss).
Proof.
  intros Hs V H. induction H as [|a S addrs Ss H1 H2 IH]; [exists []; cbn; auto|].
  inversion V as [|? ? V1 V2]; subst. destruct (IH V2) as (seqs & E1 & E2).
  destruct (stored_seq slack mem a S V1 H1 Hs) as (s & E & _ & I & _).
  exists (s :: seqs). cbn [map]. auto.
Qed.
Lemma map_ungroup_chunks Ss : Forall valid Ss -> map (ungroup 65536) (map chunks_of Ss) = Ss.
Proof.
  induction 1 as [|S Ss H1 H2 IH]; auto. cbn [map]. rewrite IH. f_equal. apply (valid_chunks S H1).
Qed.
Lemma valid_sorted Ss : Forall valid Ss -> Forall sorted Ss.
Proof. intro H. eapply Forall_impl; [|exact H]. intros S V. apply V. Qed.

Lemma union_many_ok mem addrs Ss :
  Ss <> [] -> Forall valid Ss -> Forall2 (stored 0 mem) addrs Ss ->
  exists seqs, Forall2 (fun a s => seq_at mem a = Ok s) addrs seqs
    /\ forall dbg tmp bitmap out pos,
       zlen tmp = 1024 -> zlen bitmap = 1024 -> 0 <= pos -> pos + zlen (unis Ss) <= zlen out ->
       exists tmp' bitmap' out', union_many dbg mem seqs tmp bitmap out pos
           = Ok (tmp', bitmap', out', zlen (unis Ss))
         /\ zlen tmp' = 1024 /\ zlen bitmap' = 1024 /\ wrote 0 out pos (unis Ss) out'.
Proof.
  intros N V St. destruct (stored_vector 0 mem addrs Ss ltac:(lia) V St) as (seqs & E & I).
  exists seqs. split; auto. intros dbg tmp bitmap out pos Ht Hb Hp Ho. unfold union_many.
  destruct (min_id_ok mem _ _ I) as (h & -> & L & Hh).
  { destruct Ss; [easy|]. inversion I; congruence. }
  cbn [bind].
  destruct (union_loop_ok dbg mem (union_fuel (map seq_begin seqs)) _ _ h tmp bitmap out pos I L Hh) as (t & b & o & E1 & L1 & L2 & W);
    auto; rewrite ?map_ungroup_chunks in * by auto; try lia.
  { unfold union_fuel. rewrite Nat2Z.inj_add, Z2Nat.id by lia. lia. }
  rewrite E1. cbn [bind]. exists t, b, o. split; auto. f_equal. f_equal. lia.
Qed.
