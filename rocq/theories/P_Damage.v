(** Queries on sequences of which only some chunks are intact. *)
From Verif Require Import Base Hw Spec Lib L_Bits L_Group Layout M_Util M_Build M_Seq M_Query M_Intersect
  Format Damage P_Build1 P_Build2 P_Build3 P_Seq P_Decode P_Query P_NextGeq P_Sets P_Inter
  P_Format P_Jumps P_Align P_Fin1.

(** ** skipping: the data pointer follows, whatever the data *)
Lemma aligned_skip_at mem it cs it' :
  id_view mem it cs -> aligned mem it cs -> 32 < zlen cs -> it_skip mem it = Ok it' ->
  id_view mem it' (skipn 32 cs) /\ aligned mem it' (skipn 32 cs)
  /\ rd32 mem (i_pointers it) = Ok (sum_card (firstn 32 cs))
  /\ i_data it' = i_data it + zlen (cdatas (firstn 32 cs)).
Proof.
  intros V A Hl E. destruct (it_skip_id mem it cs V Hl)
    as (id & c & cs2 & it1 & o & ES & _ & Eo & E1 & V1 & B1 & D1 & P1 & N1).
  rewrite E1 in E. injection E as <-.
  assert (W : Forall wfc1 (firstn 32 cs)).
  { assert (W : Forall wfc1 (firstn 32 cs ++ skipn 32 cs)) by (rewrite firstn_skipn; apply V).
    apply Forall_app in W. apply W. }
  unfold aligned in A. replace (Z.to_nat (zlen cs / 32)) with (S (Z.to_nat (zlen (skipn 32 cs) / 32))) in A.
  2:{ rewrite zlen_skipn. lia. }
  cbn [ptrs] in A. apply bytes_at_app in A as [A1 A]. apply bytes_at_app in A as [A2 A].
  rewrite !zlen_le_bytes in *.
  pose proof (zlen_cdatas_le _ W) as HD. pose proof (sum_card_le _ W) as HC.
  pose proof (sum_card_nonneg (firstn 32 cs)). pose proof (zlen_nonneg _ (cdatas (firstn 32 cs))).
  rewrite zlen_firstn in *.
  assert (Eo' : rd32 mem (i_pointers it + 4 * 1) = Ok (zlen (cdatas (firstn 32 cs)))).
  { apply rd32_at; [exact A2|]. lia. }
  rewrite Eo' in Eo. injection Eo as <-.
  split; [exact V1|split; [|split; [|exact D1]]].
  - unfold aligned. rewrite P1. replace (i_pointers it + 8) with (i_pointers it + Z.of_nat 4 + Z.of_nat 4) by lia.
    exact A.
  - apply rd32_at; auto. lia.
Qed.

Lemma skip_loop_at lb mem : forall fuel cs it,
  (length cs <= fuel)%nat -> id_view mem it cs -> aligned mem it cs ->
  exists it' pre suf, skip_to_value_loop fuel mem it lb = Ok it' /\ cs = pre ++ suf
    /\ Forall (fun ch => fst ch < lb) pre /\ id_view mem it' suf
    /\ i_data it' = i_data it + zlen (cdatas pre).
Proof.
  induction fuel; intros cs it Hf V A.
  - assert (cs = []) by (destruct cs; [auto|cbn in Hf; lia]). subst.
    exists it, [], []. split; [|split; auto; split; auto; split; auto; cbn [cdatas flat_map]; zl].
    cbn [skip_to_value_loop]. rewrite (skip_pos _ _ _ V).
    destruct V as (_ & _ & H1 & H2 & _). rewrite zlen_nil in H2.
    destruct (Z.ltb_spec (i_begin it + 32) (i_end it)); [lia|reflexivity].
  - cbn [skip_to_value_loop]. rewrite (skip_pos _ _ _ V).
    assert (HE : i_end it = i_begin it + zlen cs) by apply V.
    destruct (Z.ltb_spec (i_begin it + 32) (i_end it)) as [L|L].
    + destruct (it_skip_id mem it cs V) as (id & c & cs2 & it1 & o & ES & -> & _ & E1 & _);
        [lia|]. cbn [bind].
      destruct (Z.leb_spec id lb).
      * rewrite E1. cbn [bind].
        destruct (aligned_skip_at _ _ _ _ V A ltac:(lia) E1) as (V1 & A1 & _ & D1).
        destruct (IHfuel (skipn 32 cs) it1) as (it2 & pre & suf & E2 & C2 & F2 & V2 & D2); auto.
        { rewrite skipn_length. lia. }
        exists it2, (firstn 32 cs ++ pre), suf. split; auto. split.
        { rewrite <- app_assoc, <- C2, firstn_skipn. reflexivity. }
        split; [|split; auto].
        -- apply Forall_app. split; auto. apply Forall_forall. intros ch Hch.
           assert (W : wfc (firstn 32 cs ++ skipn 32 cs)) by (rewrite firstn_skipn; apply V).
           assert (fst ch < fst (id, c)); [|cbn [fst] in *; lia].
           eapply wf_app_lt; [exact W|exact Hch|]. rewrite ES. apply in_eq.
        -- rewrite cdatas_app, zlen_app. lia.
      * exists it, [], cs. split; auto. split; auto. split; auto. split; auto. cbn [cdatas flat_map]. zl.
    + exists it, [], cs. split; auto. split; auto. split; auto. split; auto. cbn [cdatas flat_map]. zl.
Qed.

Lemma skip_to_value_at mem it cs lb :
  id_view mem it cs -> aligned mem it cs -> lb <= 65536 ->
  exists it' pre suf, skip_to_value mem it lb = Ok it' /\ dropped lb cs pre suf
    /\ id_view mem it' suf /\ i_data it' = i_data it + zlen (cdatas pre).
Proof.
  intros V A Hlb. unfold skip_to_value.
  destruct (skip_loop_at lb mem (it_fuel it) cs it) as (it1 & pre1 & suf1 & -> & -> & F1 & V1 & D1); auto.
  { eapply it_fuel_ok; eauto. }
  cbn [bind].
  destruct (it_advance_id mem it1 suf1 lb V1 Hlb) as (it2 & pre2 & suf2 & E & D & V2 & B2 & _ & D2 & N2).
  exists it2, (pre1 ++ pre2), suf2. split; auto. split; [apply dropped_app; auto|].
  split; auto. rewrite cdatas_app, zlen_app. lia.
Qed.

Lemma skip_pos_loop1_at mem rank : forall fuel cs it elements,
  (length cs <= fuel)%nat -> id_view mem it cs -> aligned mem it cs ->
  0 <= elements -> elements <= rank -> elements + sum_card cs < 4294967296 ->
  exists it' pre suf, skip_to_position_loop1 fuel mem it elements rank
      = Ok (elements + sum_card pre, it')
    /\ cs = pre ++ suf /\ id_view mem it' suf /\ elements + sum_card pre <= rank
    /\ i_data it' = i_data it + zlen (cdatas pre).
Proof.
  induction fuel; intros cs it elements Hf V A He Hr Hs.
  - assert (cs = []) by (destruct cs; [auto|cbn in Hf; lia]). subst.
    exists it, [], []. split; [|repeat split; auto; try apply V; cbn; lia].
    cbn [skip_to_position_loop1]. rewrite (skip_pos _ _ _ V).
    destruct V as (_ & _ & H1 & H2 & _). rewrite zlen_nil in H2.
    destruct (Z.ltb_spec (i_begin it + 32) (i_end it)); [lia|]. cbn. do 2 f_equal; lia.
  - cbn [skip_to_position_loop1]. rewrite (skip_pos _ _ _ V).
    assert (HE : i_end it = i_begin it + zlen cs) by apply V.
    assert (Stop : exists it' pre suf, Ok (elements, it) = Ok (elements + sum_card pre, it')
      /\ cs = pre ++ suf /\ id_view mem it' suf /\ elements + sum_card pre <= rank
      /\ i_data it' = i_data it + zlen (cdatas pre)).
    { exists it, [], cs. split; [cbn; do 2 f_equal; lia|]. repeat split; auto; try apply V; cbn; lia. }
    destruct (Z.ltb_spec (i_begin it + 32) (i_end it)) as [L|L]; auto.
    destruct (it_skip_id mem it cs V) as (id & c & cs2 & it1 & o & ES & _ & _ & E1 & _); [lia|].
    destruct (aligned_skip_at _ _ _ _ V A ltac:(lia) E1) as (V1 & A1 & -> & D1).
    cbn [bind].
    assert (SC : sum_card cs = sum_card (firstn 32 cs) + sum_card (skipn 32 cs)).
    { rewrite <- sum_card_app, firstn_skipn. reflexivity. }
    pose proof (sum_card_nonneg (firstn 32 cs)). pose proof (sum_card_nonneg (skipn 32 cs)).
    rewrite u32_id by lia.
    destruct (Z.ltb_spec rank (elements + sum_card (firstn 32 cs))); auto.
    rewrite E1. cbn [bind].
    destruct (IHfuel (skipn 32 cs) it1 (elements + sum_card (firstn 32 cs)))
      as (it2 & pre & suf & E2 & C2 & V2 & R2 & D2); auto; try lia.
    { rewrite skipn_length. lia. }
    exists it2, (firstn 32 cs ++ pre), suf. rewrite E2. rewrite sum_card_app.
    split; [do 2 f_equal; lia|]. split; [|split; auto; split; [lia|]].
    + rewrite <- app_assoc, <- C2, firstn_skipn. reflexivity.
    + rewrite cdatas_app, zlen_app. lia.
Qed.

Lemma skip_pos_loop2_at mem rank cs : forall fuel it elements,
  (length cs <= fuel)%nat -> id_view mem it cs ->
  0 <= elements -> elements <= rank -> elements + sum_card cs < 4294967296 ->
  exists it' pre suf, skip_to_position_loop2 fuel mem it elements rank
      = Ok (elements + sum_card pre, it')
    /\ cs = pre ++ suf /\ id_view mem it' suf /\ elements + sum_card pre <= rank
    /\ match suf with [] => True | ch :: _ => rank < elements + sum_card pre + zlen (snd ch) end
    /\ i_data it' = i_data it + zlen (cdatas pre).
Proof.
  induction cs as [|[id c] cs IH]; intros fuel it elements Hf V He Hr Hs.
  - exists it, [], []. split; [|repeat split; auto; try apply V; cbn; lia].
    destruct fuel; cbn [skip_to_position_loop2]; rewrite (id_view_has_next _ _ _ V);
      cbn; do 2 f_equal; lia.
  - assert (SC : sum_card ((id, c) :: cs) = zlen c + sum_card cs) by reflexivity.
    pose proof (sum_card_nonneg cs). pose proof (zlen_nonneg _ c).
    assert (E : forall f, skip_to_position_loop2 f mem it elements rank
      = if rank <? elements + zlen c then Ok (elements, it)
        else match f with O => Fuel | S f => let! it := it_next mem it in
             skip_to_position_loop2 f mem it (elements + zlen c) rank end).
    { intro f. destruct f; cbn [skip_to_position_loop2]; rewrite (id_view_has_next _ _ _ V);
        rewrite (id_view_cardinality _ _ _ _ _ V); cbn [bind]; rewrite u32_id by lia; reflexivity. }
    rewrite E. destruct (Z.ltb_spec rank (elements + zlen c)).
    + exists it, [], ((id, c) :: cs). split; [cbn; do 2 f_equal; lia|].
      split; auto. split; auto. split; [cbn; lia|]. split; [cbn [sum_card fold_right snd]; lia|]. cbn [cdatas flat_map]. zl.
    + cbn [length] in Hf. destruct fuel as [|f]; [lia|].
      destruct (id_view_next _ _ _ _ _ V) as (it1 & -> & V1 & _ & _ & D1 & _). cbn [bind].
      destruct (IH f it1 (elements + zlen c)) as (it2 & pre & suf & E2 & -> & V2 & R2 & M2 & D2); auto; try lia.
      exists it2, ((id, c) :: pre), suf. rewrite E2.
      assert (SP : sum_card ((id, c) :: pre) = zlen c + sum_card pre) by reflexivity.
      split; [do 2 f_equal; lia|]. split; auto. split; auto. split; [lia|]. split.
      * destruct suf; auto. lia.
      * rewrite cdatas_cons. cbn [snd]. rewrite zlen_app. lia.
Qed.

Lemma skip_to_position_at mem it cs rank :
  id_view mem it cs -> aligned mem it cs -> 0 <= rank -> sum_card cs < 4294967296 ->
  exists it' pre suf, skip_to_position mem it rank = Ok (sum_card pre, it')
    /\ cs = pre ++ suf /\ id_view mem it' suf /\ sum_card pre <= rank
    /\ match suf with [] => True | ch :: _ => rank < sum_card pre + zlen (snd ch) end
    /\ i_data it' = i_data it + zlen (cdatas pre).
Proof.
  intros V A Hr Hs. unfold skip_to_position.
  destruct (skip_pos_loop1_at mem rank (it_fuel it) cs it 0)
    as (it1 & pre1 & suf1 & -> & -> & V1 & R1 & D1); auto; try lia.
  { eapply it_fuel_ok; apply V. }
  cbn [bind]. rewrite sum_card_app in Hs. pose proof (sum_card_nonneg pre1). rewrite Z.add_0_l in *.
  destruct (skip_pos_loop2_at mem rank suf1 (it_fuel it1) it1 (sum_card pre1))
    as (it2 & pre2 & suf2 & -> & -> & V2 & R2 & M2 & D2); auto; try lia.
  { eapply it_fuel_ok; apply V1. }
  exists it2, (pre1 ++ pre2), suf2. rewrite sum_card_app, cdatas_app, zlen_app.
  split; auto. split; [now rewrite app_assoc|]. split; auto. split; auto. split; auto. lia.
Qed.

(** ** iterators over partly intact sequences *)
Definition part_view (slack : Z) (ok : Z -> Prop) (mem : list Z) (it : iterator) (cs : list (Z * list Z)) : Prop :=
  id_view mem it cs
  /\ 0 <= i_data it
  /\ (forall pre id c suf, cs = pre ++ (id, c) :: suf -> ok id ->
        bytes_at mem (i_data it + zlen (cdatas pre)) (chunk_data c)
        /\ i_data it + zlen (cdatas pre) + zlen (chunk_data c) + slack <= zlen mem).

Lemma part_sub slack ok mem it it' pre suf :
  part_view slack ok mem it (pre ++ suf) -> id_view mem it' suf ->
  i_data it' = i_data it + zlen (cdatas pre) -> part_view slack ok mem it' suf.
Proof.
  intros (V & D & B) V' E. split; auto. zpos. split; [lia|].
  intros p id c s -> Ho. specialize (B (pre ++ p) id c s). rewrite <- app_assoc in B. specialize (B eq_refl Ho).
  rewrite cdatas_app, zlen_app in B. rewrite E. rewrite !Z.add_assoc in B. exact B.
Qed.
Lemma part_mono slack (ok ok' : Z -> Prop) mem it cs :
  part_view slack ok mem it cs -> (forall id, ok' id -> ok id) -> part_view slack ok' mem it cs.
Proof. intros (V & D & B) H. split; auto. split; auto. intros. eapply B; eauto. Qed.

(** the same iterator, ending after the current chunk *)
Definition one (it : iterator) : iterator :=
  mkIt (i_pointers it) (i_header it) (i_data it) (i_begin it) (i_begin it + 1).

Lemma part_one slack ok mem it id c cs :
  part_view slack ok mem it ((id, c) :: cs) -> ok id -> 0 <= slack -> it_view slack mem (one it) [(id, c)].
Proof.
  intros (V & D & B) Ho Hs. destruct (B [] id c cs eq_refl Ho) as [B' L]. clear B. rename B' into B.
  change (zlen (cdatas [])) with 0 in B, L. rewrite Z.add_0_r in B, L. zpos.
  destruct V as (W & HD & V1 & V2 & V3 & V4 & V5). rewrite zlen_cons in *. zpos.
  split.
  - split; [|split].
    + change ((id, c) :: cs) with ([(id, c)] ++ cs) in W. apply wf_app in W. apply W.
    + cbn [one i_header]. rewrite chdrs_cons, u16s_app in HD. rewrite chdrs_cons, u16s_app.
      apply bytes_at_app in HD as [HD _]. change (bytes_of_u16s (chdrs [])) with (@nil Z). rewrite app_nil_r. exact HD.
    + cbn [one i_begin i_end i_pointers]. change (zlen [(id, c)]) with 1. lia.
  - cbn [one i_data]. cbn [cdatas flat_map snd]. rewrite app_nil_r. auto.
Qed.

Lemma part_next slack ok mem it id c cs :
  part_view slack ok mem it ((id, c) :: cs) ->
  exists it', it_next mem it = Ok it' /\ part_view slack ok mem it' cs.
Proof.
  intro V. destruct (id_view_next _ _ _ _ _ (proj1 V)) as (it' & E & V' & _ & _ & D & _).
  exists it'. split; auto. change ((id, c) :: cs) with ([(id, c)] ++ cs) in V. eapply part_sub; eauto.
  cbn [cdatas flat_map snd]. now rewrite app_nil_r.
Qed.

Lemma part_advance slack ok mem it cs lb :
  part_view slack ok mem it cs -> lb <= 65536 ->
  exists it' pre suf, it_advance mem it lb = Ok it' /\ dropped lb cs pre suf /\ part_view slack ok mem it' suf.
Proof.
  intros V Hlb. destruct (it_advance_id mem it cs lb) as (it' & pre & suf & E & D & V' & B & P & T & N);
    auto. { apply V. }
  exists it', pre, suf. split; auto. split; auto. destruct D as (-> & _). eapply part_sub; eauto.
Qed.

(** ** from the bytes in memory *)
Lemma zlen_ids_chunks S : valid S -> zlen (ids 65536 (Z.to_nat 65536) S) = zlen (chunks_of S).
Proof. intro V. rewrite (chunks_format S V), zlen_map. reflexivity. Qed.

Lemma has_chunk_fst S h : valid S -> has_chunk S h <-> In h (map fst (chunks_of S)).
Proof.
  intro V. destruct (valid_chunks S V) as (W & _ & U & _). unfold has_chunk. split.
  - intros (v & Hv & <-). rewrite <- U in Hv. apply (In_ungroup_id 65536 65535) in Hv; auto; lia.
  - intro Hi. apply in_map_iff in Hi as ([id c] & <- & Hc). cbn [fst].
    assert (W1 : wfc1 (id, c)) by (destruct W as [_ W]; rewrite Forall_forall in W; auto).
    pose proof W1 as (_ & Hn & _ & Hr). cbn [snd] in *. destruct c as [|x c]; [easy|].
    inversion Hr as [|? ? Hx _]; subst. exists (id * 65536 + x). split; [|lia].
    rewrite <- U. apply (In_ungroup 65536 65535); [lia|exact W|]. exists (x :: c).
    replace ((id * 65536 + x) / 65536) with id by lia. replace ((id * 65536 + x) mod 65536) with x by lia.
    split; auto. apply in_eq.
Qed.

Lemma head_readable n mem a (bs : list Z) :
  0 < n -> n <= zlen bs -> (forall i, 0 <= i < n -> znth mem (a + i) = znth bs i) -> a + n <= zlen mem.
Proof.
  intros H1 H2 H. specialize (H (n - 1) ltac:(lia)). destruct (znth_Some _ bs (n - 1)) as (x & Ex); [lia|].
  rewrite Ex in H. apply znth_lt in H. lia.
Qed.

Lemma chunk_start_def S h : chunk_start S h = head_size S + total (chunk_cost S) (zrange 0 (Z.to_nat h)).
Proof. reflexivity. Qed.

Lemma intact_seq slack ok mem a S :
  valid S -> intact slack ok mem a S -> 0 <= slack ->
  exists s, seq_at mem a = Ok s /\ s_chunks s = zlen (chunks_of S)
    /\ part_view slack ok mem (seq_begin s) (chunks_of S) /\ aligned mem (seq_begin s) (chunks_of S).
Proof.
  intros H (dbg & enc & E & B & L) Hs. apply encoding_layout in E; auto. subst enc.
  destruct (valid_chunks S H) as (W & N & _). pose proof (zlen_ids_chunks S H) as HI.
  set (cs := chunks_of S) in *.
  pose proof (chunks_le _ W) as Hn. pose proof (zlen_layout cs) as HL.
  assert (H1 : 0 < zlen cs) by (destruct cs; [easy|zl]).
  assert (HH : head_size S = 2 + 8 * (zlen cs / 32) + 8 * zlen cs).
  { unfold head_size. rewrite HI. reflexivity. }
  assert (Ha : 0 <= a).
  { assert (B0 := B 0 ltac:(left; unfold in_head; zpos; lia)). rewrite Z.add_0_r in B0.
    destruct (Z_lt_le_dec a 0) as [Hlt|]; auto. exfalso.
    destruct (znth_Some _ (layout cs) 0) as (x & Ex); [zpos; lia|].
    rewrite Ex in B0. rewrite znth_neg in B0 by lia. discriminate. }
  assert (HM : a + (2 + 8 * (zlen cs / 32) + 8 * zlen cs) <= zlen mem).
  { rewrite <- HH. apply (head_readable (head_size S) mem a (layout cs)); rewrite ?HH, ?HL; zpos; [lia..|].
    intros i Hi. apply B. left. unfold in_head. rewrite HH. exact Hi. }
  assert (BH : forall pre bs suf, layout cs = pre ++ bs ++ suf -> zlen pre + zlen bs <= head_size S ->
     bytes_at mem (a + zlen pre) bs).
  { intros pre bs suf EL Hb i Hi. zpos. rewrite <- Z.add_assoc.
    rewrite B by (left; unfold in_head; lia). rewrite EL, znth_app_r by lia.
    replace (zlen pre + i - zlen pre) with i by lia. now rewrite znth_app_l by lia. }
  assert (B0 : bytes_at mem a (le_bytes 2 (zlen cs - 1))).
  { rewrite <- (Z.add_0_r a). apply (BH [] _ (ptrs (Z.to_nat (zlen cs / 32)) cs ++ bytes_of_u16s (chdrs cs) ++ cdatas cs)).
    - reflexivity.
    - rewrite zlen_le_bytes, zlen_nil. lia. }
  assert (B1 : bytes_at mem (a + 2) (ptrs (Z.to_nat (zlen cs / 32)) cs)).
  { apply (BH (le_bytes 2 (zlen cs - 1)) _ (bytes_of_u16s (chdrs cs) ++ cdatas cs)); [reflexivity|].
    rewrite zlen_le_bytes, zlen_ptrs. lia. }
  assert (B2 : bytes_at mem (a + 2 + 8 * (zlen cs / 32)) (bytes_of_u16s (chdrs cs))).
  { pose proof (BH (le_bytes 2 (zlen cs - 1) ++ ptrs (Z.to_nat (zlen cs / 32)) cs) (bytes_of_u16s (chdrs cs)) (cdatas cs)) as X.
    rewrite zlen_app, zlen_le_bytes, zlen_ptrs, zlen_bytes_of_u16s, zlen_chdrs in X. rewrite Z2Nat.id in X by lia.
    replace (a + 2 + 8 * (zlen cs / 32)) with (a + (Z.of_nat 2 + 8 * (zlen cs / 32))) by lia. apply X; [|lia].
    unfold layout. now rewrite <- app_assoc. }
  assert (B3 : forall pre id c suf, cs = pre ++ (id, c) :: suf -> ok id ->
     bytes_at mem (a + 2 + 8 * (zlen cs / 32) + 2 * (4 * zlen cs) + zlen (cdatas pre)) (chunk_data c)
     /\ a + 2 + 8 * (zlen cs / 32) + 2 * (4 * zlen cs) + zlen (cdatas pre) + zlen (chunk_data c) + slack <= zlen mem).
  { intros pre id c suf EC Ho.
    assert (HI2 : In (id, c) (chunks_of S)) by (fold cs; rewrite EC; apply in_elt).
    pose proof W as W0. rewrite EC in W0. pose proof (wf_app _ _ _ _ W0) as [_ W1].
    pose proof (wfc_id _ _ _ W1) as Hid.
    assert (PD : zlen (cdatas pre) = total (chunk_cost S) (zrange 0 (Z.to_nat id))).
    { apply (pre_data (Z.to_nat 65536) S id pre ((id, c) :: suf)); auto; [lia|]. fold cs. split; auto. split.
      - apply Forall_forall. intros ch Hch. change id with (fst (id, c)).
        eapply wf_app_lt; [exact W0|exact Hch|apply in_eq].
      - apply wf_cons in W1 as (_ & _ & W1). constructor; [cbn; lia|].
        eapply Forall_impl; [|exact W1]. cbn. intros; lia. }
    pose proof (cost_data S id c H HI2) as CD. pose proof (zlen_nonneg _ (cdatas pre)).
    split.
    2:{ assert (HC : has_chunk S id).
        { apply has_chunk_fst; [exact H|]. apply in_map_iff. exists (id, c). split; [reflexivity|exact HI2]. }
        pose proof (L id Ho HC) as LI. rewrite chunk_start_def, CD, <- PD, HH in LI. clear - LI. lia. }
    intros i Hi.
    replace (a + 2 + 8 * (zlen cs / 32) + 2 * (4 * zlen cs) + zlen (cdatas pre) + i)
      with (a + (head_size S + zlen (cdatas pre) + i)) by lia.
    rewrite B by (right; exists id; split; auto; unfold in_chunk_data, chunk_start; rewrite <- PD, CD; lia).
    unfold layout. rewrite !app_assoc.
    rewrite znth_app_r; rewrite !zlen_app, zlen_le_bytes, zlen_ptrs, zlen_bytes_of_u16s, zlen_chdrs;
      rewrite Z2Nat.id by lia; [|lia].
    replace (cdatas cs) with (cdatas pre ++ chunk_data c ++ cdatas suf)
      by (rewrite EC, cdatas_app, cdatas_cons; reflexivity).
    rewrite znth_app_r by lia. rewrite znth_app_l by lia. f_equal. lia. }
  unfold seq_at. rewrite (rd16_at mem a (zlen cs - 1)) by (auto; lia). cbn [bind].
  replace (1 + (zlen cs - 1)) with (zlen cs) by lia. change M_Util.associativity with 32.
  eexists. split; [reflexivity|]. cbn [s_chunks seq_begin s_pointers s_header s_data i_begin i_pointers].
  split; [reflexivity|].
  replace (a + 2 + 2 * (zlen cs / 32 * 4 * 2 / 2)) with (a + 2 + 8 * (zlen cs / 32)) by lia.
  replace (a + 2 + zlen cs / 32 * 4 * 2 + zlen cs * 4 * 2)
    with (a + 2 + 8 * (zlen cs / 32) + 2 * (4 * zlen cs)) by lia.
  split; [|exact B1].
  zpos.
  split; [split; [exact W|]|split; [|exact B3]]; unfold seq_begin;
    cbn [i_header i_begin i_end i_pointers i_data s_chunks s_pointers s_header s_data]; [|lia].
  split; [exact B2|]. lia.
Qed.

(** ** queries *)
Lemma c52_size : forall mem a S,
  valid S -> intact 0 (fun _ => False) mem a S ->
  exists s, seq_at mem a = Ok s /\ seq_size mem s = Ok (zlen S) /\ cardinality mem s = Ok (zlen S).
Proof.
  intros mem a S H St. destruct (intact_seq _ _ mem a S H St ltac:(lia)) as (s & Es & En & V & A).
  destruct (valid_chunks S H) as (W & N & U & SC & L). exists s. split; auto.
  assert (C : cardinality mem s = Ok (zlen S)).
  { unfold cardinality. rewrite En, <- length_zlen. rewrite cardinality_loop_ok; auto; try lia.
    - f_equal. lia.
    - apply V. }
  unfold seq_size. rewrite C. auto.
Qed.

Lemma c52_contains_memb dbg mem a S v :
  valid S -> is_u32 v -> intact 0 (eq (v / 65536)) mem a S ->
  exists s, seq_at mem a = Ok s /\ contains dbg mem s v = Ok (memb S v).
Proof.
  intros H Hv St. destruct (intact_seq _ _ mem a S H St ltac:(lia)) as (s & Es & En & V & A).
  destruct (valid_chunks S H) as (W & N & U & SC & L). unfold is_u32 in Hv.
  exists s. split; auto. unfold contains. rewrite shiftr_16.
  destruct (skip_to_value_at mem (seq_begin s) (chunks_of S) (v / 65536)) as
    (it & pre & suf & -> & D & I' & T); auto; [apply V|lia|]. cbn [bind].
  assert (V' : part_view 0 (eq (v / 65536)) mem it suf).
  { pose proof (proj1 D) as EC. rewrite EC in V. eapply part_sub; eauto. }
  rewrite <- U. rewrite (dropped_memb _ _ _ _ _ W D eq_refl).
  rewrite (id_view_id _ _ _ (proj1 V')). cbn [bind].
  destruct suf as [|[id c] suf].
  - destruct (Z.eqb_spec 65536 (v / 65536)); [lia|reflexivity].
  - cbn [fst snd]. destruct (Z.eqb_spec id (v / 65536)) as [Ei|]; [|reflexivity]. cbn [andb].
    pose proof (part_one _ _ _ _ _ _ _ V' (eq_sym Ei) ltac:(lia)) as V1.
    rewrite land_65535 by lia. rewrite (id_view_type _ _ _ _ _ (proj1 V')). cbn [bind].
    destruct (kind_of c) eqn:K.
    + rewrite Z.eqb_refl. rewrite (id_view_blocks _ _ _ _ _ (proj1 V') K). cbn [bind].
      destruct (view_sparse _ _ _ _ _ _ V1 K) as (B & Hn & Hd & Hm). cbn [one i_data] in B, Hd, Hm.
      unfold contains_sparse_chunk.
      rewrite assert_ok by (apply andb_true_intro; split; apply Z.leb_le; lia). cbn [bind].
      rewrite shiftr_8. rewrite (contains_blocks_ok dbg mem _ _ (blocks_of c)).
      * now rewrite blocks_ungroup.
      * rewrite length_zlen. lia.
      * replace (zlen (blocks_of c) * 2) with (2 * zlen (blocks_of c)) by lia. exact B.
      * lia.
      * lia.
    + cbn [t_dense t_sparse Z.eqb Pos.eqb].
      apply (bitmap_contains_ok _ 1024); [exact (view_dense _ _ _ _ _ _ V1 K)|lia].
    + cbn [t_full t_dense t_sparse Z.eqb Pos.eqb]. f_equal. symmetry. apply memb_In.
      rewrite (kind_full _ _ (view_wf _ _ _ _ _ V1) K). apply In_zrange. lia.
Qed.

Lemma c52_contains : forall dbg mem a S v,
  valid S -> is_u32 v -> intact 0 (eq (v / 65536)) mem a S ->
  exists s b, seq_at mem a = Ok s /\ contains dbg mem s v = Ok b /\ (b = true <-> In v S).
Proof.
  intros. destruct (c52_contains_memb dbg mem a S v) as (s & E & C); auto. exists s, (memb S v).
  split; auto. split; auto. apply memb_In.
Qed.

Lemma select_at dbg mem a S rank value :
  valid S -> is_u32 rank -> intact 0 (fun h => exists x, znth S rank = Some x /\ x / 65536 = h) mem a S ->
  exists s, seq_at mem a = Ok s
    /\ select dbg mem s rank value
       = Ok (match znth S rank with Some x => (true, x) | None => (false, value) end).
Proof.
  intros H Hv St. destruct (intact_seq _ _ mem a S H St ltac:(lia)) as (s & Es & En & V & A).
  destruct (valid_chunks S H) as (W & N & U & SC & L). unfold is_u32 in Hv.
  exists s. split; auto. unfold select.
  destruct (skip_to_position_at mem (seq_begin s) (chunks_of S) rank) as
    (it & pre & suf & -> & C & I' & R1 & R2 & T); auto; try lia; [apply V|]. cbn [bind].
  set (ok := fun h => exists x, znth S rank = Some x /\ x / 65536 = h) in *.
  assert (V' : part_view 0 ok mem it suf) by (rewrite C in V; eapply part_sub; eauto).
  rewrite (id_view_has_next _ _ _ (proj1 V')).
  pose proof (sum_card_nonneg pre) as SP.
  assert (ZN : znth S rank = znth (ungroup 65536 suf) (rank - sum_card pre)).
  { rewrite <- U, C, ungroup_app. rewrite znth_app_r by (rewrite sum_card_ungroup; lia).
    now rewrite sum_card_ungroup. }
  destruct suf as [|[id c] suf].
  - rewrite ZN. cbn [ungroup flat_map]. rewrite znth_nil. reflexivity.
  - cbn [snd] in R2. pose proof (id_view_wf _ _ _ _ (proj1 V')) as W1. pose proof (chunk_card _ _ W1) as Hc.
    destruct (chunk_base _ _ _ _ _ (proj1 V')) as (Ei & Eb & Hi).
    rewrite u32_id by lia. rewrite assert_ok by (apply Z.ltb_lt; unfold M_Util.chunk_size; lia).
    cbn [bind]. rewrite (id_view_type _ _ _ _ _ (proj1 V')). cbn [bind].
    rewrite ungroup_cons in ZN. rewrite znth_app_l in ZN by (rewrite zlen_ungroup1; cbn [snd]; lia).
    rewrite znth_ungroup1 in ZN. cbn [fst snd] in ZN.
    destruct (znth_Some _ c (rank - sum_card pre)) as (x & Ex); [lia|]. rewrite Ex in ZN. cbn [option_map] in ZN.
    destruct W1 as (_ & _ & Hso & Hr). cbn [snd] in *.
    assert (Hx : 0 <= x < 65536). { apply znth_In in Ex. rewrite Forall_forall in Hr. auto. }
    assert (V1 : it_view 0 mem (one it) [(id, c)]).
    { eapply part_one; [exact V'| |lia]. exists (id * 65536 + x). split; auto. lia. }
    rewrite ZN.
    assert (EE : forall y, y = Ok x ->
      (let! value := y in let! id := it_id mem it in Ok (true, u32 (value + u32 (Z.shiftl id 16))))
      = Ok (true, id * 65536 + x)).
    { intros y ->. cbn [bind]. rewrite Ei. cbn [bind]. rewrite Eb. rewrite u32_id by lia. do 2 f_equal. lia. }
    apply EE. destruct (kind_of c) eqn:K.
    + rewrite Z.eqb_refl. rewrite (id_view_blocks _ _ _ _ _ (proj1 V') K). cbn [bind].
      destruct (view_sparse _ _ _ _ _ _ V1 K) as (B & Hn & Hd & Hm). cbn [one i_data] in B, Hd, Hm.
      unfold select_sparse_chunk.
      rewrite assert_ok by (apply andb_true_intro; split; apply Z.leb_le; lia). cbn [bind].
      destruct (select_blocks_ok dbg mem (i_data it + zlen (blocks_of c) * 2) (rank - sum_card pre) (blocks_of c)
         (Datatypes.S (Z.to_nat (zlen (blocks_of c)))) (i_data it) (i_data it + zlen (blocks_of c) * 2) 0)
         as (p & -> & Np); auto; try lia.
      * rewrite length_zlen. lia.
      * replace (zlen (blocks_of c) * 2) with (2 * zlen (blocks_of c)) by lia. exact B.
      * rewrite blocks_ungroup. lia.
      * rewrite blocks_ungroup, Z.sub_0_r in Np. congruence.
    + cbn [t_dense t_sparse Z.eqb Pos.eqb].
      destruct (select_bitmap_ok dbg (words_mem mem (i_data it)) (Z.to_nat 1024) c (rank - sum_card pre))
        as (p & E & Np); rewrite ?Z2Nat.id in * by lia; auto; try lia.
      { exact (view_dense _ _ _ _ _ _ V1 K). }
      change 1024 with M_Util.chunk_size_in_64bit_words in E. rewrite E. congruence.
    + cbn [t_full t_dense t_sparse Z.eqb Pos.eqb]. f_equal.
      rewrite (kind_full _ _ (view_wf _ _ _ _ _ V1) K) in Ex.
      rewrite znth_zrange in Ex by lia. injection Ex. lia.
Qed.

Lemma c52_select : forall dbg mem a S i value,
  valid S -> is_u32 i -> intact 0 (fun h => exists x, znth S i = Some x /\ x / 65536 = h) mem a S ->
  exists s, seq_at mem a = Ok s
    /\ (forall x, znth S i = Some x -> select dbg mem s i value = Ok (true, x))
    /\ (zlen S <= i -> select dbg mem s i value = Ok (false, value)).
Proof.
  intros. destruct (select_at dbg mem a S i value) as (s & E & C); auto. exists s. split; auto. split.
  - intros x Hx. now rewrite Hx in C.
  - intro Hi. now rewrite znth_ge in C.
Qed.

Lemma next_geq_at dbg mem a S v :
  valid S -> is_u32 v -> intact 0 (fun h => h = v / 65536 \/ h = spec_next_geq S v / 65536) mem a S ->
  exists s, seq_at mem a = Ok s /\ next_geq dbg mem s v = Ok (spec_next_geq S v).
Proof.
  intros H Hv St. destruct (intact_seq _ _ mem a S H St ltac:(lia)) as (s & Es & En & V & A).
  destruct (valid_chunks S H) as (W & N & U & SC & L). unfold is_u32 in Hv.
  exists s. split; auto. unfold next_geq. rewrite shiftr_16.
  destruct (skip_to_value_at mem (seq_begin s) (chunks_of S) (v / 65536)) as
    (it & pre & suf & -> & D & I' & T); auto; [apply V|lia|]. cbn [bind].
  set (ok := fun h => h = v / 65536 \/ h = spec_next_geq S v / 65536) in *.
  assert (V' : part_view 0 ok mem it suf).
  { pose proof (proj1 D) as EC. rewrite EC in V. eapply part_sub; eauto. }
  assert (EN : spec_next_geq S v = nf (fg (ungroup 65536 (chunks_of S)) v)) by (rewrite fg_spec, U; reflexivity).
  destruct D as (E & F1 & F2). rewrite E in W, EN.
  rewrite (fg_pre 65536 65535) in EN; auto; [|lia|now apply wf_app in W].
  apply wf_app in W as [_ W].
  destruct suf as [|[id c] suf].
  - rewrite EN, (id_view_base _ _ _ (proj1 V')). cbn [bind].
    destruct pre as [|ch pre]; [now rewrite E in N|].
    assert (0 < v).
    { inversion F1; subst. pose proof (valid_chunks S H) as (W' & _). rewrite E in W'.
      destruct ch as [i c]. apply wfc_id in W'. cbn [fst] in *. lia. }
    destruct (Z.leb_spec v 0); [lia|].
    rewrite (id_view_has_next _ _ _ (proj1 V')). reflexivity.
  - rewrite (id_view_base _ _ _ (proj1 V')). cbn [bind fst].
    rewrite (id_view_has_next _ _ _ (proj1 V')).
    pose proof (wfc_id _ _ _ W) as Hid. inversion F2; subst. cbn [fst] in *.
    pose proof (id_view_wf _ _ _ _ (proj1 V')) as (_ & _ & _ & Hr). cbn [snd] in Hr.
    assert (MIN : forall it id x r cs, part_view 0 ok mem it ((id, x :: r) :: cs) -> ok id ->
              chunk_min dbg mem it = Ok (id * 65536 + x)).
    { intros it0 id0 x0 r0 cs0 P0 Ho. change (chunk_min dbg mem it0) with (chunk_min dbg mem it0).
      pose proof (chunk_min_ok dbg mem 0 (one it0) id0 x0 r0 [] (part_one _ _ _ _ _ _ _ P0 Ho ltac:(lia)) ltac:(lia)) as CM.
      rewrite <- CM. unfold chunk_min, it_base. 
      rewrite (id_view_id _ _ _ (proj1 P0)).
      rewrite (id_view_id _ _ _ (proj1 (part_one _ _ _ _ _ _ _ P0 Ho ltac:(lia)))). reflexivity. }
    destruct (Z.leb_spec v (id * 65536)).
    + destruct (wf_snd_cons _ _ _ _ _ W) as (x & r & -> & Hx).
      rewrite (fg_head 65536 65535) in EN by (auto; lia). cbn [nf] in EN. rewrite EN. eapply MIN; [exact V'|].
      right. rewrite EN. lia.
    + assert (Ei : id = v / 65536) by lia. rewrite (fg_same 65536 65535) in EN by (auto; lia).
      rewrite land_65535 by lia.
      assert (V1 : it_view 0 mem (one it) [(id, c)]) by (eapply part_one; [exact V'|now left|lia]).
      pose proof (chunk_search dbg mem 0 (one it) id c [] (v mod 65536) V1 ltac:(lia) ltac:(lia)) as CS.
      change (it_type mem (one it)) with (it_type mem it) in CS. change (it_blocks mem (one it)) with (it_blocks mem it) in CS.
      cbn [one i_data] in CS.
      revert CS. rewrite (id_view_type _ _ _ _ _ (proj1 V')). cbn [bind]. intros ->. cbn [bind].
      destruct (fg c (v mod 65536)) as [x|] eqn:Ex; cbn [nf] in EN |- *.
      * apply fg_Some in Ex as [Ex _]. rewrite Forall_forall in Hr. specialize (Hr x Ex).
        change not_found with 4294967295. destruct (Z.eqb_spec x 4294967295); [lia|]. cbn [negb bind].
        rewrite u32_id by lia. f_equal. lia.
      * rewrite Z.eqb_refl. cbn [negb]. destruct (part_next _ _ _ _ _ _ _ V') as (it' & -> & V2).
        cbn [bind]. rewrite (id_view_has_next _ _ _ (proj1 V2)).
        destruct suf as [|[id2 c2] suf]; [now rewrite EN|].
        pose proof W as W0. apply wf_cons in W as (_ & W2 & F). inversion F; subst. cbn [fst] in *.
        destruct (wf_snd_cons _ _ _ _ _ W2) as (x & r & -> & Hx).
        rewrite (fg_head 65536 65535) in EN by (auto; lia). cbn [nf] in EN. rewrite EN. eapply MIN; [exact V2|].
        right. rewrite EN. lia.
Qed.

Lemma c52_next_geq : forall dbg mem a S v r,
  valid S -> is_u32 v ->
  (In r S /\ v <= r /\ (forall x, In x S -> v <= x -> r <= x)) \/ (r = 4294967295 /\ forall x, In x S -> x < v) ->
  intact 0 (fun h => h = v / 65536 \/ h = r / 65536) mem a S ->
  exists s, seq_at mem a = Ok s /\ next_geq dbg mem s v = Ok r.
Proof.
  intros dbg mem a S v r V U HR St. assert (E : r = spec_next_geq S v).
  { destruct V as (_ & V & R). rewrite Forall_forall in R.
    destruct (spec_next_geq_spec S v V) as [(H1 & H2 & H3)|(H1 & H2)]; destruct HR as [(R1 & R2 & R3)|(R1 & R2)].
    - apply Z.le_antisymm; auto.
    - specialize (R2 _ H1). lia.
    - specialize (H2 _ R1). lia.
    - congruence. }
  subst r. apply next_geq_at; auto.
Qed.

(** ** pairwise intersection *)
Section Pair.
Variables (tbl : Z -> list Z) (Ht : shuffle_table_ok tbl) (dbg : bool) (mem : list Z) (okA okB : Z -> Prop).
Lemma pairwise_loop_at : forall fuel A B itl itr x out pos,
  (length A + length B <= fuel)%nat ->
  (forall h, In h (map fst A) -> In h (map fst B) -> okA h /\ okB h) ->
  part_view 31 okA mem itl A -> part_view 31 okB mem itr B -> zlen x = 1024 ->
  0 <= pos -> pos + zlen (isect (ungroup 65536 A) (ungroup 65536 B)) + 23 <= zlen out ->
  exists x' out', pairwise_intersection_loop fuel tbl dbg mem itl itr x out pos
               = Ok (x', out', pos + zlen (isect (ungroup 65536 A) (ungroup 65536 B))) /\ zlen x' = 1024
    /\ wrote 23 out pos (isect (ungroup 65536 A) (ungroup 65536 B)) out'.
Proof.
  assert (Hk : 0 < 65536) by lia.
  induction fuel as [|f IH]; intros A B itl itr x out pos Hf OK Va Vb Hx Hp Ho; cbn [pairwise_intersection_loop];
    rewrite (id_view_has_next _ _ _ (proj1 Va)), (id_view_has_next _ _ _ (proj1 Vb)).
  all: destruct A as [|[i a] A]; [exists x, out; cbn; split; [f_equal; f_equal; lia|]; split; auto; apply wrote_nil; lia|].
  all: destruct B as [|[j b] B]; [cbn [ungroup flat_map andb]; rewrite isect_nil_r; exists x, out; split;
    [f_equal; f_equal; rewrite zlen_nil; lia|]; split; auto; apply wrote_nil; lia|].
  { cbn [length] in Hf. lia. }
  cbn [andb]. pose proof (proj1 (proj1 Va)) as WA. pose proof (proj1 (proj1 Vb)) as WB.
  destruct (chunk_base _ _ _ _ _ (proj1 Va)) as (Ei & Ebi & Hi).
  destruct (chunk_base _ _ _ _ _ (proj1 Vb)) as (Ej & Ebj & Hj).
  rewrite Ei, Ej. cbn [bind]. rewrite !u16_id by lia. cbn [length] in Hf.
  destruct (Z.eqb_spec i j) as [E|E].
  - subst j. rewrite Ebi.
    rewrite (isect_groups_eq 65536 65535 Hk i i a b A B) in * by auto.
    rewrite zlen_app, zlen_ungroup1 in *. cbn [snd] in *.
    pose proof (zlen_nonneg _ (isect a b)). pose proof (zlen_nonneg _ (isect (ungroup 65536 A) (ungroup 65536 B))).
    destruct (OK i (in_eq _ _) (in_eq _ _)) as [OA OB].
    pose proof (part_one _ _ _ _ _ _ _ Va OA ltac:(lia)) as Va0. pose proof (part_one _ _ _ _ _ _ _ Vb OB ltac:(lia)) as Vb0.
    change (intersect_chunks tbl dbg mem itl itr (i * 65536) x out pos) with (intersect_chunks tbl dbg mem (one itl) (one itr) (i * 65536) x out pos).
    destruct (intersect_chunks_ok tbl Ht dbg mem (one itl) (one itr) i i a b [] [] (i * 65536) x out pos) as (x1 & out1 & -> & Hx1 & W1); auto; try lia.
    cbn [bind]. pose proof (wrote_zlen _ _ _ _ _ W1).
    destruct (part_next _ _ _ _ _ _ _ Va) as (itl1 & -> & Va1). cbn [bind].
    destruct (part_next _ _ _ _ _ _ _ Vb) as (itr1 & -> & Vb1). cbn [bind].
    pose proof (chunk_card _ _ (id_view_wf _ _ _ _ (proj1 Va))). pose proof (zlen_isect_le a b).
    rewrite u32_id by lia.
    destruct (IH A B itl1 itr1 x1 out1 (pos + zlen (isect a b))) as (x2 & out2 & -> & Hx2 & W2); auto; try lia.
    { intros h HA HB. apply OK; now right. }
    exists x2, out2. split; [f_equal; f_equal; lia|]. split; auto.
    eapply wrote_app; [lia|exact W1|]. now rewrite zlen_ungroup1.
  - destruct (Z.ltb_spec i j).
    + destruct (part_advance 31 okA mem itl ((i, a) :: A) j Va) as (itl1 & pre & suf & -> & D & Va1); [lia|].
      cbn [bind]. pose proof (dropped_dropg _ _ _ _ D) as Es.
      rewrite (isect_dropg 65536 65535 ((i, a) :: A) j b B Hk WA WB) in *. rewrite <- Es in *.
      apply IH; auto.
      2:{ intros h HA HB. apply OK; auto. rewrite (proj1 D), map_app. apply in_or_app. now right. }
      destruct D as (D & F & G). apply (f_equal (@length _)) in D. rewrite app_length in D.
      cbn [length] in *. destruct pre as [|? pre]; [|cbn [length] in D; lia].
      exfalso. destruct suf as [|? suf]; [discriminate|]. cbn [dropg fst] in Es.
      destruct (Z.ltb_spec i j); [|lia]. clear IH. 
      assert (Ls : (length (dropg j A) <= length A)%nat).
      { destruct (dropg_split j A) as (pp & Ep & _). rewrite Ep at 2. rewrite app_length. lia. }
      rewrite <- Es in Ls. cbn [length] in *. lia.
    + destruct (part_advance 31 okB mem itr ((j, b) :: B) i Vb) as (itr1 & pre & suf & -> & D & Vb1); [lia|].
      cbn [bind]. pose proof (dropped_dropg _ _ _ _ D) as Es.
      assert (SA : sorted (ungroup 65536 ((i, a) :: A))) by (apply (sorted_ungroup 65536 65535); auto).
      assert (SB : sorted (ungroup 65536 ((j, b) :: B))) by (apply (sorted_ungroup 65536 65535); auto).
      assert (SB1 : sorted (ungroup 65536 suf)) by (apply (sorted_ungroup 65536 65535); auto; apply Vb1).
      rewrite (isect_comm (ungroup 65536 ((i, a) :: A))) in * by auto.
      rewrite (isect_dropg 65536 65535 ((j, b) :: B) i a A Hk WB WA) in *. rewrite <- Es in *.
      rewrite <- (isect_comm (ungroup 65536 ((i, a) :: A))) in * by auto.
      apply IH; auto.
      2:{ intros h HA HB. apply OK; auto. rewrite (proj1 D), map_app. apply in_or_app. now right. }
      destruct D as (D & F & G). apply (f_equal (@length _)) in D. rewrite app_length in D.
      cbn [length] in *. destruct pre as [|? pre]; [|cbn [length] in D; lia].
      exfalso. destruct suf as [|? suf]; [discriminate|]. cbn [dropg fst] in Es.
      destruct (Z.ltb_spec j i); [|lia]. clear IH.
      assert (Ls : (length (dropg i B) <= length B)%nat).
      { destruct (dropg_split i B) as (pp & Ep & _). rewrite Ep at 2. rewrite app_length. lia. }
      rewrite <- Es in Ls. cbn [length] in *. lia.
Qed.

End Pair.

Lemma c52_intersection : forall tbl mem a b S T,
  shuffle_table_ok tbl -> valid S -> valid T ->
  intact 31 (has_chunk T) mem a S -> intact 31 (has_chunk S) mem b T ->
  exists e, enumerates (fun v => In v S /\ In v T) e
    /\ forall dbg x out pos,
         zlen x = 1024 -> 0 <= pos -> pos + zlen e + 23 <= zlen out ->
         exists s t x' out', seq_at mem a = Ok s /\ seq_at mem b = Ok t
           /\ pairwise_intersection tbl dbg mem s t x out pos = Ok (x', out', zlen e)
           /\ zlen x' = 1024 /\ wrote 23 out pos e out'.
Proof.
  intros tbl mem a b S T Ht HS HT IS IT. exists (isect S T). split.
  { split; [apply sorted_isect, HS|]. intro. apply In_isect. }
  intros dbg x out pos Hx Hp Ho.
  destruct (intact_seq _ _ mem a S HS IS ltac:(lia)) as (s & Es & _ & Vs & _).
  destruct (intact_seq _ _ mem b T HT IT ltac:(lia)) as (t & Et & _ & Vt & _).
  destruct (valid_chunks S HS) as (_ & _ & US & _). destruct (valid_chunks T HT) as (_ & _ & UT & _).
  pose proof (pairwise_loop_at tbl Ht dbg mem (has_chunk T) (has_chunk S) (it_fuel (seq_begin s) + it_fuel (seq_begin t))
    (chunks_of S) (chunks_of T) (seq_begin s) (seq_begin t) x out pos) as L.
  rewrite US, UT in L. destruct L as (x' & out' & E & Hx' & W); auto.
  { pose proof (it_fuel_ok _ _ _ (proj1 Vs)). pose proof (it_fuel_ok _ _ _ (proj1 Vt)). lia. }
  { intros h H1 H2. split; apply has_chunk_fst; auto. }
  exists s, t, x', out'. unfold pairwise_intersection. rewrite E. cbn [bind].
  repeat split; auto; try apply W. f_equal; f_equal; lia.
Qed.
