(** The encoder, part 2: one chunk, all chunks, the whole sequence. *)
From Verif Require Import Base Hw Spec Lib L_Bits L_Group Layout M_Util M_Build P_Build1.

Lemma stats_entry_ok n : n <= 256 -> stats_entry n = Ok tt.
Proof. intro H. unfold stats_entry. change (1 + _) with 257. destruct (Z.ltb_spec n 257); auto. lia. Qed.

(** ** what one chunk adds to the statistics *)
Definition chunk_delta (c : list Z) (g : field) : Z :=
  let bs := blocks_of c in
  match kind_of c with
  | KSparse =>
      match g with
      | F_sparse_chunks => 1
      | F_integers_in_sparse_chunks => zlen c
      | F_num_blocks_in_chunks i => if i =? zlen bs then 1 else 0
      | F_num_integers i => if i =? zlen bs then zlen c else 0
      | F_blocks => zlen bs + gaps 0 bs
      | F_empty_blocks => gaps 0 bs
      | F_dense_blocks | F_sparse_blocks
      | F_integers_in_dense_blocks | F_integers_in_sparse_blocks
      | F_dense_blocks_bits | F_sparse_blocks_bits
      | F_sparse_blocks_cardinalities _ => blocks_delta bs g
      | _ => 0
      end
  | KDense =>
      match g with
      | F_dense_chunks => 1
      | F_dense_chunks_bits => 65536
      | F_integers_in_dense_chunks => zlen c
      | _ => 0
      end
  | KFull =>
      match g with
      | F_full_chunks => 1
      | F_integers_in_full_chunks => zlen c
      | _ => 0
      end
  end.

Lemma blocks_delta_cons b bs g :
  blocks_delta (b :: bs) g = block_delta (zlen (snd b)) g + blocks_delta bs g.
Proof. reflexivity. Qed.

Lemma zlen_datas_cons b bs : zlen (datas (b :: bs)) = bytes_by_cardinality (zlen (snd b)) + zlen (datas bs).
Proof. rewrite datas_cons, zlen_app, zlen_block_data. reflexivity. Qed.

Ltac card_cases size :=
  destruct (Z.ltb_spec 0 size); try lia;
  destruct (Z.ltb_spec size 31); destruct (Z.leb_spec 31 size); try lia;
  destruct (Z.eqb_spec size 0); try lia; cbn [andb].

Lemma blocks_delta_bytes bs :
  wfb bs ->
  blocks_delta bs F_dense_blocks * 16 + blocks_delta bs F_sparse_blocks * 8
  + blocks_delta bs F_dense_blocks_bits + blocks_delta bs F_sparse_blocks_bits
  = 8 * (zlen (hdrs bs) + zlen (datas bs)).
Proof.
  induction bs as [|b bs IH]; intro H; [reflexivity|].
  apply wf_cons in H as (H1 & H2 & H3). specialize (IH H2).
  rewrite !blocks_delta_cons, zlen_datas_cons, zlen_hdrs, zlen_cons in *.
  apply wf1_zlen in H1; [|lia]. cbn [block_delta]. unfold bytes_by_cardinality.
  card_cases (zlen (snd b)); lia.
Qed.
Lemma blocks_delta_count bs :
  wfb bs -> blocks_delta bs F_dense_blocks + blocks_delta bs F_sparse_blocks = zlen bs.
Proof.
  induction bs as [|b bs IH]; intro H; [reflexivity|].
  apply wf_cons in H as (H1 & H2 & H3). specialize (IH H2).
  rewrite !blocks_delta_cons, zlen_cons.
  apply wf1_zlen in H1; [|lia]. cbn [block_delta].
  card_cases (zlen (snd b)); lia.
Qed.
Lemma blocks_delta_empty bs : wfb bs -> blocks_delta bs F_empty_blocks = 0.
Proof.
  induction bs as [|b bs IH]; intro H; [reflexivity|].
  apply wf_cons in H as (H1 & H2 & H3). specialize (IH H2).
  rewrite !blocks_delta_cons. apply wf1_zlen in H1; [|lia]. cbn [block_delta].
  card_cases (zlen (snd b)); lia.
Qed.
Lemma blocks_delta_card bs i :
  ~ 1 <= i <= 30 -> blocks_delta bs (F_sparse_blocks_cardinalities i) = 0.
Proof.
  intro Hi. induction bs as [|b bs IH]; [reflexivity|].
  rewrite !blocks_delta_cons, IH. cbn [block_delta].
  destruct (Z.ltb_spec 0 (zlen (snd b))); auto.
  destruct (Z.ltb_spec (zlen (snd b)) 31); auto.
  destruct (Z.eqb_spec (zlen (snd b)) i); auto; lia.
Qed.

Lemma accumulate_hist_at n : forall i other st g,
  accumulate_hist n i other st g
  = st g + match g with
           | F_sparse_blocks_cardinalities j =>
               if (i <=? j) && (j <? i + Z.of_nat n) then other g else 0
           | _ => 0
           end.
Proof.
  induction n; intros i other st g; cbn [accumulate_hist].
  - destruct g; try lia. destruct (Z.leb_spec i i0), (Z.ltb_spec i0 (i + Z.of_nat 0)); cbn [andb]; lia.
  - rewrite IHn, sadd_at. destruct g; sfield; try lia.
    + injection e as ->.
      destruct (Z.leb_spec (i + 1) i); try lia. destruct (Z.leb_spec i i); try lia.
      destruct (Z.ltb_spec i (i + Z.of_nat (S n))); try lia. cbn [andb]. lia.
    + assert (i0 <> i) by congruence.
      destruct (Z.leb_spec (i + 1) i0), (Z.leb_spec i i0); try lia; cbn [andb]; try lia.
      replace (i + 1 + Z.of_nat n) with (i + Z.of_nat (S n)) by lia. lia.
Qed.

Lemma lor_packed k : 0 <= k -> Z.lor 1 (Z.shiftl k 8) = 1 + 256 * k.
Proof.
  intro H. rewrite Z.shiftl_mul_pow2 by lia. change (2 ^ 8) with 256.
  assert (E : Z.land 1 (k * 256) = 0).
  { rewrite Z.land_comm. change 1 with (Z.ones 1). rewrite Z.land_ones by lia. change (2 ^ 1) with 2. lia. }
  rewrite <- Z.lxor_lor by auto. rewrite <- Z.add_nocarry_lxor by auto. lia.
Qed.

(** ** one chunk *)
Lemma encode_dense_ok dbg b c Q left header tmp st :
  (dbg = true -> b = true) ->
  Forall (fun x => 0 <= x < 65536) c -> 0 <= left ->
  exists st',
    encode_dense_chunk dbg b (map (fun x => left + x) c ++ Q) (zlen c) left header tmp st
    = Ok (header ++ [3] ++ [8192],
          tmp ++ bytes_of_u64s (bitmap_words (Z.to_nat 1024) c), st')
    /\ forall g, st' g = st g + match g with
                                | F_dense_chunks => 1
                                | F_dense_chunks_bits => 65536
                                | F_integers_in_dense_chunks => zlen c
                                | _ => 0
                                end.
Proof.
  intros Hb Hr Hl. unfold encode_dense_chunk.
  assert (E : assert_ dbg b = Ok tt) by (destruct dbg; [rewrite Hb; auto|reflexivity]).
  rewrite E. cbn [bind]. change M_Util.chunk_size with 65536.
  rewrite (write_bits_ok dbg c Q left (Z.to_nat 1024) 65536) by (auto; lia).
  cbn [bind]. eexists. split.
  - rewrite <- !app_assoc. reflexivity.
  - intro g. change (dense_chunk_bytes * 8) with 65536. destruct g; sfield; lia.
Qed.

Lemma gaps_nonneg lim bs : forall id, wf 256 lim bs -> Forall (fun b => id <= fst b) bs -> 0 <= gaps id bs.
Proof.
  induction bs as [|b bs IH]; intros id H Hid; cbn [gaps]; [lia|].
  apply wf_cons in H as (H1 & H2 & H3). inversion Hid; subst.
  specialize (IH (fst b + 1) H2).
  assert (0 <= gaps (fst b + 1) bs); [|lia]. apply IH.
  eapply Forall_impl; [|exact H3]. cbn. intros; lia.
Qed.

Lemma skipn_zlen_app A (l r : list A) : skipn (Z.to_nat (zlen l)) (l ++ r) = r.
Proof.
  rewrite <- length_zlen. rewrite skipn_app, Nat.sub_diag, skipn_all. reflexivity.
Qed.

Section Chunk.
Variables (dbg : bool) (i left right : Z) (Q : list Z).
Hypothesis Hi : 0 <= i < 65535.
Hypothesis Hleft : left = i * 65536.
Hypothesis Hright : right = left + 65536.
Hypothesis HQ : starts_from right Q.

Lemma encode_chunk_ok c header tmp st :
  wfc1 (i, c) ->
  exists st',
    encode_chunk dbg i (mkEnc (map (fun x => left + x) c ++ Q) left right [] header tmp st)
    = Ok (mkEnc Q right (u32 (right + 65536)) [] (header ++ chunk_hdr (i, c)) (tmp ++ chunk_data c) st')
    /\ forall g, st' g = st g + chunk_delta c g.
Proof.
  intro Hw. pose proof (chunk_card _ _ Hw) as Hc. pose proof (blocks_wf _ _ Hw) as Hb.
  pose proof (blocks_count _ _ Hw) as Hn.
  assert (HL : 0 <= left) by lia. assert (HM : right <= 4294967295) by lia.
  destruct Hw as (_ & Hne & Hs & Hr). cbn [fst snd] in *.
  assert (HP : sorted (map (fun x => left + x) c)) by (apply sorted_map; auto; intros; lia).
  assert (HR : Forall (fun v => left <= v < right) (map (fun x => left + x) c)).
  { rewrite Forall_map. eapply Forall_impl; [|exact Hr]. cbn beta; intros; lia. }
  assert (HN : map (fun x => left + x) c <> []) by (destruct c; [easy|discriminate]).
  unfold encode_chunk. cbn [e_begin e_left e_right e_header e_tmp e_stats e_block].
  assert (E0 : exists v r, map (fun x => left + x) c ++ Q = v :: r /\ (v <? right) = true).
  { destruct c as [|x c']; [easy|]. inversion HR; subst. cbn [map app]. do 2 eexists. split; [reflexivity|].
    apply Z.ltb_lt. lia. }
  destruct E0 as (v & r & E0 & Ev). rewrite E0. rewrite Ev. rewrite <- E0.
  rewrite chunk_cardinality_ok by auto. cbn [bind]. rewrite zlen_map.
  assert (ES : skipn (Z.to_nat (zlen c)) (map (fun x => left + x) c ++ Q) = Q).
  { rewrite <- (zlen_map _ _ (fun x => left + x) c). apply skipn_zlen_app. }
  rewrite (u16_id i), (u16_id (zlen c - 1)) by lia.
  unfold chunk_hdr, chunk_type, chunk_data, chunk_delta, kind_of. cbn [fst snd].
  change M_Util.chunk_sparseness_threshold with 32768. change M_Util.chunk_size with 65536.
  change (65536 / M_Util.block_size) with 256. change dense_chunk_bytes with 8192.
  destruct (Z.ltb_spec (zlen c) 32768).
  - destruct (sparse_chunk_bitsize_ok dbg left right Q HL Hright HM HQ c Hne Hs Hr) as (scs & -> & D).
    cbn [bind].
    assert (EB : (scs F_dense_blocks * 16 + scs F_sparse_blocks * 8
                + scs F_dense_blocks_bits + scs F_sparse_blocks_bits) / 8 = zlen (sparse_data c)).
    { rewrite !D. cbn [block_delta]. cbn [Z.leb Z.ltb Z.compare andb]. rewrite !Z.mul_0_r, !Z.add_0_r.
      rewrite blocks_delta_bytes by auto. rewrite Z.mul_comm, Z.div_mul by lia.
      unfold sparse_data. rewrite zlen_app. reflexivity. }
    rewrite EB.
    destruct (Z.leb_spec 8192 (zlen (sparse_data c))).
    + destruct (encode_dense_ok dbg true c Q left ((header ++ [i]) ++ [zlen c - 1]) tmp st)
        as (st' & -> & D'); auto.
      cbn [bind]. rewrite ES. exists st'. split; [|exact D'].
      rewrite <- !app_assoc. reflexivity.
    + assert (EN : scs F_dense_blocks + scs F_sparse_blocks = zlen (blocks_of c)).
      { rewrite !D. cbn [block_delta]. cbn [Z.leb Z.ltb Z.compare andb]. rewrite !Z.mul_0_r, !Z.add_0_r.
        apply blocks_delta_count; auto. }
      rewrite EN. rewrite (u16_id (zlen (blocks_of c))) by lia.
      rewrite assert_ok by (apply andb_true_intro; split; apply Z.leb_le; lia).
      cbn [bind]. rewrite stats_entry_ok by lia. cbn [bind]. rewrite (encode_sparse_chunk_ok dbg left right Q HL Hright HM HQ c tmp Hne Hs Hr).
      cbn [bind]. rewrite ES. eexists. split.
      * unfold M_Util.t_sparse. rewrite lor_packed by lia.
        rewrite (u16_id (1 + 256 * _)) by lia.
        rewrite (u16_id (zlen (sparse_data c))) by (zpos; lia).
        rewrite <- !app_assoc. reflexivity.
      * intro g. unfold accumulate. rewrite accumulate_hist_at.
        assert (EE : scs F_empty_blocks = gaps 0 (blocks_of c)).
        { rewrite D, blocks_delta_empty by auto. cbn [block_delta Z.eqb]. lia. }
        pose proof (blocks_delta_card (blocks_of c)) as HK.
        Opaque blocks_delta.
        destruct g; sfield; rewrite ?EE, ?EN, ?D; cbn [block_delta Z.eqb Z.leb Z.ltb Z.compare andb]; try lia.
        -- specialize (HK i0).
           destruct (Z.leb_spec 1 i0), (Z.ltb_spec i0 (1 + Z.of_nat 30)); cbn [andb]; lia.
        -- injection e as ->. rewrite Z.eqb_refl. lia.
        -- destruct (Z.eqb_spec i0 (zlen (blocks_of c))); [congruence|lia].
        -- injection e as ->. rewrite Z.eqb_refl. lia.
        -- destruct (Z.eqb_spec i0 (zlen (blocks_of c))); [congruence|lia].
  - destruct (Z.eqb_spec (zlen c) 65536) as [E|].
    + cbn [bind]. rewrite ES. eexists. split.
      * rewrite <- !app_assoc, app_nil_r. reflexivity.
      * intro g. destruct g; sfield; lia.
    + destruct (encode_dense_ok dbg (8192 * 8 <=? 2 * zlen c) c Q left ((header ++ [i]) ++ [zlen c - 1]) tmp st)
        as (st' & -> & D'); auto.
      { intros _. apply Z.leb_le. lia. }
      cbn [bind]. rewrite ES. exists st'. split; [|exact D'].
      rewrite <- !app_assoc. reflexivity.
Qed.
Transparent blocks_delta.

Lemma encode_chunk_empty header tmp st :
  Q <> [] ->
  exists st',
    encode_chunk dbg i (mkEnc Q left right [] header tmp st)
    = Ok (mkEnc Q right (u32 (right + 65536)) [] header tmp st')
    /\ forall g, st' g = st g + match g with F_empty_chunks => 1 | _ => 0 end.
Proof.
  intro Hne. unfold encode_chunk. cbn [e_begin e_left e_right e_header e_tmp e_stats e_block].
  destruct Q as [|v q]; [easy|]. cbn [starts_from] in HQ. subst.
  destruct (Z.ltb_spec v (i * 65536 + 65536)); [lia|]. cbn [bind].
  eexists. split; [reflexivity|]. intro g. destruct g; sfield; lia.
Qed.
End Chunk.

(** ** all chunks *)
Definition chunks_delta (cs : list (Z * list Z)) (g : field) : Z :=
  fold_right (fun ch s => chunk_delta (snd ch) g + s) 0 cs.
Lemma chunks_delta_cons ch cs g : chunks_delta (ch :: cs) g = chunk_delta (snd ch) g + chunks_delta cs g.
Proof. reflexivity. Qed.

(** splitting a list at the end of chunk [i] *)
Lemma split_chunk P i n :
  sorted P -> Forall (fun v => 65536 * i <= v < 65536 * (i + n)) P ->
  exists p P', P = p ++ P'
    /\ sorted p /\ sorted P'
    /\ Forall (fun v => 65536 * i <= v < 65536 * (i + 1)) p
    /\ Forall (fun v => 65536 * (i + 1) <= v < 65536 * (i + n)) P'
    /\ chunks_of P =
       (if (match p with [] => true | _ => false end) then chunks_of P'
        else (i, map (fun v => v mod 65536) p) :: chunks_of P').
Proof.
  intros Hs Hr. destruct (sorted_split P (65536 * (i + 1)) Hs) as (c1 & c2 & -> & H1 & H2).
  exists c1, c2. apply sorted_app_inv in Hs as (S1 & S2 & _). apply Forall_app in Hr as [R1 R2].
  assert (R1' : Forall (fun x => 65536 * i <= x < 65536 * (i + 1)) c1).
  { rewrite Forall_forall in *. intros x Hx. specialize (R1 x Hx). specialize (H1 x Hx). cbn beta in *. lia. }
  assert (R2' : Forall (fun x => 65536 * (i + 1) <= x < 65536 * (i + n)) c2).
  { rewrite Forall_forall in *. intros x Hx. specialize (R2 x Hx). specialize (H2 x Hx). cbn beta in *. lia. }
  repeat split; auto. destruct c1 as [|x c1]; auto.
  unfold chunks_of. apply group_split; [discriminate| |].
  - eapply Forall_impl; [|exact R1']. cbn beta. intros; lia.
  - eapply Forall_impl; [|exact R2']. cbn beta. intros; lia.
Qed.

(** the values of one chunk as offsets *)
Lemma chunk_residues p i :
  Forall (fun v => 65536 * i <= v < 65536 * (i + 1)) p ->
  map (fun x => i * 65536 + x) (map (fun v => v mod 65536) p) = p.
Proof.
  intro H. rewrite map_map. rewrite <- (map_id p) at 2. apply map_ext_in. intros v Hv.
  rewrite Forall_forall in H. specialize (H v Hv). cbn beta in *. lia.
Qed.
Lemma chunk_residues_wf p i :
  0 <= i < 65535 -> p <> [] -> sorted p -> Forall (fun v => 65536 * i <= v < 65536 * (i + 1)) p ->
  wfc1 (i, map (fun v => v mod 65536) p).
Proof.
  intros Hi Hne Hs Hr. split; [exact Hi|]. cbn [fst snd]. split; [|split].
  - destruct p; [easy|discriminate].
  - rewrite <- (chunk_residues p i Hr) in Hs. clear Hne Hr.
    remember (map (fun v => v mod 65536) p) as c eqn:Ec. clear Ec p.
    induction c as [|x c IH]; [apply sorted_nil|].
    cbn [map] in Hs. apply sorted_inv in Hs as [H1 H2].
    apply sorted_cons; auto. rewrite Forall_map in H2. eapply Forall_impl; [|exact H2]. cbn; intros; lia.
  - rewrite Forall_map. eapply Forall_impl; [|exact Hr]. cbn beta; intros; lia.
Qed.

Lemma encode_chunks_ok dbg n : forall i P Q header tmp st,
  0 <= i -> i + Z.of_nat n <= 65535 -> sorted P ->
  Forall (fun v => 65536 * i <= v < 65536 * (i + Z.of_nat n)) P ->
  starts_from (65536 * (i + Z.of_nat n)) Q ->
  (Q <> [] \/ n = O \/ exists v, In v P /\ 65536 * (i + Z.of_nat n - 1) <= v) ->
  exists st',
    encode_chunks n dbg i (mkEnc (P ++ Q) (i * 65536) (u32 (i * 65536 + 65536)) [] header tmp st)
    = Ok (mkEnc Q ((i + Z.of_nat n) * 65536) (u32 ((i + Z.of_nat n) * 65536 + 65536)) []
            (header ++ chdrs (chunks_of P)) (tmp ++ cdatas (chunks_of P)) st')
    /\ forall g, st' g = st g + chunks_delta (chunks_of P) g
        + match g with F_empty_chunks => Z.of_nat n - zlen (chunks_of P) | _ => 0 end.
Proof.
  induction n; intros i P Q header tmp st H0 Hn Hs Hr HQ Hl.
  - destruct P as [|v P]; [|inversion Hr; subst; lia].
    cbn [encode_chunks app]. exists st. split.
    + change (chunks_of []) with (@nil (Z * list Z)). unfold chdrs, cdatas. cbn [flat_map].
      rewrite !app_nil_r, Z.add_0_r. reflexivity.
    + intro g. cbn. destruct g; lia.
  - destruct (split_chunk P i (Z.of_nat (S n)) Hs Hr) as (p & P' & -> & S1 & S2 & R1 & R2 & EC).
    cbn [encode_chunks]. rewrite (u32_id (i * 65536 + 65536)) by lia.
    assert (HQ' : starts_from (i * 65536 + 65536) (P' ++ Q)).
    { apply starts_from_app.
      - eapply Forall_impl; [|exact R2]. cbn beta. intros; lia.
      - eapply starts_from_le; [exact HQ|lia]. }
    assert (HL' : Q <> [] \/ n = O \/ exists v, In v P' /\ 65536 * (i + 1 + Z.of_nat n - 1) <= v).
    { destruct Hl as [Hl|[Hl|(v & Hv & Hl)]]; [auto|easy|].
      destruct n; [auto|]. right. right. exists v. split; [|lia].
      apply in_app_iff in Hv as [Hv|Hv]; auto.
      rewrite Forall_forall in R1. specialize (R1 v Hv). cbn beta in R1. lia. }
    assert (R2' : Forall (fun v => 65536 * (i + 1) <= v < 65536 * (i + 1 + Z.of_nat n)) P').
    { eapply Forall_impl; [|exact R2]. cbn beta. intros; lia. }
    assert (HQ2 : starts_from (65536 * (i + 1 + Z.of_nat n)) Q).
    { eapply starts_from_le; [exact HQ|lia]. }
    destruct p as [|v p'].
    + cbn [app]. destruct (encode_chunk_empty dbg i (i * 65536) (i * 65536 + 65536) (P' ++ Q)
        ltac:(auto) ltac:(auto) HQ' header tmp st) as (st1 & E1 & D1).
      { destruct P'; [cbn [app]|discriminate]. cbn [app] in Hl.
        destruct Hl as [Hl|[Hl|(v & Hv & Hl)]]; [auto|easy|easy]. }
      rewrite E1. cbn [bind].
      destruct (IHn (i + 1) P' Q header tmp st1) as (st2 & E2 & D2); auto; try lia.
      replace (i * 65536 + 65536 + 65536) with ((i + 1) * 65536 + 65536) by lia.
      replace (i * 65536 + 65536) with ((i + 1) * 65536) by lia.
      rewrite E2. exists st2. split.
      * replace (i + 1 + Z.of_nat n) with (i + Z.of_nat (S n)) by lia. reflexivity.
      * intro g. rewrite D2, D1. destruct g; lia.
    + remember (v :: p') as p eqn:Ep. assert (N1 : p <> []) by (subst; discriminate).
      replace (match p with [] => true | _ => false end) with false in EC by (now subst).
      clear Ep v p'. rewrite EC.
      assert (Hi : 0 <= i < 65535) by lia.
      pose proof (chunk_residues_wf p i Hi N1 S1 R1) as Hw.
      rewrite <- app_assoc.
      destruct (encode_chunk_ok dbg i (i * 65536) (i * 65536 + 65536) (P' ++ Q) Hi
        ltac:(auto) ltac:(auto) HQ' (map (fun v => v mod 65536) p) header tmp st Hw) as (st1 & E1 & D1).
      rewrite (chunk_residues p i R1) in E1. rewrite E1. cbn [bind].
      destruct (IHn (i + 1) P' Q (header ++ chunk_hdr (i, map (fun v => v mod 65536) p))
                  (tmp ++ chunk_data (map (fun v => v mod 65536) p)) st1) as (st2 & E2 & D2); auto; try lia.
      replace (i * 65536 + 65536 + 65536) with ((i + 1) * 65536 + 65536) by lia.
      replace (i * 65536 + 65536) with ((i + 1) * 65536) by lia.
      rewrite E2. exists st2. split.
      * rewrite chdrs_cons, cdatas_cons, !app_assoc. cbn [snd].
        replace (i + 1 + Z.of_nat n) with (i + Z.of_nat (S n)) by lia. reflexivity.
      * intro g. rewrite D2, D1, chunks_delta_cons, zlen_cons. cbn [snd]. destruct g; lia.
Qed.
