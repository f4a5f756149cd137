(** Pairwise union. *)
From Verif Require Import Base Hw Spec Lib L_Bits L_Group Layout M_Util M_Seq M_Decode M_Uncompress
  M_Union P_Build1 P_Build2 P_Build3 P_Seq P_Decode P_Query P_Uncompress P_Sets P_Inter.

(** two regions of [na] and [nb] bytes that are not adjacent, or the same *)
Definition sep {A} (a b : A) (da na db nb : Z) : Prop :=
  (a = b /\ da = db) \/ da + na < db \/ db + nb < da.

Lemma map_ext_u32 base l : map (fun x => u32 (x + base)) l = map (fun x => u32 (base + x)) l.
Proof. apply map_ext. intro. now rewrite Z.add_comm. Qed.

(** ** two sparse blocks *)
Lemma ss_union_block_loop_ok mem end_l end_r base pos : forall fuel a b l r out size,
  (length a + length b <= fuel)%nat ->
  bytes_at mem l a -> bytes_at mem r b -> a <> [] -> b <> [] ->
  end_l = l + zlen a -> end_r = r + zlen b ->
  0 <= pos + size -> pos + size + zlen (uni a b) <= zlen out ->
  exists out' e a' b' pa pb,
    ss_union_block_loop fuel mem l r end_l end_r base out pos size
    = Ok (out', size + zlen e, end_l - zlen a', end_r - zlen b')
    /\ wrote 0 out (pos + size) (map (fun x => u32 (x + base)) e) out'
    /\ a = pa ++ a' /\ b = pb ++ b' /\ (a' = [] \/ b' = []) /\ uni a b = e ++ a' ++ b'
    /\ (a = b -> a' = [] /\ b' = []).
Proof.
  induction fuel as [|f IH]; intros a b l r out size Hf Ba Bb Na Nb El Er Hp Ho.
  { destruct a; [congruence|]. cbn [length] in Hf. lia. }
  destruct a as [|x a]; [congruence|]. destruct b as [|y b]; [congruence|].
  cbn [length] in Hf. cbn [ss_union_block_loop].
  pose proof (proj1 (bytes_at_cons _ _ _ _) Ba) as [Bx Ba1]. apply rd8_znth in Bx.
  pose proof (proj1 (bytes_at_cons _ _ _ _) Bb) as [By Bb1]. apply rd8_znth in By.
  rewrite Bx. cbn [bind]. rewrite By. cbn [bind].
  pose proof (zlen_uni a (y :: b)). pose proof (zlen_uni a b). pose proof (zlen_uni (x :: a) b). zpos.
  rewrite uni_cons in *. rewrite zlen_cons in El, Er.
  destruct (Z.ltb_spec x y).
  - rewrite zlen_cons in Ho.
    destruct (vset_ok out (pos + size) (u32 (x + base))) as (out1 & -> & W1); [lia|]. cbn [bind].
    pose proof (wrote_zlen _ _ _ _ _ W1).
    destruct (Z.eqb_spec (l + 1) end_l) as [E1|E1].
    + assert (a = []) as -> by (destruct a; auto; rewrite zlen_cons in El; zpos; lia).
      exists out1, [x], [], (y :: b), [x], []. rewrite uni_nil_l. cbn [app].
      split; [rewrite zlen_nil, !zlen_cons, zlen_nil; f_equal; f_equal; [f_equal|]; lia|].
      split; [exact W1|]. split; [reflexivity|]. split; [reflexivity|]. split; [auto|]. split; [auto|]. intros [=]; lia.
    + assert (a <> []) by (intros ->; rewrite zlen_nil in El; lia).
      destruct (IH a (y :: b) (l + 1) r out1 (size + 1)) as (out2 & e & a' & b' & pa & pb & -> & W2 & Ea & Eb & D & U & Q);
        auto; try lia; try discriminate; try (rewrite ?zlen_cons; cbn [length]; lia).
      exists out2, (x :: e), a', b', (x :: pa), pb. rewrite zlen_cons.
      split; [f_equal; f_equal; f_equal; f_equal; lia|].
      split; [cbn [map]; eapply wrote_cons; [lia|exact W1|]; now rewrite <- Z.add_assoc|].
      split; [cbn [app]; congruence|]. split; auto. split; auto. split; [cbn [app]; congruence|].
      intros [= -> _]. lia.
  - destruct (Z.ltb_spec y x).
    + rewrite zlen_cons in Ho.
      destruct (vset_ok out (pos + size) (u32 (y + base))) as (out1 & -> & W1); [lia|]. cbn [bind].
      pose proof (wrote_zlen _ _ _ _ _ W1).
      destruct (Z.eqb_spec (r + 1) end_r) as [E1|E1].
      * assert (b = []) as -> by (destruct b; auto; rewrite zlen_cons in Er; zpos; lia).
        exists out1, [y], (x :: a), [], [], [y]. rewrite uni_nil_r. cbn [app].
        split; [rewrite zlen_nil, !zlen_cons, zlen_nil; f_equal; f_equal; [f_equal|]; lia|].
        split; [exact W1|]. rewrite app_nil_r. split; [reflexivity|]. split; [reflexivity|]. split; [auto|]. split; [auto|]. intros [=]; lia.
      * assert (b <> []) by (intros ->; rewrite zlen_nil in Er; lia).
        destruct (IH (x :: a) b l (r + 1) out1 (size + 1)) as (out2 & e & a' & b' & pa & pb & -> & W2 & Ea & Eb & D & U & Q);
          auto; try lia; try discriminate; try (rewrite ?zlen_cons; cbn [length]; lia).
        exists out2, (y :: e), a', b', pa, (y :: pb). rewrite zlen_cons.
        split; [f_equal; f_equal; f_equal; f_equal; lia|].
        split; [cbn [map]; eapply wrote_cons; [lia|exact W1|]; now rewrite <- Z.add_assoc|].
        split; auto. split; [cbn [app]; congruence|]. split; auto. split; [cbn [app]; congruence|].
        intros [= -> _]. lia.
    + assert (x = y) by lia. subst y. rewrite zlen_cons in Ho.
      destruct (vset_ok out (pos + size) (u32 (x + base))) as (out1 & -> & W1); [lia|]. cbn [bind].
      pose proof (wrote_zlen _ _ _ _ _ W1).
      destruct (Z.eqb_spec (l + 1) end_l) as [E1|E1]; cbn [orb].
      * assert (a = []) as -> by (destruct a; auto; rewrite zlen_cons in El; zpos; lia).
        exists out1, [x], [], b, [x], [x]. rewrite uni_nil_l. cbn [app].
        split; [rewrite !zlen_cons, !zlen_nil; f_equal; f_equal; [f_equal|]; lia|].
        split; [exact W1|]. split; [reflexivity|]. split; [reflexivity|]. split; [auto|]. split; [auto|]. intros [= <-]; auto.
      * assert (a <> []) by (intros ->; rewrite zlen_nil in El; lia).
        destruct (Z.eqb_spec (r + 1) end_r) as [E2|E2].
        -- assert (b = []) as -> by (destruct b; auto; rewrite zlen_cons in Er; zpos; lia).
           exists out1, [x], a, [], [x], [x]. rewrite uni_nil_r. cbn [app].
           split; [rewrite !zlen_cons, !zlen_nil; f_equal; f_equal; [f_equal|]; lia|].
           split; [exact W1|]. rewrite app_nil_r. split; [reflexivity|]. split; [reflexivity|]. split; [auto|]. split; [auto|]. intros [= ->]. congruence.
        -- assert (b <> []) by (intros ->; rewrite zlen_nil in Er; lia).
           destruct (IH a b (l + 1) (r + 1) out1 (size + 1)) as (out2 & e & a' & b' & pa & pb & -> & W2 & Ea & Eb & D & U & Q);
             auto; try lia.
           exists out2, (x :: e), a', b', (x :: pa), (x :: pb). rewrite zlen_cons.
           split; [f_equal; f_equal; f_equal; f_equal; lia|].
           split; [cbn [map]; eapply wrote_cons; [lia|exact W1|]; now rewrite <- Z.add_assoc|].
           split; [cbn [app]; congruence|]. split; [cbn [app]; congruence|]. split; auto.
           split; [cbn [app]; congruence|]. intros [= ->]. auto.
Qed.

(** decoding a block of no elements only scribbles *)
Lemma decode_sparse_block_0 mem data base out pos :
  0 <= data -> data + 16 <= zlen mem -> 0 <= pos -> pos + 8 <= zlen out ->
  exists out', decode_sparse_block mem data 0 base out pos = Ok (out', 0) /\ wrote 8 out pos [] out'.
Proof.
  intros Hd Hm Hp Ho. unfold decode_sparse_block.
  destruct (rd_bytes_ok mem data 8) as (w & _ & L & B); [lia|lia|].
  assert (Zw : zlen w = 8) by (unfold zlen; rewrite L; reflexivity).
  destruct (decode_step_ok mem data base out pos 0 w) as (out1 & -> & W1); rewrite ?Z.add_0_r; auto; try lia.
  cbn [bind]. exists out1. split; auto. rewrite Z.add_0_r in W1.
  apply (wrote_prefix 8 _ _ [] (map (fun x => u32 (base + x)) w)); auto. rewrite zlen_map. lia.
Qed.

Lemma wrote_nil_app k buf pos e buf1 buf2 :
  wrote k buf pos e buf1 -> wrote k buf1 (pos + zlen e) [] buf2 -> 0 <= k -> wrote k buf pos e buf2.
Proof. intros H1 H2 Hk. rewrite <- (app_nil_r e). eapply wrote_app; eauto. Qed.

Lemma ss_union_block_ok dbg mem l r a b base out pos :
  bytes_at mem l a -> bytes_at mem r b -> 1 <= zlen a <= 30 -> 1 <= zlen b <= 30 ->
  Forall (fun x => 0 <= x < 256) a -> Forall (fun x => 0 <= x < 256) b ->
  sep a b l (zlen a) r (zlen b) ->
  0 <= l -> l + zlen a + 31 <= zlen mem -> 0 <= r -> r + zlen b + 31 <= zlen mem ->
  0 <= base -> base + 256 <= 4294967296 ->
  0 <= pos -> pos + zlen (uni a b) + 23 <= zlen out ->
  exists out', ss_union_block dbg mem l r (zlen a) (zlen b) base out pos
               = Ok (out', zlen (uni a b))
    /\ wrote 23 out pos (map (addb base) (uni a b)) out'.
Proof.
  intros Ba Bb Ha Hb Ra Rb Hs Hl Hml Hr Hmr Hb0 Hb1 Hp Ho. unfold ss_union_block.
  change (block_sparseness_threshold - 2) with 30.
  rewrite assert_ok by (apply andb_true_intro; split; [apply Z.ltb_lt|apply Z.leb_le]; lia). cbn [bind].
  rewrite assert_ok by (apply andb_true_intro; split; [apply Z.ltb_lt|apply Z.leb_le]; lia). cbn [bind].
  pose proof (zlen_nonneg _ (uni a b)).
  destruct (ss_union_block_loop_ok mem (l + zlen a) (r + zlen b) base pos (Z.to_nat (zlen a + zlen b)) a b l r out 0)
    as (out1 & e & a' & b' & pa & pb & -> & W1 & Ea & Eb & D & U & Q); auto; try lia.
  { unfold zlen. lia. }
  { intros ->. rewrite zlen_nil in *. lia. }
  { intros ->. rewrite zlen_nil in *. lia. }
  cbn [bind]. pose proof (wrote_zlen _ _ _ _ _ W1).
  rewrite Z.add_0_l, Z.add_0_r in *.
  assert (Ru : Forall (fun x => 0 <= x < 256) (uni a b)) by auto using Forall_uni.
  destruct (map_u32_add base (uni a b) 256) as [M1 M2]; auto.
  rewrite <- M1. rewrite U in *. rewrite !zlen_app in *.
  assert (La : zlen a = zlen pa + zlen a') by now rewrite Ea, zlen_app.
  assert (Lb : zlen b = zlen pb + zlen b') by now rewrite Eb, zlen_app.
  pose proof Ba as Ba'. rewrite Ea in Ba'. apply bytes_at_app in Ba' as [_ Ba'].
  pose proof Bb as Bb'. rewrite Eb in Bb'. apply bytes_at_app in Bb' as [_ Bb'].
  zpos. pose proof (zlen_nonneg _ pa). pose proof (zlen_nonneg _ pb).
  set (f := fun x => u32 (x + base)) in *.
  (* the second tail, when there is nothing left on the right *)
  assert (T2 : forall out2 n, zlen out2 = zlen out -> n = zlen e + zlen a' -> b' = [] ->
            wrote 23 out pos (map f (e ++ a' ++ b')) out2 ->
            exists out', (if negb (r + zlen b - zlen b' =? l + zlen a)
              then let! (out0, n0) := decode_sparse_block mem (r + zlen b - zlen b')
                    (r + zlen b - (r + zlen b - zlen b')) base out2 (pos + n) in Ok (out0, n + n0)
              else Ok (out2, n)) = Ok (out', zlen e + (zlen a' + zlen b'))
              /\ wrote 23 out pos (map f (e ++ a' ++ b')) out').
  { intros out2 n Hz -> -> W2. rewrite zlen_nil in *. rewrite Z.sub_0_r, Z.add_0_r, Z.sub_diag.
    destruct (negb (r + zlen b =? l + zlen a)); [|exists out2; auto].
    destruct (decode_sparse_block_0 mem (r + zlen b) base out2 (pos + (zlen e + zlen a'))) as (out3 & -> & W3);
      try lia.
    cbn [bind]. exists out3. split; [f_equal; f_equal; lia|].
    eapply wrote_nil_app; [exact W2| |lia]. rewrite zlen_map, app_nil_r, zlen_app.
    eapply wrote_weaken; [exact W3|lia]. }
  destruct (Z.eqb_spec (l + zlen a - zlen a') (l + zlen a)) as [E1|E1]; cbn [negb bind].
  - assert (a' = []) as -> by (destruct a'; auto; rewrite zlen_cons in *; zpos; lia).
    rewrite zlen_nil in *. cbn [app] in *.
    destruct b' as [|y b'].
    + apply (T2 out1 (zlen e)); auto; try lia. rewrite !app_nil_r. eapply wrote_weaken; [exact W1|lia].
    + set (bb := y :: b') in *. assert (zlen bb >= 1) by (unfold bb; rewrite zlen_cons; zpos; lia).
      destruct (Z.eqb_spec (r + zlen b - zlen bb) (l + zlen a)) as [E2|E2]; cbn [negb].
      { exfalso. destruct Hs as [[Hs _]|[Hs|Hs]]; [|lia|lia]. destruct (Q Hs). discriminate. }
      destruct (decode_sparse_block_ok mem (r + zlen b - zlen bb) bb base out1 (pos + zlen e)) as (out2 & E & W2); try lia.
      { replace (r + zlen b - zlen bb) with (r + zlen pb) by lia. exact Bb'. }
      replace (r + zlen b - (r + zlen b - zlen bb)) with (zlen bb) by lia. rewrite E. cbn [bind].
      exists out2. split; auto. rewrite map_app. eapply wrote_app; [lia|eapply wrote_weaken; [exact W1|lia]|].
      rewrite zlen_map. unfold f. rewrite map_ext_u32. exact W2.
  - assert (b' = []) as -> by (destruct D as [->|]; auto; rewrite zlen_nil in E1; lia).
    assert (zlen a' >= 1) by lia.
    destruct (decode_sparse_block_ok mem (l + zlen a - zlen a') a' base out1 (pos + zlen e)) as (out2 & E & W2); try lia.
    { replace (l + zlen a - zlen a') with (l + zlen pa) by lia. exact Ba'. }
    replace (l + zlen a - (l + zlen a - zlen a')) with (zlen a') by lia. rewrite E. cbn [bind].
    pose proof (wrote_zlen _ _ _ _ _ W2). apply T2; auto; try lia.
    rewrite app_nil_r, map_app. eapply wrote_app; [lia|eapply wrote_weaken; [exact W1|lia]|].
    rewrite zlen_map. unfold f. rewrite map_ext_u32. exact W2.
Qed.

(** ** blocks *)
Lemma ds_union_block_ok mem l r a b base x out pos :
  bm_at (words_mem mem l) 4 (memb a) -> bytes_at mem r b -> b <> [] -> sorted a -> sorted b ->
  Forall (fun x => 0 <= x < 256) a -> Forall (fun x => 0 <= x < 256) b ->
  zlen x = 4 -> 0 <= base -> base + 256 <= 4294967296 ->
  0 <= pos -> pos + zlen (uni a b) + 23 <= zlen out ->
  exists x' out', ds_union_block mem l r (zlen b) base x out pos = Ok (x', out', zlen (uni a b))
    /\ zlen x' = 4 /\ wrote 23 out pos (map (addb base) (uni a b)) out'.
Proof.
  intros Ba Bb Nb Sa Sb Ra Rb Hx Hb0 Hb1 Hp Ho. unfold ds_union_block.
  change (block_size / 8 / 8) with 4.
  destruct (memcpy_words_ok mem l 4 (memb a) x 0) as (x1 & -> & Bx1 & Sx1); auto; try lia. cbn [bind].
  destruct Sx1 as [Lx1 _].
  destruct (uncompress_sparse_block_ok mem b r x1 0 4 (memb a) 0) as (x2 & E2 & Bx2 & Sx2); auto; try lia.
  rewrite Z.add_0_r in E2. rewrite E2. cbn [bind]. destruct Sx2 as [Lx2 _].
  change block_size_in_64bit_words with (Z.of_nat 4).
  assert (Ruab : Forall (fun x => 0 <= x < 256) (uni a b)) by auto using Forall_uni.
  assert (Suab : sorted (uni a b)) by auto using sorted_uni.
  destruct (or_bitmaps_ok (words_mem mem l) (words_vec x2) 4 a (uni a b) base out pos) as (out' & E & W); auto; try lia.
  { eapply bm_at_ext; [exact Bx2|]. intros z _. cbn beta. rewrite memb_uni. now rewrite Z.mul_0_r, Z.sub_0_r. }
  all: assert (EU : uni a (uni a b) = uni a b)
      by (symmetry; apply uni_unique; auto; intro z; rewrite In_uni; tauto).
  { rewrite EU. lia. }
  rewrite EU in *. rewrite E. cbn [bind]. exists x2, out'. split; auto. split; [lia|].
  eapply wrote_weaken; [exact W|lia].
Qed.

Lemma union_blocks_ok dbg mem dl dr ia ib a b base x out pos :
  wfb1 (ia, a) -> wfb1 (ib, b) ->
  bytes_at mem dl (block_data a) -> bytes_at mem dr (block_data b) ->
  sep a b dl (zlen (block_data a)) dr (zlen (block_data b)) -> zlen x = 4 ->
  0 <= dl -> dl + zlen (block_data a) + 31 <= zlen mem ->
  0 <= dr -> dr + zlen (block_data b) + 31 <= zlen mem ->
  0 <= base -> base + 256 <= 4294967296 ->
  0 <= pos -> pos + zlen (uni a b) + 23 <= zlen out ->
  exists x' out', union_blocks dbg mem dl dr (zlen a) (zlen b) base x out pos
               = Ok (x', out', zlen (uni a b)) /\ zlen x' = 4
    /\ wrote 23 out pos (map (addb base) (uni a b)) out'.
Proof.
  intros Wa Wb Ba Bb Hs Hx Hl Hml Hr Hmr Hb0 Hb1 Hp Ho.
  pose proof (blocks_wf1_zlen _ _ Wa) as La. pose proof (blocks_wf1_zlen _ _ Wb) as Lb.
  destruct Wa as (_ & Na & Sa & Ra). destruct Wb as (_ & Nb & Sb & Rb). cbn [snd] in *.
  unfold union_blocks. rewrite !block_type_val.
  rewrite !zlen_block_data in *. unfold bytes_by_cardinality in *.
  change block_sparseness_threshold with 32 in Hml, Hmr.
  destruct (Z.ltb_spec (zlen a) 31) as [Ka|Ka]; destruct (Z.ltb_spec (zlen b) 31) as [Kb|Kb].
  - rewrite Z.eqb_refl. apply block_sparse in Ba, Bb; auto.
    destruct (ss_union_block_ok dbg mem dl dr a b base out pos) as (out' & E & W); auto; try lia.
    rewrite E. cbn [bind]. exists x, out'. auto.
  - change (block_pair t_sparse t_dense =? block_pair t_sparse t_sparse) with false. cbv iota.
    rewrite Z.eqb_refl. apply block_sparse in Ba; auto. apply block_dense in Bb; auto.
    rewrite (uni_comm a b) in * by auto. apply ds_union_block_ok; auto; lia.
  - change (block_pair t_dense t_sparse =? block_pair t_sparse t_sparse) with false.
    change (block_pair t_dense t_sparse =? block_pair t_sparse t_dense) with false. cbv iota.
    rewrite Z.eqb_refl. apply block_dense in Ba; auto. apply block_sparse in Bb; auto.
    apply ds_union_block_ok; auto; lia.
  - change (block_pair t_dense t_dense =? block_pair t_sparse t_sparse) with false.
    change (block_pair t_dense t_dense =? block_pair t_sparse t_dense) with false.
    change (block_pair t_dense t_dense =? block_pair t_dense t_sparse) with false. cbv iota.
    rewrite Z.eqb_refl. apply block_dense in Ba, Bb; auto.
    change block_size_in_64bit_words with (Z.of_nat 4).
    destruct (or_bitmaps_ok (words_mem mem dl) (words_mem mem dr) 4 a b base out pos) as (out' & E & W);
      auto; try lia.
    rewrite E. cbn [bind]. exists x, out'. split; auto. split; auto. eapply wrote_weaken; eauto. lia.
Qed.

Lemma DECODE_ok mem ptr d id vs bs base out pos :
  blocks_at mem ptr d ((id, vs) :: bs) -> 0 <= d -> d + zlen (datas ((id, vs) :: bs)) + 31 <= zlen mem ->
  0 <= base -> base + 65536 <= 4294967296 -> 0 <= pos -> pos + zlen vs + 23 <= zlen out ->
  exists d' out', DECODE mem ptr d base out pos = Ok (ptr + 2, d', out', pos + zlen vs)
    /\ blocks_at mem (ptr + 2) d' bs /\ d <= d'
    /\ d' + zlen (datas bs) = d + zlen (datas ((id, vs) :: bs))
    /\ wrote 23 out pos (map (addb base) (ungroup1 256 (id, vs))) out'.
Proof.
  intros B Hd Hm Hb0 Hb1 Hp Ho. pose proof (blocks_at_cons _ _ _ _ _ _ B) as (W1 & E1 & E2 & D & B' & _).
  pose proof (blocks_wf1_zlen _ _ W1) as Hv. rewrite zlen_datas_cons in *. cbn [snd] in *.
  pose proof (zlen_nonneg _ (datas bs)).
  unfold DECODE, decode_block. rewrite E1. cbn [bind]. rewrite E2. cbn [bind].
  replace (zlen vs - 1 + 1) with (zlen vs) by lia.
  assert (0 <= bytes_by_cardinality (zlen vs)) by (unfold bytes_by_cardinality; destruct (zlen vs <? _); lia).
  destruct (decode_block_ok mem d id vs base out pos) as (out' & -> & W); auto; try lia.
  cbn [bind]. eexists _, out'. split; [reflexivity|]. repeat split; auto; try lia; try apply B'; try apply W.
Qed.

Lemma decode_blocks_loop_ok mem end_ base bs : forall fuel ptr d out pos,
  (length bs <= fuel)%nat -> blocks_at mem ptr d bs -> end_ = ptr + 2 * zlen bs ->
  0 <= d -> d + zlen (datas bs) + 31 <= zlen mem ->
  0 <= base -> base + 65536 <= 4294967296 ->
  0 <= pos -> pos + zlen (ungroup 256 bs) + 23 <= zlen out ->
  exists out', decode_blocks_loop fuel mem ptr end_ d base out pos = Ok (out', pos + zlen (ungroup 256 bs))
    /\ wrote 23 out pos (map (addb base) (ungroup 256 bs)) out'.
Proof.
  induction bs as [|[id vs] bs IH]; intros fuel ptr d out pos Hf B He Hd Hm Hb0 Hb1 Hp Ho.
  - rewrite zlen_nil in He. exists out. split; [|apply wrote_nil; lia].
    destruct fuel; cbn [decode_blocks_loop]; destruct (Z.eqb_spec ptr end_); try lia; cbn; f_equal; f_equal; lia.
  - cbn [length] in Hf. destruct fuel as [|f]; [lia|].
    rewrite zlen_cons in He. rewrite ungroup_cons, zlen_app, zlen_ungroup1 in *. cbn [snd] in *. zpos.
    pose proof (zlen_nonneg _ (ungroup 256 bs)).
    cbn [decode_blocks_loop]. destruct (Z.eqb_spec ptr end_); [lia|]. cbn [negb].
    destruct (DECODE_ok mem ptr d id vs bs base out pos) as (d' & out1 & -> & B' & Hd' & ED & W1); auto; try lia.
    cbn [bind]. pose proof (wrote_zlen _ _ _ _ _ W1).
    destruct (IH f (ptr + 2) d' out1 (pos + zlen vs)) as (out2 & -> & W2); auto; try lia.
    exists out2. split; [f_equal; f_equal; lia|]. rewrite map_app. eapply wrote_app; [lia|exact W1|].
    rewrite zlen_map, zlen_ungroup1. exact W2.
Qed.

(** ** two sparse chunks *)
Lemma sep_tail_l {T} (A A' B B' : T) da na db nb da' na' :
  sep A B da na db nb -> A <> B -> da <= da' -> da' + na' = da + na -> sep A' B' da' na' db nb.
Proof. unfold sep. intros [[H _]|[H|H]] Hne H1 H2; [congruence| |]; right; [left|right]; lia. Qed.
Lemma sep_tail_r {T} (A A' B B' : T) da na db nb db' nb' :
  sep A B da na db nb -> A <> B -> db <= db' -> db' + nb' = db + nb -> sep A' B' da na db' nb'.
Proof. unfold sep. intros [[H _]|[H|H]] Hne H1 H2; [congruence| |]; right; [left|right]; lia. Qed.
Lemma sep_sym {T} (A B : T) da na db nb : sep A B da na db nb -> sep B A db nb da na.
Proof. unfold sep. intuition. Qed.

Lemma ss_union_chunk_loop_ok dbg mem end_l end_r base : forall fuel A B l r dl dr x out pos,
  (length A + length B <= fuel)%nat ->
  blocks_at mem l dl A -> blocks_at mem r dr B -> A <> [] -> B <> [] ->
  end_l = l + 2 * zlen A -> end_r = r + 2 * zlen B ->
  sep A B dl (zlen (datas A)) dr (zlen (datas B)) -> zlen x = 4 ->
  0 <= dl -> dl + zlen (datas A) + 31 <= zlen mem -> 0 <= dr -> dr + zlen (datas B) + 31 <= zlen mem ->
  0 <= base -> base + 65536 <= 4294967296 ->
  0 <= pos -> pos + zlen (uni (ungroup 256 A) (ungroup 256 B)) + 23 <= zlen out ->
  exists l' r' dl' dr' x' out' e A' B',
    ss_union_chunk_loop fuel dbg mem l r end_l end_r dl dr base x out pos
    = Ok (l', r', dl', dr', x', out', pos + zlen e) /\ zlen x' = 4
    /\ wrote 23 out pos (map (addb base) e) out'
    /\ blocks_at mem l' dl' A' /\ blocks_at mem r' dr' B'
    /\ end_l = l' + 2 * zlen A' /\ end_r = r' + 2 * zlen B'
    /\ 0 <= dl' /\ dl' + zlen (datas A') = dl + zlen (datas A)
    /\ 0 <= dr' /\ dr' + zlen (datas B') = dr + zlen (datas B)
    /\ (A' = [] \/ B' = [])
    /\ uni (ungroup 256 A) (ungroup 256 B) = e ++ ungroup 256 A' ++ ungroup 256 B'
    /\ zlen A' <= zlen A /\ zlen B' <= zlen B.
Proof.
  assert (Hk : 0 < 256) by lia.
  induction fuel as [|f IH];
    intros A B l r dl dr x out pos Hf BA BB NA NB El Er Hs Hx Hdl Hml Hdr Hmr Hb0 Hb1 Hp Ho.
  { destruct A; [congruence|]. cbn [length] in Hf. lia. }
  destruct A as [|[i va] A]; [congruence|]. destruct B as [|[j vb] B]; [congruence|].
  cbn [length] in Hf. cbn [ss_union_chunk_loop].
  pose proof (blocks_at_cons _ _ _ _ _ _ BA) as (Wi & Ei & Eci & Di & BA2 & Fi).
  pose proof (blocks_at_cons _ _ _ _ _ _ BB) as (Wj & Ej & Ecj & Dj & BB2 & Fj).
  pose proof (blocks_wf1_zlen _ _ Wi) as Hva. pose proof (blocks_wf1_zlen _ _ Wj) as Hvb.
  rewrite Ei. cbn [bind]. rewrite Ej. cbn [bind].
  rewrite zlen_cons in El, Er.
  pose proof (zlen_nonneg _ (datas A)). pose proof (zlen_nonneg _ (datas B)).
  pose proof (blocks_wf _ _ _ _ BA) as WA. pose proof (blocks_wf _ _ _ _ BB) as WB.
  pose proof (zlen_uni (ungroup 256 A) (ungroup 256 B)) as ZU0.
  pose proof (zlen_uni (ungroup 256 A) (ungroup 256 ((j, vb) :: B))) as ZU1.
  pose proof (zlen_uni (ungroup 256 ((i, va) :: A)) (ungroup 256 B)) as ZU2. zpos.
  pose proof (zlen_nonneg _ (ungroup 256 A)). pose proof (zlen_nonneg _ (ungroup 256 B)).
  destruct (Z.ltb_spec i j) as [Hij|Hij].
  - rewrite (uni_groups_lt 256 256 Hk i j va vb A B) in * by auto.
    rewrite zlen_app, zlen_ungroup1 in Ho. cbn [snd] in Ho.
    destruct (DECODE_ok mem l dl i va A base out pos) as (dl1 & out1 & -> & BA1 & Hd1 & ED1 & W1); auto; try lia.
    cbn [bind]. pose proof (wrote_zlen _ _ _ _ _ W1).
    destruct (Z.eqb_spec (l + 2) end_l) as [E1|E1].
    + assert (A = []) as -> by (destruct A; auto; rewrite zlen_cons in El; zpos; lia).
      exists (l + 2), r, dl1, dr, x, out1, (ungroup1 256 (i, va)), [], ((j, vb) :: B).
      rewrite zlen_ungroup1. cbn [snd]. split; auto. split; auto. split; auto.
      split; auto. split; auto. split; [rewrite zlen_nil; lia|]. split; [rewrite zlen_cons; lia|].
      split; [lia|]. split; [auto|]. split; auto. split; auto. split; auto.
      split; [|rewrite ?zlen_cons, ?zlen_nil in *; zpos; lia]. cbn [ungroup flat_map]. now rewrite uni_nil_l.
    + assert (A <> []) by (intros ->; rewrite zlen_nil in El; lia).
      destruct (IH A ((j, vb) :: B) (l + 2) r dl1 dr x out1 (pos + zlen va))
        as (l' & r' & dl' & dr' & x' & out' & e & A' & B' & -> & Hx' & W & BA' & BB' & EA' & EB' & Z1 & Z2 & Z3 & Z4 & D & U & LA & LB);
        auto; try discriminate; try lia; try (cbn [length]; lia); try (rewrite zlen_cons; lia).
      { eapply sep_tail_l; eauto. intros [= -> _]. lia. }
      exists l', r', dl', dr', x', out', (ungroup1 256 (i, va) ++ e), A', B'.
      rewrite zlen_app, zlen_ungroup1. cbn [snd].
      split; [f_equal; f_equal; lia|]. split; auto.
      split; [rewrite map_app; eapply wrote_app; [lia|exact W1|]; rewrite zlen_map, zlen_ungroup1; exact W|].
      do 4 (split; auto). split; auto. split; [lia|]. split; auto. split; auto. split; auto.
      split; [|rewrite ?zlen_cons, ?zlen_nil in *; zpos; lia]. rewrite U, !app_assoc. reflexivity.
  - destruct (Z.ltb_spec j i) as [Hji|Hji].
    + assert (SA : sorted (ungroup 256 ((i, va) :: A))) by (apply (sorted_ungroup 256 256); auto).
      assert (SB : sorted (ungroup 256 ((j, vb) :: B))) by (apply (sorted_ungroup 256 256); auto).
      assert (SB1 : sorted (ungroup 256 B)) by (apply (sorted_ungroup 256 256); auto; apply BB2).
      rewrite (uni_comm (ungroup 256 ((i, va) :: A))) in * by auto.
      rewrite (uni_groups_lt 256 256 Hk j i vb va B A) in * by auto.
      rewrite <- (uni_comm (ungroup 256 ((i, va) :: A))) in * by auto.
      rewrite zlen_app, zlen_ungroup1 in Ho. cbn [snd] in Ho.
      destruct (DECODE_ok mem r dr j vb B base out pos) as (dr1 & out1 & -> & BB1 & Hd1 & ED1 & W1); auto; try lia.
      cbn [bind]. pose proof (wrote_zlen _ _ _ _ _ W1).
      destruct (Z.eqb_spec (r + 2) end_r) as [E1|E1].
      * assert (B = []) as -> by (destruct B; auto; rewrite zlen_cons in Er; zpos; lia).
        exists l, (r + 2), dl, dr1, x, out1, (ungroup1 256 (j, vb)), ((i, va) :: A), [].
        rewrite zlen_ungroup1. cbn [snd]. split; auto. split; auto. split; auto.
        split; auto. split; auto. split; [rewrite zlen_cons; lia|]. split; [rewrite zlen_nil; lia|].
        split; [lia|]. split; [auto|]. split; [lia|]. split; auto. split; auto.
        split; [|rewrite ?zlen_cons, ?zlen_nil in *; zpos; lia]. rewrite app_nil_r. cbn [ungroup flat_map]. now rewrite uni_nil_r.
      * assert (B <> []) by (intros ->; rewrite zlen_nil in Er; lia).
        destruct (IH ((i, va) :: A) B l (r + 2) dl dr1 x out1 (pos + zlen vb))
          as (l' & r' & dl' & dr' & x' & out' & e & A' & B' & -> & Hx' & W & BA' & BB' & EA' & EB' & Z1 & Z2 & Z3 & Z4 & D & U & LA & LB);
          auto; try discriminate; try lia; try (cbn [length]; lia); try (rewrite zlen_cons; lia).
        { eapply sep_tail_r; eauto. intros [= -> _]. lia. }
        exists l', r', dl', dr', x', out', (ungroup1 256 (j, vb) ++ e), A', B'.
        rewrite zlen_app, zlen_ungroup1. cbn [snd].
        split; [f_equal; f_equal; lia|]. split; auto.
        split; [rewrite map_app; eapply wrote_app; [lia|exact W1|]; rewrite zlen_map, zlen_ungroup1; exact W|].
        do 4 (split; auto). split; auto. split; auto. split; auto. split; [lia|]. split; auto.
        split; [|rewrite ?zlen_cons, ?zlen_nil in *; zpos; lia]. rewrite U, !app_assoc. reflexivity.
    + assert (i = j) by lia. subst j. rewrite Eci. cbn [bind]. rewrite Ecj. cbn [bind].
      replace (zlen va - 1 + 1) with (zlen va) by lia. replace (zlen vb - 1 + 1) with (zlen vb) by lia.
      rewrite (uni_groups_eq 256 256 Hk i i va vb A B) in * by auto.
      rewrite zlen_app, zlen_ungroup1 in Ho. cbn [snd] in Ho.
      assert (Hi : 0 <= i < 256) by apply Wi. rewrite (u32_id (base + i * 256)) by lia.
      assert (0 <= bytes_by_cardinality (zlen va)) by (unfold bytes_by_cardinality; destruct (zlen va <? _); lia).
      assert (0 <= bytes_by_cardinality (zlen vb)) by (unfold bytes_by_cardinality; destruct (zlen vb <? _); lia).
      rewrite !zlen_datas_cons in *. cbn [snd] in *.
      pose proof (zlen_nonneg _ (uni va vb)).
      destruct (union_blocks_ok dbg mem dl dr i i va vb (base + i * 256) x out pos) as (x1 & out1 & -> & Hx1 & W1);
        auto; rewrite ?zlen_block_data; try lia.
      { unfold sep in Hs |- *. destruct Hs as [[[= Hs _] ?]|[Hs|Hs]]; [left; auto|right; left; lia|right; right; lia]. }
      cbn [bind]. pose proof (wrote_zlen _ _ _ _ _ W1).
      assert (zlen (uni va vb) <= 256).
      { apply (sorted_zlen_le (Z.to_nat 256)).
        - apply sorted_uni; [apply Wi|apply Wj].
        - destruct Wi as (_ & _ & _ & R1). destruct Wj as (_ & _ & _ & R2). cbn [snd] in *.
          rewrite Z2Nat.id by lia. apply Forall_uni; auto. }
      rewrite u32_id by lia.
      assert (EM : map (addb base) (ungroup1 256 (i, uni va vb)) = map (addb (base + i * 256)) (uni va vb)).
      { unfold ungroup1. cbn [fst snd]. rewrite map_map. apply map_ext. intro z. unfold addb. lia. }
      destruct ((l + 2 =? end_l) || (r + 2 =? end_r)) eqn:E1.
      * exists (l + 2), (r + 2), (dl + bytes_by_cardinality (zlen va)), (dr + bytes_by_cardinality (zlen vb)),
          x1, out1, (ungroup1 256 (i, uni va vb)), A, B.
        rewrite zlen_ungroup1. cbn [snd]. split; auto. split; auto. split; [rewrite EM; exact W1|].
        split; auto. split; auto. split; [lia|]. split; [lia|]. split; [lia|]. split; [lia|]. split; [lia|].
        split; [lia|]. apply orb_true_iff in E1 as [E1%Z.eqb_eq|E1%Z.eqb_eq].
        -- assert (A = []) as -> by (destruct A; auto; rewrite zlen_cons in El; zpos; lia).
           split; auto. split; [|rewrite ?zlen_cons, ?zlen_nil in *; zpos; lia]. cbn [ungroup flat_map]. now rewrite uni_nil_l.
        -- assert (B = []) as -> by (destruct B; auto; rewrite zlen_cons in Er; zpos; lia).
           split; auto. split; [|rewrite ?zlen_cons, ?zlen_nil in *; zpos; lia]. cbn [ungroup flat_map]. now rewrite uni_nil_r, app_nil_r.
      * apply orb_false_iff in E1 as [E1%Z.eqb_neq E2%Z.eqb_neq].
        destruct (IH A B (l + 2) (r + 2) (dl + bytes_by_cardinality (zlen va)) (dr + bytes_by_cardinality (zlen vb))
          x1 out1 (pos + zlen (uni va vb)))
          as (l' & r' & dl' & dr' & x' & out' & e & A' & B' & -> & Hx' & W & BA' & BB' & EA' & EB' & Z1 & Z2 & Z3 & Z4 & D & U & LA & LB);
          auto; try lia.
        { intros ->. rewrite zlen_nil in El. lia. }
        { intros ->. rewrite zlen_nil in Er. lia. }
        { unfold sep in Hs |- *. destruct Hs as [[[= -> ->] ->]|[Hs|Hs]]; [left; auto|right; left; lia|right; right; lia]. }
        exists l', r', dl', dr', x', out', (ungroup1 256 (i, uni va vb) ++ e), A', B'.
        rewrite zlen_app, zlen_ungroup1. cbn [snd].
        split; [f_equal; f_equal; lia|]. split; auto.
        split; [rewrite map_app; eapply wrote_app; [lia|rewrite EM; exact W1|]; rewrite zlen_map, zlen_ungroup1; exact W|].
        do 4 (split; auto). split; auto. split; [lia|]. split; auto. split; [lia|]. split; auto.
        split; [|rewrite ?zlen_cons, ?zlen_nil in *; zpos; lia]. rewrite U, !app_assoc. reflexivity.
Qed.

(** ** chunks *)
Lemma uni_full_r ib a b :
  Forall (fun x => 0 <= x < 65536) a -> sorted a -> wfc1 (ib, b) -> kind_of b = KFull -> uni a b = b.
Proof.
  intros Ra Sa Wb K. pose proof Wb as (_ & _ & Sb & _). cbn [snd] in Sb. symmetry. apply uni_unique; auto.
  intro x. split; [tauto|]. intros [H|H]; auto. rewrite Forall_forall in Ra.
  apply memb_In. eapply full_memb; eauto.
Qed.

Lemma or_chunk_ok l r a b base out pos :
  bm_at l 1024 (memb a) -> bm_at r 1024 (memb b) -> sorted a -> sorted b ->
  Forall (fun x => 0 <= x < 65536) a -> Forall (fun x => 0 <= x < 65536) b ->
  0 <= base -> base + 65536 <= 4294967296 -> 0 <= pos -> pos + zlen (uni a b) + 23 <= zlen out ->
  exists out', or_bitmaps l r M_Util.chunk_size_in_64bit_words base out pos = Ok (out', zlen (uni a b))
    /\ wrote 23 out pos (map (addb base) (uni a b)) out'.
Proof.
  intros Ba Bb Sa Sb Ra Rb Hb0 Hb1 Hp Ho. change M_Util.chunk_size_in_64bit_words with 1024.
  destruct (or_bitmaps_ok l r (Z.to_nat 1024) a b base out pos)
    as (out' & E & W); rewrite ?Z2Nat.id in * by lia; auto; try lia.
  exists out'. split; auto. eapply wrote_weaken; eauto. lia.
Qed.

Section Chunks.
Variables (dbg : bool) (mem : list Z).

Lemma sparse_extent slack it id c cs :
  it_view slack mem it ((id, c) :: cs) -> kind_of c = KSparse ->
  i_data it + 2 * zlen (blocks_of c) + zlen (datas (blocks_of c)) <= i_data it + zlen (cdatas ((id, c) :: cs)).
Proof.
  intros V K. rewrite cdatas_cons, zlen_app. cbn [snd]. unfold chunk_data. rewrite K. unfold sparse_data.
  rewrite zlen_app, zlen_hdrs. pose proof (zlen_nonneg _ (cdatas cs)). lia.
Qed.

Lemma ss_union_chunk_ok itl itr il ir a b A B base x out pos :
  it_view 31 mem itl ((il, a) :: A) -> it_view 31 mem itr ((ir, b) :: B) ->
  kind_of a = KSparse -> kind_of b = KSparse ->
  sep ((il, a) :: A) ((ir, b) :: B) (i_data itl) (zlen (cdatas ((il, a) :: A)))
    (i_data itr) (zlen (cdatas ((ir, b) :: B))) -> zlen x = 4 ->
  0 <= base -> base + 65536 <= 4294967296 -> 0 <= pos -> pos + zlen (uni a b) + 23 <= zlen out ->
  exists x' out', ss_union_chunk dbg mem (i_data itl) (i_data itr) (zlen (blocks_of a)) (zlen (blocks_of b)) base x out pos
               = Ok (x', out', zlen (uni a b)) /\ zlen x' = 4
    /\ wrote 23 out pos (map (addb base) (uni a b)) out'.
Proof.
  intros Va Vb Ka Kb Hs Hx Hb0 Hb1 Hp Ho.
  destruct (view_sparse _ _ _ _ _ _ Va Ka) as (BA & Hna & Hda & Hma).
  destruct (view_sparse _ _ _ _ _ _ Vb Kb) as (BB & Hnb & Hdb & Hmb).
  pose proof (sparse_extent _ _ _ _ _ Va Ka) as XA. pose proof (sparse_extent _ _ _ _ _ Vb Kb) as XB.
  unfold ss_union_chunk.
  rewrite assert_ok by (apply andb_true_intro; split; apply Z.leb_le; lia). cbn [bind].
  rewrite assert_ok by (apply andb_true_intro; split; apply Z.leb_le; lia). cbn [bind].
  rewrite !(Z.mul_comm _ 2).
  set (bA := blocks_of a) in *. set (bB := blocks_of b) in *.
  pose proof (ss_union_chunk_loop_ok dbg mem (i_data itl + 2 * zlen bA) (i_data itr + 2 * zlen bB) base
    (Z.to_nat (zlen bA + zlen bB)) bA bB (i_data itl) (i_data itr)
    (i_data itl + 2 * zlen bA) (i_data itr + 2 * zlen bB) x out pos) as L.
  assert (UA : ungroup 256 bA = a) by apply blocks_ungroup.
  assert (UB : ungroup 256 bB = b) by apply blocks_ungroup.
  rewrite UA, UB in L.
  destruct L as (l' & r' & dl' & dr' & x' & out1 & e & A' & B' & -> & Hx' & W & BA' & BB' & EA' & EB' & Z1 & Z2 & Z3 & Z4 & D & U & LA & LB);
    auto; try lia.
  { unfold zlen. lia. }
  { intro E. rewrite E, zlen_nil in *. lia. }
  { intro E. rewrite E, zlen_nil in *. lia. }
  { unfold sep in Hs |- *. destruct Hs as [[[= -> -> ->] E]|[Hs|Hs]].
    - left. unfold bA, bB. split; [reflexivity|]. now rewrite E.
    - right; left. lia.
    - right; right. lia. }
  cbn [bind]. pose proof (wrote_zlen _ _ _ _ _ W).
  rewrite U in *. rewrite !zlen_app in *. zpos.
  pose proof (zlen_nonneg _ (ungroup 256 A')). pose proof (zlen_nonneg _ (ungroup 256 B')).
  destruct (decode_blocks_loop_ok mem (i_data itl + 2 * zlen bA) base A' (S (Z.to_nat (zlen bA))) l' dl' out1 (pos + zlen e))
    as (out2 & -> & W2); auto; try lia.
  { unfold zlen in *. lia. }
  cbn [bind]. pose proof (wrote_zlen _ _ _ _ _ W2).
  destruct (decode_blocks_loop_ok mem (i_data itr + 2 * zlen bB) base B' (S (Z.to_nat (zlen bB))) r' dr' out2
    (pos + zlen e + zlen (ungroup 256 A'))) as (out3 & -> & W3); auto; try lia.
  { unfold zlen in *. lia. }
  cbn [bind]. exists x', out3. split; [f_equal; f_equal; lia|]. split; auto.
  rewrite !map_app. eapply wrote_app; [lia|exact W|]. rewrite zlen_map.
  eapply wrote_app; [lia|exact W2|]. now rewrite zlen_map.
Qed.

Lemma ds_union_chunk_ok itl itr il ir a b A B base y out pos :
  it_view 31 mem itl ((il, a) :: A) -> it_view 31 mem itr ((ir, b) :: B) ->
  kind_of a = KDense -> kind_of b = KSparse -> zlen y = 1024 ->
  0 <= base -> base + 65536 <= 4294967296 -> 0 <= pos -> pos + zlen (uni a b) + 23 <= zlen out ->
  exists y' out', ds_union_chunk dbg mem (i_data itl) (i_data itr) (zlen (blocks_of b)) base y out pos
               = Ok (y', out', zlen (uni a b)) /\ zlen y' = 1024
    /\ wrote 23 out pos (map (addb base) (uni a b)) out'.
Proof.
  intros Va Vb Ka Kb Hy Hb0 Hb1 Hp Ho. unfold ds_union_chunk.
  destruct (uncompress_sparse_chunk_ok dbg mem 31 itr ir b B (repeat 0 (length y)) 0) as (y' & -> & By & Sy); auto; try lia.
  { rewrite zlen_repeat. unfold zlen in Hy. lia. }
  { apply bm_zeros; [lia|]. unfold zlen in Hy. lia. }
  cbn [bind].
  pose proof (view_wf _ _ _ _ _ Va) as (_ & _ & Sa & Ra). pose proof (view_wf _ _ _ _ _ Vb) as (_ & _ & Sb & Rb).
  cbn [snd] in *.
  destruct (or_chunk_ok (words_mem mem (i_data itl)) (words_vec y') a b base out pos) as (out' & E & W); auto.
  { eapply view_dense; eauto. }
  rewrite E. cbn [bind]. exists y', out'. split; auto. split; auto.
  destruct Sy as [Sy _]. rewrite Sy, zlen_repeat. exact Hy.
Qed.

Lemma union_chunks_ok itl itr il ir a b A B base x y out pos :
  it_view 31 mem itl ((il, a) :: A) -> it_view 31 mem itr ((ir, b) :: B) ->
  sep ((il, a) :: A) ((ir, b) :: B) (i_data itl) (zlen (cdatas ((il, a) :: A)))
    (i_data itr) (zlen (cdatas ((ir, b) :: B))) -> zlen x = 4 -> zlen y = 1024 ->
  0 <= base -> base + 65536 <= 4294967296 -> 0 <= pos -> pos + zlen (uni a b) + 23 <= zlen out ->
  exists x' y' out', union_chunks dbg mem itl itr base x y out pos
               = Ok (x', y', out', zlen (uni a b)) /\ zlen x' = 4 /\ zlen y' = 1024
    /\ wrote 23 out pos (map (addb base) (uni a b)) out'.
Proof.
  intros Va Vb Hs Hx Hy Hb0 Hb1 Hp Ho.
  pose proof (view_wf _ _ _ _ _ Va) as Wa. pose proof (view_wf _ _ _ _ _ Vb) as Wb.
  pose proof Wa as (_ & _ & Sa & Ra). pose proof Wb as (_ & _ & Sb & Rb). cbn [snd] in *.
  unfold union_chunks.
  rewrite (id_view_type _ _ _ _ _ (proj1 Va)), (id_view_type _ _ _ _ _ (proj1 Vb)). cbn [bind].
  assert (KEEP : forall (z : res (list Z * Z)) e,
    (exists out', z = Ok (out', zlen e) /\ wrote 23 out pos (map (addb base) e) out') ->
    exists x' y' out', (let! p := z in let '(out, n) := p in Ok (x, y, out, n)) = Ok (x', y', out', zlen e)
      /\ zlen x' = 4 /\ zlen y' = 1024
      /\ wrote 23 out pos (map (addb base) e) out').
  { intros z e (out' & -> & W). cbn [bind]. exists x, y, out'. auto. }
  assert (KEEPY : forall (z : res (list Z * list Z * Z)) e,
    (exists x' out', z = Ok (x', out', zlen e) /\ zlen x' = 4 /\ wrote 23 out pos (map (addb base) e) out') ->
    exists x' y' out', (let! p := z in let '(x, out, n) := p in Ok (x, y, out, n)) = Ok (x', y', out', zlen e)
      /\ zlen x' = 4 /\ zlen y' = 1024
      /\ wrote 23 out pos (map (addb base) e) out').
  { intros z e (x' & out' & -> & E1 & W). cbn [bind]. exists x', y, out'. auto. }
  assert (KEEPX : forall (z : res (list Z * list Z * Z)) e,
    (exists y' out', z = Ok (y', out', zlen e) /\ zlen y' = 1024 /\ wrote 23 out pos (map (addb base) e) out') ->
    exists x' y' out', (let! p := z in let '(y, out, n) := p in Ok (x, y, out, n)) = Ok (x', y', out', zlen e)
      /\ zlen x' = 4 /\ zlen y' = 1024
      /\ wrote 23 out pos (map (addb base) e) out').
  { intros z e (y' & out' & -> & E1 & W). cbn [bind]. exists x, y', out'. auto. }
  destruct (kind_of a) eqn:Ka; destruct (kind_of b) eqn:Kb;
    repeat match goal with |- context [chunk_pair ?x ?y =? chunk_pair ?z ?w] =>
      let v := eval vm_compute in (chunk_pair x y =? chunk_pair z w) in
      replace (chunk_pair x y =? chunk_pair z w) with v by reflexivity end; cbv iota.
  - (* sparse, sparse *)
    rewrite (id_view_blocks _ _ _ _ _ (proj1 Va) Ka), (id_view_blocks _ _ _ _ _ (proj1 Vb) Kb). cbn [bind].
    destruct (zlen (blocks_of a) <? zlen (blocks_of b)).
    + apply KEEPY. eapply ss_union_chunk_ok; eauto.
    + rewrite (uni_comm a b) in * by auto. apply KEEPY. eapply ss_union_chunk_ok; eauto. now apply sep_sym.
  - (* sparse, dense *)
    rewrite (id_view_blocks _ _ _ _ _ (proj1 Va) Ka). cbn [bind].
    rewrite (uni_comm a b) in * by auto. apply KEEPX. eapply ds_union_chunk_ok; eauto.
  - (* sparse, full *)
    rewrite (uni_full_r ir a b) in * by auto. apply KEEP. eapply decode_full_chunk_ok; eauto.
  - (* dense, sparse *)
    rewrite (id_view_blocks _ _ _ _ _ (proj1 Vb) Kb). cbn [bind].
    apply KEEPX. eapply ds_union_chunk_ok; eauto.
  - (* dense, dense *)
    apply KEEP. apply or_chunk_ok; auto; eapply view_dense; eauto.
  - (* dense, full *)
    rewrite (uni_full_r ir a b) in * by auto. apply KEEP. eapply decode_full_chunk_ok; eauto.
  - (* full, sparse *)
    rewrite (uni_comm a b) in * by auto.
    rewrite (uni_full_r il b a) in * by auto. apply KEEP. eapply decode_full_chunk_ok; eauto.
  - (* full, dense *)
    rewrite (uni_comm a b) in * by auto.
    rewrite (uni_full_r il b a) in * by auto. apply KEEP. eapply decode_full_chunk_ok; eauto.
  - (* full, full *)
    rewrite (uni_full_r ir a b) in * by auto. apply KEEP. eapply decode_full_chunk_ok; eauto.
Qed.

(** ** sequences *)
Lemma decode_rest_loop_ok cs : forall fuel it out pos,
  (length cs <= fuel)%nat -> it_view 31 mem it cs ->
  0 <= pos -> pos + zlen (ungroup 65536 cs) + 23 <= zlen out ->
  exists out', decode_rest_loop fuel dbg mem it out pos = Ok (out', pos + zlen (ungroup 65536 cs))
    /\ wrote 23 out pos (ungroup 65536 cs) out'.
Proof.
  induction cs as [|[id c] cs IH]; intros fuel it out pos Hf V Hp Ho.
  - exists out. split; [|apply wrote_nil; lia].
    destruct fuel; cbn [decode_rest_loop]; rewrite (id_view_has_next _ _ _ (proj1 V)); cbn; f_equal; f_equal; lia.
  - cbn [length] in Hf. destruct fuel as [|f]; [lia|]. cbn [decode_rest_loop].
    rewrite (id_view_has_next _ _ _ (proj1 V)). rewrite ungroup_cons, zlen_app, zlen_ungroup1 in *. cbn [snd] in *.
    zpos. pose proof (zlen_nonneg _ (ungroup 65536 cs)).
    destruct (decode_chunk_ok dbg mem it id c cs out pos V) as (out1 & -> & W1); auto; try lia.
    cbn [bind]. pose proof (wrote_zlen _ _ _ _ _ W1).
    destruct (view_next _ _ _ _ _ _ V) as (it1 & -> & V1 & _). cbn [bind].
    destruct (IH f it1 out1 (pos + zlen c)) as (out2 & -> & W2); auto; try lia.
    exists out2. split; [f_equal; f_equal; lia|]. eapply wrote_app; [lia|exact W1|]. now rewrite zlen_ungroup1.
Qed.

Lemma view_next_ext slack it id c cs :
  it_view slack mem it ((id, c) :: cs) ->
  exists it', it_next mem it = Ok it' /\ it_view slack mem it' cs /\ i_data it <= i_data it'
    /\ i_data it' + zlen (cdatas cs) = i_data it + zlen (cdatas ((id, c) :: cs)).
Proof.
  intro V. destruct (view_next _ _ _ _ _ _ V) as (it' & E & V' & _ & _ & D & _).
  exists it'. rewrite cdatas_cons, zlen_app, D. cbn [snd]. pose proof (zlen_nonneg _ (chunk_data c)).
  repeat split; auto; try lia; apply V'.
Qed.

Lemma pairwise_union_loop_ok : forall fuel A B itl itr x y out pos,
  (length A + length B <= fuel)%nat -> A <> [] -> B <> [] ->
  it_view 31 mem itl A -> it_view 31 mem itr B ->
  sep A B (i_data itl) (zlen (cdatas A)) (i_data itr) (zlen (cdatas B)) ->
  zlen x = 4 -> zlen y = 1024 ->
  0 <= pos -> pos + zlen (uni (ungroup 65536 A) (ungroup 65536 B)) + 23 <= zlen out ->
  exists itl' itr' x' y' out' e A' B',
    pairwise_union_loop fuel dbg mem itl itr x y out pos
    = Ok (itl', itr', x', y', out', pos + zlen e)
    /\ zlen x' = 4 /\ zlen y' = 1024 /\ wrote 23 out pos e out'
    /\ it_view 31 mem itl' A' /\ it_view 31 mem itr' B'
    /\ (A' = [] \/ B' = [])
    /\ uni (ungroup 65536 A) (ungroup 65536 B) = e ++ ungroup 65536 A' ++ ungroup 65536 B'.
Proof.
  assert (Hk : 0 < 65536) by lia.
  induction fuel as [|f IH]; intros A B itl itr x y out pos Hf NA NB Va Vb Hs Hx Hy Hp Ho.
  { destruct A; [congruence|]. cbn [length] in Hf. lia. }
  destruct A as [|[i a] A]; [congruence|]. destruct B as [|[j b] B]; [congruence|].
  cbn [length] in Hf. cbn [pairwise_union_loop].
  pose proof (proj1 (proj1 Va)) as WA. pose proof (proj1 (proj1 Vb)) as WB.
  pose proof (view_wf _ _ _ _ _ Va) as Wa. pose proof (view_wf _ _ _ _ _ Vb) as Wb.
  destruct (chunk_base _ _ _ _ _ (proj1 Va)) as (Ei & Ebi & Hi).
  destruct (chunk_base _ _ _ _ _ (proj1 Vb)) as (Ej & Ebj & Hj).
  rewrite Ei, Ej. cbn [bind]. rewrite !u16_id by lia.
  pose proof (zlen_uni (ungroup 65536 A) (ungroup 65536 B)) as ZU0.
  pose proof (zlen_uni (ungroup 65536 A) (ungroup 65536 ((j, b) :: B))) as ZU1.
  pose proof (zlen_uni (ungroup 65536 ((i, a) :: A)) (ungroup 65536 B)) as ZU2.
  pose proof (zlen_nonneg _ (ungroup 65536 A)). pose proof (zlen_nonneg _ (ungroup 65536 B)).
  pose proof (zlen_nonneg _ (ungroup 65536 ((i, a) :: A))). pose proof (zlen_nonneg _ (ungroup 65536 ((j, b) :: B))).
  destruct (view_next_ext _ _ _ _ _ Va) as (itl1 & NXa & Va1 & Da & EDa).
  destruct (view_next_ext _ _ _ _ _ Vb) as (itr1 & NXb & Vb1 & Db & EDb).
  pose proof (id_view_has_next _ _ _ (proj1 Va1)) as HNa. pose proof (id_view_has_next _ _ _ (proj1 Vb1)) as HNb.
  destruct (Z.eqb_spec i j) as [E|E].
  - subst j. rewrite Ebi.
    rewrite (uni_groups_eq 65536 65535 Hk i i a b A B) in * by auto.
    rewrite zlen_app, zlen_ungroup1 in Ho. cbn [snd] in Ho. pose proof (zlen_nonneg _ (uni a b)).
    destruct (union_chunks_ok itl itr i i a b A B (i * 65536) x y out pos) as (x1 & y1 & out1 & -> & Hx1 & Hy1 & W1);
      auto; try lia.
    cbn [bind]. pose proof (wrote_zlen _ _ _ _ _ W1). rewrite NXa. cbn [bind]. rewrite NXb. cbn [bind].
    assert (zlen (uni a b) <= 65536).
    { rewrite <- (Z2Nat.id 65536) by lia. apply sorted_zlen_le.
      - apply sorted_uni; [apply Wa|apply Wb].
      - destruct Wa as (_ & _ & _ & R1). destruct Wb as (_ & _ & _ & R2). cbn [snd] in *.
        rewrite Z2Nat.id by lia. apply Forall_uni; auto. }
    rewrite u32_id by lia. rewrite HNa, HNb.
    assert (STOP : A = [] \/ B = [] -> exists itl' itr' x' y' out' e A' B',
      Ok (itl1, itr1, x1, y1, out1, pos + zlen (uni a b)) = Ok (itl', itr', x', y', out', pos + zlen e)
      /\ zlen x' = 4 /\ zlen y' = 1024 /\ wrote 23 out pos e out'
      /\ it_view 31 mem itl' A' /\ it_view 31 mem itr' B'
      /\ (A' = [] \/ B' = [])
      /\ ungroup1 65536 (i, uni a b) ++ uni (ungroup 65536 A) (ungroup 65536 B) = e ++ ungroup 65536 A' ++ ungroup 65536 B').
    { intro D. exists itl1, itr1, x1, y1, out1, (ungroup1 65536 (i, uni a b)), A, B. rewrite zlen_ungroup1. cbn [snd].
      do 7 (split; auto). f_equal. destruct D as [-> | ->]; cbn [ungroup flat_map]; now rewrite ?uni_nil_l, ?uni_nil_r, ?app_nil_r. }
    destruct A as [|ca A]; [cbn [negb orb]; apply STOP; auto|].
    destruct B as [|cb B]; [cbn [negb orb]; apply STOP; auto|].
    cbn [negb orb].
    destruct (IH (ca :: A) (cb :: B) itl1 itr1 x1 y1 out1 (pos + zlen (uni a b)))
      as (itl' & itr' & x' & y' & out' & e & A' & B' & -> & Hx' & Hy' & W & VA' & VB' & D & U); auto; try discriminate; try lia; try (cbn [length] in *; lia).
    { unfold sep in Hs |- *. destruct Hs as [[[= -> -> ->] Es]|[Hs|Hs]].
      - left. split; auto. lia.
      - right; left. lia.
      - right; right. lia. }
    exists itl', itr', x', y', out', (ungroup1 65536 (i, uni a b) ++ e), A', B'.
    rewrite zlen_app, zlen_ungroup1. cbn [snd]. split; [f_equal; f_equal; lia|]. split; auto. split; auto.
    split; [eapply wrote_app; [lia|exact W1|]; now rewrite zlen_ungroup1|].
    do 3 (split; auto). rewrite U, !app_assoc. reflexivity.
  - destruct (Z.ltb_spec i j).
    + rewrite (uni_groups_lt 65536 65535 Hk i j a b A B) in * by auto.
      rewrite zlen_app, zlen_ungroup1 in Ho. cbn [snd] in Ho. zpos.
      destruct (decode_chunk_ok dbg mem itl i a A out pos Va) as (out1 & -> & W1); auto; try lia.
      cbn [bind]. pose proof (wrote_zlen _ _ _ _ _ W1). rewrite NXa. cbn [bind]. rewrite HNa.
      destruct A as [|ca A]; cbn [negb].
      * exists itl1, itr, x, y, out1, (ungroup1 65536 (i, a)), [], ((j, b) :: B). rewrite zlen_ungroup1. cbn [snd].
        do 7 (split; auto). cbn [ungroup flat_map]. now rewrite uni_nil_l.
      * destruct (IH (ca :: A) ((j, b) :: B) itl1 itr x y out1 (pos + zlen a))
          as (itl' & itr' & x' & y' & out' & e & A' & B' & -> & Hx' & Hy' & W & VA' & VB' & D & U); auto; try discriminate; try lia; try (cbn [length] in *; lia).
        { eapply sep_tail_l; eauto. intros [= -> _]. lia. }
        exists itl', itr', x', y', out', (ungroup1 65536 (i, a) ++ e), A', B'.
        rewrite zlen_app, zlen_ungroup1. cbn [snd]. split; [f_equal; f_equal; lia|]. split; auto. split; auto.
        split; [eapply wrote_app; [lia|exact W1|]; now rewrite zlen_ungroup1|].
        do 3 (split; auto). rewrite U, !app_assoc. reflexivity.
    + assert (SA : sorted (ungroup 65536 ((i, a) :: A))) by (apply (sorted_ungroup 65536 65535); auto).
      assert (SB : sorted (ungroup 65536 ((j, b) :: B))) by (apply (sorted_ungroup 65536 65535); auto).
      assert (SB1 : sorted (ungroup 65536 B)) by (apply (sorted_ungroup 65536 65535); auto; apply Vb1).
      rewrite (uni_comm (ungroup 65536 ((i, a) :: A))) in * by auto.
      rewrite (uni_groups_lt 65536 65535 Hk j i b a B A) in * by (auto; lia).
      rewrite <- (uni_comm (ungroup 65536 ((i, a) :: A))) in * by auto.
      rewrite zlen_app, zlen_ungroup1 in Ho. cbn [snd] in Ho. zpos.
      destruct (decode_chunk_ok dbg mem itr j b B out pos Vb) as (out1 & -> & W1); auto; try lia.
      cbn [bind]. pose proof (wrote_zlen _ _ _ _ _ W1). rewrite NXb. cbn [bind]. rewrite HNb.
      destruct B as [|cb B]; cbn [negb].
      * exists itl, itr1, x, y, out1, (ungroup1 65536 (j, b)), ((i, a) :: A), []. rewrite zlen_ungroup1. cbn [snd].
        do 7 (split; auto). cbn [ungroup flat_map]. now rewrite uni_nil_r, app_nil_r.
      * destruct (IH ((i, a) :: A) (cb :: B) itl itr1 x y out1 (pos + zlen b))
          as (itl' & itr' & x' & y' & out' & e & A' & B' & -> & Hx' & Hy' & W & VA' & VB' & D & U); auto; try discriminate; try lia; try (cbn [length] in *; lia).
        { eapply sep_tail_r; eauto. intros [= -> _]. lia. }
        exists itl', itr', x', y', out', (ungroup1 65536 (j, b) ++ e), A', B'.
        rewrite zlen_app, zlen_ungroup1. cbn [snd]. split; [f_equal; f_equal; lia|]. split; auto. split; auto.
        split; [eapply wrote_app; [lia|exact W1|]; now rewrite zlen_ungroup1|].
        do 3 (split; auto). rewrite U, !app_assoc. reflexivity.
Qed.
End Chunks.

(** where the data of a sequence is *)
Lemma seq_data_ok mem a cs s :
  wfc cs -> cs <> [] -> bytes_at mem a (layout cs) -> seq_at mem a = Ok s ->
  a < i_data (seq_begin s) /\ i_data (seq_begin s) + zlen (cdatas cs) = a + zlen (layout cs).
Proof.
  intros Hw Hne B E. pose proof (chunks_le _ Hw) as Hn. pose proof (zlen_layout cs) as HL.
  assert (H1 : 0 < zlen cs) by (destruct cs; [easy|zl]).
  unfold layout in B. apply bytes_at_app in B as [B0 B].
  unfold seq_at in E. rewrite (rd16_at mem a (zlen cs - 1)) in E by (auto; lia). cbn [bind] in E.
  replace (1 + (zlen cs - 1)) with (zlen cs) in E by lia. change M_Util.associativity with 32 in E.
  injection E as <-. unfold seq_begin. cbn [i_data s_data]. rewrite HL. lia.
Qed.

(** the same address holds the same list *)
Lemma stored_same mem a S T : valid S -> valid T -> stored 31 mem a S -> stored 31 mem a T -> S = T.
Proof.
  intros HS HT StS StT.
  set (out := repeat 0 (Z.to_nat (zlen S + zlen T + 23))). pose proof (zlen_nonneg _ S). pose proof (zlen_nonneg _ T).
  assert (Lo : zlen out = zlen S + zlen T + 23) by (unfold out; rewrite zlen_repeat; lia).
  destruct (decode_ok true mem a S out 0) as (s & o1 & E1 & D1 & W1); auto; try lia.
  destruct (decode_ok true mem a T out 0) as (t & o2 & E2 & D2 & W2); auto; try lia.
  rewrite E1 in E2. injection E2 as <-. rewrite D1 in D2. injection D2 as <- L.
  destruct W1 as (_ & W1 & _), W2 as (_ & W2 & _). apply znth_ext; auto.
  intros i Hi. rewrite <- W1, <- W2 by lia. reflexivity.
Qed.

Lemma pairwise_union_ok dbg mem a b S T x y out pos :
  valid S -> valid T -> stored 31 mem a S -> stored 31 mem b T -> apart a S b T ->
  zlen x = 4 -> zlen y = 1024 ->
  0 <= pos -> pos + zlen (uni S T) + 23 <= zlen out ->
  exists s t x' y' out', seq_at mem a = Ok s /\ seq_at mem b = Ok t
    /\ pairwise_union dbg mem s t x y out pos = Ok (x', y', out', zlen (uni S T))
    /\ zlen x' = 4 /\ zlen y' = 1024 /\ wrote 23 out pos (uni S T) out'.
Proof.
  intros HS HT StS StT Hap Hx Hy Hp Ho.
  destruct (stored_seq 31 mem a S HS StS ltac:(lia)) as (s & Es & _ & Vs & _).
  destruct (stored_seq 31 mem b T HT StT ltac:(lia)) as (t & Et & _ & Vt & _).
  destruct (valid_chunks S HS) as (WS & NS & US & _). destruct (valid_chunks T HT) as (WT & NT & UT & _).
  destruct (stored_layout _ _ _ _ HS StS) as [BS _]. destruct (stored_layout _ _ _ _ HT StT) as [BT _].
  destruct (seq_data_ok _ _ _ _ WS NS BS Es) as [DS1 DS2]. destruct (seq_data_ok _ _ _ _ WT NT BT Et) as [DT1 DT2].
  pose proof (pairwise_union_loop_ok dbg mem (it_fuel (seq_begin s) + it_fuel (seq_begin t))
    (chunks_of S) (chunks_of T) (seq_begin s) (seq_begin t) x y out pos) as L.
  rewrite US, UT in L.
  destruct L as (itl' & itr' & x' & y' & out1 & e & A' & B' & E & Hx' & Hy' & W & VA' & VB' & D & U); auto.
  { pose proof (it_fuel_ok _ _ _ (proj1 Vs)). pose proof (it_fuel_ok _ _ _ (proj1 Vt)). lia. }
  { destruct Hap as [->|(d & eS & eT & ES & ET & Hap)].
    - assert (S = T) by (eapply stored_same; eauto). subst T. left. split; auto. congruence.
    - apply encoding_layout in ES, ET; auto. subst eS eT. right. destruct Hap; [left|right]; lia. }
  exists s, t, x', y'. unfold pairwise_union. rewrite E. cbn [bind]. rewrite U in *. rewrite !zlen_app in *.
  pose proof (wrote_zlen _ _ _ _ _ W). zpos.
  pose proof (zlen_nonneg _ (ungroup 65536 A')). pose proof (zlen_nonneg _ (ungroup 65536 B')).
  destruct (decode_rest_loop_ok dbg mem A' (it_fuel itl') itl' out1 (pos + zlen e)) as (out2 & -> & W2); auto; try lia.
  { eapply it_fuel_ok. apply VA'. }
  cbn [bind]. pose proof (wrote_zlen _ _ _ _ _ W2).
  destruct (decode_rest_loop_ok dbg mem B' (it_fuel itr') itr' out2 (pos + zlen e + zlen (ungroup 65536 A')))
    as (out3 & -> & W3); auto; try lia.
  { eapply it_fuel_ok. apply VB'. }
  cbn [bind]. exists out3. split; auto. split; auto. split; [f_equal; f_equal; lia|]. split; auto. split; auto.
  eapply wrote_app; [lia|exact W|]. eapply wrote_app; [lia|exact W2|]. exact W3.
Qed.
