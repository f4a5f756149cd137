(** Exact size of the output buffer of the pairwise intersection, and the bytes it reads. *)
From Verif Require Import Base Hw Spec Format Lib L_Bits L_Group Layout M_Util M_Seq M_Decode M_Uncompress
  M_Intersect P_Build1 P_Build2 P_Build3 P_Seq P_Decode P_Query P_Uncompress P_Sets P_Inter P_Format P_Conc
  P_Ex P_Short P_Stats Room P_Room RoomSets Reads ReadsSets P_Reads.
From Coq Require Import Lia.

Lemma v8_ge m : 0 <= m <= 16 -> m <= vector_words m <= m + 8.
Proof. unfold vector_words. destruct (Z.leb_spec m 8); lia. Qed.

Lemma INTERSECT_room tbl v_l cl v_r cr a b base out pos size :
  shuffle_table_ok tbl -> zlen v_r = 16 ->
  firstn (Z.to_nat (Z.min 16 (Z.abs cl))) v_l = a ->
  firstn (Z.to_nat (Z.min 16 (Z.abs cr))) v_r = b ->
  0 <= pos ->
  if pos + vector_words (zlen (isect b a)) <=? zlen out
  then exists out', INTERSECT tbl v_l cl v_r cr base out pos size = Ok (out', size + zlen (isect b a))
    /\ wrote 8 out pos (map (fun x => u32 (base + x)) (isect b a)) out'
  else INTERSECT tbl v_l cl v_r cr base out pos size = UB.
Proof.
  intros Ht Hz Ha Hb Hp. unfold INTERSECT, cmpestrm. rewrite Ha, Hb.
  rewrite <- (firstn_skipn (Z.to_nat (Z.min 16 (Z.abs cr))) v_r), Hb in Hz.
  rewrite <- (firstn_skipn (Z.to_nat (Z.min 16 (Z.abs cr))) v_r), Hb.
  set (g := skipn _ v_r) in *. destruct (pshufb_ok tbl a b g Ht Hz) as [Em (g' & Ep & Lg)].
  cbv zeta in *. rewrite Em, Ep. zpos.
  set (p := isect b a ++ g'). set (f := fun x => u32 (base + x)).
  assert (Lp : length p = 16%nat) by (unfold p; rewrite app_length; unfold zlen in Lg; lia).
  unfold cvt_add. fold f. unfold vector_words.
  assert (L8 : zlen (map f (firstn 8 p)) = 8) by (rewrite zlen_map, zlen_firstn; unfold zlen; rewrite Lp; lia).
  assert (E : firstn 8 (bsrli8 p) = skipn 8 p).
  { unfold bsrli8. rewrite firstn_prefix by (rewrite skipn_length; lia).
    apply firstn_all2. rewrite skipn_length. lia. }
  rewrite E.
  assert (L16 : zlen (map f (skipn 8 p)) = 8) by (rewrite zlen_map, zlen_skipn; unfold zlen; rewrite Lp; lia).
  destruct (Z_lt_le_dec (zlen out) (pos + 8)) as [S8|S8].
  { rewrite store_short by lia.
    destruct (Z.leb_spec (pos + (if zlen (isect b a) <=? 8 then 8 else 16)) (zlen out)) as [Q|Q]; auto.
    destruct (zlen (isect b a) <=? 8); lia. }
  destruct (store_ok out pos (map f (firstn 8 p))) as (out1 & -> & W1); [lia|lia|].
  cbn [bind]. pose proof (wrote_zlen _ _ _ _ _ W1).
  destruct (Z.ltb_spec 8 (zlen (isect b a))) as [H8|H8], (Z.leb_spec (zlen (isect b a)) 8); try lia.
  - destruct (Z.leb_spec (pos + 16) (zlen out)).
    + destruct (store_ok out1 (pos + 8) (map f (skipn 8 p))) as (out2 & -> & W2); [lia|lia|].
      cbn [bind]. exists out2. split; auto.
      apply (wrote_prefix 8 _ _ _ (map f g')); [|rewrite zlen_map; lia].
      rewrite <- map_app. fold p. rewrite <- (firstn_skipn 8 p), map_app.
      eapply wrote_app; [lia|exact W1|]. rewrite L8. exact W2.
    + rewrite store_short by lia. reflexivity.
  - destruct (Z.leb_spec (pos + 8) (zlen out)); [|lia]. exists out1. split; auto.
    assert (E2 : firstn 8 p = isect b a ++ firstn (8 - length (isect b a)) g').
    { unfold p. rewrite firstn_app. f_equal. apply firstn_all2. unfold zlen in H8. lia. }
    rewrite E2, map_app in W1. eapply wrote_prefix; [exact W1|]. rewrite zlen_map, zlen_firstn. lia.
Qed.

Lemma scalar_intersect_loop_short mem end_l end_r base pos : forall fuel a b l r out size,
  (length a + length b <= fuel)%nat ->
  bytes_at mem l a -> bytes_at mem r b -> a <> [] -> b <> [] ->
  end_l = l + zlen a -> end_r = r + zlen b -> sorted a -> sorted b ->
  0 <= pos + size -> pos + size <= zlen out -> zlen out < pos + size + zlen (isect a b) ->
  scalar_intersect_loop fuel mem l end_l r end_r base out pos size = UB.
Proof.
  induction fuel as [|f IH]; intros a b l r out size Hf Ba Bb Na Nb El Er Sa Sb Hp Hp' Ho.
  { destruct a; [congruence|]. cbn [length] in Hf. lia. }
  destruct b as [|y b]; [congruence|].
  cbn [scalar_intersect_loop].
  pose proof (proj1 (bytes_at_cons _ _ _ _) Bb) as [By _]. apply rd8_znth in By.
  rewrite (scalar_advance_ok mem r y end_l By a) by (auto; unfold zlen in El; lia).
  cbn [bind].
  rewrite (isect_dropl y a (y :: b)) in * by now apply sorted_ge.
  destruct (dropl_split y a) as (pa & Ea & Fa).
  pose proof Ba as Ba'. rewrite Ea in Ba'. eapply bytes_at_suffix in Ba'; [|rewrite Ea in El; exact El].
  pose proof Sa as Sa'. rewrite Ea in Sa'. apply sorted_suffix in Sa'.
  destruct (dropl y a) as [|x a'] eqn:Ea'.
  { cbn [isect filter] in Ho. rewrite zlen_nil in Ho. lia. }
  set (l' := end_l - zlen (x :: a')) in *.
  pose proof (proj1 (bytes_at_cons _ _ _ _) Ba') as [Bx _]. apply rd8_znth in Bx.
  rewrite (scalar_advance_ok mem l' x end_r Bx (y :: b)) by (auto; unfold zlen in Er; lia).
  cbn [bind].
  rewrite isect_comm in Ho by auto.
  rewrite (isect_dropl x (y :: b) (x :: a')) in * by now apply sorted_ge.
  destruct (dropl_split x (y :: b)) as (pb & Eb & Fb). destruct (dropl x (y :: b)) as [|y' b'] eqn:Eb'.
  { cbn [isect filter] in Ho. rewrite zlen_nil in Ho. lia. }
  pose proof Bb as Bb'. rewrite Eb in Bb'. eapply bytes_at_suffix in Bb'; [|rewrite Eb in Er; exact Er].
  pose proof Sb as Sb'. rewrite Eb in Sb'. apply sorted_suffix in Sb'.
  set (r' := end_r - zlen (y' :: b')) in *.
  pose proof (proj1 (bytes_at_cons _ _ _ _) Bb') as [By' Bb1]. apply rd8_znth in By'.
  rewrite Bx. cbn [bind]. rewrite By'. cbn [bind].
  apply dropl_hd in Eb'.
  rewrite isect_comm in Ho by auto.
  assert (La : length a = (length pa + length (x :: a'))%nat) by (rewrite Ea, app_length; auto).
  assert (Lb : length (y :: b) = (length pb + length (y' :: b'))%nat) by (rewrite Eb, app_length; auto).
  cbn [length] in La, Lb, Hf.
  destruct (Z.eqb_spec x y') as [E|E].
  - subst y'. pose proof (sorted_inv _ _ Sa') as [Sa1 Fa1]. pose proof (sorted_inv _ _ Sb') as [Sb1 Fb1].
    assert (EI : isect (x :: a') (x :: b') = x :: isect a' b').
    { change (x :: a') with ([x] ++ a'). change (x :: b') with ([x] ++ b'). rewrite isect_app.
      - now rewrite isect_same.
      - intros u v [<-|[]] Hv. rewrite Forall_forall in Fb1. now apply Fb1.
      - intros u v [<-|[]] Hv. rewrite Forall_forall in Fa1. now apply Fa1. }
    rewrite EI in *. rewrite zlen_cons in Ho.
    destruct (Z_lt_le_dec (pos + size) (zlen out)).
    2: { unfold vset. rewrite store_short; auto. zl. }
    destruct (vset_ok out (pos + size) (u32 (x + base))) as (out1 & -> & W1); [lia|]. cbn [bind].
    pose proof (wrote_zlen _ _ _ _ _ W1).
    assert (NI : isect a' b' <> []) by (intro Q; rewrite Q, zlen_nil in Ho; lia).
    destruct (Z.eqb_spec (l' + 1) end_l) as [E1|E1]; [|destruct (Z.eqb_spec (r' + 1) end_r) as [E2|E2]].
    + exfalso. apply NI. destruct a'; auto. unfold l' in E1. rewrite !zlen_cons in E1. zpos. lia.
    + exfalso. apply NI. destruct b'; [apply isect_nil_r|]. unfold r' in E2. rewrite !zlen_cons in E2. zpos. lia.
    + pose proof (proj2 (proj1 (bytes_at_cons _ _ _ _) Ba')) as Ba1.
      apply (IH a' b' (l' + 1) (r' + 1) out1 (size + 1)); auto; try lia.
      * intros ->. now apply NI.
      * intros ->. apply NI, isect_nil_r.
      * unfold l'. rewrite zlen_cons. lia.
      * unfold r'. rewrite zlen_cons. lia.
  - apply (IH (x :: a') (y' :: b')); auto; try discriminate; try (unfold l', r'; lia).
    cbn [length]. destruct pa as [|u pa]; [|cbn [length] in La; lia].
    destruct pb as [|u pb]; [|cbn [length] in Lb; lia].
    cbn [app] in Eb. injection Eb as <- <-.
    assert (y <= x) by (eapply dropl_hd; exact Ea'). lia.
Qed.

Lemma removelast_cons (x y : Z) l : removelast (x :: y :: l) = x :: removelast (y :: l).
Proof. reflexivity. Qed.

(** the loop of ds_intersect_block stores every key at the next place, also the last one *)
Lemma ds_loop_room mem bm f r base pos (Hbm : bm_at bm 4 f) : forall b i k out,
  bytes_at mem (r + i) b -> Forall (fun x => 0 <= x < 256) b -> 0 <= k -> k + zlen b < 4294967296 ->
  0 <= pos -> b <> [] ->
  if pos + k + zlen (filter f (removelast b)) + 1 <=? zlen out
  then exists out', ds_intersect_block_loop (length b) mem bm r i base out pos k = Ok (out', k + zlen (filter f b))
    /\ wrote 1 out (pos + k) (map (fun x => u32 (x + base)) (filter f b)) out'
  else ds_intersect_block_loop (length b) mem bm r i base out pos k = UB.
Proof.
  induction b as [|x b IH]; intros i k out B R Hk Hl Hp Hne; [congruence|].
  cbn [length ds_intersect_block_loop].
  apply bytes_at_cons in B as [Bx B]. apply rd8_znth in Bx. rewrite Bx. cbn [bind].
  pose proof (Forall_inv R) as Rx. pose proof (Forall_inv_tail R) as R'. rewrite zlen_cons in Hl. cbn beta in Rx.
  replace (r + i + 1) with (r + (i + 1)) in B by lia. zpos.
  destruct (Z_lt_le_dec (zlen out) (pos + k + 1)) as [S1|S1].
  { unfold vset. rewrite store_short by zl. cbn [bind].
    pose proof (zlen_nonneg _ (filter f (removelast (x :: b)))).
    destruct (Z.leb_spec (pos + k + zlen (filter f (removelast (x :: b))) + 1) (zlen out)); [lia|reflexivity]. }
  destruct (vset_ok out (pos + k) (u32 (x + base))) as (out1 & -> & W1); [lia|].
  cbn [bind]. pose proof (wrote_zlen _ _ _ _ _ W1) as L1.
  rewrite (bitmap_contains_ok _ 4 f) by (auto; lia). cbn [bind].
  destruct b as [|y b].
  - cbn [removelast filter length ds_intersect_block_loop]. rewrite zlen_nil.
    destruct (Z.leb_spec (pos + k + 0 + 1) (zlen out)); [|lia].
    exists out1. destruct (f x).
    + rewrite u32_id by (rewrite zlen_nil in Hl; lia). split; [reflexivity|]. cbn [map].
      eapply wrote_weaken; [exact W1|lia].
    + split; [rewrite zlen_nil; f_equal; f_equal; lia|]. cbn [map]. destruct W1 as (A1 & A2 & A3).
      split; [lia|]. split; [intros j Hj; rewrite zlen_nil in Hj; lia|]. intros j Hj. rewrite zlen_nil in Hj.
      apply A3. change (zlen [u32 (x + base)]) with 1. lia.
  - rewrite removelast_cons. set (b' := removelast (y :: b)) in *. cbn [filter].
    destruct (f x).
    + rewrite u32_id by lia.
      pose proof (IH (i + 1) (k + 1) out1 B R' ltac:(lia) ltac:(lia) Hp ltac:(discriminate)) as R2.
      rewrite L1 in R2. rewrite zlen_cons.
      replace (pos + (k + 1) + zlen (filter f b') + 1) with (pos + k + (zlen (filter f b') + 1) + 1) in R2 by lia.
      destruct (Z.leb_spec (pos + k + (zlen (filter f b') + 1) + 1) (zlen out)); [|exact R2].
      destruct R2 as (out2 & -> & W2). cbn [filter] in *. exists out2.
      split; [rewrite zlen_cons; f_equal; f_equal; lia|]. cbn [map].
      eapply wrote_cons; [lia|exact W1|]. now rewrite <- Z.add_assoc.
    + pose proof (IH (i + 1) k out1 B R' ltac:(lia) ltac:(lia) Hp ltac:(discriminate)) as R2.
      rewrite L1 in R2. destruct (Z.leb_spec (pos + k + zlen (filter f b') + 1) (zlen out)); [|exact R2].
      destruct R2 as (out2 & -> & W2). cbn [filter] in *.
      exists out2. split; auto. destruct W1 as (A1 & A2 & A3), W2 as (C1 & C2 & C3).
      split; [lia|]. split; auto. rewrite zlen_map in *. intros j Hj. rewrite C3 by lia. apply A3.
      change (zlen [u32 (x + base)]) with 1. match goal with H : context [zlen ?q] |- _ => pose proof (zlen_nonneg _ q) end. lia.
Qed.

Lemma bitmap_list_short word (n : nat) vs base out pos :
  bm_at word (Z.of_nat n) (memb vs) -> sorted vs -> Forall (fun x => 0 <= x < 64 * Z.of_nat n) vs ->
  0 <= pos -> pos <= zlen out -> zlen out < pos + zlen vs ->
  bitmap_loop n word 0 base out pos 0 = UB.
Proof.
  intros Hb Hs Hr Hp Hp' Ho. pose proof (decode_bitmap_short word n vs base out pos Hb Hs Hr Hp Hp' Ho) as D.
  unfold decode_bitmap in D. rewrite Nat2Z.id in D. destruct (bitmap_loop n word 0 base out pos 0) as [[? ?]| | | |]; auto; discriminate.
Qed.
Lemma and_bitmaps_short l r (n : nat) a b base out pos :
  bm_at l (Z.of_nat n) (memb a) -> bm_at r (Z.of_nat n) (memb b) -> sorted a -> sorted b ->
  Forall (fun x => 0 <= x < 64 * Z.of_nat n) a -> Forall (fun x => 0 <= x < 64 * Z.of_nat n) b ->
  0 <= pos -> pos <= zlen out -> zlen out < pos + zlen (isect a b) ->
  and_bitmaps l r (Z.of_nat n) base out pos = UB.
Proof.
  intros Ha Hb Sa Sb Ra Rb Hp Hp' Ho. unfold and_bitmaps. rewrite Nat2Z.id.
  apply bitmap_list_short with (vs := isect a b); auto using sorted_isect, Forall_isect.
  eapply bm_at_ext; [apply bm_and; eauto|]. intros x _. symmetry. apply memb_isect.
Qed.
Lemma or_bitmaps_short l r (n : nat) a b base out pos :
  bm_at l (Z.of_nat n) (memb a) -> bm_at r (Z.of_nat n) (memb b) -> sorted a -> sorted b ->
  Forall (fun x => 0 <= x < 64 * Z.of_nat n) a -> Forall (fun x => 0 <= x < 64 * Z.of_nat n) b ->
  0 <= pos -> pos <= zlen out -> zlen out < pos + zlen (uni a b) ->
  or_bitmaps l r (Z.of_nat n) base out pos = UB.
Proof.
  intros Ha Hb Sa Sb Ra Rb Hp Hp' Ho. unfold or_bitmaps. rewrite Nat2Z.id.
  apply bitmap_list_short with (vs := uni a b); auto using sorted_uni, Forall_uni.
  eapply bm_at_ext; [apply bm_or; eauto|]. intros x _. symmetry. apply memb_uni.
Qed.

Lemma meet_isect a b : meet a b = isect a b.
Proof. reflexivity. Qed.

(** ** blocks *)
Section Blocks.
Variable tbl : Z -> list Z.
Hypothesis Ht : shuffle_table_ok tbl.
Variables (dbg : bool) (mem : list Z).

Definition room {A} (need : Z) (out : list Z) (pos : Z) (r : res A) (f : list Z -> A) (vs : list Z) : Prop :=
  if need <=? zlen out then exists out', r = Ok (f out') /\ wrote 23 out pos vs out' else r = UB.

Lemma ss_intersect_block_room l r a b base out pos :
  bytes_at mem l a -> bytes_at mem r b -> 1 <= zlen a <= 30 -> 1 <= zlen b <= 30 ->
  sorted a -> sorted b -> Forall (fun x => 0 <= x < 256) a -> Forall (fun x => 0 <= x < 256) b ->
  0 <= l -> l + meet_bytes (zlen a) (zlen b) <= zlen mem -> 0 <= r -> r + meet_bytes (zlen b) (zlen a) <= zlen mem ->
  0 <= base -> base + 256 <= 4294967296 ->
  0 <= pos -> pos <= zlen out ->
  room (pos + meet_words a b) out pos (ss_intersect_block tbl dbg mem l r (zlen a) (zlen b) base out pos)
    (fun out' => (out', zlen (isect a b))) (map (addb base) (isect a b)).
Proof.
  intros Ba Bb Ha Hb Sa Sb Ra Rb Hl Hml Hr Hmr Hb0 Hb1 Hp Hp'. unfold ss_intersect_block, room, meet_words. cbv zeta.
  change (block_sparseness_threshold - 2) with 30. change meet with isect.
  rewrite assert_ok by (apply andb_true_intro; split; [apply Z.ltb_lt|apply Z.leb_le]; lia). cbn [bind].
  rewrite assert_ok by (apply andb_true_intro; split; [apply Z.ltb_lt|apply Z.leb_le]; lia). cbn [bind].
  destruct (Z.leb_spec 31 (zlen a)); [lia|]. destruct (Z.leb_spec 31 (zlen b)); [lia|]. cbn [andb].
  rewrite (isect_comm a b) in * by auto.
  assert (Rab : Forall (fun x => 0 <= x < 256) (isect b a)) by auto using Forall_isect.
  destruct (map_u32_add base (isect b a) 256) as [M1 M2]; auto.
  unfold meet_bytes, data_bytes in Hml, Hmr.
  destruct (Z.leb_spec 31 (zlen a)) in Hml, Hmr; [lia|]. destruct (Z.leb_spec 31 (zlen b)) in Hml, Hmr; [lia|]. cbn [orb] in Hml, Hmr.
  assert (Hl16 : l + 16 <= zlen mem) by (destruct (Z.leb_spec (zlen a) 16), (Z.leb_spec (zlen b) 16), (Z.ltb_spec (zlen a) 31); lia).
  assert (Hr16 : r + 16 <= zlen mem) by (destruct (Z.leb_spec (zlen a) 16), (Z.leb_spec (zlen b) 16), (Z.ltb_spec (zlen b) 31); lia).
  destruct (load_block mem l a) as (wl & El & Zl & Fl); auto; try lia.
  destruct (load_block mem r b) as (wr & Er & Zr & Fr); auto; try lia.
  assert (FA : forall c : list Z, zlen c <= 16 -> firstn (Z.to_nat (Z.min 16 (Z.abs (zlen c)))) c = c).
  { intros c Hc. apply firstn_all2. zpos. unfold zlen in *. lia. }
  pose proof (zlen_nonneg _ (isect b a)).
  destruct (Z.leb_spec (zlen a) 16) as [La|La]; destruct (Z.leb_spec (zlen b) 16) as [Lb|Lb]; cbn [andb] in *.
  - rewrite El. cbn [bind]. rewrite Er. cbn [bind].
    pose proof (INTERSECT_room tbl wl (zlen a) wr (zlen b) a b base out pos 0 Ht Zr) as R.
    specialize (R ltac:(rewrite Fl by (unfold zlen in *; lia); auto) ltac:(rewrite Fr by (unfold zlen in *; lia); auto) Hp).
    destruct (Z.leb_spec (pos + vector_words (zlen (isect b a))) (zlen out)); auto.
    destruct R as (out' & E & W).
    rewrite M2 in W. exists out'. split; [exact E|]. eapply wrote_weaken; eauto. lia.
  - destruct (Z.ltb_spec 16 (zlen b)); [|lia]. cbn [andb].
    rewrite El. cbn [bind]. rewrite Er. cbn [bind].
    set (b1 := firstn 16 b). set (b2 := skipn 16 b).
    assert (Eb : b = b1 ++ b2) by (symmetry; apply firstn_skipn).
    assert (L1 : zlen b1 = 16) by (unfold b1; rewrite zlen_firstn; lia).
    assert (L2 : zlen b2 = zlen b - 16) by (rewrite Eb, zlen_app; lia).
    assert (EI : isect b a = isect b1 a ++ isect b2 a) by (rewrite Eb; apply isect_app_l).
    assert (EIl : zlen (isect b a) = zlen (isect b1 a) + zlen (isect b2 a)) by now rewrite EI, zlen_app.
    zpos. pose proof (zlen_nonneg _ (isect b1 a)). pose proof (zlen_nonneg _ (isect b2 a)).
    pose proof (INTERSECT_room tbl wl (zlen a) wr (zlen b) a b1 base out pos 0 Ht Zr) as R.
    specialize (R ltac:(rewrite Fl by (unfold zlen in *; lia); auto)
      ltac:(rewrite Fr by (unfold zlen in *; lia); replace (Z.to_nat (Z.min 16 (Z.abs (zlen b)))) with 16%nat by lia; reflexivity) Hp).
    set (m1 := zlen (isect b1 a)) in *. set (m2 := zlen (isect b2 a)) in *.
    destruct (Z.leb_spec (pos + vector_words m1) (zlen out)).
    2: { rewrite R. cbn [bind]. destruct (Z.leb_spec (pos + Z.max (vector_words m1) (m1 + vector_words m2)) (zlen out)); [lia|auto]. }
    destruct R as (out1 & -> & W1).
    cbn [bind]. pose proof (wrote_zlen _ _ _ _ _ W1) as EL1.
    pose proof Bb as Bb2. rewrite Eb in Bb2. apply bytes_at_app in Bb2 as [_ Bb2]. rewrite L1 in Bb2.
    destruct (load_block mem (r + 16) b2) as (wr2 & Er2 & Zr2 & Fr2); auto; try lia.
    rewrite Er2. cbn [bind]. rewrite Z.add_0_l. rewrite <- L2.
    pose proof (INTERSECT_room tbl wl (zlen a) wr2 (zlen b2) a b2 base out1 (pos + m1) m1 Ht Zr2) as R2.
    specialize (R2 ltac:(rewrite Fl by (unfold zlen in *; lia); auto)
      ltac:(rewrite Fr2 by (unfold zlen in *; lia); apply FA; lia) ltac:(lia)).
    fold m2 in R2. rewrite EL1 in R2.
    destruct (Z.leb_spec (pos + m1 + vector_words m2) (zlen out)).
    2: { rewrite R2. destruct (Z.leb_spec (pos + Z.max (vector_words m1) (m1 + vector_words m2)) (zlen out)); [lia|auto]. }
    destruct (Z.leb_spec (pos + Z.max (vector_words m1) (m1 + vector_words m2)) (zlen out)); [|lia].
    destruct R2 as (out2 & -> & W2).
    exists out2. split; [rewrite EIl; reflexivity|]. rewrite <- M2, EI, map_app.
    eapply wrote_app; [lia|eapply wrote_weaken; [exact W1|lia]|]. rewrite zlen_map.
    eapply wrote_weaken; [exact W2|lia].
  - destruct (Z.ltb_spec 16 (zlen a)); [|lia]. cbn [andb].
    rewrite El. cbn [bind]. rewrite Er. cbn [bind].
    set (a1 := firstn 16 a). set (a2 := skipn 16 a).
    assert (Ea : a = a1 ++ a2) by (symmetry; apply firstn_skipn).
    assert (L1 : zlen a1 = 16) by (unfold a1; rewrite zlen_firstn; lia).
    assert (L2 : zlen a2 = zlen a - 16) by (rewrite Ea, zlen_app; lia).
    assert (EI : isect b a = isect b a1 ++ isect b a2) by (rewrite Ea in *; now apply isect_split_r).
    assert (EIl : zlen (isect b a) = zlen (isect b a1) + zlen (isect b a2)) by now rewrite EI, zlen_app.
    assert (Sa12 : sorted a1 /\ sorted a2) by (rewrite Ea in Sa; apply sorted_app_inv in Sa; tauto).
    rewrite (isect_comm a1 b), (isect_comm a2 b) by tauto.
    zpos. pose proof (zlen_nonneg _ (isect b a1)). pose proof (zlen_nonneg _ (isect b a2)).
    pose proof (INTERSECT_room tbl wl (zlen a) wr (zlen b) a1 b base out pos 0 Ht Zr) as R.
    specialize (R ltac:(rewrite Fl by (unfold zlen in *; lia); replace (Z.to_nat (Z.min 16 (Z.abs (zlen a)))) with 16%nat by lia; reflexivity)
      ltac:(rewrite Fr by (unfold zlen in *; lia); auto) Hp).
    set (m1 := zlen (isect b a1)) in *. set (m2 := zlen (isect b a2)) in *.
    destruct (Z.leb_spec (pos + vector_words m1) (zlen out)).
    2: { rewrite R. cbn [bind]. destruct (Z.leb_spec (pos + Z.max (vector_words m1) (m1 + vector_words m2)) (zlen out)); [lia|auto]. }
    destruct R as (out1 & -> & W1).
    cbn [bind]. pose proof (wrote_zlen _ _ _ _ _ W1) as EL1.
    pose proof Ba as Ba2. rewrite Ea in Ba2. apply bytes_at_app in Ba2 as [_ Ba2]. rewrite L1 in Ba2.
    destruct (load_block mem (l + 16) a2) as (wl2 & El2 & Zl2 & Fl2); auto; try lia.
    rewrite El2. cbn [bind]. rewrite Z.add_0_l. rewrite <- L2.
    pose proof (INTERSECT_room tbl wl2 (zlen a2) wr (zlen b) a2 b base out1 (pos + m1) m1 Ht Zr) as R2.
    specialize (R2 ltac:(rewrite Fl2 by (unfold zlen in *; lia); apply FA; lia)
      ltac:(rewrite Fr by (unfold zlen in *; lia); auto) ltac:(lia)).
    fold m2 in R2. rewrite EL1 in R2.
    destruct (Z.leb_spec (pos + m1 + vector_words m2) (zlen out)).
    2: { rewrite R2. destruct (Z.leb_spec (pos + Z.max (vector_words m1) (m1 + vector_words m2)) (zlen out)); [lia|auto]. }
    destruct (Z.leb_spec (pos + Z.max (vector_words m1) (m1 + vector_words m2)) (zlen out)); [|lia].
    destruct R2 as (out2 & -> & W2).
    exists out2. split; [rewrite EIl; reflexivity|]. rewrite <- M2, EI, map_app.
    eapply wrote_app; [lia|eapply wrote_weaken; [exact W1|lia]|]. rewrite zlen_map.
    eapply wrote_weaken; [exact W2|lia].
  - rewrite <- (isect_comm a b) in * by auto.
    assert (Na : a <> []) by (intros ->; rewrite zlen_nil in *; lia).
    assert (Nb : b <> []) by (intros ->; rewrite zlen_nil in *; lia).
    destruct (Z.leb_spec (pos + zlen (isect a b)) (zlen out)).
    + destruct (scalar_intersect_loop_ok mem (l + zlen a) (r + zlen b) base pos
        (S (Z.to_nat (zlen a + zlen b))) a b l r out 0) as (out' & E & W); auto; try lia.
      { unfold zlen. lia. }
      exists out'. split; [exact E|]. rewrite Z.add_0_r, M1 in W. eapply wrote_weaken; eauto. lia.
    + apply scalar_intersect_loop_short with (a := a) (b := b); auto; try lia. unfold zlen. lia.
Qed.

Lemma ds_intersect_block_room l r a b base out pos :
  bm_at (words_mem mem l) 4 (memb a) -> bytes_at mem r b -> 1 <= zlen b <= 256 ->
  Forall (fun x => 0 <= x < 256) b -> 0 <= base -> base + 256 <= 4294967296 ->
  0 <= pos ->
  room (pos + (zlen (isect (removelast b) a) + 1)) out pos (ds_intersect_block mem l r (zlen b) base out pos)
    (fun out' => (out', zlen (isect b a))) (map (addb base) (isect b a)).
Proof.
  intros Hbm B Hl R Hb0 Hb1 Hp. unfold ds_intersect_block, room. rewrite <- length_zlen.
  pose proof (ds_loop_room mem (words_mem mem l) (memb a) r base pos Hbm b 0 0 out) as L.
  rewrite Z.add_0_r in L. specialize (L B R ltac:(lia) ltac:(lia) Hp ltac:(intros ->; rewrite zlen_nil in *; lia)).
  rewrite Z.add_0_r in L. fold (isect (removelast b) a) in L. fold (isect b a) in L.
  rewrite Z.add_assoc. destruct (Z.leb_spec (pos + zlen (isect (removelast b) a) + 1) (zlen out)); auto.
  destruct L as (out' & E & W). exists out'. split; [exact E|].
  assert (RI : Forall (fun x => 0 <= x < 256) (isect b a)) by auto using Forall_isect.
  destruct (map_u32_add base (isect b a) 256) as [M1 _]; auto. rewrite <- M1.
  eapply wrote_weaken; [exact W|lia].
Qed.

Lemma intersect_blocks_room dl dr ia ib a b base out pos :
  wfb1 (ia, a) -> wfb1 (ib, b) ->
  bytes_at mem dl (block_data a) -> bytes_at mem dr (block_data b) ->
  0 <= dl -> dl + meet_bytes (zlen a) (zlen b) <= zlen mem ->
  0 <= dr -> dr + meet_bytes (zlen b) (zlen a) <= zlen mem ->
  0 <= base -> base + 256 <= 4294967296 ->
  0 <= pos -> pos <= zlen out ->
  room (pos + meet_words a b) out pos (intersect_blocks tbl dbg mem dl dr (zlen a) (zlen b) base out pos)
    (fun out' => (out', zlen (isect a b))) (map (addb base) (isect a b)).
Proof.
  intros Wa Wb Ba Bb Hl Hml Hr Hmr Hb0 Hb1 Hp Hp'.
  pose proof (blocks_wf1_zlen _ _ Wa) as La. pose proof (blocks_wf1_zlen _ _ Wb) as Lb.
  destruct Wa as (_ & Na & Sa & Ra). destruct Wb as (_ & Nb & Sb & Rb). cbn [snd] in *.
  unfold intersect_blocks. rewrite !block_type_val.
  destruct (Z.ltb_spec (zlen a) 31) as [Ka|Ka]; destruct (Z.ltb_spec (zlen b) 31) as [Kb|Kb].
  - rewrite Z.eqb_refl. apply block_sparse in Ba, Bb; auto. apply ss_intersect_block_room; auto; lia.
  - change (block_pair t_sparse t_dense =? block_pair t_sparse t_sparse) with false. cbv iota.
    rewrite Z.eqb_refl. apply block_sparse in Ba; auto. apply block_dense in Bb; auto.
    unfold meet_words. destruct (Z.leb_spec 31 (zlen a)); [lia|]. destruct (Z.leb_spec 31 (zlen b)); [|lia]. cbn [andb].
    apply ds_intersect_block_room; auto; lia.
  - change (block_pair t_dense t_sparse =? block_pair t_sparse t_sparse) with false.
    change (block_pair t_dense t_sparse =? block_pair t_sparse t_dense) with false. cbv iota.
    rewrite Z.eqb_refl. apply block_dense in Ba; auto. apply block_sparse in Bb; auto.
    unfold meet_words. destruct (Z.leb_spec 31 (zlen a)); [|lia]. destruct (Z.leb_spec 31 (zlen b)); [lia|]. cbn [andb].
    rewrite (isect_comm a b) in * by auto. apply ds_intersect_block_room; auto; lia.
  - change (block_pair t_dense t_dense =? block_pair t_sparse t_sparse) with false.
    change (block_pair t_dense t_dense =? block_pair t_sparse t_dense) with false.
    change (block_pair t_dense t_dense =? block_pair t_dense t_sparse) with false. cbv iota.
    rewrite Z.eqb_refl. apply block_dense in Ba, Bb; auto.
    unfold meet_words. destruct (Z.leb_spec 31 (zlen a)); [|lia]. destruct (Z.leb_spec 31 (zlen b)); [|lia]. cbn [andb].
    change block_size_in_64bit_words with (Z.of_nat 4). unfold room. change meet with isect.
    destruct (Z.leb_spec (pos + zlen (isect a b)) (zlen out)).
    + destruct (and_bitmaps_ok (words_mem mem dl) (words_mem mem dr) 4 a b base out pos) as (out' & E & W);
        auto; try lia.
      exists out'. split; auto. eapply wrote_weaken; eauto. lia.
    + apply and_bitmaps_short with (a := a) (b := b); auto.
Qed.

(** a load behind the memory *)
Lemma load128_far d : 0 <= d -> zlen mem < d + 16 -> load128 mem d = UB.
Proof.
  intros H1 H2. unfold load128. destruct (rd_bytes_cases mem 16 d H1) as [E|(bs & _ & _ & [E|E])]; [exact E|discriminate|lia].
Qed.
Lemma INTERSECT_cases v_l cl v_r cr a b base out pos size :
  zlen v_r = 16 -> firstn (Z.to_nat (Z.min 16 (Z.abs cl))) v_l = a ->
  firstn (Z.to_nat (Z.min 16 (Z.abs cr))) v_r = b -> 0 <= pos ->
  INTERSECT tbl v_l cl v_r cr base out pos size = UB
  \/ exists out' n, INTERSECT tbl v_l cl v_r cr base out pos size = Ok (out', n).
Proof.
  intros Hz Ha Hb Hp. pose proof (INTERSECT_room tbl v_l cl v_r cr a b base out pos size Ht Hz Ha Hb Hp) as R.
  destruct (_ <=? _); [|now left]. destruct R as (out' & E & _). right. eauto.
Qed.
Lemma load128_16 d w : load128 mem d = Ok w -> zlen w = 16.
Proof.
  unfold load128. intro E. destruct (Z_lt_le_dec d 0) as [H|H].
  - exfalso. cbn [rd_bytes] in E. unfold rd8, vget in E. rewrite znth_neg in E by lia. discriminate.
  - destruct (rd_bytes_cases mem 16 d H) as [E'|(bs & E' & L & _)]; rewrite E' in E; [discriminate|].
    injection E as <-. unfold zlen. now rewrite L.
Qed.

Lemma intersect_blocks_far dl dr x y base out pos :
  1 <= x <= 256 -> 1 <= y <= 256 -> 0 <= dl -> 0 <= dr -> 0 <= pos ->
  dl + data_bytes x <= zlen mem -> dr + data_bytes y <= zlen mem ->
  zlen mem < dl + meet_bytes x y \/ zlen mem < dr + meet_bytes y x ->
  intersect_blocks tbl dbg mem dl dr x y base out pos = UB.
Proof.
  intros Hx Hy Hl Hr Hp Hml Hmr H. unfold meet_bytes in H. rewrite (orb_comm (31 <=? y)) in H.
  destruct (Z.leb_spec 31 x) as [Kx|Kx]; cbn [orb] in H; [lia|]. destruct (Z.leb_spec 31 y) as [Ky|Ky]; cbn [orb] in H; [lia|].
  unfold intersect_blocks. rewrite !block_type_val.
  destruct (Z.ltb_spec x 31); [|lia]. destruct (Z.ltb_spec y 31); [|lia]. rewrite Z.eqb_refl.
  unfold ss_intersect_block. change (block_sparseness_threshold - 2) with 30.
  rewrite assert_ok by (apply andb_true_intro; split; [apply Z.ltb_lt|apply Z.leb_le]; lia). cbn [bind].
  rewrite assert_ok by (apply andb_true_intro; split; [apply Z.ltb_lt|apply Z.leb_le]; lia). cbn [bind].
  unfold data_bytes in *. destruct (Z.ltb_spec x 31); [|lia]. destruct (Z.ltb_spec y 31); [|lia].
  assert (LD : forall d, 0 <= d -> load128 mem d = UB \/ d + 16 <= zlen mem /\ exists w, load128 mem d = Ok w).
  { intros d Hd. unfold load128. destruct (rd_bytes_cases mem 16 d Hd) as [E|(bs & E & _ & [D|D])]; rewrite E; auto; [discriminate|].
    right. split; [lia|eauto]. }
  destruct (Z.leb_spec x 16) as [Lx|Lx]; destruct (Z.leb_spec y 16) as [Ly|Ly]; cbn [andb].
  - destruct (LD dl Hl) as [-> | (Q1 & wl & El)]; [reflexivity|]. rewrite El. cbn [bind].
    destruct (LD dr Hr) as [-> | (Q2 & wr & _)]; [reflexivity|]. lia.
  - destruct (Z.ltb_spec 16 y); [|lia]. cbn [andb].
    destruct (LD dl Hl) as [-> | (Q1 & wl & El)]; [reflexivity|]. rewrite El. cbn [bind].
    destruct (LD dr Hr) as [-> | (Q2 & wr & Er)]; [reflexivity|]. rewrite Er. cbn [bind].
    destruct (INTERSECT_cases wl x wr y _ _ base out pos 0 (load128_16 _ _ Er) eq_refl eq_refl Hp) as [-> | (o & n & ->)]; [reflexivity|].
    cbn [bind]. rewrite load128_far by lia. reflexivity.
  - destruct (Z.ltb_spec 16 x); [|lia]. cbn [andb].
    destruct (LD dl Hl) as [-> | (Q1 & wl & El)]; [reflexivity|]. rewrite El. cbn [bind].
    destruct (LD dr Hr) as [-> | (Q2 & wr & Er)]; [reflexivity|]. rewrite Er. cbn [bind].
    destruct (INTERSECT_cases wl x wr y _ _ base out pos 0 (load128_16 _ _ Er) eq_refl eq_refl Hp) as [-> | (o & n & ->)]; [reflexivity|].
    cbn [bind]. rewrite load128_far by lia. reflexivity.
  - lia.
Qed.
End Blocks.

Lemma removelast_prefix (b : list Z) : b <> [] -> b = removelast b ++ [last b 0].
Proof. intro H. now apply app_removelast_last. Qed.
Lemma meet_words_ge a b : sorted a -> sorted b -> 1 <= zlen a -> 1 <= zlen b -> zlen (isect a b) <= meet_words a b.
Proof.
  intros Sa Sb Ha Hb. unfold meet_words. change meet with isect.
  assert (DS : forall u v, 1 <= zlen v -> zlen (isect v u) <= zlen (isect (removelast v) u) + 1).
  { intros u v Hv. rewrite (removelast_prefix v) at 1 by (intros ->; rewrite zlen_nil in Hv; lia).
    rewrite isect_app_l, zlen_app. pose proof (zlen_isect_le [last v 0] u) as Q. change (zlen [last v 0]) with 1 in Q. lia. }
  assert (SP : forall u v, zlen u <= 16 -> zlen v <= 30 -> zlen (isect v u)
     <= zlen (isect (firstn 16 v) u) + vector_words (zlen (isect (skipn 16 v) u))).
  { intros u v Hu Hv. rewrite <- (firstn_skipn 16 v) at 1. rewrite isect_app_l, zlen_app.
    pose proof (zlen_isect_le (skipn 16 v) u) as Q. rewrite zlen_skipn in Q. zpos.
    pose proof (zlen_nonneg _ (isect (skipn 16 v) u)). pose proof (v8_ge (zlen (isect (skipn 16 v) u))). unfold zlen in *. lia. }
  destruct (Z.leb_spec 31 (zlen a)), (Z.leb_spec 31 (zlen b)); cbn [andb]; try lia.
  - rewrite (isect_comm a b) by auto. now apply DS.
  - now apply DS.
  - destruct (Z.leb_spec (zlen a) 16), (Z.leb_spec (zlen b) 16); cbn [andb]; try lia.
    + pose proof (zlen_isect_le a b). pose proof (zlen_nonneg _ (isect a b)). pose proof (v8_ge (zlen (isect a b))). lia.
    + rewrite (isect_comm a b) by auto. specialize (SP a b). cbn zeta. lia.
    + specialize (SP b a). cbn zeta. lia.
Qed.
Lemma meet_words_comm a b : sorted a -> sorted b -> meet_words a b = meet_words b a.
Proof.
  intros Sa Sb. unfold meet_words. change meet with isect. rewrite (isect_comm a b) by auto.
  destruct (Z.leb_spec 31 (zlen a)), (Z.leb_spec 31 (zlen b)); cbn [andb]; auto.
  destruct (Z.leb_spec (zlen a) 16), (Z.leb_spec (zlen b) 16); cbn [andb]; auto.
Qed.

(** ** what is needed for two lists of groups *)
Lemma below_app X Y x : below (X ++ Y) x = below X x + below Y x.
Proof. unfold below. now rewrite filter_app, zlen_app. Qed.
Lemma below_all X x : Forall (fun v => v < x) X -> below X x = zlen X.
Proof.
  intro H. rewrite Forall_forall in H. unfold below. rewrite filter_all; auto. intros v Hv. apply Z.ltb_lt. now apply H.
Qed.
Lemma below_none X x : Forall (fun v => x <= v) X -> below X x = 0.
Proof.
  intro H. rewrite Forall_forall in H. unfold below. rewrite filter_none; auto. intros v Hv. apply Z.ltb_ge. now apply H.
Qed.
Lemma ungroup_above k lim g i : 0 < k -> wf k lim g -> Forall (fun b => i < fst b) g ->
  Forall (fun v => (i + 1) * k <= v) (ungroup k g).
Proof.
  intros Hk W F. apply Forall_forall. intros v Hv. pose proof (In_ungroup_id k lim g v Hk W Hv) as I.
  apply in_map_iff in I as (b & E & I). rewrite Forall_forall in F. specialize (F b I).
  pose proof (Z.mul_div_le v k Hk). nia.
Qed.

Definition fitsg (k n : Z) (P : Z -> list Z -> list Z -> Prop) (t : Z) (A B : list (Z * list Z)) : Prop :=
  t + zlen (isect (ungroup k A) (ungroup k B)) <= n
  /\ forall id va vb, In (id, va) A -> In (id, vb) B ->
       P (t + below (isect (ungroup k A) (ungroup k B)) (id * k)) va vb.

Section Fits.
Variables (k lim n : Z) (P : Z -> list Z -> list Z -> Prop).
Hypothesis Hk : 0 < k.

Lemma fitsg_nil_l t B : fitsg k n P t [] B <-> t <= n.
Proof. unfold fitsg. cbn. rewrite Z.add_0_r. split; [tauto|]. intro H. split; auto. intros id va vb []. Qed.
Lemma fitsg_nil_r t A : fitsg k n P t A [] <-> t <= n.
Proof.
  unfold fitsg. change (ungroup k []) with (@nil Z). rewrite isect_nil_r, zlen_nil, Z.add_0_r. split; [tauto|].
  intro H. split; auto. intros id va vb _ [].
Qed.
Lemma fitsg_eq t i va vb A B :
  wf k lim ((i, va) :: A) -> wf k lim ((i, vb) :: B) ->
  fitsg k n P t ((i, va) :: A) ((i, vb) :: B)
  <-> t + zlen (isect va vb) + zlen (isect (ungroup k A) (ungroup k B)) <= n
      /\ P t va vb /\ fitsg k n P (t + zlen (isect va vb)) A B.
Proof.
  intros WA WB. unfold fitsg. rewrite (isect_groups_eq k lim Hk i i va vb A B) by auto.
  pose proof (proj1 (wf_cons _ _ _ _) WA) as (W1 & WA' & FA). pose proof (proj1 (wf_cons _ _ _ _) WB) as (_ & WB' & FB).
  cbn [fst] in FA, FB. set (I' := isect (ungroup k A) (ungroup k B)). set (m := zlen (isect va vb)).
  assert (FI : Forall (fun v => (i + 1) * k <= v) I') by (apply Forall_isect, (ungroup_above k lim); auto).
  assert (FH : Forall (fun v => i * k <= v < (i + 1) * k) (ungroup1 k (i, isect va vb))).
  { apply Forall_map. cbn [fst snd]. apply Forall_isect. destruct W1 as (_ & _ & _ & R). cbn [snd] in R.
    eapply Forall_impl; [|exact R]. cbn beta. intros; lia. }
  rewrite zlen_app, zlen_ungroup1. cbn [snd]. fold m.
  assert (B0 : below (ungroup1 k (i, isect va vb) ++ I') (i * k) = 0).
  { apply below_none, Forall_app. split; (eapply Forall_impl; [|eassumption]); cbn beta; intros; nia. }
  assert (BI : forall id, i < id -> below (ungroup1 k (i, isect va vb) ++ I') (id * k) = m + below I' (id * k)).
  { intros id Hid. rewrite below_app, below_all, zlen_ungroup1; auto. eapply Forall_impl; [|exact FH]. cbn beta. intros; nia. }
  rewrite Forall_forall in FA, FB. split.
  - intros (H1 & H2). split; [lia|]. split.
    + specialize (H2 i va vb (or_introl eq_refl) (or_introl eq_refl)). now rewrite B0, Z.add_0_r in H2.
    + split; [lia|]. intros id va' vb' Ia Ib. pose proof (FA _ Ia) as Hid. cbn [fst] in Hid.
      specialize (H2 id va' vb' (or_intror Ia) (or_intror Ib)). rewrite BI in H2 by auto.
      now rewrite Z.add_assoc in H2.
  - intros (H1 & H2 & H3 & H4). split; [lia|]. intros id va' vb' [Ea|Ia] [Eb|Ib].
    + injection Ea as <- <-. injection Eb as <-. now rewrite B0, Z.add_0_r.
    + injection Ea as <- <-. specialize (FB _ Ib). cbn [fst] in FB. lia.
    + injection Eb as <- <-. specialize (FA _ Ia). cbn [fst] in FA. lia.
    + pose proof (FA _ Ia) as Hid. cbn [fst] in Hid. rewrite BI, Z.add_assoc by auto. now apply H4.
Qed.
Lemma fitsg_drop_l t j A vb B :
  wf k lim A -> wf k lim ((j, vb) :: B) ->
  fitsg k n P t A ((j, vb) :: B) <-> fitsg k n P t (dropg j A) ((j, vb) :: B).
Proof.
  intros WA WB. unfold fitsg. rewrite (isect_dropg k lim A j vb B Hk WA WB).
  apply and_iff_compat_l. split; intros H id va vb' Ia Ib; apply H; auto.
  - destruct (dropg_split j A) as (p & E & _). rewrite E. apply in_app_iff. now right.
  - destruct (dropg_split j A) as (p & E & F). rewrite E in Ia. apply in_app_iff in Ia as [Ia|Ia]; auto.
    rewrite Forall_forall in F. specialize (F _ Ia). cbn [fst] in F. exfalso.
    destruct Ib as [Ib|Ib]; [injection Ib as <- <-; lia|].
    apply wf_cons in WB as (_ & _ & FB). rewrite Forall_forall in FB. specialize (FB _ Ib). cbn [fst] in FB. lia.
Qed.
Lemma fitsg_comm t A B (Q : Z -> list Z -> list Z -> Prop) :
  wf k lim A -> wf k lim B ->
  (forall s id va vb, In (id, va) A -> In (id, vb) B -> (P s va vb <-> Q s vb va)) ->
  fitsg k n P t A B <-> fitsg k n Q t B A.
Proof.
  intros WA WB H. unfold fitsg.
  rewrite (isect_comm (ungroup k A)) by (eapply sorted_ungroup; eauto).
  apply and_iff_compat_l. split; intros H1 id va vb Ia Ib; [eapply H|eapply H]; eauto.
Qed.
End Fits.

Lemma Forall_or_not {A} (P : A -> Prop) l : (forall x, P x \/ ~ P x) -> Forall P l \/ ~ Forall P l.
Proof.
  intro D. induction l as [|x l IH]; [left; constructor|]. destruct (D x) as [H|H].
  - destruct IH as [IH|IH]; [left; now constructor|right]. intro F. apply IH. now apply Forall_inv_tail in F.
  - right. intro F. apply H. now apply Forall_inv in F.
Qed.
Lemma fitsg_dec k n P t A B : (forall s a b, P s a b \/ ~ P s a b) -> fitsg k n P t A B \/ ~ fitsg k n P t A B.
Proof.
  intro D. unfold fitsg. set (I := isect (ungroup k A) (ungroup k B)).
  destruct (Z_le_dec (t + zlen I) n) as [H|H]; [|tauto].
  destruct (Forall_or_not (fun a => Forall (fun b => fst a = fst b -> P (t + below I (fst a * k)) (snd a) (snd b)) B) A) as [F|F].
  - intro a. apply Forall_or_not. intro b. destruct (Z.eq_dec (fst a) (fst b)) as [E|E].
    + destruct (D (t + below I (fst a * k)) (snd a) (snd b)); tauto.
    + left. intro. lia.
  - left. split; auto. intros id va vb Ia Ib. rewrite Forall_forall in F. specialize (F _ Ia). cbn [fst snd] in F.
    rewrite Forall_forall in F. exact (F _ Ib eq_refl).
  - right. intros (_ & G). apply F. apply Forall_forall. intros [id va] Ia. apply Forall_forall. intros [id' vb] Ib.
    cbn [fst snd]. intros <-. now apply G.
Qed.

Lemma fitsg_drop_r k lim n P t i A va B : 0 < k ->
  wf k lim ((i, va) :: A) -> wf k lim B ->
  fitsg k n P t ((i, va) :: A) B <-> fitsg k n P t ((i, va) :: A) (dropg i B).
Proof.
  intros Hk WA WB. assert (WD : wf k lim (dropg i B)).
  { destruct (dropg_split i B) as (p & E & _). rewrite E in WB. apply wf_app in WB. tauto. }
  set (Q := fun s a b => P s b a).
  rewrite (fitsg_comm k lim n P Hk t _ B Q) by (auto; intros; reflexivity).
  rewrite (fitsg_comm k lim n P Hk t _ (dropg i B) Q) by (auto; intros; reflexivity).
  now apply (fitsg_drop_l k lim).
Qed.

(** ** what is read of two lists of groups *)
(** [ea] and [eb] are the ends of the data of [A] and [B]; [R] is what must hold for the positions and
    contents of two groups with the same id *)
Definition readsg (sz : list (Z * list Z) -> Z) (R : Z -> Z -> list Z -> list Z -> Prop) (ea eb : Z) (A B : list (Z * list Z)) : Prop :=
  forall pa id va sa pb vb sb, A = pa ++ (id, va) :: sa -> B = pb ++ (id, vb) :: sb ->
    R (ea - sz ((id, va) :: sa)) (eb - sz ((id, vb) :: sb)) va vb.

Section Reads.
Variables (sz : list (Z * list Z) -> Z) (R : Z -> Z -> list Z -> list Z -> Prop) (k lim ea eb : Z).
Lemma readsg_nil_l B : readsg sz R ea eb [] B.
Proof. intros [|? ?]; discriminate. Qed.
Lemma readsg_nil_r A : readsg sz R ea eb A [].
Proof. intros ? ? ? ? [|? ?]; discriminate. Qed.
Lemma readsg_comm A B : readsg sz R ea eb A B <-> readsg sz (fun x y a b => R y x b a) eb ea B A.
Proof. unfold readsg. split; intros H pa id va sa pb vb sb EA EB; exact (H _ _ _ _ _ _ _ EB EA). Qed.
Lemma readsg_eq i va vb A B : wf k lim ((i, va) :: A) -> wf k lim ((i, vb) :: B) ->
  readsg sz R ea eb ((i, va) :: A) ((i, vb) :: B)
  <-> R (ea - sz ((i, va) :: A)) (eb - sz ((i, vb) :: B)) va vb /\ readsg sz R ea eb A B.
Proof.
  intros WA WB. apply wf_cons in WA as (_ & _ & FA). apply wf_cons in WB as (_ & _ & FB). cbn [fst] in FA, FB.
  rewrite Forall_forall in FA, FB. split.
  - intro H. split; [exact (H [] i va A [] vb B eq_refl eq_refl)|].
    intros pa id va' sa pb vb' sb -> ->. exact (H ((i, va) :: pa) id va' sa ((i, vb) :: pb) vb' sb eq_refl eq_refl).
  - intros (H1 & H2) pa id va' sa pb vb' sb EA EB. destruct pa as [|ca pa], pb as [|cb pb].
    + injection EA as <- <- <-. injection EB as <- <-. exact H1.
    + injection EA as <- <- <-. injection EB as <- ->.
      specialize (FB (i, vb') ltac:(apply in_app_iff; right; now left)). cbn [fst] in FB. lia.
    + injection EB as <- <- <-. injection EA as <- ->.
      specialize (FA (i, va') ltac:(apply in_app_iff; right; now left)). cbn [fst] in FA. lia.
    + injection EA as _ ->. injection EB as _ ->. exact (H2 _ _ _ _ _ _ _ eq_refl eq_refl).
Qed.
Lemma readsg_drop_l j A vb B : wf k lim ((j, vb) :: B) ->
  readsg sz R ea eb A ((j, vb) :: B) <-> readsg sz R ea eb (dropg j A) ((j, vb) :: B).
Proof.
  intro WB. apply wf_cons in WB as (_ & _ & FB). cbn [fst] in FB. rewrite Forall_forall in FB.
  destruct (dropg_split j A) as (p & E & F). rewrite Forall_forall in F. split; intro H.
  - intros pa id va sa pb vb' sb EA EB. eapply (H (p ++ pa)); [|exact EB]. rewrite E, EA at 1. now rewrite app_assoc.
  - intros pa id va sa pb vb' sb EA EB.
    assert (Hid : j <= id).
    { destruct pb as [|cb pb]; [injection EB as <- _ _; lia|]. injection EB as _ ->.
      specialize (FB (id, vb') ltac:(apply in_app_iff; right; now left)). cbn [fst] in FB. lia. }
    assert (Q : exists pa', dropg j A = pa' ++ (id, va) :: sa).
    { clear H EB FB. rewrite E in EA. clear E. generalize dependent (dropg j A). intros D EA. revert pa EA. induction p as [|c p IH]; intros pa EA.
      - exists pa. exact EA.
      - destruct pa as [|c' pa].
        + injection EA as -> _. specialize (F (id, va) (or_introl eq_refl)). cbn [fst] in F. lia.
        + injection EA as _ EA. apply (IH (fun x Hx => F x (or_intror Hx)) pa EA). }
    destruct Q as (pa' & Q). exact (H _ _ _ _ _ _ _ Q EB).
Qed.
End Reads.
Lemma readsg_drop_r sz R k lim ea eb i A va B : wf k lim ((i, va) :: A) ->
  readsg sz R ea eb ((i, va) :: A) B <-> readsg sz R ea eb ((i, va) :: A) (dropg i B).
Proof.
  intro WA. rewrite readsg_comm, (readsg_comm _ _ _ _ _ (dropg i B)). now apply (readsg_drop_l _ _ k lim).
Qed.

(** the outcome is decided by [F] *)
Definition exact_room {A} (F : Prop) (out : list Z) (pos : Z) (r : res A) (f : list Z -> A) (vs : list Z) : Prop :=
  (F /\ exists out', r = Ok (f out') /\ wrote 23 out pos vs out') \/ (~ F /\ r = UB).
Lemma room_exact {A} need out pos (r : res A) f vs :
  room need out pos r f vs -> exact_room (need <= zlen out) out pos r f vs.
Proof. unfold room, exact_room. destruct (Z.leb_spec need (zlen out)); intro H1; [left|right]; split; auto; lia. Qed.
Lemma exact_iff {A} (F G : Prop) out pos (r : res A) f vs : (F <-> G) -> exact_room F out pos r f vs -> exact_room G out pos r f vs.
Proof. unfold exact_room. tauto. Qed.

Definition PB (n t : Z) (a b : list Z) : Prop := t + meet_words a b <= n.

Definition PR (m da db : Z) (a b : list Z) : Prop :=
  da + meet_bytes (zlen a) (zlen b) <= m /\ db + meet_bytes (zlen b) (zlen a) <= m.
Definition dsize (bs : list (Z * list Z)) : Z := zlen (datas bs).
Lemma bbc_data n : bytes_by_cardinality n = data_bytes n.
Proof. reflexivity. Qed.

Section Chunk.
Variable tbl : Z -> list Z.
Hypothesis Ht : shuffle_table_ok tbl.
Variables (dbg : bool) (mem : list Z).

Lemma ss_intersect_chunk_loop_room end_l end_r base : forall fuel A B l r dl dr out tmp,
  (length A + length B <= fuel)%nat ->
  blocks_at mem l dl A -> blocks_at mem r dr B -> A <> [] -> B <> [] ->
  end_l = l + 2 * zlen A -> end_r = r + 2 * zlen B ->
  0 <= dl -> dl + zlen (datas A) <= zlen mem -> 0 <= dr -> dr + zlen (datas B) <= zlen mem ->
  0 <= base -> base + 65536 <= 4294967296 ->
  0 <= tmp -> tmp <= zlen out ->
  exact_room (fitsg 256 (zlen out) (PB (zlen out)) tmp A B
      /\ readsg dsize (PR (zlen mem)) (dl + dsize A) (dr + dsize B) A B) out tmp
    (ss_intersect_chunk_loop fuel tbl dbg mem l r end_l end_r dl dr base out tmp)
    (fun out' => (out', tmp + zlen (isect (ungroup 256 A) (ungroup 256 B))))
    (map (addb base) (isect (ungroup 256 A) (ungroup 256 B))).
Proof.
  induction fuel as [|f IH]; intros A B l r dl dr out tmp Hf BA BB NA NB El Er Hdl Hml Hdr Hmr Hb0 Hb1 Ht0 Ht1.
  { destruct A; [congruence|]. cbn [length] in Hf. lia. }
  destruct B as [|[j vb] B]; [congruence|]. cbn [ss_intersect_chunk_loop].
  pose proof (blocks_at_cons _ _ _ _ _ _ BB) as (_ & Ej & _).
  assert (LA : (length A <= S (Z.to_nat (end_l - l)))%nat) by (unfold zlen in El; lia).
  pose proof (block_advance_ok mem r j end_l Ej A (S (Z.to_nat (end_l - l))) l dl BA NA El LA Hdl) as H1.
  assert (H256 : 0 < 256) by lia.
  pose proof (blocks_wf mem _ _ _ BA) as WfA. pose proof (blocks_wf mem _ _ _ BB) as WfB.
  rewrite (isect_dropg 256 256 A j vb B H256 WfA WfB).
  eapply exact_iff; [apply and_iff_compat_l; symmetry; apply (readsg_drop_l dsize _ 256 256); auto|].
  eapply exact_iff; [apply and_iff_compat_r; symmetry; apply (fitsg_drop_l 256 256); auto|].
  destruct (dropg_split j A) as (pA & EA & _). destruct (dropg j A) as [|[i va] A'] eqn:EA'.
  { rewrite H1. cbn [bind]. left. split; [split; [apply fitsg_nil_l; auto|apply readsg_nil_l]|].
    exists out. cbn. split; [f_equal; f_equal; lia|]. apply wrote_nil; lia. }
  destruct H1 as (l' & dl' & -> & BA' & El' & Hdl' & EDl). cbn [bind].
  pose proof (blocks_at_cons _ _ _ _ _ _ BA') as (Wi & Ei & Eci & Di & BA2 & Fi).
  assert (LB : (length ((j, vb) :: B) <= S (Z.to_nat (end_r - r)))%nat) by (unfold zlen in Er; lia).
  pose proof (block_advance_ok mem l' i end_r Ei ((j, vb) :: B) (S (Z.to_nat (end_r - r))) r dr BB NB Er LB Hdr) as H2.
  pose proof (blocks_wf mem _ _ _ BA') as WfA'.
  assert (SA' : sorted (ungroup 256 ((i, va) :: A'))) by (apply (sorted_ungroup 256 256); [lia|auto]).
  assert (SB : sorted (ungroup 256 ((j, vb) :: B))) by (apply (sorted_ungroup 256 256); [lia|auto]).
  rewrite (isect_comm (ungroup 256 ((i, va) :: A'))) by auto.
  rewrite (isect_dropg 256 256 _ i va A' H256 WfB WfA').
  eapply exact_iff; [apply and_iff_compat_l; symmetry; apply (readsg_drop_r dsize _ 256 256); auto|].
  eapply exact_iff; [apply and_iff_compat_r; symmetry; apply (fitsg_drop_r 256 256); auto|].
  destruct (dropg_split i ((j, vb) :: B)) as (pB & EB & _).
  destruct (dropg i ((j, vb) :: B)) as [|[j' vb'] B'] eqn:EB'.
  { rewrite H2. cbn [bind]. left. split; [split; [apply fitsg_nil_r; auto|apply readsg_nil_r]|].
    exists out. cbn. split; [f_equal; f_equal; lia|]. apply wrote_nil; lia. }
  destruct H2 as (r' & dr' & -> & BB' & Er' & Hdr' & EDr). cbn [bind].
  pose proof (blocks_at_cons _ _ _ _ _ _ BB') as (Wj & Ej' & Ecj & Dj & BB2 & Fj).
  pose proof (blocks_wf mem _ _ _ BB') as WfB'.
  apply dropg_hd in EB'. cbn [fst] in EB'.
  assert (SB' : sorted (ungroup 256 ((j', vb') :: B'))) by (apply (sorted_ungroup 256 256); [lia|auto]).
  rewrite <- (isect_comm (ungroup 256 ((i, va) :: A'))) by auto.
  rewrite Ei. cbn [bind]. rewrite Ej'. cbn [bind].
  assert (La : length A = (length pA + length ((i, va) :: A'))%nat) by (rewrite EA, app_length; auto).
  assert (Lb : length ((j, vb) :: B) = (length pB + length ((j', vb') :: B'))%nat) by (rewrite EB, app_length; auto).
  cbn [length] in La, Lb, Hf.
  change (dsize A) with (zlen (datas A)). change (dsize ((j, vb) :: B)) with (zlen (datas ((j, vb) :: B))).
  rewrite <- EDl, <- EDr. rewrite <- EDl in Hml. rewrite <- EDr in Hmr.
  change (zlen (datas ((i, va) :: A'))) with (dsize ((i, va) :: A')).
  change (zlen (datas ((j', vb') :: B'))) with (dsize ((j', vb') :: B')).
  destruct (Z.eqb_spec i j') as [E|E].
  - subst j'. rewrite Eci. cbn [bind]. rewrite Ecj. cbn [bind].
    pose proof (blocks_wf1_zlen _ _ Wi) as Hva. pose proof (blocks_wf1_zlen _ _ Wj) as Hvb.
    replace (zlen va - 1 + 1) with (zlen va) by lia. replace (zlen vb' - 1 + 1) with (zlen vb') by lia.
    eapply exact_iff; [apply and_iff_compat_r; symmetry; apply (fitsg_eq 256 256); auto|].
    eapply exact_iff; [apply and_iff_compat_l; symmetry; apply (readsg_eq dsize _ 256 256); auto|].
    rewrite (isect_groups_eq 256 256 H256 i i va vb' A' B') by auto.
    rewrite zlen_app, zlen_ungroup1. cbn [snd].
    replace (dl' + dsize ((i, va) :: A') - dsize ((i, va) :: A')) with dl' by lia.
    replace (dr' + dsize ((i, vb') :: B') - dsize ((i, vb') :: B')) with dr' by lia.
    assert (DA : dsize ((i, va) :: A') = data_bytes (zlen va) + dsize A').
    { unfold dsize. rewrite zlen_datas_cons. cbn [snd]. now rewrite bbc_data. }
    assert (DB : dsize ((i, vb') :: B') = data_bytes (zlen vb') + dsize B').
    { unfold dsize. rewrite zlen_datas_cons. cbn [snd]. now rewrite bbc_data. }
    change (zlen (datas ((i, va) :: A'))) with (dsize ((i, va) :: A')) in Hml.
    change (zlen (datas ((i, vb') :: B'))) with (dsize ((i, vb') :: B')) in Hmr.
    rewrite DA in *. rewrite DB in *. rewrite !Z.add_assoc in *.
    pose proof (zlen_nonneg _ (isect va vb')). pose proof (zlen_nonneg _ (isect (ungroup 256 A') (ungroup 256 B'))).
    assert (0 <= dsize A') by apply zlen_nonneg. assert (0 <= dsize B') by apply zlen_nonneg.
    assert (Hi : 0 <= i < 256) by apply Wi.
    rewrite (u32_id (base + i * 256)) by lia.
    assert (MG : zlen (isect va vb') <= meet_words va vb').
    { destruct Wi as (_ & _ & Si & _), Wj as (_ & _ & Sj & _). cbn [snd] in *. apply meet_words_ge; auto; lia. }
    unfold PR at 1.
    destruct (Z_lt_le_dec (zlen mem) (dl' + meet_bytes (zlen va) (zlen vb'))) as [Q1|Q1].
    { right. split; [lia|]. rewrite intersect_blocks_far; auto; lia. }
    destruct (Z_lt_le_dec (zlen mem) (dr' + meet_bytes (zlen vb') (zlen va))) as [Q2|Q2].
    { right. split; [lia|]. rewrite intersect_blocks_far; auto; lia. }
    pose proof (intersect_blocks_room tbl Ht dbg mem dl' dr' i i va vb' (base + i * 256) out tmp Wi Wj Di Dj Hdl'
      Q1 Hdr' Q2 ltac:(lia) ltac:(lia) Ht0 Ht1) as R.
    unfold room in R. unfold PB at 1. destruct (Z.leb_spec (tmp + meet_words va vb') (zlen out)).
    2: { rewrite R. cbn [bind]. right. split; [lia|auto]. }
    destruct R as (out1 & -> & W1).
    cbn [bind]. pose proof (wrote_zlen _ _ _ _ _ W1) as EL1.
    assert (zlen (isect va vb') <= 256) by (pose proof (zlen_isect_le va vb'); lia).
    rewrite u32_id by lia. rewrite map_app.
    assert (EM : map (addb base) (ungroup1 256 (i, isect va vb')) = map (addb (base + i * 256)) (isect va vb')).
    { unfold ungroup1. cbn [fst snd]. rewrite map_map. apply map_ext. intro x. unfold addb. lia. }
    rewrite EM. rewrite zlen_cons in El', Er'.
    change bytes_by_cardinality with data_bytes.
    assert (0 <= data_bytes (zlen va)) by (unfold data_bytes; destruct (zlen va <? _); lia).
    assert (0 <= data_bytes (zlen vb')) by (unfold data_bytes; destruct (zlen vb' <? _); lia).
    destruct (Z.eqb_spec (l' + 1 + 1) end_l) as [E1|E1]; [|destruct (Z.eqb_spec (r' + 1 + 1) end_r) as [E2|E2]];
      cbn [orb].
    + destruct A' as [|? A']; [|rewrite zlen_cons in El'; zpos; lia].
      left. rewrite fitsg_nil_l. cbn [ungroup flat_map isect filter map]. rewrite zlen_nil.
      split; [split; [lia|split; [lia|apply readsg_nil_l]]|].
      exists out1. split; [f_equal; f_equal; lia|]. now rewrite app_nil_r.
    + destruct B' as [|? B']; [|rewrite zlen_cons in Er'; zpos; lia].
      left. rewrite fitsg_nil_r. cbn [ungroup flat_map]. rewrite isect_nil_r. cbn [map]. rewrite zlen_nil.
      split; [split; [lia|split; [lia|apply readsg_nil_r]]|]. exists out1.
      split; [f_equal; f_equal; lia|]. now rewrite app_nil_r.
    + destruct (IH A' B' (l' + 2) (r' + 2) (dl' + data_bytes (zlen va))
        (dr' + data_bytes (zlen vb')) out1 (tmp + zlen (isect va vb'))) as [((F & G) & out2 & -> & W2)|(NF & ->)];
        auto; try lia.
      * intros ->. rewrite zlen_nil in *. lia.
      * intros ->. rewrite zlen_nil in *. lia.
      * rewrite EL1 in F. left. split; [split; [split; [destruct F; lia|split; [lia|auto]]|split; [lia|auto]]|].
        exists out2. split; [f_equal; f_equal; lia|]. eapply wrote_app; [lia|exact W1|].
        now rewrite zlen_map.
      * rewrite EL1 in NF. right. split; [|reflexivity]. intros ((_ & _ & F) & _ & G). exact (NF (conj F G)).
  - apply IH; auto; try discriminate.
    cbn [length]. destruct pA as [|u pA]; [|cbn [length] in La; lia].
    destruct pB as [|u pB]; [|cbn [length] in Lb; lia].
    cbn [app] in EB. injection EB as <- <- <-. apply dropg_hd in EA'. cbn [fst] in EA'. lia.
Qed.
End Chunk.

(** ** chunks *)
Definition chunk_fits (n t : Z) (a b : list Z) : Prop :=
  match kind_of a, kind_of b with
  | KSparse, KSparse => fitsg 256 n (PB n) t (blocks_of a) (blocks_of b)
  | KSparse, KFull => blocks_need t (blocks_of a) <= n
  | KFull, KSparse => blocks_need t (blocks_of b) <= n
  | _, _ => t + zlen (isect a b) <= n
  end.
(** what is read of two chunks whose data start at [da] and [db] in a memory of [m] bytes *)
Definition CR (m da db : Z) (a b : list Z) : Prop :=
  match kind_of a, kind_of b with
  | KSparse, KSparse => readsg dsize (PR m) (da + zlen (chunk_data a)) (db + zlen (chunk_data b)) (blocks_of a) (blocks_of b)
  | KSparse, KFull => blocks_reach (da + 2 * zlen (blocks_of a)) (blocks_of a) <= m
  | KFull, KSparse => blocks_reach (db + 2 * zlen (blocks_of b)) (blocks_of b) <= m
  | _, _ => True
  end.
Definition csize (cs : list (Z * list Z)) : Z := zlen (cdatas cs).
Lemma sparse_data_len c : kind_of c = KSparse -> zlen (chunk_data c) = 2 * zlen (blocks_of c) + dsize (blocks_of c).
Proof. intro K. unfold chunk_data. rewrite K. unfold sparse_data, dsize. now rewrite zlen_app, zlen_hdrs. Qed.

Lemma decode_sparse_chunk_room dbg mem it id c cs base out pos :
  it_view 0 mem it ((id, c) :: cs) -> kind_of c = KSparse ->
  0 <= base -> base + 65536 <= 4294967296 -> 0 <= pos -> pos <= zlen out ->
  exact_room (blocks_need pos (blocks_of c) <= zlen out
      /\ blocks_reach (i_data it + 2 * zlen (blocks_of c)) (blocks_of c) <= zlen mem) out pos
    (decode_sparse_chunk dbg mem (i_data it) (zlen (blocks_of c)) base out pos)
    (fun out' => (out', zlen c)) (map (addb base) c).
Proof.
  intros V K Hb0 Hb1 Hp Hp'. pose proof (view_wf _ _ _ _ _ V) as W. pose proof (chunk_card _ _ W) as Hc.
  destruct (view_sparse _ _ _ _ _ _ V K) as (B & Hn & Hd & Hm).
  unfold decode_sparse_chunk, exact_room.
  rewrite assert_ok by (apply andb_true_intro; split; apply Z.leb_le; lia). cbn [bind].
  replace (i_data it + zlen (blocks_of c) * 2) with (i_data it + 2 * zlen (blocks_of c)) by lia.
  pose proof (decode_blocks_reach mem (i_data it + 2 * zlen (blocks_of c)) base (blocks_of c)
    (S (Z.to_nat (zlen (blocks_of c)))) (i_data it) (i_data it + 2 * zlen (blocks_of c)) out pos
    ltac:(rewrite length_zlen; lia) B eq_refl ltac:(lia) ltac:(lia) Hb0 Hb1 Hp Hp') as R. cbn zeta in R.
  destruct (Z.leb_spec (blocks_need pos (blocks_of c)) (zlen out)),
    (Z.leb_spec (blocks_reach (i_data it + 2 * zlen (blocks_of c)) (blocks_of c)) (zlen mem)); cbn [andb] in R.
  2-4: right; split; [lia|now rewrite R].
  left. split; auto. destruct R as (out' & -> & WR). cbn [bind]. rewrite blocks_ungroup in *. exists out'.
  replace (pos + zlen c - pos) with (zlen c) by lia. rewrite u32_id by lia. auto.
Qed.
Lemma decode_dense_chunk_room mem it id c cs base out pos :
  it_view 0 mem it ((id, c) :: cs) -> kind_of c = KDense ->
  0 <= base -> base + 65536 <= 4294967296 -> 0 <= pos -> pos <= zlen out ->
  room (pos + zlen c) out pos
    (decode_bitmap (words_mem mem (i_data it)) M_Util.chunk_size_in_64bit_words base out pos)
    (fun out' => (out', zlen c)) (map (addb base) c).
Proof.
  intros V K Hb0 Hb1 Hp Hp'. pose proof (view_wf _ _ _ _ _ V) as (_ & Hne & Hs & Hr). cbn [snd] in *.
  pose proof (view_dense _ _ _ _ _ _ V K) as B.
  change M_Util.chunk_size_in_64bit_words with (Z.of_nat (Z.to_nat 1024)). unfold room.
  destruct (Z.leb_spec (pos + zlen c) (zlen out)).
  - destruct (decode_bitmap_ok (words_mem mem (i_data it)) (Z.to_nat 1024) c base out pos)
      as (out' & E & W); rewrite ?Z2Nat.id in * by lia; auto; try lia.
    exists out'. split; auto. eapply wrote_weaken; eauto. lia.
  - apply decode_bitmap_short with (vs := c); rewrite ?Z2Nat.id by lia; auto.
Qed.
Lemma decode_full_chunk_room id c base out pos :
  wfc1 (id, c) -> kind_of c = KFull ->
  0 <= base -> base + 65536 <= 4294967296 -> 0 <= pos -> pos <= zlen out ->
  room (pos + zlen c) out pos (decode_full_chunk base out pos) (fun out' => (out', zlen c)) (map (addb base) c).
Proof.
  intros W K Hb0 Hb1 Hp Hp'. unfold decode_full_chunk, room.
  pose proof (kind_full _ _ W K) as EC.
  assert (LC : zlen c = 65536) by (rewrite EC, zlen_zrange; lia).
  change M_Util.chunk_size with 65536. destruct (Z.leb_spec (pos + zlen c) (zlen out)).
  - destruct (decode_full_loop_ok (Z.to_nat 65536) 0 base out pos) as (out' & -> & W'); try lia.
    cbn [bind]. exists out'. rewrite LC. split; auto. rewrite Z.add_0_r in W'. rewrite EC.
    eapply wrote_weaken; eauto. lia.
  - rewrite decode_full_short by lia. reflexivity.
Qed.
Lemma and_chunk_room l r a b base out pos :
  bm_at l 1024 (memb a) -> bm_at r 1024 (memb b) -> sorted a -> sorted b ->
  Forall (fun x => 0 <= x < 65536) a -> Forall (fun x => 0 <= x < 65536) b ->
  0 <= base -> base + 65536 <= 4294967296 -> 0 <= pos -> pos <= zlen out ->
  room (pos + zlen (isect a b)) out pos (and_bitmaps l r M_Util.chunk_size_in_64bit_words base out pos)
    (fun out' => (out', zlen (isect a b))) (map (addb base) (isect a b)).
Proof.
  intros Ba Bb Sa Sb Ra Rb Hb0 Hb1 Hp Hp'.
  change M_Util.chunk_size_in_64bit_words with (Z.of_nat (Z.to_nat 1024)). unfold room.
  destruct (Z.leb_spec (pos + zlen (isect a b)) (zlen out)).
  - destruct (and_bitmaps_ok l r (Z.to_nat 1024) a b base out pos)
      as (out' & E & W); rewrite ?Z2Nat.id in * by lia; auto; try lia.
    exists out'. split; auto. eapply wrote_weaken; eauto. lia.
  - apply and_bitmaps_short with (a := a) (b := b); rewrite ?Z2Nat.id by lia; auto.
Qed.

Section Chunks.
Variable tbl : Z -> list Z.
Hypothesis Ht : shuffle_table_ok tbl.
Variables (dbg : bool) (mem : list Z).

Lemma ss_intersect_chunk_room itl itr il ir a b A B base out pos :
  it_view 0 mem itl ((il, a) :: A) -> it_view 0 mem itr ((ir, b) :: B) ->
  kind_of a = KSparse -> kind_of b = KSparse ->
  0 <= base -> base + 65536 <= 4294967296 -> 0 <= pos -> pos <= zlen out ->
  exact_room (fitsg 256 (zlen out) (PB (zlen out)) pos (blocks_of a) (blocks_of b)
      /\ readsg dsize (PR (zlen mem)) (i_data itl + zlen (chunk_data a)) (i_data itr + zlen (chunk_data b))
           (blocks_of a) (blocks_of b)) out pos
    (ss_intersect_chunk tbl dbg mem (i_data itl) (i_data itr) (zlen (blocks_of a)) (zlen (blocks_of b)) base out pos)
    (fun out' => (out', zlen (isect a b))) (map (addb base) (isect a b)).
Proof.
  intros Va Vb Ka Kb Hb0 Hb1 Hp Hp'.
  destruct (view_sparse _ _ _ _ _ _ Va Ka) as (BA & Hna & Hda & Hma).
  destruct (view_sparse _ _ _ _ _ _ Vb Kb) as (BB & Hnb & Hdb & Hmb).
  unfold ss_intersect_chunk.
  rewrite assert_ok by (apply andb_true_intro; split; apply Z.leb_le; lia). cbn [bind].
  rewrite assert_ok by (apply andb_true_intro; split; apply Z.leb_le; lia). cbn [bind].
  rewrite !(Z.mul_comm _ 2).
  pose proof (ss_intersect_chunk_loop_room tbl Ht dbg mem
    (i_data itl + 2 * zlen (blocks_of a)) (i_data itr + 2 * zlen (blocks_of b)) base
    (S (Z.to_nat (zlen (blocks_of a) + zlen (blocks_of b)))) (blocks_of a) (blocks_of b)
    (i_data itl) (i_data itr) (i_data itl + 2 * zlen (blocks_of a)) (i_data itr + 2 * zlen (blocks_of b)) out pos) as L.
  rewrite !blocks_ungroup in L. rewrite !sparse_data_len, !Z.add_assoc by auto.
  destruct L as [(F & out' & -> & W)|(F & ->)]; auto; try lia.
  { unfold zlen. lia. }
  { intro E. rewrite E, zlen_nil in *. lia. }
  { intro E. rewrite E, zlen_nil in *. lia. }
  - left. split; auto. cbn [bind]. exists out'. split; auto. f_equal; f_equal; lia.
  - right. auto.
Qed.

Lemma ds_intersect_chunk_room itl itr il ir a b A B base x out pos :
  it_view 0 mem itl ((il, a) :: A) -> it_view 0 mem itr ((ir, b) :: B) ->
  kind_of a = KDense -> kind_of b = KSparse -> zlen x = 1024 ->
  0 <= base -> base + 65536 <= 4294967296 -> 0 <= pos -> pos <= zlen out ->
  exists x', zlen x' = 1024 /\
  room (pos + zlen (isect a b)) out pos
    (ds_intersect_chunk dbg mem (i_data itl) (i_data itr) (zlen (blocks_of b)) base x out pos)
    (fun out' => (x', out', zlen (isect a b))) (map (addb base) (isect a b)).
Proof.
  intros Va Vb Ka Kb Hx Hb0 Hb1 Hp Hp'. unfold ds_intersect_chunk, room.
  destruct (uncompress_sparse_chunk_ok dbg mem 0 itr ir b B (repeat 0 (length x)) 0) as (x' & -> & Bx & Sx); auto; try lia.
  { rewrite zlen_repeat. unfold zlen in Hx. lia. }
  { apply bm_zeros; [lia|]. unfold zlen in Hx. lia. }
  cbn [bind].
  pose proof (view_wf _ _ _ _ _ Va) as (_ & _ & Sa & Ra). pose proof (view_wf _ _ _ _ _ Vb) as (_ & _ & Sb & Rb).
  cbn [snd] in *.
  exists x'. split; [destruct Sx as [Sx _]; rewrite Sx, zlen_repeat; exact Hx|].
  pose proof (and_chunk_room (words_mem mem (i_data itl)) (words_vec x') a b base out pos) as R. unfold room in R.
  specialize (R ltac:(eapply view_dense; eauto) Bx Sa Sb Ra Rb Hb0 Hb1 Hp Hp').
  destruct (Z.leb_spec (pos + zlen (isect a b)) (zlen out)).
  - destruct R as (out' & E & W). rewrite E. cbn [bind]. exists out'. auto.
  - now rewrite R.
Qed.

Lemma intersect_chunks_room itl itr il ir a b A B base x out pos :
  it_view 0 mem itl ((il, a) :: A) -> it_view 0 mem itr ((ir, b) :: B) -> zlen x = 1024 ->
  0 <= base -> base + 65536 <= 4294967296 -> 0 <= pos -> pos <= zlen out ->
  exists x', zlen x' = 1024 /\
  exact_room (chunk_fits (zlen out) pos a b /\ CR (zlen mem) (i_data itl) (i_data itr) a b) out pos (intersect_chunks tbl dbg mem itl itr base x out pos)
    (fun out' => (x', out', zlen (isect a b))) (map (addb base) (isect a b)).
Proof.
  intros Va Vb Hx Hb0 Hb1 Hp Hp'.
  pose proof (view_wf _ _ _ _ _ Va) as Wa. pose proof (view_wf _ _ _ _ _ Vb) as Wb.
  pose proof Wa as (_ & _ & Sa & Ra). pose proof Wb as (_ & _ & Sb & Rb). cbn [snd] in *.
  unfold intersect_chunks, chunk_fits, CR.
  rewrite (id_view_type _ _ _ _ _ (proj1 Va)), (id_view_type _ _ _ _ _ (proj1 Vb)). cbn [bind].
  assert (KEEP : forall F (y : res (list Z * Z)) e,
    exact_room F out pos y (fun out' => (out', zlen e)) (map (addb base) e) ->
    exists x', zlen x' = 1024 /\ exact_room F out pos
      (let! p := y in let '(out, n) := p in Ok (x, out, n)) (fun out' => (x', out', zlen e)) (map (addb base) e)).
  { intros F y e [(H & out' & -> & W)|(H & ->)]; exists x; split; auto; [left|right]; split; auto.
    cbn [bind]. eauto. }
  assert (ROOM : forall need (r : res (list Z * list Z * Z)) e, (exists x', zlen x' = 1024 /\
      room need out pos r (fun out' => (x', out', zlen e)) (map (addb base) e)) ->
    exists x', zlen x' = 1024 /\ exact_room (need <= zlen out /\ True) out pos r (fun out' => (x', out', zlen e)) (map (addb base) e)).
  { intros need r e (x' & H1 & H2). exists x'. split; auto. eapply exact_iff; [|apply room_exact, H2]. tauto. }
  assert (RT : forall need (r : res (list Z * Z)) e,
      room need out pos r (fun out' => (out', zlen e)) (map (addb base) e) ->
      exact_room (need <= zlen out /\ True) out pos r (fun out' => (out', zlen e)) (map (addb base) e)).
  { intros need r e H2. eapply exact_iff; [|apply room_exact, H2]. tauto. }
  destruct (kind_of a) eqn:Ka; destruct (kind_of b) eqn:Kb;
    repeat match goal with |- context [chunk_pair ?x ?y =? chunk_pair ?z ?w] =>
      let v := eval vm_compute in (chunk_pair x y =? chunk_pair z w) in
      replace (chunk_pair x y =? chunk_pair z w) with v by reflexivity end; cbv iota.
  - (* sparse, sparse *)
    rewrite (id_view_blocks _ _ _ _ _ (proj1 Va) Ka), (id_view_blocks _ _ _ _ _ (proj1 Vb) Kb). cbn [bind].
    destruct (zlen (blocks_of a) <? zlen (blocks_of b)).
    + apply KEEP. eapply ss_intersect_chunk_room; eauto.
    + rewrite (isect_comm a b) in * by auto. apply KEEP.
      eapply exact_iff; [|eapply ss_intersect_chunk_room; eauto].
      rewrite readsg_comm. unfold PR at 1 2. 
      assert (X : forall P Q R S : Prop, (P <-> Q) -> (R <-> S) -> (P /\ R <-> Q /\ S)) by tauto. apply X; clear X.
      2: { unfold readsg. split; intros H' pa id va sa pb vb sb EA EB; specialize (H' pa id va sa pb vb sb EA EB);
           cbn beta in *; tauto. }
      pose proof (Layout.blocks_wf _ _ Wa) as WBa. pose proof (Layout.blocks_wf _ _ Wb) as WBb.
      apply (fitsg_comm 256 256 _ _ ltac:(lia)); auto.
      intros s id va vb Ia Ib. unfold PB. rewrite meet_words_comm; [reflexivity| |].
      * destruct WBb as [_ F]. rewrite Forall_forall in F. apply (F _ Ia).
      * destruct WBa as [_ F]. rewrite Forall_forall in F. apply (F _ Ib).
  - (* sparse, dense *)
    rewrite (id_view_blocks _ _ _ _ _ (proj1 Va) Ka). cbn [bind].
    rewrite (isect_comm a b) in * by auto. apply ROOM. eapply ds_intersect_chunk_room; eauto.
  - (* sparse, full *)
    rewrite (id_view_blocks _ _ _ _ _ (proj1 Va) Ka). cbn [bind].
    rewrite (isect_full_r ir a b) in * by auto. apply KEEP. eapply decode_sparse_chunk_room; eauto.
  - (* dense, sparse *)
    rewrite (id_view_blocks _ _ _ _ _ (proj1 Vb) Kb). cbn [bind].
    apply ROOM. eapply ds_intersect_chunk_room; eauto.
  - (* dense, dense *)
    apply KEEP, RT. apply and_chunk_room; auto; eapply view_dense; eauto.
  - (* dense, full *)
    rewrite (isect_full_r ir a b) in * by auto. apply KEEP, RT. eapply decode_dense_chunk_room; eauto.
  - (* full, sparse *)
    rewrite (id_view_blocks _ _ _ _ _ (proj1 Vb) Kb). cbn [bind].
    rewrite (isect_comm a b) in * by auto.
    rewrite (isect_full_r il b a) in * by auto. apply KEEP. eapply decode_sparse_chunk_room; eauto.
  - (* full, dense *)
    rewrite (isect_comm a b) in * by auto.
    rewrite (isect_full_r il b a) in * by auto. apply KEEP, RT. eapply decode_dense_chunk_room; eauto.
  - (* full, full *)
    rewrite (isect_full_r ir a b) in * by auto. apply KEEP, RT. eapply decode_full_chunk_room; eauto.
Qed.

Lemma chunk_fits_ge n t ia ib a b : wfc1 (ia, a) -> wfc1 (ib, b) -> chunk_fits n t a b -> t + zlen (isect a b) <= n.
Proof.
  intros Wa Wb. unfold chunk_fits. destruct (kind_of a) eqn:Ka, (kind_of b) eqn:Kb; auto.
  - intros [H _]. now rewrite !blocks_ungroup in H.
  - intro H. pose proof (blocks_need_ge (blocks_of a) t) as G. rewrite <- (sum_card_ungroup 256), blocks_ungroup in G.
    pose proof (zlen_isect_le a b). lia.
  - intro H. pose proof (blocks_need_ge (blocks_of b) t) as G. rewrite <- (sum_card_ungroup 256), blocks_ungroup in G.
    destruct Wa as (_ & _ & Sa & _), Wb as (_ & _ & Sb & _). cbn [snd] in *.
    rewrite (isect_comm a b) by auto. pose proof (zlen_isect_le b a). lia.
Qed.

Lemma it_advance_end it cs lb :
  it_view 0 mem it cs -> lb <= 65536 ->
  exists it' pre suf, it_advance mem it lb = Ok it' /\ dropped lb cs pre suf /\ it_view 0 mem it' suf
    /\ i_data it' + csize suf = i_data it + csize cs.
Proof.
  intros V Hlb. destruct (it_advance_id mem it cs lb) as (it' & pre & suf & E & D & V' & B & P & T & N);
    auto. { apply V. }
  exists it', pre, suf. split; auto. split; auto. destruct D as (-> & _).
  split; [eapply view_sub; eauto|]. rewrite T. unfold csize. rewrite cdatas_app. lia.
Qed.

Lemma pairwise_intersection_loop_room : forall fuel A B itl itr x out pos,
  (length A + length B <= fuel)%nat ->
  it_view 0 mem itl A -> it_view 0 mem itr B -> zlen x = 1024 ->
  0 <= pos -> pos <= zlen out ->
  exists x', zlen x' = 1024 /\
  exact_room (fitsg 65536 (zlen out) (chunk_fits (zlen out)) pos A B
      /\ readsg csize (CR (zlen mem)) (i_data itl + csize A) (i_data itr + csize B) A B) out pos
    (pairwise_intersection_loop fuel tbl dbg mem itl itr x out pos)
    (fun out' => (x', out', pos + zlen (isect (ungroup 65536 A) (ungroup 65536 B))))
    (isect (ungroup 65536 A) (ungroup 65536 B)).
Proof.
  assert (Hk : 0 < 65536) by lia.
  induction fuel as [|f IH]; intros A B itl itr x out pos Hf Va Vb Hx Hp Hp'; cbn [pairwise_intersection_loop];
    rewrite (id_view_has_next _ _ _ (proj1 Va)), (id_view_has_next _ _ _ (proj1 Vb)).
  all: destruct A as [|[i a] A]; [exists x; split; auto; left; split;
    [split; [apply fitsg_nil_l; auto|apply readsg_nil_l]|];
    exists out; cbn; split; [f_equal; f_equal; lia|]; apply wrote_nil; lia|].
  all: destruct B as [|[j b] B]; [cbn [andb]; exists x; split; auto; left; split;
    [split; [apply fitsg_nil_r; auto|apply readsg_nil_r]|];
    cbn [ungroup flat_map]; rewrite isect_nil_r; exists out; split;
    [f_equal; f_equal; rewrite zlen_nil; lia|]; apply wrote_nil; lia|].
  { cbn [length] in Hf. lia. }
  cbn [andb]. pose proof (proj1 (proj1 Va)) as WA. pose proof (proj1 (proj1 Vb)) as WB.
  destruct (chunk_base _ _ _ _ _ (proj1 Va)) as (Ei & Ebi & Hi).
  destruct (chunk_base _ _ _ _ _ (proj1 Vb)) as (Ej & Ebj & Hj).
  rewrite Ei, Ej. cbn [bind]. rewrite !u16_id by lia. cbn [length] in Hf.
  destruct (Z.eqb_spec i j) as [E|E].
  - subst j. rewrite Ebi.
    rewrite (isect_groups_eq 65536 65535 Hk i i a b A B) by auto.
    rewrite zlen_app, zlen_ungroup1. cbn [snd].
    pose proof (zlen_nonneg _ (isect a b)). pose proof (zlen_nonneg _ (isect (ungroup 65536 A) (ungroup 65536 B))).
    assert (GE : chunk_fits (zlen out) pos a b -> pos + zlen (isect a b) <= zlen out).
    { eapply chunk_fits_ge; eapply view_wf; eauto. }
    assert (FI : (fitsg 65536 (zlen out) (chunk_fits (zlen out)) pos ((i, a) :: A) ((i, b) :: B)
         /\ readsg csize (CR (zlen mem)) (i_data itl + csize ((i, a) :: A)) (i_data itr + csize ((i, b) :: B))
              ((i, a) :: A) ((i, b) :: B)) <->
      ((pos + zlen (isect a b) + zlen (isect (ungroup 65536 A) (ungroup 65536 B)) <= zlen out
        /\ chunk_fits (zlen out) pos a b
        /\ fitsg 65536 (zlen out) (chunk_fits (zlen out)) (pos + zlen (isect a b)) A B)
       /\ (CR (zlen mem) (i_data itl) (i_data itr) a b
         /\ readsg csize (CR (zlen mem)) (i_data itl + csize ((i, a) :: A)) (i_data itr + csize ((i, b) :: B)) A B))).
    { rewrite (fitsg_eq 65536 65535), (readsg_eq csize _ 65536 65535) by auto.
      replace (i_data itl + csize ((i, a) :: A) - csize ((i, a) :: A)) with (i_data itl) by lia.
      replace (i_data itr + csize ((i, b) :: B) - csize ((i, b) :: B)) with (i_data itr) by lia. tauto. }
    destruct (intersect_chunks_room itl itr i i a b A B (i * 65536) x out pos)
      as (x1 & Hx1 & [((F & G) & out1 & -> & W1)|(NF & ->)]); auto; try lia.
    2: { exists x. split; auto. right. split; [rewrite FI; tauto|reflexivity]. }
    cbn [bind]. pose proof (wrote_zlen _ _ _ _ _ W1) as EL1.
    destruct (view_next _ _ _ _ _ _ Va) as (itl1 & -> & Va1 & _ & _ & Dl & _). cbn [bind].
    destruct (view_next _ _ _ _ _ _ Vb) as (itr1 & -> & Vb1 & _ & _ & Dr & _). cbn [bind].
    pose proof (chunk_card _ _ (view_wf _ _ _ _ _ Va)). pose proof (zlen_isect_le a b).
    specialize (GE F).
    rewrite u32_id by lia.
    assert (EA : i_data itl1 + csize A = i_data itl + csize ((i, a) :: A)).
    { rewrite Dl. unfold csize. rewrite zlen_cdatas_cons. lia. }
    assert (EB : i_data itr1 + csize B = i_data itr + csize ((i, b) :: B)).
    { rewrite Dr. unfold csize. rewrite zlen_cdatas_cons. lia. }
    destruct (IH A B itl1 itr1 x1 out1 (pos + zlen (isect a b))) as (x2 & Hx2 & Q); auto; try lia.
    rewrite EL1, EA, EB in Q. exists x2. split; auto.
    destruct Q as [((F2 & G2) & out2 & -> & W2)|(NF & ->)].
    + left. split; [rewrite FI; split; [split; [destruct F2; lia|split; auto]|split; auto]|].
      exists out2. split; [f_equal; f_equal; lia|].
      eapply wrote_app; [lia|exact W1|]. now rewrite zlen_ungroup1.
    + right. split; auto. rewrite FI. tauto.
  - destruct (Z.ltb_spec i j).
    + destruct (it_advance_end itl ((i, a) :: A) j Va) as (itl1 & pre & suf & -> & D & Va1 & EN); [lia|].
      cbn [bind]. pose proof (dropped_dropg _ _ _ _ D) as Es.
      rewrite (isect_dropg 65536 65535 ((i, a) :: A) j b B Hk WA WB). rewrite <- Es.
      destruct (IH suf ((j, b) :: B) itl1 itr x out pos) as (x' & Hx' & R); auto.
      * destruct D as (D & F & G). apply (f_equal (@length _)) in D. rewrite app_length in D.
        cbn [length] in *. destruct pre as [|? pre]; [|cbn [length] in D; lia].
        exfalso. destruct suf as [|? suf]; [discriminate|]. cbn [dropg fst] in Es.
        destruct (Z.ltb_spec i j); [|lia]. clear IH. 
        assert (Ls : (length (dropg j A) <= length A)%nat).
        { destruct (dropg_split j A) as (pp & Ep & _). rewrite Ep at 2. rewrite app_length. lia. }
        rewrite <- Es in Ls. cbn [length] in *. lia.
      * exists x'. split; auto. rewrite EN in R.
        eapply exact_iff; [apply and_iff_compat_l; symmetry; apply (readsg_drop_l csize _ 65536 65535); auto|].
        eapply exact_iff; [apply and_iff_compat_r; symmetry; apply (fitsg_drop_l 65536 65535); auto|]. rewrite <- Es. exact R.
    + destruct (it_advance_end itr ((j, b) :: B) i Vb) as (itr1 & pre & suf & -> & D & Vb1 & EN); [lia|].
      cbn [bind]. pose proof (dropped_dropg _ _ _ _ D) as Es.
      assert (SA : sorted (ungroup 65536 ((i, a) :: A))) by (apply (sorted_ungroup 65536 65535); auto).
      assert (SB : sorted (ungroup 65536 ((j, b) :: B))) by (apply (sorted_ungroup 65536 65535); auto).
      assert (SB1 : sorted (ungroup 65536 suf)) by (apply (sorted_ungroup 65536 65535); auto; apply Vb1).
      rewrite (isect_comm (ungroup 65536 ((i, a) :: A))) by auto.
      rewrite (isect_dropg 65536 65535 ((j, b) :: B) i a A Hk WB WA). rewrite <- Es.
      rewrite <- (isect_comm (ungroup 65536 ((i, a) :: A))) by auto.
      destruct (IH ((i, a) :: A) suf itl itr1 x out pos) as (x' & Hx' & R); auto.
      * destruct D as (D & F & G). apply (f_equal (@length _)) in D. rewrite app_length in D.
        cbn [length] in *. destruct pre as [|? pre]; [|cbn [length] in D; lia].
        exfalso. destruct suf as [|? suf]; [discriminate|]. cbn [dropg fst] in Es.
        destruct (Z.ltb_spec j i); [|lia]. clear IH.
        assert (Ls : (length (dropg i B) <= length B)%nat).
        { destruct (dropg_split i B) as (pp & Ep & _). rewrite Ep at 2. rewrite app_length. lia. }
        rewrite <- Es in Ls. cbn [length] in *. lia.
      * exists x'. split; auto. rewrite EN in R.
        eapply exact_iff; [apply and_iff_compat_l; symmetry; apply (readsg_drop_r csize _ 65536 65535); auto|].
        eapply exact_iff; [apply and_iff_compat_r; symmetry; apply (fitsg_drop_r 65536 65535); auto|]. rewrite <- Es. exact R.
Qed.
End Chunks.

(** ** the requirement in terms of the lists *)
Lemma below_part k V h x : 0 < k -> 0 <= x <= k -> below V (k * h + x) = below V (k * h) + below (part k V h) x.
Proof.
  intros Hk Hx. induction V as [|v V IH]; auto. rewrite part_cons.
  assert (C : forall y l z, below (y :: l) z = (if y <? z then 1 else 0) + below l z).
  { intros. unfold below. cbn [filter]. destruct (_ <? _); [rewrite zlen_cons|]; lia. }
  rewrite !(C v V), IH. pose proof (Z.div_mod v k ltac:(lia)) as E. pose proof (Z.mod_pos_bound v k Hk).
  destruct (Z.eqb_spec (v / k) h) as [Q|Q].
  - rewrite C. destruct (Z.ltb_spec v (k * h + x)), (Z.ltb_spec v (k * h)), (Z.ltb_spec (v mod k) x); lia.
  - destruct (Z_lt_le_dec (v / k) h).
    + assert (v < k * h) by nia. destruct (Z.ltb_spec v (k * h + x)), (Z.ltb_spec v (k * h)); lia.
    + assert (k * (h + 1) <= v) by nia. destruct (Z.ltb_spec v (k * h + x)), (Z.ltb_spec v (k * h)); lia.
Qed.
Lemma In_part k V h x : 0 < k -> (In x (part k V h) <-> 0 <= x < k /\ In (k * h + x) V).
Proof.
  intro Hk. unfold part. rewrite in_map_iff. split.
  - intros (v & E & I). apply filter_In in I as [I Q]. apply Z.eqb_eq in Q.
    pose proof (Z.mod_pos_bound v k Hk). pose proof (Z.div_mod v k ltac:(lia)).
    split; [lia|]. now replace (k * h + x) with v by nia.
  - intros (Hx & I). exists (k * h + x). split.
    + rewrite Z.mul_comm, Z.add_comm, Z.mod_add by lia. now apply Z.mod_small.
    + apply filter_In. split; auto. apply Z.eqb_eq. rewrite Z.mul_comm, Z.div_add_l, Z.div_small by lia. lia.
Qed.
Lemma part_isect k S T h : 0 < k -> part k (isect S T) h = isect (part k S h) (part k T h).
Proof.
  intro Hk. induction S as [|v S IH]; auto. rewrite part_cons. unfold isect in *. cbn [filter].
  destruct (Z.eqb_spec (v / k) h) as [Q|Q].
  - cbn [filter]. assert (E : memb (part k T h) (v mod k) = memb T v).
    { apply memb_iff. rewrite In_part by auto. pose proof (Z.mod_pos_bound v k Hk).
      replace (k * h + v mod k) with v by (pose proof (Z.div_mod v k ltac:(lia)); nia). tauto. }
    rewrite E. destruct (memb T v); [|exact IH]. rewrite part_cons. destruct (Z.eqb_spec (v / k) h); [|lia].
    now f_equal.
  - destruct (memb T v); [|exact IH]. rewrite part_cons. destruct (Z.eqb_spec (v / k) h); [lia|exact IH].
Qed.
Lemma part_sub S h b : 0 <= b < 256 -> part 256 (part 65536 S h) b = part 256 S (256 * h + b).
Proof.
  intro Hb. induction S as [|v S IH]; auto. rewrite part_cons, (part_cons _ v S), sub_block by auto.
  destruct (v / 65536 =? h); cbn [andb]; auto. rewrite part_cons.
  destruct (v mod 65536 / 256 =? b); rewrite IH; auto. f_equal.
  change 65536 with (256 * 256). rewrite Z.rem_mul_r by lia. rewrite Z.mul_comm, Z.mod_add by lia. apply Z.mod_mod. lia.
Qed.
Lemma below_le V x y : x <= y -> below V x <= below V y.
Proof.
  intro H. induction V as [|v V IH]; [unfold below; cbn; lia|]. unfold below in *. cbn [filter].
  destruct (Z.ltb_spec v x), (Z.ltb_spec v y); rewrite ?zlen_cons; lia.
Qed.
Lemma below_le_zlen V x : below V x <= zlen V.
Proof. apply zlen_filter_le. Qed.
Lemma below_part_all k V h : 0 < k -> below (part k V h) k = zlen (part k V h).
Proof. intro Hk. apply below_all, Forall_forall. intros x Hx. apply In_part in Hx; lia. Qed.

Lemma blocks_need_below n lim : forall bs t, wf 256 lim bs ->
  blocks_need t bs <= n <->
  t + zlen (ungroup 256 bs) <= n
  /\ forall id vs, In (id, vs) bs -> t + below (ungroup 256 bs) (id * 256) + bneed (zlen vs) <= n.
Proof.
  intros bs t W. rewrite blocks_need_iff, sum_card_ungroup. apply and_iff_compat_l.
  assert (E : forall pre id vs suf, bs = pre ++ (id, vs) :: suf -> below (ungroup 256 bs) (id * 256) = sum_card pre).
  { intros pre id vs suf ->. rewrite ungroup_app, below_split, sum_card_ungroup; auto.
    - pose proof (ungroup_lt _ _ _ _ W ltac:(lia) (id, vs) (or_introl eq_refl)) as F. exact F.
    - apply wf_app in W as [_ W]. exact (ungroup_ge _ _ _ _ W ltac:(lia)). }
  split; intro H.
  - intros id vs I. destruct (in_split _ _ I) as (pre & suf & Eb). rewrite (E _ _ _ _ Eb). eapply H; eauto.
  - intros pre id vs suf Eb. rewrite <- (E _ _ _ _ Eb). apply H. rewrite Eb. apply in_app_iff. right. now left.
Qed.

(** the blocks of a chunk *)
Lemma block_of S h c b vs : valid S -> In (h, c) (chunks_of S) -> In (b, vs) (blocks_of c) ->
  vs = part 256 S (256 * h + b) /\ 0 <= b < 256 /\ 1 <= zlen vs /\ sorted vs.
Proof.
  intros V HI HB. destruct (part_of S h c V HI) as [Ep Wc]. pose proof (Layout.blocks_wf h c Wc) as Wb.
  assert (Wv : wfb1 (b, vs)). { destruct Wb as [_ Wb]. rewrite Forall_forall in Wb. now apply Wb. }
  pose proof (blocks_wf1_zlen _ _ Wv) as Hz. assert (Hb : 0 <= b < 256) by apply Wv.
  split; [|split; [auto|split; [lia|apply Wv]]].
  rewrite (blocks_format h c Wc) in HB. apply in_map_iff in HB as (b' & E & _). injection E as -> <-.
  rewrite Ep. now apply part_sub.
Qed.
Lemma full_card S h c : valid S -> In (h, c) (chunks_of S) -> (kind_of c = KFull <-> card 65536 S h = 65536).
Proof.
  intros V HI. destruct (part_of S h c V HI) as [Ep Wc]. rewrite <- card_part, <- Ep. split; intro H.
  - rewrite (kind_full _ _ Wc H), zlen_zrange. lia.
  - unfold kind_of. rewrite H. reflexivity.
Qed.
Lemma find_chunk S h : valid S -> 0 < card 65536 S h -> exists c, In (h, c) (chunks_of S).
Proof.
  intros V C. unfold card in C.
  destruct (filter (fun v => v / 65536 =? h) S) as [|v l] eqn:F; [rewrite zlen_nil in C; lia|].
  assert (I : In v (filter (fun v => v / 65536 =? h) S)) by (rewrite F; now left).
  apply filter_In in I as [I E]. apply Z.eqb_eq in E.
  destruct (valid_chunks S V) as (W & _ & EU & _). rewrite <- EU in I.
  pose proof (In_ungroup_id 65536 65535 _ v ltac:(lia) W I) as J. apply in_map_iff in J as ([h' c] & E1 & J).
  cbn [fst] in E1. exists c. now replace h with h' by lia.
Qed.
Lemma find_block' S b : valid S -> as_blocks S (b / 256) = true -> 0 < card 256 S b ->
  exists c, In (b / 256, c) (chunks_of S) /\ kind_of c = KSparse /\ In (b mod 256, part 256 S b) (blocks_of c).
Proof.
  intros V A C. destruct (find_block S b V A C) as (pre & c & suf & bpre & vs & bsuf & EC & K & EB).
  assert (HI : In (b / 256, c) (chunks_of S)) by (rewrite EC; apply in_app_iff; right; now left).
  assert (HB : In (b mod 256, vs) (blocks_of c)) by (rewrite EB; apply in_app_iff; right; now left).
  exists c. split; auto. split; auto. destruct (block_of S _ c _ vs V HI HB) as (E & _).
  replace (256 * (b / 256) + b mod 256) with b in E by (pose proof (Z.div_mod b 256); lia). now rewrite <- E.
Qed.
Lemma decode_words_bneed n : decode_words n = bneed n.
Proof. reflexivity. Qed.

Lemma meet_fits_iff S T n t : valid S -> valid T ->
  (meet_fits S T (n - t) <-> fitsg 65536 n (chunk_fits n) t (chunks_of S) (chunks_of T)).
Proof.
  intros VS VT. destruct (valid_chunks S VS) as (_ & _ & US & _). destruct (valid_chunks T VT) as (_ & _ & UT & _).
  unfold meet_fits, fitsg. rewrite US, UT. change (meet S T) with (isect S T). set (I := isect S T).
  assert (BI : forall h x, 0 <= x <= 65536 ->
    below I (65536 * h + x) = below I (h * 65536) + below (isect (part 65536 S h) (part 65536 T h)) x).
  { intros h x Hx. unfold I. rewrite below_part, part_isect by lia. now rewrite (Z.mul_comm h). }
  assert (LI : forall h, below I (h * 65536) + zlen (isect (part 65536 S h) (part 65536 T h)) <= zlen I).
  { intro h. rewrite <- part_isect by lia. fold I. rewrite <- below_part_all, Z.mul_comm, <- below_part by lia. apply below_le_zlen. }
  assert (SM : forall h a b, In (h, a) (chunks_of S) -> In (h, b) (chunks_of T) ->
    a = part 65536 S h /\ b = part 65536 T h /\ wfc1 (h, a) /\ wfc1 (h, b)).
  { intros h a b Ia Ib. destruct (part_of S h a VS Ia). destruct (part_of T h b VT Ib). auto. }
  split; intros (HL & H); (split; [lia|]).
  - intros h a b Ia Ib. destruct (SM h a b Ia Ib) as (Ea & Eb & Wa & Wb).
    pose proof (LI h) as Lh. rewrite <- Ea, <- Eb in Lh.
    assert (EQ : forall id, 0 <= id < 256 -> (256 * h + id) / 256 = h).
    { intros id Hid. rewrite Z.mul_comm, Z.div_add_l, Z.div_small by lia. lia. }
    assert (BB : forall id, 0 <= id < 256 -> below I (256 * (256 * h + id)) = below I (h * 65536) + below (isect a b) (id * 256)).
    { intros id Hid. replace (256 * (256 * h + id)) with (65536 * h + id * 256) by lia. rewrite BI, <- Ea, <- Eb by lia. reflexivity. }
    pose proof (kind_rep S h a VS Ia) as KS. pose proof (kind_rep T h b VT Ib) as KT.
    pose proof (full_card S h a VS Ia) as FS. pose proof (full_card T h b VT Ib) as FT.
    unfold chunk_fits. destruct (kind_of a) eqn:Ka, (kind_of b) eqn:Kb; try lia.
    + split; rewrite !blocks_ungroup; [lia|]. intros id va vb Ja Jb.
      destruct (block_of S h a id va VS Ia Ja) as (Eva & Hid & Hva & _).
      destruct (block_of T h b id vb VT Ib Jb) as (Evb & _ & Hvb & _).
      destruct (H (256 * h + id)) as (H1 & _). rewrite EQ, BB in H1 by auto. unfold PB. rewrite Eva, Evb.
      specialize (H1 KS KT). rewrite <- !card_part, <- Eva, <- Evb in H1. rewrite <- Eva, <- Evb. lia.
    + rewrite (blocks_need_below n 256) by (eapply Layout.blocks_wf; eauto). rewrite blocks_ungroup.
      assert (EI : isect a b = a) by (apply (isect_full_r h); auto; apply Wa). rewrite EI in *.
      split; [lia|]. intros id va Ja.
      destruct (block_of S h a id va VS Ia Ja) as (Eva & Hid & Hva & _).
      destruct (H (256 * h + id)) as (_ & H1 & _). rewrite EQ, BB in H1 by auto.
      specialize (H1 KS (proj1 FT eq_refl)). rewrite <- !card_part, <- Eva, decode_words_bneed in H1. lia.
    + rewrite (blocks_need_below n 256) by (eapply Layout.blocks_wf; eauto). rewrite blocks_ungroup.
      assert (EI : isect a b = b).
      { rewrite isect_comm by (apply Wa || apply Wb). apply (isect_full_r h); auto; apply Wb. }
      rewrite EI in *.
      split; [lia|]. intros id vb Jb.
      destruct (block_of T h b id vb VT Ib Jb) as (Evb & Hid & Hvb & _).
      destruct (H (256 * h + id)) as (_ & _ & H1). rewrite EQ, BB in H1 by auto.
      specialize (H1 KT (proj1 FS eq_refl)). rewrite <- !card_part, <- Evb, decode_words_bneed in H1. lia.
  - intro b. cbn zeta. pose proof (Z.mod_pos_bound b 256 ltac:(lia)) as Hid.
    assert (EB : 256 * b = 65536 * (b / 256) + b mod 256 * 256) by (pose proof (Z.div_mod b 256); lia).
    assert (BB : below I (256 * b) = below I (b / 256 * 65536)
      + below (isect (part 65536 S (b / 256)) (part 65536 T (b / 256))) (b mod 256 * 256)) by (rewrite EB, BI by lia; reflexivity).
    split; [|split].
    + intros AS AT CS CT. destruct (find_block' S b VS AS CS) as (cs & Is & Ks & Js).
      destruct (find_block' T b VT AT CT) as (ct & It & Kt & Jt). specialize (H _ _ _ Is It).
      unfold chunk_fits in H. rewrite Ks, Kt in H. destruct H as (_ & H). specialize (H _ _ _ Js Jt).
      rewrite !blocks_ungroup in H. destruct (SM _ _ _ Is It) as (E1 & E2 & _). rewrite E1, E2 in H. unfold PB in H. lia.
    + intros AS FT CS. destruct (find_block' S b VS AS CS) as (cs & Is & Ks & Js).
      destruct (find_chunk T (b / 256) VT) as (ct & It); [lia|]. pose proof (proj2 (full_card T _ ct VT It) FT) as Kt.
      specialize (H _ _ _ Is It). unfold chunk_fits in H. rewrite Ks, Kt in H.
      destruct (SM _ _ _ Is It) as (E1 & E2 & W1 & W2).
      rewrite (blocks_need_below n 256) in H by (eapply Layout.blocks_wf; eauto). destruct H as (_ & H). specialize (H _ _ Js).
      rewrite blocks_ungroup, card_part in H.
      assert (EI : isect cs ct = cs) by (apply (isect_full_r (b / 256)); auto; apply W1).
      rewrite E1, E2 in EI. rewrite EI in BB. rewrite E1 in H. rewrite decode_words_bneed. lia.
    + intros AT FS CT. destruct (find_block' T b VT AT CT) as (ct & It & Kt & Jt).
      destruct (find_chunk S (b / 256) VS) as (cs & Is); [lia|]. pose proof (proj2 (full_card S _ cs VS Is) FS) as Ks.
      specialize (H _ _ _ Is It). unfold chunk_fits in H. rewrite Ks, Kt in H.
      destruct (SM _ _ _ Is It) as (E1 & E2 & W1 & W2).
      rewrite (blocks_need_below n 256) in H by (eapply Layout.blocks_wf; eauto). destruct H as (_ & H). specialize (H _ _ Jt).
      rewrite blocks_ungroup, card_part in H.
      assert (EI : isect cs ct = ct).
      { rewrite isect_comm by (apply W1 || apply W2). apply (isect_full_r (b / 256)); auto; apply W2. }
      rewrite E1, E2 in EI. rewrite EI in BB. rewrite E2 in H. rewrite decode_words_bneed. lia.
Qed.

(** ** what is read, in terms of the lists *)
Lemma split_block h b : 0 <= b < 256 -> (256 * h + b) / 256 = h /\ (256 * h + b) mod 256 = b.
Proof.
  intro Hb. split.
  - rewrite Z.mul_comm, Z.div_add_l by lia. rewrite Z.div_small by lia. lia.
  - rewrite Z.add_comm, Z.mul_comm, Z.mod_add by lia. apply Z.mod_small. lia.
Qed.
Lemma same_chunk S h c c' : valid S -> In (h, c) (chunks_of S) -> In (h, c') (chunks_of S) -> c = c'.
Proof. intros V H1 H2. destruct (part_of S h c V H1), (part_of S h c' V H2). congruence. Qed.
Lemma at_split {A} (x : A) p q : In x (p ++ x :: q).
Proof. apply in_app_iff. right. now left. Qed.
Lemma kind_blocks S h c : valid S -> In (h, c) (chunks_of S) -> (kind_of c = KSparse <-> as_blocks S h = true).
Proof.
  intros V HI. split; [|apply (rep_kind S h c V HI)].
  intro K. pose proof (kind_rep S h c V HI) as R. now rewrite K in R.
Qed.
Lemma meet_reads_iff S T m da db : valid S -> valid T ->
  da + csize (chunks_of S) <= m -> db + csize (chunks_of T) <= m ->
  (meet_reads S T (m - (da + csize (chunks_of S))) (m - (db + csize (chunks_of T)))
   <-> readsg csize (CR m) (da + csize (chunks_of S)) (db + csize (chunks_of T)) (chunks_of S) (chunks_of T)).
Proof.
  intros VS VT LA LB. set (ea := da + csize (chunks_of S)) in *. set (eb := db + csize (chunks_of T)) in *. split.
  - intros H pa h a sa pb b sb EA EB.
    assert (IA : In (h, a) (chunks_of S)) by (rewrite EA; apply at_split).
    assert (IB : In (h, b) (chunks_of T)) by (rewrite EB; apply at_split).
    unfold CR, csize. rewrite !zlen_cdatas_cons.
    pose proof (zlen_nonneg _ (cdatas sa)). pose proof (zlen_nonneg _ (cdatas sb)).
    destruct (kind_of a) eqn:Ka, (kind_of b) eqn:Kb; auto.
    + intros qa i va ra qb vb rb FA FB.
      destruct (below_block S pa h a sa qa i va ra VS EA FA) as (_ & CA & Hi & Hva).
      destruct (below_block T pb h b sb qb i vb rb VT EB FB) as (_ & CB & _ & Hvb).
      specialize (H (256 * h + i)). cbn zeta in H. destruct (split_block h i Hi) as [Q1 _]. rewrite Q1 in H.
      destruct H as (H & _). rewrite <- CA, <- CB in H.
      rewrite (bytes_left_eq S pa h a sa qa i va ra VS EA FA), (bytes_left_eq T pb h b sb qb i vb rb VT EB FB) in H.
      specialize (H ltac:(eapply kind_blocks; eauto) ltac:(eapply kind_blocks; eauto) ltac:(lia) ltac:(lia)).
      unfold PR, dsize. lia.
    + pose proof (chunk_reach_iff S pa h a sa m (ea - (zlen (chunk_data a) + zlen (cdatas sa))) VS EA ltac:(lia)) as C.
      unfold chunk_reach in C. rewrite Ka in C. apply C. intros i Hi.
      specialize (H (256 * h + i)). cbn zeta in H. destruct (split_block h i Hi) as [Q1 _]. rewrite Q1 in H.
      destruct H as (_ & H & _). replace (m - _) with (m - ea) by lia. apply H. apply (full_card T h b VT IB); auto.
    + pose proof (chunk_reach_iff T pb h b sb m (eb - (zlen (chunk_data b) + zlen (cdatas sb))) VT EB ltac:(lia)) as C.
      unfold chunk_reach in C. rewrite Kb in C. apply C. intros i Hi.
      specialize (H (256 * h + i)). cbn zeta in H. destruct (split_block h i Hi) as [Q1 _]. rewrite Q1 in H.
      destruct H as (_ & _ & H). replace (m - _) with (m - eb) by lia. apply H. apply (full_card S h a VS IA); auto.
  - intros H b h. split; [|split].
    + intros AS AT CS CT.
      destruct (find_block S b VS AS CS) as (pa & a & sa & qa & va & ra & EA & Ka & FA).
      destruct (find_block T b VT AT CT) as (pb & c & sb & qb & vb & rb & EB & Kb & FB).
      specialize (H pa (b / 256) a sa pb c sb EA EB). unfold CR in H. rewrite Ka, Kb in H.
      specialize (H qa (b mod 256) va ra qb vb rb FA FB).
      destruct (below_block S pa _ a sa qa _ va ra VS EA FA) as (_ & CA & Hi & Hva).
      destruct (below_block T pb _ c sb qb _ vb rb VT EB FB) as (_ & CB & _ & Hvb).
      pose proof (bytes_left_eq S pa _ a sa qa _ va ra VS EA FA) as B1.
      pose proof (bytes_left_eq T pb _ c sb qb _ vb rb VT EB FB) as B2.
      replace (256 * (b / 256) + b mod 256) with b in * by (pose proof (Z.div_mod b 256); lia).
      rewrite <- CA, <- CB, B1, B2. unfold PR, csize, dsize in H. rewrite !zlen_cdatas_cons in H. lia.
    + intros CT AS CS.
      destruct (find_block S b VS AS CS) as (pa & a & sa & qa & va & ra & EA & Ka & FA).
      destruct (find_chunk T (b / 256) VT ltac:(fold h; lia)) as (c & IB).
      destruct (in_split _ _ IB) as (pb & sb & EB).
      specialize (H pa (b / 256) a sa pb c sb EA EB). unfold CR in H. rewrite Ka in H.
      rewrite (proj2 (full_card T _ c VT IB) CT) in H. unfold csize in H. rewrite zlen_cdatas_cons in H.
      pose proof (zlen_nonneg _ (cdatas sa)).
      pose proof (chunk_reach_iff S pa (b / 256) a sa m (ea - (zlen (chunk_data a) + zlen (cdatas sa))) VS EA ltac:(lia)) as C.
      unfold chunk_reach in C. rewrite Ka in C. apply C with (b := b mod 256) in H; [|apply Z.mod_pos_bound; lia].
      replace (256 * (b / 256) + b mod 256) with b in * by (pose proof (Z.div_mod b 256); lia).
      replace (m - (ea - (zlen (chunk_data a) + zlen (cdatas sa)) + zlen (chunk_data a) + zlen (cdatas sa)))
        with (m - ea) in H by lia. exact (H AS CS).
    + intros CS AT CT.
      destruct (find_block T b VT AT CT) as (pb & c & sb & qb & vb & rb & EB & Kb & FB).
      destruct (find_chunk S (b / 256) VS ltac:(fold h; lia)) as (a & IA).
      destruct (in_split _ _ IA) as (pa & sa & EA).
      specialize (H pa (b / 256) a sa pb c sb EA EB). unfold CR in H. rewrite Kb in H.
      rewrite (proj2 (full_card S _ a VS IA) CS) in H. unfold csize in H. rewrite zlen_cdatas_cons in H.
      pose proof (zlen_nonneg _ (cdatas sb)).
      pose proof (chunk_reach_iff T pb (b / 256) c sb m (eb - (zlen (chunk_data c) + zlen (cdatas sb))) VT EB ltac:(lia)) as C.
      unfold chunk_reach in C. rewrite Kb in C. apply C with (b := b mod 256) in H; [|apply Z.mod_pos_bound; lia].
      replace (256 * (b / 256) + b mod 256) with b in * by (pose proof (Z.div_mod b 256); lia).
      replace (m - (eb - (zlen (chunk_data c) + zlen (cdatas sb)) + zlen (chunk_data c) + zlen (cdatas sb)))
        with (m - eb) in H by lia. exact (H AT CT).
Qed.
Lemma meet_bytes_le x y : 1 <= x -> meet_bytes x y <= data_bytes x + 15.
Proof.
  intro H. unfold meet_bytes, data_bytes.
  destruct (Z.leb_spec 31 x), (Z.leb_spec 31 y), (Z.ltb_spec x 31), (Z.leb_spec x 16), (Z.leb_spec y 16); cbn [orb]; lia.
Qed.
Lemma block_left S b : valid S -> as_blocks S (b / 256) = true -> 0 < card 256 S b ->
  data_bytes (card 256 S b) <= bytes_left S b.
Proof.
  intros V AS CS. destruct (find_block S b V AS CS) as (pre & c & suf & bpre & vs & bsuf & EC & K & EB).
  destruct (below_block S pre _ c suf bpre _ vs bsuf V EC EB) as (_ & E2 & Hb & Hv).
  pose proof (bytes_left_eq S pre _ c suf bpre _ vs bsuf V EC EB) as EL.
  replace (256 * (b / 256) + b mod 256) with b in * by (pose proof (Z.div_mod b 256); lia).
  rewrite zlen_datas_cons in EL. cbn [snd] in EL. pose proof (zlen_nonneg _ (datas bsuf)).
  pose proof (zlen_nonneg _ (cdatas suf)). rewrite <- E2. rewrite bbc_data in EL. lia.
Qed.
Lemma meet_reads_enough S T s t : valid S -> valid T -> 31 <= s -> 31 <= t -> meet_reads S T s t.
Proof.
  intros VS VT Hs Ht b h. split; [|split; intros _; apply c39_enough; auto].
  intros AS AT CS CT. pose proof (block_left S b VS AS CS). pose proof (block_left T b VT AT CT).
  pose proof (meet_bytes_le (card 256 S b) (card 256 T b)). pose proof (meet_bytes_le (card 256 T b) (card 256 S b)). lia.
Qed.

Lemma stored_extra k mem a S : valid S -> 0 <= k -> stored k mem a S -> a + zlen (f_sequence S) + k <= zlen mem.
Proof.
  intros V Hk St. destruct (stored_seq k mem a S V St Hk) as (s & Es & _ & (_ & _ & _ & L) & _).
  rewrite <- (seq_begin_end mem a S s); auto. eapply stored_weaken; eauto.
Qed.

Lemma pairwise_intersection_exact tbl dbg mem a b S T x out pos :
  shuffle_table_ok tbl ->
  valid S -> valid T -> stored 0 mem a S -> stored 0 mem b T -> zlen x = 1024 ->
  0 <= pos <= zlen out ->
  let s_extra := zlen mem - (a + zlen (f_sequence S)) in
  let t_extra := zlen mem - (b + zlen (f_sequence T)) in
  exists s t, seq_at mem a = Ok s /\ seq_at mem b = Ok t
    /\ ((meet_fits S T (zlen out - pos) /\ meet_reads S T s_extra t_extra /\ exists x' out',
          pairwise_intersection tbl dbg mem s t x out pos = Ok (x', out', zlen (isect S T))
          /\ zlen x' = 1024 /\ wrote 23 out pos (isect S T) out')
    \/ (~ (meet_fits S T (zlen out - pos) /\ meet_reads S T s_extra t_extra)
        /\ pairwise_intersection tbl dbg mem s t x out pos = UB)).
Proof.
  intros Ht HS HT StS StT Hx Hp s_extra t_extra.
  destruct (stored_seq 0 mem a S HS StS ltac:(lia)) as (s & Es & _ & Vs & _).
  destruct (stored_seq 0 mem b T HT StT ltac:(lia)) as (t & Et & _ & Vt & _).
  destruct (valid_chunks S HS) as (_ & _ & US & _). destruct (valid_chunks T HT) as (_ & _ & UT & _).
  destruct (pairwise_intersection_loop_room tbl Ht dbg mem (it_fuel (seq_begin s) + it_fuel (seq_begin t))
    (chunks_of S) (chunks_of T) (seq_begin s) (seq_begin t) x out pos) as (x' & Hx' & R); auto; try lia.
  { pose proof (it_fuel_ok _ _ _ (proj1 Vs)). pose proof (it_fuel_ok _ _ _ (proj1 Vt)). lia. }
  rewrite US, UT in R. exists s, t. split; auto. split; auto.
  rewrite (meet_fits_iff S T _ pos HS HT). unfold s_extra, t_extra.
  rewrite <- (seq_begin_end mem a S s HS StS Es), <- (seq_begin_end mem b T t HT StT Et).
  fold (csize (chunks_of S)) (csize (chunks_of T)).
  assert (LS : i_data (seq_begin s) + csize (chunks_of S) <= zlen mem) by (destruct Vs as (_ & _ & _ & L); unfold csize; lia).
  assert (LT : i_data (seq_begin t) + csize (chunks_of T) <= zlen mem) by (destruct Vt as (_ & _ & _ & L); unfold csize; lia).
  rewrite (meet_reads_iff S T (zlen mem) _ _ HS HT LS LT). unfold pairwise_intersection.
  destruct R as [((F & G) & out' & -> & W)|(NF & ->)]; [left|right].
  - cbn [bind]. split; auto. split; auto. exists x', out'. split; [f_equal; f_equal; lia|]. auto.
  - auto.
Qed.

Lemma pairwise_intersection_room tbl dbg mem a b S T x out pos :
  shuffle_table_ok tbl ->
  valid S -> valid T -> stored 31 mem a S -> stored 31 mem b T -> zlen x = 1024 ->
  0 <= pos <= zlen out ->
  exists s t, seq_at mem a = Ok s /\ seq_at mem b = Ok t
    /\ (meet_fits S T (zlen out - pos) -> exists x' out',
          pairwise_intersection tbl dbg mem s t x out pos = Ok (x', out', zlen (isect S T))
          /\ zlen x' = 1024 /\ wrote 23 out pos (isect S T) out')
    /\ (~ meet_fits S T (zlen out - pos) -> pairwise_intersection tbl dbg mem s t x out pos = UB).
Proof.
  intros Ht HS HT StS StT Hx Hp.
  destruct (pairwise_intersection_exact tbl dbg mem a b S T x out pos Ht HS HT
    ltac:(eapply stored_weaken; eauto; lia) ltac:(eapply stored_weaken; eauto; lia) Hx Hp) as (s & t & Es & Et & R).
  exists s, t. split; auto. split; auto.
  assert (G : meet_reads S T (zlen mem - (a + zlen (f_sequence S))) (zlen mem - (b + zlen (f_sequence T)))).
  { apply meet_reads_enough; auto.
    - pose proof (stored_extra 31 mem a S HS ltac:(lia) StS). lia.
    - pose proof (stored_extra 31 mem b T HT ltac:(lia) StT). lia. }
  destruct R as [(F & _ & H)|(NF & H)]; split; intro F'; tauto.
Qed.
