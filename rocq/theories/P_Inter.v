(** Pairwise intersection. *)
From Verif Require Import Base Hw Spec Lib L_Bits L_Group Layout M_Util M_Seq M_Decode M_Uncompress
  M_Intersect P_Build1 P_Build2 P_Build3 P_Seq P_Decode P_Query P_Uncompress P_Sets.

(** ** two sparse blocks with the vector instructions *)
Lemma mask_ok a : forall b n, (length b <= n)%nat ->
  0 <= equal_any_mask a b < 2 ^ Z.of_nat n
  /\ forall g, map (fun j => nth (Z.to_nat j) (b ++ g) 0)
                 (filter (Z.testbit (equal_any_mask a b)) (zrange 0 n)) = isect b a.
Proof.
  induction b as [|x b IH]; intros n Hn.
  - cbn [equal_any_mask]. split; [lia|]. intro g. rewrite filter_none; auto.
    intros j _. apply Z.testbit_0_l.
  - cbn [length] in Hn. destruct n as [|n]; [lia|]. destruct (IH n) as [H1 H2]; [lia|].
    cbn [equal_any_mask]. set (e := existsb (Z.eqb x) a).
    replace ((if e then 1 else 0) + 2 * equal_any_mask a b)
      with (2 * equal_any_mask a b + (if e then 1 else 0)) by lia.
    split.
    + replace (Z.of_nat (S n)) with (Z.succ (Z.of_nat n)) by lia. rewrite Z.pow_succ_r by lia.
      destruct e; lia.
    + intro g. rewrite filter_testbit_double, map_app, map_map.
      assert (E : map (fun j => nth (Z.to_nat (j + 1)) ((x :: b) ++ g) 0)
                    (filter (Z.testbit (equal_any_mask a b)) (zrange 0 n)) = isect b a).
      { rewrite <- (H2 g). apply map_ext_in. intros j [Hj _]%filter_In. apply In_zrange in Hj.
        replace (Z.to_nat (j + 1)) with (S (Z.to_nat j)) by lia. reflexivity. }
      rewrite E. unfold isect. cbn [filter]. change (memb a x) with e.
      destruct e; reflexivity.
Qed.

Lemma pshufb_ok tbl a b g :
  shuffle_table_ok tbl -> zlen (b ++ g) = 16 ->
  let m := equal_any_mask a b in
  popcount m = zlen (isect b a)
  /\ exists g', pshufb (b ++ g) (tbl m) = isect b a ++ g' /\ zlen (isect b a) + zlen g' = 16.
Proof.
  intros Ht Hz m. destruct (mask_ok a b 16) as [Hm Hmap].
  { rewrite zlen_app in Hz. unfold zlen in Hz. lia. }
  fold m in Hm, Hmap. change (2 ^ Z.of_nat 16) with 65536 in Hm.
  set (bs := filter (Z.testbit m) (zrange 0 16)) in *.
  assert (Lb : zlen bs = zlen (isect b a)) by (rewrite <- (Hmap g), zlen_map; reflexivity).
  split.
  - rewrite (popcount_n 16) by (change (2 ^ Z.of_nat 16) with 65536; lia). exact Lb.
  - destruct (Ht m Hm) as [T1 T2]. cbv zeta in T2. fold bs in T2.
    rewrite <- (firstn_skipn (length bs) (tbl m)), T2. unfold pshufb. rewrite map_app.
    eexists. split.
    + f_equal. rewrite <- (Hmap g). apply map_ext_in. intros j Hj. unfold bs in Hj.
      apply filter_In in Hj as [Hj _]. apply In_zrange in Hj.
      destruct (Z.leb_spec 128 j); [lia|]. rewrite Z.mod_small by lia. reflexivity.
    + rewrite zlen_map, zlen_skipn, <- Lb.
      assert (zlen bs <= 16).
      { pose proof (zlen_filter_le _ (Z.testbit m) (zrange 0 16)) as H. rewrite zlen_zrange in H. exact H. }
      unfold zlen in *. lia.
Qed.

Lemma firstn_prefix (l1 l2 : list Z) n :
  (n <= length l1)%nat -> firstn n (l1 ++ l2) = firstn n l1.
Proof.
  intro H. rewrite firstn_app. replace (n - length l1)%nat with O by lia. cbn. apply app_nil_r.
Qed.

Lemma INTERSECT_ok tbl v_l cl v_r cr a b base out pos size :
  shuffle_table_ok tbl -> zlen v_r = 16 ->
  firstn (Z.to_nat (Z.min 16 (Z.abs cl))) v_l = a ->
  firstn (Z.to_nat (Z.min 16 (Z.abs cr))) v_r = b ->
  0 <= pos -> pos + zlen (isect b a) + 8 <= zlen out ->
  exists out', INTERSECT tbl v_l cl v_r cr base out pos size = Ok (out', size + zlen (isect b a))
    /\ wrote 8 out pos (map (fun x => u32 (base + x)) (isect b a)) out'.
Proof.
  intros Ht Hz Ha Hb Hp Ho. unfold INTERSECT, cmpestrm. rewrite Ha, Hb.
  rewrite <- (firstn_skipn (Z.to_nat (Z.min 16 (Z.abs cr))) v_r), Hb in Hz.
  rewrite <- (firstn_skipn (Z.to_nat (Z.min 16 (Z.abs cr))) v_r), Hb.
  set (g := skipn _ v_r) in *. destruct (pshufb_ok tbl a b g Ht Hz) as [Em (g' & Ep & Lg)].
  cbv zeta in *. rewrite Em, Ep. zpos.
  set (p := isect b a ++ g'). set (f := fun x => u32 (base + x)).
  assert (Lp : length p = 16%nat) by (unfold p; rewrite app_length; unfold zlen in Lg; lia).
  unfold cvt_add. fold f.
  destruct (store_ok out pos (map f (firstn 8 p))) as (out1 & -> & W1).
  { lia. }
  { rewrite zlen_map, zlen_firstn. unfold zlen at 1. rewrite Lp. lia. }
  cbn [bind]. pose proof (wrote_zlen _ _ _ _ _ W1).
  destruct (Z.ltb_spec 8 (zlen (isect b a))) as [H8|H8].
  - assert (E : firstn 8 (bsrli8 p) = skipn 8 p).
    { unfold bsrli8. rewrite firstn_prefix by (rewrite skipn_length; lia).
      apply firstn_all2. rewrite skipn_length. lia. }
    rewrite E. destruct (store_ok out1 (pos + 8) (map f (skipn 8 p))) as (out2 & -> & W2).
    { lia. }
    { rewrite zlen_map, zlen_skipn. unfold zlen at 1. rewrite Lp. lia. }
    cbn [bind]. exists out2. split; auto.
    apply (wrote_prefix 8 _ _ _ (map f g')); [|rewrite zlen_map; lia].
    rewrite <- map_app. fold p. rewrite <- (firstn_skipn 8 p), map_app.
    eapply wrote_app; [lia|exact W1|].
    replace (zlen (map f (firstn 8 p))) with 8 by (rewrite zlen_map; unfold zlen; rewrite firstn_length, Lp; reflexivity).
    exact W2.
  - exists out1. split; auto.
    assert (E : firstn 8 p = isect b a ++ firstn (8 - length (isect b a)) g').
    { unfold p. rewrite firstn_app. f_equal. apply firstn_all2. unfold zlen in H8. lia. }
    rewrite E, map_app in W1. eapply wrote_prefix; [exact W1|]. rewrite zlen_map, zlen_firstn. lia.
Qed.

(** 16 bytes loaded from a block *)
Lemma load_block mem data vs :
  bytes_at mem data vs -> 0 <= data -> data + 16 <= zlen mem ->
  exists w, load128 mem data = Ok w /\ zlen w = 16
    /\ forall c, (c <= 16)%nat -> (c <= length vs)%nat -> firstn c w = firstn c vs.
Proof.
  intros B H1 H2. unfold load128. destruct (rd_bytes_ok mem data 16) as (w & E & L & Bw); [lia|lia|].
  exists w. split; auto. split; [unfold zlen; rewrite L; reflexivity|]. intros c Hc Hv.
  apply znth_ext.
  - rewrite !zlen_firstn. unfold zlen. lia.
  - intros i Hi. rewrite zlen_firstn in Hi. unfold zlen in Hi. rewrite !znth_firstn by lia.
    rewrite <- B by (unfold zlen; lia). rewrite <- Bw by (unfold zlen; lia). reflexivity.
Qed.

(** ** two sparse blocks, scalar loop *)
Fixpoint dropl (y : Z) (a : list Z) : list Z :=
  match a with
  | [] => []
  | x :: a' => if x <? y then dropl y a' else a
  end.
Lemma dropl_split y a : exists p, a = p ++ dropl y a /\ Forall (fun x => x < y) p.
Proof.
  induction a as [|x a (p & E & F)]; [exists []; auto|]. cbn [dropl]. destruct (Z.ltb_spec x y).
  - exists (x :: p). cbn [app]. rewrite <- E. auto.
  - exists []. auto.
Qed.
Lemma dropl_hd y a x a' : dropl y a = x :: a' -> y <= x.
Proof.
  induction a as [|u a IH]; cbn [dropl]; [discriminate|]. destruct (Z.ltb_spec u y); auto.
  intros [= <- _]. lia.
Qed.
Lemma isect_dropl y a b : Forall (fun z => y <= z) b -> isect a b = isect (dropl y a) b.
Proof.
  intro H. destruct (dropl_split y a) as (p & E & F). rewrite E at 1. unfold isect. rewrite filter_app.
  rewrite filter_none; auto. intros x Hx. apply memb_false. intro Hi. rewrite Forall_forall in *.
  specialize (H x Hi). specialize (F x Hx). cbn beta in *. lia.
Qed.
Lemma bytes_at_suffix mem l p s e :
  bytes_at mem l (p ++ s) -> e = l + zlen (p ++ s) -> bytes_at mem (e - zlen s) s.
Proof.
  intros B ->. apply bytes_at_app in B as [_ B]. rewrite zlen_app.
  now replace (l + (zlen p + zlen s) - zlen s) with (l + zlen p) by lia.
Qed.
Lemma sorted_suffix (p s : list Z) : sorted (p ++ s) -> sorted s.
Proof. intro H. apply sorted_app_inv in H. tauto. Qed.

Lemma scalar_advance_ok mem r y end_ : rd8 mem r = Ok y -> forall a fuel l,
  bytes_at mem l a -> a <> [] -> end_ = l + zlen a -> (length a <= fuel)%nat ->
  scalar_advance fuel mem l end_ r
  = Ok (match dropl y a with [] => None | a' => Some (end_ - zlen a') end).
Proof.
  intro Hy. induction a as [|x a IH]; intros fuel l B Hne He Hf; [congruence|].
  apply bytes_at_cons in B as [Bx B]. apply rd8_znth in Bx.
  rewrite zlen_cons in He. cbn [length] in Hf. destruct fuel as [|f]; [lia|].
  cbn [scalar_advance dropl]. rewrite Bx. cbn [bind]. rewrite Hy. cbn [bind].
  destruct (Z.ltb_spec x y).
  - destruct (Z.eqb_spec (l + 1) end_) as [E|E].
    + destruct a; [reflexivity|]. rewrite zlen_cons in *. zpos. lia.
    + apply IH; auto; [|lia|lia]. intros ->. rewrite zlen_nil in *. lia.
  - do 2 f_equal. rewrite zlen_cons. lia.
Qed.

Lemma sorted_ge x l : sorted (x :: l) -> Forall (fun z => x <= z) (x :: l).
Proof.
  intro H. apply sorted_inv in H as [_ H]. constructor; [lia|]. eapply Forall_impl; [|exact H].
  cbn beta. intros; lia.
Qed.

Lemma scalar_intersect_loop_ok mem end_l end_r base pos : forall fuel a b l r out size,
  (length a + length b <= fuel)%nat ->
  bytes_at mem l a -> bytes_at mem r b -> a <> [] -> b <> [] ->
  end_l = l + zlen a -> end_r = r + zlen b -> sorted a -> sorted b ->
  0 <= pos + size -> pos + size + zlen (isect a b) <= zlen out ->
  exists out', scalar_intersect_loop fuel mem l end_l r end_r base out pos size
               = Ok (out', size + zlen (isect a b))
    /\ wrote 0 out (pos + size) (map (fun x => u32 (x + base)) (isect a b)) out'.
Proof.
  induction fuel as [|f IH]; intros a b l r out size Hf Ba Bb Na Nb El Er Sa Sb Hp Ho.
  { destruct a; [congruence|]. cbn [length] in Hf. lia. }
  destruct b as [|y b]; [congruence|].
  cbn [scalar_intersect_loop].
  pose proof (proj1 (bytes_at_cons _ _ _ _) Bb) as [By _]. apply rd8_znth in By.
  rewrite (scalar_advance_ok mem r y end_l By a) by (auto; unfold zlen in El; lia).
  cbn [bind].
  rewrite (isect_dropl y a (y :: b)) in * by now apply sorted_ge.
  destruct (dropl_split y a) as (pa & Ea & Fa).
  pose proof Ba as Ba'. rewrite Ea in Ba'. eapply bytes_at_suffix in Ba'; [|rewrite Ea in El; exact El].
  pose proof Sa as Sa'. rewrite Ea in Sa'. apply sorted_suffix in Sa'.
  destruct (dropl y a) as [|x a'] eqn:Ea'.
  { exists out. split; [cbn; do 2 f_equal; lia|]. apply wrote_nil; lia. }
  set (l' := end_l - zlen (x :: a')) in *.
  pose proof (proj1 (bytes_at_cons _ _ _ _) Ba') as [Bx _]. apply rd8_znth in Bx.
  rewrite (scalar_advance_ok mem l' x end_r Bx (y :: b)) by (auto; unfold zlen in Er; lia).
  cbn [bind].
  rewrite isect_comm in Ho by auto.
  rewrite (isect_comm (x :: a')) by auto.
  rewrite (isect_dropl x (y :: b) (x :: a')) in * by now apply sorted_ge.
  destruct (dropl_split x (y :: b)) as (pb & Eb & Fb). destruct (dropl x (y :: b)) as [|y' b'] eqn:Eb'.
  { exists out. split; [cbn; do 2 f_equal; lia|]. apply wrote_nil; lia. }
  pose proof Bb as Bb'. rewrite Eb in Bb'. eapply bytes_at_suffix in Bb'; [|rewrite Eb in Er; exact Er].
  pose proof Sb as Sb'. rewrite Eb in Sb'. apply sorted_suffix in Sb'.
  set (r' := end_r - zlen (y' :: b')) in *.
  pose proof (proj1 (bytes_at_cons _ _ _ _) Bb') as [By' Bb1]. apply rd8_znth in By'.
  rewrite Bx. cbn [bind]. rewrite By'. cbn [bind].
  apply dropl_hd in Eb'.
  rewrite isect_comm in Ho by auto. rewrite (isect_comm (y' :: b')) by auto.
  assert (La : length a = (length pa + length (x :: a'))%nat) by (rewrite Ea, app_length; auto).
  assert (Lb : length (y :: b) = (length pb + length (y' :: b'))%nat) by (rewrite Eb, app_length; auto).
  cbn [length] in La, Lb, Hf.
  destruct (Z.eqb_spec x y') as [E|E].
  - subst y'. pose proof (sorted_inv _ _ Sa') as [Sa1 Fa1]. pose proof (sorted_inv _ _ Sb') as [Sb1 Fb1].
    assert (EI : isect (x :: a') (x :: b') = x :: isect a' b').
    { change (x :: a') with ([x] ++ a'). change (x :: b') with ([x] ++ b'). rewrite isect_app.
      - now rewrite isect_same.
      - intros u v [<-|[]] Hv. rewrite Forall_forall in Fb1. now apply Fb1.
      - intros u v [<-|[]] Hv. rewrite Forall_forall in Fa1. now apply Fa1. }
    rewrite EI in *. rewrite zlen_cons in *. zpos.
    destruct (vset_ok out (pos + size) (u32 (x + base))) as (out1 & -> & W1); [lia|]. cbn [bind].
    pose proof (wrote_zlen _ _ _ _ _ W1).
    cbn [map].
    assert (STOP : isect a' b' = [] -> exists out', Ok (out1, size + 1) = Ok (out', size + (zlen (isect a' b') + 1))
        /\ wrote 0 out (pos + size) (u32 (x + base) :: map (fun x => u32 (x + base)) (isect a' b')) out').
    { intros ->. exists out1. split; auto. }
    destruct (Z.eqb_spec (l' + 1) end_l) as [E1|E1]; [|destruct (Z.eqb_spec (r' + 1) end_r) as [E2|E2]].
    + apply STOP. destruct a'; auto. unfold l' in E1. rewrite !zlen_cons in E1. zpos. lia.
    + apply STOP. destruct b'; [apply isect_nil_r|]. unfold r' in E2. rewrite !zlen_cons in E2. zpos. lia.
    + pose proof (proj2 (proj1 (bytes_at_cons _ _ _ _) Ba')) as Ba1.
      destruct (IH a' b' (l' + 1) (r' + 1) out1 (size + 1)) as (out2 & -> & W2); auto; try lia.
      * intros ->. unfold l' in E1. rewrite zlen_cons, zlen_nil in E1. lia.
      * intros ->. unfold r' in E2. rewrite zlen_cons, zlen_nil in E2. lia.
      * unfold l'. rewrite zlen_cons. lia.
      * unfold r'. rewrite zlen_cons. lia.
      * exists out2. split; [f_equal; f_equal; lia|]. eapply wrote_cons; [lia|exact W1|].
        now replace (pos + size + 1) with (pos + (size + 1)) by lia.
  - apply IH; auto; try discriminate; try (unfold l', r'; lia).
    cbn [length]. destruct pa as [|u pa]; [|cbn [length] in La; lia].
    destruct pb as [|u pb]; [|cbn [length] in Lb; lia].
    cbn [app] in Eb. injection Eb as <- <-.
    assert (y <= x) by (eapply dropl_hd; exact Ea'). lia.
Qed.

(** ** blocks *)
Section Blocks.
Variable tbl : Z -> list Z.
Hypothesis Ht : shuffle_table_ok tbl.
Variables (dbg : bool) (mem : list Z).

Lemma isect_split_r b a1 a2 :
  sorted (a1 ++ a2) -> sorted b -> isect b (a1 ++ a2) = isect b a1 ++ isect b a2.
Proof.
  intros Sa Sb. symmetry. apply sorted_app_inv in Sa as (S1 & S2 & H). apply isect_unique; auto.
  - apply sorted_app; auto using sorted_isect. intros x y [_ Hx]%In_isect [_ Hy]%In_isect. auto.
  - intro x. rewrite !in_app_iff, !In_isect. tauto.
Qed.
Lemma isect_app_l b1 b2 a : isect (b1 ++ b2) a = isect b1 a ++ isect b2 a.
Proof. apply filter_app. Qed.

Lemma ss_intersect_block_ok l r a b base out pos :
  bytes_at mem l a -> bytes_at mem r b -> 1 <= zlen a <= 30 -> 1 <= zlen b <= 30 ->
  sorted a -> sorted b -> Forall (fun x => 0 <= x < 256) a -> Forall (fun x => 0 <= x < 256) b ->
  0 <= l -> l + zlen a + 31 <= zlen mem -> 0 <= r -> r + zlen b + 31 <= zlen mem ->
  0 <= base -> base + 256 <= 4294967296 ->
  0 <= pos -> pos + zlen (isect a b) + 23 <= zlen out ->
  exists out', ss_intersect_block tbl dbg mem l r (zlen a) (zlen b) base out pos
               = Ok (out', zlen (isect a b))
    /\ wrote 23 out pos (map (addb base) (isect a b)) out'.
Proof.
  intros Ba Bb Ha Hb Sa Sb Ra Rb Hl Hml Hr Hmr Hb0 Hb1 Hp Ho. unfold ss_intersect_block.
  change (block_sparseness_threshold - 2) with 30.
  rewrite assert_ok by (apply andb_true_intro; split; [apply Z.ltb_lt|apply Z.leb_le]; lia). cbn [bind].
  rewrite assert_ok by (apply andb_true_intro; split; [apply Z.ltb_lt|apply Z.leb_le]; lia). cbn [bind].
  rewrite (isect_comm a b) in * by auto.
  assert (Rab : Forall (fun x => 0 <= x < 256) (isect b a)) by auto using Forall_isect.
  destruct (map_u32_add base (isect b a) 256) as [M1 M2]; auto.
  destruct (load_block mem l a) as (wl & El & Zl & Fl); auto; try lia.
  destruct (load_block mem r b) as (wr & Er & Zr & Fr); auto; try lia.
  assert (FA : forall c : list Z, zlen c <= 16 -> firstn (Z.to_nat (Z.min 16 (Z.abs (zlen c)))) c = c).
  { intros c Hc. apply firstn_all2. zpos. unfold zlen in *. lia. }
  pose proof (zlen_nonneg _ (isect b a)).
  destruct (Z.leb_spec (zlen a) 16) as [La|La]; destruct (Z.leb_spec (zlen b) 16) as [Lb|Lb].
  - cbn [andb]. rewrite El. cbn [bind]. rewrite Er. cbn [bind].
    destruct (INTERSECT_ok tbl wl (zlen a) wr (zlen b) a b base out pos 0) as (out' & E & W); auto; try lia.
    + rewrite Fl by (unfold zlen in *; lia). auto.
    + rewrite Fr by (unfold zlen in *; lia). auto.
    + rewrite M2 in W. exists out'. split; [exact E|]. eapply wrote_weaken; eauto. lia.
  - destruct (Z.ltb_spec 16 (zlen b)); [|lia]. destruct (Z.ltb_spec 16 (zlen a)); [lia|]. cbn [andb].
    rewrite El. cbn [bind]. rewrite Er. cbn [bind].
    set (b1 := firstn 16 b). set (b2 := skipn 16 b).
    assert (Eb : b = b1 ++ b2) by (symmetry; apply firstn_skipn).
    assert (L1 : zlen b1 = 16) by (unfold b1; rewrite zlen_firstn; lia).
    assert (L2 : zlen b2 = zlen b - 16) by (rewrite Eb, zlen_app; lia).
    assert (EI : isect b a = isect b1 a ++ isect b2 a) by (rewrite Eb; apply isect_app_l).
    assert (EIl : zlen (isect b a) = zlen (isect b1 a) + zlen (isect b2 a)) by now rewrite EI, zlen_app.
    zpos. pose proof (zlen_nonneg _ (isect b1 a)). pose proof (zlen_nonneg _ (isect b2 a)).
    destruct (INTERSECT_ok tbl wl (zlen a) wr (zlen b) a b1 base out pos 0) as (out1 & -> & W1); auto; try lia.
    { rewrite Fl by (unfold zlen in *; lia). auto. }
    { rewrite Fr by (unfold zlen in *; lia). replace (Z.to_nat (Z.min 16 (Z.abs (zlen b)))) with 16%nat by lia. reflexivity. }
    cbn [bind]. pose proof (wrote_zlen _ _ _ _ _ W1).
    pose proof Bb as Bb2. rewrite Eb in Bb2. apply bytes_at_app in Bb2 as [_ Bb2]. rewrite L1 in Bb2.
    destruct (load_block mem (r + 16) b2) as (wr2 & Er2 & Zr2 & Fr2); auto; try lia.
    rewrite Er2. cbn [bind]. rewrite Z.add_0_l. rewrite <- L2.
    destruct (INTERSECT_ok tbl wl (zlen a) wr2 (zlen b2) a b2 base out1 (pos + zlen (isect b1 a)) (zlen (isect b1 a)))
      as (out2 & -> & W2); auto; try lia.
    { rewrite Fl by (unfold zlen in *; lia). auto. }
    { rewrite Fr2 by (unfold zlen in *; lia). apply FA. lia. }
    exists out2. split; [rewrite EIl; reflexivity|]. rewrite <- M2, EI, map_app.
    eapply wrote_app; [lia|eapply wrote_weaken; [exact W1|lia]|]. rewrite zlen_map.
    eapply wrote_weaken; [exact W2|lia].
  - cbn [andb]. destruct (Z.ltb_spec 16 (zlen b)); [lia|]. destruct (Z.ltb_spec 16 (zlen a)); [|lia]. cbn [andb].
    rewrite El. cbn [bind]. rewrite Er. cbn [bind].
    set (a1 := firstn 16 a). set (a2 := skipn 16 a).
    assert (Ea : a = a1 ++ a2) by (symmetry; apply firstn_skipn).
    assert (L1 : zlen a1 = 16) by (unfold a1; rewrite zlen_firstn; lia).
    assert (L2 : zlen a2 = zlen a - 16) by (rewrite Ea, zlen_app; lia).
    assert (EI : isect b a = isect b a1 ++ isect b a2) by (rewrite Ea in *; now apply isect_split_r).
    assert (EIl : zlen (isect b a) = zlen (isect b a1) + zlen (isect b a2)) by now rewrite EI, zlen_app.
    zpos. pose proof (zlen_nonneg _ (isect b a1)). pose proof (zlen_nonneg _ (isect b a2)).
    destruct (INTERSECT_ok tbl wl (zlen a) wr (zlen b) a1 b base out pos 0) as (out1 & -> & W1); auto; try lia.
    { rewrite Fl by (unfold zlen in *; lia). replace (Z.to_nat (Z.min 16 (Z.abs (zlen a)))) with 16%nat by lia. reflexivity. }
    { rewrite Fr by (unfold zlen in *; lia). auto. }
    cbn [bind]. pose proof (wrote_zlen _ _ _ _ _ W1).
    pose proof Ba as Ba2. rewrite Ea in Ba2. apply bytes_at_app in Ba2 as [_ Ba2]. rewrite L1 in Ba2.
    destruct (load_block mem (l + 16) a2) as (wl2 & El2 & Zl2 & Fl2); auto; try lia.
    rewrite El2. cbn [bind]. rewrite Z.add_0_l. rewrite <- L2.
    destruct (INTERSECT_ok tbl wl2 (zlen a2) wr (zlen b) a2 b base out1 (pos + zlen (isect b a1)) (zlen (isect b a1)))
      as (out2 & -> & W2); auto; try lia.
    { rewrite Fl2 by (unfold zlen in *; lia). apply FA. lia. }
    { rewrite Fr by (unfold zlen in *; lia). auto. }
    exists out2. split; [rewrite EIl; reflexivity|]. rewrite <- M2, EI, map_app.
    eapply wrote_app; [lia|eapply wrote_weaken; [exact W1|lia]|]. rewrite zlen_map.
    eapply wrote_weaken; [exact W2|lia].
  - cbn [andb]. rewrite <- (isect_comm a b) in * by auto.
    destruct (scalar_intersect_loop_ok mem (l + zlen a) (r + zlen b) base pos
      (S (Z.to_nat (zlen a + zlen b))) a b l r out 0) as (out' & E & W); auto; try lia.
    { unfold zlen. lia. }
    { intros ->. rewrite zlen_nil in *. lia. }
    { intros ->. rewrite zlen_nil in *. lia. }
    exists out'. split; [exact E|]. rewrite Z.add_0_r, M1 in W. eapply wrote_weaken; eauto. lia.
Qed.

Lemma ds_loop_ok bm f r base pos (Hbm : bm_at bm 4 f) : forall b i k out,
  bytes_at mem (r + i) b -> Forall (fun x => 0 <= x < 256) b -> 0 <= k -> k + zlen b < 4294967296 ->
  0 <= pos -> pos + k + zlen (filter f b) + 1 <= zlen out ->
  exists out', ds_intersect_block_loop (length b) mem bm r i base out pos k = Ok (out', k + zlen (filter f b))
    /\ wrote 1 out (pos + k) (map (fun x => u32 (x + base)) (filter f b)) out'.
Proof.
  induction b as [|x b IH]; intros i k out B R Hk Hl Hp Ho; cbn [length ds_intersect_block_loop filter map].
  - exists out. split; [rewrite zlen_nil; f_equal; f_equal; lia|]. apply wrote_nil; lia.
  - apply bytes_at_cons in B as [Bx B]. apply rd8_znth in Bx. rewrite Bx. cbn [bind].
    inversion R as [|? ? Rx R']; subst. rewrite zlen_cons in Hl.
    cbn [filter] in Ho. pose proof (zlen_nonneg _ (filter f b)).
    destruct (vset_ok out (pos + k) (u32 (x + base))) as (out1 & -> & W1).
    { destruct (f x); rewrite ?zlen_cons in Ho; lia. }
    cbn [bind]. pose proof (wrote_zlen _ _ _ _ _ W1).
    rewrite (bitmap_contains_ok _ 4 f) by (auto; lia). cbn [bind].
    replace (r + i + 1) with (r + (i + 1)) in B by lia. zpos.
    destruct (f x).
    + rewrite zlen_cons in Ho. rewrite u32_id by lia.
      destruct (IH (i + 1) (k + 1) out1) as (out2 & -> & W2); auto; try lia.
      exists out2. split; [rewrite zlen_cons; f_equal; f_equal; lia|]. cbn [map].
      eapply wrote_cons; [lia|exact W1|]. now rewrite <- Z.add_assoc.
    + destruct (IH (i + 1) k out1) as (out2 & -> & W2); auto; try lia.
      exists out2. split; auto. destruct W1 as (A1 & A2 & A3), W2 as (C1 & C2 & C3).
      split; [lia|]. split; auto. rewrite zlen_map in *. intros j Hj. rewrite C3 by lia. apply A3.
      change (zlen [u32 (x + base)]) with 1. lia.
Qed.
Lemma ds_intersect_block_ok l r a b base out pos :
  bm_at (words_mem mem l) 4 (memb a) -> bytes_at mem r b -> zlen b <= 256 ->
  Forall (fun x => 0 <= x < 256) b -> 0 <= base -> base + 256 <= 4294967296 ->
  0 <= pos -> pos + zlen (isect b a) + 23 <= zlen out ->
  exists out', ds_intersect_block mem l r (zlen b) base out pos = Ok (out', zlen (isect b a))
    /\ wrote 23 out pos (map (addb base) (isect b a)) out'.
Proof.
  intros Hbm B Hl R Hb0 Hb1 Hp Ho. unfold ds_intersect_block. rewrite <- length_zlen.
  destruct (ds_loop_ok (words_mem mem l) (memb a) r base pos Hbm b 0 0 out) as (out' & E & W);
    auto; rewrite ?Z.add_0_r; auto; try lia.
  { unfold isect in Ho. lia. }
  exists out'. split; [exact E|]. rewrite Z.add_0_r in W.
  assert (RI : Forall (fun x => 0 <= x < 256) (isect b a)) by auto using Forall_isect.
  destruct (map_u32_add base (isect b a) 256) as [M1 _]; auto. rewrite <- M1.
  eapply wrote_weaken; [exact W|lia].
Qed.

Lemma block_type_val n : block_type n = if n <? 31 then t_sparse else t_dense.
Proof. reflexivity. Qed.

Lemma intersect_blocks_ok dl dr ia ib a b base out pos :
  wfb1 (ia, a) -> wfb1 (ib, b) ->
  bytes_at mem dl (block_data a) -> bytes_at mem dr (block_data b) ->
  0 <= dl -> dl + zlen (block_data a) + 31 <= zlen mem ->
  0 <= dr -> dr + zlen (block_data b) + 31 <= zlen mem ->
  0 <= base -> base + 256 <= 4294967296 ->
  0 <= pos -> pos + zlen (isect a b) + 23 <= zlen out ->
  exists out', intersect_blocks tbl dbg mem dl dr (zlen a) (zlen b) base out pos
               = Ok (out', zlen (isect a b))
    /\ wrote 23 out pos (map (addb base) (isect a b)) out'.
Proof.
  intros Wa Wb Ba Bb Hl Hml Hr Hmr Hb0 Hb1 Hp Ho.
  pose proof (blocks_wf1_zlen _ _ Wa) as La. pose proof (blocks_wf1_zlen _ _ Wb) as Lb.
  destruct Wa as (_ & Na & Sa & Ra). destruct Wb as (_ & Nb & Sb & Rb). cbn [snd] in *.
  unfold intersect_blocks. rewrite !block_type_val.
  rewrite zlen_block_data in Hml, Hmr. unfold bytes_by_cardinality in Hml, Hmr.
  change block_sparseness_threshold with 32 in Hml, Hmr.
  destruct (Z.ltb_spec (zlen a) 31) as [Ka|Ka]; destruct (Z.ltb_spec (zlen b) 31) as [Kb|Kb].
  - rewrite Z.eqb_refl. apply block_sparse in Ba, Bb; auto. apply ss_intersect_block_ok; auto; lia.
  - change (block_pair t_sparse t_dense =? block_pair t_sparse t_sparse) with false. cbv iota.
    rewrite Z.eqb_refl. apply block_sparse in Ba; auto. apply block_dense in Bb; auto.
    apply ds_intersect_block_ok; auto; lia.
  - change (block_pair t_dense t_sparse =? block_pair t_sparse t_sparse) with false.
    change (block_pair t_dense t_sparse =? block_pair t_sparse t_dense) with false. cbv iota.
    rewrite Z.eqb_refl. apply block_dense in Ba; auto. apply block_sparse in Bb; auto.
    rewrite (isect_comm a b) in * by auto. apply ds_intersect_block_ok; auto; lia.
  - change (block_pair t_dense t_dense =? block_pair t_sparse t_sparse) with false.
    change (block_pair t_dense t_dense =? block_pair t_sparse t_dense) with false.
    change (block_pair t_dense t_dense =? block_pair t_dense t_sparse) with false. cbv iota.
    rewrite Z.eqb_refl. apply block_dense in Ba, Bb; auto.
    change block_size_in_64bit_words with (Z.of_nat 4).
    destruct (and_bitmaps_ok (words_mem mem dl) (words_mem mem dr) 4 a b base out pos) as (out' & E & W);
      auto; try lia.
    exists out'. split; auto. eapply wrote_weaken; eauto. lia.
Qed.

(** ** two sparse chunks *)
Fixpoint dropg (j : Z) (A : list (Z * list Z)) : list (Z * list Z) :=
  match A with
  | [] => []
  | b :: A' => if fst b <? j then dropg j A' else A
  end.
Lemma dropg_split j A : exists p, A = p ++ dropg j A /\ Forall (fun b => fst b < j) p.
Proof.
  induction A as [|x A (p & E & F)]; [exists []; auto|]. cbn [dropg]. destruct (Z.ltb_spec (fst x) j).
  - exists (x :: p). cbn [app]. rewrite <- E. auto.
  - exists []. auto.
Qed.
Lemma dropg_hd j A x A' : dropg j A = x :: A' -> j <= fst x.
Proof.
  induction A as [|u A IH]; cbn [dropg]; [discriminate|]. destruct (Z.ltb_spec (fst u) j); auto.
  intros [= <- _]. lia.
Qed.
Lemma isect_dropg k lim A j vb B :
  0 < k -> wf k lim A -> wf k lim ((j, vb) :: B) ->
  isect (ungroup k A) (ungroup k ((j, vb) :: B)) = isect (ungroup k (dropg j A)) (ungroup k ((j, vb) :: B)).
Proof.
  intros Hk. induction A as [|[i va] A IH]; intros WA WB; auto. cbn [dropg fst].
  destruct (Z.ltb_spec i j); auto. rewrite (isect_groups_lt k lim) by auto. apply IH; auto.
  now apply wf_cons in WA.
Qed.

Lemma block_advance_ok r j end_ : rd8 mem r = Ok j -> forall A fuel l d,
  blocks_at mem l d A -> A <> [] -> end_ = l + 2 * zlen A -> (length A <= fuel)%nat -> 0 <= d ->
  match dropg j A with
  | [] => block_advance fuel mem l end_ d r = Ok None
  | A' => exists l' d', block_advance fuel mem l end_ d r = Ok (Some (l', d'))
            /\ blocks_at mem l' d' A' /\ end_ = l' + 2 * zlen A'
            /\ 0 <= d' /\ d' + zlen (datas A') = d + zlen (datas A)
  end.
Proof.
  intro Hj. induction A as [|[i va] A IH]; intros fuel l d B Hne He Hf Hd; [congruence|].
  pose proof (blocks_at_cons _ _ _ _ _ _ B) as (W1 & E1 & E2 & D & B' & _).
  pose proof (blocks_wf1_zlen _ _ W1) as Hv.
  rewrite zlen_cons in He. cbn [length] in Hf. destruct fuel as [|f]; [lia|].
  cbn [block_advance dropg fst]. rewrite E1. cbn [bind]. rewrite Hj. cbn [bind].
  destruct (Z.ltb_spec i j).
  - destruct (Z.eqb_spec (l + 2) end_) as [E|E].
    + destruct A; [reflexivity|]. rewrite zlen_cons in *. zpos. lia.
    + rewrite E2. cbn [bind]. replace (zlen va - 1 + 1) with (zlen va) by lia.
      specialize (IH f (l + 2) (d + bytes_by_cardinality (zlen va)) B').
      assert (0 <= bytes_by_cardinality (zlen va)) by (unfold bytes_by_cardinality; destruct (zlen va <? _); lia).
      rewrite zlen_datas_cons. cbn [snd]. rewrite Z.add_assoc. apply IH; try lia.
      intros ->. rewrite zlen_nil in *. lia.
  - exists l, d. rewrite zlen_cons. repeat split; auto; try lia; apply B.
Qed.

Lemma blocks_wf l d A : blocks_at mem l d A -> wfb A.
Proof. now intros (H & _). Qed.

Lemma ss_intersect_chunk_loop_ok end_l end_r base : forall fuel A B l r dl dr out tmp,
  (length A + length B <= fuel)%nat ->
  blocks_at mem l dl A -> blocks_at mem r dr B -> A <> [] -> B <> [] ->
  end_l = l + 2 * zlen A -> end_r = r + 2 * zlen B ->
  0 <= dl -> dl + zlen (datas A) + 31 <= zlen mem -> 0 <= dr -> dr + zlen (datas B) + 31 <= zlen mem ->
  0 <= base -> base + 65536 <= 4294967296 ->
  0 <= tmp -> tmp + zlen (isect (ungroup 256 A) (ungroup 256 B)) + 23 <= zlen out ->
  exists out', ss_intersect_chunk_loop fuel tbl dbg mem l r end_l end_r dl dr base out tmp
               = Ok (out', tmp + zlen (isect (ungroup 256 A) (ungroup 256 B)))
    /\ wrote 23 out tmp (map (addb base) (isect (ungroup 256 A) (ungroup 256 B))) out'.
Proof.
  induction fuel as [|f IH]; intros A B l r dl dr out tmp Hf BA BB NA NB El Er Hdl Hml Hdr Hmr Hb0 Hb1 Ht0 Ho.
  { destruct A; [congruence|]. cbn [length] in Hf. lia. }
  destruct B as [|[j vb] B]; [congruence|]. cbn [ss_intersect_chunk_loop].
  pose proof (blocks_at_cons _ _ _ _ _ _ BB) as (_ & Ej & _).
  assert (LA : (length A <= S (Z.to_nat (end_l - l)))%nat) by (unfold zlen in El; lia).
  pose proof (block_advance_ok r j end_l Ej A (S (Z.to_nat (end_l - l))) l dl BA NA El LA Hdl) as H1.
  assert (H256 : 0 < 256) by lia.
  rewrite (isect_dropg 256 256 A j vb B H256 (blocks_wf _ _ _ BA) (blocks_wf _ _ _ BB)) in *.
  destruct (dropg_split j A) as (pA & EA & _). destruct (dropg j A) as [|[i va] A'] eqn:EA'.
  { rewrite H1. cbn [bind]. exists out. cbn. split; [f_equal; f_equal; lia|]. apply wrote_nil; lia. }
  destruct H1 as (l' & dl' & -> & BA' & El' & Hdl' & EDl). cbn [bind].
  pose proof (blocks_at_cons _ _ _ _ _ _ BA') as (Wi & Ei & Eci & Di & BA2 & Fi).
  assert (LB : (length ((j, vb) :: B) <= S (Z.to_nat (end_r - r)))%nat) by (unfold zlen in Er; lia).
  pose proof (block_advance_ok l' i end_r Ei ((j, vb) :: B) (S (Z.to_nat (end_r - r))) r dr BB NB Er LB Hdr) as H2.
  assert (SA' : sorted (ungroup 256 ((i, va) :: A'))) by (apply (sorted_ungroup 256 256); [lia|eapply blocks_wf; eauto]).
  assert (SB : sorted (ungroup 256 ((j, vb) :: B))) by (apply (sorted_ungroup 256 256); [lia|eapply blocks_wf; eauto]).
  rewrite (isect_comm (ungroup 256 ((i, va) :: A'))) in * by auto.
  rewrite (isect_dropg 256 256 _ i va A' H256 (blocks_wf _ _ _ BB) (blocks_wf _ _ _ BA')) in *.
  destruct (dropg_split i ((j, vb) :: B)) as (pB & EB & _).
  destruct (dropg i ((j, vb) :: B)) as [|[j' vb'] B'] eqn:EB'.
  { rewrite H2. cbn [bind]. exists out. cbn. split; [f_equal; f_equal; lia|]. apply wrote_nil; lia. }
  destruct H2 as (r' & dr' & -> & BB' & Er' & Hdr' & EDr). cbn [bind].
  pose proof (blocks_at_cons _ _ _ _ _ _ BB') as (Wj & Ej' & Ecj & Dj & BB2 & Fj).
  apply dropg_hd in EB'. cbn [fst] in EB'.
  assert (SB' : sorted (ungroup 256 ((j', vb') :: B'))) by (apply (sorted_ungroup 256 256); [lia|eapply blocks_wf; eauto]).
  rewrite <- (isect_comm (ungroup 256 ((i, va) :: A'))) in * by auto.
  rewrite Ei. cbn [bind]. rewrite Ej'. cbn [bind].
  assert (La : length A = (length pA + length ((i, va) :: A'))%nat) by (rewrite EA, app_length; auto).
  assert (Lb : length ((j, vb) :: B) = (length pB + length ((j', vb') :: B'))%nat) by (rewrite EB, app_length; auto).
  cbn [length] in La, Lb, Hf.
  rewrite <- EDl in Hml. rewrite <- EDr in Hmr.
  destruct (Z.eqb_spec i j') as [E|E].
  - subst j'. rewrite Eci. cbn [bind]. rewrite Ecj. cbn [bind].
    pose proof (blocks_wf1_zlen _ _ Wi) as Hva. pose proof (blocks_wf1_zlen _ _ Wj) as Hvb.
    replace (zlen va - 1 + 1) with (zlen va) by lia. replace (zlen vb' - 1 + 1) with (zlen vb') by lia.
    rewrite (isect_groups_eq 256 256 H256 i i va vb' A' B') in *
      by (auto; eapply blocks_wf; eauto).
    rewrite zlen_app, zlen_ungroup1 in *. cbn [snd] in *.
    rewrite zlen_datas_cons in Hml, Hmr. cbn [snd] in Hml, Hmr.
    pose proof (zlen_nonneg _ (isect va vb')). pose proof (zlen_nonneg _ (isect (ungroup 256 A') (ungroup 256 B'))).
    pose proof (zlen_nonneg _ (datas A')). pose proof (zlen_nonneg _ (datas B')).
    assert (Hi : 0 <= i < 256) by apply Wi.
    rewrite (u32_id (base + i * 256)) by lia.
    destruct (intersect_blocks_ok dl' dr' i i va vb' (base + i * 256) out tmp) as (out1 & -> & W1);
      auto; try lia; try (rewrite zlen_block_data; lia).
    cbn [bind]. pose proof (wrote_zlen _ _ _ _ _ W1).
    assert (zlen (isect va vb') <= 256) by (pose proof (zlen_isect_le va vb'); lia).
    rewrite u32_id by lia. rewrite map_app.
    assert (EM : map (addb base) (ungroup1 256 (i, isect va vb')) = map (addb (base + i * 256)) (isect va vb')).
    { unfold ungroup1. cbn [fst snd]. rewrite map_map. apply map_ext. intro x. unfold addb. lia. }
    rewrite EM. rewrite zlen_cons in El', Er'.
    assert (0 <= bytes_by_cardinality (zlen va)) by (unfold bytes_by_cardinality; destruct (zlen va <? _); lia).
    assert (0 <= bytes_by_cardinality (zlen vb')) by (unfold bytes_by_cardinality; destruct (zlen vb' <? _); lia).
    destruct (Z.eqb_spec (l' + 1 + 1) end_l) as [E1|E1]; [|destruct (Z.eqb_spec (r' + 1 + 1) end_r) as [E2|E2]];
      cbn [orb].
    + destruct A' as [|? A']; [|rewrite zlen_cons in El'; zpos; lia].
      exists out1. split; [cbn; f_equal; f_equal; lia|]. cbn [ungroup flat_map isect filter map].
      now rewrite app_nil_r.
    + destruct B' as [|? B']; [|rewrite zlen_cons in Er'; zpos; lia].
      exists out1. cbn [ungroup flat_map]. rewrite isect_nil_r. cbn [map]. rewrite zlen_nil.
      split; [f_equal; f_equal; lia|]. now rewrite app_nil_r.
    + destruct (IH A' B' (l' + 2) (r' + 2) (dl' + bytes_by_cardinality (zlen va))
        (dr' + bytes_by_cardinality (zlen vb')) out1 (tmp + zlen (isect va vb'))) as (out2 & -> & W2);
        auto; try lia.
      * intros ->. rewrite zlen_nil in *. lia.
      * intros ->. rewrite zlen_nil in *. lia.
      * exists out2. split; [f_equal; f_equal; lia|]. eapply wrote_app; [lia|exact W1|].
        now rewrite zlen_map.
  - apply IH; auto; try discriminate.
    cbn [length]. destruct pA as [|u pA]; [|cbn [length] in La; lia].
    destruct pB as [|u pB]; [|cbn [length] in Lb; lia].
    cbn [app] in EB. injection EB as <- <- <-. apply dropg_hd in EA'. cbn [fst] in EA'. lia.
Qed.
End Blocks.

(** ** chunks *)
Lemma isect_full_r ib a b :
  Forall (fun x => 0 <= x < 65536) a -> wfc1 (ib, b) -> kind_of b = KFull -> isect a b = a.
Proof.
  intros Ra Wb K. unfold isect. rewrite (filter_ext_in _ (fun _ => true)).
  - clear. induction a; cbn; congruence.
  - intros x Hx. rewrite Forall_forall in Ra. eapply full_memb; eauto.
Qed.

Lemma decode_sparse_chunk_ok dbg mem it id c cs base out pos :
  it_view 31 mem it ((id, c) :: cs) -> kind_of c = KSparse ->
  0 <= base -> base + 65536 <= 4294967296 -> 0 <= pos -> pos + zlen c + 23 <= zlen out ->
  exists out', decode_sparse_chunk dbg mem (i_data it) (zlen (blocks_of c)) base out pos = Ok (out', zlen c)
    /\ wrote 23 out pos (map (addb base) c) out'.
Proof.
  intros V K Hb0 Hb1 Hp Ho. pose proof (view_wf _ _ _ _ _ V) as W. pose proof (chunk_card _ _ W) as Hc.
  destruct (view_sparse _ _ _ _ _ _ V K) as (B & Hn & Hd & Hm).
  unfold decode_sparse_chunk.
  rewrite assert_ok by (apply andb_true_intro; split; apply Z.leb_le; lia). cbn [bind].
  destruct (decode_blocks_ok mem (i_data it + zlen (blocks_of c) * 2) base (blocks_of c)
    (S (Z.to_nat (zlen (blocks_of c)))) (i_data it) (i_data it + zlen (blocks_of c) * 2) out pos)
    as (out' & E & W'); auto; try lia.
  { rewrite length_zlen. lia. }
  { replace (zlen (blocks_of c) * 2) with (2 * zlen (blocks_of c)) by lia. exact B. }
  { rewrite blocks_ungroup. auto. }
  rewrite E. cbn [bind]. rewrite blocks_ungroup in *. exists out'.
  replace (pos + zlen c - pos) with (zlen c) by lia. rewrite u32_id by lia. auto.
Qed.
Lemma decode_dense_chunk_ok mem it id c cs base out pos :
  it_view 31 mem it ((id, c) :: cs) -> kind_of c = KDense ->
  0 <= base -> base + 65536 <= 4294967296 -> 0 <= pos -> pos + zlen c + 23 <= zlen out ->
  exists out', decode_bitmap (words_mem mem (i_data it)) M_Util.chunk_size_in_64bit_words base out pos = Ok (out', zlen c)
    /\ wrote 23 out pos (map (addb base) c) out'.
Proof.
  intros V K Hb0 Hb1 Hp Ho. pose proof (view_wf _ _ _ _ _ V) as (_ & Hne & Hs & Hr). cbn [snd] in *.
  pose proof (view_dense _ _ _ _ _ _ V K) as B. change M_Util.chunk_size_in_64bit_words with 1024.
  destruct (decode_bitmap_ok (words_mem mem (i_data it)) (Z.to_nat 1024) c base out pos)
    as (out' & E & W); rewrite ?Z2Nat.id in * by lia; auto; try lia.
  exists out'. split; auto. eapply wrote_weaken; eauto. lia.
Qed.
Lemma decode_full_chunk_ok id c base out pos :
  wfc1 (id, c) -> kind_of c = KFull ->
  0 <= base -> base + 65536 <= 4294967296 -> 0 <= pos -> pos + zlen c + 23 <= zlen out ->
  exists out', decode_full_chunk base out pos = Ok (out', zlen c)
    /\ wrote 23 out pos (map (addb base) c) out'.
Proof.
  intros W K Hb0 Hb1 Hp Ho. unfold decode_full_chunk.
  pose proof (kind_full _ _ W K) as EC.
  assert (LC : zlen c = 65536) by (rewrite EC, zlen_zrange; lia).
  change M_Util.chunk_size with 65536.
  destruct (decode_full_loop_ok (Z.to_nat 65536) 0 base out pos) as (out' & -> & W'); try lia.
  cbn [bind]. exists out'. rewrite LC. split; auto. rewrite Z.add_0_r in W'. rewrite EC.
  eapply wrote_weaken; eauto. lia.
Qed.

Lemma bm_zeros n pos :
  0 <= pos -> pos + 1024 <= Z.of_nat n -> bm_at (reg (repeat 0 n) pos) 1024 (fun _ => false).
Proof.
  intros H1 H2 i Hi. exists 0. split; [|split; [unfold w64; lia|intros; apply Z.testbit_0_l]].
  unfold reg. apply vget_ok. apply znth_repeat. lia.
Qed.

Lemma and_chunk_ok l r a b base out pos :
  bm_at l 1024 (memb a) -> bm_at r 1024 (memb b) -> sorted a -> sorted b ->
  Forall (fun x => 0 <= x < 65536) a -> Forall (fun x => 0 <= x < 65536) b ->
  0 <= base -> base + 65536 <= 4294967296 -> 0 <= pos -> pos + zlen (isect a b) + 23 <= zlen out ->
  exists out', and_bitmaps l r M_Util.chunk_size_in_64bit_words base out pos = Ok (out', zlen (isect a b))
    /\ wrote 23 out pos (map (addb base) (isect a b)) out'.
Proof.
  intros Ba Bb Sa Sb Ra Rb Hb0 Hb1 Hp Ho. change M_Util.chunk_size_in_64bit_words with 1024.
  destruct (and_bitmaps_ok l r (Z.to_nat 1024) a b base out pos)
    as (out' & E & W); rewrite ?Z2Nat.id in * by lia; auto; try lia.
  exists out'. split; auto. eapply wrote_weaken; eauto. lia.
Qed.

Section Chunks.
Variable tbl : Z -> list Z.
Hypothesis Ht : shuffle_table_ok tbl.
Variables (dbg : bool) (mem : list Z).

Lemma ss_intersect_chunk_ok itl itr il ir a b A B base out pos :
  it_view 31 mem itl ((il, a) :: A) -> it_view 31 mem itr ((ir, b) :: B) ->
  kind_of a = KSparse -> kind_of b = KSparse ->
  0 <= base -> base + 65536 <= 4294967296 -> 0 <= pos -> pos + zlen (isect a b) + 23 <= zlen out ->
  exists out', ss_intersect_chunk tbl dbg mem (i_data itl) (i_data itr) (zlen (blocks_of a)) (zlen (blocks_of b)) base out pos
               = Ok (out', zlen (isect a b))
    /\ wrote 23 out pos (map (addb base) (isect a b)) out'.
Proof.
  intros Va Vb Ka Kb Hb0 Hb1 Hp Ho.
  destruct (view_sparse _ _ _ _ _ _ Va Ka) as (BA & Hna & Hda & Hma).
  destruct (view_sparse _ _ _ _ _ _ Vb Kb) as (BB & Hnb & Hdb & Hmb).
  unfold ss_intersect_chunk.
  rewrite assert_ok by (apply andb_true_intro; split; apply Z.leb_le; lia). cbn [bind].
  rewrite assert_ok by (apply andb_true_intro; split; apply Z.leb_le; lia). cbn [bind].
  rewrite !(Z.mul_comm _ 2).
  pose proof (ss_intersect_chunk_loop_ok tbl Ht dbg mem
    (i_data itl + 2 * zlen (blocks_of a)) (i_data itr + 2 * zlen (blocks_of b)) base
    (S (Z.to_nat (zlen (blocks_of a) + zlen (blocks_of b)))) (blocks_of a) (blocks_of b)
    (i_data itl) (i_data itr) (i_data itl + 2 * zlen (blocks_of a)) (i_data itr + 2 * zlen (blocks_of b)) out pos) as L.
  rewrite !blocks_ungroup in L.
  destruct L as (out' & E & W); auto; try lia.
  { unfold zlen. lia. }
  { intro E. rewrite E, zlen_nil in *. lia. }
  { intro E. rewrite E, zlen_nil in *. lia. }
  rewrite E. cbn [bind]. exists out'. split; auto. f_equal; f_equal; lia.
Qed.

Lemma ds_intersect_chunk_ok itl itr il ir a b A B base x out pos :
  it_view 31 mem itl ((il, a) :: A) -> it_view 31 mem itr ((ir, b) :: B) ->
  kind_of a = KDense -> kind_of b = KSparse -> zlen x = 1024 ->
  0 <= base -> base + 65536 <= 4294967296 -> 0 <= pos -> pos + zlen (isect a b) + 23 <= zlen out ->
  exists x' out', ds_intersect_chunk dbg mem (i_data itl) (i_data itr) (zlen (blocks_of b)) base x out pos
               = Ok (x', out', zlen (isect a b)) /\ zlen x' = 1024
    /\ wrote 23 out pos (map (addb base) (isect a b)) out'.
Proof.
  intros Va Vb Ka Kb Hx Hb0 Hb1 Hp Ho. unfold ds_intersect_chunk.
  destruct (uncompress_sparse_chunk_ok dbg mem 31 itr ir b B (repeat 0 (length x)) 0) as (x' & -> & Bx & Sx); auto; try lia.
  { rewrite zlen_repeat. unfold zlen in Hx. lia. }
  { apply bm_zeros; [lia|]. unfold zlen in Hx. lia. }
  cbn [bind].
  pose proof (view_wf _ _ _ _ _ Va) as (_ & _ & Sa & Ra). pose proof (view_wf _ _ _ _ _ Vb) as (_ & _ & Sb & Rb).
  cbn [snd] in *.
  destruct (and_chunk_ok (words_mem mem (i_data itl)) (words_vec x') a b base out pos) as (out' & E & W); auto.
  { eapply view_dense; eauto. }
  rewrite E. cbn [bind]. exists x', out'. split; auto. split; auto.
  destruct Sx as [Sx _]. rewrite Sx, zlen_repeat. exact Hx.
Qed.

Lemma intersect_chunks_ok itl itr il ir a b A B base x out pos :
  it_view 31 mem itl ((il, a) :: A) -> it_view 31 mem itr ((ir, b) :: B) -> zlen x = 1024 ->
  0 <= base -> base + 65536 <= 4294967296 -> 0 <= pos -> pos + zlen (isect a b) + 23 <= zlen out ->
  exists x' out', intersect_chunks tbl dbg mem itl itr base x out pos
               = Ok (x', out', zlen (isect a b)) /\ zlen x' = 1024
    /\ wrote 23 out pos (map (addb base) (isect a b)) out'.
Proof.
  intros Va Vb Hx Hb0 Hb1 Hp Ho.
  pose proof (view_wf _ _ _ _ _ Va) as Wa. pose proof (view_wf _ _ _ _ _ Vb) as Wb.
  pose proof Wa as (_ & _ & Sa & Ra). pose proof Wb as (_ & _ & Sb & Rb). cbn [snd] in *.
  unfold intersect_chunks.
  rewrite (id_view_type _ _ _ _ _ (proj1 Va)), (id_view_type _ _ _ _ _ (proj1 Vb)). cbn [bind].
  assert (KEEP : forall (y : res (list Z * Z)) e,
    (exists out', y = Ok (out', zlen e) /\ wrote 23 out pos (map (addb base) e) out') ->
    exists x' out', (let! p := y in let '(out, n) := p in Ok (x, out, n)) = Ok (x', out', zlen e) /\ zlen x' = 1024
      /\ wrote 23 out pos (map (addb base) e) out').
  { intros y e (out' & -> & W). cbn [bind]. eauto. }
  destruct (kind_of a) eqn:Ka; destruct (kind_of b) eqn:Kb;
    repeat match goal with |- context [chunk_pair ?x ?y =? chunk_pair ?z ?w] =>
      let v := eval vm_compute in (chunk_pair x y =? chunk_pair z w) in
      replace (chunk_pair x y =? chunk_pair z w) with v by reflexivity end; cbv iota.
  - (* sparse, sparse *)
    rewrite (id_view_blocks _ _ _ _ _ (proj1 Va) Ka), (id_view_blocks _ _ _ _ _ (proj1 Vb) Kb). cbn [bind].
    destruct (zlen (blocks_of a) <? zlen (blocks_of b)).
    + apply KEEP. eapply ss_intersect_chunk_ok; eauto.
    + rewrite (isect_comm a b) in * by auto. apply KEEP. eapply ss_intersect_chunk_ok; eauto.
  - (* sparse, dense *)
    rewrite (id_view_blocks _ _ _ _ _ (proj1 Va) Ka). cbn [bind].
    rewrite (isect_comm a b) in * by auto. eapply ds_intersect_chunk_ok; eauto.
  - (* sparse, full *)
    rewrite (id_view_blocks _ _ _ _ _ (proj1 Va) Ka). cbn [bind].
    rewrite (isect_full_r ir a b) in * by auto. apply KEEP. eapply decode_sparse_chunk_ok; eauto.
  - (* dense, sparse *)
    rewrite (id_view_blocks _ _ _ _ _ (proj1 Vb) Kb). cbn [bind].
    eapply ds_intersect_chunk_ok; eauto.
  - (* dense, dense *)
    apply KEEP. apply and_chunk_ok; auto; eapply view_dense; eauto.
  - (* dense, full *)
    rewrite (isect_full_r ir a b) in * by auto. apply KEEP. eapply decode_dense_chunk_ok; eauto.
  - (* full, sparse *)
    rewrite (id_view_blocks _ _ _ _ _ (proj1 Vb) Kb). cbn [bind].
    rewrite (isect_comm a b) in * by auto.
    rewrite (isect_full_r il b a) in * by auto. apply KEEP. eapply decode_sparse_chunk_ok; eauto.
  - (* full, dense *)
    rewrite (isect_comm a b) in * by auto.
    rewrite (isect_full_r il b a) in * by auto. apply KEEP. eapply decode_dense_chunk_ok; eauto.
  - (* full, full *)
    rewrite (isect_full_r ir a b) in * by auto. apply KEEP. eapply decode_full_chunk_ok; eauto.
Qed.

(** ** sequences *)
Lemma dropped_dropg j A pre suf : dropped j A pre suf -> suf = dropg j A.
Proof.
  intros (-> & F & G). induction pre as [|b pre IH]; cbn [app dropg].
  - destruct suf as [|b suf]; auto. cbn [dropg]. inversion G; subst. destruct (Z.ltb_spec (fst b) j); [lia|auto].
  - inversion F; subst. destruct (Z.ltb_spec (fst b) j); [auto|lia].
Qed.

Lemma pairwise_intersection_loop_ok : forall fuel A B itl itr x out pos,
  (length A + length B <= fuel)%nat ->
  it_view 31 mem itl A -> it_view 31 mem itr B -> zlen x = 1024 ->
  0 <= pos -> pos + zlen (isect (ungroup 65536 A) (ungroup 65536 B)) + 23 <= zlen out ->
  exists x' out', pairwise_intersection_loop fuel tbl dbg mem itl itr x out pos
               = Ok (x', out', pos + zlen (isect (ungroup 65536 A) (ungroup 65536 B))) /\ zlen x' = 1024
    /\ wrote 23 out pos (isect (ungroup 65536 A) (ungroup 65536 B)) out'.
Proof.
  assert (Hk : 0 < 65536) by lia.
  induction fuel as [|f IH]; intros A B itl itr x out pos Hf Va Vb Hx Hp Ho; cbn [pairwise_intersection_loop];
    rewrite (id_view_has_next _ _ _ (proj1 Va)), (id_view_has_next _ _ _ (proj1 Vb)).
  all: destruct A as [|[i a] A]; [exists x, out; cbn; split; [f_equal; f_equal; lia|]; split; auto; apply wrote_nil; lia|].
  all: destruct B as [|[j b] B]; [cbn [ungroup flat_map andb]; rewrite isect_nil_r; exists x, out; split;
    [f_equal; f_equal; rewrite zlen_nil; lia|]; split; auto; apply wrote_nil; lia|].
  { cbn [length] in Hf. lia. }
  cbn [andb]. pose proof (proj1 (proj1 Va)) as WA. pose proof (proj1 (proj1 Vb)) as WB.
  destruct (chunk_base _ _ _ _ _ (proj1 Va)) as (Ei & Ebi & Hi).
  destruct (chunk_base _ _ _ _ _ (proj1 Vb)) as (Ej & Ebj & Hj).
  rewrite Ei, Ej. cbn [bind]. rewrite !u16_id by lia. cbn [length] in Hf.
  destruct (Z.eqb_spec i j) as [E|E].
  - subst j. rewrite Ebi.
    rewrite (isect_groups_eq 65536 65535 Hk i i a b A B) in * by auto.
    rewrite zlen_app, zlen_ungroup1 in *. cbn [snd] in *.
    pose proof (zlen_nonneg _ (isect a b)). pose proof (zlen_nonneg _ (isect (ungroup 65536 A) (ungroup 65536 B))).
    destruct (intersect_chunks_ok itl itr i i a b A B (i * 65536) x out pos) as (x1 & out1 & -> & Hx1 & W1); auto; try lia.
    cbn [bind]. pose proof (wrote_zlen _ _ _ _ _ W1).
    destruct (view_next _ _ _ _ _ _ Va) as (itl1 & -> & Va1 & _). cbn [bind].
    destruct (view_next _ _ _ _ _ _ Vb) as (itr1 & -> & Vb1 & _). cbn [bind].
    pose proof (chunk_card _ _ (view_wf _ _ _ _ _ Va)). pose proof (zlen_isect_le a b).
    rewrite u32_id by lia.
    destruct (IH A B itl1 itr1 x1 out1 (pos + zlen (isect a b))) as (x2 & out2 & -> & Hx2 & W2); auto; try lia.
    exists x2, out2. split; [f_equal; f_equal; lia|]. split; auto.
    eapply wrote_app; [lia|exact W1|]. now rewrite zlen_ungroup1.
  - destruct (Z.ltb_spec i j).
    + destruct (it_advance_ok 31 mem itl ((i, a) :: A) j Va) as (itl1 & pre & suf & -> & D & Va1 & _); [lia|].
      cbn [bind]. pose proof (dropped_dropg _ _ _ _ D) as Es.
      rewrite (isect_dropg 65536 65535 ((i, a) :: A) j b B Hk WA WB) in *. rewrite <- Es in *.
      apply IH; auto. destruct D as (D & F & G). apply (f_equal (@length _)) in D. rewrite app_length in D.
      cbn [length] in *. destruct pre as [|? pre]; [|cbn [length] in D; lia].
      exfalso. destruct suf as [|? suf]; [discriminate|]. cbn [dropg fst] in Es.
      destruct (Z.ltb_spec i j); [|lia]. clear IH. 
      assert (Ls : (length (dropg j A) <= length A)%nat).
      { destruct (dropg_split j A) as (pp & Ep & _). rewrite Ep at 2. rewrite app_length. lia. }
      rewrite <- Es in Ls. cbn [length] in *. lia.
    + destruct (it_advance_ok 31 mem itr ((j, b) :: B) i Vb) as (itr1 & pre & suf & -> & D & Vb1 & _); [lia|].
      cbn [bind]. pose proof (dropped_dropg _ _ _ _ D) as Es.
      assert (SA : sorted (ungroup 65536 ((i, a) :: A))) by (apply (sorted_ungroup 65536 65535); auto).
      assert (SB : sorted (ungroup 65536 ((j, b) :: B))) by (apply (sorted_ungroup 65536 65535); auto).
      assert (SB1 : sorted (ungroup 65536 suf)) by (apply (sorted_ungroup 65536 65535); auto; apply Vb1).
      rewrite (isect_comm (ungroup 65536 ((i, a) :: A))) in * by auto.
      rewrite (isect_dropg 65536 65535 ((j, b) :: B) i a A Hk WB WA) in *. rewrite <- Es in *.
      rewrite <- (isect_comm (ungroup 65536 ((i, a) :: A))) in * by auto.
      apply IH; auto. destruct D as (D & F & G). apply (f_equal (@length _)) in D. rewrite app_length in D.
      cbn [length] in *. destruct pre as [|? pre]; [|cbn [length] in D; lia].
      exfalso. destruct suf as [|? suf]; [discriminate|]. cbn [dropg fst] in Es.
      destruct (Z.ltb_spec j i); [|lia]. clear IH.
      assert (Ls : (length (dropg i B) <= length B)%nat).
      { destruct (dropg_split i B) as (pp & Ep & _). rewrite Ep at 2. rewrite app_length. lia. }
      rewrite <- Es in Ls. cbn [length] in *. lia.
Qed.

Lemma pairwise_intersection_ok a b S T x out pos :
  valid S -> valid T -> stored 31 mem a S -> stored 31 mem b T -> zlen x = 1024 ->
  0 <= pos -> pos + zlen (isect S T) + 23 <= zlen out ->
  exists s t x' out', seq_at mem a = Ok s /\ seq_at mem b = Ok t
    /\ pairwise_intersection tbl dbg mem s t x out pos = Ok (x', out', zlen (isect S T))
    /\ zlen x' = 1024 /\ wrote 23 out pos (isect S T) out'.
Proof.
  intros HS HT StS StT Hx Hp Ho.
  destruct (stored_seq 31 mem a S HS StS ltac:(lia)) as (s & Es & _ & Vs & _).
  destruct (stored_seq 31 mem b T HT StT ltac:(lia)) as (t & Et & _ & Vt & _).
  destruct (valid_chunks S HS) as (_ & _ & US & _). destruct (valid_chunks T HT) as (_ & _ & UT & _).
  pose proof (pairwise_intersection_loop_ok (it_fuel (seq_begin s) + it_fuel (seq_begin t))
    (chunks_of S) (chunks_of T) (seq_begin s) (seq_begin t) x out pos) as L.
  rewrite US, UT in L. destruct L as (x' & out' & E & Hx' & W); auto.
  { pose proof (it_fuel_ok _ _ _ (proj1 Vs)). pose proof (it_fuel_ok _ _ _ (proj1 Vt)). lia. }
  exists s, t, x', out'. unfold pairwise_intersection. rewrite E. cbn [bind].
  repeat split; auto; try apply W. f_equal; f_equal; lia.
Qed.
End Chunks.
