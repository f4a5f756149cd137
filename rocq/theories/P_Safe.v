(** The operations on sequences with arbitrary data are defined if enough memory is readable and enough is writable. *)
From Verif Require Import Base Hw Spec Outcome Lib L_Bits L_Group Layout Format Damage M_Util M_Build M_Seq M_Decode M_Uncompress
  M_Intersect M_Union P_Build1 P_Build2 P_Build3 P_Seq P_Decode P_Uncompress P_Query P_Enum P_Format P_Fin1 P_Total P_Reads
  P_Inter P_Damage P_Damage2 P_Cut P_Spoil P_Spoil2 P_Lands.
From Coq Require Import Lia.

Lemma fin_any_bitmap word n base out pos : 0 <= n <= 1024 -> (forall i, 0 <= i < n -> fin (word i) w64) -> 0 <= pos -> pos + 64 * n <= zlen out ->
  fin (bitmap_loop (Z.to_nat n) word 0 base out pos 0) (fun r => zlen (fst r) = zlen out /\ 0 <= snd r <= 64 * n).
Proof.
  intros Hn Hw H3 H4.
  set (f := fun x => match word (x / 64) with Ok w => Z.testbit w (x mod 64) | _ => false end).
  assert (L : zlen (filter f (zrange (64 * 0) (64 * Z.to_nat n))) <= 64 * n).
  { unfold zlen. pose proof (filter_length_le _ f (zrange (64 * 0) (64 * Z.to_nat n))) as F.
    pose proof (zlen_zrange (64 * 0) (64 * Z.to_nat n)) as ZL. unfold zlen in ZL. lia. }
  pose proof (zlen_nonneg _ (filter f (zrange (64 * 0) (64 * Z.to_nat n)))) as P.
  destruct (bitmap_loop_ok (Z.to_nat n) word f 0 base out pos 0) as (b & -> & W); [|lia..|].
  { intros k K1 K2. destruct (Hw k ltac:(lia)) as (w & E & Ww). exists w. split; auto. split; auto. intros j Hj. unfold f.
    replace ((64 * k + j) / 64) with k by lia. replace ((64 * k + j) mod 64) with j by lia. now rewrite E. }
  apply fin_ok. cbn [fst snd]. rewrite (wrote_zlen _ _ _ _ _ W). lia.
Qed.
Lemma fin_vec v i : Forall w64 v -> 0 <= i < zlen v -> fin (words_vec v i) w64.
Proof.
  intros F H. unfold words_vec, vget. destruct (znth_Some _ v i H) as (w & E). rewrite E. apply fin_ok.
  apply znth_In in E. rewrite Forall_forall in F. auto.
Qed.

Section Mem.
Variables (dbg : bool) (mem : list Z).
Hypothesis Hb : Forall is_byte mem.

Lemma fin_mem a i : 0 <= a + 8 * i -> a + 8 * i + 8 <= zlen mem -> fin (words_mem mem a i) w64.
Proof. intros H1 H2. unfold words_mem. now apply (rd64_fin mem Hb). Qed.
Lemma and_fin l r n base out pos : 0 <= n <= 1024 -> (forall i, 0 <= i < n -> fin (l i) w64) -> (forall i, 0 <= i < n -> fin (r i) w64) ->
  0 <= pos -> pos + 64 * n <= zlen out ->
  fin (and_bitmaps l r n base out pos) (fun x => zlen (fst x) = zlen out /\ 0 <= snd x <= 64 * n).
Proof.
  intros Hn L R H1 H2. unfold and_bitmaps. apply fin_any_bitmap; auto. intros i Hi.
  eapply fin_seq; [apply L, Hi|]. intros a A. eapply fin_seq; [apply R, Hi|]. intros b B. apply fin_ok. now apply land_w64.
Qed.
Lemma or_fin l r n base out pos : 0 <= n <= 1024 -> (forall i, 0 <= i < n -> fin (l i) w64) -> (forall i, 0 <= i < n -> fin (r i) w64) ->
  0 <= pos -> pos + 64 * n <= zlen out ->
  fin (or_bitmaps l r n base out pos) (fun x => zlen (fst x) = zlen out /\ 0 <= snd x <= 64 * n).
Proof.
  intros Hn L R H1 H2. unfold or_bitmaps. apply fin_any_bitmap; auto. intros i Hi.
  eapply fin_seq; [apply L, Hi|]. intros a A. eapply fin_seq; [apply R, Hi|]. intros b B. apply fin_ok. now apply lor_w64.
Qed.
Lemma load128_fin a : 0 <= a -> a + 16 <= zlen mem -> fin (load128 mem a) (fun _ => True).
Proof. intros H1 H2. unfold load128. eapply fin_mono; [apply (rd_bytes_fin mem Hb 16); lia|]. auto. Qed.
Lemma rd8_known a : 0 <= a < zlen mem -> exists x, rd8 mem a = Ok x /\ is_byte x.
Proof. intro H. exact (rd8_fin mem Hb a H). Qed.

(** ** blocks *)
Variables (tbl : Z -> list Z) (Ht : shuffle_table_ok tbl).
Lemma INTERSECT_fin v_l cl v_r cr b out pos size : 0 <= pos -> pos + 16 <= zlen out ->
  fin (INTERSECT tbl v_l cl v_r cr b out pos size) (fun r => zlen (fst r) = zlen out /\ size <= snd r <= size + 16).
Proof.
  intros H0 H1. unfold INTERSECT. cbv zeta. set (mask := cmpestrm v_l cl v_r cr).
  assert (Hm : 0 <= mask < 65536).
  { unfold mask, cmpestrm. pose proof (mask_range (firstn (Z.to_nat (Z.min 16 (Z.abs cl))) v_l) (firstn (Z.to_nat (Z.min 16 (Z.abs cr))) v_r)) as H.
    split; [lia|]. eapply Z.lt_le_trans; [apply H|]. change 65536 with (2 ^ 16). apply Z.pow_le_mono_r; [lia|].
    rewrite zlen_firstn. lia. }
  pose proof (popcount_range mask 16 ltac:(lia) ltac:(lia)) as Hp.
  destruct (Ht mask Hm) as [L16 _]. set (p := pshufb v_r (tbl mask)).
  assert (Lp : zlen p = 16) by (unfold p, pshufb; rewrite zlen_map; exact L16).
  eapply fin_seq; [apply store_fin; [lia|rewrite zlen_cvt; lia]|]. intros o1 S1. cbn beta in S1.
  destruct (Z.ltb_spec 8 (popcount mask)).
  - eapply fin_seq; [apply store_fin; [lia|]|].
    { rewrite zlen_cvt; [lia|]. unfold bsrli8. rewrite zlen_app. change (zlen (repeat 0 8)) with 8. zpos. lia. }
    intros o2 S2. cbn beta in S2. apply fin_ok. cbn [fst snd]. split; [congruence|lia].
  - apply fin_ok. cbn [fst snd]. split; [auto|lia].
Qed.
Lemma scalar_advance_fin : forall fuel l end_l r, l < end_l -> end_l - l <= Z.of_nat fuel -> 0 <= l -> end_l <= zlen mem -> 0 <= r < zlen mem ->
  fin (scalar_advance fuel mem l end_l r) (fun o => forall l', o = Some l' -> l <= l' < end_l
    /\ exists a b, rd8 mem l' = Ok a /\ rd8 mem r = Ok b /\ b <= a).
Proof.
  induction fuel as [|f IH]; intros l end_l r H1 H2 H3 H4 H5; [lia|]. cbn [scalar_advance].
  destruct (rd8_known l) as (a & Ea & _); [lia|]. destruct (rd8_known r) as (b & Eb & _); [lia|]. rewrite Ea, Eb. cbn [bind].
  destruct (Z.ltb_spec a b).
  - destruct (Z.eqb_spec (l + 1) end_l); [apply fin_ok; discriminate|].
    eapply fin_mono; [apply IH; lia|]. cbn beta. intros o Ho l' E. destruct (Ho l' E) as [Hl (a' & b' & X1 & X2 & X3)]. split; [lia|].
    exists a', b'. rewrite <- Eb. auto.
  - apply fin_ok. intros l' E. injection E as <-. split; [lia|]. exists a, b. rewrite ?Ea. auto.
Qed.
Lemma scalar_intersect_fin base pos : forall fuel l end_l r end_r out size,
  l < end_l -> r < end_r -> (end_l - l) + (end_r - r) <= Z.of_nat fuel -> 0 <= l -> 0 <= r -> end_l <= zlen mem -> end_r <= zlen mem ->
  0 <= pos + size -> pos + size + (end_l - l) <= zlen out ->
  fin (scalar_intersect_loop fuel mem l end_l r end_r base out pos size) (fun x => zlen (fst x) = zlen out /\ size <= snd x <= size + (end_l - l)).
Proof.
  induction fuel as [|f IH]; intros l end_l r end_r out size L R F L0 R0 L1 R1 P1 P2; [lia|]. cbn [scalar_intersect_loop].
  eapply fin_seq; [apply scalar_advance_fin; lia|]. intros [l'|] Hl; [|apply fin_ok; cbn [fst snd]; split; [auto|lia]].
  destruct (Hl l' eq_refl) as (Hl1 & a & b & Ea & Eb & Hab).
  eapply fin_seq; [apply scalar_advance_fin; lia|]. intros [r'|] Hr; [|apply fin_ok; cbn [fst snd]; split; [auto|lia]].
  destruct (Hr r' eq_refl) as (Hr1 & b' & a' & Eb' & Ea' & Hab').
  rewrite Ea in Ea'. injection Ea' as <-. rewrite Ea, Eb'. cbn [bind]. destruct (Z.eqb_spec a b') as [E|E].
  - eapply fin_seq; [apply vset_fin; lia|]. intros o Lo. cbn beta in Lo.
    destruct (Z.eqb_spec (l' + 1) end_l); [apply fin_ok; cbn [fst snd]; split; [auto|lia]|].
    destruct (Z.eqb_spec (r' + 1) end_r); [apply fin_ok; cbn [fst snd]; split; [auto|lia]|].
    eapply fin_mono; [apply IH; lia|]. cbn beta. intros x [X1 X2]. split; [congruence|lia].
  - assert (l' <> l \/ r' <> r).
    { destruct (Z.eq_dec r' r) as [->|]; auto. rewrite Eb in Eb'. injection Eb' as <-. lia. }
    eapply fin_mono; [apply IH; lia|]. cbn beta. intros x [X1 X2]. split; [auto|lia].
Qed.
Lemma fin_wp A (r : res A) P Q : fin r P -> wpd dbg r Q -> fin r (fun x => P x /\ Q x).
Proof. intros (x & -> & H) W. exists x. split; auto. Qed.
Lemma cards_ok c : 1 <= c <= 30 -> assert_ dbg ((0 <? c) && (c <=? block_sparseness_threshold - 2)) = Ok tt.
Proof. intro H. apply assert_ok. change (block_sparseness_threshold - 2) with 30. apply andb_true_intro. split; [apply Z.ltb_lt|apply Z.leb_le]; lia. Qed.
Lemma ss_intersect_block_fin l r cl cr b out pos : 1 <= cl <= 30 -> 1 <= cr <= 30 ->
  0 <= l -> 0 <= r -> l + 32 <= zlen mem -> r + 32 <= zlen mem -> 0 <= pos -> pos + 256 <= zlen out ->
  fin (ss_intersect_block tbl dbg mem l r cl cr b out pos) (fun x => zlen (fst x) = zlen out /\ 0 <= snd x <= 256).
Proof.
  intros Hl Hr L0 R0 L1 R1 P0 P1. unfold ss_intersect_block. rewrite !cards_ok by auto. cbn [bind].
  assert (T : forall v_l v_r v2 v3 c1 c2 c3 c4, fin (let! (out, size) := INTERSECT tbl v_l c1 v_r c2 b out pos 0 in
     INTERSECT tbl v2 c3 v3 c4 b out (pos + size) size) (fun x => zlen (fst x) = zlen out /\ 0 <= snd x <= 256)).
  { intros. eapply fin_seq; [apply INTERSECT_fin; lia|]. intros [o s] [Lo S]. cbn [fst snd] in *.
    eapply fin_mono; [apply INTERSECT_fin; lia|]. cbn beta. intros x [X1 X2]. split; [congruence|lia]. }
  destruct ((cl <=? 16) && (cr <=? 16)).
  { eapply fin_seq; [apply load128_fin; lia|]. intros v_l _. eapply fin_seq; [apply load128_fin; lia|]. intros v_r _.
    eapply fin_mono; [apply INTERSECT_fin; lia|]. cbn beta. intros x [X1 X2]. split; [auto|lia]. }
  destruct ((cl <=? 16) && (16 <? cr)).
  { eapply fin_seq; [apply load128_fin; lia|]. intros v_l _. eapply fin_seq; [apply load128_fin; lia|]. intros v_r _.
    eapply fin_seq; [apply INTERSECT_fin; lia|]. intros [o s] [Lo S]. cbn [fst snd] in *.
    eapply fin_seq; [apply load128_fin; lia|]. intros v_2 _.
    eapply fin_mono; [apply INTERSECT_fin; lia|]. cbn beta. intros x [X1 X2]. split; [congruence|lia]. }
  destruct ((cr <=? 16) && (16 <? cl)).
  { eapply fin_seq; [apply load128_fin; lia|]. intros v_l _. eapply fin_seq; [apply load128_fin; lia|]. intros v_r _.
    eapply fin_seq; [apply INTERSECT_fin; lia|]. intros [o s] [Lo S]. cbn [fst snd] in *.
    eapply fin_seq; [apply load128_fin; lia|]. intros v_2 _.
    eapply fin_mono; [apply INTERSECT_fin; lia|]. cbn beta. intros x [X1 X2]. split; [congruence|lia]. }
  eapply fin_mono; [apply scalar_intersect_fin; lia|]. cbn beta. intros x [X1 X2]. split; [auto|lia].
Qed.
Lemma byte_word x : is_byte x -> 0 <= Z.shiftr x 6 < 4.
Proof. unfold is_byte. intro H. rewrite Z.shiftr_div_pow2 by lia. change (2 ^ 6) with 64. lia. Qed.
Lemma ds_intersect_loop_fin a r base pos : 0 <= a -> a + 32 <= zlen mem -> forall n i k out,
  0 <= r + i -> r + i + Z.of_nat n <= zlen mem -> 0 <= pos -> 0 <= k <= i -> i + Z.of_nat n <= 256 -> pos + 256 <= zlen out ->
  fin (ds_intersect_block_loop n mem (words_mem mem a) r i base out pos k) (fun x => zlen (fst x) = zlen out /\ 0 <= snd x <= 256).
Proof.
  intros A0 A1. induction n as [|n IH]; intros i k out R0 R1 P0 K I P1; cbn [ds_intersect_block_loop].
  - apply fin_ok. cbn [fst snd]. lia.
  - eapply fin_seq; [apply (rd8_fin mem Hb); lia|]. intros x Hx. eapply fin_seq; [apply vset_fin; lia|]. intros o Lo. cbn beta in Lo.
    eapply fin_seq with (P := fun _ => True).
    { unfold bitmap_contains. pose proof (byte_word x Hx) as BW. eapply fin_seq; [apply fin_mem; lia|]. intros w _. now apply fin_ok. }
    intros bb _. destruct bb; [rewrite u32_id by lia|]; (eapply fin_mono; [apply IH; lia|]); cbn beta; intros y [Y1 Y2]; split; congruence || lia.
Qed.
Lemma bytes_at_most c : 1 <= c -> 0 <= bytes_by_cardinality c <= 32.
Proof. intro H. unfold bytes_by_cardinality. destruct (Z.ltb_spec c 31); lia. Qed.
Lemma block_cases c : 1 <= c <= 256 -> (c <= 30 /\ block_type c = t_sparse) \/ (31 <= c /\ block_type c = t_dense).
Proof. intro H. unfold block_type. destruct (Z.ltb_spec c 31); [left|right]; split; auto; lia. Qed.
Lemma intersect_blocks_fin dl dr cl cr b out pos : 1 <= cl <= 256 -> 1 <= cr <= 256 ->
  0 <= dl -> 0 <= dr -> dl + 32 <= zlen mem -> dr + 32 <= zlen mem -> 0 <= pos -> pos + 256 <= zlen out ->
  fin (intersect_blocks tbl dbg mem dl dr cl cr b out pos) (fun x => zlen (fst x) = zlen out /\ 0 <= snd x <= 256).
Proof.
  intros Hl Hr L0 R0 L1 R1 P0 P1. unfold intersect_blocks. cbv zeta.
  destruct (block_cases cl Hl) as [[Cl ->]|[Cl ->]], (block_cases cr Hr) as [[Cr ->]|[Cr ->]];
    cbn [block_pair t_sparse t_dense Z.eqb Pos.eqb Z.mul Pos.mul Z.add Pos.add Pos.succ].
  - apply ss_intersect_block_fin; lia.
  - unfold ds_intersect_block. apply ds_intersect_loop_fin; lia.
  - unfold ds_intersect_block. apply ds_intersect_loop_fin; lia.
  - change block_size_in_64bit_words with 4. change 256 with (64 * 4). apply and_fin; try lia; intros i Hi; apply fin_mem; lia.
Qed.
Definition fits (p d : Z) (k : nat) : Prop := 0 <= p /\ p + 2 * Z.of_nat k <= zlen mem /\ 0 <= d /\ d + 32 * Z.of_nat k <= zlen mem.
Lemma fits_next p d k c : fits p d (S k) -> 1 <= c -> fits (p + 2) (d + bytes_by_cardinality c) k.
Proof. intros (A & B & C & D) H. pose proof (bytes_at_most c H). unfold fits. lia. Qed.
Lemma block_advance_fin : forall fuel p k d r, (1 <= k <= fuel)%nat -> fits p d k -> 0 <= r < zlen mem ->
  fin (block_advance fuel mem p (p + 2 * Z.of_nat k) d r)
     (fun o => forall p' d', o = Some (p', d') -> (exists j, (1 <= j <= k)%nat /\ p' + 2 * Z.of_nat j = p + 2 * Z.of_nat k /\ fits p' d' j)
        /\ exists a b, rd8 mem p' = Ok a /\ rd8 mem r = Ok b /\ b <= a).
Proof.
  induction fuel as [|f IH]; intros p k d r K F R; [lia|]. cbn [block_advance]. pose proof F as (F1 & F2 & F3 & F4).
  destruct (rd8_known p) as (a & Ea & _); [lia|]. destruct (rd8_known r) as (b & Eb & _); [lia|].
  rewrite Ea, Eb. cbn [bind]. rewrite <- Eb. destruct (Z.ltb_spec a b).
  - destruct (Z.eqb_spec (p + 2) (p + 2 * Z.of_nat k)); [apply fin_ok; discriminate|].
    destruct (rd8_known (p + 1)) as (c & Ec & Hc); [lia|]. rewrite Ec. cbn [bind]. cbv zeta. unfold is_byte in Hc.
    destruct k as [|k]; [lia|]. replace (p + 2 * Z.of_nat (S k)) with (p + 2 + 2 * Z.of_nat k) in * by lia.
    eapply fin_mono; [apply IH; [lia|apply (fits_next p d k (c + 1) F); lia|exact R]|].
    cbn beta. intros o Ho p' d' E. destruct (Ho p' d' E) as ((j & J1 & J2 & J3) & X). split; auto. exists j. split; [lia|auto].
  - apply fin_ok. intros p' d' E. injection E as <- <-. split; [exists k; split; [lia|auto]|]. exists a, b. auto.
Qed.
Lemma ss_intersect_loop_fin base : forall fuel l r kl kr dl dr out tmp,
  (1 <= kl)%nat -> (1 <= kr)%nat -> (kl + kr <= fuel)%nat -> fits l dl kl -> fits r dr kr -> 0 <= tmp -> tmp + 256 * Z.of_nat kl <= zlen out ->
  fin (ss_intersect_chunk_loop fuel tbl dbg mem l r (l + 2 * Z.of_nat kl) (r + 2 * Z.of_nat kr) dl dr base out tmp)
    (fun x => zlen (fst x) = zlen out /\ tmp <= snd x <= tmp + 256 * Z.of_nat kl).
Proof.
  induction fuel as [|f IH]; intros l r kl kr dl dr out tmp L R F Fl Fr P0 P1; [lia|]. cbn [ss_intersect_chunk_loop].
  pose proof Fl as (Fl1 & Fl2 & Fl3 & Fl4). pose proof Fr as (Fr1 & Fr2 & Fr3 & Fr4).
  eapply fin_seq; [apply block_advance_fin; auto; lia|]. intros [[l' dl']|] Hl; [|apply fin_ok; cbn [fst snd]; lia].
  destruct (Hl l' dl' eq_refl) as ((jl & L1 & L2 & L3) & a & b & Ea & Eb & Hab). clear Hl. pose proof L3 as (M1 & M2 & M3 & M4).
  eapply fin_seq; [apply block_advance_fin; auto; lia|]. intros [[r' dr']|] Hr; [|apply fin_ok; cbn [fst snd]; lia].
  destruct (Hr r' dr' eq_refl) as ((jr & R1 & R2 & R3) & b' & a' & Eb' & Ea' & Hab'). clear Hr. pose proof R3 as (N1 & N2 & N3 & N4).
  rewrite Ea in Ea'. injection Ea' as <-. rewrite Ea, Eb'. cbn [bind]. rewrite <- L2, <- R2. destruct (Z.eqb_spec a b') as [E|E].
  - destruct (rd8_known (l' + 1)) as (c1 & Ec1 & H1); [lia|]. destruct (rd8_known (r' + 1)) as (c2 & Ec2 & H2); [lia|].
    rewrite Ec1, Ec2. cbn [bind]. cbv zeta. unfold is_byte in *.
    eapply fin_seq; [apply intersect_blocks_fin; lia|]. intros [o n] [Lo N]. cbn [fst snd] in *. rewrite u32_id by lia.
    destruct ((l' + 1 + 1 =? _) || _) eqn:C; [apply fin_ok; cbn [fst snd]; lia|]. apply orb_false_iff in C as [Ca Cb].
    apply Z.eqb_neq in Ca. apply Z.eqb_neq in Cb. destruct jl as [|jl]; [lia|]. destruct jr as [|jr]; [lia|].
    replace (l' + 2 * Z.of_nat (S jl)) with (l' + 2 + 2 * Z.of_nat jl) by lia.
    replace (r' + 2 * Z.of_nat (S jr)) with (r' + 2 + 2 * Z.of_nat jr) by lia.
    eapply fin_mono; [apply IH; try (apply fits_next; auto; lia); lia|]. cbn beta. intros x [X1 X2]. split; [congruence|lia].
  - assert (l' <> l \/ r' <> r).
    { destruct (Z.eq_dec r' r) as [->|]; auto. rewrite Eb in Eb'. injection Eb' as <-. lia. }
    eapply fin_mono; [apply IH; auto; lia|]. cbn beta. intros x [X1 X2]. split; [auto|lia].
Qed.
(** K bytes can be read at a *)
Definition rdb (K a : Z) : Prop := 0 <= a /\ a + K <= zlen mem.
Lemma blocks_ok n : 1 <= n <= 256 -> assert_ dbg ((1 <=? n) && (n <=? 256)) = Ok tt.
Proof. intro H. apply assert_ok. apply andb_true_intro. split; apply Z.leb_le; lia. Qed.
Lemma rdb_fits a n : rdb 8712 a -> 1 <= n <= 256 -> fits a (a + n * 2) (Z.to_nat n).
Proof. intros [A B] H. unfold fits. lia. Qed.
Lemma ss_intersect_chunk_fin l r bl br base out pos : 1 <= bl <= 256 -> 1 <= br <= 256 -> rdb 8712 l -> rdb 8712 r ->
  0 <= pos -> pos + 65536 <= zlen out ->
  fin (ss_intersect_chunk tbl dbg mem l r bl br base out pos) (fun x => zlen (fst x) = zlen out /\ 0 <= snd x <= 65536).
Proof.
  intros Hl Hr Dl Dr P0 P1. unfold ss_intersect_chunk. rewrite !blocks_ok by auto. cbn [bind]. cbv zeta.
  pose proof (rdb_fits l bl Dl Hl) as Fl. pose proof (rdb_fits r br Dr Hr) as Fr.
  pose proof (ss_intersect_loop_fin base (S (Z.to_nat (bl + br))) l r (Z.to_nat bl) (Z.to_nat br) (l + bl * 2) (r + br * 2) out pos) as X.
  replace (l + 2 * Z.of_nat (Z.to_nat bl)) with (l + bl * 2) in X by lia.
  replace (r + 2 * Z.of_nat (Z.to_nat br)) with (r + br * 2) in X by lia.
  eapply fin_seq; [apply X; auto; lia|]. intros [o t] [Lo T]. cbn [fst snd] in *. apply fin_ok. cbn [fst snd]. lia.
Qed.
Lemma sparse_vec_fin r n (v : list Z) : 1 <= n <= 256 -> rdb 8712 r -> zlen v = 1024 ->
  fin (uncompress_sparse_chunk dbg mem r n (repeat 0 (length v)) 0) (fun o => zlen o = 1024 /\ Forall w64 o).
Proof.
  intros Hn [D0 D1] Lv. eapply fin_mono; [apply fin_wp|intros o H; exact H].
  - unfold uncompress_sparse_chunk. rewrite blocks_ok by auto. cbn [bind].
    assert (LR : zlen (repeat 0 (length v)) = 1024) by (unfold zlen in *; rewrite repeat_length; exact Lv).
    pose proof (sparse_chunk_fin mem Hb 0 (Z.to_nat n) r (r + n * 2) 0 (repeat 0 (length v))) as X.
    change (0 + 4 * 0) with 0 in X. eapply fin_mono; [apply X; lia|]. cbn beta. intros o E. rewrite E. exact LR.
  - apply uncompress_sparse_chunk_wp; auto using zeros_w64.
Qed.
Lemma ds_intersect_chunk_fin l r n base x out pos : 1 <= n <= 256 -> rdb 8712 l -> rdb 8712 r -> zlen x = 1024 ->
  0 <= pos -> pos + 65536 <= zlen out ->
  fin (ds_intersect_chunk dbg mem l r n base x out pos) (fun '(x, o, n) => zlen x = 1024 /\ zlen o = zlen out /\ 0 <= n <= 65536).
Proof.
  intros Hn [L0 L1] Dr Lx P0 P1. unfold ds_intersect_chunk. cbv zeta. eapply fin_seq; [apply sparse_vec_fin; auto|]. intros v [Lv Fv].
  change chunk_size_in_64bit_words with 1024.
  eapply fin_seq; [apply (and_fin _ _ 1024); try lia|].
  - intros i Hi. apply fin_mem; lia.
  - intros i Hi. apply fin_vec; auto; lia.
  - intros [o k] [Lo K]. cbn [fst snd] in *. apply fin_ok. lia.
Qed.
Lemma sparse_dec_fin a n base out pos : 1 <= n <= 256 -> rdb 8712 a -> 0 <= pos -> pos + 65536 <= zlen out ->
  fin (decode_sparse_chunk dbg mem a n base out pos) (fun x => zlen (fst x) = zlen out /\ 0 <= snd x <= 65536).
Proof.
  intros Hn [D0 D1] P0 P1. unfold decode_sparse_chunk. rewrite blocks_ok by auto. cbn [bind]. cbv zeta.
  eapply fin_seq; [apply (decode_sparse_chunk_fin mem Hb _ _ (Z.to_nat n)); lia|].
  intros [o t] [L T]. cbn [fst snd] in *. apply fin_ok. cbn [fst snd]. split; auto. rewrite u32_id by lia. lia.
Qed.
Lemma dense_dec_fin a base out pos : rdb 8712 a -> 0 <= pos -> pos + 65536 <= zlen out ->
  fin (decode_bitmap (words_mem mem a) chunk_size_in_64bit_words base out pos) (fun x => zlen (fst x) = zlen out /\ 0 <= snd x <= 65536).
Proof. intros [D0 D1] P0 P1. apply (decode_bitmap_fin mem Hb a 1024); lia. Qed.
Lemma full_dec_fin base out pos : 0 <= pos -> pos + 65536 <= zlen out ->
  fin (decode_full_chunk base out pos) (fun x => zlen (fst x) = zlen out /\ 0 <= snd x <= 65536).
Proof.
  intros P0 P1. unfold decode_full_chunk. eapply fin_seq.
  - apply (decode_full_fin _ _ (Z.to_nat chunk_size) 0); [lia|]. change chunk_size with 65536. rewrite Z2Nat.id by lia. lia.
  - intros o L. cbn beta in L. apply fin_ok. cbn [fst snd]. change chunk_size with 65536. lia.
Qed.
Lemma intersect_chunks_fin l r idl cl csl idr cr csr base x out pos :
  id_view mem l ((idl, cl) :: csl) -> id_view mem r ((idr, cr) :: csr) -> rdb 8712 (i_data l) -> rdb 8712 (i_data r) -> zlen x = 1024 ->
  0 <= pos -> pos + 65536 <= zlen out ->
  fin (intersect_chunks tbl dbg mem l r base x out pos) (fun '(x, o, n) => zlen x = 1024 /\ zlen o = zlen out /\ 0 <= n <= 65536).
Proof.
  intros Vl Vr Dl Dr Lx P0 P1. unfold intersect_chunks. cbv zeta.
  pose proof (id_view_wf _ _ _ _ Vl) as W1. pose proof (id_view_wf _ _ _ _ Vr) as W2.
  pose proof (blocks_count _ _ W1) as B1. pose proof (blocks_count _ _ W2) as B2.
  rewrite (id_view_type _ _ _ _ _ Vl), (id_view_type _ _ _ _ _ Vr). cbn [bind].
  assert (KP : forall y : res (list Z * Z), fin y (fun x => zlen (fst x) = zlen out /\ 0 <= snd x <= 65536) ->
    fin (let! (out, n) := y in Ok (x, out, n)) (fun '(x, o, n) => zlen x = 1024 /\ zlen o = zlen out /\ 0 <= n <= 65536)).
  { intros y Y. eapply fin_seq; [exact Y|]. intros [o n] [Lo N]. cbn [fst snd] in *. now apply fin_ok. }
  destruct (kind_of cl) eqn:Kl, (kind_of cr) eqn:Kr;
    repeat match goal with |- context [chunk_pair ?x ?y =? chunk_pair ?z ?w] =>
      let v := eval vm_compute in (chunk_pair x y =? chunk_pair z w) in
      replace (chunk_pair x y =? chunk_pair z w) with v by reflexivity end; cbv iota;
    rewrite ?(id_view_blocks _ _ _ _ _ Vl Kl), ?(id_view_blocks _ _ _ _ _ Vr Kr); cbn [bind].
  - destruct (_ <? _); apply KP, ss_intersect_chunk_fin; auto; lia.
  - apply ds_intersect_chunk_fin; auto; lia.
  - apply KP, sparse_dec_fin; auto; lia.
  - apply ds_intersect_chunk_fin; auto; lia.
  - apply KP. change chunk_size_in_64bit_words with 1024. destruct Dl, Dr. apply (and_fin _ _ 1024); try lia; intros i Hi; apply fin_mem; lia.
  - apply KP, dense_dec_fin; auto.
  - apply KP, sparse_dec_fin; auto; lia.
  - apply KP, dense_dec_fin; auto.
  - apply KP, full_dec_fin; auto.
Qed.
End Mem.
