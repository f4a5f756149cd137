(** C43: the whole sequence, and what decode reads back. *)
From Verif Require Import Base Hw Spec Lib L_Bits L_Group Layout M_Util M_Build M_Seq M_Decode
  P_Build1 P_Build2 P_Build3 P_Seq P_Decode Disorder P_Disorder1 P_Disorder2.

(** ** the skip pointers are as many as they should be *)
Lemma pointer_loop_some n : forall header base c o,
  0 <= base -> base + 4 * Z.of_nat n <= zlen header -> zlen header < 4294967200 ->
  exists r, pointer_loop n header base c o = Ok r.
Proof.
  induction n; intros header base c o H0 H1 H2; cbn [pointer_loop]; [eauto|].
  rewrite !u32_id by lia. unfold vget.
  destruct (znth_Some _ header (base + 1)) as (x & ->); [lia|].
  destruct (znth_Some _ header (base + 3)) as (y & ->); [lia|]. cbn [bind]. apply IHn; lia.
Qed.
Lemma pointers_loop_some n : forall header i,
  0 <= i -> 128 * (i + Z.of_nat n) <= zlen header -> zlen header < 4294967200 ->
  exists ps, pointers_loop n header i = Ok ps /\ zlen ps = 8 * Z.of_nat n.
Proof.
  induction n; intros header i H0 H1 H2; cbn [pointers_loop]; [exists []; auto|].
  change M_Util.associativity with 32. rewrite u32_id by lia.
  destruct (pointer_loop_some (Z.to_nat 32) header (i * 4 * 32) 0 0) as ([c o] & ->); try lia.
  cbn [bind]. destruct (IHn header (i + 1)) as (ps & -> & E); try lia. cbn [bind].
  eexists. split; [reflexivity|]. rewrite !zlen_app, !zlen_le_bytes. lia.
Qed.

(** ** building *)
Lemma zlen_runs n : forall i l, zlen (runs n i l) = Z.of_nat n.
Proof. induction n; intros i l; cbn [runs]; auto. rewrite zlen_cons, IHn. lia. Qed.
Lemma zlen_full_runs cs : zlen (full_runs cs) <= zlen cs.
Proof.
  unfold full_runs. induction cs as [|[i r] cs IH]; cbn [filter snd]; [lia|]. destruct r; zl.
Qed.
Lemma last_split (L : list Z) : L <> [] -> L = removelast L ++ [last L 0].
Proof. apply app_removelast_last. Qed.
Lemma znth_last (L : list Z) : L <> [] -> znth L (zlen L - 1) = Some (last L 0).
Proof.
  intro H. rewrite (last_split L H) at 1 2. rewrite zlen_app. change (zlen [last L 0]) with 1.
  rewrite znth_app_r by lia.
  replace (zlen (removelast L) + 1 - 1 - zlen (removelast L)) with 0 by lia. reflexivity.
Qed.

Definition rlayout (ps : list Z) (cs : list (Z * list Z)) : list Z :=
  le_bytes 2 (u16 (zlen cs - 1)) ++ ps ++ bytes_of_u16s (rchdrs cs) ++ rcdatas cs.

Section Build.
Variable L : list Z.
Hypothesis Hne : L <> [].
Hypothesis Hr : Forall (fun v => 0 <= v < 4294901760) L.
Hypothesis Hk : Forall run_ok (cuts L).

Lemma last_range : 0 <= last L 0 < 4294901760.
Proof.
  rewrite Forall_forall in Hr. apply Hr. rewrite (last_split L Hne) at 2.
  apply in_or_app. right. left. reflexivity.
Qed.

Lemma disorder_chunks_start st : exists n, n = last_chunk L + 1 /\ 1 <= n <= 65535
  /\ forall dbg, encode_sequence_chunks dbg L [] st
     = let! e := encode_chunks (Z.to_nat n) dbg 0
         (mkEnc L (0 * 65536) (u32 (0 * 65536 + 65536)) [] [] []
            (sadd F_chunks n (sadd F_integers (zlen L) (sadd F_sequences 1 st)))) in
       let! _ := assert_ dbg (zlen (e_begin e) =? 0) in Ok e.
Proof.
  pose proof last_range as Hm. exists (last_chunk L + 1). unfold last_chunk.
  split; auto. split; [lia|]. intro dbg. unfold encode_sequence_chunks.
  rewrite assert_ok by reflexivity. cbn [bind]. unfold vget. rewrite (znth_last L Hne). cbn [bind].
  assert (En : num_chunks (last L 0) = last L 0 / 65536 + 1).
  { unfold num_chunks. change M_Util.chunk_size with 65536. rewrite u32_id; lia. }
  rewrite En. change M_Util.chunk_size with 65536.
  rewrite assert_ok by (apply andb_true_intro; split; [apply Z.ltb_lt|apply Z.leb_le]; lia).
  reflexivity.
Qed.
Lemma cuts_last n : n = last_chunk L + 1 -> 1 <= n ->
  Z.to_nat n = O \/ exists l', L = l' ++ [last L 0] /\ 65536 * (0 + Z.of_nat (Z.to_nat n) - 1) <= last L 0.
Proof.
  intros -> H. right. exists (removelast L). split; [apply last_split; auto|].
  rewrite Z2Nat.id by lia. unfold last_chunk. lia.
Qed.
Lemma nonneg : Forall (fun v => 0 <= v) L.
Proof. eapply Forall_impl; [|exact Hr]. cbn beta. intros; lia. Qed.

Lemma disorder_build dbg out :
  (dbg = true -> Forall run_above (cuts L) /\ lost L = []) ->
  exists st ps, builder_build dbg out L = (Ok st, out ++ rlayout ps (full_runs (cuts L)))
    /\ zlen ps = 8 * (zlen (full_runs (cuts L)) / 32).
Proof.
  intro Hd. destruct (disorder_chunks_start stats0) as (n & En & Hn & E).
  destruct (encode_runs_ok dbg (Z.to_nat n) 0 L (last L 0) [] []
    (sadd F_chunks n (sadd F_integers (zlen L) (sadd F_sequences 1 stats0)))) as (st1 & E1); try lia.
  { apply nonneg. }
  { apply cuts_last; auto; lia. }
  { rewrite En. exact Hk. }
  { intro D. rewrite En. apply Hd; auto. }
  cbn [app] in E1. unfold builder_build, encode_one, encode_sequence. rewrite E, E1. cbn [bind e_begin].
  assert (EL : assert_ dbg (zlen (match Z.to_nat n with O => L | S _ =>
      from (65536 * (0 + Z.of_nat (Z.to_nat n))) L end) =? 0) = Ok tt).
  { destruct dbg; [|reflexivity]. destruct (Hd eq_refl) as [_ HL].
    destruct (Z.to_nat n) eqn:Ez; [lia|]. rewrite <- Ez, Z2Nat.id, Z.add_0_l by lia.
    unfold lost in HL. rewrite En, HL. reflexivity. }
  rewrite EL. cbn [bind e_header e_tmp e_stats e_block].
  rewrite zlen_rchdrs. rewrite (Z.mul_comm 4), Z.div_mul by lia.
  replace (runs (Z.to_nat n) 0 L) with (cuts L) by (unfold cuts; rewrite En; reflexivity).
  assert (LE : zlen (full_runs (cuts L)) <= 65535).
  { pose proof (zlen_full_runs (cuts L)). unfold cuts in H at 2. rewrite zlen_runs, <- En in H. lia. }
  zpos. rewrite u32_id by lia. change M_Util.associativity with 32.
  destruct (pointers_loop_some (Z.to_nat (zlen (full_runs (cuts L)) / 32)) (rchdrs (full_runs (cuts L))) 0)
    as (ps & -> & Eps); rewrite ?zlen_rchdrs; try lia.
  cbn [bind]. eexists. exists ps. split.
  - unfold rlayout. rewrite <- !app_assoc. reflexivity.
  - rewrite Eps. lia.
Qed.

Lemma disorder_abort out :
  ~ (Forall run_above (cuts L) /\ lost L = []) -> builder_build true out L = (Abort, out).
Proof.
  intro Hd. destruct (disorder_chunks_start stats0) as (n & En & Hn & E).
  unfold builder_build, encode_one, encode_sequence. rewrite E.
  assert (D : Forall run_above (cuts L) \/ ~ Forall run_above (cuts L)).
  { destruct (Forall_dec run_above
      (fun c => Forall_dec (fun v => 65536 * fst c <= v) (fun v => Z_le_dec _ _) (snd c)) (cuts L)); auto. }
  destruct D as [D|D].
  - destruct (encode_runs_ok true (Z.to_nat n) 0 L (last L 0) [] []
      (sadd F_chunks n (sadd F_integers (zlen L) (sadd F_sequences 1 stats0)))) as (st1 & E1); try lia.
    { apply nonneg. }
    { apply cuts_last; auto; lia. }
    { rewrite En. exact Hk. }
    { intros _. rewrite En. auto. }
    rewrite E1. cbn [bind e_begin].
    destruct (Z.to_nat n) eqn:Ez; [lia|]. rewrite <- Ez, Z2Nat.id, Z.add_0_l by lia.
    destruct (Z.eqb_spec (zlen (from (65536 * n) L)) 0) as [Z|Z]; [|reflexivity].
    exfalso. apply Hd. split; auto. unfold lost. rewrite <- En.
    destruct (from (65536 * n) L); auto. rewrite zlen_cons in Z. zpos. lia.
  - rewrite (encode_runs_abort (Z.to_nat n) 0 L (last L 0)); auto; try lia.
    + apply nonneg.
    + apply cuts_last; auto; lia.
    + rewrite En. exact Hk.
    + rewrite En. exact D.
Qed.
End Build.

(** ** reading *)
Definition rok (c : Z * list Z) : Prop := 0 <= fst c < 65535 /\ snd c <> [] /\ run_ok c.

Lemma zlen_rdata c : rok c -> zlen (rdata c) <= 8192.
Proof.
  intros (_ & _ & _). unfold rdata. destruct (run_sparse (snd c)) eqn:E.
  - rewrite zlen_app, zlen_rhdrs, <- run_bytes_eq. unfold run_sparse in E.
    apply andb_prop in E as [_ E]. apply Z.ltb_lt in E. lia.
  - destruct (zlen (snd c) =? 65536); [rewrite zlen_nil; lia|].
    rewrite zlen_bytes_of_u64s, zlen_bitmap_words. lia.
Qed.
Lemma rtype_range c : rok c -> 0 <= rtype c < 65536
  /\ Z.land (rtype c) 255 = (if run_sparse (snd c) then 1 else if zlen (snd c) =? 65536 then 2 else 3)
  /\ (run_sparse (snd c) = true -> Z.shiftr (rtype c) 8 + 1 = zlen (group 256 (snd c))
      /\ 1 <= zlen (group 256 (snd c)) <= 256).
Proof.
  intros (_ & Hne & _ & _ & _ & Hs & _). unfold rtype.
  assert (1 <= zlen (group 256 (snd c))).
  { destruct (snd c) as [|x r]; [easy|]. destruct (group_head 256 x r) as (vs & g & ->). zl. }
  destruct (run_sparse (snd c)).
  - specialize (Hs eq_refl). split; [lia|]. split.
    + change 255 with (Z.ones 8). rewrite Z.land_ones by lia. change (2 ^ 8) with 256. lia.
    + intros _. rewrite Z.shiftr_div_pow2 by lia. change (2 ^ 8) with 256. lia.
  - destruct (zlen (snd c) =? 65536); (split; [lia|split; [reflexivity|discriminate]]).
Qed.

Definition rview (mem : list Z) (it : iterator) (cs : list (Z * list Z)) : Prop :=
  Forall rok cs
  /\ bytes_at mem (i_header it) (bytes_of_u16s (rchdrs cs))
  /\ bytes_at mem (i_data it) (rcdatas cs)
  /\ 0 <= i_data it /\ i_data it + zlen (rcdatas cs) + 31 <= zlen mem
  /\ 0 <= i_begin it /\ i_end it = i_begin it + zlen cs /\ i_end it <= 65535.

Lemma rview_head mem it c cs :
  rview mem it (c :: cs) ->
  it_id mem it = Ok (fst c) /\ rd16 mem (i_header it + 2 * 2) = Ok (rtype c)
  /\ exists it', it_next mem it = Ok it' /\ rview mem it' cs.
Proof.
  intros (F & B & D & H1 & H2 & H3 & H4 & H5). inversion F as [|? ? R F']; subst.
  pose proof (zlen_rdata c R) as HD. pose proof (rtype_range c R) as (HT & _).
  pose proof (zlen_nonneg _ (rdata c)).
  assert (HC : 1 <= zlen (snd c) <= 65536).
  { destruct R as (_ & N & _ & Z & _). destruct (snd c); [easy|]. zl. }
  unfold rchdrs in B. cbn [flat_map] in B. fold (rchdrs cs) in B. rewrite u16s_app in B.
  apply bytes_at_app in B as [B B']. rewrite zlen_bytes_of_u16s in B'.
  change (2 * zlen (rchdr c)) with 8 in B'.
  unfold rchdr, bytes_of_u16s in B. cbn [flat_map] in B.
  apply bytes_at_app in B as [B0 B]. apply bytes_at_app in B as [B1 B].
  apply bytes_at_app in B as [B2 B]. apply bytes_at_app in B as [B3 _].
  rewrite !zlen_le_bytes in *. rewrite zlen_cons in H4. zpos.
  assert (HI : 0 <= fst c < 65535) by apply R.
  split; [|split].
  - unfold it_id, it_has_next. destruct (Z.ltb_spec (i_begin it) (i_end it)); [|lia].
    apply rd16_at; auto; lia.
  - replace (i_header it + 2 * 2) with (i_header it + Z.of_nat 2 + Z.of_nat 2) by lia.
    apply rd16_at; auto; lia.
  - unfold it_next, it_offset.
    replace (i_header it + 2 * 3) with (i_header it + Z.of_nat 2 + Z.of_nat 2 + Z.of_nat 2) by lia.
    rewrite (rd16_at mem _ (zlen (rdata c))) by (auto; lia). cbn [bind]. rewrite u32_id by lia.
    eexists. split; [reflexivity|]. unfold rview.
    cbn [i_header i_data i_begin i_end i_pointers].
    unfold rcdatas in D, H2. cbn [flat_map] in D, H2. fold (rcdatas cs) in D, H2.
    apply bytes_at_app in D as [_ D]. rewrite zlen_app in H2.
    split; [auto|]. split; [exact B'|]. split; [exact D|]. zpos. lia.
Qed.

Lemma map_u32_base (base : Z) l lim :
  Forall (fun x => 0 <= x < lim) l -> 0 <= base -> base + lim <= 4294967296 ->
  map (fun x => u32 (x + base)) l = map (fun x => base + x) l
  /\ map (fun x => u32 (base + x)) l = map (fun x => base + x) l.
Proof. intros H H1 H2. destruct (map_u32_add base l lim H H1 H2). auto. Qed.

Lemma Forall_filter_zrange f n : Forall (fun x => 0 <= x < Z.of_nat n) (filter f (zrange 0 n)).
Proof. apply Forall_forall. intros x [Hx _]%filter_In. apply In_zrange in Hx. lia. Qed.
Lemma zlen_filter_zrange f n : 0 <= zlen (filter f (zrange 0 n)) <= Z.of_nat n.
Proof.
  split; [apply zlen_nonneg|]. pose proof (filter_length_le _ f (zrange 0 n)) as H.
  unfold zlen. rewrite (length_zlen _ (zrange 0 n)), zlen_zrange in H. lia.
Qed.

(** a bitmap gives the values in it in order *)
Lemma decode_bitmap_any word (n : nat) vs base out pos :
  bm_at word (Z.of_nat n) (memb vs) -> 64 * Z.of_nat n <= 65536 ->
  0 <= base -> base + 64 * Z.of_nat n <= 4294967296 ->
  0 <= pos -> pos + zlen (filter (memb vs) (zrange 0 (64 * n))) <= zlen out ->
  exists out', decode_bitmap word (Z.of_nat n) base out pos
      = Ok (out', zlen (filter (memb vs) (zrange 0 (64 * n))))
    /\ wrote 0 out pos (map (fun x => base + x) (filter (memb vs) (zrange 0 (64 * n)))) out'.
Proof.
  intros Hb Hn H0 H1 Hp Ho. unfold decode_bitmap. rewrite Nat2Z.id.
  destruct (bitmap_loop_0 n word (memb vs) base out pos) as (out' & E1 & W); auto.
  rewrite E1. cbn [bind]. exists out'.
  pose proof (zlen_filter_zrange (memb vs) (64 * n)). rewrite u32_id by lia. split; auto.
  destruct (map_u32_base base (filter (memb vs) (zrange 0 (64 * n))) (Z.of_nat (64 * n))) as [E2 _];
    auto using Forall_filter_zrange; try lia. now rewrite <- E2.
Qed.

Definition piece_out (base : Z) (p : Z * list Z) : list Z :=
  map (fun x => base + 256 * (fst p mod 256) + x) (piece_image (snd p)).

Lemma decode_pieces mem end_ base bs : forall fuel begin data out tmp,
  (length bs <= fuel)%nat ->
  Forall (fun p => snd p <> [] /\ zlen (snd p) <= 256 /\ Forall (fun x => 0 <= x < 256) (snd p)) bs ->
  bytes_at mem begin (rhdrs bs) -> bytes_at mem data (datas bs) ->
  end_ = begin + 2 * zlen bs -> 0 <= data -> data + zlen (datas bs) + 31 <= zlen mem ->
  0 <= base -> base + 65536 <= 4294967296 ->
  0 <= tmp -> tmp + zlen (flat_map (piece_out base) bs) + 23 <= zlen out ->
  exists out',
    decode_sparse_chunk_loop fuel mem begin end_ data base out tmp
    = Ok (out', tmp + zlen (flat_map (piece_out base) bs))
    /\ wrote 23 out tmp (flat_map (piece_out base) bs) out'.
Proof.
  induction bs as [|[id vs] bs IH]; intros fuel begin data out tmp Hf F B D He Hd Hm Hb0 Hb1 Ht Ho.
  - rewrite zlen_nil in He. exists out. split; [|apply wrote_nil; lia].
    cbn [flat_map]. rewrite zlen_nil, Z.add_0_r. destruct fuel; cbn [decode_sparse_chunk_loop];
      destruct (Z.eqb_spec begin end_); auto; lia.
  - cbn [length] in Hf. destruct fuel as [|f]; [lia|].
    inversion F as [|? ? (N & Z2 & R) F']; subst. cbn [snd] in *.
    unfold rhdrs in B. cbn [flat_map] in B. fold (rhdrs bs) in B.
    apply bytes_at_app in B as [B0 B]. change (zlen (rhdr (id, vs))) with 2 in B.
    unfold rhdr in B0. cbn [fst snd] in B0. apply bytes_at_cons in B0 as [B0 B1].
    apply bytes_at_cons in B1 as [B1 _].
    rewrite datas_cons in D. apply bytes_at_app in D as [D0 D]. rewrite zlen_block_data in D.
    rewrite zlen_datas_cons in Hm. cbn [snd] in *.
    assert (Z1 : 1 <= zlen vs) by (destruct vs; [easy|zl]).
    cbn [flat_map] in *. rewrite zlen_cons, zlen_app in *. zpos.
    cbn [decode_sparse_chunk_loop]. destruct (Z.eqb_spec begin (begin + 2 * (zlen bs + 1))); [lia|].
    apply rd8_znth in B0, B1. rewrite B0. cbn [bind]. rewrite B1. cbn [bind].
    replace (zlen vs - 1 + 1) with (zlen vs) by lia.
    assert (HB : 0 <= bytes_by_cardinality (zlen vs))
      by (unfold bytes_by_cardinality; destruct (zlen vs <? 31); lia).
    set (x := id mod 256) in *. assert (Hx : 0 <= x < 256) by (unfold x; lia).
    assert (P : exists out1,
      (if block_type (zlen vs) =? t_sparse
       then decode_sparse_block mem data (zlen vs) (u32 (base + x * 256)) out tmp
       else decode_bitmap (words_mem mem data) block_size_in_64bit_words (u32 (base + x * 256)) out tmp)
      = Ok (out1, zlen (piece_out base (id, vs)))
      /\ wrote 23 out tmp (piece_out base (id, vs)) out1).
    { rewrite u32_id by lia. unfold piece_out in *. cbn [fst snd] in *. fold x in Ho |- *.
      replace (base + 256 * x) with (base + x * 256) in * by lia.
      unfold block_type, bytes_by_cardinality, piece_image in *.
      destruct (Z.ltb_spec (zlen vs) 31) as [Hl|Hl].
      - rewrite Z.eqb_refl. apply block_sparse in D0; auto. rewrite zlen_map in *.
        destruct (decode_sparse_block_ok mem data vs (base + x * 256) out tmp) as (out1 & E1 & W); auto; try lia.
        exists out1. split; auto.
        destruct (map_u32_base (base + x * 256) vs 256) as [_ E2]; auto; try lia. now rewrite <- E2.
      - cbn [t_dense t_sparse Z.eqb Pos.eqb]. apply block_dense in D0; auto. rewrite zlen_map in *.
        destruct (decode_bitmap_any (words_mem mem data) 4 vs (base + x * 256) out tmp) as (out1 & E1 & W);
          auto; try lia.
        { change (64 * 4)%nat with 256%nat. lia. }
        exists out1. split; auto. eapply wrote_weaken; [exact W|lia]. }
    destruct P as (out1 & -> & W). cbn [bind]. pose proof (wrote_zlen _ _ _ _ _ W).
    replace (begin + 2 * (zlen bs + 1)) with (begin + 2 + 2 * zlen bs) in * by lia.
    destruct (IH f (begin + 2) (data + bytes_by_cardinality (zlen vs)) out1
      (tmp + zlen (piece_out base (id, vs)))) as (out2 & E2 & W2); auto; try lia.
    rewrite E2. exists out2. split; [do 2 f_equal; lia|]. eapply wrote_app; eauto. lia.
Qed.

Lemma memb_shift r k x : memb (map (fun v => v - k) r) x = memb r (x + k).
Proof.
  induction r as [|v r IH]; auto. unfold memb in *. cbn [map existsb]. rewrite IH. f_equal.
  destruct (Z.eqb_spec x (v - k)), (Z.eqb_spec (x + k) v); auto; lia.
Qed.
Lemma run_shift r k n :
  filter (memb r) (zrange k n) = map (fun x => k + x) (filter (memb (map (fun v => v - k) r)) (zrange 0 n)).
Proof.
  rewrite filter_zrange_shift. erewrite map_ext; [f_equal|intro; cbn beta; lia].
  apply filter_ext. intro x. now rewrite memb_shift.
Qed.

Lemma decode_run dbg mem it c cs out pos :
  rview mem it (c :: cs) -> 0 <= pos -> pos + zlen (run_image c) + 23 <= zlen out ->
  exists out', decode_chunk dbg mem it out pos = Ok (out', zlen (run_image c))
    /\ wrote 23 out pos (run_image c) out'.
Proof.
  intros V Hp Ho. destruct (rview_head _ _ _ _ V) as (Ei & Et & _).
  destruct V as (F & _ & D & H1 & H2 & _). inversion F as [|? ? R F']; subst.
  destruct (rtype_range c R) as (HT & EL & ES).
  unfold rcdatas in D, H2. cbn [flat_map] in D, H2. fold (rcdatas cs) in D, H2.
  apply bytes_at_app in D as [D _]. rewrite zlen_app in H2. zpos.
  assert (Hi : 0 <= fst c < 65535) by apply R.
  unfold decode_chunk, it_type. rewrite Ei. cbn [bind]. rewrite Et. cbn [bind]. rewrite EL.
  assert (EB : u32 (Z.shiftl (fst c) 16) = 65536 * fst c).
  { rewrite Z.shiftl_mul_pow2 by lia. change (2 ^ 16) with 65536. rewrite u32_id; lia. }
  rewrite EB. destruct R as (_ & Hne & Ht & Hz & Hpc & Hsp & Hd).
  unfold run_image in *. unfold rdata in D, H2. destruct (run_sparse (snd c)) eqn:E.
  - change (1 =? t_sparse) with true. cbv iota. unfold it_blocks. rewrite Et. cbn [bind].
    destruct (ES eq_refl) as [EN HN]. rewrite EN. unfold decode_sparse_chunk.
    rewrite assert_ok by (apply andb_true_intro; split; apply Z.leb_le; lia). cbn [bind].
    apply bytes_at_app in D as [D1 D2]. rewrite zlen_app, zlen_rhdrs in *.
    change (flat_map (fun p => map (fun x => 65536 * fst c + 256 * (fst p mod 256) + x) (piece_image (snd p)))
      (group 256 (snd c))) with (flat_map (piece_out (65536 * fst c)) (group 256 (snd c))) in *.
    destruct (decode_pieces mem (i_data it + zlen (group 256 (snd c)) * 2) (65536 * fst c) (group 256 (snd c))
      (S (Z.to_nat (zlen (group 256 (snd c))))) (i_data it) (i_data it + zlen (group 256 (snd c)) * 2) out pos)
      as (out' & E' & W); auto; try lia.
    { rewrite length_zlen. lia. }
    { unfold run_sparse in E. apply andb_prop in E as [E _]. apply Z.ltb_lt in E. specialize (Hpc E).
      pose proof (group_pieces 256 (snd c)) as G1. pose proof (group_range 256 (snd c) ltac:(lia)) as G2.
      rewrite Forall_forall in *. intros p Hp'. auto. }
    { replace (zlen (group 256 (snd c)) * 2) with (2 * zlen (group 256 (snd c))) by lia. exact D2. }
    rewrite E'. cbn [bind]. exists out'. split; auto. do 2 f_equal.
    replace (pos + _ - pos) with (zlen (flat_map (piece_out (65536 * fst c)) (group 256 (snd c)))) by lia.
    apply u32_id. split; [apply zlen_nonneg|].
    assert (G : forall bs, Forall (fun p => zlen (snd p) <= 256) bs ->
      zlen (flat_map (piece_out (65536 * fst c)) bs) <= 256 * zlen bs).
    { induction bs as [|p bs IH]; intro Q; cbn [flat_map]; [rewrite !zlen_nil; lia|].
      inversion Q; subst. rewrite zlen_app, zlen_cons. specialize (IH ltac:(auto)).
      assert (zlen (piece_out (65536 * fst c) p) <= 256); [|lia].
      unfold piece_out. rewrite zlen_map. unfold piece_image. destruct (zlen (snd p) <? 31); [lia|].
      apply (zlen_filter_zrange (memb (snd p)) 256). }
    unfold run_sparse in E. apply andb_prop in E as [E _]. apply Z.ltb_lt in E. specialize (G _ (Hpc E)). lia.
  - destruct (Z.eqb_spec (zlen (snd c)) 65536) as [E6|E6].
    + change (2 =? t_sparse) with false. cbv iota.
      change (2 =? t_dense) with false. cbv iota.
      change (2 =? t_full) with true. cbv iota.
      unfold decode_full_chunk. change M_Util.chunk_size with 65536. rewrite zlen_zrange, Z2Nat.id in * by lia.
      destruct (decode_full_loop_ok (Z.to_nat 65536) 0 (65536 * fst c) out pos) as (out' & -> & W); try lia.
      cbn [bind]. exists out'. split; [reflexivity|]. rewrite Z.add_0_r in W.
      apply wrote_weaken with 0; [|lia].
      replace (zrange (65536 * fst c) (Z.to_nat 65536)) with (map (addb (65536 * fst c)) (zrange 0 (Z.to_nat 65536)));
        [exact W|].
      transitivity (map (fun x => x + 65536 * fst c) (zrange 0 (Z.to_nat 65536))).
      * apply map_ext. intro x. unfold addb. lia.
      * rewrite zrange_map. f_equal.
    + change (3 =? t_sparse) with false. cbv iota. change (3 =? t_dense) with true. cbv iota.
      rewrite run_shift in *. rewrite zlen_map in *.
      destruct (decode_bitmap_any (words_mem mem (i_data it)) (Z.to_nat 1024)
        (map (fun v => v - 65536 * fst c) (snd c)) (65536 * fst c) out pos) as (out' & E' & W);
        rewrite ?Z2Nat.id in * by lia; try lia.
      { apply bm_bitmap in D. rewrite Z2Nat.id in D by lia. exact D. }
      { replace (64 * Z.to_nat 1024)%nat with (Z.to_nat 65536) by lia. lia. }
      replace (64 * Z.to_nat 1024)%nat with (Z.to_nat 65536) in * by lia.
      exists out'. split; [exact E'|]. eapply wrote_weaken; [exact W|lia].
Qed.

Lemma decode_runs dbg mem cs : forall it out pos,
  rview mem it cs -> 0 <= pos -> pos + zlen (flat_map run_image cs) + 23 <= zlen out ->
  exists out', decode_loop (length cs) dbg mem it out pos = Ok (out', pos + zlen (flat_map run_image cs))
    /\ wrote 23 out pos (flat_map run_image cs) out'.
Proof.
  induction cs as [|c cs IH]; intros it out pos V Hp Ho; cbn [length decode_loop flat_map] in *.
  - exists out. split; [rewrite zlen_nil, Z.add_0_r; auto|]. apply wrote_nil; lia.
  - rewrite zlen_app in *. zpos.
    destruct (decode_run dbg mem it c cs out pos V) as (out1 & -> & W1); auto; try lia.
    cbn [bind]. pose proof (wrote_zlen _ _ _ _ _ W1).
    destruct (rview_head _ _ _ _ V) as (_ & _ & it1 & -> & V1). cbn [bind].
    destruct (IH it1 out1 (pos + zlen (run_image c))) as (out2 & -> & W2); auto; try lia.
    exists out2. split; [do 2 f_equal; lia|]. eapply wrote_app; eauto. lia.
Qed.

(** ** both together *)
Lemma image_nil i : run_image (i, []) = [].
Proof. reflexivity. Qed.
Lemma image_full_runs cs : flat_map run_image (full_runs cs) = flat_map run_image cs.
Proof.
  unfold full_runs. induction cs as [|[i r] cs IH]; auto. cbn [filter snd]. destruct r as [|v r].
  - rewrite IH. reflexivity.
  - cbn [flat_map]. now rewrite IH.
Qed.
Lemma runs_ids n : forall i l c, In c (runs n i l) -> i <= fst c < i + Z.of_nat n.
Proof.
  induction n; intros i l c H; cbn [runs] in H; [easy|]. destruct H as [<-|H]; [cbn [fst]; lia|].
  apply IHn in H. lia.
Qed.
Lemma full_runs_ok L :
  L <> [] -> Forall (fun v => 0 <= v < 4294901760) L -> Forall run_ok (cuts L) ->
  Forall rok (full_runs (cuts L)) /\ zlen (full_runs (cuts L)) <= 65535.
Proof.
  intros Hne Hr Hk. pose proof (last_range L Hne Hr) as Hm. split.
  - apply Forall_forall. intros c [Hc Hn]%filter_In. rewrite Forall_forall in Hk.
    pose proof (Hk c Hc). apply runs_ids in Hc. unfold last_chunk in Hc. rewrite Z2Nat.id in Hc by lia.
    split; [lia|]. split; auto. destruct (snd c); [discriminate|discriminate].
  - pose proof (zlen_full_runs (cuts L)) as H. unfold cuts in H at 2. rewrite zlen_runs in H.
    unfold last_chunk in H. rewrite Z2Nat.id in H by lia. lia.
Qed.

Lemma disorder_decode dbg L ps mem a buf pos :
  L <> [] -> Forall (fun v => 0 <= v < 4294901760) L -> Forall run_ok (cuts L) ->
  full_runs (cuts L) <> [] -> zlen ps = 8 * (zlen (full_runs (cuts L)) / 32) ->
  let enc := rlayout ps (full_runs (cuts L)) in
  bytes_at mem a enc -> a + zlen enc + 31 <= zlen mem ->
  0 <= pos -> pos + zlen (kept L) + 23 <= zlen buf ->
  exists s buf', seq_at mem a = Ok s /\ decode dbg mem s buf pos = Ok (buf', zlen (kept L))
    /\ wrote 23 buf pos (kept L) buf'.
Proof.
  intros Hne Hr Hk Hs Hps enc B HL Hp Ho. destruct (full_runs_ok L Hne Hr Hk) as [F HN].
  unfold kept in *. rewrite <- (image_full_runs (cuts L)) in *.
  set (cs := full_runs (cuts L)) in *. clearbody cs. unfold enc in *. clear enc.
  assert (C1 : 1 <= zlen cs) by (destruct cs; [easy|zl]).
  assert (Ha : 0 <= a).
  { destruct (bytes_at_bound mem a (rlayout ps cs)) as [? _]; auto.
    unfold rlayout. intro E. apply (f_equal zlen) in E. rewrite !zlen_app, zlen_le_bytes, zlen_nil in E. zpos. lia. }
  unfold rlayout in *. rewrite u16_id in * by lia.
  rewrite !zlen_app, zlen_le_bytes, zlen_bytes_of_u16s, zlen_rchdrs in HL.
  apply bytes_at_app in B as [B0 B]. apply bytes_at_app in B as [B1 B]. apply bytes_at_app in B as [B2 B3].
  rewrite zlen_le_bytes in *. rewrite zlen_bytes_of_u16s, zlen_rchdrs in *. zpos.
  assert (V : exists s, seq_at mem a = Ok s /\ s_chunks s = zlen cs /\ rview mem (seq_begin s) cs).
  { unfold seq_at. rewrite (rd16_at mem a (zlen cs - 1)) by (auto; lia). cbn [bind].
    replace (1 + (zlen cs - 1)) with (zlen cs) by lia. change M_Util.associativity with 32.
    eexists. split; [reflexivity|]. split; [reflexivity|].
    unfold rview, seq_begin. cbn [i_header i_data i_begin i_end s_header s_data s_chunks s_pointers].
    split; [exact F|]. rewrite Hps in *.
    replace (a + 2 + 2 * (zlen cs / 32 * 4 * 2 / 2)) with (a + Z.of_nat 2 + 8 * (zlen cs / 32)) by lia.
    replace (a + 2 + zlen cs / 32 * 4 * 2 + zlen cs * 4 * 2)
      with (a + Z.of_nat 2 + 8 * (zlen cs / 32) + 2 * (4 * zlen cs)) by lia.
    split; [exact B2|]. split; [exact B3|]. lia. }
  destruct V as (s & Es & En & V).
  destruct (decode_runs dbg mem cs (seq_begin s) buf pos V Hp Ho) as (buf' & E & W).
  exists s, buf'. split; auto. split; auto. unfold decode. rewrite En, <- length_zlen, E. cbn [bind].
  do 2 f_equal. lia.
Qed.
