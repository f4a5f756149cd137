(** The encoder, part 1: bitmaps, blocks and one chunk. *)
From Verif Require Import Base Hw Spec Lib L_Bits L_Group Layout M_Util M_Build.

(** ** setting one bit of a bitmap held in a region of a buffer of words *)
Definition reg (buf : list Z) (pos : Z) : Z -> res Z := fun i => vget buf (pos + i).

Lemma bm_at_ext word n f g :
  bm_at word n f -> (forall x, 0 <= x < 64 * n -> f x = g x) -> bm_at word n g.
Proof.
  intros H E i Hi. destruct (H i Hi) as (w & H1 & H2 & H3). exists w. repeat split; auto; try apply H2.
  intros j Hj. rewrite H3 by auto. apply E. lia.
Qed.

Lemma lor_pow2_w64 w o : w64 w -> 0 <= o < 64 -> w64 (Z.lor w (2 ^ o)).
Proof.
  intros H Ho. apply w64_of_bits.
  - apply Z.lor_nonneg. split; [apply H|apply Z.pow_nonneg; lia].
  - intros j Hj. rewrite Z.lor_spec, testbit_pow2, w64_testbit_high by (auto; lia).
    destruct (Z.eqb_spec j o); [exfalso; lia|reflexivity].
Qed.

Lemma reg_set buf pos n f p :
  0 <= pos -> pos + n <= zlen buf -> bm_at (reg buf pos) n f -> 0 <= p < 64 * n ->
  exists w buf',
    vget buf (pos + p / 64) = Ok w
    /\ vset buf (pos + p / 64) (Z.lor w (2 ^ (p mod 64))) = Ok buf'
    /\ bm_at (reg buf' pos) n (fun x => f x || (x =? p))
    /\ zlen buf' = zlen buf
    /\ (forall i, i < pos \/ pos + n <= i -> znth buf' i = znth buf i).
Proof.
  intros Hp Hn Hb Hx. assert (Hq : 0 <= p / 64 < n) by lia.
  destruct (Hb (p / 64) Hq) as (w & E & Hw & Ht). unfold reg in E.
  destruct (vset_ok buf (pos + p / 64) (Z.lor w (2 ^ (p mod 64)))) as (buf' & E' & L & W1 & W2).
  { lia. }
  exists w, buf'. split; auto. split; auto. split; [|split; auto].
  - intros i Hi. unfold reg. destruct (Z.eq_dec i (p / 64)) as [->|Hne].
    + exists (Z.lor w (2 ^ (p mod 64))). split; [|split].
      * apply vget_ok. specialize (W1 0 ltac:(zl)). rewrite Z.add_0_r in W1. exact W1.
      * apply lor_pow2_w64; auto. lia.
      * intros j Hj. rewrite Z.lor_spec, testbit_pow2, Ht by lia. f_equal.
        destruct (Z.eqb_spec j (p mod 64)), (Z.eqb_spec (64 * (p / 64) + j) p); auto; lia.
    + destruct (Hb i Hi) as (w' & E'' & Hw' & Ht'). exists w'. split; [|split; auto].
      * unfold reg in E''. unfold vget. rewrite W2 by zl. exact E''.
      * intros j Hj. rewrite Ht' by auto.
        destruct (Z.eqb_spec (64 * i + j) p); [lia|]. now rewrite orb_false_r.
  - intros i Hi. apply W2. zl.
Qed.

(** a list of words with the bits of [vs] is [bitmap_words n vs] *)
Lemma bitmap_words_ext ws n vs :
  zlen ws = Z.of_nat n -> bm_at (reg ws 0) (Z.of_nat n) (memb vs) -> ws = bitmap_words n vs.
Proof.
  intros HL H. apply znth_ext; [zl|]. intros i Hi.
  rewrite znth_bitmap_words by lia. destruct (H i ltac:(lia)) as (w & E & Hw & Ht).
  unfold reg, vget in E. cbn [Z.add] in E. destruct (znth ws i) as [x|]; [|easy].
  injection E as ->. f_equal. apply w64_ext; auto using word_of_w64.
  intros j Hj. rewrite Ht, word_of_testbit by lia. reflexivity.
Qed.

Lemma bm_zeros n : bm_at (reg (repeat 0 n) 0) (Z.of_nat n) (memb []).
Proof.
  intros i Hi. exists 0. split; [|split].
  - unfold reg. apply vget_ok. apply znth_repeat. lia.
  - unfold w64; lia.
  - intros j Hj. apply Z.bits_0.
Qed.

Lemma set_bit_ok dbg ws n f p :
  zlen ws = n -> bm_at (reg ws 0) n f -> 0 <= p < 64 * n ->
  exists ws', set_bit dbg p ws = Ok ws' /\ zlen ws' = n /\ bm_at (reg ws' 0) n (fun x => f x || (x =? p)).
Proof.
  intros HL Hb Hp. unfold set_bit. rewrite assert_ok by (apply Z.ltb_lt; lia). cbn [bind].
  destruct (reg_set ws 0 n f p) as (w & ws' & E1 & E2 & E3 & E4 & _); auto; try lia.
  cbn [Z.add] in E1, E2. rewrite E1. cbn [bind]. exists ws'.
  rewrite Z.shiftl_1_l.
  assert (0 < 2 ^ (p mod 64)) by (apply Z.pow_pos_nonneg; lia).
  assert (2 ^ (p mod 64) < 2 ^ 64) by (apply Z.pow_lt_mono_r; lia).
  rewrite u64_id by (change 18446744073709551616 with (2 ^ 64); lia).
  rewrite E2. repeat split; auto. lia.
Qed.

Lemma write_bits_loop_ok dbg vs : forall rest base ws n f,
  zlen ws = n -> bm_at (reg ws 0) n f -> Forall (fun x => 0 <= x < 64 * n) vs ->
  0 <= base -> 64 * n <= 4294967296 ->
  exists ws',
    write_bits_loop dbg (length vs) (map (fun x => base + x) vs ++ rest) base ws = Ok ws'
    /\ zlen ws' = n /\ bm_at (reg ws' 0) n (fun x => f x || memb vs x).
Proof.
  induction vs as [|v vs IH]; intros rest base ws n f HL Hb Hr Hbase Hn; cbn [length write_bits_loop].
  - exists ws. split; auto. split; auto. eapply bm_at_ext; eauto. intros x _. now rewrite orb_false_r.
  - inversion Hr as [|? ? Hv Hr']; subst. cbn [map app].
    replace (base + v - base) with v by lia. rewrite u32_id by lia.
    destruct (set_bit_ok dbg ws (zlen ws) f v) as (ws1 & -> & L1 & B1); auto. cbn [bind].
    destruct (IH rest base ws1 (zlen ws) _ L1 B1 Hr' Hbase Hn) as (ws2 & E2 & L2 & B2).
    exists ws2. split; auto. split; auto. eapply bm_at_ext; eauto.
    intros x _. cbn beta. rewrite <- orb_assoc. reflexivity.
Qed.

Lemma write_bits_ok dbg vs rest base (n : nat) bits out :
  bits = 64 * Z.of_nat n -> Forall (fun x => 0 <= x < bits) vs -> 0 <= base -> bits <= 4294967296 ->
  write_bits dbg (map (fun x => base + x) vs ++ rest) (zlen vs) bits base out
  = Ok (out ++ bytes_of_u64s (bitmap_words n vs)).
Proof.
  intros -> Hr Hb Hn. unfold write_bits.
  rewrite assert_ok by (apply Z.eqb_eq; rewrite Z.mul_comm; apply Z.mod_mul; lia).
  cbn [bind]. rewrite (Z.mul_comm 64), Z.div_mul, Nat2Z.id by lia.
  rewrite <- length_zlen.
  destruct (write_bits_loop_ok dbg vs rest base (repeat 0 n) (Z.of_nat n) (memb []))
    as (ws & -> & L & B); auto using bm_zeros; try lia.
  { apply zlen_repeat. }
  cbn [bind]. rewrite (bitmap_words_ext ws n vs); auto.
Qed.

(** ** chunk_cardinality *)
(** the loops over the values of a chunk stop at the first value of the next one *)
Definition starts_from (b : Z) (q : list Z) : Prop :=
  match q with [] => True | v :: _ => b <= v end.
Lemma starts_from_all b q : Forall (fun v => b <= v) q -> starts_from b q.
Proof. destruct q; [easy|]. intro H. inversion H; auto. Qed.
Lemma starts_from_app b p q :
  Forall (fun v => b <= v) p -> starts_from b q -> starts_from b (p ++ q).
Proof. destruct p; [auto|]. intros H _. inversion H; auto. Qed.
Lemma starts_from_le b b' q : starts_from b q -> b' <= b -> starts_from b' q.
Proof. destruct q; [easy|]. cbn [starts_from]. lia. Qed.

Lemma chunk_cardinality_loop_ok dbg left right p : forall q c prev,
  sorted p -> Forall (fun v => left <= v < right) p -> starts_from right q ->
  Forall (fun v => v <> prev) p -> 0 <= left -> right = left + 65536 -> 0 <= c ->
  c + zlen p < 4294967296 ->
  chunk_cardinality_loop dbg (p ++ q) left right c prev = Ok (c + zlen p).
Proof.
  induction p as [|v p IH]; intros q c prev Hs Hr Hq Hp Hl Hright Hc Hlt; cbn [app].
  - rewrite zlen_nil, Z.add_0_r. destruct q as [|w q]; cbn [chunk_cardinality_loop]; auto.
    cbn [starts_from] in Hq. subst. destruct (Z.ltb_spec w (left + 65536)); [lia|reflexivity].
  - inversion Hr; subst. inversion Hp; subst. apply sorted_inv in Hs as [Hs Hv].
    rewrite zlen_cons in *. zpos.
    cbn [chunk_cardinality_loop]. destruct (Z.ltb_spec v (left + 65536)); [|lia].
    rewrite assert_ok by (apply Z.leb_le; lia). cbn [bind].
    rewrite assert_ok.
    2:{ apply Z.ltb_lt. unfold u32. rewrite Z.mod_small; unfold M_Util.chunk_size; lia. }
    cbn [bind]. destruct (Z.eqb_spec v prev); [contradiction|].
    rewrite u32_id by lia. rewrite IH; auto; try lia.
    + f_equal; lia.
    + eapply Forall_impl; [|exact Hv]. cbn; intros; lia.
Qed.
Lemma chunk_cardinality_ok dbg left right p q :
  p <> [] -> sorted p -> Forall (fun v => left <= v < right) p -> starts_from right q ->
  0 <= left -> right = left + 65536 -> right <= 4294967295 ->
  chunk_cardinality dbg (p ++ q) left right = Ok (zlen p).
Proof.
  intros Hne Hs Hr Hq Hl Hright Hm. unfold chunk_cardinality.
  assert (zlen p <= 65536).
  { rewrite <- (zlen_map _ _ (fun v => v - left)). change 65536 with (Z.of_nat (Z.to_nat 65536)).
    apply sorted_zlen_le.
    - apply sorted_map; auto. intros; lia.
    - rewrite Forall_map. eapply Forall_impl; [|exact Hr]. cbn beta. intros.
      rewrite Z2Nat.id; lia. }
  rewrite chunk_cardinality_loop_ok; auto; try lia.
  - cbn [bind]. rewrite Z.add_0_l. rewrite assert_ok; [reflexivity|].
    destruct p; [easy|]. apply andb_true_intro. unfold M_Util.chunk_size. split; [apply Z.ltb_lt|apply Z.leb_le]; zl.
  - eapply Forall_impl; [|exact Hr]. cbn beta. intros. change (u32 (-1)) with 4294967295. lia.
Qed.

(** ** statistics as increments *)
Lemma sadd_at f x st g : sadd f x st g = st g + (if field_eq_dec g f then x else 0).
Proof. unfold sadd, sset. destruct (field_eq_dec g f) as [->|]; lia. Qed.

Definition block_delta (size : Z) (g : field) : Z :=
  match g with
  | F_blocks => 1
  | F_empty_blocks => if size =? 0 then 1 else 0
  | F_dense_blocks => if 31 <=? size then 1 else 0
  | F_dense_blocks_bits => if 31 <=? size then 256 else 0
  | F_integers_in_dense_blocks => if 31 <=? size then size else 0
  | F_sparse_blocks => if (0 <? size) && (size <? 31) then 1 else 0
  | F_integers_in_sparse_blocks => if (0 <? size) && (size <? 31) then size else 0
  | F_sparse_blocks_bits => if (0 <? size) && (size <? 31) then 8 * (size + 1) else 0
  | F_sparse_blocks_cardinalities i =>
      if (0 <? size) && (size <? 31) && (size =? i) then 1 else 0
  | _ => 0
  end.

Ltac sfield :=
  rewrite ?sadd_at;
  repeat match goal with
  | |- context [field_eq_dec ?a ?b] => destruct (field_eq_dec a b); try congruence
  end.

Lemma block_bitsize_ok dbg size st :
  0 <= size <= 256 ->
  exists st', block_bitsize dbg size st = Ok st' /\ forall g, st' g = st g + block_delta size g.
Proof.
  intro H. unfold block_bitsize. change (block_sparseness_threshold - 1) with 31.
  change (block_sparseness_threshold - 2) with 30. change block_size with 256.
  rewrite assert_ok by (apply Z.leb_le; lia). cbn [bind].
  destruct (Z.eqb_spec size 0) as [->|].
  - eexists; split; [reflexivity|]. intro g. destruct g; cbn [block_delta]; sfield; cbn; lia.
  - destruct (Z.leb_spec 31 size).
    + eexists; split; [reflexivity|]. intro g.
      assert (E1 : (size =? 0) = false) by (apply Z.eqb_neq; lia).
      assert (E2 : (31 <=? size) = true) by (apply Z.leb_le; lia).
      assert (E3 : (size <? 31) = false) by (apply Z.ltb_ge; lia).
      destruct g; cbn [block_delta]; rewrite ?E1, ?E2, ?E3, ?andb_false_r; sfield; cbn [andb]; lia.
    + rewrite assert_ok by (apply Z.leb_le; lia). cbn [bind].
      eexists; split; [reflexivity|]. intro g.
      assert (E1 : (size =? 0) = false) by (apply Z.eqb_neq; lia).
      assert (E2 : (31 <=? size) = false) by (apply Z.leb_gt; lia).
      assert (E3 : (size <? 31) = true) by (apply Z.ltb_lt; lia).
      assert (E4 : (0 <? size) = true) by (apply Z.ltb_lt; lia).
      destruct g; cbn [block_delta]; rewrite ?E1, ?E2, ?E3, ?E4; sfield; cbn [andb]; try lia.
      * injection e as ->. rewrite Z.eqb_refl. lia.
      * destruct (Z.eqb_spec size i); [subst; congruence|lia].
Qed.

Definition blocks_delta (bs : list (Z * list Z)) (g : field) : Z :=
  fold_right (fun b s => block_delta (zlen (snd b)) g + s) 0 bs.
(** number of missing identifiers from [id] up to the last block *)
Fixpoint gaps (id : Z) (bs : list (Z * list Z)) : Z :=
  match bs with
  | [] => 0
  | b :: bs' => (fst b - id) + gaps (fst b + 1) bs'
  end.

(** ** the two block-splitting loops *)

(** splitting a chunk at the end of block [id] *)
Lemma split_block c id :
  sorted c -> Forall (fun x => 256 * id <= x < 65536) c ->
  exists c1 c2, c = c1 ++ c2
    /\ sorted c1 /\ sorted c2
    /\ Forall (fun x => 256 * id <= x < 256 * (id + 1)) c1
    /\ Forall (fun x => 256 * (id + 1) <= x < 65536) c2
    /\ blocks_of c =
       (if (match c1 with [] => true | _ => false end) then blocks_of c2
        else (id, map (fun x => x mod 256) c1) :: blocks_of c2).
Proof.
  intros Hs Hr. destruct (sorted_split c (256 * (id + 1)) Hs) as (c1 & c2 & -> & H1 & H2).
  exists c1, c2. apply sorted_app_inv in Hs as (S1 & S2 & _). apply Forall_app in Hr as [R1 R2].
  assert (R1' : Forall (fun x => 256 * id <= x < 256 * (id + 1)) c1).
  { rewrite Forall_forall in *. intros x Hx. specialize (R1 x Hx). specialize (H1 x Hx). cbn beta in *. lia. }
  assert (R2' : Forall (fun x => 256 * (id + 1) <= x < 65536) c2).
  { rewrite Forall_forall in *. intros x Hx. specialize (R2 x Hx). specialize (H2 x Hx). cbn beta in *. lia. }
  repeat split; auto. destruct c1 as [|x c1]; auto.
  unfold blocks_of. apply group_split; [discriminate| |].
  - eapply Forall_impl; [|exact R1']. cbn beta. intros; lia.
  - eapply Forall_impl; [|exact R2']. cbn beta. intros; lia.
Qed.

Section Loops.
Variables (dbg : bool) (left right : Z) (q : list Z).
Hypothesis Hleft : 0 <= left.
Hypothesis Hright : right = left + 65536.
Hypothesis Hmax : right <= 4294967295.
Hypothesis Hq : starts_from right q.

Notation sh := (map (fun x => left + x)).

(** consuming the values of the current block *)
Lemma bitsize_consume id c1 : forall c2 fuel size st,
  Forall (fun x => 256 * id <= x < 256 * (id + 1)) c1 -> 0 <= id < 256 ->
  0 <= size -> size + zlen c1 <= 256 ->
  sparse_chunk_bitsize_loop (length c1 + fuel) dbg (sh (c1 ++ c2) ++ q) right (left + 256 * id) size st
  = sparse_chunk_bitsize_loop fuel dbg (sh c2 ++ q) right (left + 256 * id) (size + zlen c1) st.
Proof.
  induction c1 as [|x c1 IH]; intros c2 fuel size st Hr Hid Hs Hn.
  - rewrite zlen_nil, Z.add_0_r. reflexivity.
  - inversion Hr as [|? ? Hx Hr']; subst. rewrite zlen_cons in *. zpos.
    cbn [app map length plus sparse_chunk_bitsize_loop].
    destruct (Z.ltb_spec (left + x) (left + 65536)); [|lia].
    replace (left + x - (left + 256 * id)) with (x - 256 * id) by lia.
    rewrite u32_id by lia. change M_Util.block_size with 256.
    destruct (Z.leb_spec 256 (x - 256 * id)); [lia|].
    rewrite assert_ok by (apply Z.ltb_lt; lia). cbn [bind].
    rewrite assert_ok by (apply Z.leb_le; lia). cbn [bind].
    rewrite IH by (auto; lia). f_equal. lia.
Qed.
Lemma bitsize_stop fuel base size st :
  sparse_chunk_bitsize_loop fuel dbg q right base size st = Ok (size, st).
Proof.
  destruct fuel; destruct q as [|v q']; cbn [sparse_chunk_bitsize_loop]; auto;
    cbn [starts_from] in Hq; subst; destruct (Z.ltb_spec v (left + 65536)); auto; lia.
Qed.
Lemma bitsize_next_block id c : forall fuel size st st',
  c <> [] -> Forall (fun x => 256 * (id + 1) <= x < 65536) c -> 0 <= id < 256 ->
  block_bitsize dbg size st = Ok st' ->
  sparse_chunk_bitsize_loop (S fuel) dbg (sh c ++ q) right (left + 256 * id) size st
  = sparse_chunk_bitsize_loop fuel dbg (sh c ++ q) right (left + 256 * (id + 1)) 0 st'.
Proof.
  intros fuel size st st' Hne Hr Hid E. destruct c as [|x c]; [easy|].
  inversion Hr as [|? ? Hx Hr']; subst.
  cbn [app map sparse_chunk_bitsize_loop].
  destruct (Z.ltb_spec (left + x) (left + 65536)); [|lia].
  replace (left + x - (left + 256 * id)) with (x - 256 * id) by lia.
  rewrite u32_id by lia. change M_Util.block_size with 256.
  destruct (Z.leb_spec 256 (x - 256 * id)); [|lia].
  rewrite E. cbn [bind]. rewrite u32_id by lia. f_equal; lia.
Qed.

Lemma in_range_256 id c1 :
  sorted c1 -> Forall (fun x => 256 * id <= x < 256 * (id + 1)) c1 -> zlen c1 <= 256.
Proof.
  intros S1 R1. rewrite <- (zlen_map _ _ (fun x => x - 256 * id)). change 256 with (Z.of_nat 256) at 2.
  apply sorted_zlen_le.
  - apply sorted_map; auto. intros; lia.
  - rewrite Forall_map. eapply Forall_impl; [|exact R1]. cbn beta. intros; lia.
Qed.

Lemma bitsize_blocks k : forall id c fuel st,
  id = 256 - Z.of_nat k -> 0 <= id -> c <> [] -> sorted c ->
  Forall (fun x => 256 * id <= x < 65536) c -> (length c + k <= fuel)%nat ->
  exists st'',
    (let! (size, st) := sparse_chunk_bitsize_loop fuel dbg (sh c ++ q) right (left + 256 * id) 0 st in
     block_bitsize dbg size st) = Ok st''
    /\ forall g, st'' g = st g + blocks_delta (blocks_of c) g
                          + gaps id (blocks_of c) * block_delta 0 g.
Proof.
  induction k; intros id c fuel st Hid Hid0 Hne Hs Hr Hf.
  { destruct c as [|x c]; [easy|]. inversion Hr; subst. lia. }
  destruct (split_block c id Hs Hr) as (c1 & c2 & -> & S1 & S2 & R1 & R2 & EB).
  pose proof (in_range_256 _ _ S1 R1) as L1.
  rewrite app_length in Hf.
  destruct c1 as [|x1 c1'].
  - (* empty block *)
    cbn [app length] in *.
    destruct (block_bitsize_ok dbg 0 st) as (st1 & E1 & D1); [lia|].
    destruct fuel as [|fuel]; [lia|].
    rewrite (bitsize_next_block id c2 fuel 0 st st1) by (auto; lia).
    destruct (IHk (id + 1) c2 fuel st1) as (st2 & E2 & D2); auto; try lia.
    exists st2. split; auto. intro g. rewrite D2, D1.
    destruct c2 as [|x c2]; [easy|].
    unfold blocks_of. destruct (group_head 256 x c2) as (vs & gr & ->).
    cbn [gaps fst]. lia.
  - remember (x1 :: c1') as c1 eqn:Ec1. assert (N1 : c1 <> []) by (subst; discriminate).
    replace (match c1 with [] => true | _ => false end) with false in EB by (now subst).
    rewrite EB. clear Ec1.
    replace fuel with (length c1 + (fuel - length c1))%nat by lia.
    rewrite bitsize_consume by (auto; lia). rewrite Z.add_0_l.
    destruct (block_bitsize_ok dbg (zlen c1) st) as (st1 & E1 & D1); [zpos; lia|].
    destruct c2 as [|x2 c2'].
    + cbn [map app]. rewrite bitsize_stop. cbn [bind]. exists st1. split; auto.
      intro g. rewrite D1. cbn [blocks_of group blocks_delta fold_right gaps fst snd].
      rewrite zlen_map. lia.
    + remember (x2 :: c2') as c2 eqn:Ec2. assert (N2 : c2 <> []) by (subst; discriminate).
      assert (LN : (0 < length c2)%nat) by (subst; cbn; lia).
      replace (fuel - length c1)%nat with (S (fuel - length c1 - 1)) by lia.
      rewrite (bitsize_next_block id c2 _ _ st st1) by (auto; lia).
      destruct (IHk (id + 1) c2 (fuel - length c1 - 1)%nat st1) as (st2 & E2 & D2); auto; try lia.
      exists st2. split; auto. intro g. rewrite D2, D1.
      cbn [blocks_delta fold_right gaps fst snd]. fold (blocks_delta (blocks_of c2) g).
      rewrite zlen_map. lia.
Qed.

(** the encoding loop *)
Lemma encode_block_ok id vs header data :
  Forall (fun x => 0 <= x < 256) vs -> zlen vs <= 256 -> 0 <= id < 256 -> vs <> [] ->
  encode_block dbg vs id header data
  = Ok ([], id + 1, header ++ block_hdr (id, vs), data ++ block_data vs).
Proof.
  intros Hr Hl Hid Hne. unfold encode_block.
  assert (0 < zlen vs) by (destruct vs; [easy|zl]).
  destruct (Z.ltb_spec 0 (zlen vs)); [|lia].
  rewrite !u8_id, u32_id by lia.
  change (block_sparseness_threshold - 1) with 31. unfold block_data, block_hdr. cbn [fst snd].
  rewrite <- app_assoc. cbn [app].
  destruct (Z.leb_spec 31 (zlen vs)); destruct (Z.ltb_spec (zlen vs) 31); try lia.
  - pose proof (write_bits_ok dbg vs [] 0 4 256 data) as W.
    rewrite app_nil_r in W. rewrite map_ext with (g := fun x => x) in W by reflexivity.
    rewrite map_id in W. change M_Util.block_size with 256. rewrite W by (auto; lia). reflexivity.
  - do 3 f_equal. rewrite <- (map_id vs) at 2. apply map_ext_in. intros x Hx.
    rewrite Forall_forall in Hr. apply u8_id. auto.
Qed.
Lemma encode_block_empty id header data :
  0 <= id < 256 -> encode_block dbg [] id header data = Ok ([], id + 1, header, data).
Proof. intro. unfold encode_block. cbn [zlen length Z.of_nat Z.ltb Z.compare]. now rewrite u32_id by lia. Qed.

Lemma encode_consume id c1 : forall c2 fuel block header data,
  Forall (fun x => 256 * id <= x < 256 * (id + 1)) c1 -> 0 <= id < 256 ->
  zlen block + zlen c1 <= 256 ->
  encode_sparse_chunk_loop (length c1 + fuel) dbg (sh (c1 ++ c2) ++ q) right id (left + 256 * id)
    block header data
  = encode_sparse_chunk_loop fuel dbg (sh c2 ++ q) right id (left + 256 * id)
      (block ++ map (fun x => x mod 256) c1) header data.
Proof.
  induction c1 as [|x c1 IH]; intros c2 fuel block header data Hr Hid Hn.
  - cbn [map length plus]. now rewrite app_nil_r.
  - inversion Hr as [|? ? Hx Hr']; subst. rewrite zlen_cons in *. zpos.
    cbn [app map length plus encode_sparse_chunk_loop].
    destruct (Z.ltb_spec (left + x) (left + 65536)); [|lia].
    replace (left + x - (left + 256 * id)) with (x - 256 * id) by lia.
    rewrite u32_id by lia. change M_Util.block_size with 256.
    destruct (Z.leb_spec 256 (x - 256 * id)); [lia|].
    rewrite assert_ok by (apply Z.ltb_lt; lia). cbn [bind].
    rewrite assert_ok by (apply Z.leb_le; zl). cbn [bind].
    rewrite IH by (auto; zl). rewrite <- app_assoc. cbn [app].
    replace (x - 256 * id) with (x mod 256); [reflexivity|]. lia.
Qed.
Lemma encode_stop fuel id base block header data :
  encode_sparse_chunk_loop fuel dbg q right id base block header data = Ok (block, id, header, data).
Proof.
  destruct fuel; destruct q as [|v q']; cbn [encode_sparse_chunk_loop]; auto;
    cbn [starts_from] in Hq; subst; destruct (Z.ltb_spec v (left + 65536)); auto; lia.
Qed.
Lemma encode_next_block id c : forall fuel block header data block' header' data',
  c <> [] -> Forall (fun x => 256 * (id + 1) <= x < 65536) c -> 0 <= id < 256 ->
  encode_block dbg block id header data = Ok (block', id + 1, header', data') ->
  encode_sparse_chunk_loop (S fuel) dbg (sh c ++ q) right id (left + 256 * id) block header data
  = encode_sparse_chunk_loop fuel dbg (sh c ++ q) right (id + 1) (left + 256 * (id + 1))
      block' header' data'.
Proof.
  intros fuel block header data block' header' data' Hne Hr Hid E. destruct c as [|x c]; [easy|].
  inversion Hr as [|? ? Hx Hr']; subst.
  cbn [app map encode_sparse_chunk_loop].
  destruct (Z.ltb_spec (left + x) (left + 65536)); [|lia].
  replace (left + x - (left + 256 * id)) with (x - 256 * id) by lia.
  rewrite u32_id by lia. change M_Util.block_size with 256.
  destruct (Z.leb_spec 256 (x - 256 * id)); [|lia].
  rewrite E. cbn [bind]. rewrite u32_id by lia. f_equal; lia.
Qed.

Lemma encode_blocks k : forall id c fuel header data,
  id = 256 - Z.of_nat k -> 0 <= id -> c <> [] -> sorted c ->
  Forall (fun x => 256 * id <= x < 65536) c -> (length c + k <= fuel)%nat ->
  exists id',
    (let! (block, id, header, data) :=
       encode_sparse_chunk_loop fuel dbg (sh c ++ q) right id (left + 256 * id) [] header data in
     encode_block dbg block id header data)
    = Ok ([], id', header ++ hdrs (blocks_of c), data ++ datas (blocks_of c)).
Proof.
  induction k; intros id c fuel header data Hid Hid0 Hne Hs Hr Hf.
  { destruct c as [|x c]; [easy|]. inversion Hr; subst. lia. }
  destruct (split_block c id Hs Hr) as (c1 & c2 & -> & S1 & S2 & R1 & R2 & EB).
  pose proof (in_range_256 _ _ S1 R1) as L1.
  rewrite app_length in Hf.
  destruct c1 as [|x1 c1'].
  - cbn [app length] in *. destruct fuel as [|fuel]; [lia|].
    rewrite (encode_next_block id c2 fuel [] header data [] header data) by
      (auto; try lia; apply encode_block_empty; lia).
    apply IHk; auto; lia.
  - remember (x1 :: c1') as c1 eqn:Ec1. assert (N1 : c1 <> []) by (subst; discriminate).
    replace (match c1 with [] => true | _ => false end) with false in EB by (now subst).
    rewrite EB. clear Ec1.
    replace fuel with (length c1 + (fuel - length c1))%nat by lia.
    rewrite encode_consume by (auto; zl). cbn [app].
    set (vs := map (fun x => x mod 256) c1) in *.
    assert (Hvs : Forall (fun x => 0 <= x < 256) vs).
    { unfold vs. rewrite Forall_map. eapply Forall_impl; [|exact R1]. cbn beta. intros; lia. }
    assert (Lvs : zlen vs <= 256) by (unfold vs; zl).
    assert (Nvs : vs <> []) by (unfold vs; destruct c1; [easy|discriminate]).
    pose proof (encode_block_ok id vs header data Hvs Lvs ltac:(lia) Nvs) as E1.
    destruct c2 as [|x2 c2'].
    + cbn [map app]. rewrite encode_stop. cbn [bind]. exists (id + 1). rewrite E1.
      unfold hdrs, datas. cbn [blocks_of group flat_map snd]. now rewrite !app_nil_r.
    + remember (x2 :: c2') as c2 eqn:Ec2. assert (N2 : c2 <> []) by (subst; discriminate).
      assert (LN : (0 < length c2)%nat) by (subst; cbn; lia).
      replace (fuel - length c1)%nat with (S (fuel - length c1 - 1)) by lia.
      rewrite (encode_next_block id c2 _ _ _ _ _ _ _ N2 R2 ltac:(lia) E1).
      destruct (IHk (id + 1) c2 (fuel - length c1 - 1)%nat (header ++ block_hdr (id, vs))
                  (data ++ block_data vs)) as (id' & E2); auto; try lia.
      exists id'. rewrite E2. rewrite hdrs_cons, datas_cons, !app_assoc. reflexivity.
Qed.

(** the two functions on a chunk *)
Lemma split_steps_le c : forall base,
  Forall (fun x => 0 <= x < 65536) c -> zlen c <= split_steps (sh c ++ q) right base.
Proof.
  assert (P : forall l base, 0 <= split_steps l right base).
  { induction l as [|v l IH]; intro base; cbn [split_steps]; [lia|].
    destruct (v <? right); [|lia]. cbv zeta. change M_Util.block_size with 256.
    specialize (IH (u32 (base + u32 (v - base) / 256 * 256))).
    assert (0 <= u32 (v - base) / 256); [|lia].
    apply Z.div_pos; [apply Z.mod_pos_bound|]; lia. }
  induction c as [|x c IH]; intros base H; [rewrite zlen_nil; apply P|].
  inversion H as [|? ? Hx H']; subst. cbn [map app split_steps].
  destruct (Z.ltb_spec (left + x) (left + 65536)); [|lia]. cbv zeta.
  change M_Util.block_size with 256. rewrite zlen_cons.
  specialize (IH (u32 (base + u32 (left + x - base) / 256 * 256)) H').
  assert (0 <= u32 (left + x - base) / 256); [|lia].
  apply Z.div_pos; [apply Z.mod_pos_bound|]; lia.
Qed.
Lemma split_fuel_enough c :
  Forall (fun x => 0 <= x < 65536) c -> (length c + 256 <= split_fuel (sh c ++ q) left right)%nat.
Proof.
  intro H. unfold split_fuel. pose proof (split_steps_le c left H).
  rewrite length_zlen. zpos. lia.
Qed.
Lemma sparse_chunk_bitsize_ok c :
  c <> [] -> sorted c -> Forall (fun x => 0 <= x < 65536) c ->
  exists scs, sparse_chunk_bitsize dbg (sh c ++ q) left right = Ok scs
    /\ forall g, scs g = blocks_delta (blocks_of c) g + gaps 0 (blocks_of c) * block_delta 0 g.
Proof.
  intros Hne Hs Hr. unfold sparse_chunk_bitsize.
  destruct (bitsize_blocks 256 0 c (split_fuel (sh c ++ q) left right) stats0) as (st & E & D); auto; try lia.
  - apply split_fuel_enough; auto.
  - rewrite Z.mul_0_r, Z.add_0_r in E. exists st. split; auto.
Qed.
Lemma encode_sparse_chunk_ok c out :
  c <> [] -> sorted c -> Forall (fun x => 0 <= x < 65536) c ->
  encode_sparse_chunk dbg (sh c ++ q) left right [] out = Ok ([], out ++ sparse_data c).
Proof.
  intros Hne Hs Hr. unfold encode_sparse_chunk.
  destruct (encode_blocks 256 0 c (split_fuel (sh c ++ q) left right) [] []) as (id' & E); auto; try lia.
  - apply split_fuel_enough; auto.
  - rewrite Z.mul_0_r, Z.add_0_r in E.
    destruct (encode_sparse_chunk_loop _ _ _ _ _ _ _ _ _) as [[[[b i] h] d]| | | |]; try easy.
    cbn [bind] in *. rewrite E. cbn [bind app]. reflexivity.
Qed.
End Loops.
