(** C43: the encoder on lists that are not increasing. *)
From Verif Require Import Base Hw Spec Lib L_Bits L_Group Layout M_Util M_Build P_Build1 P_Build2 P_Build3 Disorder.

(** ** pieces *)
Definition rhdr (b : Z * list Z) : list Z := [fst b mod 256; zlen (snd b) - 1].
Definition rhdrs (bs : list (Z * list Z)) : list Z := flat_map rhdr bs.

(** the values of a block under construction put before the pieces that follow *)
Definition attach (bq : Z) (block : list Z) (g : list (Z * list Z)) : list (Z * list Z) :=
  match block with
  | [] => g
  | _ =>
      match g with
      | (id, vs) :: g' => if id =? bq then (bq, block ++ vs) :: g' else (bq, block) :: g
      | [] => [(bq, block)]
      end
  end.

Lemma attach_cons x bq block p :
  x / 256 = bq -> attach bq (block ++ [x mod 256]) (group 256 p) = attach bq block (group 256 (x :: p)).
Proof.
  intro E. cbn [group]. destruct (group 256 p) as [|[id vs] g].
  - destruct block as [|y b]; cbn [attach app]; [now rewrite E|]. now rewrite E, Z.eqb_refl.
  - rewrite E. destruct (Z.eqb_spec bq id) as [<-|N].
    + destruct block as [|y b]; cbn [attach app]; rewrite Z.eqb_refl; auto.
      now rewrite <- app_assoc.
    + destruct (Z.eqb_spec id bq); [congruence|].
      destruct block as [|y b]; cbn [attach app].
      * destruct (Z.eqb_spec id bq); [congruence|auto].
      * destruct (Z.eqb_spec id bq); [congruence|]. now rewrite Z.eqb_refl.
Qed.
Lemma attach_far x bq block p :
  x / 256 <> bq -> block <> [] ->
  attach bq block (group 256 (x :: p)) = (bq, block) :: group 256 (x :: p).
Proof.
  intros N Hb. destruct (group_head 256 x p) as (vs & g & ->). destruct block; [easy|].
  cbn [attach]. destruct (Z.eqb_spec (x / 256) bq); [contradiction|reflexivity].
Qed.
Lemma attach_len bq block g :
  block <> [] -> Forall (fun p => zlen (snd p) <= 256) (attach bq block g) -> zlen block <= 256.
Proof.
  intros N H. destruct block as [|y b]; [easy|]. destruct g as [|[id vs] g]; cbn [attach] in H.
  - inversion H; auto.
  - destruct (id =? bq); inversion H; subst; cbn [snd app] in *; auto.
    rewrite zlen_cons in *. rewrite zlen_app in *. zpos. lia.
Qed.

Lemma block_off v bq :
  0 <= v < 4294967296 -> 0 <= bq < 16777216 ->
  u32 (v - 256 * bq) = 256 * ((v / 256 - bq) mod 16777216) + v mod 256.
Proof. intros H1 H2. unfold u32. lia. Qed.
Lemma base_next bq : 0 <= bq < 16777216 -> u32 (256 * bq + 256) = 256 * ((bq + 1) mod 16777216).
Proof. intro H. unfold u32. lia. Qed.

Lemma encode_block_any dbg id vs header data :
  Forall (fun x => 0 <= x < 256) vs -> zlen vs <= 256 -> vs <> [] ->
  encode_block dbg vs id header data
  = Ok ([], u32 (id + 1), header ++ rhdr (id, vs), data ++ block_data vs).
Proof.
  intros Hr Hl Hne. unfold encode_block.
  assert (0 < zlen vs) by (destruct vs; [easy|zl]).
  destruct (Z.ltb_spec 0 (zlen vs)); [|lia].
  rewrite (u8_id (zlen vs - 1)) by lia.
  change (block_sparseness_threshold - 1) with 31. unfold block_data, rhdr. cbn [fst snd].
  rewrite <- app_assoc. cbn [app]. change (u8 id) with (id mod 256).
  destruct (Z.leb_spec 31 (zlen vs)); destruct (Z.ltb_spec (zlen vs) 31); try lia.
  - pose proof (write_bits_ok dbg vs [] 0 4 256 data) as W.
    rewrite app_nil_r in W. rewrite map_ext with (g := fun x => x) in W by reflexivity.
    rewrite map_id in W. change M_Util.block_size with 256. rewrite W by (auto; lia). reflexivity.
  - do 3 f_equal. rewrite <- (map_id vs) at 2. apply map_ext_in. intros x Hx.
    rewrite Forall_forall in Hr. apply u8_id. auto.
Qed.
Lemma encode_block_nil dbg id header data :
  encode_block dbg [] id header data = Ok ([], u32 (id + 1), header, data).
Proof. reflexivity. Qed.

Lemma block_bitsize_any dbg size st :
  0 <= size -> (dbg = true -> size <= 256) ->
  exists st', block_bitsize dbg size st = Ok st' /\ forall g, st' g = st g + block_delta size g.
Proof.
  intros H0 H. destruct (Z_le_gt_dec size 256) as [L|L]; [apply block_bitsize_ok; lia|].
  destruct dbg; [specialize (H eq_refl); lia|]. unfold block_bitsize.
  change (block_sparseness_threshold - 1) with 31. cbn [assert_ bind].
  destruct (Z.eqb_spec size 0); [lia|]. destruct (Z.leb_spec 31 size); [|lia].
  eexists; split; [reflexivity|]. intro g.
  assert (E1 : (size =? 0) = false) by (apply Z.eqb_neq; lia).
  assert (E2 : (31 <=? size) = true) by (apply Z.leb_le; lia).
  assert (E3 : (size <? 31) = false) by (apply Z.ltb_ge; lia).
  change M_Util.block_size with 256.
  destruct g; cbn [block_delta]; rewrite ?E1, ?E2, ?E3, ?andb_false_r; sfield; cbn [andb]; lia.
Qed.

Section Run.
Variables (dbg : bool) (right : Z) (q : list Z).
Hypothesis Hright : 0 <= right < 4294967296.
Hypothesis Hq : starts_from right q.

Lemma enc_stop fuel id base block header data :
  encode_sparse_chunk_loop fuel dbg q right id base block header data = Ok (block, id, header, data).
Proof.
  destruct fuel; destruct q as [|v q']; cbn [encode_sparse_chunk_loop]; auto;
    cbn [starts_from] in Hq; destruct (Z.ltb_spec v right); auto; lia.
Qed.
Lemma bit_stop fuel base size st :
  sparse_chunk_bitsize_loop fuel dbg q right base size st = Ok (size, st).
Proof.
  destruct fuel; destruct q as [|v q']; cbn [sparse_chunk_bitsize_loop]; auto;
    cbn [starts_from] in Hq; destruct (Z.ltb_spec v right); auto; lia.
Qed.

(** moving on to the block of the next value *)
Lemma enc_step fuel v p id bq block header data block' id' header' data' :
  0 <= v < right -> 0 <= bq < 16777216 -> v / 256 <> bq ->
  encode_block dbg block id header data = Ok (block', id', header', data') ->
  encode_sparse_chunk_loop (S fuel) dbg (v :: p) right id (256 * bq) block header data
  = encode_sparse_chunk_loop fuel dbg (v :: p) right id' (256 * ((bq + 1) mod 16777216)) block' header' data'.
Proof.
  intros Hv Hb N E. cbn [encode_sparse_chunk_loop].
  destruct (Z.ltb_spec v right); [|lia]. rewrite block_off by lia.
  change M_Util.block_size with 256.
  assert (0 <= v / 256 < 16777216) by lia.
  destruct (Z.leb_spec 256 (256 * ((v / 256 - bq) mod 16777216) + v mod 256)); [|exfalso; lia].
  rewrite E. cbn [bind]. now rewrite base_next by lia.
Qed.
Lemma enc_skip k : forall fuel v p id bq header data,
  0 <= v < right -> 0 <= bq < 16777216 -> (v / 256 - bq) mod 16777216 = Z.of_nat k ->
  id mod 256 = bq mod 256 ->
  exists id', id' mod 256 = (v / 256) mod 256
    /\ encode_sparse_chunk_loop (k + fuel) dbg (v :: p) right id (256 * bq) [] header data
       = encode_sparse_chunk_loop fuel dbg (v :: p) right id' (256 * (v / 256)) [] header data.
Proof.
  induction k; intros fuel v p id bq header data Hv Hb Ek Hid.
  - assert (E : v / 256 = bq) by lia. rewrite E. exists id. auto.
  - cbn [plus]. rewrite (enc_step _ v p id bq [] header data [] (u32 (id + 1)) header data)
      by (auto; try lia; apply encode_block_nil).
    apply IHk; auto; try lia.
    unfold u32. lia.
Qed.
Lemma bit_step fuel v p bq size st st' :
  0 <= v < right -> 0 <= bq < 16777216 -> v / 256 <> bq ->
  block_bitsize dbg size st = Ok st' ->
  sparse_chunk_bitsize_loop (S fuel) dbg (v :: p) right (256 * bq) size st
  = sparse_chunk_bitsize_loop fuel dbg (v :: p) right (256 * ((bq + 1) mod 16777216)) 0 st'.
Proof.
  intros Hv Hb N E. cbn [sparse_chunk_bitsize_loop].
  destruct (Z.ltb_spec v right); [|lia]. rewrite block_off by lia.
  change M_Util.block_size with 256.
  assert (0 <= v / 256 < 16777216) by lia.
  destruct (Z.leb_spec 256 (256 * ((v / 256 - bq) mod 16777216) + v mod 256)); [|exfalso; lia].
  rewrite E. cbn [bind]. now rewrite base_next by lia.
Qed.
Lemma bit_skip k : forall fuel v p bq st,
  0 <= v < right -> 0 <= bq < 16777216 -> (v / 256 - bq) mod 16777216 = Z.of_nat k ->
  exists st', (forall g, block_delta 0 g = 0 -> st' g = st g)
    /\ sparse_chunk_bitsize_loop (k + fuel) dbg (v :: p) right (256 * bq) 0 st
       = sparse_chunk_bitsize_loop fuel dbg (v :: p) right (256 * (v / 256)) 0 st'.
Proof.
  induction k; intros fuel v p bq st Hv Hb Ek.
  - assert (E : v / 256 = bq) by lia. rewrite E. exists st. auto.
  - destruct (block_bitsize_ok dbg 0 st) as (st1 & E1 & D1); [lia|].
    cbn [plus]. rewrite (bit_step _ v p bq 0 st st1) by (auto; lia).
    destruct (IHk fuel v p ((bq + 1) mod 16777216) st1) as (st2 & D2 & E2); auto; try lia.
    exists st2. split; auto. intros g Hg. rewrite D2 by auto. rewrite D1, Hg. lia.
Qed.

Lemma steps_cons v p bq :
  0 <= v < right -> 0 <= bq < 16777216 ->
  split_steps (v :: p) right (256 * bq)
  = (v / 256 - bq) mod 16777216 + 1 + split_steps p right (256 * (v / 256)).
Proof.
  intros Hv Hb. cbn [split_steps]. destruct (Z.ltb_spec v right); [|lia]. cbv zeta.
  change M_Util.block_size with 256. rewrite block_off by lia.
  assert (0 <= v / 256 < 16777216) by lia.
  replace ((256 * ((v / 256 - bq) mod 16777216) + v mod 256) / 256)
    with ((v / 256 - bq) mod 16777216) by lia.
  f_equal. f_equal. unfold u32. lia.
Qed.
Lemma steps_nonneg l : forall base, 0 <= split_steps l right base.
Proof.
  induction l as [|v l IH]; intro base; cbn [split_steps]; [lia|].
  destruct (v <? right); [|lia]. cbv zeta. change M_Util.block_size with 256.
  specialize (IH (u32 (base + u32 (v - base) / 256 * 256))).
  assert (0 <= u32 (v - base) / 256); [|lia].
  apply Z.div_pos; [apply Z.mod_pos_bound|]; lia.
Qed.

Lemma rhdr_mod id bq vs : id mod 256 = bq mod 256 -> rhdr (id, vs) = rhdr (bq, vs).
Proof. intro E. unfold rhdr. cbn [fst snd]. now rewrite E. Qed.

Lemma enc_run p : forall fuel bq id block header data,
  Forall (fun v => 0 <= v < right) p -> 0 <= bq < 16777216 -> id mod 256 = bq mod 256 ->
  Forall (fun x => 0 <= x < 256) block ->
  split_steps (p ++ q) right (256 * bq) <= Z.of_nat fuel ->
  Forall (fun b => zlen (snd b) <= 256) (attach bq block (group 256 p)) ->
  exists id',
    (let! (block, id, header, data) :=
       encode_sparse_chunk_loop fuel dbg (p ++ q) right id (256 * bq) block header data in
     encode_block dbg block id header data)
    = Ok ([], id', header ++ rhdrs (attach bq block (group 256 p)),
          data ++ datas (attach bq block (group 256 p))).
Proof.
  induction p as [|v p IH]; intros fuel bq id block header data Hp Hb Hid Hbl Hf Hl.
  - cbn [app]. rewrite enc_stop. cbn [bind group attach].
    destruct block as [|y b].
    + rewrite encode_block_nil. cbn [attach rhdrs datas flat_map]. rewrite !app_nil_r. eauto.
    + remember (y :: b) as block eqn:Eb. assert (N : block <> []) by (subst; easy).
      replace (attach bq block []) with [(bq, block)] in * by (subst; reflexivity).
      assert (Lb : zlen block <= 256) by (eapply attach_len; eauto).
      rewrite encode_block_any by auto.
      cbn [rhdrs datas flat_map snd]. rewrite !app_nil_r, (rhdr_mod _ _ _ Hid). eauto.
  - inversion Hp as [|? ? Hv Hp']; subst. cbn [app] in *.
    rewrite steps_cons in Hf by auto. pose proof (steps_nonneg (p ++ q) (256 * (v / 256))) as Hs.
    assert (Hvq : 0 <= v / 256 < 16777216) by lia.
    assert (PRE : exists f id1 block1 header1 data1,
      encode_sparse_chunk_loop fuel dbg (v :: p ++ q) right id (256 * bq) block header data
      = encode_sparse_chunk_loop (S f) dbg (v :: p ++ q) right id1 (256 * (v / 256)) block1 header1 data1
      /\ split_steps (p ++ q) right (256 * (v / 256)) <= Z.of_nat f
      /\ id1 mod 256 = (v / 256) mod 256 /\ Forall (fun x => 0 <= x < 256) block1
      /\ Forall (fun b => zlen (snd b) <= 256) (attach (v / 256) block1 (group 256 (v :: p)))
      /\ header1 ++ rhdrs (attach (v / 256) block1 (group 256 (v :: p)))
         = header ++ rhdrs (attach bq block (group 256 (v :: p)))
      /\ data1 ++ datas (attach (v / 256) block1 (group 256 (v :: p)))
         = data ++ datas (attach bq block (group 256 (v :: p)))).
    { destruct (Z.eq_dec (v / 256) bq) as [E|N].
      - rewrite E in *. rewrite Z.sub_diag in Hf.
        exists (fuel - 1)%nat, id, block, header, data.
        replace (S (fuel - 1)) with fuel by lia. repeat (split; auto). lia.
      - set (k := Z.to_nat ((v / 256 - bq) mod 16777216)).
        assert (Hk : Z.of_nat k = (v / 256 - bq) mod 16777216) by (unfold k; lia).
        assert (Hk1 : 1 <= Z.of_nat k) by lia.
        assert (FL : exists header1 data1,
          encode_block dbg block id header data = Ok ([], u32 (id + 1), header1, data1)
          /\ header1 = header ++ match block with [] => [] | _ => rhdr (bq, block) end
          /\ data1 = data ++ match block with [] => [] | _ => block_data block end).
        { destruct block as [|y b].
          - rewrite encode_block_nil, !app_nil_r. eauto.
          - remember (y :: b) as block eqn:Eb. assert (NB : block <> []) by (subst; easy).
            rewrite encode_block_any; auto.
            2:{ eapply attach_len; eauto. }
            do 2 eexists. split; [reflexivity|]. rewrite (rhdr_mod _ _ _ Hid). subst. auto. }
        destruct FL as (header1 & data1 & EF & Eh & Ed).
        destruct (enc_skip (k - 1) (fuel - k) v (p ++ q) (u32 (id + 1)) ((bq + 1) mod 16777216) header1 data1)
          as (id1 & Hid1 & E1); auto; try lia.
        { unfold u32. lia. }
        exists (fuel - k - 1)%nat, id1, [], header1, data1.
        replace fuel with (S ((k - 1) + (fuel - k))) at 1 by lia.
        rewrite (enc_step _ v (p ++ q) id bq block header data _ _ _ _ Hv Hb N EF). rewrite E1.
        replace (fuel - k)%nat with (S (fuel - k - 1)) at 1 by lia.
        split; [reflexivity|]. split; [lia|]. split; [auto|]. split; [constructor|].
        destruct block as [|y b].
        + cbn [attach] in *. rewrite Eh, Ed, !app_nil_r. auto.
        + rewrite (attach_far v bq (y :: b) p N) in Hl |- * by discriminate. cbn [attach].
          inversion Hl; subst. split; auto.
          unfold rhdrs, datas. cbn [flat_map snd]. rewrite <- !app_assoc. auto. }
    destruct PRE as (f & id1 & block1 & header1 & data1 & E1 & Hf1 & Hid1 & Hbl1 & Hl1 & Eh & Ed).
    rewrite E1, <- Eh, <- Ed. cbn [encode_sparse_chunk_loop].
    destruct (Z.ltb_spec v right); [|lia].
    rewrite block_off by lia. rewrite Z.sub_diag. change (0 mod 16777216) with 0.
    rewrite Z.mul_0_r, Z.add_0_l. change M_Util.block_size with 256.
    destruct (Z.leb_spec 256 (v mod 256)); [lia|].
    rewrite assert_ok by (apply Z.ltb_lt; lia). cbn [bind].
    rewrite <- (attach_cons v (v / 256) block1 p) in * by auto.
    assert (NE : block1 ++ [v mod 256] <> []) by (destruct block1; discriminate).
    rewrite assert_ok by (apply Z.leb_le; eapply attach_len; eauto). cbn [bind].
    apply IH; auto.
    apply Forall_app. split; auto. constructor; auto. lia.
Qed.

Lemma bit_run p : forall fuel bq block st,
  Forall (fun v => 0 <= v < right) p -> 0 <= bq < 16777216 ->
  split_steps (p ++ q) right (256 * bq) <= Z.of_nat fuel ->
  (dbg = true -> Forall (fun b => zlen (snd b) <= 256) (attach bq block (group 256 p))) ->
  exists st',
    (let! (size, st) :=
       sparse_chunk_bitsize_loop fuel dbg (p ++ q) right (256 * bq) (zlen block) st in
     block_bitsize dbg size st) = Ok st'
    /\ forall g, block_delta 0 g = 0 ->
         st' g = st g + blocks_delta (attach bq block (group 256 p)) g.
Proof.
  induction p as [|v p IH]; intros fuel bq block st Hp Hb Hf Hl.
  - cbn [app]. rewrite bit_stop. cbn [bind group].
    assert (Hz : dbg = true -> zlen block <= 256).
    { intro D. specialize (Hl D). destruct block as [|y b]; [rewrite zlen_nil; lia|].
      inversion Hl; subst; cbn [snd] in *. lia. }
    destruct (block_bitsize_any dbg (zlen block) st ltac:(zpos; lia) Hz) as (st' & -> & D). exists st'. split; auto.
    intros g Hg. rewrite D. destruct block as [|y b]; cbn [attach blocks_delta fold_right snd].
    + rewrite zlen_nil, Hg. lia.
    + lia.
  - inversion Hp as [|? ? Hv Hp']; subst. cbn [app] in *.
    rewrite steps_cons in Hf by auto. pose proof (steps_nonneg (p ++ q) (256 * (v / 256))) as Hs.
    assert (Hvq : 0 <= v / 256 < 16777216) by lia.
    assert (PRE : exists f block1 st1,
      sparse_chunk_bitsize_loop fuel dbg (v :: p ++ q) right (256 * bq) (zlen block) st
      = sparse_chunk_bitsize_loop (S f) dbg (v :: p ++ q) right (256 * (v / 256)) (zlen block1) st1
      /\ split_steps (p ++ q) right (256 * (v / 256)) <= Z.of_nat f
      /\ (dbg = true -> Forall (fun b => zlen (snd b) <= 256) (attach (v / 256) block1 (group 256 (v :: p))))
      /\ forall g, block_delta 0 g = 0 ->
           st1 g + blocks_delta (attach (v / 256) block1 (group 256 (v :: p))) g
           = st g + blocks_delta (attach bq block (group 256 (v :: p))) g).
    { destruct (Z.eq_dec (v / 256) bq) as [E|N].
      - rewrite E in *. rewrite Z.sub_diag in Hf.
        exists (fuel - 1)%nat, block, st.
        replace (S (fuel - 1)) with fuel by lia. repeat (split; auto). lia.
      - set (k := Z.to_nat ((v / 256 - bq) mod 16777216)).
        assert (Hk : Z.of_nat k = (v / 256 - bq) mod 16777216) by (unfold k; lia).
        assert (Hk1 : 1 <= Z.of_nat k) by lia.
        assert (Hz : dbg = true -> zlen block <= 256).
        { intro D. destruct block as [|y b]; [rewrite zlen_nil; lia|].
          eapply attach_len; [|exact (Hl D)]. discriminate. }
        destruct (block_bitsize_any dbg (zlen block) st ltac:(zpos; lia) Hz) as (st0 & E0 & D0).
        destruct (bit_skip (k - 1) (fuel - k) v (p ++ q) ((bq + 1) mod 16777216) st0)
          as (st1 & D1 & E1); auto; try lia.
        exists (fuel - k - 1)%nat, [], st1.
        replace fuel with (S ((k - 1) + (fuel - k))) at 1 by lia.
        rewrite (bit_step _ v (p ++ q) bq _ st st0 Hv Hb N E0). rewrite E1.
        replace (fuel - k)%nat with (S (fuel - k - 1)) at 1 by lia.
        split; [reflexivity|]. split; [lia|].
        destruct block as [|y b].
        + cbn [attach] in *. split; auto. intros g Hg. rewrite D1, D0 by auto.
          rewrite zlen_nil, Hg. lia.
        + rewrite (attach_far v bq (y :: b) p N) in Hl |- * by discriminate. cbn [attach].
          split; [intro D; specialize (Hl D); inversion Hl; auto|]. intros g Hg. rewrite D1, D0 by auto.
          rewrite blocks_delta_cons. cbn [snd]. lia. }
    destruct PRE as (f & block1 & st1 & E1 & Hf1 & Hl1 & Ed).
    rewrite E1. cbn [sparse_chunk_bitsize_loop].
    destruct (Z.ltb_spec v right); [|lia].
    rewrite block_off by lia. rewrite Z.sub_diag. change (0 mod 16777216) with 0.
    rewrite Z.mul_0_r, Z.add_0_l. change M_Util.block_size with 256.
    destruct (Z.leb_spec 256 (v mod 256)); [lia|].
    rewrite assert_ok by (apply Z.ltb_lt; lia). cbn [bind].
    rewrite <- (attach_cons v (v / 256) block1 p) in * by auto.
    assert (NE : block1 ++ [v mod 256] <> []) by (destruct block1; discriminate).
    assert (EZ : zlen block1 + 1 = zlen (block1 ++ [v mod 256])) by (rewrite zlen_app; reflexivity).
    rewrite EZ.
    assert (EA : assert_ dbg (zlen (block1 ++ [v mod 256]) <=? 256) = Ok tt).
    { destruct dbg; [|reflexivity]. apply assert_ok, Z.leb_le. eapply attach_len; eauto. }
    rewrite EA. cbn [bind].
    destruct (IH f (v / 256) (block1 ++ [v mod 256]) st1) as (st2 & E2 & D2); auto.
    exists st2. split; auto. intros g Hg. rewrite D2 by auto. auto.
Qed.
End Run.
