(** C43: chunks and sequences made from lists that are not increasing. *)
From Verif Require Import Base Hw Spec Lib L_Bits L_Group Layout M_Util M_Build P_Build1 P_Build2 P_Build3 Disorder P_Disorder1.

(** ** the layout *)
Definition rdata (c : Z * list Z) : list Z :=
  if run_sparse (snd c) then rhdrs (group 256 (snd c)) ++ datas (group 256 (snd c))
  else if zlen (snd c) =? 65536 then []
  else bytes_of_u64s (bitmap_words (Z.to_nat 1024) (map (fun v => v - 65536 * fst c) (snd c))).
Definition rtype (c : Z * list Z) : Z :=
  if run_sparse (snd c) then 1 + 256 * (zlen (group 256 (snd c)) - 1)
  else if zlen (snd c) =? 65536 then 2 else 3.
Definition rchdr (c : Z * list Z) : list Z := [fst c; zlen (snd c) - 1; rtype c; zlen (rdata c)].
Definition rchdrs (cs : list (Z * list Z)) : list Z := flat_map rchdr cs.
Definition rcdatas (cs : list (Z * list Z)) : list Z := flat_map rdata cs.

(** the chunks that are not empty *)
Definition full_runs (cs : list (Z * list Z)) : list (Z * list Z) :=
  filter (fun c => match snd c with [] => false | _ => true end) cs.

Lemma zlen_rhdrs bs : zlen (rhdrs bs) = 2 * zlen bs.
Proof.
  induction bs as [|b bs IH]; auto. unfold rhdrs in *. cbn [flat_map].
  rewrite zlen_app, IH, zlen_cons. change (zlen (rhdr b)) with 2. lia.
Qed.
Lemma zlen_rchdrs cs : zlen (rchdrs cs) = 4 * zlen cs.
Proof.
  induction cs as [|b bs IH]; auto. unfold rchdrs in *. cbn [flat_map].
  rewrite zlen_app, IH, zlen_cons. change (zlen (rchdr b)) with 4. lia.
Qed.
Lemma total_bytes bs :
  total (fun p => 2 + (if zlen (snd p) <? 31 then zlen (snd p) else 32)) bs
  = 2 * zlen bs + zlen (datas bs).
Proof.
  induction bs as [|b bs IH]; auto. unfold total in *. cbn [fold_right]. rewrite IH.
  rewrite zlen_cons, zlen_datas_cons. unfold bytes_by_cardinality.
  destruct (zlen (snd b) <? 31); lia.
Qed.
Lemma run_bytes_eq r : run_bytes r = 2 * zlen (group 256 r) + zlen (datas (group 256 r)).
Proof. apply total_bytes. Qed.

Lemma group_pieces k l : Forall (fun b => snd b <> []) (group k l).
Proof.
  induction l as [|v l IH]; cbn [group]; [constructor|].
  destruct (group k l) as [|[id vs] g]; [constructor; [discriminate|constructor]|].
  inversion IH; subst. destruct (v / k =? id).
  - constructor; auto. discriminate.
  - constructor; [discriminate|auto].
Qed.
Lemma group_range k l : 0 < k -> Forall (fun b => Forall (fun x => 0 <= x < k) (snd b)) (group k l).
Proof.
  intro Hk. induction l as [|v l IH]; cbn [group]; [constructor|].
  pose proof (Z.mod_pos_bound v k Hk).
  destruct (group k l) as [|[id vs] g].
  - constructor; [|constructor]. constructor; [auto|constructor].
  - inversion IH; subst. destruct (v / k =? id).
    + constructor; auto. constructor; auto.
    + constructor; auto. constructor; [auto|constructor].
Qed.
Lemma pieces_delta_bytes bs :
  Forall (fun b => snd b <> []) bs ->
  blocks_delta bs F_dense_blocks * 16 + blocks_delta bs F_sparse_blocks * 8
  + blocks_delta bs F_dense_blocks_bits + blocks_delta bs F_sparse_blocks_bits
  = 8 * (2 * zlen bs + zlen (datas bs)).
Proof.
  induction bs as [|b bs IH]; intro H; [reflexivity|].
  inversion H as [|? ? H1 H2]; subst. specialize (IH H2).
  rewrite !blocks_delta_cons, zlen_datas_cons, zlen_cons in *.
  assert (1 <= zlen (snd b)) by (destruct (snd b); [easy|zl]).
  cbn [block_delta]. unfold bytes_by_cardinality.
  card_cases (zlen (snd b)); lia.
Qed.
Lemma pieces_delta_count bs :
  Forall (fun b => snd b <> []) bs ->
  blocks_delta bs F_dense_blocks + blocks_delta bs F_sparse_blocks = zlen bs.
Proof.
  induction bs as [|b bs IH]; intro H; [reflexivity|].
  inversion H as [|? ? H1 H2]; subst. specialize (IH H2).
  rewrite !blocks_delta_cons, zlen_cons.
  assert (1 <= zlen (snd b)) by (destruct (snd b); [easy|zl]).
  cbn [block_delta]. card_cases (zlen (snd b)); lia.
Qed.
Lemma zlen_group_le k l : zlen (group k l) <= zlen l.
Proof.
  induction l as [|v l IH]; [cbn; lia|]. cbn [group].
  destruct (group k l) as [|[id vs] g]; [zl|]. destruct (v / k =? id); zl.
Qed.

(** ** number of values *)
Lemma run_card_loop dbg left right r : forall q c prev,
  Forall (fun v => 0 <= v < right) r -> starts_from right q ->
  (match r with [] => True | v :: _ => v <> prev end) -> no_twins r ->
  (dbg = true -> Forall (fun v => left <= v) r) ->
  0 <= left -> right = left + 65536 -> right < 4294967296 -> 0 <= c -> c + zlen r < 4294967296 ->
  chunk_cardinality_loop dbg (r ++ q) left right c prev = Ok (c + zlen r).
Proof.
  induction r as [|v r IH]; intros q c prev Hr Hq Hp Ht Hd Hl Hright Hm Hc Hn; cbn [app].
  - rewrite zlen_nil, Z.add_0_r. destruct q as [|w q]; cbn [chunk_cardinality_loop]; auto.
    cbn [starts_from] in Hq. destruct (Z.ltb_spec w right); [lia|reflexivity].
  - inversion Hr as [|? ? Hv Hr']; subst. cbn [no_twins] in Ht. destruct Ht as [Ht1 Ht].
    rewrite zlen_cons in *. zpos.
    cbn [chunk_cardinality_loop]. destruct (Z.ltb_spec v (left + 65536)); [|lia].
    assert (A1 : assert_ dbg (left <=? v) = Ok tt).
    { destruct dbg; [|reflexivity]. specialize (Hd eq_refl). inversion Hd; subst.
      apply assert_ok. apply Z.leb_le. auto. }
    assert (A2 : assert_ dbg (u32 (v - left) <? M_Util.chunk_size) = Ok tt).
    { destruct dbg; [|reflexivity]. specialize (Hd eq_refl). inversion Hd; subst.
      apply assert_ok. apply Z.ltb_lt. unfold u32, M_Util.chunk_size. rewrite Z.mod_small; lia. }
    rewrite A1. cbn [bind]. rewrite A2. cbn [bind].
    destruct (Z.eqb_spec v prev); [contradiction|]. rewrite u32_id by lia.
    rewrite IH; auto; try lia.
    + f_equal. lia.
    + destruct r; auto.
    + intro D. specialize (Hd D). inversion Hd; auto.
Qed.
Lemma run_card_abort left right r : forall q c prev,
  Forall (fun v => 0 <= v < right) r ->
  (match r with [] => True | v :: _ => v <> prev end) -> no_twins r ->
  ~ Forall (fun v => left <= v) r ->
  0 <= left -> right = left + 65536 -> right < 4294967296 ->
  chunk_cardinality_loop true (r ++ q) left right c prev = Abort.
Proof.
  induction r as [|v r IH]; intros q c prev Hr Hp Ht Hd Hl Hright Hm; cbn [app].
  - exfalso. apply Hd. constructor.
  - inversion Hr as [|? ? Hv Hr']; subst. cbn [no_twins] in Ht. destruct Ht as [Ht1 Ht].
    cbn [chunk_cardinality_loop]. destruct (Z.ltb_spec v (left + 65536)); [|lia].
    destruct (Z_lt_le_dec v left) as [B|B].
    + unfold assert_. destruct (Z.leb_spec left v); [lia|]. reflexivity.
    + rewrite assert_ok by (apply Z.leb_le; lia). cbn [bind].
      rewrite assert_ok by (apply Z.ltb_lt; unfold u32, M_Util.chunk_size; rewrite Z.mod_small; lia).
      cbn [bind]. destruct (Z.eqb_spec v prev); [contradiction|].
      apply IH; auto. destruct r; auto.
Qed.

(** ** one chunk *)
Section Chunk.
Variables (dbg : bool) (i left right : Z) (Q : list Z).
Hypothesis Hi : 0 <= i < 65535.
Hypothesis Hleft : left = i * 65536.
Hypothesis Hright : right = left + 65536.
Hypothesis HQ : starts_from right Q.

Lemma encode_run_ok r header tmp st :
  r <> [] -> Forall (fun v => 0 <= v < right) r -> run_ok (i, r) ->
  (dbg = true -> run_above (i, r)) ->
  exists st',
    encode_chunk dbg i (mkEnc (r ++ Q) left right [] header tmp st)
    = Ok (mkEnc Q right (u32 (right + 65536)) [] (header ++ rchdr (i, r)) (tmp ++ rdata (i, r)) st').
Proof.
  intros Hne Hr (Ht & Hz & Hp & Hs & Hd) Ha. cbn [fst snd] in *.
  unfold run_above in Ha. cbn [fst snd] in Ha.
  assert (Z1 : 1 <= zlen r) by (destruct r; [easy|zl]).
  unfold encode_chunk. cbn [e_begin e_left e_right e_header e_tmp e_stats e_block].
  assert (E0 : exists v w, r ++ Q = v :: w /\ (v <? right) = true).
  { destruct r as [|x r']; [easy|]. inversion Hr; subst. cbn [app]. do 2 eexists. split; [reflexivity|].
    apply Z.ltb_lt. lia. }
  destruct E0 as (v & w & E0 & Ev). rewrite E0. rewrite Ev. rewrite <- E0. clear v w E0 Ev.
  assert (EC : chunk_cardinality dbg (r ++ Q) left right = Ok (zlen r)).
  { unfold chunk_cardinality. rewrite run_card_loop; auto; try lia.
    - cbn [bind]. rewrite Z.add_0_l. rewrite assert_ok; [reflexivity|].
      apply andb_true_intro. unfold M_Util.chunk_size. split; [apply Z.ltb_lt|apply Z.leb_le]; lia.
    - destruct r as [|x r']; auto. inversion Hr; subst. change (u32 (-1)) with 4294967295. lia.
    - intro D. eapply Forall_impl; [|exact (Ha D)]. cbn beta. intros; lia. }
  rewrite EC. cbn [bind].
  assert (ES : skipn (Z.to_nat (zlen r)) (r ++ Q) = Q) by apply skipn_zlen_app.
  rewrite (u16_id i), (u16_id (zlen r - 1)) by lia.
  unfold rchdr, rtype, rdata, run_sparse in *. cbn [fst snd] in *.
  change M_Util.chunk_sparseness_threshold with 32768. change M_Util.chunk_size with 65536.
  change (65536 / M_Util.block_size) with 256. change dense_chunk_bytes with 8192.
  destruct (Z.ltb_spec (zlen r) 32768) as [Hc|Hc]; cbn [andb] in *.
  - specialize (Hp Hc).
    assert (HM : 0 <= right < 4294967296) by lia.
    assert (Hb : 0 <= 256 * i < 16777216) by lia.
    assert (EB : left = 256 * (256 * i)) by lia.
    assert (Hst : split_steps (r ++ Q) right left <= Z.of_nat (split_fuel (r ++ Q) left right)).
    { unfold split_fuel. lia. }
    pose proof (group_pieces 256 r) as GP.
    destruct (bit_run dbg right Q HM HQ r (split_fuel (r ++ Q) left right) (256 * i) [] stats0)
      as (scs & E & D); auto; [rewrite <- EB; auto|].
    cbn [attach] in D. rewrite zlen_nil, <- EB in E.
    unfold sparse_chunk_bitsize. rewrite E. cbn [bind].
    assert (EBy : (scs F_dense_blocks * 16 + scs F_sparse_blocks * 8
                + scs F_dense_blocks_bits + scs F_sparse_blocks_bits) / 8 = run_bytes r).
    { rewrite !D by reflexivity. change (stats0 ?x) with 0. rewrite !Z.add_0_l.
      rewrite pieces_delta_bytes by auto. rewrite run_bytes_eq. rewrite Z.mul_comm, Z.div_mul by lia.
      reflexivity. }
    rewrite EBy.
    destruct (Z.leb_spec 8192 (run_bytes r)); destruct (Z.ltb_spec (run_bytes r) 8192); try lia.
    + destruct (Z.eqb_spec (zlen r) 65536); [lia|].
      specialize (Hd eq_refl ltac:(auto)).
      destruct (encode_dense_ok dbg true (map (fun v => v - 65536 * i) r) Q left
                  ((header ++ [i]) ++ [zlen r - 1]) tmp st) as (st' & E1 & _); auto; try lia.
      { rewrite Forall_map. rewrite Forall_forall in *. intros x Hx. specialize (Hd x Hx).
        specialize (Hr x Hx). cbn beta in *. lia. }
      rewrite map_map, zlen_map in E1. rewrite map_ext with (g := fun x => x) in E1 by (intro; lia).
      rewrite map_id in E1. rewrite E1. cbn [bind]. rewrite ES. exists st'.
      rewrite <- !app_assoc. reflexivity.
    + specialize (Hs eq_refl).
      assert (G1 : 1 <= zlen (group 256 r)).
      { destruct r as [|x r']; [easy|]. destruct (group_head 256 x r') as (vs & g & ->). zl. }
      assert (EN : scs F_dense_blocks + scs F_sparse_blocks = zlen (group 256 r)).
      { rewrite !D by reflexivity. change (stats0 ?x) with 0. rewrite !Z.add_0_l.
        apply pieces_delta_count; auto. }
      rewrite EN. rewrite (u16_id (zlen (group 256 r))) by lia.
      rewrite assert_ok by (apply andb_true_intro; split; apply Z.leb_le; lia).
      cbn [bind]. rewrite stats_entry_ok by lia. cbn [bind].
      destruct (enc_run dbg right Q HM HQ r (split_fuel (r ++ Q) left right) (256 * i) 0 [] [] [])
        as (id' & E2); auto.
      { rewrite Z.mul_comm, Z.mod_mul by lia. reflexivity. }
      { now rewrite <- EB. }
      cbn [attach] in E2. rewrite <- EB in E2. unfold encode_sparse_chunk.
      destruct (encode_sparse_chunk_loop _ _ _ _ _ _ _ _ _) as [[[[b idx] h] d]| | | |]; try easy.
      cbn [bind] in *. rewrite E2. cbn [bind app]. rewrite ES. eexists.
      unfold M_Util.t_sparse. rewrite lor_packed by lia.
      rewrite (u16_id (1 + 256 * _)) by lia.
      rewrite (u16_id (run_bytes r)) by (rewrite run_bytes_eq in *; zpos; lia).
      rewrite zlen_app, zlen_rhdrs, <- run_bytes_eq.
      rewrite <- !app_assoc. reflexivity.
  - destruct (Z.eqb_spec (zlen r) 65536) as [E|].
    + cbn [bind]. rewrite ES. eexists.
      rewrite <- !app_assoc, app_nil_r. reflexivity.
    + specialize (Hd eq_refl ltac:(auto)).
      destruct (encode_dense_ok dbg (8192 * 8 <=? 2 * zlen r) (map (fun v => v - 65536 * i) r) Q left
                  ((header ++ [i]) ++ [zlen r - 1]) tmp st) as (st' & E1 & _); auto; try lia.
      { rewrite Forall_map. rewrite Forall_forall in *. intros x Hx. specialize (Hd x Hx).
        specialize (Hr x Hx). cbn beta in *. lia. }
      rewrite map_map, zlen_map in E1. rewrite map_ext with (g := fun x => x) in E1 by (intro; lia).
      rewrite map_id in E1. rewrite E1. cbn [bind]. rewrite ES. exists st'.
      rewrite <- !app_assoc. reflexivity.
Qed.

Lemma encode_run_abort r header tmp st :
  Forall (fun v => 0 <= v < right) r -> no_twins r -> ~ run_above (i, r) ->
  encode_chunk true i (mkEnc (r ++ Q) left right [] header tmp st) = Abort.
Proof.
  intros Hr Ht Ha. unfold run_above in Ha. cbn [fst snd] in Ha.
  assert (Hne : r <> []) by (intros ->; apply Ha; constructor).
  unfold encode_chunk. cbn [e_begin e_left e_right e_header e_tmp e_stats e_block].
  assert (E0 : exists v w, r ++ Q = v :: w /\ (v <? right) = true).
  { destruct r as [|x r']; [easy|]. inversion Hr; subst. cbn [app]. do 2 eexists. split; [reflexivity|].
    apply Z.ltb_lt. lia. }
  destruct E0 as (v & w & E0 & Ev). rewrite E0. rewrite Ev. rewrite <- E0. clear v w E0 Ev.
  unfold chunk_cardinality. rewrite run_card_abort; auto; try lia.
  - destruct r as [|x r']; auto. inversion Hr; subst. change (u32 (-1)) with 4294967295. lia.
  - intro H. apply Ha. eapply Forall_impl; [|exact H]. cbn beta. intros; lia.
Qed.
End Chunk.

(** ** cutting *)
Lemma upto_from b l : l = upto b l ++ from b l.
Proof.
  induction l as [|v l IH]; auto. cbn [upto from]. destruct (v <? b); auto. cbn [app]. now rewrite <- IH.
Qed.
Lemma upto_below b l : Forall (fun v => v < b) (upto b l).
Proof.
  induction l as [|v l IH]; cbn [upto]; [constructor|]. destruct (Z.ltb_spec v b); constructor; auto.
Qed.
Lemma from_starts b l : starts_from b (from b l).
Proof.
  induction l as [|v l IH]; cbn [from]; [exact I|]. destruct (Z.ltb_spec v b); auto.
Qed.
Lemma from_from b b' l : b <= b' -> from b' (from b l) = from b' l.
Proof.
  intro H. induction l as [|v l IH]; auto. cbn [from]. destruct (Z.ltb_spec v b); auto.
  destruct (Z.ltb_spec v b'); [auto|lia].
Qed.
Lemma from_last b l m : b <= m -> exists l', from b (l ++ [m]) = l' ++ [m].
Proof.
  intro H. induction l as [|v l IH]; cbn [app from].
  - destruct (Z.ltb_spec m b); [lia|]. now exists [].
  - destruct (v <? b); auto. now exists (v :: l).
Qed.
Lemma Forall_upto (P : Z -> Prop) b l : Forall P l -> Forall P (upto b l).
Proof. intro H. rewrite (upto_from b l) in H. apply Forall_app in H. tauto. Qed.
Lemma Forall_from (P : Z -> Prop) b l : Forall P l -> Forall P (from b l).
Proof. intro H. rewrite (upto_from b l) in H. apply Forall_app in H. tauto. Qed.

(** ** all chunks *)
Lemma encode_runs_ok dbg n : forall i l m header tmp st,
  0 <= i -> i + Z.of_nat n <= 65535 -> Forall (fun v => 0 <= v) l ->
  (n = O \/ exists l', l = l' ++ [m] /\ 65536 * (i + Z.of_nat n - 1) <= m) ->
  Forall run_ok (runs n i l) -> (dbg = true -> Forall run_above (runs n i l)) ->
  exists st',
    encode_chunks n dbg i (mkEnc l (i * 65536) (u32 (i * 65536 + 65536)) [] header tmp st)
    = Ok (mkEnc (match n with O => l | _ => from (65536 * (i + Z.of_nat n)) l end)
            ((i + Z.of_nat n) * 65536) (u32 ((i + Z.of_nat n) * 65536 + 65536)) []
            (header ++ rchdrs (full_runs (runs n i l))) (tmp ++ rcdatas (full_runs (runs n i l))) st').
Proof.
  induction n; intros i l m header tmp st H0 Hn Hl Hm Hk Ha; cbn [runs encode_chunks] in *.
  - exists st. cbn [full_runs filter rchdrs rcdatas flat_map]. rewrite !app_nil_r, Z.add_0_r. reflexivity.
  - rewrite (u32_id (i * 65536 + 65536)) by lia.
    set (b := 65536 * (i + 1)) in *. set (r := upto b l) in *. set (l1 := from b l) in *.
    assert (El : l = r ++ l1) by apply upto_from.
    assert (Hb : starts_from (i * 65536 + 65536) l1).
    { eapply starts_from_le; [apply from_starts|]. unfold b. lia. }
    assert (Hr : Forall (fun v => 0 <= v < i * 65536 + 65536) r).
    { pose proof (upto_below b l) as U. fold r in U. assert (V : Forall (fun v => 0 <= v) r) by (apply Forall_upto; auto).
      rewrite Forall_forall in *. intros x Hx. specialize (U x Hx). specialize (V x Hx). cbn beta in *. unfold b in U. lia. }
    assert (Hl1 : Forall (fun v => 0 <= v) l1) by (apply Forall_from; auto).
    pose proof (Forall_inv Hk) as Hk1. pose proof (Forall_inv_tail Hk) as Hk2.
    assert (Ha1 : dbg = true -> run_above (i, r)) by (intro D; specialize (Ha D); first [exact (Forall_inv Ha)|exact (Forall_inv_tail Ha)]).
    assert (Ha2 : dbg = true -> Forall run_above (runs n (i + 1) l1))
      by (intro D; specialize (Ha D); first [exact (Forall_inv Ha)|exact (Forall_inv_tail Ha)]).
    destruct Hm as [Hm|(l' & El' & Hm)]; [easy|].
    assert (Hm1 : n = O \/ exists l'', l1 = l'' ++ [m] /\ 65536 * (i + 1 + Z.of_nat n - 1) <= m).
    { destruct n as [|n']; [auto|]. right.
      destruct (from_last b l' m) as (l'' & E''); [unfold b; lia|].
      exists l''. split; [|lia]. unfold l1. rewrite El'. exact E''. }
    assert (ST : exists st1, encode_chunk dbg i (mkEnc l (i * 65536) (i * 65536 + 65536) [] header tmp st)
      = Ok (mkEnc l1 (i * 65536 + 65536) (u32 (i * 65536 + 65536 + 65536)) []
              (header ++ rchdrs (full_runs [(i, r)])) (tmp ++ rcdatas (full_runs [(i, r)])) st1)).
    { assert (Er : r = [] \/ r <> []) by (destruct r; [left; reflexivity|right; discriminate]).
      destruct Er as [Er|Er].
      - rewrite Er in El |- *. cbn [app] in El. rewrite El.
        destruct (encode_chunk_empty dbg i (i * 65536) (i * 65536 + 65536) l1
          ltac:(auto) ltac:(auto) Hb header tmp st) as (st1 & E1 & _).
        { rewrite <- El, El'. destruct l'; discriminate. }
        exists st1. rewrite E1. cbn [full_runs filter snd rchdrs rcdatas flat_map]. now rewrite !app_nil_r.
      - rewrite El.
        destruct (encode_run_ok dbg i (i * 65536) (i * 65536 + 65536) l1 ltac:(lia) eq_refl eq_refl Hb r header tmp st)
          as (st1 & E1); auto.
        exists st1. rewrite E1. unfold full_runs. cbn [filter snd].
        replace (match r with [] => false | _ :: _ => true end) with true by (destruct r; [easy|reflexivity]).
        unfold rchdrs, rcdatas. cbn [flat_map]. now rewrite !app_nil_r. }
    destruct ST as (st1 & E1). rewrite E1. cbn [bind].
    destruct (IHn (i + 1) l1 m (header ++ rchdrs (full_runs [(i, r)])) (tmp ++ rcdatas (full_runs [(i, r)])) st1)
      as (st2 & E2); auto; try lia.
    replace (i * 65536 + 65536 + 65536) with ((i + 1) * 65536 + 65536) by lia.
    replace (i * 65536 + 65536) with ((i + 1) * 65536) by lia.
    rewrite E2. exists st2. do 2 f_equal; try lia.
    + destruct n as [|n'].
      * unfold l1, b. reflexivity.
      * unfold l1. rewrite from_from by (unfold b; lia). f_equal. lia.
    + do 2 f_equal. lia.
    + rewrite <- app_assoc. f_equal. unfold rchdrs. rewrite <- flat_map_app. f_equal.
      unfold full_runs. rewrite <- filter_app. reflexivity.
    + rewrite <- app_assoc. f_equal. unfold rcdatas. rewrite <- flat_map_app. f_equal.
      unfold full_runs. rewrite <- filter_app. reflexivity.
Qed.

Lemma encode_runs_abort n : forall i l m header tmp st,
  0 <= i -> i + Z.of_nat n <= 65535 -> Forall (fun v => 0 <= v) l ->
  (n = O \/ exists l', l = l' ++ [m] /\ 65536 * (i + Z.of_nat n - 1) <= m) ->
  Forall run_ok (runs n i l) -> ~ Forall run_above (runs n i l) ->
  encode_chunks n true i (mkEnc l (i * 65536) (u32 (i * 65536 + 65536)) [] header tmp st) = Abort.
Proof.
  induction n; intros i l m header tmp st H0 Hn Hl Hm Hk Ha; cbn [runs encode_chunks] in *.
  - exfalso. apply Ha. constructor.
  - rewrite (u32_id (i * 65536 + 65536)) by lia.
    set (b := 65536 * (i + 1)) in *. set (r := upto b l) in *. set (l1 := from b l) in *.
    assert (El : l = r ++ l1) by apply upto_from.
    assert (Hb : starts_from (i * 65536 + 65536) l1).
    { eapply starts_from_le; [apply from_starts|]. unfold b. lia. }
    assert (Hr : Forall (fun v => 0 <= v < i * 65536 + 65536) r).
    { pose proof (upto_below b l) as U. fold r in U. assert (V : Forall (fun v => 0 <= v) r) by (apply Forall_upto; auto).
      rewrite Forall_forall in *. intros x Hx. specialize (U x Hx). specialize (V x Hx). cbn beta in *. unfold b in U. lia. }
    assert (Hl1 : Forall (fun v => 0 <= v) l1) by (apply Forall_from; auto).
    pose proof (Forall_inv Hk) as Hk1. pose proof (Forall_inv_tail Hk) as Hk2.
    destruct Hm as [Hm|(l' & El' & Hm)]; [easy|].
    destruct (Forall_dec (fun v => 65536 * i <= v) (fun v => Z_le_dec _ _) r) as [A|A].
    + assert (Ha2 : ~ Forall run_above (runs n (i + 1) l1)).
      { intro H. apply Ha. constructor; auto. }
      assert (Hm1 : n = O \/ exists l'', l1 = l'' ++ [m] /\ 65536 * (i + 1 + Z.of_nat n - 1) <= m).
      { destruct n as [|n']; [auto|]. right.
        destruct (from_last b l' m) as (l'' & E''); [unfold b; lia|].
        exists l''. split; [|lia]. unfold l1. rewrite El'. exact E''. }
      assert (ST : exists h t st1, encode_chunk true i (mkEnc l (i * 65536) (i * 65536 + 65536) [] header tmp st)
        = Ok (mkEnc l1 (i * 65536 + 65536) (u32 (i * 65536 + 65536 + 65536)) [] h t st1)).
      { assert (Er : r = [] \/ r <> []) by (destruct r; [left; reflexivity|right; discriminate]).
      destruct Er as [Er|Er].
        - rewrite Er in El. cbn [app] in El. rewrite El.
          destruct (encode_chunk_empty true i (i * 65536) (i * 65536 + 65536) l1
            ltac:(auto) ltac:(auto) Hb header tmp st) as (st1 & E1 & _).
          { rewrite <- El, El'. destruct l'; discriminate. }
          eauto.
        - rewrite El.
          destruct (encode_run_ok true i (i * 65536) (i * 65536 + 65536) l1 ltac:(lia) eq_refl eq_refl Hb r header tmp st)
            as (st1 & E1); auto.
            eauto. }
      destruct ST as (h & t & st1 & E1). rewrite E1. cbn [bind].
      replace (i * 65536 + 65536 + 65536) with ((i + 1) * 65536 + 65536) by lia.
      replace (i * 65536 + 65536) with ((i + 1) * 65536) by lia.
      eapply IHn; eauto; lia.
    + rewrite El. rewrite (encode_run_abort i (i * 65536) (i * 65536 + 65536) l1); auto; try lia.
      apply Hk1.
Qed.
