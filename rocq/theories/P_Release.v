(** C44: the outcome of building in a build without assertions, for any list. *)
From Verif Require Import Base Hw Spec Lib L_Bits L_Group Layout Outcome M_Util M_Build
  P_Build1 P_Build2 P_Build3 Disorder P_Disorder1 P_Disorder2 P_Disorder3 P_Disorder4 P_Ends.
From Coq Require Import Lia.

(** ** counting *)
Lemma card_twins left right r : forall q c prev,
  Forall (fun v => 0 <= v < right) r -> ~ no_twins r ->
  chunk_cardinality_loop false (r ++ q) left right c prev = Throw.
Proof.
  induction r as [|v r IH]; intros q c prev Hr Ht; [exfalso; apply Ht; exact I|].
  inversion Hr as [|? ? Hv Hr']; subst. cbn [app chunk_cardinality_loop assert_ bind].
  destruct (Z.ltb_spec v right); [|lia]. destruct (v =? prev); auto.
  destruct r as [|w r].
  - exfalso. apply Ht. cbn. auto.
  - destruct (Z.eq_dec v w) as [->|N].
    + inversion Hr'; subst. cbn [app chunk_cardinality_loop assert_ bind].
      destruct (Z.ltb_spec w right); [|lia]. now rewrite Z.eqb_refl.
    + apply IH; auto. intro H2. apply Ht. cbn [no_twins] in *. tauto.
Qed.

(** ** bitmaps *)
Lemma set_bit_in ws p : 0 <= p < 64 * zlen ws -> exists ws', set_bit false p ws = Ok ws' /\ zlen ws' = zlen ws.
Proof.
  intro H. unfold set_bit. cbn [assert_ bind]. unfold vget.
  destruct (znth_Some _ ws (p / 64)) as (x & ->); [lia|]. cbn [bind].
  destruct (vset_ok ws (p / 64) (Z.lor x (u64 (Z.shiftl 1 (p mod 64))))) as (ws' & E & L & _); [lia|].
  eauto.
Qed.
Lemma set_bit_out ws p : 64 * zlen ws <= p -> set_bit false p ws = UB.
Proof.
  intro H. unfold set_bit. cbn [assert_ bind]. unfold vget.
  destruct (znth ws (p / 64)) eqn:E; auto. apply znth_lt in E. lia.
Qed.
Lemma write_below left r : forall q ws,
  zlen ws = 1024 -> 0 <= left <= 4294836224 -> Forall (fun v => 0 <= v < left + 65536) r ->
  ~ Forall (fun v => left <= v) r ->
  write_bits_loop false (length r) (r ++ q) left ws = UB.
Proof.
  induction r as [|v r IH]; intros q ws HL Hl Hr Hb; [exfalso; apply Hb; constructor|].
  inversion Hr as [|? ? Hv Hr']; subst. cbn [length app write_bits_loop].
  destruct (Z_lt_le_dec v left).
  - rewrite set_bit_out by (unfold u32; lia). reflexivity.
  - rewrite u32_id by lia. destruct (set_bit_in ws (v - left)) as (ws' & -> & L'); [lia|].
    cbn [bind]. apply IH; auto; lia.
Qed.
Lemma dense_below b left r q header tmp st :
  0 <= left <= 4294836224 -> Forall (fun v => 0 <= v < left + 65536) r -> ~ Forall (fun v => left <= v) r ->
  encode_dense_chunk false b (r ++ q) (zlen r) left header tmp st = UB.
Proof.
  intros Hl Hr Hb. unfold encode_dense_chunk, write_bits. cbn [assert_ bind].
  rewrite <- length_zlen. rewrite write_below; auto.
Qed.

(** ** blocks *)
Lemma block_some vs id header data :
  Forall (fun x => 0 <= x < 256) vs ->
  exists id' h d, encode_block false vs id header data = Ok ([], id', h, d).
Proof.
  intro H. unfold encode_block. destruct (Z.ltb_spec 0 (zlen vs)) as [L|L].
  - destruct (_ <=? _).
    + pose proof (write_bits_ok false vs [] 0 4 256 data) as W.
      rewrite app_nil_r in W. rewrite map_ext with (g := fun x => x) in W by reflexivity.
      rewrite map_id in W. change M_Util.block_size with 256. rewrite W by (auto; lia). cbn [bind]. eauto.
    + eauto.
  - destruct vs as [|x vs]; [eauto|]. rewrite zlen_cons in L. zpos. lia.
Qed.
Lemma enc_some right fuel : forall l id base block header data,
  Forall (fun x => 0 <= x < 256) block ->
  match encode_sparse_chunk_loop fuel false l right id base block header data with
  | Ok (block', _, _, _) => Forall (fun x => 0 <= x < 256) block'
  | Fuel => True
  | _ => False
  end.
Proof.
  induction fuel as [|fuel IH]; intros l id base block header data Hb;
    (destruct l as [|v l]; cbn [encode_sparse_chunk_loop]; [exact Hb|]);
    (destruct (v <? right); [|exact Hb]); [exact I|].
  destruct (Z.leb_spec M_Util.block_size (u32 (v - base))) as [B|B].
  - destruct (block_some block id header data Hb) as (id' & h & d & ->). cbn [bind]. apply IH. constructor.
  - cbn [assert_ bind]. apply IH. apply Forall_app. split; auto. constructor; [|constructor].
    change M_Util.block_size with 256 in B. pose proof (Z.mod_pos_bound (v - base) 4294967296 ltac:(lia)).
    unfold u32 in *. lia.
Qed.
Lemma sparse_some begin left right out :
  0 <= left < 4294967296 -> exists out', encode_sparse_chunk false begin left right [] out = Ok ([], out ++ out').
Proof.
  intro H. pose proof (wpt_sparse false False begin left right [] out H) as W.
  unfold encode_sparse_chunk in *.
  pose proof (enc_some right (split_fuel begin left right) begin 0 left [] [] [] ltac:(constructor)) as E.
  destruct (encode_sparse_chunk_loop _ _ _ _ _ _ _ _ _) as [[[[b id] h] d]| | | |]; try easy.
  cbn [bind] in *. destruct (block_some b id h d E) as (id' & h' & d' & ->). cbn [bind]. eauto.
Qed.

(** ** one chunk *)
Section Chunk.
Variables (i left right : Z) (Q : list Z).
Hypothesis Hi : 0 <= i < 65535.
Hypothesis Hleft : left = i * 65536.
Hypothesis Hright : right = left + 65536.
Hypothesis HQ : starts_from right Q.

Lemma encode_run_release r header tmp st :
  r <> [] -> Forall (fun v => 0 <= v < right) r -> zlen r < 4294967296 ->
  (~ no_twins r -> encode_chunk false i (mkEnc (r ++ Q) left right [] header tmp st) = Throw)
  /\ (no_twins r -> (storable (i, r) ->
      exists h t st', encode_chunk false i (mkEnc (r ++ Q) left right [] header tmp st)
        = Ok (mkEnc Q right (u32 (right + 65536)) [] (header ++ h) (tmp ++ t) st') /\ zlen h = 4)
  /\ (~ storable (i, r) -> encode_chunk false i (mkEnc (r ++ Q) left right [] header tmp st) = UB)).
Proof.
  intros Hne Hr Hz.
  assert (Z1 : 1 <= zlen r) by (destruct r; [easy|zl]).
  unfold encode_chunk. cbn [e_begin e_left e_right e_header e_tmp e_stats e_block].
  assert (E0 : exists v w, r ++ Q = v :: w /\ (v <? right) = true).
  { destruct r as [|x r']; [easy|]. inversion Hr; subst. cbn [app]. do 2 eexists. split; [reflexivity|].
    apply Z.ltb_lt. lia. }
  destruct E0 as (v & w & E0 & Ev). rewrite E0. rewrite Ev. rewrite <- E0. clear v w E0 Ev.
  split; [intro Ht; unfold chunk_cardinality; rewrite card_twins; auto|].
  intro Ht.
  assert (EC : chunk_cardinality false (r ++ Q) left right = Ok (zlen r)).
  { unfold chunk_cardinality. rewrite run_card_loop; auto; try lia; try discriminate.
    destruct r as [|x r']; auto. inversion Hr; subst. change (u32 (-1)) with 4294967295. lia. }
  rewrite EC. cbn [bind]. clear EC.
  assert (ES : skipn (Z.to_nat (zlen r)) (r ++ Q) = Q) by apply skipn_zlen_app.
  assert (DN : forall b h, Forall (fun v => 65536 * i <= v) r -> exists t st',
    encode_dense_chunk false b (r ++ Q) (zlen r) left h tmp st = Ok (h ++ [3] ++ [8192], tmp ++ t, st')).
  { intros b h Hd.
    destruct (encode_dense_ok false b (map (fun v => v - 65536 * i) r) Q left h tmp st) as (st' & E1 & _); auto; try lia; try discriminate.
    { rewrite Forall_map. rewrite Forall_forall in *. intros x Hx. specialize (Hd x Hx).
      specialize (Hr x Hx). cbn beta in *. lia. }
    rewrite map_map, zlen_map in E1. rewrite map_ext with (g := fun x => x) in E1 by (intro; lia).
    rewrite map_id in E1. eauto. }
  assert (DB : forall b h, ~ Forall (fun v => 65536 * i <= v) r ->
    encode_dense_chunk false b (r ++ Q) (zlen r) left h tmp st = UB).
  { intros b h Hd. apply dense_below; [lia|rewrite <- Hright; auto|].
    intro H. apply Hd. eapply Forall_impl; [|exact H]. cbn beta. intros; lia. }
  assert (AB : Forall (fun v => 65536 * i <= v) r \/ ~ Forall (fun v => 65536 * i <= v) r).
  { destruct (Forall_dec (fun v => 65536 * i <= v) (fun v => Z_le_dec _ _) r); auto. }
  unfold storable, run_sparse. cbn [fst snd].
  change M_Util.chunk_sparseness_threshold with 32768. change M_Util.chunk_size with 65536.
  change dense_chunk_bytes with 8192.
  set (h0 := (header ++ [u16 i]) ++ [u16 (zlen r - 1)]).
  assert (FIN : forall x y t st' b, 
    exists h t0 st1, Ok (mkEnc (skipn (Z.to_nat (zlen r)) (r ++ Q)) right (u32 (right + 65536)) b
      (h0 ++ [x] ++ [y]) (tmp ++ t) st')
      = Ok (mkEnc Q right (u32 (right + 65536)) b (header ++ h) (tmp ++ t0) st1) /\ zlen h = 4).
  { intros x y t st' b. rewrite ES. unfold h0. rewrite <- !app_assoc.
    exists ([u16 i] ++ [u16 (zlen r - 1)] ++ [x] ++ [y]), t, st'. auto. }
  destruct (Z.ltb_spec (zlen r) 32768) as [Hc|Hc]; cbn [andb].
  - assert (HM : 0 <= right < 4294967296) by lia.
    assert (Hb : 0 <= 256 * i < 16777216) by lia.
    assert (EB : left = 256 * (256 * i)) by lia.
    assert (Hst : split_steps (r ++ Q) right left <= Z.of_nat (split_fuel (r ++ Q) left right)).
    { unfold split_fuel. lia. }
    pose proof (group_pieces 256 r) as GP.
    destruct (bit_run false right Q HM HQ r (split_fuel (r ++ Q) left right) (256 * i) [] stats0)
      as (scs & E & D); auto; [rewrite <- EB; auto|discriminate|].
    cbn [attach] in D. rewrite zlen_nil, <- EB in E.
    unfold sparse_chunk_bitsize. rewrite E. cbn [bind].
    assert (EBy : (scs F_dense_blocks * 16 + scs F_sparse_blocks * 8
                + scs F_dense_blocks_bits + scs F_sparse_blocks_bits) / 8 = run_bytes r).
    { rewrite !D by reflexivity. change (stats0 ?x) with 0. rewrite !Z.add_0_l.
      rewrite pieces_delta_bytes by auto. rewrite run_bytes_eq. rewrite Z.mul_comm, Z.div_mul by lia.
      reflexivity. }
    rewrite EBy.
    destruct (Z.leb_spec 8192 (run_bytes r)); destruct (Z.ltb_spec (run_bytes r) 8192); try lia.
    + split.
      * intros [_ S2]. destruct (DN true h0) as (t & st' & ->); [apply S2; [reflexivity|lia]|]. cbn [bind]. apply FIN.
      * intro NS. rewrite DB; [reflexivity|]. intro A. apply NS. split; [discriminate|auto].
    + assert (G1 : 1 <= zlen (group 256 r)).
      { destruct r as [|x r']; [easy|]. destruct (group_head 256 x r') as (vs & g & ->). zl. }
      assert (EN : scs F_dense_blocks + scs F_sparse_blocks = zlen (group 256 r)).
      { rewrite !D by reflexivity. change (stats0 ?x) with 0. rewrite !Z.add_0_l.
        apply pieces_delta_count; auto. }
      assert (G2 : zlen (group 256 r) < 8192) by (rewrite run_bytes_eq in *; zpos; lia).
      rewrite EN. rewrite (u16_id (zlen (group 256 r))) by lia. cbn [assert_ bind].
      split.
      * intros [S1 _]. rewrite stats_entry_ok by auto. cbn [bind].
        destruct (sparse_some (r ++ Q) left right tmp) as (t & ->); [lia|]. cbn [bind].
        rewrite <- app_assoc. apply FIN.
      * intro NS. unfold stats_entry. change (1 + _) with 257.
        destruct (Z.ltb_spec (zlen (group 256 r)) 257); [|reflexivity].
        exfalso. apply NS. split; [intros; lia|discriminate].
  - destruct (Z.eqb_spec (zlen r) 65536) as [E|E].
    + cbn [bind]. split.
      * intros _. rewrite <- app_assoc.
        match goal with |- context [mkEnc _ _ _ _ _ _ ?s] => pose proof (FIN (u16 M_Util.t_full) 0 [] s []) as F end.
        rewrite app_nil_r in F. exact F.
      * intro NS. exfalso. apply NS. split; [discriminate|intros; contradiction].
    + split.
      * intros [_ S2]. destruct (DN (8192 * 8 <=? 2 * zlen r) h0) as (t & st' & ->); [apply S2; auto|].
        cbn [bind]. apply FIN.
      * intro NS. rewrite DB; [reflexivity|]. intro A. apply NS. split; [discriminate|auto].
Qed.
End Chunk.

(** ** all chunks *)
Lemma runs_step i l m n :
  0 <= i < 65535 -> Forall (fun v => 0 <= v) l -> zlen l < 4294967296 -> l <> [] ->
  let r := upto (65536 * (i + 1)) l in
  let l1 := from (65536 * (i + 1)) l in
  (exists l', l = l' ++ [m] /\ 65536 * (i + Z.of_nat (S n) - 1) <= m) ->
  forall header tmp st,
  (~ no_twins r -> encode_chunk false i (mkEnc l (i * 65536) (i * 65536 + 65536) [] header tmp st) = Throw)
  /\ (no_twins r -> ~ storable (i, r) ->
      encode_chunk false i (mkEnc l (i * 65536) (i * 65536 + 65536) [] header tmp st) = UB)
  /\ (fine (i, r) -> exists h t st' k,
      encode_chunk false i (mkEnc l (i * 65536) (i * 65536 + 65536) [] header tmp st)
      = Ok (mkEnc l1 (i * 65536 + 65536) (u32 (i * 65536 + 65536 + 65536)) [] (header ++ h) (tmp ++ t) st')
      /\ zlen h = 4 * k /\ 0 <= k <= 1)
  /\ (n = O \/ exists l'', l1 = l'' ++ [m] /\ 65536 * (i + 1 + Z.of_nat n - 1) <= m)
  /\ Forall (fun v => 0 <= v) l1 /\ zlen l1 < 4294967296.
Proof.
  intros Hi Hl Hz Hne. set (b := 65536 * (i + 1)). intros r l1 (l' & El' & Hm) header tmp st.
  assert (El : l = r ++ l1) by apply upto_from.
  assert (Hb : starts_from (i * 65536 + 65536) l1).
  { eapply starts_from_le; [apply from_starts|]. unfold b. lia. }
  assert (Hr : Forall (fun v => 0 <= v < i * 65536 + 65536) r).
  { pose proof (upto_below b l) as U. fold r in U. assert (V : Forall (fun v => 0 <= v) r) by (apply Forall_upto; auto).
    rewrite Forall_forall in *. intros x Hx. specialize (U x Hx). specialize (V x Hx). cbn beta in *. unfold b in U. lia. }
  assert (ZZ : zlen l = zlen r + zlen l1) by (rewrite El at 1; apply zlen_app).
  assert (Hz1 : zlen r < 4294967296 /\ zlen l1 < 4294967296) by (zpos; lia).
  assert (Er : r = [] \/ r <> []) by (destruct r; [left; reflexivity|right; discriminate]).
  assert (REST : (n = O \/ exists l'', l1 = l'' ++ [m] /\ 65536 * (i + 1 + Z.of_nat n - 1) <= m)
    /\ Forall (fun v => 0 <= v) l1 /\ zlen l1 < 4294967296).
  { split; [|split; [apply Forall_from; auto|apply Hz1]].
    destruct n as [|n']; [auto|]. right.
    destruct (from_last b l' m) as (l'' & E''); [unfold b; lia|].
    exists l''. split; [|lia]. unfold l1. rewrite El'. exact E''. }
  destruct Er as [Er|Er].
  - split; [intro H; exfalso; apply H; rewrite Er; exact I|].
    split.
    { intros _ H. exfalso. apply H. rewrite Er. split; cbn; intros; [lia|discriminate]. }
    split; [|exact REST]. intros _.
    assert (El2 : l = l1) by (rewrite El, Er; reflexivity). rewrite El2.
    destruct (encode_chunk_empty false i (i * 65536) (i * 65536 + 65536) l1
      ltac:(auto) ltac:(auto) Hb header tmp st) as (st1 & E1 & _).
    { congruence. }
    exists [], [], st1, 0. rewrite E1, !app_nil_r. split; [reflexivity|]. split; [reflexivity|lia].
  - destruct (encode_run_release i (i * 65536) (i * 65536 + 65536) l1 ltac:(lia) eq_refl eq_refl Hb r header tmp st)
      as (K1 & K2); auto; [apply Hz1|]. rewrite <- El in K1, K2.
    split; [exact K1|]. split; [intro T; apply K2; auto|]. split; [|exact REST].
    intros [T S]. destruct (proj1 (K2 T) S) as (h & t & st' & E & Z). exists h, t, st', 1. split; auto. split; lia.
Qed.

Lemma encode_fine n : forall i l m header tmp st,
  0 <= i -> i + Z.of_nat n <= 65535 -> Forall (fun v => 0 <= v) l -> zlen l < 4294967296 ->
  (n = O \/ exists l', l = l' ++ [m] /\ 65536 * (i + Z.of_nat n - 1) <= m) ->
  Forall fine (runs n i l) ->
  exists h t st' k,
    encode_chunks n false i (mkEnc l (i * 65536) (u32 (i * 65536 + 65536)) [] header tmp st)
    = Ok (mkEnc (match n with O => l | _ => from (65536 * (i + Z.of_nat n)) l end)
            ((i + Z.of_nat n) * 65536) (u32 ((i + Z.of_nat n) * 65536 + 65536)) []
            (header ++ h) (tmp ++ t) st')
    /\ zlen h = 4 * k /\ 0 <= k <= Z.of_nat n.
Proof.
  induction n; intros i l m header tmp st H0 Hn Hl Hz Hm Hk; cbn [runs encode_chunks] in *.
  - exists [], [], st, 0. rewrite !app_nil_r, Z.add_0_r. split; [reflexivity|]. split; [reflexivity|lia].
  - rewrite (u32_id (i * 65536 + 65536)) by lia.
    destruct Hm as [Hm|Hm]; [easy|].
    destruct (runs_step i l m n ltac:(lia) Hl Hz) with (header := header) (tmp := tmp) (st := st)
      as (_ & _ & K & Hm1 & Hl1 & Hz1); auto.
    { destruct Hm as (l' & -> & _). destruct l'; discriminate. }
    destruct (K (Forall_inv Hk)) as (h & t & st1 & k & E1 & Zh & Hk1). rewrite E1. cbn [bind].
    replace (i * 65536 + 65536 + 65536) with ((i + 1) * 65536 + 65536) by lia.
    replace (i * 65536 + 65536) with ((i + 1) * 65536) by lia.
    destruct (IHn (i + 1) _ m (header ++ h) (tmp ++ t) st1 ltac:(lia) ltac:(lia) Hl1 Hz1 Hm1 (Forall_inv_tail Hk))
      as (h' & t' & st2 & k' & E2 & Zh' & Hk').
    exists (h ++ h'), (t ++ t'), st2, (k + k'). rewrite E2. split.
    + f_equal. f_equal.
      * destruct n as [|n'].
        -- f_equal; lia.
        -- rewrite from_from by lia. f_equal. lia.
      * lia.
      * do 2 f_equal. lia.
      * now rewrite app_assoc.
      * now rewrite app_assoc.
    + rewrite zlen_app. lia.
Qed.

Lemma encode_fault n : forall i l m header tmp st pre c post,
  0 <= i -> i + Z.of_nat n <= 65535 -> Forall (fun v => 0 <= v) l -> zlen l < 4294967296 ->
  (n = O \/ exists l', l = l' ++ [m] /\ 65536 * (i + Z.of_nat n - 1) <= m) ->
  runs n i l = pre ++ c :: post -> Forall fine pre ->
  (~ no_twins (snd c) ->
   encode_chunks n false i (mkEnc l (i * 65536) (u32 (i * 65536 + 65536)) [] header tmp st) = Throw)
  /\ (no_twins (snd c) -> ~ storable c ->
   encode_chunks n false i (mkEnc l (i * 65536) (u32 (i * 65536 + 65536)) [] header tmp st) = UB).
Proof.
  induction n; intros i l m header tmp st pre c post H0 Hn Hl Hz Hm Hc Hp; cbn [runs encode_chunks] in *.
  - destruct pre; discriminate.
  - rewrite (u32_id (i * 65536 + 65536)) by lia.
    destruct Hm as [Hm|Hm]; [easy|].
    destruct (runs_step i l m n ltac:(lia) Hl Hz) with (header := header) (tmp := tmp) (st := st)
      as (K1 & K2 & K & Hm1 & Hl1 & Hz1); auto.
    { destruct Hm as (l' & -> & _). destruct l'; discriminate. }
    destruct pre as [|p pre]; cbn [app] in Hc.
    + injection Hc as <- _. cbn [snd].
      split; [intro T; rewrite (K1 T); reflexivity|intros T S; rewrite (K2 T S); reflexivity].
    + injection Hc as Ep Hc. inversion Hp as [|? ? Hp1 Hp2]; subst.
      destruct (K Hp1) as (h & t & st1 & k & E1 & _). rewrite E1. cbn [bind].
      replace (i * 65536 + 65536 + 65536) with ((i + 1) * 65536 + 65536) by lia.
      replace (i * 65536 + 65536) with ((i + 1) * 65536) by lia.
      eapply IHn; eauto; lia.
Qed.

(** ** the whole sequence *)
Lemma release_chunks L st :
  L <> [] -> Forall is_u32 L -> zlen L < 4294967296 ->
  (Forall fine (taken L) -> exists e k, encode_sequence_chunks false L [] st = Ok e
     /\ zlen (e_header e) = 4 * k /\ 0 <= k <= 65535)
  /\ (forall pre c post, taken L = pre ++ c :: post -> Forall fine pre ->
      (~ no_twins (snd c) -> encode_sequence_chunks false L [] st = Throw)
      /\ (no_twins (snd c) -> ~ storable c -> encode_sequence_chunks false L [] st = UB)).
Proof.
  intros Hne Hu Hz.
  assert (Hl : Forall (fun v => 0 <= v) L) by (eapply Forall_impl; [|exact Hu]; unfold is_u32; intros; lia).
  assert (Hm : 0 <= last L 0 < 4294967296).
  { rewrite Forall_forall in Hu. apply Hu. rewrite (last_split L Hne) at 2. apply in_or_app. right. now left. }
  unfold encode_sequence_chunks. cbn [assert_ bind]. unfold vget. rewrite (znth_last L Hne). cbn [bind].
  change M_Util.chunk_size with 65536.
  set (st' := sadd F_chunks _ _).
  assert (Em : forall k, 0 <= k -> 65536 * k <= last L 0 + 65536 ->
    Z.to_nat k = O \/ exists l', L = l' ++ [last L 0] /\ 65536 * (0 + Z.of_nat (Z.to_nat k) - 1) <= last L 0).
  { intros k Hk0 Hk. right. exists (removelast L). split; [apply last_split; auto|]. lia. }
  unfold taken, last_chunk.
  destruct (Z_lt_le_dec (last L 0) 4294901760) as [B|B].
  - assert (En : num_chunks (last L 0) = last L 0 / 65536 + 1).
    { unfold num_chunks. change M_Util.chunk_size with 65536. rewrite u32_id; lia. }
    rewrite En. rewrite Z.min_r by lia. split.
    + intro F. destruct (encode_fine (Z.to_nat (last L 0 / 65536 + 1)) 0 L (last L 0) [] [] st')
        as (h & t & st1 & k & E & Zh & Hk); [lia|lia|exact Hl|exact Hz|apply Em; lia|exact F|].
      change (u32 (0 * 65536 + 65536)) with 65536 in E. change (0 * 65536) with 0 in E.
      rewrite E. cbn [bind]. eexists. exists k. split; [reflexivity|]. cbn [e_header app]. lia.
    + intros pre c post Hc Hp.
      destruct (encode_fault (Z.to_nat (last L 0 / 65536 + 1)) 0 L (last L 0) [] [] st' pre c post)
        as (K1 & K2); [lia|lia|exact Hl|exact Hz|apply Em; lia|exact Hc|exact Hp|].
      change (u32 (0 * 65536 + 65536)) with 65536 in *. change (0 * 65536) with 0 in *.
      split; [intro T; now rewrite (K1 T)|intros T S; now rewrite (K2 T S)].
  - assert (En : num_chunks (last L 0) = 65536).
    { unfold num_chunks. change M_Util.chunk_size with 65536.
      assert (E : (last L 0 + 65536) / 65536 = 65536) by lia. rewrite E. reflexivity. }
    rewrite En. rewrite Z.min_l by lia.
    replace (Z.to_nat 65536) with (Z.to_nat 65535 + 1)%nat by lia. rewrite encode_chunks_add. split.
    + intro F. destruct (encode_fine (Z.to_nat 65535) 0 L (last L 0) [] [] st')
        as (h & t & st1 & k & E & Zh & Hk); [lia|lia|exact Hl|exact Hz|apply Em; lia|exact F|].
      change (u32 (0 * 65536 + 65536)) with 65536 in E. change (0 * 65536) with 0 in E.
      rewrite E. cbn [bind]. rewrite Z2Nat.id in * by lia. cbn [encode_chunks].
      unfold encode_chunk. cbn [e_begin e_left e_right e_header e_tmp e_stats e_block].
      change (u32 ((0 + 65535) * 65536 + 65536)) with 0.
      destruct (Z.to_nat 65535) as [|n'] eqn:En'; [lia|].
      destruct (from_last (65536 * (0 + 65535)) (removelast L) (last L 0)) as (l'' & E''); [lia|].
      rewrite <- last_split in E'' by auto. rewrite E''.
      assert (P0 : Forall (fun v => 0 <= v) (l'' ++ [last L 0])) by (rewrite <- E''; apply Forall_from; auto).
      destruct (l'' ++ [last L 0]) as [|v q] eqn:Eq; [destruct l''; discriminate|].
      inversion P0; subst. destruct (Z.ltb_spec v 0); [lia|]. cbn [bind].
      eexists. exists k. split; [reflexivity|]. cbn [e_header app]. lia.
    + intros pre c post Hc Hp.
      destruct (encode_fault (Z.to_nat 65535) 0 L (last L 0) [] [] st' pre c post)
        as (K1 & K2); [lia|lia|exact Hl|exact Hz|apply Em; lia|exact Hc|exact Hp|].
      change (u32 (0 * 65536 + 65536)) with 65536 in *. change (0 * 65536) with 0 in *.
      split; [intro T; now rewrite (K1 T)|intros T S; now rewrite (K2 T S)].
Qed.

Lemma c44_release : forall out L,
  L <> [] -> Forall is_u32 L -> zlen L < 4294967296 ->
  (Forall fine (taken L) -> exists st enc, builder_build false out L = (Ok st, out ++ enc))
  /\ (forall pre c post, taken L = pre ++ c :: post -> Forall fine pre ->
      (~ no_twins (snd c) -> builder_build false out L = (Throw, out))
      /\ (no_twins (snd c) -> ~ storable c -> fst (builder_build false out L) = UB)).
Proof.
  intros out L Hne Hu Hz. destruct (release_chunks L stats0 Hne Hu Hz) as (A & B).
  unfold builder_build, encode_one, encode_sequence. split.
  - intro F. destruct (A F) as (e & k & -> & Zh & Hk). cbn [bind].
    rewrite Zh. rewrite (Z.mul_comm 4), Z.div_mul by lia. rewrite u32_id by lia.
    change M_Util.associativity with 32.
    destruct (pointers_loop_some (Z.to_nat (k / 32)) (e_header e) 0) as (ps & -> & _); try lia.
    cbn [bind]. rewrite <- !app_assoc. do 2 eexists. reflexivity.
  - intros pre c post Hc Hp. destruct (B pre c post Hc Hp) as (B1 & B2). split.
    + intro T. now rewrite (B1 T).
    + intros T S. now rewrite (B2 T S).
Qed.

(** an example: 5 lies below chunk 1, which becomes a bitmap *)
Lemma no_twins_zrange n : forall a, no_twins (zrange a n).
Proof.
  induction n as [|n IH]; intro a; cbn [zrange no_twins]; auto. split; auto.
  destruct n; cbn [zrange]; [exact I|lia].
Qed.
Section Below.
Variable k : nat.
Hypothesis Hk : Z.of_nat k = 32766.
Definition below_bitmap : list Z := 65536 :: 5 :: 65537 :: zrange 65538 k.
Lemma below_bitmap_range : Forall (fun v => 0 <= v < 131072) below_bitmap.
Proof using Hk.
  constructor; [lia|]. constructor; [lia|]. constructor; [lia|].
  apply Forall_forall. intros v H. apply In_zrange in H. lia.
Qed.
Lemma last_zrange n : forall a d, last (zrange a n) d = if (n =? 0)%nat then d else a + Z.of_nat n - 1.
Proof.
  induction n as [|n IH]; intros a d; [reflexivity|].
  cbn [zrange last]. destruct n as [|n]; [cbn; lia|].
  change (match zrange (a + 1) (S n) with [] => a | _ :: _ => last (zrange (a + 1) (S n)) d end)
    with (last (zrange (a + 1) (S n)) d).
  rewrite IH. cbn [Nat.eqb]. lia.
Qed.
Lemma below_bitmap_taken : taken below_bitmap = [(0, []); (1, below_bitmap)].
Proof using Hk.
  assert (El : last below_bitmap 0 = 98303).
  { assert (E : last below_bitmap 0 = last (zrange 65537 (S k)) 0) by reflexivity.
    rewrite E, last_zrange. cbn [Nat.eqb]. lia. }
  unfold taken, last_chunk. rewrite El. change (Z.to_nat (Z.min 65535 (98303 / 65536 + 1))) with 2%nat.
  cbn [runs]. change (65536 * (0 + 1)) with 65536. change (65536 * (0 + 1 + 1)) with 131072.
  assert (E1 : upto 65536 below_bitmap = [] /\ from 65536 below_bitmap = below_bitmap)
    by (apply P_Disorder4.upto_none; cbn; lia).
  assert (E2 : upto 131072 below_bitmap = below_bitmap /\ from 131072 below_bitmap = []).
  { apply P_Disorder4.upto_all. eapply Forall_impl; [|exact below_bitmap_range]. cbn beta. intros; lia. }
  destruct E1 as [-> ->]. destruct E2 as [-> _]. reflexivity.
Qed.
Lemma below_bitmap_ub out : fst (builder_build false out below_bitmap) = UB.
Proof using Hk.
  destruct (c44_release out below_bitmap) as (_ & K).
  - discriminate.
  - eapply Forall_impl; [|exact below_bitmap_range]. unfold is_u32. intros; lia.
  - unfold below_bitmap. rewrite !zlen_cons, zlen_zrange. lia.
  - destruct (K [(0, [])] (1, below_bitmap) []) as (_ & K2).
    + apply below_bitmap_taken.
    + constructor; [|constructor]. split; [exact I|]. split; cbn; intros; [lia|discriminate].
    + apply K2.
      * unfold below_bitmap. cbn [snd no_twins]. split; [lia|]. split; [lia|].
        apply (no_twins_zrange (S k) 65537).
      * intros [_ S]. cbn [fst snd] in S.
        assert (Z1 : zlen below_bitmap = 32769) by (unfold below_bitmap; rewrite !zlen_cons, zlen_zrange; lia).
        assert (B : Forall (fun v => 65536 * 1 <= v) below_bitmap).
        { apply S; [|lia]. unfold run_sparse. rewrite Z1. reflexivity. }
        inversion B as [|? ? _ B']; subst. inversion B'; subst. lia.
Qed.
End Below.

(** the cases are complete *)
Lemma no_twins_dec l : {no_twins l} + {~ no_twins l}.
Proof.
  induction l as [|v l IH]; [left; exact I|]. cbn [no_twins]. destruct IH as [H|H].
  - destruct l as [|w l]; [left; auto|]. destruct (Z.eq_dec v w); [right|left]; tauto.
  - right. tauto.
Qed.
Lemma storable_dec c : {storable c} + {~ storable c}.
Proof.
  unfold storable. destruct (run_sparse (snd c)).
  - destruct (Z_le_dec (zlen (group 256 (snd c))) 256) as [H|H].
    + left. split; [auto|discriminate].
    + right. intros [K _]. auto.
  - destruct (Z.eq_dec (zlen (snd c)) 65536) as [E|E].
    + left. split; [discriminate|contradiction].
    + destruct (Forall_dec (fun v => 65536 * fst c <= v) (fun v => Z_le_dec _ _) (snd c)) as [H|H].
      * left. split; [discriminate|auto].
      * right. intros [_ K]. auto.
Qed.
Lemma release_cases (cs : list (Z * list Z)) :
  Forall fine cs
  \/ exists pre c post, cs = pre ++ c :: post /\ Forall fine pre
       /\ (~ no_twins (snd c) \/ no_twins (snd c) /\ ~ storable c).
Proof.
  induction cs as [|c cs IH]; [left; constructor|].
  destruct (no_twins_dec (snd c)) as [T|T]; [destruct (storable_dec c) as [S|S]|].
  - destruct IH as [IH|(pre & c' & post & -> & F & H)].
    + left. constructor; [split|]; auto.
    + right. exists (c :: pre), c', post. split; [reflexivity|]. split; [constructor; [split|]; auto|auto].
  - right. exists [], c, cs. split; [reflexivity|]. split; [constructor|auto].
  - right. exists [], c, cs. split; [reflexivity|]. split; [constructor|auto].
Qed.
