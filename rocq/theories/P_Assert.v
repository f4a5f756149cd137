(** C44: the outcome of building in a build with assertions, for any list. *)
From Verif Require Import Base Hw Spec Lib L_Bits L_Group Layout Outcome M_Util M_Build
  P_Build1 P_Build2 P_Build3 Disorder P_Disorder1 P_Disorder2 P_Disorder3 P_Disorder4 P_Ends P_Release.
From Coq Require Import Lia.

Lemma assert_fails b : b = false -> assert_ true b = Abort.
Proof. intros ->. reflexivity. Qed.

(** ** counting *)
Lemma card_caught left right v b a : forall q c prev,
  Forall (fun w => 0 <= w < right) (a ++ v :: v :: b) -> Forall (fun w => left <= w) (a ++ [v]) ->
  0 <= left -> right = left + 65536 -> right < 4294967296 ->
  chunk_cardinality_loop true ((a ++ v :: v :: b) ++ q) left right c prev = Throw.
Proof.
  induction a as [|x a IH]; intros q c prev Hr Ha Hl Hright Hm; cbn [app] in *.
  - inversion Hr; subst. inversion Ha; subst. cbn [chunk_cardinality_loop].
    destruct (Z.ltb_spec v (left + 65536)); [|lia].
    rewrite assert_ok by (apply Z.leb_le; lia). cbn [bind].
    rewrite assert_ok by (apply Z.ltb_lt; unfold u32, M_Util.chunk_size; rewrite Z.mod_small; lia).
    cbn [bind]. rewrite Z.eqb_refl. destruct (v =? prev); reflexivity.
  - inversion Hr; subst. inversion Ha; subst. cbn [chunk_cardinality_loop].
    destruct (Z.ltb_spec x (left + 65536)); [|lia].
    rewrite assert_ok by (apply Z.leb_le; lia). cbn [bind].
    rewrite assert_ok by (apply Z.ltb_lt; unfold u32, M_Util.chunk_size; rewrite Z.mod_small; lia).
    cbn [bind]. destruct (x =? prev); auto.
Qed.
Lemma card_low left right r : forall q c prev,
  Forall (fun w => 0 <= w < right) r ->
  (forall a v b, prev :: r = a ++ v :: v :: b -> ~ Forall (fun w => left <= w) (tl (a ++ [v]))) ->
  ~ Forall (fun w => left <= w) r ->
  0 <= left -> right = left + 65536 -> right < 4294967296 ->
  chunk_cardinality_loop true (r ++ q) left right c prev = Abort.
Proof.
  induction r as [|v r IH]; intros q c prev Hr Ht Hd Hl Hright Hm; [exfalso; apply Hd; constructor|].
  inversion Hr as [|? ? Hv Hr']; subst. cbn [app chunk_cardinality_loop].
  destruct (Z.ltb_spec v (left + 65536)); [|lia].
  destruct (Z_lt_le_dec v left) as [B|B].
  - rewrite assert_fails by (apply Z.leb_gt; lia). reflexivity.
  - rewrite assert_ok by (apply Z.leb_le; lia). cbn [bind].
    rewrite assert_ok by (apply Z.ltb_lt; unfold u32, M_Util.chunk_size; rewrite Z.mod_small; lia).
    cbn [bind]. destruct (Z.eqb_spec v prev) as [->|N].
    + exfalso. apply (Ht [] prev r); [reflexivity|constructor].
    + apply IH; auto. intros a w b E F. apply (Ht (prev :: a) w b); [now rewrite E|].
      cbn [app tl]. destruct a as [|x a]; cbn [app tl] in *.
      * injection E as -> _. constructor; auto.
      * injection E as -> _. constructor; auto.
Qed.
Lemma twins_split l : ~ no_twins l -> exists a v b, l = a ++ v :: v :: b.
Proof.
  induction l as [|v l IH]; intro H; [exfalso; apply H; exact I|]. cbn [no_twins] in H.
  destruct l as [|w l]; [exfalso; apply H; cbn; auto|].
  destruct (Z.eq_dec v w) as [->|N]; [exists [], w, l; reflexivity|].
  destruct IH as (a & x & b & E); [tauto|]. exists (v :: a), x, b. now rewrite E.
Qed.

(** ** a piece of more than 256 values *)
Section Long.
Variables (right : Z) (q : list Z).
Hypothesis Hright : 0 <= right < 4294967296.
Hypothesis Hq : starts_from right q.

Lemma bit_long p : forall fuel bq block st,
  Forall (fun v => 0 <= v < right) p -> 0 <= bq < 16777216 ->
  split_steps (p ++ q) right (256 * bq) <= Z.of_nat fuel ->
  zlen block <= 256 -> ~ Forall (fun b => zlen (snd b) <= 256) (attach bq block (group 256 p)) ->
  sparse_chunk_bitsize_loop fuel true (p ++ q) right (256 * bq) (zlen block) st = Abort.
Proof.
  induction p as [|v p IH]; intros fuel bq block st Hp Hb Hf Hz Hl.
  - exfalso. apply Hl. cbn [group]. destruct block; [constructor|]. constructor; [auto|constructor].
  - inversion Hp as [|? ? Hv Hp']; subst. cbn [app] in *.
    rewrite (steps_cons right Hright) in Hf by auto.
    pose proof (steps_nonneg right (p ++ q) (256 * (v / 256))) as Hs.
    assert (Hvq : 0 <= v / 256 < 16777216) by lia.
    assert (PRE : exists f block1 st1,
      sparse_chunk_bitsize_loop fuel true (v :: p ++ q) right (256 * bq) (zlen block) st
      = sparse_chunk_bitsize_loop (S f) true (v :: p ++ q) right (256 * (v / 256)) (zlen block1) st1
      /\ split_steps (p ++ q) right (256 * (v / 256)) <= Z.of_nat f
      /\ zlen block1 <= 256
      /\ ~ Forall (fun b => zlen (snd b) <= 256) (attach (v / 256) block1 (group 256 (v :: p)))).
    { destruct (Z.eq_dec (v / 256) bq) as [E|N].
      - rewrite E in *. rewrite Z.sub_diag in Hf.
        exists (fuel - 1)%nat, block, st.
        replace (S (fuel - 1)) with fuel by lia. repeat (split; auto). lia.
      - set (k := Z.to_nat ((v / 256 - bq) mod 16777216)).
        assert (Hk : Z.of_nat k = (v / 256 - bq) mod 16777216) by (unfold k; lia).
        assert (Hk1 : 1 <= Z.of_nat k) by lia.
        destruct (block_bitsize_any true (zlen block) st ltac:(zpos; lia) ltac:(auto)) as (st0 & E0 & D0).
        destruct (bit_skip true right Hright (k - 1) (fuel - k) v (p ++ q) ((bq + 1) mod 16777216) st0)
          as (st1 & D1 & E1); auto; try lia.
        exists (fuel - k - 1)%nat, [], st1.
        replace fuel with (S ((k - 1) + (fuel - k))) at 1 by lia.
        rewrite (bit_step true right Hright _ v (p ++ q) bq _ st st0 Hv Hb N E0). rewrite E1.
        replace (fuel - k)%nat with (S (fuel - k - 1)) at 1 by lia.
        split; [reflexivity|]. split; [lia|]. split; [rewrite zlen_nil; lia|].
        destruct block as [|y b]; [exact Hl|].
        rewrite (attach_far v bq (y :: b) p N) in Hl by discriminate. cbn [attach].
        intro F. apply Hl. constructor; auto. }
    destruct PRE as (f & block1 & st1 & E1 & Hf1 & Hz1 & Hl1).
    rewrite E1. cbn [sparse_chunk_bitsize_loop].
    destruct (Z.ltb_spec v right); [|lia].
    rewrite block_off by lia. rewrite Z.sub_diag. change (0 mod 16777216) with 0.
    rewrite Z.mul_0_r, Z.add_0_l. change M_Util.block_size with 256.
    destruct (Z.leb_spec 256 (v mod 256)); [lia|].
    rewrite assert_ok by (apply Z.ltb_lt; lia). cbn [bind].
    rewrite <- (attach_cons v (v / 256) block1 p) in * by auto.
    assert (EZ : zlen block1 + 1 = zlen (block1 ++ [v mod 256])) by (rewrite zlen_app; reflexivity).
    rewrite EZ. destruct (Z_le_gt_dec (zlen (block1 ++ [v mod 256])) 256) as [L|G].
    + rewrite assert_ok by (apply Z.leb_le; auto). cbn [bind]. apply IH; auto.
    + rewrite assert_fails by (apply Z.leb_gt; lia). reflexivity.
Qed.
End Long.

(** ** one chunk *)
Lemma run_above_dec c : {run_above c} + {~ run_above c}.
Proof. apply (Forall_dec (fun v => 65536 * fst c <= v) (fun v => Z_le_dec _ _)). Qed.

Section Chunk.
Variables (i left right : Z) (Q : list Z).
Hypothesis Hi : 0 <= i < 65535.
Hypothesis Hleft : left = i * 65536.
Hypothesis Hright : right = left + 65536.
Hypothesis HQ : starts_from right Q.

Lemma encode_run_debug r header tmp st :
  r <> [] -> Forall (fun v => 0 <= v < right) r -> zlen r < 4294967296 ->
  (caught (i, r) -> encode_chunk true i (mkEnc (r ++ Q) left right [] header tmp st) = Throw)
  /\ (~ caught (i, r) -> ~ sound (i, r) ->
      encode_chunk true i (mkEnc (r ++ Q) left right [] header tmp st) = Abort).
Proof.
  intros Hne Hr Hz.
  assert (Z1 : 1 <= zlen r) by (destruct r; [easy|zl]).
  unfold encode_chunk. cbn [e_begin e_left e_right e_header e_tmp e_stats e_block].
  assert (E0 : exists v w, r ++ Q = v :: w /\ (v <? right) = true).
  { destruct r as [|x r']; [easy|]. inversion Hr; subst. cbn [app]. do 2 eexists. split; [reflexivity|].
    apply Z.ltb_lt. lia. }
  destruct E0 as (v & w & E0 & Ev). rewrite E0. rewrite Ev. rewrite <- E0. clear v w E0 Ev.
  unfold caught. cbn [fst snd]. split.
  { intros (a & v & b & E & F). unfold chunk_cardinality. rewrite E in *.
    rewrite card_caught; auto; try lia. eapply Forall_impl; [|exact F]. cbn beta. intros; lia. }
  intros NC NS.
  destruct (run_above_dec (i, r)) as [Ha|Ha]; unfold run_above in Ha; cbn [fst snd] in Ha.
  2:{ unfold chunk_cardinality. rewrite card_low; auto; try lia.
      - intros a v b E F. destruct a as [|x a]; cbn [app tl] in *.
        + injection E as E1 E2. destruct r as [|y r']; [easy|]. injection E2 as -> _.
          inversion Hr; subst. change (u32 (-1)) with 4294967295 in *. lia.
        + injection E as _ E. apply NC. exists a, v, b. split; auto.
          eapply Forall_impl; [|exact F]. cbn beta. intros; lia.
      - intro F. apply Ha. eapply Forall_impl; [|exact F]. cbn beta. intros; lia. }
  assert (Ht : no_twins r).
  { destruct (no_twins_dec r) as [T|T]; auto. exfalso. apply twins_split in T as (a & v & b & E).
    apply NC. exists a, v, b. split; auto. rewrite E in Ha. apply Forall_app in Ha as [A B].
    inversion B; subst. apply Forall_app. split; auto. }
  assert (EC : chunk_cardinality_loop true (r ++ Q) left right 0 (u32 (-1)) = Ok (zlen r)).
  { rewrite run_card_loop; auto; try lia.
    - destruct r as [|x r']; auto. inversion Hr; subst. change (u32 (-1)) with 4294967295. lia.
    - intros _. eapply Forall_impl; [|exact Ha]. cbn beta. intros; lia. }
  unfold chunk_cardinality. rewrite EC. cbn [bind]. clear EC.
  destruct (Z_le_gt_dec (zlen r) 65536) as [Hc|Hc].
  2:{ rewrite assert_fails; [reflexivity|]. apply andb_false_intro2. apply Z.leb_gt.
      unfold M_Util.chunk_size. lia. }
  rewrite assert_ok by (apply andb_true_intro; unfold M_Util.chunk_size; split; [apply Z.ltb_lt|apply Z.leb_le]; lia).
  cbn [bind].
  assert (BAD : ~ ((zlen r < 32768 -> Forall (fun p => zlen (snd p) <= 256) (group 256 r))
    /\ (run_sparse r = true -> zlen (group 256 r) <= 256))).
  { intros [B1 B2]. apply NS. split; [|exact Ha]. unfold run_ok. cbn [fst snd]. auto. }
  clear NC NS.
  change M_Util.chunk_sparseness_threshold with 32768. change M_Util.chunk_size with 65536.
  change (65536 / M_Util.block_size) with 256. change dense_chunk_bytes with 8192.
  unfold run_sparse in BAD.
  destruct (Z.ltb_spec (zlen r) 32768) as [H3|H3]; cbn [andb] in *.
  2:{ exfalso. apply BAD. split; [lia|discriminate]. }
  assert (HM : 0 <= right < 4294967296) by lia.
  assert (Hb : 0 <= 256 * i < 16777216) by lia.
  assert (EB : left = 256 * (256 * i)) by lia.
  assert (Hst : split_steps (r ++ Q) right left <= Z.of_nat (split_fuel (r ++ Q) left right)).
  { unfold split_fuel. lia. }
  pose proof (group_pieces 256 r) as GP.
  destruct (Forall_dec (fun p : Z * list Z => zlen (snd p) <= 256) (fun p => Z_le_dec _ _) (group 256 r)) as [Hp|Hp].
  2:{ unfold sparse_chunk_bitsize.
      pose proof (bit_long right Q HM r (split_fuel (r ++ Q) left right) (256 * i) [] stats0) as BL.
      rewrite zlen_nil, <- EB in BL. cbn [attach] in BL. rewrite BL; auto. lia. }
  destruct (bit_run true right Q HM HQ r (split_fuel (r ++ Q) left right) (256 * i) [] stats0)
    as (scs & E & D); auto; [rewrite <- EB; auto|].
  cbn [attach] in D. rewrite zlen_nil, <- EB in E.
  unfold sparse_chunk_bitsize. rewrite E. cbn [bind].
  assert (EBy : (scs F_dense_blocks * 16 + scs F_sparse_blocks * 8
              + scs F_dense_blocks_bits + scs F_sparse_blocks_bits) / 8 = run_bytes r).
  { rewrite !D by reflexivity. change (stats0 ?x) with 0. rewrite !Z.add_0_l.
    rewrite pieces_delta_bytes by auto. rewrite run_bytes_eq. rewrite Z.mul_comm, Z.div_mul by lia.
    reflexivity. }
  rewrite EBy.
  destruct (Z.leb_spec 8192 (run_bytes r)); destruct (Z.ltb_spec (run_bytes r) 8192); try lia.
  { exfalso. apply BAD. split; [auto|discriminate]. }
  assert (EN : scs F_dense_blocks + scs F_sparse_blocks = zlen (group 256 r)).
  { rewrite !D by reflexivity. change (stats0 ?x) with 0. rewrite !Z.add_0_l.
    apply pieces_delta_count; auto. }
  assert (G2 : zlen (group 256 r) < 8192) by (rewrite run_bytes_eq in *; zpos; lia).
  assert (G3 : 256 < zlen (group 256 r)).
  { destruct (Z_lt_le_dec 256 (zlen (group 256 r))); auto. exfalso. apply BAD. auto. }
  rewrite EN. rewrite (u16_id (zlen (group 256 r))) by lia.
  rewrite assert_fails; [reflexivity|]. apply andb_false_intro2. apply Z.leb_gt. lia.
Qed.
End Chunk.

(** ** all chunks *)
Lemma step_debug i l m n :
  0 <= i < 65535 -> Forall (fun v => 0 <= v) l -> zlen l < 4294967296 -> l <> [] ->
  let r := upto (65536 * (i + 1)) l in
  let l1 := from (65536 * (i + 1)) l in
  (exists l', l = l' ++ [m] /\ 65536 * (i + Z.of_nat (S n) - 1) <= m) ->
  forall header tmp st,
  (caught (i, r) -> encode_chunk true i (mkEnc l (i * 65536) (i * 65536 + 65536) [] header tmp st) = Throw)
  /\ (~ caught (i, r) -> ~ sound (i, r) ->
      encode_chunk true i (mkEnc l (i * 65536) (i * 65536 + 65536) [] header tmp st) = Abort)
  /\ (sound (i, r) -> exists h t st',
      encode_chunk true i (mkEnc l (i * 65536) (i * 65536 + 65536) [] header tmp st)
      = Ok (mkEnc l1 (i * 65536 + 65536) (u32 (i * 65536 + 65536 + 65536)) [] h t st'))
  /\ (n = O \/ exists l'', l1 = l'' ++ [m] /\ 65536 * (i + 1 + Z.of_nat n - 1) <= m)
  /\ Forall (fun v => 0 <= v) l1 /\ zlen l1 < 4294967296.
Proof.
  intros Hi Hl Hz Hne. set (b := 65536 * (i + 1)). intros r l1 (l' & El' & Hm) header tmp st.
  assert (El : l = r ++ l1) by apply upto_from.
  assert (Hb : starts_from (i * 65536 + 65536) l1).
  { eapply starts_from_le; [apply from_starts|]. unfold b. lia. }
  assert (Hr : Forall (fun v => 0 <= v < i * 65536 + 65536) r).
  { pose proof (upto_below b l) as U. fold r in U. assert (V : Forall (fun v => 0 <= v) r) by (apply Forall_upto; auto).
    rewrite Forall_forall in *. intros x Hx. specialize (U x Hx). specialize (V x Hx). cbn beta in *. unfold b in U. lia. }
  assert (ZZ : zlen l = zlen r + zlen l1) by (rewrite El at 1; apply zlen_app).
  assert (Hz1 : zlen r < 4294967296 /\ zlen l1 < 4294967296) by (zpos; lia).
  assert (Er : r = [] \/ r <> []) by (destruct r; [left; reflexivity|right; discriminate]).
  assert (REST : (n = O \/ exists l'', l1 = l'' ++ [m] /\ 65536 * (i + 1 + Z.of_nat n - 1) <= m)
    /\ Forall (fun v => 0 <= v) l1 /\ zlen l1 < 4294967296).
  { split; [|split; [apply Forall_from; auto|apply Hz1]].
    destruct n as [|n']; [auto|]. right.
    destruct (from_last b l' m) as (l'' & E''); [unfold b; lia|].
    exists l''. split; [|lia]. unfold l1. rewrite El'. exact E''. }
  destruct Er as [Er|Er].
  - split; [intros (x & y & z & E & _); exfalso; cbn [snd] in E; rewrite Er in E; destruct x; discriminate|].
    split.
    { intros _ H. exfalso. apply H. rewrite Er. split; [apply few_ok; [rewrite zlen_nil; lia|exact I]|constructor]. }
    split; [|exact REST]. intros _.
    assert (El2 : l = l1) by (rewrite El, Er; reflexivity). rewrite El2.
    destruct (encode_chunk_empty true i (i * 65536) (i * 65536 + 65536) l1
      ltac:(auto) ltac:(auto) Hb header tmp st) as (st1 & E1 & _).
    { congruence. }
    rewrite E1. eauto.
  - destruct (encode_run_debug i (i * 65536) (i * 65536 + 65536) l1 ltac:(lia) eq_refl eq_refl Hb r header tmp st)
      as (K1 & K2); auto; [apply Hz1|]. rewrite <- El in K1, K2.
    split; [exact K1|]. split; [exact K2|]. split; [|exact REST].
    intros [O A]. rewrite El.
    destruct (encode_run_ok true i (i * 65536) (i * 65536 + 65536) l1 ltac:(lia) eq_refl eq_refl Hb r header tmp st)
      as (st1 & E1); auto. rewrite E1. eauto.
Qed.

Lemma encode_unsound n : forall i l m header tmp st pre c post,
  0 <= i -> i + Z.of_nat n <= 65535 -> Forall (fun v => 0 <= v) l -> zlen l < 4294967296 ->
  (n = O \/ exists l', l = l' ++ [m] /\ 65536 * (i + Z.of_nat n - 1) <= m) ->
  runs n i l = pre ++ c :: post -> Forall sound pre ->
  (caught c ->
   encode_chunks n true i (mkEnc l (i * 65536) (u32 (i * 65536 + 65536)) [] header tmp st) = Throw)
  /\ (~ caught c -> ~ sound c ->
   encode_chunks n true i (mkEnc l (i * 65536) (u32 (i * 65536 + 65536)) [] header tmp st) = Abort).
Proof.
  induction n; intros i l m header tmp st pre c post H0 Hn Hl Hz Hm Hc Hp; cbn [runs encode_chunks] in *.
  - destruct pre; discriminate.
  - rewrite (u32_id (i * 65536 + 65536)) by lia.
    destruct Hm as [Hm|Hm]; [easy|].
    destruct (step_debug i l m n ltac:(lia) Hl Hz) with (header := header) (tmp := tmp) (st := st)
      as (K1 & K2 & K & Hm1 & Hl1 & Hz1); auto.
    { destruct Hm as (l' & -> & _). destruct l'; discriminate. }
    destruct pre as [|p pre]; cbn [app] in Hc.
    + injection Hc as <- _.
      split; [intro T; rewrite (K1 T); reflexivity|intros T S; rewrite (K2 T S); reflexivity].
    + injection Hc as Ep Hc. inversion Hp as [|? ? Hp1 Hp2]; subst.
      destruct (K Hp1) as (h & t & st1 & E1). rewrite E1. cbn [bind].
      replace (i * 65536 + 65536 + 65536) with ((i + 1) * 65536 + 65536) by lia.
      replace (i * 65536 + 65536) with ((i + 1) * 65536) by lia.
      eapply IHn; eauto; lia.
Qed.

(** ** the whole sequence *)
Lemma runs_flat n : forall i l, flat_map snd (runs n i l) ++ (match n with O => l | _ => from (65536 * (i + Z.of_nat n)) l end) = l.
Proof.
  induction n as [|n IH]; intros i l; cbn [runs flat_map snd app]; [reflexivity|].
  specialize (IH (i + 1) (from (65536 * (i + 1)) l)).
  rewrite <- app_assoc. rewrite (upto_from (65536 * (i + 1)) l) at 4. f_equal.
  rewrite <- IH at 2. f_equal. destruct n as [|n']; [f_equal; lia|].
  rewrite from_from by lia. f_equal. lia.
Qed.
Lemma app_self {A} (a b c : list A) : a ++ b = c -> (b = [] <-> a = c).
Proof.
  intros <-. split; [intros ->; now rewrite app_nil_r|].
  intro E. apply (f_equal (@length A)) in E. rewrite app_length in E. destruct b; cbn in E; auto; lia.
Qed.

Lemma debug_chunks L st :
  L <> [] -> Forall is_u32 L -> zlen L < 4294967296 ->
  (Forall sound (taken L) -> flat_map snd (taken L) = L -> exists e k, encode_sequence_chunks true L [] st = Ok e
     /\ zlen (e_header e) = 4 * k /\ 0 <= k <= 65535)
  /\ (Forall sound (taken L) -> flat_map snd (taken L) <> L -> encode_sequence_chunks true L [] st = Abort)
  /\ (forall pre c post, taken L = pre ++ c :: post -> Forall sound pre ->
      (caught c -> encode_sequence_chunks true L [] st = Throw)
      /\ (~ caught c -> ~ sound c -> encode_sequence_chunks true L [] st = Abort)).
Proof.
  intros Hne Hu Hz.
  assert (Hl : Forall (fun v => 0 <= v) L) by (eapply Forall_impl; [|exact Hu]; unfold is_u32; intros; lia).
  assert (Hm : 0 <= last L 0 < 4294967296).
  { rewrite Forall_forall in Hu. apply Hu. rewrite (last_split L Hne) at 2. apply in_or_app. right. now left. }
  unfold encode_sequence_chunks. rewrite assert_ok by reflexivity. cbn [bind].
  unfold vget. rewrite (znth_last L Hne). cbn [bind].
  change M_Util.chunk_size with 65536.
  set (st' := sadd F_chunks _ _).
  assert (Em : forall k, 0 <= k -> 65536 * k <= last L 0 + 65536 ->
    Z.to_nat k = O \/ exists l', L = l' ++ [last L 0] /\ 65536 * (0 + Z.of_nat (Z.to_nat k) - 1) <= last L 0).
  { intros k Hk0 Hk. right. exists (removelast L). split; [apply last_split; auto|]. lia. }
  unfold taken, last_chunk.
  destruct (Z_lt_le_dec (last L 0) 4294901760) as [B|B].
  - assert (En : num_chunks (last L 0) = last L 0 / 65536 + 1).
    { unfold num_chunks. change M_Util.chunk_size with 65536. rewrite u32_id; lia. }
    rewrite En. rewrite Z.min_r by lia.
    rewrite assert_ok by (apply andb_true_intro; split; [apply Z.ltb_lt|apply Z.leb_le]; lia). cbn [bind].
    pose proof (app_self _ _ _ (runs_flat (Z.to_nat (last L 0 / 65536 + 1)) 0 L)) as FL.
    assert (OKS : Forall sound (runs (Z.to_nat (last L 0 / 65536 + 1)) 0 L) -> exists h t st1 k,
      encode_chunks (Z.to_nat (last L 0 / 65536 + 1)) true 0 (mkEnc L 0 65536 [] [] [] st')
      = Ok (mkEnc (match Z.to_nat (last L 0 / 65536 + 1) with
            | O => L | _ => from (65536 * (0 + Z.of_nat (Z.to_nat (last L 0 / 65536 + 1)))) L end)
            ((0 + Z.of_nat (Z.to_nat (last L 0 / 65536 + 1))) * 65536)
            (u32 ((0 + Z.of_nat (Z.to_nat (last L 0 / 65536 + 1))) * 65536 + 65536)) [] h t st1)
      /\ zlen h = 4 * k /\ 0 <= k <= 65535).
    { intro F. destruct (encode_runs_ok true (Z.to_nat (last L 0 / 65536 + 1)) 0 L (last L 0) [] [] st')
        as (st1 & E); [lia|lia|exact Hl|apply Em; lia| | |].
      { eapply Forall_impl; [|exact F]. intros c [H _]. exact H. }
      { intros _. eapply Forall_impl; [|exact F]. intros c [_ H]. exact H. }
      change (u32 (0 * 65536 + 65536)) with 65536 in E. change (0 * 65536) with 0 in E.
      rewrite E. do 3 eexists. eexists. split; [reflexivity|]. cbn [app]. rewrite zlen_rchdrs.
      split; [reflexivity|]. pose proof (zlen_full_runs (runs (Z.to_nat (last L 0 / 65536 + 1)) 0 L)) as H.
      rewrite zlen_runs in H. zpos. lia. }
    split; [|split].
    + intros F E0. destruct (OKS F) as (h & t & st1 & k & E & Zh & Hk). rewrite E. cbn [bind e_begin].
      apply FL in E0. rewrite E0. rewrite assert_ok by reflexivity. cbn [bind].
      eexists. exists k. split; [reflexivity|]. cbn [e_header]. auto.
    + intros F E0. destruct (OKS F) as (h & t & st1 & k & E & Zh & Hk). rewrite E. cbn [bind e_begin].
      rewrite assert_fails; [reflexivity|]. apply Z.eqb_neq. intro Z. apply E0. apply FL.
      destruct (match Z.to_nat _ with O => L | _ => _ end); auto. rewrite zlen_cons in Z. zpos. lia.
    + intros pre c post Hc Hp.
      destruct (encode_unsound (Z.to_nat (last L 0 / 65536 + 1)) 0 L (last L 0) [] [] st' pre c post)
        as (K1 & K2); [lia|lia|exact Hl|exact Hz|apply Em; lia|exact Hc|exact Hp|].
      change (u32 (0 * 65536 + 65536)) with 65536 in *. change (0 * 65536) with 0 in *.
      split; [intro T; now rewrite (K1 T)|intros T S; now rewrite (K2 T S)].
  - assert (En : num_chunks (last L 0) = 65536).
    { unfold num_chunks. change M_Util.chunk_size with 65536.
      assert (E : (last L 0 + 65536) / 65536 = 65536) by lia. rewrite E. reflexivity. }
    rewrite En. rewrite Z.min_l by lia. rewrite assert_ok by reflexivity. cbn [bind].
    replace (Z.to_nat 65536) with (Z.to_nat 65535 + 1)%nat by lia. rewrite encode_chunks_add.
    pose proof (runs_flat (Z.to_nat 65535) 0 L) as FL.
    destruct (Z.to_nat 65535) as [|n'] eqn:En'; [lia|]. rewrite <- En' in *. rewrite Z2Nat.id in FL by lia.
    destruct (from_last (65536 * (0 + 65535)) (removelast L) (last L 0)) as (l'' & E''); [lia|].
    rewrite <- last_split in E'' by auto.
    split; [|split].
    + intros F E0. exfalso. rewrite E'' in FL. apply (app_self _ _ _) in FL. apply FL in E0. destruct l''; discriminate.
    + intros F _. destruct (encode_runs_ok true (Z.to_nat 65535) 0 L (last L 0) [] [] st')
        as (st1 & E); [lia|lia|exact Hl|apply Em; lia| | |].
      { eapply Forall_impl; [|exact F]. intros c [H _]. exact H. }
      { intros _. eapply Forall_impl; [|exact F]. intros c [_ H]. exact H. }
      change (u32 (0 * 65536 + 65536)) with 65536 in E. change (0 * 65536) with 0 in E.
      rewrite E. cbn [bind]. rewrite Z2Nat.id in * by lia. cbn [encode_chunks].
      unfold encode_chunk. cbn [e_begin e_left e_right e_header e_tmp e_stats e_block].
      change (u32 ((0 + 65535) * 65536 + 65536)) with 0.
      rewrite En'. rewrite E''.
      assert (P0 : Forall (fun v => 0 <= v) (l'' ++ [last L 0])) by (rewrite <- E''; apply Forall_from; auto).
      destruct (l'' ++ [last L 0]) as [|v q] eqn:Eq; [destruct l''; discriminate|].
      inversion P0; subst. destruct (Z.ltb_spec v 0); [lia|]. cbn [bind e_begin].
      change (Z.to_nat 0) with O. cbn [skipn]. rewrite assert_fails; [reflexivity|].
      apply Z.eqb_neq. zl.
    + intros pre c post Hc Hp.
      destruct (encode_unsound (Z.to_nat 65535) 0 L (last L 0) [] [] st' pre c post)
        as (K1 & K2); [lia|lia|exact Hl|exact Hz|apply Em; lia|exact Hc|exact Hp|].
      change (u32 (0 * 65536 + 65536)) with 65536 in *. change (0 * 65536) with 0 in *.
      split; [intro T; now rewrite (K1 T)|intros T S; now rewrite (K2 T S)].
Qed.

Lemma c44_debug : forall out L,
  L <> [] -> Forall is_u32 L -> zlen L < 4294967296 ->
  (Forall sound (taken L) ->
    (flat_map snd (taken L) = L -> exists st enc, builder_build true out L = (Ok st, out ++ enc))
    /\ (flat_map snd (taken L) <> L -> builder_build true out L = (Abort, out)))
  /\ forall pre c post, taken L = pre ++ c :: post -> Forall sound pre ->
      (caught c -> builder_build true out L = (Throw, out))
      /\ (~ caught c -> ~ sound c -> builder_build true out L = (Abort, out)).
Proof.
  intros out L Hne Hu Hz. destruct (debug_chunks L stats0 Hne Hu Hz) as (A & A2 & B).
  unfold builder_build, encode_one, encode_sequence. split.
  - intro F. split; intro E0.
    + destruct (A F E0) as (e & k & -> & Zh & Hk). cbn [bind].
      rewrite Zh. rewrite (Z.mul_comm 4), Z.div_mul by lia. rewrite u32_id by lia.
      change M_Util.associativity with 32.
      destruct (pointers_loop_some (Z.to_nat (k / 32)) (e_header e) 0) as (ps & -> & _); try lia.
      cbn [bind]. rewrite <- !app_assoc. do 2 eexists. reflexivity.
    + now rewrite (A2 F E0).
  - intros pre c post Hc Hp. destruct (B pre c post Hc Hp) as (B1 & B2). split.
    + intro T. now rewrite (B1 T).
    + intros T S. now rewrite (B2 T S).
Qed.

(** ** the cases are complete *)
Lemma sound_dec c : {sound c} + {~ sound c}.
Proof.
  unfold sound. destruct (run_above_dec c) as [A|A]; [|right; tauto].
  unfold run_ok. destruct (no_twins_dec (snd c)) as [T|T]; [|right; tauto].
  destruct (Z_le_dec (zlen (snd c)) 65536) as [K0|K0]; [|right; tauto].
  assert (P : {zlen (snd c) < 32768 -> Forall (fun p => zlen (snd p) <= 256) (group 256 (snd c))}
    + {~ (zlen (snd c) < 32768 -> Forall (fun p => zlen (snd p) <= 256) (group 256 (snd c)))}).
  { destruct (Z_lt_le_dec (zlen (snd c)) 32768) as [K|K]; [|left; lia].
    destruct (Forall_dec (fun p : Z * list Z => zlen (snd p) <= 256) (fun p => Z_le_dec _ _) (group 256 (snd c)));
      [left; auto|right; auto]. }
  destruct P as [P|P]; [|right; tauto].
  destruct (run_sparse (snd c)).
  - destruct (Z_le_dec (zlen (group 256 (snd c))) 256) as [H|H].
    + left. repeat split; auto.
    + right. intros [(_ & _ & _ & K & _) _]. auto.
  - left. repeat split; auto; discriminate.
Qed.
Lemma caught_dec c : {caught c} + {~ caught c}.
Proof.
  unfold caught. destruct c as [i r]. cbn [fst snd].
  induction r as [|v r IH].
  - right. intros (a & w & b & E & _). destruct a; discriminate.
  - destruct (Z_le_dec (65536 * i) v) as [L|L].
    2:{ right. intros (a & w & b & E & F). destruct a as [|x a]; cbn [app] in *;
          injection E as -> _; inversion F; contradiction. }
    destruct IH as [IH|IH].
    + left. destruct IH as (a & w & b & -> & F). exists (v :: a), w, b. split; [reflexivity|]. now constructor.
    + destruct r as [|w r].
      * right. intros (a & w & b & E & _). destruct a as [|x [|y a]]; discriminate.
      * destruct (Z.eq_dec v w) as [->|N].
        -- left. exists [], w, r. split; [reflexivity|]. constructor; auto.
        -- right. intros (a & x & b & E & F). destruct a as [|y a]; cbn [app] in *.
           ++ congruence.
           ++ injection E as -> E. apply IH. inversion F; subst. exists a, x, b. auto.
Qed.
Lemma debug_cases (cs : list (Z * list Z)) :
  Forall sound cs
  \/ exists pre c post, cs = pre ++ c :: post /\ Forall sound pre
       /\ (caught c \/ ~ caught c /\ ~ sound c).
Proof.
  induction cs as [|c cs IH]; [left; constructor|].
  destruct (sound_dec c) as [S|S].
  - destruct IH as [IH|(pre & c' & post & -> & F & H)].
    + left. constructor; auto.
    + right. exists (c :: pre), c', post. split; [reflexivity|]. split; [constructor; auto|auto].
  - right. exists [], c, cs. split; [reflexivity|]. split; [constructor|].
    destruct (caught_dec c); auto.
Qed.
Lemma caught_unsound c : caught c -> ~ sound c.
Proof.
  intros (a & v & b & E & _) [(T & _) _]. rewrite E in T. clear E. induction a as [|x a IH]; cbn [app no_twins] in T.
  - destruct T as [T _]. congruence.
  - apply IH. destruct a; apply T.
Qed.

(** with assertions nothing is undefined *)
Lemma c44_assertions : forall out L,
  L <> [] -> Forall is_u32 L -> zlen L < 4294967296 ->
  (exists st enc, builder_build true out L = (Ok st, out ++ enc))
  \/ builder_build true out L = (Throw, out) \/ builder_build true out L = (Abort, out).
Proof.
  intros out L Hne Hu Hz. destruct (c44_debug out L Hne Hu Hz) as (A & B).
  destruct (debug_cases (taken L)) as [F|(pre & c & post & Hc & Hp & H)].
  - destruct (list_eq_dec Z.eq_dec (flat_map snd (taken L)) L) as [E|E].
    + left. apply A; auto.
    + right. right. apply A; auto.
  - destruct (B pre c post Hc Hp) as (B1 & B2). destruct H as [H|[H1 H2]]; auto.
Qed.
