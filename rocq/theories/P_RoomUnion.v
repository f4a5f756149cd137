(** Exact size of the output buffer of the pairwise union, and the bytes it reads. *)
From Verif Require Import Base Hw Spec Format Lib L_Bits L_Group Layout M_Util M_Seq M_Decode M_Uncompress
  M_Union P_Build1 P_Build2 P_Build3 P_Seq P_Decode P_Query P_Uncompress P_Sets P_Inter P_Union P_Format P_Conc
  P_Ex P_Short P_Stats Room P_Room RoomSets Reads ReadsSets P_Reads P_RoomInter.
From Coq Require Import Lia.

Definition sepb {A} (same : bool) (a b : A) (da na db nb : Z) : Prop :=
  if same then a = b /\ da = db else da + na < db \/ db + nb < da.

Lemma above_none x V : Forall (fun v => v <= x) V -> above x V = [].
Proof. intro F. apply filter_none. intros v Hv. rewrite Forall_forall in F. apply Z.ltb_ge. now apply F. Qed.
Lemma above_all x V : Forall (fun v => x < v) V -> above x V = V.
Proof. intro F. apply filter_all. intros v Hv. rewrite Forall_forall in F. apply Z.ltb_lt. now apply F. Qed.
Lemma last_ge V : V <> [] -> sorted V -> Forall (fun v => v <= last V 0) V.
Proof.
  induction V as [|x V IH]; [congruence|]. intros _ S. apply sorted_inv in S as [S F].
  destruct V as [|y V]; [constructor; [cbn; lia|constructor]|].
  change (last (x :: y :: V) 0) with (last (y :: V) 0). specialize (IH ltac:(discriminate) S).
  constructor; auto. pose proof (Forall_inv F). pose proof (Forall_inv IH). cbn beta in *. lia.
Qed.
Lemma last_cons x V : V <> [] -> last (x :: V) 0 = last V 0.
Proof. destruct V; [congruence|reflexivity]. Qed.

(** ** two sparse blocks *)
(** where the merge of two lists stops *)
Lemma uni_stop : forall a b, a <> [] -> b <> [] -> sorted a -> sorted b ->
  let a' := above (last b 0) a in let b' := above (last a 0) b in
  exists e pa pb, a = pa ++ a' /\ b = pb ++ b' /\ (a' = [] \/ b' = []) /\ uni a b = e ++ a' ++ b'.
Proof.
  cbn zeta. induction a as [|x a IHa]; [congruence|]. induction b as [|y b IHb]; [congruence|].
  intros Na Nb Sa Sb. pose proof (last_ge _ Na Sa) as GA. pose proof (last_ge _ Nb Sb) as GB.
  pose proof (sorted_inv _ _ Sa) as [Sa1 Fa]. pose proof (sorted_inv _ _ Sb) as [Sb1 Fb].
  pose proof (Forall_inv GA) as GAx. pose proof (Forall_inv GB) as GBy. cbn beta in GAx, GBy.
  rewrite uni_cons.
  destruct (Z.ltb_spec x y) as [Hxy|Hxy]; [|destruct (Z.ltb_spec y x) as [Hyx|Hyx]].
  - assert (EX : above (last (y :: b) 0) (x :: a) = above (last (y :: b) 0) a).
    { unfold above. cbn [filter]. destruct (Z.ltb_spec (last (y :: b) 0) x); [lia|reflexivity]. }
    rewrite EX. destruct a as [|x1 a].
    + change (last [x] 0) with x. rewrite (above_all x (y :: b)).
      2: { constructor; [lia|]. eapply Forall_impl; [|exact Fb]. cbn beta. intros; lia. }
      exists [x], [x], []. rewrite uni_nil_l. auto.
    + rewrite (last_cons x (x1 :: a)) by discriminate. destruct (IHa (y :: b)) as (e & pa & pb & Ea & Eb & D & U); auto; try discriminate.
      exists (x :: e), (x :: pa), pb. rewrite U. split; [cbn [app]; congruence|]. auto.
  - assert (EX : above (last (x :: a) 0) (y :: b) = above (last (x :: a) 0) b).
    { unfold above. cbn [filter]. destruct (Z.ltb_spec (last (x :: a) 0) y); [lia|reflexivity]. }
    rewrite EX. destruct b as [|y1 b].
    + change (last [y] 0) with y. rewrite (above_all y (x :: a)).
      2: { constructor; [lia|]. eapply Forall_impl; [|exact Fa]. cbn beta. intros; lia. }
      exists [y], [], [y]. rewrite uni_nil_r. split; [auto|]. split; [auto|]. split; [auto|]. cbn. now rewrite app_nil_r.
    + rewrite (last_cons y (y1 :: b)) by discriminate. destruct IHb as (e & pa & pb & Ea & Eb & D & U); auto; try discriminate.
      exists (y :: e), pa, (y :: pb). rewrite U. split; [auto|]. split; [cbn [app]; congruence|]. auto.
  - assert (x = y) by lia. subst y.
    assert (EX : above (last (x :: b) 0) (x :: a) = above (last (x :: b) 0) a).
    { unfold above. cbn [filter]. destruct (Z.ltb_spec (last (x :: b) 0) x); [lia|reflexivity]. }
    assert (EY : above (last (x :: a) 0) (x :: b) = above (last (x :: a) 0) b).
    { unfold above. cbn [filter]. destruct (Z.ltb_spec (last (x :: a) 0) x); [lia|reflexivity]. }
    rewrite EX, EY. destruct a as [|x1 a].
    + change (last [x] 0) with x. rewrite (above_all x b) by auto. exists [x], [x], [x]. rewrite uni_nil_l. auto.
    + destruct b as [|y1 b].
      * change (last [x] 0) with x. rewrite (above_all x (x1 :: a)) by auto. exists [x], [x], [x]. rewrite uni_nil_r.
        split; [auto|]. split; [auto|]. split; [auto|]. cbn. now rewrite app_nil_r.
      * rewrite (last_cons x (x1 :: a)), (last_cons x (y1 :: b)) by discriminate. destruct (IHa (y1 :: b)) as (e & pa & pb & Ea & Eb & D & U); auto; try discriminate.
        exists (x :: e), (x :: pa), (x :: pb). rewrite U.
        split; [cbn [app]; congruence|]. split; [cbn [app]; congruence|]. auto.
Qed.

Lemma ss_union_block_loop_room mem end_l end_r base pos : forall fuel a b l r out size e,
  (length a + length b <= fuel)%nat ->
  bytes_at mem l a -> bytes_at mem r b -> a <> [] -> b <> [] -> sorted a -> sorted b ->
  end_l = l + zlen a -> end_r = r + zlen b ->
  0 <= pos + size -> pos + size <= zlen out ->
  uni a b = e ++ above (last b 0) a ++ above (last a 0) b ->
  if pos + size + zlen e <=? zlen out
  then exists out', ss_union_block_loop fuel mem l r end_l end_r base out pos size
         = Ok (out', size + zlen e, end_l - zlen (above (last b 0) a), end_r - zlen (above (last a 0) b))
       /\ wrote 0 out (pos + size) (map (fun x => u32 (x + base)) e) out'
  else ss_union_block_loop fuel mem l r end_l end_r base out pos size = UB.
Proof.
  induction fuel as [|f IH]; intros a b l r out size e Hf Ba Bb Na Nb Sa Sb El Er Hp Hp' U.
  { destruct a; [congruence|]. cbn [length] in Hf. lia. }
  destruct a as [|x a]; [congruence|]. destruct b as [|y b]; [congruence|].
  cbn [length] in Hf. cbn [ss_union_block_loop].
  pose proof (proj1 (bytes_at_cons _ _ _ _) Ba) as [Bx Ba1]. apply rd8_znth in Bx.
  pose proof (proj1 (bytes_at_cons _ _ _ _) Bb) as [By Bb1]. apply rd8_znth in By.
  rewrite Bx. cbn [bind]. rewrite By. cbn [bind].
  rewrite zlen_cons in El, Er. pose proof (last_ge _ Na Sa) as GA. pose proof (last_ge _ Nb Sb) as GB.
  pose proof (sorted_inv _ _ Sa) as [Sa1 Fa]. pose proof (sorted_inv _ _ Sb) as [Sb1 Fb].
  pose proof (Forall_inv GA) as GAx. pose proof (Forall_inv GB) as GBy. cbn beta in GAx, GBy.
  rewrite uni_cons in U.
  (* storing one value, then finishing or going on *)
  assert (STEP : forall v (k : list Z -> res (list Z * Z * Z * Z)) (L R : Z) e0,
    (forall out1, zlen out1 = zlen out -> pos + size + 1 <= zlen out ->
       if pos + (size + 1) + zlen e0 <=? zlen out
       then exists out', k out1 = Ok (out', size + 1 + zlen e0, L, R)
             /\ wrote 0 out1 (pos + (size + 1)) (map (fun x => u32 (x + base)) e0) out'
       else k out1 = UB) ->
    if pos + size + zlen (v :: e0) <=? zlen out
    then exists out', (let! o := vset out (pos + size) (u32 (v + base)) in k o) = Ok (out', size + zlen (v :: e0), L, R)
          /\ wrote 0 out (pos + size) (map (fun x => u32 (x + base)) (v :: e0)) out'
    else (let! o := vset out (pos + size) (u32 (v + base)) in k o) = UB).
  { intros v k L R e0 H. rewrite zlen_cons. pose proof (zlen_nonneg _ e0).
    destruct (Z_lt_le_dec (pos + size) (zlen out)) as [Q|Q].
    - destruct (vset_ok out (pos + size) (u32 (v + base))) as (out1 & -> & W1); [lia|]. cbn [bind].
      specialize (H out1 (wrote_zlen _ _ _ _ _ W1) ltac:(lia)).
      replace (pos + size + (zlen e0 + 1)) with (pos + (size + 1) + zlen e0) by lia.
      destruct (pos + (size + 1) + zlen e0 <=? zlen out); [|exact H].
      destruct H as (out' & -> & W2). exists out'. split; [do 4 f_equal; lia|].
      cbn [map]. eapply wrote_cons; [lia|exact W1|]. now rewrite <- Z.add_assoc.
    - unfold vset. rewrite store_short by zl. cbn [bind].
      destruct (Z.leb_spec (pos + size + (zlen e0 + 1)) (zlen out)); [lia|reflexivity]. }
  assert (STOP : forall v (L R L' R' : Z), L = L' -> R = R' ->
    if pos + size + zlen [v] <=? zlen out
    then exists out', (let! o := vset out (pos + size) (u32 (v + base)) in Ok (o, size + 1, L, R)) = Ok (out', size + zlen [v], L', R')
          /\ wrote 0 out (pos + size) (map (fun x => u32 (x + base)) [v]) out'
    else (let! o := vset out (pos + size) (u32 (v + base)) in Ok (o, size + 1, L, R)) = UB).
  { intros v L R L' R' <- <-. apply (STEP v (fun o => Ok (o, size + 1, L, R)) L R []). intros out1 Ho Hs.
    rewrite zlen_nil. cbn [map]. destruct (Z.leb_spec (pos + (size + 1) + 0) (zlen out)); [|lia].
    exists out1. split; [do 4 f_equal; lia|]. apply wrote_nil; lia. }
  destruct (Z.ltb_spec x y) as [Hxy|Hxy]; [|destruct (Z.ltb_spec y x) as [Hyx|Hyx]].
  - assert (EX : above (last (y :: b) 0) (x :: a) = above (last (y :: b) 0) a).
    { unfold above. cbn [filter]. destruct (Z.ltb_spec (last (y :: b) 0) x); [lia|reflexivity]. }
    rewrite EX in *. destruct (Z.eqb_spec (l + 1) end_l) as [E1|E1].
    + assert (a = []) as -> by (destruct a; auto; rewrite zlen_cons in El; zpos; lia).
      change (last [x] 0) with x in *. rewrite (above_all x (y :: b)) in *.
      2,3: constructor; [lia|]; eapply Forall_impl; [|exact Fb]; cbn beta; intros; lia.
      change (above (last (y :: b) 0) []) with (@nil Z) in *. rewrite uni_nil_l in U.
      change (x :: y :: b) with ([x] ++ [] ++ y :: b) in U. apply app_inv_tail in U. subst e.
      apply STOP; rewrite ?zlen_nil, ?zlen_cons; lia.
    + assert (NA : a <> []) by (intros ->; rewrite zlen_nil in El; lia).
      rewrite (last_cons x a NA) in *. destruct (uni_stop a (y :: b) NA Nb Sa1 Sb) as (e0 & _ & _ & _ & _ & _ & U0).
      rewrite U0, app_comm_cons in U. apply app_inv_tail in U. subst e.
      apply STEP. intros out1 Ho Hs. rewrite <- Ho.
      apply (IH a (y :: b) (l + 1) r out1 (size + 1) e0); auto; rewrite ?zlen_cons; cbn [length]; lia.
  - assert (EX : above (last (x :: a) 0) (y :: b) = above (last (x :: a) 0) b).
    { unfold above. cbn [filter]. destruct (Z.ltb_spec (last (x :: a) 0) y); [lia|reflexivity]. }
    rewrite EX in *. destruct (Z.eqb_spec (r + 1) end_r) as [E1|E1].
    + assert (b = []) as -> by (destruct b; auto; rewrite zlen_cons in Er; zpos; lia).
      change (last [y] 0) with y in *. rewrite (above_all y (x :: a)) in *.
      2,3: constructor; [lia|]; eapply Forall_impl; [|exact Fa]; cbn beta; intros; lia.
      change (above (last (x :: a) 0) []) with (@nil Z) in *. rewrite uni_nil_r, app_nil_r in U.
      change (y :: x :: a) with ([y] ++ x :: a) in U. apply app_inv_tail in U. subst e.
      apply STOP; rewrite ?zlen_nil, ?zlen_cons; lia.
    + assert (NB : b <> []) by (intros ->; rewrite zlen_nil in Er; lia).
      rewrite (last_cons y b NB) in *. destruct (uni_stop (x :: a) b Na NB Sa Sb1) as (e0 & _ & _ & _ & _ & _ & U0).
      rewrite U0, app_comm_cons in U. apply app_inv_tail in U. subst e.
      apply STEP. intros out1 Ho Hs. rewrite <- Ho.
      apply (IH (x :: a) b l (r + 1) out1 (size + 1) e0); auto; rewrite ?zlen_cons; cbn [length]; lia.
  - assert (x = y) by lia. subst y.
    assert (EX : above (last (x :: b) 0) (x :: a) = above (last (x :: b) 0) a).
    { unfold above. cbn [filter]. destruct (Z.ltb_spec (last (x :: b) 0) x); [lia|reflexivity]. }
    assert (EY : above (last (x :: a) 0) (x :: b) = above (last (x :: a) 0) b).
    { unfold above. cbn [filter]. destruct (Z.ltb_spec (last (x :: a) 0) x); [lia|reflexivity]. }
    rewrite EX, EY in *. destruct (Z.eqb_spec (l + 1) end_l) as [E1|E1]; cbn [orb].
    + assert (a = []) as -> by (destruct a; auto; rewrite zlen_cons in El; zpos; lia).
      change (last [x] 0) with x in *. rewrite (above_all x b) in * by auto.
      change (above (last (x :: b) 0) []) with (@nil Z) in *. rewrite uni_nil_l in U.
      change (x :: b) with ([x] ++ [] ++ b) in U. apply app_inv_tail in U. subst e.
      apply STOP; rewrite ?zlen_nil, ?zlen_cons; lia.
    + assert (NA : a <> []) by (intros ->; rewrite zlen_nil in El; lia).
      destruct (Z.eqb_spec (r + 1) end_r) as [E2|E2].
      * assert (b = []) as -> by (destruct b; auto; rewrite zlen_cons in Er; zpos; lia).
        change (last [x] 0) with x in *. rewrite (above_all x a) in * by auto.
        change (above (last (x :: a) 0) []) with (@nil Z) in *. rewrite uni_nil_r, app_nil_r in U.
        change (x :: a) with ([x] ++ a) in U. apply app_inv_tail in U. subst e.
        apply STOP; rewrite ?zlen_nil, ?zlen_cons; lia.
      * assert (NB : b <> []) by (intros ->; rewrite zlen_nil in Er; lia).
        rewrite (last_cons x a NA), (last_cons x b NB) in *.
        destruct (uni_stop a b NA NB Sa1 Sb1) as (e0 & _ & _ & _ & _ & _ & U0).
        rewrite U0, app_comm_cons in U. apply app_inv_tail in U. subst e.
        apply STEP. intros out1 Ho Hs. rewrite <- Ho.
        apply (IH a b (l + 1) (r + 1) out1 (size + 1) e0); auto; rewrite ?zlen_cons; cbn [length]; lia.
Qed.

(** the outcome is decided by the size of the output buffer and by the size of the memory *)
Definition room2 {A} (mem : list Z) (need reach : Z) (out : list Z) (pos : Z) (r : res A) (f : list Z -> A) (vs : list Z) : Prop :=
  (need <= zlen out /\ reach <= zlen mem /\ exists out', r = Ok (f out') /\ wrote 23 out pos vs out')
  \/ ((zlen out < need \/ zlen mem < reach) /\ r = UB).
Lemma room_room2 {A} mem need out pos (r : res A) f vs :
  room need out pos r f vs -> room2 mem need 0 out pos r f vs.
Proof.
  unfold room, room2. pose proof (zlen_nonneg _ mem). destruct (Z.leb_spec need (zlen out)); intro H1; [left|right]; auto.
Qed.

Lemma decode_sparse_block_0_short mem data base out pos :
  0 <= data -> 0 <= pos -> zlen out < pos + 8 \/ zlen mem < data + 16 -> decode_sparse_block mem data 0 base out pos = UB.
Proof.
  intros Hd Hp Ho. unfold decode_sparse_block.
  destruct (decode_step_cases mem data base out pos 0) as [-> | (M1 & O1 & _)]; [lia|lia|reflexivity|lia].
Qed.

Lemma join_size_uni a b : sorted a -> sorted b -> join_size a b = zlen (uni a b).
Proof.
  unfold join_size. change meet with isect. revert b.
  induction a as [|x a IHa]; intros b Sa Sb.
  { rewrite uni_nil_l. cbn. lia. }
  induction b as [|y b IHb].
  { rewrite uni_nil_r, isect_nil_r. cbn. lia. }
  pose proof (sorted_inv _ _ Sa) as [Sa1 Fa]. pose proof (sorted_inv _ _ Sb) as [Sb1 Fb]. rewrite uni_cons.
  assert (NI : forall z l m, sorted (z :: l) -> m < z -> memb (z :: l) m = false).
  { intros z l m S H. apply memb_false. intros [->|I]; [lia|]. apply sorted_inv in S as [_ F].
    rewrite Forall_forall in F. specialize (F _ I). lia. }
  destruct (Z.ltb_spec x y) as [Hxy|Hxy]; [|destruct (Z.ltb_spec y x) as [Hyx|Hyx]].
  - assert (E : isect (x :: a) (y :: b) = isect a (y :: b)).
    { unfold isect. cbn [filter]. now rewrite NI. }
    rewrite E, !zlen_cons. specialize (IHa (y :: b) Sa1 Sb). rewrite zlen_cons in IHa. lia.
  - assert (E : isect (x :: a) (y :: b) = isect (x :: a) b).
    { rewrite (isect_comm (x :: a)), (isect_comm (x :: a) b) by auto. unfold isect. cbn [filter]. now rewrite NI. }
    rewrite E, !zlen_cons. specialize (IHb Sb1). rewrite zlen_cons in IHb. lia.
  - assert (x = y) by lia. subst y.
    assert (E : isect (x :: a) (x :: b) = x :: isect a b).
    { change (x :: a) with ([x] ++ a). change (x :: b) with ([x] ++ b). rewrite isect_app.
      - now rewrite isect_same.
      - intros u v [<-|[]] Hv. rewrite Forall_forall in Fb. now apply Fb.
      - intros u v [<-|[]] Hv. rewrite Forall_forall in Fa. now apply Fa. }
    rewrite E, !zlen_cons. specialize (IHa b Sa1 Sb1). lia.
Qed.

Definition jneed (same : bool) (a b : list Z) : Z := if same then zlen (uni a b) else join_words a b.

(** end of the furthest read when the blocks [a] at [da] and [b] at [db] are united *)
Definition jreach (same : bool) (da db : Z) (a b : list Z) : Z :=
  if same || (31 <=? zlen a) || (31 <=? zlen b) then 0
  else
    let ka := zlen (above (last b 0) a) in
    let kb := zlen (above (last a 0) b) in
    Z.max (if 0 <? ka then da + zlen a - ka + decode_bytes ka else 0) (db + zlen b - kb + decode_bytes kb).

Lemma ss_union_block_room same dbg mem l r a b base out pos :
  bytes_at mem l a -> bytes_at mem r b -> 1 <= zlen a <= 30 -> 1 <= zlen b <= 30 ->
  sorted a -> sorted b ->
  Forall (fun x => 0 <= x < 256) a -> Forall (fun x => 0 <= x < 256) b ->
  sepb same a b l (zlen a) r (zlen b) ->
  0 <= l -> l + zlen a <= zlen mem -> 0 <= r -> r + zlen b <= zlen mem ->
  0 <= base -> base + 256 <= 4294967296 ->
  0 <= pos -> pos <= zlen out ->
  room2 mem (pos + jneed same a b) (jreach same l r a b) out pos (ss_union_block dbg mem l r (zlen a) (zlen b) base out pos)
    (fun out' => (out', zlen (uni a b))) (map (addb base) (uni a b)).
Proof.
  intros Ba Bb Ha Hb Sa Sb Ra Rb Hs Hl Hml Hr Hmr Hb0 Hb1 Hp Hp'. unfold ss_union_block, room2, jneed, jreach.
  change (block_sparseness_threshold - 2) with 30.
  rewrite assert_ok by (apply andb_true_intro; split; [apply Z.ltb_lt|apply Z.leb_le]; lia). cbn [bind].
  rewrite assert_ok by (apply andb_true_intro; split; [apply Z.ltb_lt|apply Z.leb_le]; lia). cbn [bind].
  assert (Na : a <> []) by (intros ->; rewrite zlen_nil in *; lia).
  assert (Nb : b <> []) by (intros ->; rewrite zlen_nil in *; lia).
  destruct (uni_stop a b Na Nb Sa Sb) as (e & pa & pb & Ea & Eb & D & U).
  pose proof (ss_union_block_loop_room mem (l + zlen a) (r + zlen b) base pos (Z.to_nat (zlen a + zlen b)) a b l r out 0 e) as R.
  specialize (R ltac:(unfold zlen; lia) Ba Bb Na Nb Sa Sb eq_refl eq_refl ltac:(lia) ltac:(lia) U).
  rewrite Z.add_0_r, Z.add_0_l in R. unfold join_words. rewrite (join_size_uni a b Sa Sb).
  destruct (Z.leb_spec 31 (zlen a)); [lia|]. destruct (Z.leb_spec 31 (zlen b)); [lia|]. cbn [orb]. rewrite !orb_false_r.
  set (a' := above (last b 0) a) in *. set (b' := above (last a 0) b) in *.
  assert (Ru : Forall (fun x => 0 <= x < 256) (uni a b)) by auto using Forall_uni.
  destruct (map_u32_add base (uni a b) 256) as [M1 M2]; auto.
  assert (LU : zlen (uni a b) = zlen e + zlen a' + zlen b') by (rewrite U, !zlen_app; lia).
  assert (La : zlen a = zlen pa + zlen a') by (rewrite Ea at 1; apply zlen_app).
  assert (Lb : zlen b = zlen pb + zlen b') by (rewrite Eb at 1; apply zlen_app).
  pose proof Ba as Ba'. rewrite Ea in Ba'. apply bytes_at_app in Ba' as [_ Ba'].
  pose proof Bb as Bb'. rewrite Eb in Bb'. apply bytes_at_app in Bb' as [_ Bb'].
  pose proof (zlen_nonneg _ pa). pose proof (zlen_nonneg _ pb). pose proof (zlen_nonneg _ a'). pose proof (zlen_nonneg _ b').
  pose proof (zlen_nonneg _ e). change decode_words with bneed.
  pose proof (bneed_ge (zlen a')) as BA. pose proof (bneed_ge (zlen b')) as BB.
  set (f := fun x => u32 (x + base)) in *.
  set (N := if same then zlen (uni a b) else _).
  set (M := if same then 0 else _).
  assert (GN : zlen (uni a b) <= N).
  { unfold N. destruct same; [lia|]. destruct (Z.ltb_spec 0 (zlen b')), (Z.ltb_spec 0 (zlen a')); lia. }
  assert (DB : forall k, 0 <= k < 31 -> decode_bytes k = bread k).
  { intros k Hk. unfold decode_bytes, bread. destruct (Z.ltb_spec k 31); [reflexivity|lia]. }
  destruct (Z.leb_spec (pos + zlen e) (zlen out)) as [Le|Le].
  2: { rewrite R. cbn [bind]. right. split; [lia|reflexivity]. }
  destruct R as (out1 & -> & W1). cbn [bind]. pose proof (wrote_zlen _ _ _ _ _ W1) as EL1.
  rewrite <- M1. rewrite U.
  (* nothing left on the right *)
  assert (T2 : forall out2 n, zlen out2 = zlen out -> n = zlen (uni a b) -> b' = [] -> pos + n <= zlen out ->
            wrote 23 out pos (map f (e ++ a' ++ b')) out2 ->
            ((if same then True else pos + n + 8 <= zlen out /\ r + zlen b + 16 <= zlen mem) /\
            exists out', (if negb (r + zlen b - zlen b' =? l + zlen a)
              then let! (out0, n0) := decode_sparse_block mem (r + zlen b - zlen b')
                    (r + zlen b - (r + zlen b - zlen b')) base out2 (pos + n) in Ok (out0, n + n0)
              else Ok (out2, n)) = Ok (out', zlen (e ++ a' ++ b'))
              /\ wrote 23 out pos (map f (e ++ a' ++ b')) out')
            \/ (same = false /\ (zlen out < pos + n + 8 \/ zlen mem < r + zlen b + 16) /\ (if negb (r + zlen b - zlen b' =? l + zlen a)
              then let! (out0, n0) := decode_sparse_block mem (r + zlen b - zlen b')
                    (r + zlen b - (r + zlen b - zlen b')) base out2 (pos + n) in Ok (out0, n + n0)
              else Ok (out2, n)) = UB)).
  { intros out2 n Hz Hn Eb' Hpn W2. rewrite <- U, <- Hn. rewrite Eb', zlen_nil in *. rewrite !Z.sub_0_r, Z.sub_diag.
    destruct same; cbn [sepb] in Hs.
    - destruct Hs as [Hs1 Hs2]. rewrite Hs1 in *. destruct (Z.eqb_spec (r + zlen b) (l + zlen b)); [|lia]. cbn [negb].
      left. split; auto. exists out2; rewrite U; auto.
    - destruct (Z.eqb_spec (r + zlen b) (l + zlen a)); [lia|]. cbn [negb].
      destruct (Z_lt_le_dec (zlen out) (pos + n + 8)); [|destruct (Z_lt_le_dec (zlen mem) (r + zlen b + 16))].
      1, 2: right; split; auto; split; [lia|]; rewrite decode_sparse_block_0_short by lia; reflexivity.
      left. split; [lia|].
      destruct (decode_sparse_block_0 mem (r + zlen b) base out2 (pos + n)) as (out3 & -> & W3); try lia.
      cbn [bind]. exists out3. split; [f_equal; f_equal; lia|]. rewrite U.
      eapply wrote_nil_app; [exact W2| |lia]. rewrite zlen_map, <- U, <- Hn.
      eapply wrote_weaken; [exact W3|lia]. }
  destruct (Z.eqb_spec (l + zlen a - zlen a') (l + zlen a)) as [E1|E1]; cbn [negb bind].
  - assert (Ea' : a' = []) by (destruct a'; auto; rewrite zlen_cons in *; zpos; lia).
    assert (Za : zlen a' = 0) by lia.
    destruct (Z.eq_dec (zlen b') 0) as [Zb|Zb].
    + assert (Eb' : b' = []) by (destruct b'; auto; rewrite zlen_cons in *; zpos; lia).
      specialize (T2 out1 (zlen e) EL1 ltac:(lia) Eb' Le).
      specialize (T2 ltac:(rewrite Ea', Eb', !app_nil_r; eapply wrote_weaken; [exact W1|lia])).
      assert (EN : N = if same then zlen e else zlen e + 8).
      { unfold N. destruct same; [lia|]. destruct (Z.ltb_spec 0 (zlen b')), (Z.ltb_spec 0 (zlen a')); lia. }
      assert (EM : M = if same then 0 else r + zlen b + 16).
      { unfold M. destruct same; [lia|]. rewrite Za, Zb. change (decode_bytes 0) with 16. change (0 <? 0) with false. cbv iota. lia. }
      rewrite EN, EM. destruct T2 as [(C & X)|(Es & C & X)].
      * left. destruct same; (split; [lia|split; [lia|exact X]]).
      * right. rewrite Es. split; [lia|exact X].
    + assert (Hns : same = false).
      { destruct same; auto. exfalso. destruct Hs as [Hs _]. subst b. unfold b' in Zb.
        rewrite above_none, zlen_nil in Zb; [lia|]. now apply last_ge. }
      rewrite Hns in Hs. cbn [sepb] in Hs.
      assert (EN : N = zlen e + bneed (zlen b')) by (unfold N; rewrite Hns; destruct (Z.ltb_spec 0 (zlen b')); lia).
      assert (EM : M = r + zlen b - zlen b' + bread (zlen b')).
      { unfold M. rewrite Hns, Za. change (0 <? 0) with false. cbv iota. rewrite DB by lia.
        unfold bread. destruct (zlen b' <? 31), (zlen b' <=? 8); lia. }
      destruct (Z.eqb_spec (r + zlen b - zlen b') (l + zlen a)) as [E2|E2]; [lia|]. cbn [negb].
      replace (r + zlen b - (r + zlen b - zlen b')) with (zlen b') by lia. rewrite EN, EM.
      destruct (Z_lt_le_dec (zlen out) (pos + (zlen e + bneed (zlen b'))));
        [|destruct (Z_lt_le_dec (zlen mem) (r + zlen b - zlen b' + bread (zlen b')))].
      1, 2: right; split; [lia|]; rewrite decode_sparse_block_far by lia; reflexivity.
      destruct (decode_sparse_block_reach mem (r + zlen b - zlen b') b' base out1 (pos + zlen e)) as (out2 & E & W2); try lia.
      { replace (r + zlen b - zlen b') with (r + zlen pb) by lia. exact Bb'. }
      left. split; [lia|]. split; [lia|].
      rewrite E. cbn [bind]. exists out2. rewrite Ea'. cbn [app]. split; [rewrite zlen_app; reflexivity|].
      rewrite map_app. eapply wrote_app; [lia|eapply wrote_weaken; [exact W1|lia]|].
      rewrite zlen_map. unfold f. rewrite map_ext_u32. exact W2.
  - assert (Eb' : b' = []) by (destruct D as [D|]; auto; rewrite D, zlen_nil in E1; lia).
    assert (Zb : zlen b' = 0) by (rewrite Eb'; reflexivity).
    assert (Hns : same = false).
    { destruct same; auto. exfalso. destruct Hs as [Hs _]. subst b. unfold a' in E1.
      rewrite above_none, zlen_nil in E1; [lia|]. now apply last_ge. }
    assert (EN : N = Z.max (zlen e + bneed (zlen a')) (zlen (uni a b) + 8)).
    { unfold N. rewrite Hns. destruct (Z.ltb_spec 0 (zlen b')), (Z.ltb_spec 0 (zlen a')); lia. }
    assert (EM : M = Z.max (l + zlen a - zlen a' + bread (zlen a')) (r + zlen b + 16)).
    { unfold M. rewrite Hns, Zb. change (decode_bytes 0) with 16. rewrite DB by lia. destruct (Z.ltb_spec 0 (zlen a')); lia. }
    replace (l + zlen a - (l + zlen a - zlen a')) with (zlen a') by lia. rewrite EN, EM.
    destruct (Z_lt_le_dec (zlen out) (pos + zlen e + bneed (zlen a'))) as [Sh|Sh];
      [|destruct (Z_lt_le_dec (zlen mem) (l + zlen a - zlen a' + bread (zlen a'))) as [Sm|Sm]].
    1, 2: right; split; [lia|]; rewrite decode_sparse_block_far by lia; reflexivity.
    destruct (decode_sparse_block_reach mem (l + zlen a - zlen a') a' base out1 (pos + zlen e)) as (out2 & E & W2); try lia.
    { replace (l + zlen a - zlen a') with (l + zlen pa) by lia. exact Ba'. }
    rewrite E. cbn [bind]. pose proof (wrote_zlen _ _ _ _ _ W2).
    specialize (T2 out2 (zlen e + zlen a') ltac:(lia) ltac:(lia) Eb' ltac:(lia)).
    specialize (T2 ltac:(rewrite Eb', app_nil_r, map_app; eapply wrote_app;
      [lia|eapply wrote_weaken; [exact W1|lia]|]; rewrite zlen_map; unfold f; rewrite map_ext_u32; exact W2)).
    rewrite Hns in T2. destruct T2 as [(C & X)|(_ & C & X)].
    + left. split; [lia|split; [lia|exact X]].
    + right. split; [lia|exact X].
Qed.

(** ** blocks *)
Lemma jneed_dense same a b : sorted a -> sorted b -> 31 <= zlen a \/ 31 <= zlen b -> jneed same a b = zlen (uni a b).
Proof.
  intros Sa Sb H. unfold jneed, join_words. rewrite join_size_uni by auto. destruct same; auto.
  destruct (Z.leb_spec 31 (zlen a)), (Z.leb_spec 31 (zlen b)); cbn [orb]; auto; lia.
Qed.
Lemma jreach_dense same da db a b : 31 <= zlen a \/ 31 <= zlen b -> jreach same da db a b = 0.
Proof.
  intros H. unfold jreach. destruct same; auto.
  destruct (Z.leb_spec 31 (zlen a)), (Z.leb_spec 31 (zlen b)); cbn [orb]; auto; lia.
Qed.
Lemma jneed_ge same a b : sorted a -> sorted b -> a <> [] -> b <> [] -> zlen (uni a b) <= jneed same a b.
Proof.
  intros Sa Sb Na Nb. unfold jneed, join_words. rewrite join_size_uni by auto. destruct same; [lia|].
  destruct (uni_stop a b Na Nb Sa Sb) as (e & pa & pb & _ & _ & D & U).
  destruct ((31 <=? zlen a) || (31 <=? zlen b)); [lia|]. change decode_words with bneed.
  pose proof (bneed_ge (zlen (above (last a 0) b))). pose proof (bneed_ge (zlen (above (last b 0) a))).
  destruct (Z.ltb_spec 0 (zlen (above (last a 0) b))), (Z.ltb_spec 0 (zlen (above (last b 0) a))); lia.
Qed.

Lemma ds_union_block_room mem l r a b base x out pos :
  bm_at (words_mem mem l) 4 (memb a) -> bytes_at mem r b -> b <> [] -> sorted a -> sorted b ->
  Forall (fun x => 0 <= x < 256) a -> Forall (fun x => 0 <= x < 256) b ->
  zlen x = 4 -> 0 <= base -> base + 256 <= 4294967296 ->
  0 <= pos -> pos <= zlen out ->
  exists x', zlen x' = 4 /\ room (pos + zlen (uni a b)) out pos (ds_union_block mem l r (zlen b) base x out pos)
    (fun out' => (x', out', zlen (uni a b))) (map (addb base) (uni a b)).
Proof.
  intros Ba Bb Nb Sa Sb Ra Rb Hx Hb0 Hb1 Hp Hp'. unfold ds_union_block.
  change (block_size / 8 / 8) with 4.
  destruct (memcpy_words_ok mem l 4 (memb a) x 0) as (x1 & -> & Bx1 & Sx1); auto; try lia. cbn [bind].
  destruct Sx1 as [Lx1 _].
  destruct (uncompress_sparse_block_ok mem b r x1 0 4 (memb a) 0) as (x2 & E2 & Bx2 & Sx2); auto; try lia.
  rewrite Z.add_0_r in E2. rewrite E2. cbn [bind]. destruct Sx2 as [Lx2 _].
  change block_size_in_64bit_words with (Z.of_nat 4).
  assert (Ruab : Forall (fun x => 0 <= x < 256) (uni a b)) by auto using Forall_uni.
  assert (Suab : sorted (uni a b)) by auto using sorted_uni.
  assert (BM : bm_at (words_vec x2) 4 (memb (uni a b))).
  { eapply bm_at_ext; [exact Bx2|]. intros z _. cbn beta. rewrite memb_uni. now rewrite Z.mul_0_r, Z.sub_0_r. }
  assert (EU : uni a (uni a b) = uni a b)
      by (symmetry; apply uni_unique; auto; intro z; rewrite In_uni; tauto).
  exists x2. split; [lia|]. unfold room.
  destruct (Z.leb_spec (pos + zlen (uni a b)) (zlen out)).
  - destruct (or_bitmaps_ok (words_mem mem l) (words_vec x2) 4 a (uni a b) base out pos) as (out' & E & W); auto; try lia.
    { rewrite EU. lia. }
    rewrite EU in *. rewrite E. cbn [bind]. exists out'. split; auto. eapply wrote_weaken; [exact W|lia].
  - rewrite (or_bitmaps_short (words_mem mem l) (words_vec x2) 4 a (uni a b)); auto. rewrite EU. lia.
Qed.

Lemma union_blocks_room same dbg mem dl dr ia ib a b base x out pos :
  wfb1 (ia, a) -> wfb1 (ib, b) ->
  bytes_at mem dl (block_data a) -> bytes_at mem dr (block_data b) ->
  sepb same a b dl (zlen (block_data a)) dr (zlen (block_data b)) -> zlen x = 4 ->
  0 <= dl -> dl + zlen (block_data a) <= zlen mem ->
  0 <= dr -> dr + zlen (block_data b) <= zlen mem ->
  0 <= base -> base + 256 <= 4294967296 ->
  0 <= pos -> pos <= zlen out ->
  exists x', zlen x' = 4 /\ room2 mem (pos + jneed same a b) (jreach same dl dr a b) out pos
    (union_blocks dbg mem dl dr (zlen a) (zlen b) base x out pos)
    (fun out' => (x', out', zlen (uni a b))) (map (addb base) (uni a b)).
Proof.
  intros Wa Wb Ba Bb Hs Hx Hl Hml Hr Hmr Hb0 Hb1 Hp Hp'.
  pose proof (blocks_wf1_zlen _ _ Wa) as La. pose proof (blocks_wf1_zlen _ _ Wb) as Lb.
  destruct Wa as (_ & Na & Sa & Ra). destruct Wb as (_ & Nb & Sb & Rb). cbn [snd] in *.
  unfold union_blocks. rewrite !block_type_val.
  rewrite !zlen_block_data in *. unfold bytes_by_cardinality in *.
  change block_sparseness_threshold with 32 in Hml, Hmr.
  destruct (Z.ltb_spec (zlen a) 31) as [Ka|Ka]; destruct (Z.ltb_spec (zlen b) 31) as [Kb|Kb].
  - rewrite Z.eqb_refl. apply block_sparse in Ba, Bb; auto. exists x. split; auto.
    pose proof (ss_union_block_room same dbg mem dl dr a b base out pos) as R. unfold room2 in *.
    destruct R as [(C1 & C2 & out' & -> & W)|(C & ->)]; auto; try lia. left. cbn [bind]. eauto 6.
  - change (block_pair t_sparse t_dense =? block_pair t_sparse t_sparse) with false. cbv iota.
    rewrite Z.eqb_refl. apply block_sparse in Ba; auto. apply block_dense in Bb; auto.
    rewrite jneed_dense, jreach_dense by auto.
    rewrite (uni_comm a b) in * by auto.
    destruct (ds_union_block_room mem dr dl b a base x out pos) as (x' & Hx' & R); auto; try lia.
    exists x'. auto using room_room2.
  - change (block_pair t_dense t_sparse =? block_pair t_sparse t_sparse) with false.
    change (block_pair t_dense t_sparse =? block_pair t_sparse t_dense) with false. cbv iota.
    rewrite Z.eqb_refl. apply block_dense in Ba; auto. apply block_sparse in Bb; auto.
    rewrite jneed_dense, jreach_dense by auto.
    destruct (ds_union_block_room mem dl dr a b base x out pos) as (x' & Hx' & R); auto; try lia.
    exists x'. auto using room_room2.
  - change (block_pair t_dense t_dense =? block_pair t_sparse t_sparse) with false.
    change (block_pair t_dense t_dense =? block_pair t_sparse t_dense) with false.
    change (block_pair t_dense t_dense =? block_pair t_dense t_sparse) with false. cbv iota.
    rewrite Z.eqb_refl. apply block_dense in Ba, Bb; auto.
    change block_size_in_64bit_words with (Z.of_nat 4).
    rewrite jneed_dense, jreach_dense by auto. exists x. split; auto. apply room_room2. unfold room.
    destruct (Z.leb_spec (pos + zlen (uni a b)) (zlen out)).
    + destruct (or_bitmaps_ok (words_mem mem dl) (words_mem mem dr) 4 a b base out pos) as (out' & E & W);
        auto; try lia.
      rewrite E. cbn [bind]. exists out'. split; auto. eapply wrote_weaken; eauto. lia.
    + rewrite (or_bitmaps_short (words_mem mem dl) (words_mem mem dr) 4 a b); auto.
Qed.

Lemma DECODE_room mem ptr d id vs bs base out pos :
  blocks_at mem ptr d ((id, vs) :: bs) -> 0 <= d -> d + zlen (datas ((id, vs) :: bs)) <= zlen mem ->
  0 <= base -> base + 65536 <= 4294967296 -> 0 <= pos -> pos <= zlen out ->
  exists d', blocks_at mem (ptr + 2) d' bs /\ d <= d'
    /\ d' + zlen (datas bs) = d + zlen (datas ((id, vs) :: bs)) /\ d' = d + bytes_by_cardinality (zlen vs)
    /\ room2 mem (pos + bneed (zlen vs)) (d + bread (zlen vs)) out pos (DECODE mem ptr d base out pos)
        (fun out' => (ptr + 2, d', out', pos + zlen vs)) (map (addb base) (ungroup1 256 (id, vs))).
Proof.
  intros B Hd Hm Hb0 Hb1 Hp Hp'. pose proof (blocks_at_cons _ _ _ _ _ _ B) as (W1 & E1 & E2 & D & B' & _).
  pose proof (blocks_wf1_zlen _ _ W1) as Hv. rewrite zlen_datas_cons in *. cbn [snd] in *.
  pose proof (zlen_nonneg _ (datas bs)).
  unfold DECODE, decode_block. rewrite E1. cbn [bind]. rewrite E2. cbn [bind].
  replace (zlen vs - 1 + 1) with (zlen vs) by lia.
  assert (0 <= bytes_by_cardinality (zlen vs)) by (unfold bytes_by_cardinality; destruct (zlen vs <? _); lia).
  exists (d + bytes_by_cardinality (zlen vs)). split; [exact B'|]. split; [lia|]. split; [lia|]. split; [lia|].
  pose proof (decode_block_reach mem d id vs base out pos W1 D Hd ltac:(lia) Hb0 Hb1 Hp Hp') as R. cbn zeta in R. unfold room2.
  destruct (Z.leb_spec (pos + bneed (zlen vs)) (zlen out)), (Z.leb_spec (d + bread (zlen vs)) (zlen mem)); cbn [andb] in R.
  2-4: right; split; [lia|now rewrite R].
  left. split; [lia|]. split; [lia|]. destruct R as (out' & -> & W). cbn [bind]. eauto.
Qed.

Lemma decode_blocks_loop_room mem end_ base bs : forall fuel ptr d out pos,
  (length bs <= fuel)%nat -> blocks_at mem ptr d bs -> end_ = ptr + 2 * zlen bs ->
  0 <= d -> d + zlen (datas bs) <= zlen mem ->
  0 <= base -> base + 65536 <= 4294967296 ->
  0 <= pos -> pos <= zlen out ->
  room2 mem (blocks_need pos bs) (blocks_reach d bs) out pos (decode_blocks_loop fuel mem ptr end_ d base out pos)
    (fun out' => (out', pos + zlen (ungroup 256 bs))) (map (addb base) (ungroup 256 bs)).
Proof.
  induction bs as [|[id vs] bs IH]; intros fuel ptr d out pos Hf B He Hd Hm Hb0 Hb1 Hp Hp'; unfold room2; cbn [blocks_need blocks_reach].
  - rewrite zlen_nil in He. change (zlen (datas [])) with 0 in Hm. left. split; [lia|]. split; [lia|].
    exists out. split; [|apply wrote_nil; lia].
    destruct fuel; cbn [decode_blocks_loop]; destruct (Z.eqb_spec ptr end_); try lia; cbn; f_equal; f_equal; lia.
  - cbn [length] in Hf. destruct fuel as [|f]; [lia|].
    rewrite zlen_cons in He. rewrite ungroup_cons, zlen_app, zlen_ungroup1 in *. cbn [snd] in *. zpos.
    pose proof (zlen_nonneg _ (ungroup 256 bs)).
    cbn [decode_blocks_loop]. destruct (Z.eqb_spec ptr end_); [lia|]. cbn [negb].
    pose proof (blocks_at_cons _ _ _ _ _ _ B) as (WW & _). pose proof (blocks_wf1_zlen _ _ WW) as Hv.
    destruct (DECODE_room mem ptr d id vs bs base out pos) as (d' & B' & Hd' & ED & <- & R); auto; try lia.
    pose proof (bneed_ge (zlen vs)).
    destruct R as [(C1 & C2 & out1 & -> & W1)|(C & ->)].
    2: { right. cbn [bind]. split; [lia|auto]. }
    cbn [bind]. pose proof (wrote_zlen _ _ _ _ _ W1) as EL.
    pose proof (IH f (ptr + 2) d' out1 (pos + zlen vs) ltac:(lia) B' ltac:(lia) ltac:(lia) ltac:(lia) Hb0 Hb1 ltac:(lia) ltac:(lia)) as R2.
    unfold room2 in R2. rewrite EL in R2.
    destruct R2 as [(C3 & C4 & out2 & -> & W2)|(C & ->)]; [left|right; split; [lia|auto]].
    split; [lia|]. split; [lia|].
    exists out2. split; [f_equal; f_equal; lia|]. rewrite map_app. eapply wrote_app; [lia|exact W1|].
    rewrite zlen_map, zlen_ungroup1. exact W2.
Qed.

(** ** what is needed to merge two lists of groups *)
Section Merge.
Variables (one : Z -> list Z -> Z) (two : Z -> list Z -> list Z -> Z).
Fixpoint run (t : Z) (A : list (Z * list Z)) : Z :=
  match A with [] => t | (_, v) :: A => Z.max (one t v) (run (t + zlen v) A) end.
Fixpoint mneed (A : list (Z * list Z)) : Z -> list (Z * list Z) -> Z :=
  match A with
  | [] => run
  | (i, va) :: A' =>
      fix go t B :=
        match B with
        | [] => run t A
        | (j, vb) :: B' =>
            if i <? j then Z.max (one t va) (mneed A' (t + zlen va) B)
            else if j <? i then Z.max (one t vb) (go (t + zlen vb) B')
            else Z.max (two t va vb) (mneed A' (t + zlen (uni va vb)) B')
        end
  end.
Lemma mneed_nil_r A t : mneed A t [] = run t A.
Proof. destruct A as [|[i va] A]; reflexivity. Qed.
Lemma mneed_cons i va A j vb B t :
  mneed ((i, va) :: A) t ((j, vb) :: B)
  = if i <? j then Z.max (one t va) (mneed A (t + zlen va) ((j, vb) :: B))
    else if j <? i then Z.max (one t vb) (mneed ((i, va) :: A) (t + zlen vb) B)
    else Z.max (two t va vb) (mneed A (t + zlen (uni va vb)) B).
Proof. reflexivity. Qed.
End Merge.

(** end of the furthest read of the groups [A], whose data start at [da], and [B], whose data start at [db] *)
Section Reach.
Variables (sz : list Z -> Z) (oner : Z -> list Z -> Z) (twor : Z -> Z -> list Z -> list Z -> Z).
Fixpoint runr (d : Z) (A : list (Z * list Z)) : Z :=
  match A with [] => d | (_, v) :: A => Z.max (oner d v) (runr (d + sz v) A) end.
Fixpoint mreach (A : list (Z * list Z)) : Z -> Z -> list (Z * list Z) -> Z :=
  match A with
  | [] => fun _ => runr
  | (i, va) :: A' =>
      fun da => fix go db B :=
        match B with
        | [] => runr da A
        | (j, vb) :: B' =>
            if i <? j then Z.max (oner da va) (mreach A' (da + sz va) db B)
            else if j <? i then Z.max (oner db vb) (go (db + sz vb) B')
            else Z.max (twor da db va vb) (mreach A' (da + sz va) (db + sz vb) B')
        end
  end.
Lemma mreach_nil_r A da db : mreach A da db [] = match A with [] => db | _ => runr da A end.
Proof. destruct A as [|[i va] A]; reflexivity. Qed.
Lemma mreach_cons i va A j vb B da db :
  mreach ((i, va) :: A) da db ((j, vb) :: B)
  = if i <? j then Z.max (oner da va) (mreach A (da + sz va) db ((j, vb) :: B))
    else if j <? i then Z.max (oner db vb) (mreach ((i, va) :: A) da (db + sz vb) B)
    else Z.max (twor da db va vb) (mreach A (da + sz va) (db + sz vb) B).
Proof. reflexivity. Qed.
End Reach.

Definition one_b (t : Z) (v : list Z) : Z := t + bneed (zlen v).
Definition two_b (same : bool) (t : Z) (a b : list Z) : Z := t + jneed same a b.
Definition szb (v : list Z) : Z := bytes_by_cardinality (zlen v).
Definition szc (c : list Z) : Z := zlen (chunk_data c).
Definition oner_b (d : Z) (v : list Z) : Z := d + bread (zlen v).
Definition reach_b (same : bool) : list (Z * list Z) -> Z -> Z -> list (Z * list Z) -> Z := mreach szb oner_b (jreach same).
Lemma runr_blocks : forall bs d, runr szb oner_b d bs = blocks_reach d bs.
Proof. induction bs as [|[i v] bs IH]; intro t; cbn [runr blocks_reach]; [reflexivity|]. now rewrite IH. Qed.
Lemma runr_chunks : forall cs d, runr szc chunk_reach d cs = chunks_reach d cs.
Proof. induction cs as [|[i v] cs IH]; intro t; cbn [runr chunks_reach]; [reflexivity|]. now rewrite IH. Qed.
Lemma run_blocks : forall bs t, run one_b t bs = blocks_need t bs.
Proof. induction bs as [|[i v] bs IH]; intro t; cbn [run blocks_need]; [reflexivity|]. now rewrite IH. Qed.
Lemma run_chunks : forall cs t, run chunk_need t cs = chunks_need t cs.
Proof. induction cs as [|[i v] cs IH]; intro t; cbn [run chunks_need]; [reflexivity|]. now rewrite IH. Qed.

Lemma sepb_l {T} (A A' B B' : T) da na db nb da' na' :
  sepb false A B da na db nb -> da <= da' -> da' + na' = da + na -> sepb false A' B' da' na' db nb.
Proof. cbn. lia. Qed.
Lemma sepb_sym {T} same (A B : T) da na db nb : sepb same A B da na db nb -> sepb same B A db nb da na.
Proof. unfold sepb. destruct same; intuition. Qed.

Lemma ss_union_chunk_loop_room same dbg mem end_l end_r base : forall fuel A B l r dl dr x out pos,
  (length A + length B <= fuel)%nat ->
  blocks_at mem l dl A -> blocks_at mem r dr B -> A <> [] -> B <> [] ->
  end_l = l + 2 * zlen A -> end_r = r + 2 * zlen B ->
  sepb same A B dl (zlen (datas A)) dr (zlen (datas B)) -> zlen x = 4 ->
  0 <= dl -> dl + zlen (datas A) <= zlen mem -> 0 <= dr -> dr + zlen (datas B) <= zlen mem ->
  0 <= base -> base + 65536 <= 4294967296 ->
  0 <= pos -> pos <= zlen out ->
  ((zlen out < mneed one_b (two_b same) A pos B \/ zlen mem < reach_b same A dl dr B)
   /\ ss_union_chunk_loop fuel dbg mem l r end_l end_r dl dr base x out pos = UB)
  \/ exists l' r' dl' dr' x' out' e A' B',
    ss_union_chunk_loop fuel dbg mem l r end_l end_r dl dr base x out pos
    = Ok (l', r', dl', dr', x', out', pos + zlen e) /\ zlen x' = 4
    /\ wrote 23 out pos (map (addb base) e) out'
    /\ blocks_at mem l' dl' A' /\ blocks_at mem r' dr' B'
    /\ end_l = l' + 2 * zlen A' /\ end_r = r' + 2 * zlen B'
    /\ 0 <= dl' /\ dl' + zlen (datas A') = dl + zlen (datas A)
    /\ 0 <= dr' /\ dr' + zlen (datas B') = dr + zlen (datas B)
    /\ (A' = [] \/ B' = [])
    /\ uni (ungroup 256 A) (ungroup 256 B) = e ++ ungroup 256 A' ++ ungroup 256 B'
    /\ zlen A' <= zlen A /\ zlen B' <= zlen B
    /\ pos + zlen e <= zlen out
    /\ (mneed one_b (two_b same) A pos B <= zlen out /\ reach_b same A dl dr B <= zlen mem
        <-> mneed one_b (two_b same) A' (pos + zlen e) B' <= zlen out /\ reach_b same A' dl' dr' B' <= zlen mem).
Proof.
  assert (Hk : 0 < 256) by lia.
  induction fuel as [|f IH];
    intros A B l r dl dr x out pos Hf BA BB NA NB El Er Hs Hx Hdl Hml Hdr Hmr Hb0 Hb1 Hp Hp'.
  { destruct A; [congruence|]. cbn [length] in Hf. lia. }
  destruct A as [|[i va] A]; [congruence|]. destruct B as [|[j vb] B]; [congruence|].
  cbn [length] in Hf. cbn [ss_union_chunk_loop].
  pose proof (blocks_at_cons _ _ _ _ _ _ BA) as (Wi & Ei & Eci & Di & BA2 & Fi).
  pose proof (blocks_at_cons _ _ _ _ _ _ BB) as (Wj & Ej & Ecj & Dj & BB2 & Fj).
  pose proof (blocks_wf1_zlen _ _ Wi) as Hva. pose proof (blocks_wf1_zlen _ _ Wj) as Hvb.
  rewrite Ei. cbn [bind]. rewrite Ej. cbn [bind].
  rewrite zlen_cons in El, Er.
  pose proof (zlen_nonneg _ (datas A)). pose proof (zlen_nonneg _ (datas B)).
  pose proof (blocks_wf _ _ _ _ BA) as WA. pose proof (blocks_wf _ _ _ _ BB) as WB. zpos.
  pose proof (zlen_nonneg _ (ungroup 256 A)). pose proof (zlen_nonneg _ (ungroup 256 B)).
  pose proof (bneed_ge (zlen va)) as BNa. pose proof (bneed_ge (zlen vb)) as BNb.
  unfold reach_b in IH |- *. rewrite mneed_cons, mreach_cons.
  destruct (Z.ltb_spec i j) as [Hij|Hij].
  - rewrite (uni_groups_lt 256 256 Hk i j va vb A B) by auto.
    assert (same = false) as ->. { destruct same; auto. exfalso. destruct Hs as [Hs _]. injection Hs as Hs _ _. lia. }
    destruct (DECODE_room mem l dl i va A base out pos) as (dl1 & BA1 & Hd1 & ED1 & ES1 & R); auto; try lia.
    change (one_b pos va) with (pos + bneed (zlen va)). change (oner_b dl va) with (dl + bread (zlen va)).
    change (dl + szb va) with (dl + bytes_by_cardinality (zlen va)). rewrite <- ES1.
    destruct R as [(C1 & C2 & out1 & -> & W1)|(C & ->)].
    2: { left. split; [lia|reflexivity]. }
    cbn [bind]. pose proof (wrote_zlen _ _ _ _ _ W1) as EL1.
    destruct (Z.eqb_spec (l + 2) end_l) as [E1|E1].
    + assert (A = []) as -> by (destruct A; auto; rewrite zlen_cons in El; zpos; lia).
      right. exists (l + 2), r, dl1, dr, x, out1, (ungroup1 256 (i, va)), [], ((j, vb) :: B).
      rewrite zlen_ungroup1. cbn [snd]. split; auto. split; auto. split; auto.
      split; auto. split; auto. split; [rewrite zlen_nil; lia|]. split; [rewrite zlen_cons; lia|].
      split; [lia|]. split; [auto|]. split; auto. split; auto. split; auto.
      split; [cbn [ungroup flat_map]; now rewrite uni_nil_l|].
      split; [rewrite ?zlen_cons, ?zlen_nil in *; zpos; lia|]. split; [lia|]. split; [lia|]. lia.
    + assert (A <> []) by (intros ->; rewrite zlen_nil in El; lia).
      destruct (IH A ((j, vb) :: B) (l + 2) r dl1 dr x out1 (pos + zlen va))
        as [(M & ->)|(l' & r' & dl' & dr' & x' & out' & e & A' & B' & -> & Hx' & W & BA' & BB' & EA' & EB' & Z1 & Z2 & Z3 & Z4 & D & U & LA & LB & PE & MN)];
        auto; try discriminate; try lia; try (cbn [length]; lia); try (rewrite zlen_cons; lia).
      { eapply sepb_l; eauto. }
      { left. split; [lia|reflexivity]. }
      right. exists l', r', dl', dr', x', out', (ungroup1 256 (i, va) ++ e), A', B'.
      rewrite zlen_app, zlen_ungroup1. cbn [snd].
      split; [f_equal; f_equal; lia|]. split; auto.
      split; [rewrite map_app; eapply wrote_app; [lia|exact W1|]; rewrite zlen_map, zlen_ungroup1; exact W|].
      do 4 (split; auto). split; auto. split; [lia|]. split; auto. split; auto. split; auto.
      split; [rewrite U, !app_assoc; reflexivity|]. rewrite !Z.add_assoc. rewrite EL1 in *.
      split; [rewrite ?zlen_cons, ?zlen_nil in *; zpos; lia|]. split; [lia|]. split; [lia|]. lia.
  - destruct (Z.ltb_spec j i) as [Hji|Hji].
    + assert (SA : sorted (ungroup 256 ((i, va) :: A))) by (apply (sorted_ungroup 256 256); auto).
      assert (SB : sorted (ungroup 256 ((j, vb) :: B))) by (apply (sorted_ungroup 256 256); auto).
      assert (SB1 : sorted (ungroup 256 B)) by (apply (sorted_ungroup 256 256); auto; eapply blocks_wf; eauto).
      rewrite (uni_comm (ungroup 256 ((i, va) :: A))) by auto.
      rewrite (uni_groups_lt 256 256 Hk j i vb va B A) by (auto; lia).
      rewrite <- (uni_comm (ungroup 256 ((i, va) :: A))) by auto.
      assert (same = false) as ->. { destruct same; auto. exfalso. destruct Hs as [Hs _]. injection Hs as Hs _ _. lia. }
      destruct (DECODE_room mem r dr j vb B base out pos) as (dr1 & BB1 & Hd1 & ED1 & ES1 & R); auto; try lia.
      change (one_b pos vb) with (pos + bneed (zlen vb)). change (oner_b dr vb) with (dr + bread (zlen vb)).
      change (dr + szb vb) with (dr + bytes_by_cardinality (zlen vb)). rewrite <- ES1.
      destruct R as [(C1 & C2 & out1 & -> & W1)|(C & ->)].
      2: { left. split; [lia|reflexivity]. }
      cbn [bind]. pose proof (wrote_zlen _ _ _ _ _ W1) as EL1.
      destruct (Z.eqb_spec (r + 2) end_r) as [E1|E1].
      * assert (B = []) as -> by (destruct B; auto; rewrite zlen_cons in Er; zpos; lia).
        right. exists l, (r + 2), dl, dr1, x, out1, (ungroup1 256 (j, vb)), ((i, va) :: A), [].
        rewrite zlen_ungroup1. cbn [snd]. split; auto. split; auto. split; auto.
        split; auto. split; auto. split; [rewrite zlen_cons; lia|]. split; [rewrite zlen_nil; lia|].
        split; [lia|]. split; [auto|]. split; [lia|]. split; auto. split; auto.
        split; [cbn [ungroup flat_map]; now rewrite uni_nil_r, app_nil_r|].
        split; [rewrite ?zlen_cons, ?zlen_nil in *; zpos; lia|]. split; [rewrite ?zlen_cons, ?zlen_nil in *; zpos; lia|]. split; [lia|]. lia.
      * assert (B <> []) by (intros ->; rewrite zlen_nil in Er; lia).
        destruct (IH ((i, va) :: A) B l (r + 2) dl dr1 x out1 (pos + zlen vb))
          as [(M & ->)|(l' & r' & dl' & dr' & x' & out' & e & A' & B' & -> & Hx' & W & BA' & BB' & EA' & EB' & Z1 & Z2 & Z3 & Z4 & D & U & LA & LB & PE & MN)];
          auto; try discriminate; try lia; try (cbn [length]; lia); try (rewrite zlen_cons; lia).
        { apply sepb_sym. eapply sepb_l; [apply sepb_sym; eauto|lia|lia]. }
        { left. split; [lia|reflexivity]. }
        right. exists l', r', dl', dr', x', out', (ungroup1 256 (j, vb) ++ e), A', B'.
        rewrite zlen_app, zlen_ungroup1. cbn [snd].
        split; [f_equal; f_equal; lia|]. split; auto.
        split; [rewrite map_app; eapply wrote_app; [lia|exact W1|]; rewrite zlen_map, zlen_ungroup1; exact W|].
        do 4 (split; auto). split; auto. split; auto. split; auto. split; [lia|]. split; auto.
        split; [rewrite U, !app_assoc; reflexivity|]. rewrite !Z.add_assoc. rewrite EL1 in *.
        split; [rewrite ?zlen_cons, ?zlen_nil in *; zpos; lia|]. split; [rewrite ?zlen_cons, ?zlen_nil in *; zpos; lia|]. split; [lia|]. lia.
    + assert (i = j) by lia. subst j. rewrite Eci. cbn [bind]. rewrite Ecj. cbn [bind].
      replace (zlen va - 1 + 1) with (zlen va) by lia. replace (zlen vb - 1 + 1) with (zlen vb) by lia.
      rewrite (uni_groups_eq 256 256 Hk i i va vb A B) by auto.
      assert (Hi : 0 <= i < 256) by apply Wi. rewrite (u32_id (base + i * 256)) by lia.
      assert (0 <= bytes_by_cardinality (zlen va)) by (unfold bytes_by_cardinality; destruct (zlen va <? _); lia).
      assert (0 <= bytes_by_cardinality (zlen vb)) by (unfold bytes_by_cardinality; destruct (zlen vb <? _); lia).
      rewrite !zlen_datas_cons in *. cbn [snd] in *.
      pose proof (zlen_nonneg _ (uni va vb)).
      assert (JG : zlen (uni va vb) <= jneed same va vb).
      { destruct Wi as (_ & N1 & S1 & _). destruct Wj as (_ & N2 & S2 & _). cbn [snd] in *. now apply jneed_ge. }
      destruct (union_blocks_room same dbg mem dl dr i i va vb (base + i * 256) x out pos) as (x1 & Hx1 & R);
        auto; rewrite ?zlen_block_data; try lia.
      { unfold sepb in Hs |- *. destruct same; [|lia]. destruct Hs as [Hs ?]. injection Hs as Hs _. auto. }
      change (two_b same pos va vb) with (pos + jneed same va vb).
      change (szb va) with (bytes_by_cardinality (zlen va)). change (szb vb) with (bytes_by_cardinality (zlen vb)).
      destruct R as [(C1 & C2 & out1 & -> & W1)|(C & ->)].
      2: { left. split; [lia|reflexivity]. }
      cbn [bind]. pose proof (wrote_zlen _ _ _ _ _ W1) as EL1.
      assert (zlen (uni va vb) <= 256).
      { apply (sorted_zlen_le (Z.to_nat 256)).
        - apply sorted_uni; [apply Wi|apply Wj].
        - destruct Wi as (_ & _ & _ & R1). destruct Wj as (_ & _ & _ & R2). cbn [snd] in *.
          rewrite Z2Nat.id by lia. apply Forall_uni; auto. }
      rewrite u32_id by lia.
      assert (EM : map (addb base) (ungroup1 256 (i, uni va vb)) = map (addb (base + i * 256)) (uni va vb)).
      { unfold ungroup1. cbn [fst snd]. rewrite map_map. apply map_ext. intro z. unfold addb. lia. }
      destruct ((l + 2 =? end_l) || (r + 2 =? end_r)) eqn:E1.
      * right. exists (l + 2), (r + 2), (dl + bytes_by_cardinality (zlen va)), (dr + bytes_by_cardinality (zlen vb)),
          x1, out1, (ungroup1 256 (i, uni va vb)), A, B.
        rewrite zlen_ungroup1. cbn [snd]. split; auto. split; auto. split; [rewrite EM; exact W1|].
        split; auto. split; auto. split; [lia|]. split; [lia|]. split; [lia|]. split; [lia|]. split; [lia|].
        split; [lia|]. apply orb_true_iff in E1 as [E1%Z.eqb_eq|E1%Z.eqb_eq].
        -- assert (A = []) as -> by (destruct A; auto; rewrite zlen_cons in El; zpos; lia).
           split; auto. split; [cbn [ungroup flat_map]; now rewrite uni_nil_l|].
           rewrite ?zlen_cons, ?zlen_nil in *. zpos. split; [lia|]. split; [lia|]. split; [lia|]. lia.
        -- assert (B = []) as -> by (destruct B; auto; rewrite zlen_cons in Er; zpos; lia).
           split; auto. split; [cbn [ungroup flat_map]; now rewrite uni_nil_r, app_nil_r|].
           rewrite ?zlen_cons, ?zlen_nil in *. zpos. split; [lia|]. split; [lia|]. split; [lia|]. lia.
      * apply orb_false_iff in E1 as [E1%Z.eqb_neq E2%Z.eqb_neq].
        destruct (IH A B (l + 2) (r + 2) (dl + bytes_by_cardinality (zlen va)) (dr + bytes_by_cardinality (zlen vb))
          x1 out1 (pos + zlen (uni va vb)))
          as [(M & ->)|(l' & r' & dl' & dr' & x' & out' & e & A' & B' & -> & Hx' & W & BA' & BB' & EA' & EB' & Z1 & Z2 & Z3 & Z4 & D & U & LA & LB & PE & MN)];
          auto; try lia.
        { intros ->. rewrite zlen_nil in El. lia. }
        { intros ->. rewrite zlen_nil in Er. lia. }
        { unfold sepb in Hs |- *. destruct same; [|lia]. destruct Hs as [Hs ->]. injection Hs as -> ->. auto. }
        { left. split; [lia|reflexivity]. }
        right. exists l', r', dl', dr', x', out', (ungroup1 256 (i, uni va vb) ++ e), A', B'.
        rewrite zlen_app, zlen_ungroup1. cbn [snd].
        split; [f_equal; f_equal; lia|]. split; auto.
        split; [rewrite map_app; eapply wrote_app; [lia|rewrite EM; exact W1|]; rewrite zlen_map, zlen_ungroup1; exact W|].
        do 4 (split; auto). split; auto. split; [lia|]. split; auto. split; [lia|]. split; auto.
        split; [rewrite U, !app_assoc; reflexivity|]. rewrite !Z.add_assoc. rewrite EL1 in *.
        rewrite ?zlen_cons, ?zlen_nil in *. zpos. split; [lia|]. split; [lia|]. split; [lia|]. lia.
Qed.

(** ** chunks *)
Lemma or_chunk_room l r a b base out pos :
  bm_at l 1024 (memb a) -> bm_at r 1024 (memb b) -> sorted a -> sorted b ->
  Forall (fun x => 0 <= x < 65536) a -> Forall (fun x => 0 <= x < 65536) b ->
  0 <= base -> base + 65536 <= 4294967296 -> 0 <= pos -> pos <= zlen out ->
  room (pos + zlen (uni a b)) out pos (or_bitmaps l r M_Util.chunk_size_in_64bit_words base out pos)
    (fun out' => (out', zlen (uni a b))) (map (addb base) (uni a b)).
Proof.
  intros Ba Bb Sa Sb Ra Rb Hb0 Hb1 Hp Hp'. unfold room.
  change M_Util.chunk_size_in_64bit_words with (Z.of_nat (Z.to_nat 1024)).
  destruct (Z.leb_spec (pos + zlen (uni a b)) (zlen out)).
  - destruct (or_bitmaps_ok l r (Z.to_nat 1024) a b base out pos)
      as (out' & E & W); rewrite ?Z2Nat.id in * by lia; auto; try lia.
    exists out'. split; auto. eapply wrote_weaken; eauto. lia.
  - apply or_bitmaps_short with (a := a) (b := b); rewrite ?Z2Nat.id by lia; auto.
Qed.

Section Chunks.
Variables (same dbg : bool) (mem : list Z).

Lemma ss_union_chunk_room itl itr il ir a b A B base x out pos :
  it_view 0 mem itl ((il, a) :: A) -> it_view 0 mem itr ((ir, b) :: B) ->
  kind_of a = KSparse -> kind_of b = KSparse ->
  sepb same ((il, a) :: A) ((ir, b) :: B) (i_data itl) (zlen (cdatas ((il, a) :: A)))
    (i_data itr) (zlen (cdatas ((ir, b) :: B))) -> zlen x = 4 ->
  0 <= base -> base + 65536 <= 4294967296 -> 0 <= pos -> pos <= zlen out ->
  exists x', zlen x' = 4 /\ room2 mem (mneed one_b (two_b same) (blocks_of a) pos (blocks_of b))
    (reach_b same (blocks_of a) (i_data itl + 2 * zlen (blocks_of a)) (i_data itr + 2 * zlen (blocks_of b)) (blocks_of b)) out pos
    (ss_union_chunk dbg mem (i_data itl) (i_data itr) (zlen (blocks_of a)) (zlen (blocks_of b)) base x out pos)
    (fun out' => (x', out', zlen (uni a b))) (map (addb base) (uni a b)).
Proof.
  intros Va Vb Ka Kb Hs Hx Hb0 Hb1 Hp Hp'.
  destruct (view_sparse _ _ _ _ _ _ Va Ka) as (BA & Hna & Hda & Hma).
  destruct (view_sparse _ _ _ _ _ _ Vb Kb) as (BB & Hnb & Hdb & Hmb).
  pose proof (sparse_extent mem _ _ _ _ _ Va Ka) as XA. pose proof (sparse_extent mem _ _ _ _ _ Vb Kb) as XB.
  unfold ss_union_chunk.
  rewrite assert_ok by (apply andb_true_intro; split; apply Z.leb_le; lia). cbn [bind].
  rewrite assert_ok by (apply andb_true_intro; split; apply Z.leb_le; lia). cbn [bind].
  rewrite !(Z.mul_comm _ 2).
  assert (UA : ungroup 256 (blocks_of a) = a) by apply blocks_ungroup.
  assert (UBB : ungroup 256 (blocks_of b) = b) by apply blocks_ungroup.
  assert (SB : sepb same (blocks_of a) (blocks_of b) (i_data itl + 2 * zlen (blocks_of a)) (zlen (datas (blocks_of a)))
     (i_data itr + 2 * zlen (blocks_of b)) (zlen (datas (blocks_of b)))).
  { unfold sepb in Hs |- *. destruct same; [|lia]. destruct Hs as [Hs E]. injection Hs as _ -> _. split; auto. now rewrite E. }
  set (bA := blocks_of a) in *. set (bB := blocks_of b) in *.
  pose proof (ss_union_chunk_loop_room same dbg mem (i_data itl + 2 * zlen bA) (i_data itr + 2 * zlen bB) base
    (Z.to_nat (zlen bA + zlen bB)) bA bB (i_data itl) (i_data itr)
    (i_data itl + 2 * zlen bA) (i_data itr + 2 * zlen bB) x out pos) as L.
  rewrite UA, UBB in L.
  destruct L as [(M & ->)|(l' & r' & dl' & dr' & x' & out1 & e & A' & B' & -> & Hx' & W & BA' & BB' & EA' & EB' & Z1 & Z2 & Z3 & Z4 & D & U & LA & LB & PE & MN)];
    auto; try lia.
  { unfold zlen. lia. }
  { intro E. rewrite E, zlen_nil in *. lia. }
  { intro E. rewrite E, zlen_nil in *. lia. }
  { exists x. split; auto. right. auto. }
  exists x'. split; auto.
  cbn [bind]. pose proof (wrote_zlen _ _ _ _ _ W) as EL1.
  rewrite U. rewrite !zlen_app. zpos.
  pose proof (zlen_nonneg _ (ungroup 256 A')). pose proof (zlen_nonneg _ (ungroup 256 B')).
  pose proof (decode_blocks_loop_room mem (i_data itl + 2 * zlen bA) base A' (S (Z.to_nat (zlen bA))) l' dl' out1 (pos + zlen e)
    ltac:(unfold zlen in *; lia) BA' EA' Z1 ltac:(lia) Hb0 Hb1 ltac:(lia) ltac:(lia)) as R2.
  unfold room2 in R2 |- *. rewrite EL1 in R2.
  pose proof (blocks_need_ge A' (pos + zlen e)) as NA. rewrite <- (sum_card_ungroup 256) in NA.
  set (F := mneed _ _ bA pos bB <= _ /\ _) in MN.
  assert (MA : F <-> (blocks_need (pos + zlen e) A' <= zlen out /\ blocks_reach dl' A' <= zlen mem)
      /\ (blocks_need (pos + zlen e + zlen (ungroup 256 A')) B' <= zlen out /\ blocks_reach dr' B' <= zlen mem)).
  { rewrite MN. unfold reach_b. destruct D as [-> | ->].
    - cbn [mneed mreach]. rewrite run_blocks, runr_blocks. change (ungroup 256 []) with (@nil Z). rewrite zlen_nil, Z.add_0_r.
      cbn [blocks_need blocks_reach]. change (zlen (datas [])) with 0 in Z2. split; [intro; split; [lia|auto]|tauto].
    - rewrite mneed_nil_r, run_blocks, mreach_nil_r, runr_blocks. cbn [blocks_need blocks_reach]. 
      change (zlen (datas [])) with 0 in Z4. destruct A' as [|? A'].
      + cbn [blocks_need blocks_reach]. change (zlen (datas [])) with 0 in Z2.
        change (ungroup 256 []) with (@nil Z). rewrite zlen_nil. lia.
      + split; [intro; split; [auto|lia]|tauto]. }
  unfold F in MA. clear F MN.
  destruct R2 as [(C1 & C2 & out2 & -> & W2)|(C & ->)].
  2: { right. split; [lia|reflexivity]. }
  cbn [bind]. pose proof (wrote_zlen _ _ _ _ _ W2) as EL2.
  pose proof (decode_blocks_loop_room mem (i_data itr + 2 * zlen bB) base B' (S (Z.to_nat (zlen bB))) r' dr' out2
    (pos + zlen e + zlen (ungroup 256 A')) ltac:(unfold zlen in *; lia) BB' EB' Z3 ltac:(lia) Hb0 Hb1 ltac:(lia) ltac:(lia)) as R3.
  unfold room2 in R3. rewrite EL2, EL1 in R3.
  destruct R3 as [(C3 & C4 & out3 & -> & W3)|(C & ->)].
  - left. split; [lia|]. split; [lia|]. cbn [bind]. exists out3. split; [f_equal; f_equal; lia|].
    rewrite !map_app. eapply wrote_app; [lia|exact W|]. rewrite zlen_map.
    eapply wrote_app; [lia|exact W2|]. now rewrite zlen_map.
  - right. split; [lia|reflexivity].
Qed.

Lemma ds_union_chunk_room itl itr il ir a b A B base y out pos :
  it_view 0 mem itl ((il, a) :: A) -> it_view 0 mem itr ((ir, b) :: B) ->
  kind_of a = KDense -> kind_of b = KSparse -> zlen y = 1024 ->
  0 <= base -> base + 65536 <= 4294967296 -> 0 <= pos -> pos <= zlen out ->
  exists y', zlen y' = 1024 /\ room (pos + zlen (uni a b)) out pos
    (ds_union_chunk dbg mem (i_data itl) (i_data itr) (zlen (blocks_of b)) base y out pos)
    (fun out' => (y', out', zlen (uni a b))) (map (addb base) (uni a b)).
Proof.
  intros Va Vb Ka Kb Hy Hb0 Hb1 Hp Hp'. unfold ds_union_chunk.
  destruct (uncompress_sparse_chunk_ok dbg mem 0 itr ir b B (repeat 0 (length y)) 0) as (y' & -> & By & Sy); auto; try lia.
  { rewrite zlen_repeat. unfold zlen in Hy. lia. }
  { apply bm_zeros; [lia|]. unfold zlen in Hy. lia. }
  cbn [bind].
  pose proof (view_wf _ _ _ _ _ Va) as (_ & _ & Sa & Ra). pose proof (view_wf _ _ _ _ _ Vb) as (_ & _ & Sb & Rb).
  cbn [snd] in *. exists y'. split; [destruct Sy as [Sy _]; rewrite Sy, zlen_repeat; exact Hy|].
  pose proof (or_chunk_room (words_mem mem (i_data itl)) (words_vec y') a b base out pos) as R. unfold room in *.
  specialize (R ltac:(eapply view_dense; eauto) By Sa Sb Ra Rb Hb0 Hb1 Hp Hp').
  destruct (pos + zlen (uni a b) <=? zlen out).
  - destruct R as (out' & E & W). rewrite E. cbn [bind]. exists out'. auto.
  - now rewrite R.
Qed.

Definition two_c (t : Z) (a b : list Z) : Z :=
  match kind_of a, kind_of b with
  | KSparse, KSparse =>
      if zlen (blocks_of a) <? zlen (blocks_of b)
      then mneed one_b (two_b same) (blocks_of a) t (blocks_of b)
      else mneed one_b (two_b same) (blocks_of b) t (blocks_of a)
  | _, _ => t + zlen (uni a b)
  end.

Definition twor_c (da db : Z) (a b : list Z) : Z :=
  match kind_of a, kind_of b with
  | KSparse, KSparse =>
      let p := da + 2 * zlen (blocks_of a) in
      let q := db + 2 * zlen (blocks_of b) in
      if zlen (blocks_of a) <? zlen (blocks_of b)
      then reach_b same (blocks_of a) p q (blocks_of b)
      else reach_b same (blocks_of b) q p (blocks_of a)
  | _, _ => 0
  end.
Definition reach_c : list (Z * list Z) -> Z -> Z -> list (Z * list Z) -> Z := mreach szc chunk_reach twor_c.

Lemma union_chunks_room itl itr il ir a b A B base x y out pos :
  it_view 0 mem itl ((il, a) :: A) -> it_view 0 mem itr ((ir, b) :: B) ->
  sepb same ((il, a) :: A) ((ir, b) :: B) (i_data itl) (zlen (cdatas ((il, a) :: A)))
    (i_data itr) (zlen (cdatas ((ir, b) :: B))) -> zlen x = 4 -> zlen y = 1024 ->
  0 <= base -> base + 65536 <= 4294967296 -> 0 <= pos -> pos <= zlen out ->
  exists x' y', zlen x' = 4 /\ zlen y' = 1024 /\
    room2 mem (two_c pos a b) (twor_c (i_data itl) (i_data itr) a b) out pos (union_chunks dbg mem itl itr base x y out pos)
      (fun out' => (x', y', out', zlen (uni a b))) (map (addb base) (uni a b)).
Proof.
  intros Va Vb Hs Hx Hy Hb0 Hb1 Hp Hp'.
  pose proof (view_wf _ _ _ _ _ Va) as Wa. pose proof (view_wf _ _ _ _ _ Vb) as Wb.
  pose proof Wa as (_ & _ & Sa & Ra). pose proof Wb as (_ & _ & Sb & Rb). cbn [snd] in *.
  unfold union_chunks, two_c, twor_c.
  rewrite (id_view_type _ _ _ _ _ (proj1 Va)), (id_view_type _ _ _ _ _ (proj1 Vb)). cbn [bind].
  assert (KEEP : forall n m (z : res (list Z * Z)) e,
    room2 mem n m out pos z (fun out' => (out', zlen e)) (map (addb base) e) ->
    exists x' y', zlen x' = 4 /\ zlen y' = 1024 /\
      room2 mem n m out pos (let! p := z in let '(out, n) := p in Ok (x, y, out, n)) (fun out' => (x', y', out', zlen e)) (map (addb base) e)).
  { intros n m z e [(C1 & C2 & out' & -> & W)|(C & ->)]; exists x, y; split; auto; split; auto; [left|right]; cbn [bind]; auto.
    split; auto. split; auto. eauto. }
  assert (KEEPY : forall n m (z : res (list Z * list Z * Z)) e,
    (exists x', zlen x' = 4 /\ room2 mem n m out pos z (fun out' => (x', out', zlen e)) (map (addb base) e)) ->
    exists x' y', zlen x' = 4 /\ zlen y' = 1024 /\
      room2 mem n m out pos (let! p := z in let '(x, out, n) := p in Ok (x, y, out, n)) (fun out' => (x', y', out', zlen e)) (map (addb base) e)).
  { intros n m z e (x' & H1 & [(C1 & C2 & out' & -> & W)|(C & ->)]); exists x', y; split; auto; split; auto; [left|right]; cbn [bind]; auto.
    split; auto. split; auto. eauto. }
  assert (KEEPX : forall n (z : res (list Z * list Z * Z)) e,
    (exists y', zlen y' = 1024 /\ room n out pos z (fun out' => (y', out', zlen e)) (map (addb base) e)) ->
    exists x' y', zlen x' = 4 /\ zlen y' = 1024 /\
      room2 mem n 0 out pos (let! p := z in let '(y, out, n) := p in Ok (x, y, out, n)) (fun out' => (x', y', out', zlen e)) (map (addb base) e)).
  { intros n z e (y' & H1 & R). exists x, y'. split; auto. split; auto. apply room_room2. unfold room in *. destruct (n <=? zlen out).
    - destruct R as (out' & -> & W). cbn [bind]. eauto.
    - now rewrite R. }
  destruct (kind_of a) eqn:Ka; destruct (kind_of b) eqn:Kb;
    repeat match goal with |- context [chunk_pair ?x ?y =? chunk_pair ?z ?w] =>
      let v := eval vm_compute in (chunk_pair x y =? chunk_pair z w) in
      replace (chunk_pair x y =? chunk_pair z w) with v by reflexivity end; cbv iota.
  - (* sparse, sparse *)
    rewrite (id_view_blocks _ _ _ _ _ (proj1 Va) Ka), (id_view_blocks _ _ _ _ _ (proj1 Vb) Kb). cbn [bind].
    destruct (zlen (blocks_of a) <? zlen (blocks_of b)).
    + apply KEEPY. eapply ss_union_chunk_room; eauto.
    + rewrite (uni_comm a b) in * by auto. apply KEEPY. eapply ss_union_chunk_room; eauto. now apply sepb_sym.
  - (* sparse, dense *)
    rewrite (id_view_blocks _ _ _ _ _ (proj1 Va) Ka). cbn [bind].
    rewrite (uni_comm a b) in * by auto. apply KEEPX. eapply ds_union_chunk_room; eauto.
  - (* sparse, full *)
    rewrite (uni_full_r ir a b) in * by auto. apply KEEP, room_room2. eapply decode_full_chunk_room; eauto.
  - (* dense, sparse *)
    rewrite (id_view_blocks _ _ _ _ _ (proj1 Vb) Kb). cbn [bind].
    apply KEEPX. eapply ds_union_chunk_room; eauto.
  - (* dense, dense *)
    apply KEEP, room_room2. apply or_chunk_room; auto; eapply view_dense; eauto.
  - (* dense, full *)
    rewrite (uni_full_r ir a b) in * by auto. apply KEEP, room_room2. eapply decode_full_chunk_room; eauto.
  - (* full, sparse *)
    rewrite (uni_comm a b) in * by auto.
    rewrite (uni_full_r il b a) in * by auto. apply KEEP, room_room2. eapply decode_full_chunk_room; eauto.
  - (* full, dense *)
    rewrite (uni_comm a b) in * by auto.
    rewrite (uni_full_r il b a) in * by auto. apply KEEP, room_room2. eapply decode_full_chunk_room; eauto.
  - (* full, full *)
    rewrite (uni_full_r ir a b) in * by auto. apply KEEP, room_room2. eapply decode_full_chunk_room; eauto.
Qed.

(** ** sequences *)
Lemma decode_chunk_reach2 it id c cs out pos :
  it_view 0 mem it ((id, c) :: cs) -> 0 <= pos -> pos <= zlen out ->
  room2 mem (chunk_need pos c) (chunk_reach (i_data it) c) out pos (decode_chunk dbg mem it out pos)
    (fun out' => (out', zlen c)) (ungroup1 65536 (id, c)).
Proof.
  intros V Hp Hp'. pose proof (decode_chunk_reach dbg mem it id c cs out pos V Hp Hp') as R. cbn zeta in R. unfold room2.
  destruct (Z.leb_spec (chunk_need pos c) (zlen out)), (Z.leb_spec (chunk_reach (i_data it) c) (zlen mem)); cbn [andb] in R; auto.
Qed.
Lemma decode_rest_loop_room cs : forall fuel it out pos,
  (length cs <= fuel)%nat -> it_view 0 mem it cs ->
  0 <= pos -> pos <= zlen out ->
  room2 mem (chunks_need pos cs) (chunks_reach (i_data it) cs) out pos (decode_rest_loop fuel dbg mem it out pos)
    (fun out' => (out', pos + zlen (ungroup 65536 cs))) (ungroup 65536 cs).
Proof.
  induction cs as [|[id c] cs IH]; intros fuel it out pos Hf V Hp Hp'; unfold room2; cbn [chunks_need chunks_reach].
  - left. split; [lia|]. split; [destruct V as (_ & _ & _ & L); change (zlen (cdatas [])) with 0 in L; lia|].
    exists out. split; [|apply wrote_nil; lia].
    destruct fuel; cbn [decode_rest_loop]; rewrite (id_view_has_next _ _ _ (proj1 V)); cbn; f_equal; f_equal; lia.
  - cbn [length] in Hf. destruct fuel as [|f]; [lia|]. cbn [decode_rest_loop].
    rewrite (id_view_has_next _ _ _ (proj1 V)). rewrite ungroup_cons, zlen_app, zlen_ungroup1 in *. cbn [snd] in *.
    zpos. pose proof (zlen_nonneg _ (ungroup 65536 cs)).
    pose proof (decode_chunk_reach2 it id c cs out pos V Hp Hp') as R.
    pose proof (chunk_need_ge pos c).
    destruct R as [(C1 & C2 & out1 & -> & W1)|(C & ->)].
    2: { right. split; [lia|reflexivity]. }
    cbn [bind]. pose proof (wrote_zlen _ _ _ _ _ W1) as EL1.
    destruct (view_next _ _ _ _ _ _ V) as (it1 & -> & V1 & _ & _ & D1 & _). cbn [bind]. rewrite <- D1.
    pose proof (IH f it1 out1 (pos + zlen c) ltac:(lia) V1 ltac:(lia) ltac:(lia)) as R2. unfold room2 in R2. rewrite EL1 in R2.
    destruct R2 as [(C3 & C4 & out2 & -> & W2)|(C & ->)]; [left|right; split; [lia|reflexivity]].
    split; [lia|]. split; [lia|].
    exists out2. split; [f_equal; f_equal; lia|]. eapply wrote_app; [lia|exact W1|]. now rewrite zlen_ungroup1.
Qed.

Lemma wrote_bound k buf pos e buf' : wrote k buf pos e buf' -> pos <= zlen buf -> pos + zlen e <= zlen buf.
Proof.
  intros (L & H & _) Hp. destruct e as [|x e]; [rewrite zlen_nil; lia|]. rewrite zlen_cons in *. zpos.
  specialize (H (zlen e) ltac:(lia)). rewrite <- L.
  destruct (znth_Some _ (x :: e) (zlen e) ltac:(rewrite zlen_cons; lia)) as (v & Q).
  rewrite Q in H. apply znth_lt in H. lia.
Qed.

Lemma pairwise_union_loop_room : forall fuel A B itl itr x y out pos,
  (length A + length B <= fuel)%nat -> A <> [] -> B <> [] ->
  it_view 0 mem itl A -> it_view 0 mem itr B ->
  sepb same A B (i_data itl) (zlen (cdatas A)) (i_data itr) (zlen (cdatas B)) ->
  zlen x = 4 -> zlen y = 1024 ->
  0 <= pos -> pos <= zlen out ->
  ((zlen out < mneed chunk_need two_c A pos B \/ zlen mem < reach_c A (i_data itl) (i_data itr) B)
   /\ pairwise_union_loop fuel dbg mem itl itr x y out pos = UB)
  \/ exists itl' itr' x' y' out' e A' B',
    pairwise_union_loop fuel dbg mem itl itr x y out pos
    = Ok (itl', itr', x', y', out', pos + zlen e)
    /\ zlen x' = 4 /\ zlen y' = 1024 /\ wrote 23 out pos e out'
    /\ it_view 0 mem itl' A' /\ it_view 0 mem itr' B'
    /\ (A' = [] \/ B' = [])
    /\ uni (ungroup 65536 A) (ungroup 65536 B) = e ++ ungroup 65536 A' ++ ungroup 65536 B'
    /\ pos + zlen e <= zlen out
    /\ (mneed chunk_need two_c A pos B <= zlen out /\ reach_c A (i_data itl) (i_data itr) B <= zlen mem
        <-> mneed chunk_need two_c A' (pos + zlen e) B' <= zlen out /\ reach_c A' (i_data itl') (i_data itr') B' <= zlen mem).
Proof.
  assert (Hk : 0 < 65536) by lia.
  induction fuel as [|f IH]; intros A B itl itr x y out pos Hf NA NB Va Vb Hs Hx Hy Hp Hp'.
  { destruct A; [congruence|]. cbn [length] in Hf. lia. }
  destruct A as [|[i a] A]; [congruence|]. destruct B as [|[j b] B]; [congruence|].
  cbn [length] in Hf. cbn [pairwise_union_loop].
  pose proof (proj1 (proj1 Va)) as WA. pose proof (proj1 (proj1 Vb)) as WB.
  pose proof (view_wf _ _ _ _ _ Va) as Wa. pose proof (view_wf _ _ _ _ _ Vb) as Wb.
  destruct (chunk_base _ _ _ _ _ (proj1 Va)) as (Ei & Ebi & Hi).
  destruct (chunk_base _ _ _ _ _ (proj1 Vb)) as (Ej & Ebj & Hj).
  rewrite Ei, Ej. cbn [bind]. rewrite !u16_id by lia.
  destruct (view_next_ext mem _ _ _ _ _ Va) as (itl1 & NXa & Va1 & Da & EDa).
  destruct (view_next_ext mem _ _ _ _ _ Vb) as (itr1 & NXb & Vb1 & Db & EDb).
  pose proof (id_view_has_next _ _ _ (proj1 Va1)) as HNa. pose proof (id_view_has_next _ _ _ (proj1 Vb1)) as HNb.
  pose proof (chunk_need_ge pos a) as CNa. pose proof (chunk_need_ge pos b) as CNb. zpos.
  unfold reach_c in IH |- *. rewrite mneed_cons, mreach_cons. change (szc a) with (zlen (chunk_data a)). change (szc b) with (zlen (chunk_data b)).
  destruct (view_next _ _ _ _ _ _ Va) as (itl2 & NX2a & _ & _ & _ & Ea & _). rewrite NXa in NX2a. injection NX2a as <-.
  destruct (view_next _ _ _ _ _ _ Vb) as (itr2 & NX2b & _ & _ & _ & Eb & _). rewrite NXb in NX2b. injection NX2b as <-.
  rewrite <- Ea, <- Eb.
  destruct (Z.eqb_spec i j) as [E|E].
  - subst j. rewrite Ebi. destruct (Z.ltb_spec i i); [lia|].
    rewrite (uni_groups_eq 65536 65535 Hk i i a b A B) by auto. pose proof (zlen_nonneg _ (uni a b)).
    destruct (union_chunks_room itl itr i i a b A B (i * 65536) x y out pos) as (x1 & y1 & Hx1 & Hy1 & R);
      auto; try lia.
    destruct R as [(C1 & C2 & out1 & -> & W1)|(C & ->)].
    2: { left. split; [lia|reflexivity]. }
    cbn [bind]. pose proof (wrote_zlen _ _ _ _ _ W1) as EL1. rewrite NXa. cbn [bind]. rewrite NXb. cbn [bind].
    pose proof (wrote_bound _ _ _ _ _ W1 Hp') as PB1. rewrite zlen_map in PB1.
    assert (zlen (uni a b) <= 65536).
    { rewrite <- (Z2Nat.id 65536) by lia. apply sorted_zlen_le.
      - apply sorted_uni; [apply Wa|apply Wb].
      - destruct Wa as (_ & _ & _ & R1). destruct Wb as (_ & _ & _ & R2). cbn [snd] in *.
        rewrite Z2Nat.id by lia. apply Forall_uni; auto. }
    rewrite u32_id by lia. rewrite HNa, HNb.
    assert (STOP : A = [] \/ B = [] -> exists itl' itr' x' y' out' e A' B',
      Ok (itl1, itr1, x1, y1, out1, pos + zlen (uni a b)) = Ok (itl', itr', x', y', out', pos + zlen e)
      /\ zlen x' = 4 /\ zlen y' = 1024 /\ wrote 23 out pos e out'
      /\ it_view 0 mem itl' A' /\ it_view 0 mem itr' B'
      /\ (A' = [] \/ B' = [])
      /\ ungroup1 65536 (i, uni a b) ++ uni (ungroup 65536 A) (ungroup 65536 B) = e ++ ungroup 65536 A' ++ ungroup 65536 B'
      /\ pos + zlen e <= zlen out
      /\ (Z.max (two_c pos a b) (mneed chunk_need two_c A (pos + zlen (uni a b)) B) <= zlen out
          /\ Z.max (twor_c (i_data itl) (i_data itr) a b) (mreach szc chunk_reach twor_c A (i_data itl1) (i_data itr1) B) <= zlen mem
          <-> mneed chunk_need two_c A' (pos + zlen e) B' <= zlen out
          /\ mreach szc chunk_reach twor_c A' (i_data itl') (i_data itr') B' <= zlen mem)).
    { intro D. exists itl1, itr1, x1, y1, out1, (ungroup1 65536 (i, uni a b)), A, B. rewrite zlen_ungroup1. cbn [snd].
      do 7 (split; auto). split; [|lia]. f_equal. destruct D as [-> | ->]; cbn [ungroup flat_map]; now rewrite ?uni_nil_l, ?uni_nil_r, ?app_nil_r. }
    destruct A as [|ca A]; [cbn [negb orb]; right; apply STOP; auto|].
    destruct B as [|cb B]; [cbn [negb orb]; right; apply STOP; auto|].
    cbn [negb orb].
    destruct (IH (ca :: A) (cb :: B) itl1 itr1 x1 y1 out1 (pos + zlen (uni a b)))
      as [(M & ->)|(itl' & itr' & x' & y' & out' & e & A' & B' & -> & Hx' & Hy' & W & VA' & VB' & D & U & PE & MN)];
      auto; try discriminate; try lia; try (cbn [length] in *; lia).
    { unfold sepb in Hs |- *. destruct same; [|lia]. destruct Hs as [Hs Es]. injection Hs as -> -> ->. split; auto. lia. }
    { left. split; [lia|reflexivity]. }
    right. exists itl', itr', x', y', out', (ungroup1 65536 (i, uni a b) ++ e), A', B'.
    rewrite zlen_app, zlen_ungroup1. cbn [snd]. split; [f_equal; f_equal; lia|]. split; auto. split; auto.
    split; [eapply wrote_app; [lia|exact W1|]; now rewrite zlen_ungroup1|].
    do 3 (split; auto). split; [rewrite U, !app_assoc; reflexivity|]. rewrite EL1 in *. rewrite Z.add_assoc. split; lia.
  - destruct (Z.ltb_spec i j).
    + assert (same = false) as Es. { destruct same; auto. exfalso. destruct Hs as [Hs _]. injection Hs as Hs _ _. lia. }
      rewrite (uni_groups_lt 65536 65535 Hk i j a b A B) by auto.
      pose proof (decode_chunk_reach2 itl i a A out pos Va Hp Hp') as R.
      destruct R as [(C1 & C2 & out1 & -> & W1)|(C & ->)].
      2: { left. split; [lia|reflexivity]. }
      cbn [bind]. pose proof (wrote_zlen _ _ _ _ _ W1) as EL1. rewrite NXa. cbn [bind]. rewrite HNa.
      destruct A as [|ca A]; cbn [negb].
      * right. exists itl1, itr, x, y, out1, (ungroup1 65536 (i, a)), [], ((j, b) :: B). rewrite zlen_ungroup1. cbn [snd].
        do 7 (split; auto). split; [cbn [ungroup flat_map]; now rewrite uni_nil_l|]. lia.
      * destruct (IH (ca :: A) ((j, b) :: B) itl1 itr x y out1 (pos + zlen a))
          as [(M & ->)|(itl' & itr' & x' & y' & out' & e & A' & B' & -> & Hx' & Hy' & W & VA' & VB' & D & U & PE & MN)];
          auto; try discriminate; try lia; try (cbn [length] in *; lia).
        { rewrite Es in *. eapply sepb_l; eauto. }
        { left. split; [lia|reflexivity]. }
        right. exists itl', itr', x', y', out', (ungroup1 65536 (i, a) ++ e), A', B'.
        rewrite zlen_app, zlen_ungroup1. cbn [snd]. split; [f_equal; f_equal; lia|]. split; auto. split; auto.
        split; [eapply wrote_app; [lia|exact W1|]; now rewrite zlen_ungroup1|].
        do 3 (split; auto). split; [rewrite U, !app_assoc; reflexivity|]. rewrite EL1 in *. rewrite Z.add_assoc. split; lia.
    + destruct (Z.ltb_spec j i); [|lia].
      assert (same = false) as Es. { destruct same; auto. exfalso. destruct Hs as [Hs _]. injection Hs as Hs _ _. lia. }
      assert (SA : sorted (ungroup 65536 ((i, a) :: A))) by (apply (sorted_ungroup 65536 65535); auto).
      assert (SB : sorted (ungroup 65536 ((j, b) :: B))) by (apply (sorted_ungroup 65536 65535); auto).
      assert (SB1 : sorted (ungroup 65536 B)) by (apply (sorted_ungroup 65536 65535); auto; apply Vb1).
      rewrite (uni_comm (ungroup 65536 ((i, a) :: A))) by auto.
      rewrite (uni_groups_lt 65536 65535 Hk j i b a B A) by (auto; lia).
      rewrite <- (uni_comm (ungroup 65536 ((i, a) :: A))) by auto.
      pose proof (decode_chunk_reach2 itr j b B out pos Vb Hp Hp') as R.
      destruct R as [(C1 & C2 & out1 & -> & W1)|(C & ->)].
      2: { left. split; [lia|reflexivity]. }
      cbn [bind]. pose proof (wrote_zlen _ _ _ _ _ W1) as EL1. rewrite NXb. cbn [bind]. rewrite HNb.
      destruct B as [|cb B]; cbn [negb].
      * right. exists itl, itr1, x, y, out1, (ungroup1 65536 (j, b)), ((i, a) :: A), []. rewrite zlen_ungroup1. cbn [snd].
        do 7 (split; auto). split; [cbn [ungroup flat_map]; now rewrite uni_nil_r, app_nil_r|]. lia.
      * destruct (IH ((i, a) :: A) (cb :: B) itl itr1 x y out1 (pos + zlen b))
          as [(M & ->)|(itl' & itr' & x' & y' & out' & e & A' & B' & -> & Hx' & Hy' & W & VA' & VB' & D & U & PE & MN)];
          auto; try discriminate; try lia; try (cbn [length] in *; lia).
        { rewrite Es in *. apply sepb_sym. eapply sepb_l; [apply sepb_sym; eauto|lia|lia]. }
        { left. split; [lia|reflexivity]. }
        right. exists itl', itr', x', y', out', (ungroup1 65536 (j, b) ++ e), A', B'.
        rewrite zlen_app, zlen_ungroup1. cbn [snd]. split; [f_equal; f_equal; lia|]. split; auto. split; auto.
        split; [eapply wrote_app; [lia|exact W1|]; now rewrite zlen_ungroup1|].
        do 3 (split; auto). split; [rewrite U, !app_assoc; reflexivity|]. rewrite EL1 in *. rewrite Z.add_assoc. split; lia.
Qed.
End Chunks.

Lemma pairwise_union_exact (same dbg : bool) mem a b S T x y out pos :
  valid S -> valid T -> stored 0 mem a S -> stored 0 mem b T ->
  (if same then a = b /\ S = T
   else exists d encS encT, encoding d S encS /\ encoding d T encT /\ (a + zlen encS <= b \/ b + zlen encT <= a)) ->
  zlen x = 4 -> zlen y = 1024 -> 0 <= pos -> pos <= zlen out ->
  exists s t x' y', seq_at mem a = Ok s /\ seq_at mem b = Ok t /\ zlen x' = 4 /\ zlen y' = 1024
    /\ room2 mem (mneed chunk_need (two_c same) (chunks_of S) pos (chunks_of T))
         (reach_c same (chunks_of S) (i_data (seq_begin s)) (i_data (seq_begin t)) (chunks_of T)) out pos
         (pairwise_union dbg mem s t x y out pos) (fun out' => (x', y', out', zlen (uni S T))) (uni S T).
Proof.
  intros HS HT StS StT Hap Hx Hy Hp Hp'.
  destruct (stored_seq 0 mem a S HS StS ltac:(lia)) as (s & Es & _ & Vs & _).
  destruct (stored_seq 0 mem b T HT StT ltac:(lia)) as (t & Et & _ & Vt & _).
  destruct (valid_chunks S HS) as (WS & NS & US & _). destruct (valid_chunks T HT) as (WT & NT & UT & _).
  destruct (stored_layout _ _ _ _ HS StS) as [BS _]. destruct (stored_layout _ _ _ _ HT StT) as [BT _].
  destruct (seq_data_ok _ _ _ _ WS NS BS Es) as [DS1 DS2]. destruct (seq_data_ok _ _ _ _ WT NT BT Et) as [DT1 DT2].
  exists s, t.
  pose proof (pairwise_union_loop_room same dbg mem (it_fuel (seq_begin s) + it_fuel (seq_begin t))
    (chunks_of S) (chunks_of T) (seq_begin s) (seq_begin t) x y out pos) as L.
  rewrite US, UT in L. unfold pairwise_union.
  destruct L as [(M & ->)|(itl' & itr' & x' & y' & out1 & e & A' & B' & -> & Hx' & Hy' & W & VA' & VB' & D & U & PE & MN)]; auto.
  { pose proof (it_fuel_ok _ _ _ (proj1 Vs)). pose proof (it_fuel_ok _ _ _ (proj1 Vt)). lia. }
  { destruct same; cbn [sepb].
    - destruct Hap as [-> ->]. split; auto. congruence.
    - destruct Hap as (d & eS & eT & ES & ET & Hap).
      apply encoding_layout in ES, ET; auto. subst eS eT. destruct Hap; [left|right]; lia. }
  { exists x, y. do 4 (split; auto). right. auto. }
  exists x', y'. do 4 (split; auto). cbn [bind]. rewrite U. rewrite !zlen_app. unfold room2.
  pose proof (wrote_zlen _ _ _ _ _ W) as EL1. zpos.
  pose proof (zlen_nonneg _ (ungroup 65536 A')). pose proof (zlen_nonneg _ (ungroup 65536 B')).
  pose proof (decode_rest_loop_room dbg mem A' (it_fuel itl') itl' out1 (pos + zlen e)
    ltac:(eapply it_fuel_ok; apply VA') VA' ltac:(lia) ltac:(lia)) as R2. unfold room2 in R2. rewrite EL1 in R2.
  pose proof (chunks_need_ge A' (pos + zlen e)) as NA. rewrite <- (sum_card_ungroup 65536) in NA.
  set (F := mneed _ _ _ pos _ <= _ /\ _) in MN.
  assert (LA : i_data itl' + zlen (cdatas A') <= zlen mem) by (destruct VA' as (_ & _ & _ & L); lia).
  assert (LB : i_data itr' + zlen (cdatas B') <= zlen mem) by (destruct VB' as (_ & _ & _ & L); lia).
  assert (MA : F <-> (chunks_need (pos + zlen e) A' <= zlen out /\ chunks_reach (i_data itl') A' <= zlen mem)
      /\ (chunks_need (pos + zlen e + zlen (ungroup 65536 A')) B' <= zlen out /\ chunks_reach (i_data itr') B' <= zlen mem)).
  { rewrite MN. unfold reach_c. destruct D as [-> | ->].
    - cbn [mneed mreach]. rewrite run_chunks, runr_chunks. change (ungroup 65536 []) with (@nil Z). rewrite zlen_nil, Z.add_0_r.
      cbn [chunks_need chunks_reach]. change (zlen (cdatas [])) with 0 in LA. split; [intro; split; [lia|auto]|tauto].
    - rewrite mneed_nil_r, run_chunks, mreach_nil_r, runr_chunks. cbn [chunks_need chunks_reach]. 
      change (zlen (cdatas [])) with 0 in LB. destruct A' as [|? A'].
      + cbn [chunks_need chunks_reach]. change (zlen (cdatas [])) with 0 in LA.
        change (ungroup 65536 []) with (@nil Z). rewrite zlen_nil. lia.
      + split; [intro; split; [auto|lia]|tauto]. }
  unfold F in MA. clear F MN.
  destruct R2 as [(C1 & C2 & out2 & -> & W2)|(C & ->)].
  2: { right. split; [lia|reflexivity]. }
  cbn [bind]. pose proof (wrote_zlen _ _ _ _ _ W2) as EL2.
  pose proof (decode_rest_loop_room dbg mem B' (it_fuel itr') itr' out2 (pos + zlen e + zlen (ungroup 65536 A'))
    ltac:(eapply it_fuel_ok; apply VB') VB' ltac:(lia) ltac:(lia)) as R3. unfold room2 in R3. rewrite EL2, EL1 in R3.
  destruct R3 as [(C3 & C4 & out3 & -> & W3)|(C & ->)].
  - left. split; [lia|]. split; [lia|]. cbn [bind]. exists out3. split; [f_equal; f_equal; lia|].
    eapply wrote_app; [lia|exact W|]. eapply wrote_app; [lia|exact W2|]. exact W3.
  - right. split; [lia|reflexivity].
Qed.
