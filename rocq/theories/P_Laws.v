(** C23, C24, C26: consequences of the functional theorems. *)
From Verif Require Import Base Hw Spec Lib L_Bits L_Group Layout M_Util M_Build M_Seq M_Decode M_Query
  M_Uncompress M_Intersect M_Union M_Many
  P_Build1 P_Build2 P_Build3 P_Seq P_Decode P_Query P_NextGeq P_Ex P_Sets P_Fin1 P_Fin2 P_Fin3 P_Fin5.
From Coq Require Import Lia Sorted Permutation.

(** enumeration through next_geq alone: v = next_geq(0), then next_geq(v + 1), ... *)
Fixpoint walk (fuel : nat) (dbg : bool) (mem : list Z) (s : s_sequence) (v : Z) : res (list Z) :=
  match fuel with
  | O => Fuel
  | Datatypes.S f =>
      let! r := next_geq dbg mem s v in
      if r =? 4294967295 then Ok []
      else let! l := walk f dbg mem s (r + 1) in Ok (r :: l)
  end.

Lemma sorted_nth S : StronglySorted Z.lt S -> forall i j x y,
  znth S i = Some x -> znth S j = Some y -> i < j -> x < y.
Proof.
  induction S as [|z S IH]; intros Hs i j x y Hx Hy H; [now rewrite znth_nil in Hx|].
  apply sorted_inv in Hs as [Hs Hz]. rewrite Forall_forall in Hz.
  pose proof (znth_some_lt _ _ _ _ Hx). pose proof (znth_some_lt _ _ _ _ Hy).
  rewrite znth_cons_pos in Hy by lia.
  destruct (Z.eq_dec i 0) as [->|N].
  - rewrite znth_cons_0 in Hx. injection Hx as ->. apply Hz. eapply znth_In. eauto.
  - rewrite znth_cons_pos in Hx by lia. eapply (IH Hs (i - 1) (j - 1)); eauto. lia.
Qed.
Lemma In_znth_ex A (S : list A) x : In x S -> exists i, znth S i = Some x.
Proof.
  induction S as [|z S IH]; [intros []|]. intros [->|H].
  - exists 0. apply znth_cons_0.
  - destruct (IH H) as (i & E). pose proof (znth_some_lt _ _ _ _ E). exists (i + 1).
    rewrite znth_cons_pos by lia. now replace (i + 1 - 1) with i by lia.
Qed.
Lemma next_after S i x : StronglySorted Z.lt S -> znth S i = Some x ->
  spec_next_geq S x = x
  /\ spec_next_geq S (x + 1) = match znth S (i + 1) with Some y => y | None => 4294967295 end.
Proof.
  revert i. induction S as [|z S IH]; intros i Hs Hx; [now rewrite znth_nil in Hx|].
  apply sorted_inv in Hs as [Hs Hz]. rewrite Forall_forall in Hz.
  pose proof (znth_some_lt _ _ _ _ Hx). cbn [spec_next_geq].
  rewrite (znth_cons_pos _ _ _ (i + 1)) by lia. replace (i + 1 - 1) with i by lia.
  destruct (Z.eq_dec i 0) as [->|N].
  - rewrite znth_cons_0 in Hx. injection Hx as ->. destruct (Z.leb_spec x x); [|lia].
    destruct (Z.leb_spec (x + 1) x); [lia|]. split; auto.
    destruct S as [|y S]; [reflexivity|]. cbn [spec_next_geq]. rewrite znth_cons_0.
    specialize (Hz y (in_eq _ _)). destruct (Z.leb_spec (x + 1) y); [reflexivity|lia].
  - rewrite znth_cons_pos in Hx by lia. pose proof (Hz x (znth_In _ _ _ _ Hx)).
    destruct (Z.leb_spec x z); [lia|]. destruct (Z.leb_spec (x + 1) z); [lia|].
    destruct (IH (i - 1) Hs Hx) as [E1 E2]. replace (i - 1 + 1) with i in E2 by lia. auto.
Qed.

Lemma c23_point_queries : forall mem a S,
  valid S -> stored 0 mem a S ->
  exists s n, seq_at mem a = Ok s /\ seq_size mem s = Ok n
    /\ (forall dbg i value, 0 <= i < n ->
          exists x, select dbg mem s i value = Ok (true, x)
            /\ contains dbg mem s x = Ok true
            /\ next_geq dbg mem s x = Ok x
            /\ (i + 1 < n -> exists y, select dbg mem s (i + 1) value = Ok (true, y) /\ x < y
                  /\ next_geq dbg mem s (x + 1) = Ok y)
            /\ (i + 1 = n -> next_geq dbg mem s (x + 1) = Ok 4294967295))
    /\ (forall dbg v, 0 <= v < 4294967295 ->
          (contains dbg mem s v = Ok true <-> next_geq dbg mem s v = Ok v))
    /\ (forall dbg fuel, n < Z.of_nat fuel -> walk fuel dbg mem s 0 = Ok S).
Proof.
  intros mem a S V St. destruct (c04_size mem a S V St) as (s & E & Sz & _).
  pose proof (proj1 (proj2 V)) as Hs. pose proof (proj2 (proj2 V)) as Hr. rewrite Forall_forall in Hr.
  assert (NG : forall dbg v, is_u32 v -> next_geq dbg mem s v = Ok (spec_next_geq S v)).
  { intros dbg v Hv. destruct (next_geq_ok dbg mem a S v V St Hv) as (s' & E' & R). congruence. }
  assert (CO : forall dbg v, is_u32 v -> contains dbg mem s v = Ok (memb S v)).
  { intros dbg v Hv. destruct (contains_ok dbg mem a S v V St Hv) as (s' & E' & R). congruence. }
  destruct (valid_chunks S V) as (_ & _ & _ & _ & Ln).
  exists s, (zlen S). split; auto. split; auto. split; [|split].
  - intros dbg i value Hi. destruct (znth_lt_some _ S i Hi) as [x Ex].
    pose proof (Hr x (znth_In _ _ _ _ Ex)) as Rx.
    destruct (c06_select dbg mem a S i value V St) as (s' & E' & SE & _); [unfold is_u32; lia|].
    assert (s' = s) by congruence. subst s'.
    destruct (next_after S i x Hs Ex) as [N1 N2].
    exists x. split; [auto|]. split.
    { rewrite CO by (unfold is_u32; lia). f_equal. apply memb_In. eapply znth_In. eauto. }
    split; [rewrite NG by (unfold is_u32; lia); now f_equal|].
    split.
    + intro L. destruct (znth_lt_some _ S (i + 1) ltac:(lia)) as [y Ey]. exists y.
      destruct (c06_select dbg mem a S (i + 1) value V St) as (s' & E'' & SE' & _); [unfold is_u32; lia|].
      assert (s' = s) by congruence. subst s'. split; [auto|]. split; [eapply sorted_nth; eauto; lia|].
      rewrite NG by (unfold is_u32; lia). now rewrite N2, Ey.
    + intro L. rewrite NG by (unfold is_u32; lia). now rewrite N2, znth_ge by lia.
  - intros dbg v Hv. rewrite CO, NG by (unfold is_u32; lia). split; intro H.
    + injection H as H. apply memb_In in H. f_equal.
      destruct (In_znth_ex _ S v H) as (i & Ei). now apply (next_after S i v).
    + injection H as H. f_equal. apply memb_In.
      destruct (spec_next_geq_spec S v Hs) as [(H1 & _)|(H1 & _)]; [now rewrite H in H1|lia].
  - intros dbg fuel Hf.
    assert (G : forall T pre v, S = pre ++ T -> is_u32 v ->
       (forall x, In x pre -> x < v) -> (forall x, In x T -> v <= x) ->
       forall fuel, zlen T < Z.of_nat fuel -> walk fuel dbg mem s v = Ok T).
    { induction T as [|x T IH]; intros pre v ES Hv Hp HT f Hf'.
      - destruct f as [|f]; [unfold zlen in Hf'; cbn in Hf'; lia|]. cbn [walk]. rewrite NG by auto. cbn [bind].
        rewrite app_nil_r in ES. subst pre.
        destruct (spec_next_geq_spec S v Hs) as [(H1 & H2 & _)|(H1 & _)].
        + specialize (Hp _ H1). lia.
        + rewrite H1. reflexivity.
      - rewrite zlen_cons in Hf'. pose proof (zlen_nonneg _ T). destruct f as [|f]; [lia|]. cbn [walk].
        rewrite NG by auto. cbn [bind].
        assert (IX : In x S) by (rewrite ES; apply in_or_app; right; now left).
        assert (EX : spec_next_geq S v = x).
        { destruct (spec_next_geq_spec S v Hs) as [(H1 & H2 & H3)|(H1 & H2)].
          - pose proof (H3 x IX (HT x (in_eq _ _))) as L.
            rewrite ES in H1. apply in_app_or in H1 as [H1|[H1|H1]]; rewrite <- ES in H1.
            + specialize (Hp _ H1). lia.
            + auto.
            + rewrite ES in Hs. apply sorted_app_inv in Hs as (_ & Hs & _). apply sorted_inv in Hs as [_ Hs].
              rewrite Forall_forall in Hs. specialize (Hs _ H1). lia.
          - specialize (H2 x IX). specialize (HT x (in_eq _ _)). lia. }
        rewrite EX. pose proof (Hr x IX) as Rx. destruct (Z.eqb_spec x 4294967295); [lia|].
        rewrite (IH (pre ++ [x])); auto.
        + now rewrite <- app_assoc.
        + unfold is_u32. lia.
        + intros y Hy. apply in_app_or in Hy as [Hy|[<-|[]]]; [|lia].
          specialize (Hp y Hy). specialize (HT x (in_eq _ _)). lia.
        + intros y Hy. rewrite ES in Hs. apply sorted_app_inv in Hs as (_ & Hs & _).
          apply sorted_inv in Hs as [_ Hs]. rewrite Forall_forall in Hs. specialize (Hs _ Hy). lia.
        + lia. }
    apply (G S [] 0); auto.
    + unfold is_u32. lia.
    + intros x [].
    + intros x Hx. apply Hr in Hx. lia.
Qed.

(** ** C24 *)
Lemma c24_prefix_free : forall dbg dbg' S T enc rest,
  valid S -> valid T -> encoding dbg S enc -> encoding dbg' T (enc ++ rest) -> S = T /\ rest = [].
Proof.
  intros dbg dbg' S T enc rest V V' E E'.
  assert (H : S = T).
  { set (mem := (enc ++ rest) ++ repeat 0 31).
    assert (B : bytes_at mem 0 enc).
    { intros i Hi. unfold mem. rewrite Z.add_0_l, !znth_app_l; auto; try lia.
      rewrite zlen_app. pose proof (zlen_nonneg _ rest). lia. }
    assert (B' : bytes_at mem 0 (enc ++ rest)).
    { intros i Hi. unfold mem. rewrite Z.add_0_l, znth_app_l; auto. lia. }
    assert (LM : zlen mem = zlen enc + zlen rest + 31) by (unfold mem; rewrite !zlen_app; reflexivity).
    pose proof (zlen_nonneg _ rest) as LR.
    set (buf := repeat 0 (Z.to_nat (zlen S + zlen T + 23))).
    pose proof (zlen_nonneg _ S). pose proof (zlen_nonneg _ T).
    assert (LB : zlen buf = zlen S + zlen T + 23).
    { unfold buf, zlen at 1. rewrite repeat_length. lia. }
    destruct (decode_ok false mem 0 S buf 0 V) as (s & b & R & D & W).
    { exists dbg, enc. repeat split; auto. lia. } { lia. } { lia. }
    destruct (decode_ok false mem 0 T buf 0 V') as (s' & b' & R' & D' & W').
    { exists dbg', (enc ++ rest). repeat split; auto. rewrite zlen_app. lia. } { lia. } { lia. }
    assert (s' = s) by congruence. subst s'. rewrite D in D'. injection D' as <- EL.
    destruct W as (_ & W & _). destruct W' as (_ & W' & _).
    apply znth_ext; [lia|]. intros i Hi. rewrite <- W, <- W' by lia. reflexivity. }
  split; auto. subst T.
  rewrite (encoding_layout _ _ _ V E) in E'. apply encoding_layout in E'; auto.
  rewrite <- (app_nil_r (layout (chunks_of S))) in E' at 2. now apply app_inv_head in E'.
Qed.
Lemma c24_append : forall S, valid S ->
  exists enc, forall dbg out, exists stats, builder_build dbg out S = (Ok stats, out ++ enc).
Proof.
  intros S V. exists (layout (chunks_of S)). intros dbg out.
  destruct (builder_ok dbg out S V) as (st & m & _ & E & _). eauto.
Qed.

(** ** C26 *)
Lemma isect_skip_l x a b : ~ In x b -> isect (x :: a) b = isect a b.
Proof.
  intro H. unfold isect. cbn [filter]. destruct (memb b x) eqn:E; auto. apply memb_In in E. tauto.
Qed.
Lemma isect_skip_r y a b : ~ In y a -> isect a (y :: b) = isect a b.
Proof.
  intro H. unfold isect. apply filter_ext_in. intros x Hx.
  destruct (memb (y :: b) x) eqn:E1, (memb b x) eqn:E2; auto.
  - apply memb_In in E1 as [->|E1]; [tauto|]. apply memb_In in E1. congruence.
  - apply memb_In in E2. rewrite (proj2 (memb_In (y :: b) x)) in E1; [discriminate|now right].
Qed.
Lemma card_law a : forall b, StronglySorted Z.lt a -> StronglySorted Z.lt b ->
  zlen (isect a b) + zlen (uni a b) = zlen a + zlen b.
Proof.
  induction a as [|u a IHa]; [intros b _ _; rewrite uni_nil_l; reflexivity|].
  induction b as [|v b IHb]; intros Ha Hb; [rewrite uni_nil_r, isect_nil_r; unfold zlen; cbn [length]; lia|].
  rewrite uni_cons. pose proof (sorted_inv _ _ Ha) as [Ha' Fa]. pose proof (sorted_inv _ _ Hb) as [Hb' Fb].
  rewrite Forall_forall in Fa, Fb. rewrite !(zlen_cons _ u), !(zlen_cons _ v).
  destruct (Z.ltb_spec u v).
  - rewrite isect_skip_l; [|intros [E|H']; [lia|specialize (Fb u H'); lia]].
    rewrite zlen_cons. specialize (IHa (v :: b) Ha' Hb). rewrite zlen_cons in IHa. lia.
  - destruct (Z.ltb_spec v u).
    + rewrite isect_skip_r; [|intros [E|H']; [lia|specialize (Fa v H'); lia]].
      rewrite zlen_cons. specialize (IHb Ha Hb'). rewrite zlen_cons in IHb. lia.
    + assert (u = v) by lia. subst v. specialize (IHa b Ha' Hb').
      assert (E : isect (u :: a) (u :: b) = u :: isect a b).
      { unfold isect at 1. cbn [filter]. rewrite (proj2 (memb_In (u :: b) u) (in_eq _ _)). f_equal.
        apply isect_skip_r. intro H'. specialize (Fa u H'). lia. }
      rewrite E, !zlen_cons. lia.
Qed.
Lemma valid_isect S T : valid S -> isect S T <> [] -> valid (isect S T).
Proof.
  intros (N & Hs & Hr) H. split; auto. split; [now apply sorted_isect|].
  rewrite Forall_forall in *. intros x Hx. apply In_isect in Hx as [Hx _]. auto.
Qed.
Lemma valid_uni S T : valid S -> valid T -> valid (uni S T).
Proof.
  intros (N & Hs & Hr) (N' & Hs' & Hr'). split; [|split; [now apply sorted_uni|]].
  - destruct S as [|x S]; [congruence|]. intro E. assert (In x (uni (x :: S) T)) by (apply In_uni; left; now left).
    now rewrite E in H.
  - rewrite Forall_forall in *. intros x Hx. apply In_uni in Hx as [Hx|Hx]; auto.
Qed.
Lemma stored_31_0 mem a S : stored 31 mem a S -> stored 0 mem a S.
Proof. intro H. eapply stored_weaken; [exact H|lia]. Qed.
Lemma wrote_gives k buf pos e buf' : wrote k buf pos e buf' -> gives pos (Ok (buf', zlen e)) e.
Proof. intros (_ & W & _). exists buf'. auto. Qed.
Lemma gives_unique pos r l l' : gives pos r l -> gives pos r l' -> l = l'.
Proof.
  intros (b & E & H) (b' & E' & H'). rewrite E in E'. injection E' as <- L.
  apply znth_ext; auto. intros i Hi. rewrite <- H, <- H' by lia. reflexivity.
Qed.

Lemma inter_gives tbl mem a b S T : shuffle_table_ok tbl -> valid S -> valid T ->
  stored 31 mem a S -> stored 31 mem b T ->
  forall s t dbg x out pos, seq_at mem a = Ok s -> seq_at mem b = Ok t ->
    zlen x = 1024 -> 0 <= pos -> pos + zlen (isect S T) + 23 <= zlen out ->
    gives pos (let! (_, o, n) := pairwise_intersection tbl dbg mem s t x out pos in Ok (o, n)) (isect S T).
Proof.
  intros Ht VS VT SS ST s t dbg x out pos Es Et Hx Hp Ho.
  destruct (c11_intersection tbl mem a b S T Ht VS VT SS ST) as (e & En & H).
  rewrite (isect_unique S T e) in H; [|apply VS|apply En|apply En].
  destruct (H dbg x out pos Hx Hp Ho) as (s' & t' & x' & o' & E1 & E2 & R & _ & W).
  assert (s' = s) by congruence. assert (t' = t) by congruence. subst s' t'. rewrite R. cbn [bind].
  eapply wrote_gives. eauto.
Qed.
Lemma union_gives mem a b S T : valid S -> valid T ->
  stored 31 mem a S -> stored 31 mem b T -> apart a S b T ->
  forall s t dbg x y out pos, seq_at mem a = Ok s -> seq_at mem b = Ok t ->
    zlen x = 4 -> zlen y = 1024 -> 0 <= pos -> pos + zlen (uni S T) + 23 <= zlen out ->
    gives pos (let! (_, _, o, n) := pairwise_union dbg mem s t x y out pos in Ok (o, n)) (uni S T).
Proof.
  intros VS VT SS ST Ap s t dbg x y out pos Es Et Hx Hy Hp Ho.
  destruct (c12_union mem a b S T VS VT SS ST Ap) as (e & En & H).
  rewrite (uni_unique S T e) in H; [|apply VS|apply VT|apply En|apply En].
  destruct (H dbg x y out pos Hx Hy Hp Ho) as (s' & t' & x' & y' & o' & E1 & E2 & R & _ & _ & W).
  assert (s' = s) by congruence. assert (t' = t) by congruence. subst s' t'. rewrite R. cbn [bind].
  eapply wrote_gives. eauto.
Qed.
Lemma apart_sym a S b T : apart a S b T -> apart b T a S.
Proof.
  intros [H|(d & e & f & E & F & H)]; [left; auto|]. right. exists d, f, e. repeat split; auto. tauto.
Qed.

Lemma c26_pairwise : forall tbl mem a b S T,
  shuffle_table_ok tbl -> valid S -> valid T -> stored 31 mem a S -> stored 31 mem b T -> apart a S b T ->
  exists s t i u, seq_at mem a = Ok s /\ seq_at mem b = Ok t
    /\ zlen i + zlen u = zlen S + zlen T /\ (i <> [] -> valid i) /\ valid u
    /\ forall dbg x y z out pos,
         zlen x = 1024 -> zlen y = 4 -> zlen z = 1024 -> 0 <= pos -> pos + zlen u + 23 <= zlen out ->
         let inter p q := let! (_, o, n) := pairwise_intersection tbl dbg mem p q x out pos in Ok (o, n) in
         let union p q := let! (_, _, o, n) := pairwise_union dbg mem p q y z out pos in Ok (o, n) in
         gives pos (inter s t) i /\ gives pos (inter t s) i
         /\ gives pos (union s t) u /\ gives pos (union t s) u
         /\ gives pos (decode dbg mem s out pos) S
         /\ gives pos (inter s s) S /\ gives pos (union s s) S.
Proof.
  intros tbl mem a b S T Ht VS VT SS ST Ap.
  destruct (c04_size mem a S VS (stored_31_0 _ _ _ SS)) as (s & Es & _).
  destruct (c04_size mem b T VT (stored_31_0 _ _ _ ST)) as (t & Et & _).
  pose proof (proj1 (proj2 VS)) as HS. pose proof (proj1 (proj2 VT)) as HT.
  exists s, t, (isect S T), (uni S T). split; auto. split; auto. split; [now apply card_law|].
  split; [now apply valid_isect|]. split; [now apply valid_uni|].
  intros dbg x y z out pos Hx Hy Hz Hp Ho inter union.
  assert (LI : zlen (isect S T) <= zlen (uni S T)).
  { apply sorted_incl_len; [now apply sorted_isect|]. intros v Hv. apply In_isect in Hv. apply In_uni. tauto. }
  assert (LS : zlen S <= zlen (uni S T)).
  { apply sorted_incl_len; auto. intros v Hv. apply In_uni. tauto. }
  split; [eapply inter_gives; eauto; lia|].
  split; [rewrite isect_comm by auto; eapply inter_gives; eauto; rewrite isect_comm by auto; lia|].
  split; [eapply union_gives; eauto|].
  split; [rewrite uni_comm by auto; eapply union_gives; eauto using apart_sym; rewrite uni_comm by auto; lia|].
  split; [|split].
  - destruct (decode_ok dbg mem a S out pos VS SS Hp) as (s' & b' & E & D & W); [lia|].
    assert (s' = s) by congruence. subst s'. rewrite D. eapply wrote_gives; eauto.
  - rewrite <- (isect_same S) at 1. eapply inter_gives; eauto. rewrite isect_same. lia.
  - rewrite <- (uni_same S) at 1 by auto. eapply union_gives; eauto; [left; auto|]. rewrite uni_same by auto. lia.
Qed.

Lemma c26_chain_intersection : forall tbl mem a S d D addrs Ss seqs seqs' dbg headers tmp bitmap out pos,
  shuffle_table_ok tbl -> Ss <> [] -> Forall valid Ss -> Forall2 (stored 0 mem) addrs Ss ->
  Forall2 (fun a s => seq_at mem a = Ok s) addrs seqs -> sort_outcome mem seqs seqs' ->
  zlen headers = 65536 -> zlen tmp = 1024 -> zlen bitmap = 1024 ->
  0 <= pos -> pos + zlen (hd [] Ss) <= zlen out ->
  gives pos (let! (_, _, _, o, n) := intersection_sorted dbg mem seqs' headers tmp bitmap out pos in Ok (o, n)) D ->
  D <> [] -> stored 31 mem d D -> valid S -> stored 31 mem a S ->
  exists s t e, seq_at mem a = Ok s /\ seq_at mem d = Ok t /\ zlen e <= zlen S
    /\ forall dbg x headers tmp bitmap out pos all,
         zlen x = 1024 -> zlen headers = 65536 -> zlen tmp = 1024 -> zlen bitmap = 1024 ->
         0 <= pos -> pos + zlen e + 23 <= zlen out -> sort_outcome mem (s :: seqs) all ->
         gives pos (let! (_, o, n) := pairwise_intersection tbl dbg mem s t x out pos in Ok (o, n)) e
         /\ gives pos (let! (_, _, _, o, n) := intersection_sorted dbg mem all headers tmp bitmap out pos in Ok (o, n)) e.
Proof.
  intros tbl mem a S d D addrs Ss seqs seqs' dbg headers tmp bitmap out pos
    Ht NE FV FS FQ SO Hh Htm Hb Hp Ho GD ND SD VS SS.
  destruct (c13_intersection_many mem addrs Ss NE FV FS) as (q & e0 & Eq & En & _ & Run).
  assert (q = seqs) by (eapply reads_unique; eauto). subst q.
  assert (VH : forall S, In S Ss -> valid S) by now apply Forall_forall.
  assert (ED : D = e0).
  { assert (L0 : zlen e0 <= zlen (hd [] Ss)).
    { destruct Ss as [|S0 Ss]; [congruence|]. cbn [hd]. apply sorted_incl_len; [apply En|].
      intros v Hv. exact (proj1 (proj2 En v) Hv S0 (in_eq _ _)). }
    destruct (Run seqs' SO dbg headers tmp bitmap out pos Hh Htm Hb Hp ltac:(lia))
      as (h' & t' & b' & o' & R & _ & _ & _ & W).
    rewrite R in GD. cbn [bind] in GD. eapply gives_unique; [exact GD|]. eapply wrote_gives; eauto. }
  subst e0.
  assert (VD : valid D).
  { split; auto. split; [apply En|]. rewrite Forall_forall. intros v Hv. pose proof (proj1 (proj2 En v) Hv) as Hv'.
    destruct Ss as [|S0 Ss]; [congruence|]. specialize (Hv' S0 (in_eq _ _)).
    destruct (VH S0 (in_eq _ _)) as (_ & _ & F). rewrite Forall_forall in F. auto. }
  destruct (c04_size mem a S VS (stored_31_0 _ _ _ SS)) as (s & Es & _).
  destruct (c04_size mem d D VD (stored_31_0 _ _ _ SD)) as (t & Et & _).
  exists s, t, (isect S D). split; auto. split; auto. split.
  { apply sorted_incl_len; [apply sorted_isect, VS|]. intros v Hv. now apply In_isect in Hv. }
  clear dbg headers tmp bitmap out pos Hh Htm Hb Hp Ho GD.
  intros dbg x headers tmp bitmap out pos all Hx Hh Htm Hb Hp Ho SA. split; [eapply inter_gives; eauto|].
  destruct (c13_intersection_many mem (a :: addrs) (S :: Ss)) as (q & e1 & Eq1 & En1 & _ & Run1);
    [congruence|now constructor|constructor; auto using stored_31_0|].
  assert (q = s :: seqs) by (eapply reads_unique; [exact Eq1|]; now constructor). subst q.
  assert (EE : e1 = isect S D).
  { apply isect_unique; [apply VS|apply En1|]. intro v. rewrite (proj2 En1 v), (proj2 En v). split.
    - intro H. split; [apply H; now left|]. intros S' H'. apply H. now right.
    - intros [H1 H2] S' [<-|H']; auto. }
  subst e1.
  destruct (Run1 all SA dbg headers tmp bitmap out pos Hh Htm Hb Hp ltac:(lia))
    as (h' & t' & b' & o' & R & _ & _ & _ & W).
  rewrite R. cbn [bind]. eapply wrote_gives; eauto.
Qed.

Lemma c26_chain_union : forall mem a S d D addrs Ss seqs dbg tmp bitmap out pos,
  Ss <> [] -> Forall valid Ss -> Forall2 (stored 0 mem) addrs Ss ->
  Forall2 (fun a s => seq_at mem a = Ok s) addrs seqs ->
  zlen tmp = 1024 -> zlen bitmap = 1024 ->
  0 <= pos -> pos + total zlen Ss <= zlen out ->
  gives pos (let! (_, _, o, n) := union_many dbg mem seqs tmp bitmap out pos in Ok (o, n)) D ->
  stored 31 mem d D -> valid S -> stored 31 mem a S -> apart a S d D ->
  exists s t e, seq_at mem a = Ok s /\ seq_at mem d = Ok t /\ zlen e <= zlen S + zlen D
    /\ forall dbg x y tmp bitmap out pos,
         zlen x = 4 -> zlen y = 1024 -> zlen tmp = 1024 -> zlen bitmap = 1024 ->
         0 <= pos -> pos + zlen e + 23 <= zlen out ->
         gives pos (let! (_, _, o, n) := pairwise_union dbg mem s t x y out pos in Ok (o, n)) e
         /\ gives pos (let! (_, _, o, n) := union_many dbg mem (s :: seqs) tmp bitmap out pos in Ok (o, n)) e.
Proof.
  intros mem a S d D addrs Ss seqs dbg tmp bitmap out pos NE FV FS FQ Htm Hb Hp Ho GD SD VS SS Ap.
  destruct (c14_union_many mem addrs Ss NE FV FS) as (q & e0 & Eq & En & Run).
  assert (q = seqs) by (eapply reads_unique; eauto). subst q.
  assert (VH : forall S, In S Ss -> valid S) by now apply Forall_forall.
  assert (ED : D = e0).
  { assert (L : zlen e0 <= total zlen Ss).
    { apply Z.le_trans with (zlen (concat Ss)).
      - apply sorted_incl_len; [apply En|]. intros x Hx. destruct (proj1 (proj2 En x) Hx) as (S' & HS & HI).
        apply in_concat. eauto.
      - clear. induction Ss as [|S Ss IH]; [reflexivity|]. cbn [concat total fold_right].
        rewrite zlen_app. unfold total in IH. lia. }
    destruct (Run dbg tmp bitmap out pos Htm Hb Hp ltac:(lia)) as (t' & b' & o' & R & _ & _ & W).
    rewrite R in GD. cbn [bind] in GD. eapply gives_unique; [exact GD|]. eapply wrote_gives; eauto. }
  subst e0.
  assert (VD : valid D).
  { split; [|split; [apply En|]].
    - destruct Ss as [|S0 Ss]; [congruence|]. destruct (VH S0 (in_eq _ _)) as (N0 & _).
      destruct S0 as [|v S0]; [congruence|]. intro E.
      assert (I : In v D) by (apply (proj2 En); exists (v :: S0); split; now left). now rewrite E in I.
    - rewrite Forall_forall. intros v Hv. destruct (proj1 (proj2 En v) Hv) as (S' & HS & HI).
      destruct (VH S' HS) as (_ & _ & F). rewrite Forall_forall in F. auto. }
  destruct (c04_size mem a S VS (stored_31_0 _ _ _ SS)) as (s & Es & _).
  destruct (c04_size mem d D VD (stored_31_0 _ _ _ SD)) as (t & Et & _).
  exists s, t, (uni S D). split; auto. split; auto. split.
  { pose proof (card_law S D (proj1 (proj2 VS)) (proj1 (proj2 VD))). pose proof (zlen_nonneg _ (isect S D)). lia. }
  clear dbg tmp bitmap out pos Htm Hb Hp Ho GD.
  intros dbg x y tmp bitmap out pos Hx Hy Htm Hb Hp Ho. split; [eapply union_gives; eauto|].
  destruct (c14_union_many mem (a :: addrs) (S :: Ss)) as (q & e1 & Eq1 & En1 & Run1);
    [congruence|now constructor|constructor; auto using stored_31_0|].
  assert (q = s :: seqs) by (eapply reads_unique; [exact Eq1|]; now constructor). subst q.
  assert (EE : e1 = uni S D).
  { apply uni_unique; [apply VS|apply VD|apply En1|]. intro v. rewrite (proj2 En1 v), (proj2 En v). split.
    - intros (S' & [<-|H] & HI); eauto.
    - intros [H|(S' & H & HI)]; [exists S|exists S']; split; auto; [now left|now right]. }
  subst e1.
  destruct (Run1 dbg tmp bitmap out pos Htm Hb Hp ltac:(lia)) as (t' & b' & o' & R & _ & _ & W).
  rewrite R. cbn [bind]. eapply wrote_gives; eauto.
Qed.
