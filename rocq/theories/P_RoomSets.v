(** C42 and C46 from the lemmas about each operation. *)
From Verif Require Import Base Hw Spec Format Lib L_Bits L_Group Layout M_Util M_Seq M_Decode M_Uncompress
  M_Build M_Intersect M_Union M_Many P_Build1 P_Build2 P_Build3 P_Seq P_Decode P_Query P_Uncompress P_Sets P_Inter P_Union
  P_Many P_Many2 P_Fin1 P_Fin2 P_Fin3 P_Ex P_Format P_Conc
  P_Short P_Stats P_Print Reads P_Reads Room P_Room RoomSets ReadsSets P_RoomMany P_RoomInter P_RoomUnion P_RoomJoin P_ReadsJoin.
From Coq Require Import Lia Permutation.

Lemma mneed_self one two (Two : forall t v, sorted v -> two t v v = t + zlen v) lim : forall A t k,
  0 < k -> wf k lim A -> mneed one two A t A = t + zlen (ungroup k A).
Proof.
  induction A as [|[i v] A IH]; intros t k Hk W.
  - cbn [mneed run]. change (ungroup k []) with (@nil Z). rewrite zlen_nil. lia.
  - apply wf_cons in W as (W1 & W & _). destruct W1 as (_ & _ & Sv & _). cbn [snd] in Sv.
    rewrite mneed_cons, (IH _ k) by auto. destruct (Z.ltb_spec i i); [lia|].
    rewrite ungroup_cons, zlen_app, zlen_ungroup1, (uni_same v Sv), (Two t v Sv). cbn [snd].
    pose proof (zlen_nonneg _ (ungroup k A)). lia.
Qed.
Lemma two_c_self t id a : wfc1 (id, a) -> two_c true t a a = t + zlen a.
Proof.
  intro W. assert (Sa : sorted a) by apply W. unfold two_c. rewrite (uni_same a Sa).
  destruct (kind_of a); auto.
  rewrite Z.ltb_irrefl, (mneed_self one_b (two_b true)) with (lim := 256) (k := 256).
  - now rewrite blocks_ungroup.
  - intros s v Sv. unfold two_b, jneed. now rewrite (uni_same v Sv).
  - lia.
  - eapply Layout.blocks_wf; eauto.
Qed.
Lemma mneed_self_c : forall A t, Forall wfc1 A -> wf 65536 65535 A ->
  mneed chunk_need (two_c true) A t A = t + zlen (ungroup 65536 A).
Proof.
  induction A as [|[i v] A IH]; intros t F W.
  - cbn [mneed run]. change (ungroup 65536 []) with (@nil Z). rewrite zlen_nil. lia.
  - apply wf_cons in W as (W1 & W & _). destruct W1 as (_ & _ & Sv & _). cbn [snd] in Sv.
    inversion F; subst. rewrite mneed_cons, IH by auto. destruct (Z.ltb_spec i i); [lia|].
    rewrite ungroup_cons, zlen_app, zlen_ungroup1, (uni_same v Sv), (two_c_self t i v) by auto. cbn [snd].
    pose proof (zlen_nonneg _ (ungroup 65536 A)). lia.
Qed.

Lemma c46_intersection : forall tbl mem a b S T,
  shuffle_table_ok tbl -> valid S -> valid T -> stored 0 mem a S -> stored 0 mem b T ->
  let s_extra := zlen mem - (a + zlen (f_sequence S)) in
  let t_extra := zlen mem - (b + zlen (f_sequence T)) in
  exists s t e, seq_at mem a = Ok s /\ seq_at mem b = Ok t /\ enumerates (fun v => In v S /\ In v T) e
    /\ forall dbg x out pos, zlen x = 1024 -> 0 <= pos <= zlen out ->
       (meet_fits S T (zlen out - pos) -> meet_reads S T s_extra t_extra -> exists x' out',
          pairwise_intersection tbl dbg mem s t x out pos = Ok (x', out', zlen e)
          /\ zlen x' = 1024 /\ wrote 23 out pos e out')
       /\ (~ (meet_fits S T (zlen out - pos) /\ meet_reads S T s_extra t_extra) ->
             pairwise_intersection tbl dbg mem s t x out pos = UB).
Proof.
  intros tbl mem a b S T Ht VS VT HS HT s_extra t_extra.
  destruct (stored_seq 0 mem a S VS HS ltac:(lia)) as (s & Es & _).
  destruct (stored_seq 0 mem b T VT HT ltac:(lia)) as (t & Et & _).
  exists s, t, (isect S T). split; auto. split; auto. split.
  { split; [apply sorted_isect; apply VS|]. intro. apply In_isect. }
  intros dbg x out pos Hx Hp.
  destruct (pairwise_intersection_exact tbl dbg mem a b S T x out pos) as (s' & t' & Es' & Et' & R); auto.
  assert (s' = s) by congruence. assert (t' = t) by congruence. subst. fold s_extra t_extra in R.
  destruct R as [(F & G & R)|(N & R)]; split.
  - auto.
  - intro N. exfalso. auto.
  - intros F G. exfalso. auto.
  - auto.
Qed.

Lemma c46_union : forall mem a b S T,
  valid S -> valid T -> stored 0 mem a S -> stored 0 mem b T -> apart a S b T -> a <> b ->
  let s_extra := zlen mem - (a + zlen (f_sequence S)) in
  let t_extra := zlen mem - (b + zlen (f_sequence T)) in
  exists s t e, seq_at mem a = Ok s /\ seq_at mem b = Ok t /\ enumerates (fun v => In v S \/ In v T) e
    /\ forall dbg x y out pos, zlen x = 4 -> zlen y = 1024 -> 0 <= pos <= zlen out ->
       (join_fits S T (zlen out - pos) -> join_reads S T s_extra t_extra -> exists x' y' out',
          pairwise_union dbg mem s t x y out pos = Ok (x', y', out', zlen e)
          /\ zlen x' = 4 /\ zlen y' = 1024 /\ wrote 23 out pos e out')
       /\ (~ (join_fits S T (zlen out - pos) /\ join_reads S T s_extra t_extra) ->
             pairwise_union dbg mem s t x y out pos = UB).
Proof.
  intros mem a b S T VS VT HS HT HA NE s_extra t_extra.
  destruct (stored_seq 0 mem a S VS HS ltac:(lia)) as (s & Es & _ & Vs & _).
  destruct (stored_seq 0 mem b T VT HT ltac:(lia)) as (t & Et & _ & Vt & _).
  exists s, t, (uni S T). split; auto. split; auto. split.
  { split; [apply sorted_uni; [apply VS|apply VT]|]. intro. apply In_uni. }
  intros dbg x y out pos Hx Hy Hp. destruct HA as [HA|HA]; [congruence|].
  destruct (pairwise_union_exact false dbg mem a b S T x y out pos) as (s' & t' & x' & y' & Es' & Et' & Hx' & Hy' & R);
    auto; try lia.
  assert (s' = s) by congruence. assert (t' = t) by congruence. subst.
  unfold s_extra, t_extra. rewrite <- (seq_begin_end mem a S s VS HS Es), <- (seq_begin_end mem b T t VT HT Et).
  destruct Vs as (_ & _ & _ & LS). destruct Vt as (_ & _ & _ & LT).
  rewrite (join_fits_iff S T _ pos VS VT), (join_reads_iff S T (zlen mem)) by (auto; apply zlen_nonneg || lia).
  destruct R as [(C1 & C2 & out' & R & W)|(C & R)]; split.
  - intros _ _. exists x', y', out'. auto.
  - intro N. exfalso. auto.
  - intros. exfalso. lia.
  - auto.
Qed.

Lemma c46_union_self : forall mem a S, valid S -> stored 0 mem a S ->
  exists s, seq_at mem a = Ok s
    /\ forall dbg x y out pos, zlen x = 4 -> zlen y = 1024 -> 0 <= pos <= zlen out ->
       (pos + zlen S <= zlen out -> exists x' y' out',
          pairwise_union dbg mem s s x y out pos = Ok (x', y', out', zlen S)
          /\ zlen x' = 4 /\ zlen y' = 1024 /\ wrote 23 out pos S out')
       /\ (zlen out < pos + zlen S -> pairwise_union dbg mem s s x y out pos = UB).
Proof.
  intros mem a S VS HS.
  destruct (stored_seq 0 mem a S VS HS ltac:(lia)) as (s & Es & _ & Vs & _).
  exists s. split; auto. intros dbg x y out pos Hx Hy Hp.
  destruct (pairwise_union_exact true dbg mem a a S S x y out pos) as (s' & t' & x' & y' & Es' & Et' & Hx' & Hy' & R);
    auto; try lia.
  assert (s' = s) by congruence. assert (t' = s) by congruence. subst.
  destruct (valid_chunks S VS) as (W & _ & US & _). destruct Vs as (_ & _ & _ & LS).
  rewrite mneed_self_c in R; auto; [|apply W].
  rewrite US, uni_same in R by apply VS.
  pose proof (reach_self (chunks_of S) (i_data (seq_begin s))). pose proof (zlen_nonneg _ mem).
  destruct R as [(C1 & C2 & out' & R & Wr)|(C & R)]; split.
  - intros _. exists x', y', out'. auto.
  - intro. exfalso. lia.
  - intro. exfalso. lia.
  - auto.
Qed.

Lemma c46_enough : forall S T s t, valid S -> valid T -> 31 <= s -> 31 <= t -> meet_reads S T s t /\ join_reads S T s t.
Proof. intros. split; [now apply meet_reads_enough|now apply join_reads_enough]. Qed.

Lemma c42_intersection : forall tbl mem a b S T,
  shuffle_table_ok tbl -> valid S -> valid T -> stored 31 mem a S -> stored 31 mem b T ->
  exists s t e, seq_at mem a = Ok s /\ seq_at mem b = Ok t /\ enumerates (fun v => In v S /\ In v T) e
    /\ forall dbg x out pos, zlen x = 1024 -> 0 <= pos <= zlen out ->
       (meet_fits S T (zlen out - pos) -> exists x' out',
          pairwise_intersection tbl dbg mem s t x out pos = Ok (x', out', zlen e)
          /\ zlen x' = 1024 /\ wrote 23 out pos e out')
       /\ (~ meet_fits S T (zlen out - pos) -> pairwise_intersection tbl dbg mem s t x out pos = UB).
Proof.
  intros tbl mem a b S T Ht VS VT HS HT.
  pose proof (stored_extra 31 mem a S VS ltac:(lia) HS). pose proof (stored_extra 31 mem b T VT ltac:(lia) HT).
  destruct (c46_intersection tbl mem a b S T) as (s & t & e & Es & Et & En & K); auto; try (eapply stored_weaken; eauto; lia).
  exists s, t, e. split; auto. split; auto. split; auto. intros dbg x out pos Hx Hp.
  destruct (K dbg x out pos Hx Hp) as [K1 K2]. split.
  - intro F. apply K1; auto. apply meet_reads_enough; auto; lia.
  - intro N. apply K2. tauto.
Qed.

Lemma c42_union : forall mem a b S T,
  valid S -> valid T -> stored 31 mem a S -> stored 31 mem b T -> apart a S b T -> a <> b ->
  exists s t e, seq_at mem a = Ok s /\ seq_at mem b = Ok t /\ enumerates (fun v => In v S \/ In v T) e
    /\ forall dbg x y out pos, zlen x = 4 -> zlen y = 1024 -> 0 <= pos <= zlen out ->
       (join_fits S T (zlen out - pos) -> exists x' y' out',
          pairwise_union dbg mem s t x y out pos = Ok (x', y', out', zlen e)
          /\ zlen x' = 4 /\ zlen y' = 1024 /\ wrote 23 out pos e out')
       /\ (~ join_fits S T (zlen out - pos) -> pairwise_union dbg mem s t x y out pos = UB).
Proof.
  intros mem a b S T VS VT HS HT HA NE.
  pose proof (stored_extra 31 mem a S VS ltac:(lia) HS). pose proof (stored_extra 31 mem b T VT ltac:(lia) HT).
  destruct (c46_union mem a b S T) as (s & t & e & Es & Et & En & K); auto; try (eapply stored_weaken; eauto; lia).
  exists s, t, e. split; auto. split; auto. split; auto. intros dbg x y out pos Hx Hy Hp.
  destruct (K dbg x y out pos Hx Hy Hp) as [K1 K2]. split.
  - intro F. apply K1; auto. apply join_reads_enough; auto; lia.
  - intro N. apply K2. tauto.
Qed.

Lemma c42_union_self : forall mem a S, valid S -> stored 31 mem a S ->
  exists s, seq_at mem a = Ok s
    /\ forall dbg x y out pos, zlen x = 4 -> zlen y = 1024 -> 0 <= pos <= zlen out ->
       (pos + zlen S <= zlen out -> exists x' y' out',
          pairwise_union dbg mem s s x y out pos = Ok (x', y', out', zlen S)
          /\ zlen x' = 4 /\ zlen y' = 1024 /\ wrote 23 out pos S out')
       /\ (zlen out < pos + zlen S -> pairwise_union dbg mem s s x y out pos = UB).
Proof. intros mem a S VS HS. apply c46_union_self; auto. eapply stored_weaken; eauto; lia. Qed.

Lemma c42_intersection_many : forall mem addrs Ss,
  Ss <> [] -> Forall valid Ss -> Forall2 (stored 0 mem) addrs Ss ->
  exists seqs e, Forall2 (fun a s => seq_at mem a = Ok s) addrs seqs
    /\ enumerates (fun v => forall S, In S Ss -> In v S) e
    /\ forall seqs', sort_outcome mem seqs seqs' ->
       forall dbg headers tmp bitmap out pos,
       zlen headers = 65536 -> zlen tmp = 1024 -> zlen bitmap = 1024 -> 0 <= pos <= zlen out ->
       (pos + zlen e <= zlen out -> exists headers' tmp' bitmap' out',
          intersection_sorted dbg mem seqs' headers tmp bitmap out pos = Ok (headers', tmp', bitmap', out', zlen e)
          /\ wrote 0 out pos e out')
       /\ (zlen out < pos + zlen e -> intersection_sorted dbg mem seqs' headers tmp bitmap out pos = UB).
Proof.
  intros mem addrs Ss N V St.
  destruct (c13_intersection_many mem addrs Ss N V St) as (seqs & e & E & En & _ & K).
  exists seqs, e. split; auto. split; auto. intros seqs' SO dbg headers tmp bitmap out pos Hh Ht Hb Hp. split; intro Ho.
  - destruct (K seqs' SO dbg headers tmp bitmap out pos) as (h' & t' & b' & o' & R & _ & _ & _ & W); auto; try lia.
    exists h', t', b', o'. auto.
  - destruct SO as [P _]. pose proof (F2_common _ _ _ _ _ _ _ _ E St) as F.
    destruct (F2_perm _ _ _ _ _ P _ F) as (Ss' & PS & F').
    apply F2_middle in F' as (addrs' & E' & St').
    destruct (intersection_sorted_room mem addrs' Ss') as (seqs1 & e1 & E1 & En1 & K').
    { intros ->. apply N. apply Permutation_nil. now apply Permutation_sym. }
    { exact (Permutation_Forall PS V). }
    { exact St'. }
    assert (seqs1 = seqs') as -> by exact (reads_unique _ _ _ _ E1 E').
    assert (e1 = e) as ->; [|now apply K'].
    eapply enumerates_unique; [exact En1|]. destruct En as [X Y]. split; auto.
    intro x. rewrite Y. split; intros H S HS; apply H.
    + exact (Permutation_in S (Permutation_sym PS) HS).
    + exact (Permutation_in S PS HS).
Qed.

Lemma c42_union_many : forall mem addrs Ss,
  Ss <> [] -> Forall valid Ss -> Forall2 (stored 0 mem) addrs Ss ->
  exists seqs e, Forall2 (fun a s => seq_at mem a = Ok s) addrs seqs
    /\ enumerates (fun v => exists S, In S Ss /\ In v S) e
    /\ forall dbg tmp bitmap out pos,
       zlen tmp = 1024 -> zlen bitmap = 1024 -> 0 <= pos <= zlen out ->
       (pos + zlen e <= zlen out -> exists tmp' bitmap' out',
          union_many dbg mem seqs tmp bitmap out pos = Ok (tmp', bitmap', out', zlen e) /\ wrote 0 out pos e out')
       /\ (zlen out < pos + zlen e -> union_many dbg mem seqs tmp bitmap out pos = UB).
Proof.
  intros mem addrs Ss N V St. destruct (union_many_ok mem addrs Ss N V St) as (seqs & E & K).
  destruct (union_many_room mem addrs Ss N V St) as (seqs' & E' & K').
  assert (seqs' = seqs) as -> by exact (reads_unique _ _ _ _ E' E).
  exists seqs, (unis Ss). split; auto. split.
  { split; [apply sorted_unis, valid_sorted; auto|]. intro x. apply In_unis. now apply valid_sorted. }
  intros dbg tmp bitmap out pos Ht Hb Hp. split; intro Ho; [|now apply K'].
  destruct (K dbg tmp bitmap out pos) as (t' & b' & o' & R & _ & _ & W); auto; try lia. exists t', b', o'. auto.
Qed.

(** 23 words more than the result are always enough *)
Lemma two_stored S T : valid S -> valid T -> exists mem a b,
  stored 31 mem a S /\ stored 31 mem b T /\ apart a S b T /\ a <> b.
Proof.
  intros VS VT. pose proof (encoding_ok false S VS) as ES. pose proof (encoding_ok false T VT) as ET.
  set (eS := snd (builder_build false [] S)) in *. set (eT := snd (builder_build false [] T)) in *.
  exists ([] ++ eS ++ ([0] ++ eT ++ repeat 0 31)), (zlen (@nil Z)), (zlen (eS ++ [0])).
  assert (L : zlen (repeat 0 31) = 31) by reflexivity. pose proof (zlen_nonneg _ eS). pose proof (zlen_nonneg _ eT).
  split; [|split; [|split]].
  - eapply stored_mid; eauto. rewrite !zlen_app, L, zlen_cons, zlen_nil. lia.
  - replace ([] ++ eS ++ ([0] ++ eT ++ repeat 0 31)) with ((eS ++ [0]) ++ eT ++ repeat 0 31) by (now rewrite <- !app_assoc).
    eapply stored_mid; eauto. lia.
  - right. exists false, eS, eT. split; auto. split; auto. left. rewrite zlen_app, zlen_nil, zlen_cons, zlen_nil. lia.
  - rewrite zlen_app, zlen_cons, zlen_nil. lia.
Qed.

Lemma chunk_fits_dec n t a b : chunk_fits n t a b \/ ~ chunk_fits n t a b.
Proof.
  unfold chunk_fits. destruct (kind_of a), (kind_of b); try lia.
  apply fitsg_dec. intros s u v. unfold PB. lia.
Qed.
Lemma c42_enough : forall S T e n, valid S -> valid T ->
  (enumerates (fun v => In v S /\ In v T) e -> zlen e + 23 <= n -> meet_fits S T n)
  /\ (enumerates (fun v => In v S \/ In v T) e -> zlen e + 23 <= n -> join_fits S T n).
Proof.
  intros S T e n VS VT. destruct (two_stored S T VS VT) as (mem & a & b & SS & ST & AP & NE).
  pose proof (zlen_nonneg _ e). split; intros En Hn.
  - destruct (fitsg_dec 65536 n (chunk_fits n) 0 (chunks_of S) (chunks_of T)) as [F|F].
    { intros. apply chunk_fits_dec. }
    + apply meet_fits_iff in F; auto. now rewrite Z.sub_0_r in F.
    + rewrite <- meet_fits_iff in F by auto. rewrite Z.sub_0_r in F. exfalso.
      destruct (c11_intersection ex_tbl mem a b S T) as (e' & En' & K); auto using ex_tbl_ok.
      rewrite (enumerates_unique _ _ _ En' En) in K.
      destruct (c42_intersection ex_tbl mem a b S T) as (s & t & e2 & Es & Et & _ & K2); auto using ex_tbl_ok.
      set (x := repeat 0 (Z.to_nat 1024)). set (out := repeat 0 (Z.to_nat n)).
      assert (Lx : zlen x = 1024) by (unfold x; rewrite zlen_repeat; lia).
      assert (Lo : zlen out = n) by (unfold out; rewrite zlen_repeat; lia).
      destruct (K true x out 0) as (s' & t' & x' & out' & Es' & Et' & R & _); auto; try lia.
      destruct (K2 true x out 0) as (_ & U); auto; try lia. rewrite Lo, Z.sub_0_r in U. specialize (U F). congruence.
  - destruct (Z_le_gt_dec (mneed chunk_need (two_c false) (chunks_of S) 0 (chunks_of T)) n) as [F|F].
    + apply join_fits_iff in F; auto. now rewrite Z.sub_0_r in F.
    + exfalso. assert (F' : ~ join_fits S T (n - 0)) by (rewrite (join_fits_iff S T n 0 VS VT); lia). rewrite Z.sub_0_r in F'.
      destruct (c12_union mem a b S T) as (e' & En' & K); auto.
      rewrite (enumerates_unique _ _ _ En' En) in K.
      destruct (c42_union mem a b S T) as (s & t & e2 & Es & Et & _ & K2); auto.
      set (x := repeat 0 (Z.to_nat 4)). set (y := repeat 0 (Z.to_nat 1024)). set (out := repeat 0 (Z.to_nat n)).
      assert (Lx : zlen x = 4) by (unfold x; rewrite zlen_repeat; lia).
      assert (Ly : zlen y = 1024) by (unfold y; rewrite zlen_repeat; lia).
      assert (Lo : zlen out = n) by (unfold out; rewrite zlen_repeat; lia).
      destruct (K true x y out 0) as (s' & t' & x' & y' & out' & Es' & Et' & R & _); auto; try lia.
      destruct (K2 true x y out 0) as (_ & U); auto; try lia. rewrite Lo, Z.sub_0_r in U. specialize (U F'). congruence.
Qed.
