(** The encoder, part 3: skip pointers, the whole sequence, the values that are
    not stored, duplicates. *)
From Verif Require Import Base Hw Spec Lib L_Bits L_Group Layout M_Util M_Build P_Build1 P_Build2.

(** ** skip pointers *)
Lemma sum_card_le cs : Forall wfc1 cs -> sum_card cs <= 65536 * zlen cs.
Proof.
  induction cs as [|[id c] cs IH]; intro H; [cbn; lia|]. inversion H; subst.
  specialize (IH H3). pose proof (chunk_card _ _ H2). cbn [sum_card fold_right snd].
  fold (sum_card cs). zl.
Qed.
Lemma zlen_cdatas_le cs : Forall wfc1 cs -> zlen (cdatas cs) <= 8192 * zlen cs.
Proof.
  induction cs as [|[id c] cs IH]; intro H; [cbn; lia|]. inversion H; subst.
  specialize (IH H3). pose proof (zlen_chunk_data _ _ H2). rewrite cdatas_cons. cbn [snd]. zl.
Qed.

Lemma pointer_loop_ok cs1 : forall pre cs2 c o,
  Forall wfc1 cs1 -> zlen pre + 4 * zlen cs1 < 4294967200 -> 0 <= c -> 0 <= o ->
  c + 65536 * zlen cs1 < 4294967296 -> o + 8192 * zlen cs1 < 4294967296 ->
  pointer_loop (length cs1) (pre ++ chdrs (cs1 ++ cs2)) (zlen pre) c o
  = Ok (c + sum_card cs1, o + zlen (cdatas cs1)).
Proof.
  induction cs1 as [|[id v] cs1 IH]; intros pre cs2 c o Hw Hp Hc Ho Hc' Ho'; cbn [length pointer_loop].
  - cbn. do 2 f_equal; lia.
  - inversion Hw; subst. pose proof (chunk_card _ _ H1). pose proof (zlen_chunk_data _ _ H1).
    rewrite zlen_cons in *. zpos. rewrite !u32_id by lia.
    cbn [app]. rewrite chdrs_cons. unfold chunk_hdr. cbn [fst snd].
    assert (E1 : znth (pre ++ [id; zlen v - 1; chunk_type v; zlen (chunk_data v)] ++ chdrs (cs1 ++ cs2))
              (zlen pre + 1) = Some (zlen v - 1)).
    { rewrite znth_app_r by lia. replace (zlen pre + 1 - zlen pre) with 1 by lia. reflexivity. }
    assert (E3 : znth (pre ++ [id; zlen v - 1; chunk_type v; zlen (chunk_data v)] ++ chdrs (cs1 ++ cs2))
              (zlen pre + 3) = Some (zlen (chunk_data v))).
    { rewrite znth_app_r by lia. replace (zlen pre + 3 - zlen pre) with 3 by lia. reflexivity. }
    unfold vget. rewrite E1, E3. cbn [bind].
    rewrite !u32_id by lia.
    replace (zlen pre + 4) with (zlen (pre ++ [id; zlen v - 1; chunk_type v; zlen (chunk_data v)]))
      by (rewrite zlen_app; reflexivity).
    rewrite app_assoc. rewrite IH; auto; try (rewrite ?zlen_app; unfold zlen at 2; cbn; lia); try lia.
    + cbn [sum_card fold_right snd]. fold (sum_card cs1). rewrite cdatas_cons, zlen_app. cbn [snd].
      do 2 f_equal; lia.
    + rewrite zlen_app. change (zlen [id; zlen v - 1; chunk_type v; zlen (chunk_data v)]) with 4. lia.
Qed.

Lemma pointers_loop_ok n : forall pre cs i,
  Forall wfc1 cs -> zlen pre = 32 * i -> 0 <= i ->
  zlen pre + zlen cs <= 65536 -> 32 * Z.of_nat n <= zlen cs ->
  pointers_loop n (chdrs (pre ++ cs)) i = Ok (ptrs n cs).
Proof.
  induction n; intros pre cs i Hw Hp Hi Hl Hn; cbn [pointers_loop ptrs]; auto.
  change (i * 4 * M_Util.associativity) with (i * 4 * 32).
  rewrite u32_id by lia.
  assert (L32 : zlen (firstn 32 cs) = 32) by (rewrite zlen_firstn; lia).
  rewrite <- (firstn_skipn 32 cs) in Hw at 1. apply Forall_app in Hw as [W1 W2].
  pose proof (sum_card_le _ W1). pose proof (zlen_cdatas_le _ W1).
  pose proof (sum_card_nonneg (firstn 32 cs)).
  rewrite <- (firstn_skipn 32 cs) at 1. rewrite chdrs_app.
  replace (i * 4 * 32) with (zlen (chdrs pre)) by (rewrite zlen_chdrs; lia).
  replace (Z.to_nat M_Util.associativity) with (length (firstn 32 cs)).
  2:{ rewrite length_zlen, L32. reflexivity. }
  rewrite pointer_loop_ok; auto; try (rewrite ?zlen_chdrs; lia).
  cbn [bind]. rewrite !Z.add_0_l.
  replace (pre ++ cs) with ((pre ++ firstn 32 cs) ++ skipn 32 cs)
    by (rewrite <- app_assoc, firstn_skipn; reflexivity).
  rewrite (IHn (pre ++ firstn 32 cs) (skipn 32 cs) (i + 1)); auto; try (rewrite ?zlen_app, ?zlen_skipn; lia).
Qed.

(** ** last element *)
Lemma last_max (R : Z -> Z -> Prop) l m :
  StronglySorted R l -> znth l (zlen l - 1) = Some m -> Forall (fun x => x = m \/ R x m) l.
Proof.
  induction l as [|x l IH]; intros Hs E; [constructor|].
  inversion Hs; subst. destruct l as [|y l].
  - rewrite zlen_cons, zlen_nil, znth_cons_0 in E. injection E as ->. auto.
  - rewrite zlen_cons in E. rewrite znth_cons_pos in E by zl.
    replace (zlen (y :: l) + 1 - 1 - 1) with (zlen (y :: l) - 1) in E by lia.
    specialize (IH H1 E). constructor; auto. right.
    apply znth_In in E. rewrite Forall_forall in H2. auto.
Qed.
Lemma last_exists A (l : list A) : l <> [] -> exists m, znth l (zlen l - 1) = Some m.
Proof. intro H. apply znth_Some. destruct l; [easy|]. zl. Qed.

Lemma encode_chunks_add n m dbg : forall i e,
  encode_chunks (n + m) dbg i e
  = let! e := encode_chunks n dbg i e in encode_chunks m dbg (i + Z.of_nat n) e.
Proof.
  induction n; intros i e; cbn [plus encode_chunks bind].
  - now rewrite Z.add_0_r.
  - destruct (encode_chunk dbg i e); cbn [bind]; auto. rewrite IHn.
    replace (i + 1 + Z.of_nat n) with (i + Z.of_nat (S n)) by lia. reflexivity.
Qed.

(** ** the whole sequence *)
Definition seq_delta (S : list Z) (chunks : Z) (g : field) : Z :=
  let cs := chunks_of S in
  chunks_delta cs g
  + match g with
    | F_sequences => 1
    | F_integers => zlen S
    | F_chunks => chunks
    | F_empty_chunks => chunks - zlen cs
    | F_chunks_header_bits => 64 * zlen cs + 16 + 64 * (zlen cs / 32)
    | _ => 0
    end.

Lemma chunks_wf S : sorted S -> Forall (fun v => 0 <= v < 4294901760) S -> wfc (chunks_of S).
Proof. intros. apply group_wf; auto. lia. Qed.
Lemma chunks_le cs : wfc cs -> zlen cs <= 65535.
Proof.
  intro H. replace 65535 with (Z.of_nat (Z.to_nat 65535)) in H |- * by lia.
  apply wf_zlen_le in H. exact H.
Qed.

Lemma chunks_delta_hdr cs : chunks_delta cs F_chunks_header_bits = 0.
Proof.
  induction cs as [|ch cs IH]; auto. rewrite chunks_delta_cons, IH.
  unfold chunk_delta. destruct (kind_of (snd ch)); reflexivity.
Qed.

(** the part of encode_sequence after the loop over the chunks *)
Lemma encode_sequence_finish dbg data block stats out e cs :
  encode_sequence_chunks dbg data block stats = Ok e ->
  wfc cs -> e_header e = chdrs cs -> e_tmp e = cdatas cs ->
  exists st',
    encode_sequence dbg data block stats out
    = Ok (e_block e, st',
          out ++ le_bytes 2 (u16 (zlen cs - 1)) ++ ptrs (Z.to_nat (zlen cs / 32)) cs
              ++ bytes_of_u16s (chdrs cs) ++ cdatas cs)
    /\ forall g, st' g = e_stats e g
        + match g with F_chunks_header_bits => 64 * zlen cs + 16 + 64 * (zlen cs / 32) | _ => 0 end.
Proof.
  intros E Hw Hh Ht. pose proof (chunks_le _ Hw) as Hn.
  unfold encode_sequence. rewrite E. cbn [bind]. rewrite Hh, Ht.
  rewrite zlen_chdrs. rewrite Z.mul_comm, Z.div_mul by lia. zpos.
  rewrite u32_id by lia. change M_Util.associativity with 32.
  rewrite (pointers_loop_ok _ [] cs 0); auto; try lia.
  - cbn [bind]. eexists. split.
    + rewrite <- !app_assoc. reflexivity.
    + intro g. destruct g; sfield; lia.
  - apply Hw.
  - rewrite zlen_nil. lia.
Qed.

Lemma encode_sequence_ok dbg S st out :
  valid S ->
  exists st' m, znth S (zlen S - 1) = Some m
    /\ encode_sequence dbg S [] st out = Ok ([], st', out ++ layout (chunks_of S))
    /\ forall g, st' g = st g + seq_delta S (m / 65536 + 1) g.
Proof.
  intros (Hne & Hs & Hr).
  destruct (last_exists _ S Hne) as (m & Em).
  pose proof (chunks_wf S Hs Hr) as Hw.
  assert (Hm : 0 <= m < 4294901760).
  { apply znth_In in Em. rewrite Forall_forall in Hr. auto. }
  pose proof (last_max _ _ _ Hs Em) as Hmax. rewrite Forall_forall in Hmax.
  assert (En : num_chunks m = m / 65536 + 1).
  { unfold num_chunks. change M_Util.chunk_size with 65536. rewrite u32_id; lia. }
  set (n := m / 65536 + 1) in *. assert (Hn : 1 <= n <= 65535) by (unfold n; lia).
  destruct (encode_chunks_ok dbg (Z.to_nat n) 0 S [] [] []
     (sadd F_chunks n (sadd F_integers (zlen S) (sadd F_sequences 1 st)))) as (st1 & E1 & D1);
    auto; try lia.
  { rewrite Forall_forall in *. intros v Hv. specialize (Hr v Hv). specialize (Hmax v Hv).
    cbn beta in *. rewrite Z2Nat.id by lia. unfold n. lia. }
  { exact I. }
  { right. right. exists m. split; [eapply znth_In; eauto|].
    rewrite Z2Nat.id by lia. unfold n. lia. }
  rewrite app_nil_r in E1. cbn [app] in E1.
  edestruct (encode_sequence_finish dbg S [] st out) as (st2 & E2 & D2);
    [|exact Hw| | |].
  { unfold encode_sequence_chunks. rewrite assert_ok by reflexivity. cbn [bind].
    unfold vget. rewrite Em. cbn [bind]. rewrite En.
    rewrite assert_ok.
    2:{ change M_Util.chunk_size with 65536. apply andb_true_intro. split; [apply Z.ltb_lt|apply Z.leb_le]; lia. }
    cbn [bind]. change M_Util.chunk_size with 65536.
    change (u32 (0 * 65536 + 65536)) with 65536 in E1. change (0 * 65536) with 0 in E1.
    rewrite E1. cbn [bind e_begin]. rewrite assert_ok by reflexivity. cbn [bind]. reflexivity. }
  { reflexivity. } { reflexivity. }
  cbn [e_block e_stats] in *.
  exists st2, m. split; auto. split.
  - rewrite E2. rewrite u16_id. reflexivity.
    pose proof (chunks_le _ Hw). destruct (chunks_of S) eqn:EC; [|zl].
    apply group_nil in EC. contradiction.
  - intro g. rewrite D2, D1. rewrite Z2Nat.id by lia. unfold seq_delta.
    destruct g; sfield; try lia.
Qed.

(** ** values in the last 65536 *)
Lemma encode_sequence_high S P Q st out :
  S = P ++ Q -> Q <> [] -> sorted P ->
  Forall (fun v => 0 <= v < 4294901760) P -> Forall (fun v => 4294901760 <= v < 4294967296) Q ->
  encode_sequence true S [] st out = Abort
  /\ exists st', encode_sequence false S [] st out
       = Ok ([], st', out ++ match P with [] => [255; 255] | _ => layout (chunks_of P) end).
Proof.
  intros -> Hne SP HP HQ.
  assert (Hne' : P ++ Q <> []) by (destruct P, Q; easy).
  destruct (last_exists _ (P ++ Q) Hne') as (m & Em).
  assert (Hm : 4294901760 <= m < 4294967296).
  { rewrite zlen_app in Em. assert (0 < zlen Q) by (destruct Q; [easy|zl]).
    rewrite znth_app_r in Em by (zpos; lia). apply znth_In in Em. rewrite Forall_forall in HQ. auto. }
  pose proof (chunks_wf P SP HP) as Hw.
  assert (En : num_chunks m = 65536).
  { unfold num_chunks. change M_Util.chunk_size with 65536.
    assert (E : (m + 65536) / 65536 = 65536) by lia. rewrite E. reflexivity. }
  assert (EL : forall dbg, exists st1,
    encode_chunks (Z.to_nat 65536) dbg 0
      (mkEnc (P ++ Q) 0 65536 [] [] []
         (sadd F_chunks 65536 (sadd F_integers (zlen (P ++ Q)) (sadd F_sequences 1 st))))
    = Ok (mkEnc Q 0 65536 [] (chdrs (chunks_of P)) (cdatas (chunks_of P)) st1)).
  { intro dbg. replace (Z.to_nat 65536) with (Z.to_nat 65535 + 1)%nat by lia.
    rewrite encode_chunks_add.
    destruct (encode_chunks_ok dbg (Z.to_nat 65535) 0 P Q [] []
      (sadd F_chunks 65536 (sadd F_integers (zlen (P ++ Q)) (sadd F_sequences 1 st)))) as (st1 & E1 & D1);
      auto; try lia.
    { apply starts_from_all. eapply Forall_impl; [|exact HQ]. cbn beta. intros. rewrite Z2Nat.id; lia. }
    change (u32 (0 * 65536 + 65536)) with 65536 in E1. change (0 * 65536) with 0 in E1.
    rewrite E1. rewrite Z2Nat.id by lia. cbn [bind encode_chunks].
    unfold encode_chunk. cbn [e_begin e_left e_right e_header e_tmp e_stats e_block].
    change (u32 ((0 + 65535) * 65536 + 65536)) with 0.
    destruct Q as [|v q]; [easy|]. inversion HQ; subst.
    destruct (Z.ltb_spec v 0); [lia|]. cbn [bind app]. eexists. reflexivity. }
  split.
  - unfold encode_sequence, encode_sequence_chunks. rewrite assert_ok by reflexivity. cbn [bind].
    unfold vget. rewrite Em. cbn [bind]. rewrite En. change M_Util.chunk_size with 65536.
    rewrite assert_ok by reflexivity. cbn [bind].
    destruct (EL true) as (st1 & ->). cbn [bind e_begin].
    destruct (Z.eqb_spec (zlen Q) 0); [destruct Q; [easy|]; zl|]. reflexivity.
  - destruct (EL false) as (st1 & E1).
    edestruct (encode_sequence_finish false (P ++ Q) [] st out) as (st2 & E2 & D2);
      [|exact Hw| | |].
    { unfold encode_sequence_chunks. cbn [assert_ bind].
      unfold vget. rewrite Em. cbn [bind]. rewrite En. change M_Util.chunk_size with 65536.
      rewrite E1. cbn [bind]. reflexivity. }
    { reflexivity. } { reflexivity. }
    exists st2. rewrite E2. cbn [e_block]. destruct P as [|v P'].
    + cbn. reflexivity.
    + remember (v :: P') as P eqn:EP.
      assert (PN : P <> []) by (subst; discriminate). clear EP v P'.
      unfold layout. rewrite u16_id. reflexivity.
      pose proof (chunks_le _ Hw). destruct (chunks_of P) eqn:EC; [|zl].
      apply group_nil in EC. contradiction.
Qed.

(** ** duplicates *)
Lemma le_sorted_or_dup l :
  StronglySorted Z.le l -> sorted l \/ exists a v b, l = a ++ v :: v :: b.
Proof.
  induction l as [|x l IH]; intro H; [left; apply sorted_nil|].
  inversion H; subst. destruct (IH H2) as [Hs|(a & v & b & ->)].
  - destruct l as [|y l]; [left; apply sorted_cons; auto|].
    inversion H3; subst. destruct (Z.eq_dec x y) as [->|].
    + right. exists [], y, l. reflexivity.
    + left. apply sorted_cons; auto. apply sorted_inv in Hs as [_ Hy].
      constructor; [lia|]. eapply Forall_impl; [|exact Hy]. cbn; intros; lia.
  - right. exists (x :: a), v, b. reflexivity.
Qed.
Lemma le_split l x :
  StronglySorted Z.le l ->
  exists l1 l2, l = l1 ++ l2 /\ Forall (fun y => y < x) l1 /\ Forall (fun y => x <= y) l2
    /\ StronglySorted Z.le l1 /\ StronglySorted Z.le l2.
Proof.
  induction l as [|y l IH]; intro H.
  - exists [], []. repeat split; auto; constructor.
  - inversion H; subst. destruct (IH H2) as (l1 & l2 & -> & F1 & F2 & S1 & S2).
    destruct (Z_lt_le_dec y x).
    + exists (y :: l1), l2. repeat split; auto. constructor; auto. apply Forall_app in H3. tauto.
    + exists [], (y :: l1 ++ l2). repeat split; auto; try constructor; auto.
      eapply Forall_impl; [|exact H3]. cbn; intros; lia.
Qed.

Lemma chunk_cardinality_dup dbg left right a : forall v b q c prev,
  Forall (fun v => left <= v < right) (a ++ v :: v :: b) -> 0 <= left -> right = left + 65536 ->
  chunk_cardinality_loop dbg ((a ++ v :: v :: b) ++ q) left right c prev = Throw.
Proof.
  induction a as [|x a IH]; intros v b q c prev Hr Hl Hright.
  - cbn [app] in *. inversion Hr as [|? ? Hv _]; subst. cbn [chunk_cardinality_loop].
    destruct (Z.ltb_spec v (left + 65536)); [|lia].
    rewrite !(assert_ok dbg (left <=? v)) by (apply Z.leb_le; lia). cbn [bind].
    rewrite !(assert_ok dbg (u32 (v - left) <? _))
      by (apply Z.ltb_lt; unfold M_Util.chunk_size, u32; rewrite Z.mod_small; lia).
    cbn [bind]. destruct (v =? prev); auto. rewrite Z.eqb_refl. reflexivity.
  - cbn [app] in *. inversion Hr as [|? ? Hv Hr']; subst. cbn [chunk_cardinality_loop].
    destruct (Z.ltb_spec x (left + 65536)); [|lia].
    rewrite !(assert_ok dbg (left <=? x)) by (apply Z.leb_le; lia). cbn [bind].
    rewrite !(assert_ok dbg (u32 (x - left) <? _))
      by (apply Z.ltb_lt; unfold M_Util.chunk_size, u32; rewrite Z.mod_small; lia).
    cbn [bind]. destruct (x =? prev); auto.
Qed.

Lemma encode_chunks_dup dbg n : forall i P Q header tmp st,
  0 <= i -> i + Z.of_nat n <= 65535 -> StronglySorted Z.le P -> ~ sorted P ->
  Forall (fun v => 65536 * i <= v < 65536 * (i + Z.of_nat n)) P ->
  Forall (fun v => 65536 * (i + Z.of_nat n) <= v) Q ->
  encode_chunks n dbg i (mkEnc (P ++ Q) (i * 65536) (u32 (i * 65536 + 65536)) [] header tmp st) = Throw.
Proof.
  induction n; intros i P Q header tmp st H0 Hn Hs Hd Hr HQ.
  - destruct P as [|v P]; [exfalso; apply Hd, sorted_nil|inversion Hr; subst; lia].
  - destruct (le_split P (65536 * (i + 1)) Hs) as (p & P' & -> & F1 & F2 & S1 & S2).
    apply Forall_app in Hr as [R1 R2].
    assert (R1' : Forall (fun x => 65536 * i <= x < 65536 * (i + 1)) p).
    { rewrite Forall_forall in *. intros x Hx. specialize (R1 x Hx). specialize (F1 x Hx). cbn beta in *. lia. }
    assert (R2' : Forall (fun x => 65536 * (i + 1) <= x < 65536 * (i + 1 + Z.of_nat n)) P').
    { rewrite Forall_forall in *. intros x Hx. specialize (R2 x Hx). specialize (F2 x Hx). cbn beta in *. lia. }
    assert (HQ' : Forall (fun v => 65536 * (i + 1 + Z.of_nat n) <= v) Q).
    { eapply Forall_impl; [|exact HQ]. cbn beta. intros; lia. }
    assert (F2' : starts_from (i * 65536 + 65536) (P' ++ Q)).
    { apply starts_from_all. apply Forall_app. split; [eapply Forall_impl; [|exact F2]|eapply Forall_impl; [|exact HQ]];
        cbn beta; intros; lia. }
    rewrite <- app_assoc.
    cbn [encode_chunks]. rewrite (u32_id (i * 65536 + 65536)) by lia.
    assert (Hi : 0 <= i < 65535) by lia.
    destruct (le_sorted_or_dup p S1) as [SS1|(a & v & b & Ep)].
    + assert (SS2 : ~ sorted P').
      { intro SS2. apply Hd. apply sorted_app; auto. intros x y Hx Hy.
        rewrite Forall_forall in F1, F2. specialize (F1 x Hx). specialize (F2 y Hy). cbn beta in *. lia. }
      destruct p as [|v p'].
      * cbn [app]. destruct (encode_chunk_empty dbg i (i * 65536) (i * 65536 + 65536) (P' ++ Q)
          ltac:(auto) ltac:(auto) F2' header tmp st) as (st1 & E1 & _).
        { intro E. apply app_eq_nil in E as [-> _]. apply SS2, sorted_nil. }
        rewrite E1. cbn [bind].
        replace (i * 65536 + 65536 + 65536) with ((i + 1) * 65536 + 65536) by lia.
        replace (i * 65536 + 65536) with ((i + 1) * 65536) by lia.
        apply IHn; auto; lia.
      * remember (v :: p') as p eqn:Ep. assert (N1 : p <> []) by (subst; discriminate).
        clear Ep v p'.
        destruct (encode_chunk_ok dbg i (i * 65536) (i * 65536 + 65536) (P' ++ Q) Hi
          ltac:(auto) ltac:(auto) F2' (map (fun v => v mod 65536) p) header tmp st
          (chunk_residues_wf p i Hi N1 SS1 R1')) as (st1 & E1 & _).
        rewrite (chunk_residues p i R1') in E1. rewrite E1. cbn [bind].
        replace (i * 65536 + 65536 + 65536) with ((i + 1) * 65536 + 65536) by lia.
        replace (i * 65536 + 65536) with ((i + 1) * 65536) by lia.
        apply IHn; auto; lia.
    + assert (EC : chunk_cardinality dbg (p ++ P' ++ Q) (i * 65536) (i * 65536 + 65536) = Throw).
      { unfold chunk_cardinality. subst p. rewrite chunk_cardinality_dup; auto; try lia.
        eapply Forall_impl; [|exact R1']. cbn beta. intros; lia. }
      unfold encode_chunk. cbn [e_begin e_left e_right e_header e_tmp e_stats e_block].
      assert (EH : exists w r, p ++ P' ++ Q = w :: r /\ (w <? i * 65536 + 65536) = true).
      { destruct p as [|w p']; [destruct a; discriminate|]. inversion R1'; subst.
        do 2 eexists. split; [reflexivity|]. apply Z.ltb_lt. lia. }
      destruct EH as (w & r & EH & EL). rewrite EH. rewrite EL. rewrite <- EH. rewrite EC. reflexivity.
Qed.

Lemma encode_sequence_dup dbg S st out :
  S <> [] -> StronglySorted Z.le S -> ~ NoDup S -> Forall (fun v => 0 <= v < 4294901760) S ->
  encode_sequence dbg S [] st out = Throw.
Proof.
  intros Hne Hs Hd Hr.
  destruct (last_exists _ S Hne) as (m & Em).
  assert (Hm : 0 <= m < 4294901760).
  { apply znth_In in Em. rewrite Forall_forall in Hr. auto. }
  pose proof (last_max _ _ _ Hs Em) as Hmax. rewrite Forall_forall in Hmax.
  assert (En : num_chunks m = m / 65536 + 1).
  { unfold num_chunks. change M_Util.chunk_size with 65536. rewrite u32_id; lia. }
  unfold encode_sequence, encode_sequence_chunks.
  rewrite assert_ok by reflexivity. cbn [bind].
  unfold vget. rewrite Em. cbn [bind]. rewrite En. change M_Util.chunk_size with 65536.
  rewrite assert_ok.
  2:{ apply andb_true_intro. split; [apply Z.ltb_lt|apply Z.leb_le]; lia. }
  cbn [bind].
  match goal with |- context [encode_chunks ?n ?d 0 (mkEnc _ _ _ _ _ _ ?st)] =>
    pose proof (encode_chunks_dup d n 0 S [] [] [] st) as E end.
  rewrite app_nil_r in E.
  change (u32 (0 * 65536 + 65536)) with 65536 in E. change (0 * 65536) with 0 in E.
  rewrite E; auto; try lia.
  - intro H. apply Hd. apply sorted_NoDup; auto.
  - rewrite Forall_forall in *. intros v Hv. specialize (Hr v Hv). specialize (Hmax v Hv).
    cbn beta in *. rewrite Z2Nat.id by lia. lia.
Qed.

(** ** builder *)
Lemma builder_ok dbg out S :
  valid S -> exists st m, znth S (zlen S - 1) = Some m
    /\ builder_build dbg out S = (Ok st, out ++ layout (chunks_of S))
    /\ forall g, st g = finish_stats (seq_delta S (m / 65536 + 1)) g.
Proof.
  intro H. unfold builder_build, encode_one.
  destruct (encode_sequence_ok dbg S stats0 out H) as (st & m & Em & -> & D). cbn [bind].
  eexists. exists m. split; auto. split; [reflexivity|]. intro g. unfold finish_stats.
  assert (D' : forall g, st g = seq_delta S (m / 65536 + 1) g) by (intro; rewrite D; unfold stats0; lia).
  unfold sadd, sset.
  destruct g; sfield; rewrite ?D'; try reflexivity.
Qed.

Lemma encoding_layout dbg S enc : valid S -> encoding dbg S enc -> enc = layout (chunks_of S).
Proof.
  intros H (st & E). destruct (builder_ok dbg [] S H) as (st' & m & _ & E' & _).
  rewrite E' in E. injection E as _ <-. reflexivity.
Qed.
Lemma stored_layout slack mem a S :
  valid S -> stored slack mem a S ->
  bytes_at mem a (layout (chunks_of S)) /\ a + zlen (layout (chunks_of S)) + slack <= zlen mem.
Proof.
  intros H (dbg & enc & E & B & L). apply encoding_layout in E; auto. subst enc. auto.
Qed.
