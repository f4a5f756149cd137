(** Building, saving and mapping an index. *)
From Verif Require Import Base Hw Spec Lib L_Bits L_Group Layout M_Util M_Build M_Seq M_Index
  P_Build1 P_Build2 P_Build3.

Definition lay (S : list Z) : list Z := layout (chunks_of S).
Definition lays (k : list (list Z)) : list Z := flat_map lay k.
Fixpoint ends (b : Z) (k : list (list Z)) : list Z :=
  match k with [] => [] | L :: k' => b + zlen (lay L) :: ends (b + zlen (lay L)) k' end.
Fixpoint starts (b : Z) (k : list (list Z)) : list Z :=
  match k with [] => [] | L :: k' => b :: starts (b + zlen (lay L)) k' end.

Lemma removelast_ends k : forall b, removelast (b :: ends b k) = starts b k.
Proof.
  induction k as [|S k IH]; intro b; [reflexivity|]. cbn [ends starts]. rewrite <- IH. reflexivity.
Qed.
Lemma zlen_starts k : forall b, zlen (starts b k) = zlen k.
Proof. induction k; intro b; cbn [starts]; rewrite ?zlen_cons, ?IHk; auto. Qed.

Lemma starts_at k : forall b i S, znth k i = Some S ->
  exists p q, lays k = p ++ lay S ++ q /\ znth (starts b k) i = Some (b + zlen p)
    /\ p = lays (firstn (Z.to_nat i) k).
Proof.
  induction k as [|T k IH]; intros b i S E; [now rewrite znth_nil in E|].
  pose proof (znth_lt _ _ _ _ E) as Hi. destruct (Z.eq_dec i 0) as [->|].
  - rewrite znth_cons_0 in E. injection E as ->. exists [], (lays k). cbn [starts].
    rewrite znth_cons_0, zlen_nil, Z.add_0_r. auto.
  - rewrite znth_cons_pos in E by lia. destruct (IH (b + zlen (lay T)) _ _ E) as (p & q & E1 & E2 & E3).
    exists (lay T ++ p), q. cbn [starts]. rewrite znth_cons_pos by lia. rewrite E2, zlen_app. split; [|split].
    + unfold lays in *. cbn [flat_map]. rewrite E1. now rewrite <- app_assoc.
    + f_equal. lia.
    + rewrite E3. replace (Z.to_nat i) with (1 + Z.to_nat (i - 1))%nat by lia. reflexivity.
Qed.

(** largest chunk id + 1 *)
Definition n_chunks (S : list Z) : Z := last S 0 / 65536 + 1.
Definition delta (S : list Z) (g : field) : Z := seq_delta S (n_chunks S) g.

Lemma znth_last S m : S <> [] -> znth S (zlen S - 1) = Some m -> last S 0 = m.
Proof.
  induction S as [|x S IH]; [easy|]. intros _ E. destruct S as [|y S].
  - rewrite zlen_cons, zlen_nil, znth_cons_0 in E. injection E as ->. reflexivity.
  - change (last (x :: y :: S) 0) with (last (y :: S) 0). apply IH; [easy|].
    rewrite zlen_cons in E. rewrite znth_cons_pos in E by zl.
    replace (zlen (y :: S) + 1 - 1 - 1) with (zlen (y :: S) - 1) in E by lia. exact E.
Qed.
Lemma last_znth L : L <> [] -> znth L (zlen L - 1) = Some (last L 0).
Proof.
  intro H. destruct (last_exists _ L H) as (m & E). rewrite E. f_equal. symmetry. now apply znth_last.
Qed.

Lemma encode_sequence_ok' dbg S st out :
  valid S ->
  exists st', encode_sequence dbg S [] st out = Ok ([], st', out ++ lay S)
    /\ forall g, st' g = st g + delta S g.
Proof.
  intro V. destruct (encode_sequence_ok dbg S st out V) as (st' & m & E & E' & D). exists st'.
  split; auto. intro g. rewrite D. unfold delta, n_chunks. erewrite znth_last; eauto. apply V.
Qed.

Definition keep (params : parameters) (L : list Z) : bool := pass params (zlen L) (last L 0).

Lemma u32_short L : short L -> u32 (zlen L + 1) = zlen L + 1.
Proof. intro H. unfold short in H. pose proof (zlen_nonneg _ L). unfold u32. apply Z.mod_small. lia. Qed.
Lemma short_valid S : valid S -> short S.
Proof.
  intros (_ & H2 & H3). replace 4294901760 with (Z.of_nat (Z.to_nat 4294901760)) in H3 by lia.
  pose proof (sorted_zlen_le _ _ H2 H3). unfold short. lia.
Qed.

Lemma index_build_loop_ok dbg params : forall Ls fuel pre st offs seqs,
  Forall valid (filter (keep params) Ls) -> Forall short Ls ->
  zlen (flat_map (fun L => zlen L :: L) Ls) <= Z.of_nat fuel ->
  exists st', index_build_loop fuel dbg params (pre ++ flat_map (fun L => zlen L :: L) Ls) (zlen pre) [] st offs seqs
      = Ok ([], st', offs ++ ends (zlen seqs) (filter (keep params) Ls), seqs ++ lays (filter (keep params) Ls))
    /\ forall g, st' g = st g + total (fun S => delta S g) (filter (keep params) Ls).
Proof.
  induction Ls as [|L Ls IH]; intros fuel pre st offs seqs V HS Hf; cbn [flat_map filter] in *.
  - rewrite app_nil_r. exists st. split; [|intro; cbn; lia].
    destruct fuel; cbn [index_build_loop]; destruct (Z.ltb_spec (zlen pre) (zlen pre)); try lia;
      cbn [ends lays flat_map]; now rewrite !app_nil_r.
  - inversion_clear HS as [|? ? HS1 HS2]. set (rest := flat_map (fun L => zlen L :: L) Ls) in *. cbn [app] in *.
    rewrite zlen_cons, zlen_app in Hf. zpos. destruct fuel; [lia|].
    set (data := pre ++ zlen L :: L ++ rest).
    assert (E0 : vget data (zlen pre) = Ok (zlen L)).
    { unfold vget, data. rewrite znth_app_r by lia. now rewrite Z.sub_diag, znth_cons_0. }
    assert (E1 : vget data (zlen pre + zlen L) = Ok (last L 0)).
    { clear HS1. unfold vget, data. rewrite znth_app_r by lia. replace (zlen pre + zlen L - zlen pre) with (zlen L) by lia.
      destruct L as [|x L]; [reflexivity|]. rewrite znth_cons_pos by zl.
      rewrite znth_app_l by zl. now rewrite last_znth. }
    assert (ES : firstn (Z.to_nat (zlen L)) (skipn (Z.to_nat (zlen pre + 1)) data) = L).
    { unfold data. replace (Z.to_nat (zlen pre + 1)) with (length pre + 1)%nat by (unfold zlen; lia).
      rewrite skipn_app, skipn_all2 by lia. replace (length pre + 1 - length pre)%nat with 1%nat by lia.
      cbn [skipn app]. replace (Z.to_nat (zlen L)) with (length L) by (unfold zlen; lia).
      rewrite firstn_app, firstn_all, Nat.sub_diag. cbn [firstn]. apply app_nil_r. }
    assert (EP : zlen pre + u32 (zlen L + 1) = zlen (pre ++ zlen L :: L)) by (rewrite u32_short by exact HS1; zl).
    assert (ED : data = (pre ++ zlen L :: L) ++ rest) by (unfold data; now rewrite <- app_assoc).
    cbn [index_build_loop]. destruct (Z.ltb_spec (zlen pre) (zlen data)) as [_|HX]; [|unfold data in HX; zl].
    rewrite E0. cbn [bind]. rewrite E1. cbn [bind]. fold (keep params L). rewrite EP.
    destruct (keep params L) eqn:K.
    + inversion V as [|? ? V1 V2]; subst. rewrite ES.
      destruct (encode_sequence_ok' dbg L st seqs V1) as (st1 & -> & D1). cbn [bind].
      destruct (IH fuel (pre ++ zlen L :: L) st1 (offs ++ [zlen (seqs ++ lay L)]) (seqs ++ lay L) V2 HS2)
        as (st2 & E2 & D2); [lia|].
      rewrite ED, E2. exists st2. split.
      * f_equal. unfold lays. cbn [ends flat_map]. rewrite zlen_app, <- !app_assoc. reflexivity.
      * intro g. rewrite D2, D1. cbn [total fold_right]. fold (total (fun S => delta S g) (filter (keep params) Ls)). lia.
    + cbn [bind]. rewrite ED. apply IH; auto. lia.
Qed.

Lemma index_build_ok dbg params u Ls :
  Forall valid (filter (keep params) Ls) -> Forall short Ls ->
  exists st, index_build dbg params (collection u Ls)
      = Ok (st, u :: starts 0 (filter (keep params) Ls), lays (filter (keep params) Ls))
    /\ forall g, st g = sadd F_bits (64 * (zlen (filter (keep params) Ls) + 1))
                  (finish_stats (fun g => total (fun S => delta S g) (filter (keep params) Ls))) g.
Proof.
  intros V HS. unfold index_build, collection. set (D := flat_map _ Ls).
  change (vget (1 :: u :: D) 0) with (Ok 1). cbn [bind]. rewrite assert_ok by reflexivity. cbn [bind].
  change (vget (1 :: u :: D) 1) with (Ok u). cbn [bind].
  destruct (index_build_loop_ok dbg params Ls (length (1 :: u :: D)) [1; u] stats0 [u; 0] [] V HS) as (st & E & DD).
  { fold D. unfold zlen. cbn [length]. lia. }
  change ([u] ++ [0]) with [u; 0]. change 2 with (zlen [1; u]). fold D in E.
  change (1 :: u :: D) with ([1; u] ++ D) at 2. rewrite E. cbn [bind app]. rewrite zlen_nil.
  change (removelast (u :: 0 :: ends 0 (filter (keep params) Ls)))
    with (u :: removelast (0 :: ends 0 (filter (keep params) Ls))).
  rewrite removelast_ends. rewrite zlen_cons, zlen_starts.
  eexists. split; [reflexivity|]. intro g.
  assert (DD' : forall g, st g = total (fun S => delta S g) (filter (keep params) Ls))
    by (intro; rewrite DD; unfold stats0; lia).
  unfold finish_stats, sadd, sset. destruct g; sfield; rewrite ?DD'; try reflexivity; try lia.
Qed.

Lemma encoding_lay dbg S : valid S -> encoding dbg S (lay S).
Proof. intro V. destruct (builder_ok dbg [] S V) as (st & m & _ & E & _). exists st. exact E. Qed.

(** where the i-th sequence starts in a file mapped at [f] *)
Definition addr (kept : list (list Z)) (f i : Z) : Z :=
  f + 8 + (8 + 8 * zlen kept) + 8 + zlen (lays (firstn (Z.to_nat i) kept)).

Lemma zlen_lays_firstn kept i j S :
  0 <= i < j -> znth kept i = Some S ->
  zlen (lays (firstn (Z.to_nat i) kept)) + zlen (lay S) <= zlen (lays (firstn (Z.to_nat j) kept)).
Proof.
  intros H E. replace (Z.to_nat j) with (Z.to_nat i + (1 + Z.to_nat (j - i - 1)))%nat by lia.
  revert E. replace (znth kept i) with (nth_error kept (Z.to_nat i))
    by (unfold znth; destruct (Z.ltb_spec i 0); [lia|reflexivity]).
  generalize (Z.to_nat i) (Z.to_nat (j - i - 1)). intro n. revert kept.
  induction n as [|n IH]; intros kept m E; destruct kept as [|T kept]; try discriminate E.
  - injection E as ->. cbn [firstn Nat.add lays flat_map]. rewrite zlen_nil, zlen_app.
    pose proof (zlen_nonneg _ (flat_map lay (firstn m kept))). lia.
  - cbn [firstn Nat.add]. specialize (IH kept m E). unfold lays in *. cbn [flat_map].
    change (1 + m)%nat with (Datatypes.S m) in IH. rewrite !zlen_app. lia.
Qed.

Lemma addr_apart kept f i j S T :
  Forall valid kept -> znth kept i = Some S -> znth kept j = Some T ->
  apart (addr kept f i) S (addr kept f j) T.
Proof.
  intros V Ei Ej. destruct (Z.eq_dec i j) as [->|N]; [now left|]. right.
  rewrite Forall_forall in V. pose proof (znth_lt _ _ _ _ Ei). pose proof (znth_lt _ _ _ _ Ej).
  exists true, (lay S), (lay T). split; [|split].
  - apply encoding_lay, V. eapply znth_In; eauto.
  - apply encoding_lay, V. eapply znth_In; eauto.
  - unfold addr. destruct (Z.lt_ge_cases i j).
    + left. pose proof (zlen_lays_firstn kept i j S ltac:(lia) Ei). lia.
    + right. pose proof (zlen_lays_firstn kept j i T ltac:(lia) Ej). lia.
Qed.

Lemma index_mmap_ok u kept mem f slack :
  0 <= u < 18446744073709551616 -> Forall valid kept ->
  bytes_at mem f (index_file (u :: starts 0 kept) (lays kept)) -> 0 <= f -> 0 <= slack ->
  f + zlen (index_file (u :: starts 0 kept) (lays kept)) + slack <= zlen mem ->
  zlen mem <= 18446744073709551616 ->
  exists ix, index_mmap mem f = Ok ix /\ ix_size ix = zlen kept /\ ix_universe ix = u
    /\ forall i S, znth kept i = Some S ->
         exists s, seq_at mem (addr kept f i) = Ok s /\ stored slack mem (addr kept f i) S
           /\ forall dbg, index_get dbg mem ix i = Ok s.
Proof.
  intros Hu V B Hf Hsl L HM. unfold index_file in B, L. rewrite !zlen_app, !zlen_le_bytes, zlen_bytes_of_u64s in L.
  rewrite zlen_cons, zlen_starts in *. change (bytes_of_u64s (u :: starts 0 kept))
    with (le_bytes 8 u ++ bytes_of_u64s (starts 0 kept)) in B.
  rewrite !bytes_at_app, !zlen_app, !zlen_le_bytes, zlen_bytes_of_u64s, zlen_starts in B.
  destruct B as (B1 & (B2 & B3) & B4 & B5). change (Z.of_nat 8) with 8 in *. zpos.
  unfold index_mmap. rewrite (rd64_at mem f (zlen kept + 1)) by (auto; lia). cbn [bind].
  rewrite (rd64_at mem (f + 8) u) by (auto; lia). cbn [bind].
  eexists. split; [reflexivity|]. cbn [ix_size ix_universe]. split; [|split; auto].
  { unfold u64. rewrite Z.mod_small; lia. }
  intros i S E. destruct (starts_at kept 0 i S E) as (p & q & E1 & E2 & EP).
  pose proof (znth_lt _ _ _ _ E) as Hi.
  assert (VS : valid S) by (rewrite Forall_forall in V; apply V; eapply znth_In; eauto).
  assert (LP : zlen p + zlen (lay S) + zlen q = zlen (lays kept)) by (rewrite E1, !zlen_app; lia).
  rewrite E1, !bytes_at_app in B5. destruct B5 as (_ & B5 & _). zpos.
  set (a := f + 8 + (8 + 8 * zlen kept) + 8 + zlen p) in *.
  assert (St : stored slack mem a S).
  { exists true, (lay S). split; [now apply encoding_lay|]. split; auto. unfold a. lia. }
  assert (SQ : exists s, seq_at mem a = Ok s).
  { pose proof B5 as BB. unfold lay, layout in BB. rewrite bytes_at_app in BB. destruct BB as [BB _].
    unfold seq_at. unfold rd16. erewrite rd_le_at; [eexists; reflexivity|exact BB|].
    pose proof (chunks_wf S (proj1 (proj2 VS)) (proj2 (proj2 VS))) as W. pose proof (chunks_le _ W).
    assert (chunks_of S <> []) by (intro E'; apply (proj1 VS); apply (group_nil 65536); exact E').
    destruct (chunks_of S); [easy|]. change (256 ^ Z.of_nat 2) with 65536. zl. }
  destruct SQ as (s & SQ). unfold addr. rewrite <- EP. fold a. exists s. split; auto. split; auto. intro dbg.
  unfold index_get. cbn [ix_size ix_offsets ix_sequences].
  rewrite assert_ok by (apply Z.ltb_lt; unfold u64; rewrite Z.mod_small; lia). cbn [bind].
  replace (f + 16) with (f + 8 + 8) by lia.
  rewrite (rd64_words mem (f + 8 + 8) (starts 0 kept) i (0 + zlen p)); auto.
  - cbn [bind]. rewrite <- SQ. f_equal. unfold a. lia.
  - unfold w64. lia.
Qed.
