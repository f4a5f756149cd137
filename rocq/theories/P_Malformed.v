(** Building an index from any sequence of words. *)
From Verif Require Import Base Hw Spec Lib L_Bits L_Group Layout M_Util M_Build M_Seq M_Index Holds
  P_Build1 P_Build2 P_Build3 P_Index P_Ex.
From Coq Require Import Lia Sorted.

Definition wds (Ls : list (list Z)) : list Z := flat_map (fun L => zlen L :: L) Ls.

(** every sequence of words is a sequence of lists and possibly one that is cut off *)
Lemma parse_words : forall k data, (length data <= k)%nat -> Forall (fun w => 0 <= w) data ->
  exists Ls rest, data = wds Ls ++ rest /\ (rest = [] \/ exists n R, rest = n :: R /\ zlen R < n).
Proof.
  induction k as [|k IH]; intros data Hk F.
  - destruct data; [|cbn [length] in Hk; lia]. exists [], []. auto.
  - destruct data as [|n R]; [exists [], []; auto|].
    destruct (Z.lt_ge_cases (zlen R) n) as [C|C].
    { exists [], (n :: R). split; auto. right. eauto. }
    inversion_clear F as [|? ? Hn FR].
    assert (E : R = firstn (Z.to_nat n) R ++ skipn (Z.to_nat n) R) by (symmetry; apply firstn_skipn).
    destruct (IH (skipn (Z.to_nat n) R)) as (Ls & rest & EL & HR).
    { rewrite skipn_length. cbn [length] in Hk. lia. }
    { rewrite E in FR. apply Forall_app in FR. apply FR. }
    exists (firstn (Z.to_nat n) R :: Ls), rest. split; auto.
    unfold wds. cbn [flat_map]. fold (wds Ls).
    assert (EN : zlen (firstn (Z.to_nat n) R) = n) by (rewrite zlen_firstn; unfold zlen in *; lia).
    rewrite EN. cbn [app]. f_equal. rewrite <- app_assoc, <- EL. exact E.
Qed.

(** the loop reaches whatever follows the complete lists *)
Lemma build_prefix dbg params : forall Ls fuel pre rest st offs seqs,
  Forall valid (filter (keep params) Ls) -> Forall short Ls ->
  exists st' offs' seqs', index_build_loop (length Ls + fuel) dbg params (pre ++ wds Ls ++ rest) (zlen pre) [] st offs seqs
    = index_build_loop fuel dbg params (pre ++ wds Ls ++ rest) (zlen (pre ++ wds Ls)) [] st' offs' seqs'.
Proof.
  induction Ls as [|L Ls IH]; intros fuel pre rest st offs seqs V HS.
  - exists st, offs, seqs. cbn [wds flat_map length Nat.add app]. now rewrite app_nil_r.
  - set (data := pre ++ wds (L :: Ls) ++ rest).
    assert (ED : data = pre ++ zlen L :: L ++ wds Ls ++ rest)
      by (unfold data, wds; cbn [flat_map app]; now rewrite <- app_assoc).
    assert (ED2 : data = (pre ++ zlen L :: L) ++ wds Ls ++ rest) by (rewrite ED, <- app_assoc; reflexivity).
    assert (EQ : pre ++ wds (L :: Ls) = (pre ++ zlen L :: L) ++ wds Ls)
      by (unfold wds; cbn [flat_map]; rewrite <- !app_assoc; reflexivity).
    rewrite EQ. clearbody data. zpos.
    assert (E0 : vget data (zlen pre) = Ok (zlen L)).
    { unfold vget. rewrite ED, znth_app_r by lia. now rewrite Z.sub_diag, znth_cons_0. }
    assert (E1 : vget data (zlen pre + zlen L) = Ok (last L 0)).
    { clear HS. unfold vget. rewrite ED, znth_app_r by lia.
      replace (zlen pre + zlen L - zlen pre) with (zlen L) by lia.
      destruct L as [|x L]; [reflexivity|]. rewrite znth_cons_pos by zl.
      rewrite znth_app_l by zl. now rewrite last_znth. }
    assert (ES : firstn (Z.to_nat (zlen L)) (skipn (Z.to_nat (zlen pre + 1)) data) = L).
    { rewrite ED. replace (Z.to_nat (zlen pre + 1)) with (length pre + 1)%nat by (unfold zlen; lia).
      rewrite skipn_app, skipn_all2 by lia. replace (length pre + 1 - length pre)%nat with 1%nat by lia.
      cbn [skipn app]. replace (Z.to_nat (zlen L)) with (length L) by (unfold zlen; lia).
      rewrite firstn_app, firstn_all, Nat.sub_diag. cbn [firstn]. apply app_nil_r. }
    assert (EP : zlen pre + u32 (zlen L + 1) = zlen (pre ++ zlen L :: L))
      by (rewrite u32_short by exact (Forall_inv HS); zl).
    assert (EL : zlen pre <? zlen data = true).
    { apply Z.ltb_lt. rewrite ED, !zlen_app, zlen_cons. pose proof (zlen_nonneg _ (L ++ wds Ls ++ rest)). lia. }
    apply Forall_inv_tail in HS.
    cbn [length Nat.add index_build_loop]. rewrite EL, E0. cbn [bind]. rewrite E1. cbn [bind].
    fold (keep params L). rewrite EP. cbn [filter] in V. destruct (keep params L) eqn:K.
    + inversion V as [|? ? V1 V2]; subst x l. rewrite ES.
      destruct (encode_sequence_ok' dbg L st seqs V1) as (st1 & -> & D1). cbn [bind].
      destruct (IH fuel (pre ++ zlen L :: L) rest st1 (offs ++ [zlen (seqs ++ lay L)]) (seqs ++ lay L) V2 HS)
        as (st2 & o2 & q2 & E2). rewrite <- ED2 in E2. rewrite E2. eauto.
    + cbn [bind]. destruct (IH fuel (pre ++ zlen L :: L) rest st offs seqs V HS) as (st2 & o2 & q2 & E2).
      rewrite <- ED2 in E2. rewrite E2. eauto.
Qed.

Lemma zlen_wds Ls : zlen Ls <= zlen (wds Ls).
Proof.
  induction Ls as [|L Ls IH]; [rewrite !zlen_nil; lia|]. unfold wds. cbn [flat_map]. fold (wds Ls).
  rewrite zlen_app, !zlen_cons. zpos. lia.
Qed.

Lemma build_start dbg params d0 u w :
  index_build dbg params (d0 :: u :: w)
  = if dbg && negb (d0 =? 1) then Abort
    else let! (_, stats, o, q) := index_build_loop (length (d0 :: u :: w)) dbg params (d0 :: u :: w) 2 [] stats0 [u; 0] [] in
         let o := removelast o in
         Ok (sadd F_bits (zlen o * 64) (finish_stats stats), o, q).
Proof.
  unfold index_build. change (vget (d0 :: u :: w) 0) with (Ok d0). cbn [bind].
  unfold assert_. destruct dbg; cbn [andb negb bind]; [destruct (d0 =? 1); cbn [andb negb bind]|]; reflexivity.
Qed.

(** the loop does not look at the first word *)
Lemma loop_first dbg params d0 d0' w : Forall (fun x => 0 <= x) w -> forall fuel i block st o q, 1 <= i ->
  index_build_loop fuel dbg params (d0 :: w) i block st o q = index_build_loop fuel dbg params (d0' :: w) i block st o q.
Proof.
  intro F. assert (G : forall j, 1 <= j -> vget (d0 :: w) j = vget (d0' :: w) j).
  { intros j Hj. unfold vget. now rewrite !znth_cons_pos by lia. }
  induction fuel as [|fuel IH]; intros i block st o q Hi; cbn [index_build_loop];
    change (zlen (d0' :: w)) with (zlen (d0 :: w)); destruct (i <? zlen (d0 :: w)); auto.
  rewrite <- G by lia. destruct (vget (d0 :: w) i) as [n| | | |] eqn:En; cbn [bind]; auto.
  assert (Hn : 0 <= n).
  { unfold vget in En. rewrite znth_cons_pos in En by lia. destruct (znth w (i - 1)) eqn:E; [|discriminate].
    injection En as ->. rewrite Forall_forall in F. apply F. eapply znth_In; eauto. }
  rewrite <- G by lia. destruct (vget (d0 :: w) (i + n)) as [m| | | |]; cbn [bind]; auto.
  replace (Z.to_nat (i + 1)) with (S (Z.to_nat i)) by lia. cbn [skipn].
  assert (0 <= u32 (n + 1)) by (unfold u32; apply Z.mod_pos_bound; lia).
  destruct (pass params n m).
  - destruct (encode_sequence _ _ _ _ _) as [[[b1 s1] q1]| | | |]; cbn [bind]; auto. apply IH. lia.
  - cbn [bind]. apply IH. lia.
Qed.

Lemma c37_tiny : forall dbg params,
  index_build dbg params [] = UB
  /\ forall d0, index_build dbg params [d0] = if dbg && negb (d0 =? 1) then Abort else UB.
Proof.
  intros dbg params. split; [reflexivity|]. intro d0. unfold index_build. change (vget [d0] 0) with (Ok d0). cbn [bind].
  unfold assert_. destruct dbg; cbn [andb negb bind]; [destruct (d0 =? 1); cbn [andb negb bind]|]; reflexivity.
Qed.
Lemma c37_words : forall data, Forall is_u32 data -> 2 <= zlen data ->
  exists d0 u Ls rest, data = d0 :: u :: flat_map (fun L => zlen L :: L) Ls ++ rest
    /\ (rest = [] \/ exists n R, rest = n :: R /\ zlen R < n).
Proof.
  intros [|d0 [|u w]] F H; [rewrite zlen_nil in H; lia|rewrite zlen_cons, zlen_nil in H; lia|].
  destruct (parse_words (length w) w) as (Ls & rest & E & HR); [lia| |].
  { inversion_clear F as [|? ? _ F1]. inversion_clear F1 as [|? ? _ F2]. eapply Forall_impl; [|exact F2]. unfold is_u32. intros; lia. }
  exists d0, u, Ls, rest. subst w. auto.
Qed.
Lemma c37_first : forall dbg params d0 data, Forall is_u32 data -> data <> [] ->
  index_build dbg params (d0 :: data) = if dbg && negb (d0 =? 1) then Abort else index_build dbg params (1 :: data).
Proof.
  intros dbg params d0 [|u w] F N; [easy|]. rewrite !build_start. rewrite Z.eqb_refl, andb_false_r.
  destruct (dbg && negb (d0 =? 1)); auto. change (length (1 :: u :: w)) with (length (d0 :: u :: w)).
  rewrite (loop_first dbg params d0 1); [reflexivity| |lia]. eapply Forall_impl; [|exact F]. unfold is_u32. intros; lia.
Qed.
Lemma length_split Ls d0 u (rest : list Z) :
  exists f, length (d0 :: u :: wds Ls ++ rest) = (length Ls + (2 + f))%nat.
Proof.
  exists (length (wds Ls ++ rest) - length Ls)%nat. cbn [length]. rewrite app_length.
  pose proof (zlen_wds Ls). unfold zlen in *. lia.
Qed.
Lemma c37_truncated : forall dbg params u Ls n R,
  Forall valid (kept_lists params Ls) -> Forall short Ls -> zlen R < n ->
  index_build dbg params (collection u Ls ++ n :: R) = UB.
Proof.
  intros dbg params u Ls n R V HS HR. unfold collection. fold (wds Ls). cbn [app]. rewrite build_start.
  rewrite Z.eqb_refl, andb_false_r. destruct (length_split Ls 1 u (n :: R)) as (f & EF). rewrite EF.
  destruct (build_prefix dbg params Ls (2 + f) [1; u] (n :: R) stats0 [u; 0] [] V HS) as (st & o & q & E).
  change ([1; u] ++ wds Ls ++ n :: R) with (1 :: u :: wds Ls ++ n :: R) in E. change (zlen [1; u]) with 2 in E.
  rewrite E. clear E. set (data := 1 :: u :: wds Ls ++ n :: R). change ([1; u] ++ wds Ls) with (1 :: u :: wds Ls).
  set (pre := 1 :: u :: wds Ls). assert (ED : data = pre ++ n :: R) by reflexivity. clearbody data pre.
  zpos. cbn [Nat.add index_build_loop].
  assert (EL : zlen pre <? zlen data = true) by (apply Z.ltb_lt; rewrite ED, zlen_app, zlen_cons; zpos; lia).
  rewrite EL. assert (E0 : vget data (zlen pre) = Ok n).
  { unfold vget. rewrite ED, znth_app_r by lia. now rewrite Z.sub_diag, znth_cons_0. }
  assert (E1 : vget data (zlen pre + n) = UB).
  { unfold vget. pose proof (zlen_nonneg _ R). rewrite (proj2 (znth_None _ data (zlen pre + n))); [reflexivity|]. right. rewrite ED, zlen_app, zlen_cons. lia. }
  rewrite E0. cbn [bind]. rewrite E1. reflexivity.
Qed.

(** whatever the lists before: if the loop cannot end well from the end of them, it cannot end well *)
Lemma never_prefix dbg params data rest : forall Ls pre, data = pre ++ wds Ls ++ rest -> Forall short Ls ->
  (forall fuel block st o q r, index_build_loop fuel dbg params data (zlen (pre ++ wds Ls)) block st o q <> Ok r) ->
  forall fuel block st o q r, index_build_loop fuel dbg params data (zlen pre) block st o q <> Ok r.
Proof.
  induction Ls as [|L Ls IH]; intros pre ED HS H.
  - cbn [wds flat_map] in H. rewrite app_nil_r in H. exact H.
  - assert (ED2 : data = (pre ++ zlen L :: L) ++ wds Ls ++ rest)
      by (rewrite ED; unfold wds; cbn [flat_map app]; now rewrite <- !app_assoc).
    assert (EQ : pre ++ wds (L :: Ls) = (pre ++ zlen L :: L) ++ wds Ls)
      by (unfold wds; cbn [flat_map]; rewrite <- !app_assoc; reflexivity).
    rewrite EQ in H. specialize (IH _ ED2 (Forall_inv_tail HS) H).
    assert (EP : zlen pre + u32 (zlen L + 1) = zlen (pre ++ zlen L :: L))
      by (rewrite u32_short by exact (Forall_inv HS); zl).
    assert (ED3 : data = pre ++ zlen L :: L ++ wds Ls ++ rest) by (rewrite ED2, <- app_assoc; reflexivity).
    clear ED ED2 EQ H HS. zpos.
    assert (EL : zlen pre <? zlen data = true).
    { apply Z.ltb_lt. rewrite ED3, !zlen_app, zlen_cons. pose proof (zlen_nonneg _ (L ++ wds Ls ++ rest)). lia. }
    assert (E0 : vget data (zlen pre) = Ok (zlen L)).
    { unfold vget. rewrite ED3, znth_app_r by lia. now rewrite Z.sub_diag, znth_cons_0. }
    intros [|fuel] block st o q r; cbn [index_build_loop]; rewrite EL; [discriminate|].
    rewrite E0. cbn [bind]. destruct (vget data (zlen pre + zlen L)); cbn [bind]; try discriminate.
    rewrite EP. destruct (pass _ _ _); [|cbn [bind]; apply IH].
    destruct (encode_sequence _ _ _ _ _) as [[[b1 s1] q1]| | | |]; cbn [bind]; try discriminate. apply IH.
Qed.
Lemma wrap_add i : i + u32 (4294967295 + 1) = i.
Proof. change (u32 (4294967295 + 1)) with 0. lia. Qed.
Lemma stuck_never dbg params data i : i < zlen data -> vget data i = Ok 4294967295 ->
  forall fuel block st o q r, index_build_loop fuel dbg params data i block st o q <> Ok r.
Proof.
  intros Hi E0. assert (EL : i <? zlen data = true) by (now apply Z.ltb_lt).
  induction fuel as [|fuel IH]; intros block st o q r; cbn [index_build_loop]; rewrite EL; [discriminate|].
  rewrite E0. cbn [bind]. destruct (vget data (i + 4294967295)); cbn [bind]; try discriminate.
  rewrite wrap_add. destruct (pass _ _ _); [|cbn [bind]; apply IH].
  destruct (encode_sequence _ _ _ _ _) as [[[b1 s1] q1]| | | |]; cbn [bind]; try discriminate. apply IH.
Qed.
Lemma stuck_fuel dbg params data i m : i < zlen data -> vget data i = Ok 4294967295 -> vget data (i + 4294967295) = Ok m ->
  pass params 4294967295 m = false ->
  forall fuel block st o q, index_build_loop fuel dbg params data i block st o q = Fuel.
Proof.
  intros Hi E0 E1 EP. assert (EL : i <? zlen data = true) by (now apply Z.ltb_lt).
  induction fuel as [|fuel IH]; intros block st o q; cbn [index_build_loop]; rewrite EL; [reflexivity|].
  rewrite E0. cbn [bind]. rewrite E1. cbn [bind]. rewrite EP. cbn [bind]. rewrite wrap_add. apply IH.
Qed.

Lemma never_build dbg params u Ls rest : Forall short Ls ->
  (forall fuel block st o q r,
     index_build_loop fuel dbg params (collection u Ls ++ rest) (zlen (collection u Ls)) block st o q <> Ok r) ->
  forall r, index_build dbg params (collection u Ls ++ rest) <> Ok r.
Proof.
  intros HS H r. unfold collection in *. fold (wds Ls) in *. cbn [app] in *. rewrite build_start.
  rewrite Z.eqb_refl, andb_false_r.
  pose proof (never_prefix dbg params _ rest Ls [1; u] eq_refl HS H (length (1 :: u :: wds Ls ++ rest)) [] stats0 [u; 0] []) as X.
  change (zlen [1; u]) with 2 in X. change ([1; u] ++ wds Ls ++ rest) with (1 :: u :: wds Ls ++ rest) in X.
  destruct (index_build_loop _ _ _ _ _ _ _ _ _) as [a| | | |]; try discriminate. now destruct (X a).
Qed.
Lemma c37_truncated_never : forall dbg params u Ls n R, Forall short Ls -> zlen R < n ->
  forall r, index_build dbg params (collection u Ls ++ n :: R) <> Ok r.
Proof.
  intros dbg params u Ls n R HS HR. apply never_build; auto. set (pre := collection u Ls). clearbody pre.
  assert (EL : zlen pre <? zlen (pre ++ n :: R) = true) by (apply Z.ltb_lt; zl).
  intros [|fuel] block st o q r; cbn [index_build_loop]; rewrite EL; [discriminate|].
  unfold vget at 1. pose proof (zlen_nonneg _ pre). pose proof (zlen_nonneg _ R).
  rewrite znth_app_r by lia. rewrite Z.sub_diag, znth_cons_0. cbn [bind].
  unfold vget. rewrite (proj2 (znth_None _ (pre ++ n :: R) (zlen pre + n))); [discriminate|].
  right. rewrite zlen_app, zlen_cons. lia.
Qed.
Lemma c37_endless : forall dbg params u Ls L rest, Forall short Ls -> zlen L = 4294967295 ->
  let data := collection u Ls ++ zlen L :: L ++ rest in
  (forall r, index_build dbg params data <> Ok r)
  /\ (Forall valid (kept_lists params Ls) -> pass params (zlen L) (last L 0) = false -> index_build dbg params data = Fuel).
Proof.
  intros dbg params u Ls L rest HS HL data.
  assert (G : forall pre, zlen pre < zlen (pre ++ zlen L :: L ++ rest)
    /\ vget (pre ++ zlen L :: L ++ rest) (zlen pre) = Ok 4294967295
    /\ vget (pre ++ zlen L :: L ++ rest) (zlen pre + 4294967295) = Ok (last L 0)).
  { intro pre. pose proof (zlen_nonneg _ pre). split; [zl|]. split.
    - unfold vget. rewrite znth_app_r by lia. now rewrite Z.sub_diag, znth_cons_0, HL.
    - unfold vget. rewrite znth_app_r by lia.
      replace (zlen pre + 4294967295 - zlen pre) with 4294967295 by lia. rewrite znth_cons_pos by lia.
      rewrite znth_app_l by lia. rewrite <- HL, last_znth; [reflexivity|].
      intro E. rewrite E, zlen_nil in HL. lia. }
  split.
  - apply never_build; auto. destruct (G (collection u Ls)) as (G1 & G2 & _). now apply stuck_never.
  - intros V HP. unfold data, collection. fold (wds Ls). cbn [app]. rewrite build_start.
    rewrite Z.eqb_refl, andb_false_r. destruct (length_split Ls 1 u (zlen L :: L ++ rest)) as (f & EF). rewrite EF.
    destruct (build_prefix dbg params Ls (2 + f) [1; u] (zlen L :: L ++ rest) stats0 [u; 0] [] V HS) as (st & o & q & E).
    change ([1; u] ++ wds Ls ++ zlen L :: L ++ rest) with (1 :: u :: wds Ls ++ zlen L :: L ++ rest) in E.
    change (zlen [1; u]) with 2 in E. rewrite E.
    destruct (G ([1; u] ++ wds Ls)) as (G1 & G2 & G3). rewrite HL in HP.
    change (([1; u] ++ wds Ls) ++ zlen L :: L ++ rest) with (1 :: u :: wds Ls ++ zlen L :: L ++ rest) in *.
    now rewrite (stuck_fuel dbg params _ _ _ G1 G2 G3 HP).
Qed.
Definition all_params : parameters := mkParams (p_density default_params) 4294967295.
Lemma endless_one L : zlen L = 4294967295 -> forall dbg u, index_build dbg all_params (collection u [L]) = Fuel.
Proof.
  intros HL dbg u. destruct (c37_endless dbg all_params u [] L [] ltac:(constructor) HL) as [_ H].
  assert (EC : collection u [L] = collection u [] ++ zlen L :: L ++ [])
    by (unfold collection; cbn [flat_map app]; reflexivity).
  rewrite EC. apply H; [constructor|]. rewrite HL. reflexivity.
Qed.
Lemma many_zeros n : 0 <= n -> exists L : list Z, zlen L = n /\ Forall is_u32 L.
Proof.
  intro Hn. exists (repeat 0 (Z.to_nat n)). rewrite zlen_repeat. split; [lia|].
  apply Forall_forall. intros x Hx. apply repeat_spec in Hx. subst x. unfold is_u32. lia.
Qed.
Lemma c37_endless_occurs : exists params L, zlen L = 4294967295 /\ Forall is_u32 L
  /\ forall dbg u, index_build dbg params (collection u [L]) = Fuel.
Proof.
  destruct (many_zeros 4294967295 ltac:(lia)) as (L & HL & F). exists all_params, L.
  split; [exact HL|]. split; [exact F|]. exact (endless_one L HL).
Qed.
