(** Proofs for C65: the loop over a collection that does not come to its end. *)
From Coq Require Import Lia Sorted String.
From Verif Require Import Base Hw Spec Lib L_Bits L_Group Layout M_Util M_Build M_Seq M_Decode M_Uncompress
  M_Query M_Union M_Many M_Index M_Print M_Calls M_Tests M_Drivers M_Text M_Out M_Say M_Session M_Bench M_Live
  Holds Format Room Shown Typed Printed Told Report Live
  P_Build1 P_Build2 P_Build3 P_Seq P_Decode P_Query P_NextGeq
  P_Ng P_Enum P_Uncompress P_Sets P_Index P_Fin1 P_Fin2 P_Fin3 P_Room P_Tests P_Tests2 P_Tests3 P_Tests4 P_Fits P_Out3 P_Say.
Local Open Scope Z_scope.

Lemma go_just {A B} (a : A) (k : A -> live B) lg : lthen (just (Ok a)) k lg = k a lg.
Proof. reflexivity. Qed.
Lemma go_report {B} b l (k : unit -> live B) lg : lthen (lreport b l) k lg = k tt (report b l lg).
Proof. reflexivity. Qed.
Lemma go_tell {B} l (k : unit -> live B) lg : lthen (ltell l) k lg = k tt (tell l lg).
Proof. reflexivity. Qed.
Lemma go_ok {A B} (m : live A) (k : A -> live B) lg lg' a : m lg = (lg', Ok a) -> lthen m k lg = k a lg'.
Proof. intro E. unfold lthen. now rewrite E. Qed.
Lemma go_ub {A B} (m : live A) (k : A -> live B) lg lg' : m lg = (lg', UB) -> lthen m k lg = (lg', UB).
Proof. intro E. unfold lthen. now rewrite E. Qed.
Lemma go_abort {A B} (m : live A) (k : A -> live B) lg lg' : m lg = (lg', Abort) -> lthen m k lg = (lg', Abort).
Proof. intro E. unfold lthen. now rewrite E. Qed.

(** ** a list that is in the collection *)
Section Prefix.
Context {A : Type} (verb : string) (params : parameters) (data : list Z) (body : Z -> Z -> Z -> Z -> A -> live A).

Lemma live_step pre L rest fuel k st lg : data = pre ++ (zlen L :: L) ++ rest -> short L ->
  live_lists (1 + fuel) verb params data body (zlen pre) k st lg
  = if keep params L then
      (go! st := body k (zlen pre) (zlen L) (last L 0) st in
       go! _ := if (k + 1) mod 1000 =? 0 then ltell (say_count verb (k + 1) " sequences") else just (Ok tt) in
       live_lists fuel verb params data body (zlen (pre ++ zlen L :: L)) (k + 1) st) lg
    else live_lists fuel verb params data body (zlen (pre ++ zlen L :: L)) k st lg.
Proof.
  intros ED HSh. cbn [Nat.add live_lists].
  assert (E0 : vget data (zlen pre) = Ok (zlen L)).
  { unfold vget. rewrite ED, znth_app_r by lia. cbn [app]. now rewrite Z.sub_diag, znth_cons_0. }
  assert (E1 : vget data (zlen pre + zlen L) = Ok (last L 0)).
  { clear HSh. unfold vget. zpos. rewrite ED, znth_app_r by lia.
    replace (zlen pre + zlen L - zlen pre) with (zlen L) by lia. cbn [app].
    destruct L as [|x L]; [reflexivity|]. rewrite znth_cons_pos by zl.
    rewrite znth_app_l by zl. now rewrite last_znth. }
  destruct (Z.ltb_spec (zlen pre) (zlen data)) as [_|HX].
  2: { rewrite ED in HX. cbn [app] in HX. zl. }
  rewrite E0, go_just, E1, go_just. cbv beta zeta. fold (keep params L).
  replace (zlen (pre ++ zlen L :: L)) with (zlen pre + (zlen L + 1)) by zl. rewrite u32_short by exact HSh. now destruct (keep params L).
Qed.
Lemma live_end fuel k st lg : live_lists fuel verb params data body (zlen data) k st lg = (lg, Ok (k, st)).
Proof. destruct fuel; cbn [live_lists]; destruct (Z.ltb_spec (zlen data) (zlen data)); auto; lia. Qed.
(** a list the collection has only a part of *)
Lemma live_cut pre n part fuel k st lg : data = pre ++ n :: part -> zlen part < n ->
  live_lists (1 + fuel) verb params data body (zlen pre) k st lg = (lg, UB).
Proof.
  intros ED H. cbn [Nat.add live_lists].
  destruct (Z.ltb_spec (zlen pre) (zlen data)) as [_|HX].
  2: { rewrite ED in HX. zl. }
  assert (E0 : vget data (zlen pre) = Ok n).
  { unfold vget. rewrite ED, znth_app_r by lia. now rewrite Z.sub_diag, znth_cons_0. }
  rewrite E0, go_just. apply go_ub. unfold just. f_equal. unfold vget.
  destruct (znth data (zlen pre + n)) eqn:E; [|reflexivity]. apply znth_lt in E. rewrite ED in E. zpos. zl.
Qed.

Context (u' : Z) (K K' : list (list Z)) (rep : list Z -> list Z -> list (list piece)) (inv : A -> Prop).
Let pairs := combine K K'.
Definition stood (k : Z) (a : A) (lg : log) : Prop :=
  inv a /\ lg = (forallb (no_report rep) (firstn (Z.to_nat k) pairs),
                 say_universe u' ++ ptext [] (reports verb rep 0 (firstn (Z.to_nat k) pairs))).
Context (HB : forall k i L S a lg, znth K k = Some L -> znth K' k = Some S -> inv a -> list_at data (i + 1) L ->
   exists a', body k i (zlen L) (last L 0) a lg = (reported (rep L S) lg, Ok a') /\ inv a').
Context (HK : zlen K <= zlen K').

Lemma live_prefix tail : forall Ls pre fuel k a lg, data = pre ++ words Ls ++ tail -> Forall short Ls ->
  0 <= k -> (forall j L, znth (filter (keep params) Ls) j = Some L -> znth K (k + j) = Some L) ->
  zlen (words Ls) + zlen tail <= Z.of_nat fuel -> stood k a lg ->
  let k' := k + zlen (filter (keep params) Ls) in
  exists fuel' a' lg', live_lists fuel verb params data body (zlen pre) k a lg
    = live_lists fuel' verb params data body (zlen (pre ++ words Ls)) k' a' lg'
    /\ zlen tail <= Z.of_nat fuel' /\ stood k' a' lg'.
Proof.
  induction Ls as [|L Ls IH]; intros pre fuel k a lg E HSh Hk HKs Hf HP.
  - cbn [filter words flat_map]. cbv zeta. rewrite zlen_nil, Z.add_0_r, app_nil_r. exists fuel, a, lg.
    split; [reflexivity|]. split; [|exact HP]. change (words []) with (@nil Z) in Hf. rewrite zlen_nil in Hf. lia.
  - assert (Hf' : zlen (words Ls) + zlen L + 1 + zlen tail <= Z.of_nat fuel).
    { revert Hf. unfold words. cbn [flat_map]. rewrite zlen_app, zlen_cons. lia. }
    assert (EW : words (L :: Ls) = (zlen L :: L) ++ words Ls) by reflexivity.
    rewrite EW in *. rewrite <- app_assoc in E.
    assert (E' : data = (pre ++ zlen L :: L) ++ words Ls ++ tail) by (rewrite E, <- app_assoc; reflexivity).
    zpos. destruct fuel as [|fuel]; [lia|].
    change (S fuel) with (1 + fuel)%nat. rewrite (live_step pre L (words Ls ++ tail) fuel k a lg E (Forall_inv HSh)).
    replace (pre ++ (zlen L :: L) ++ words Ls) with ((pre ++ zlen L :: L) ++ words Ls) by (now rewrite <- app_assoc).
    cbn [filter] in *. destruct (keep params L) eqn:EK.
    + assert (K0 : znth K k = Some L) by (specialize (HKs 0 L); rewrite Z.add_0_r in HKs; apply HKs, znth_cons_0).
      pose proof (znth_lt _ _ _ _ K0) as Bk.
      destruct (znth K' k) as [S|] eqn:ES. 2: { apply znth_none in ES; lia. }
      assert (HA : list_at data (zlen pre + 1) L).
      { rewrite E. intros j Hj. rewrite znth_app_r by lia. cbn [app].
        rewrite znth_cons_pos by lia. rewrite znth_app_l by lia. f_equal. lia. }
      destruct HP as [Ia El]. destruct (HB k (zlen pre) L S a lg K0 ES Ia HA) as (a1 & E1 & I1).
      rewrite (go_ok _ _ _ _ _ E1).
      set (lg2 := if (k + 1) mod 1000 =? 0 then tell (say_count verb (k + 1) " sequences") (reported (rep L S) lg)
                  else reported (rep L S) lg).
      assert (P1 : stood (k + 1) a1 lg2).
      { split; [exact I1|]. rewrite (firstn_next pairs k (L, S)) by (now apply combine_znth).
        assert (LP : zlen pairs = zlen K) by (unfold pairs, zlen in *; rewrite combine_length; lia).
        rewrite forallb_app, reports_app. cbn [forallb reports]. rewrite andb_true_r, app_nil_r.
        assert (Lk : zlen (firstn (Z.to_nat k) pairs) = k) by (unfold zlen in *; rewrite firstn_length; lia).
        rewrite Lk, Z.add_0_l. set (F := firstn (Z.to_nat k) pairs) in *. clearbody F.
        rewrite !ptext_app. unfold no_report at 2. cbn [fst snd]. unfold lg2.
        destruct ((k + 1) mod 1000 =? 0); cbn [negb if_not]; unfold tell; subst lg;
          rewrite ?reported_fst, ?reported_snd; cbn [fst snd].
        - f_equal. rewrite <- !app_assoc. do 3 f_equal. unfold ptext, say_count. cbn [flat_map]. rewrite app_nil_r. line.
        - destruct (rep L S); cbn [reported].
          + cbn [ptext flat_map]. now rewrite !app_nil_r, andb_true_r.
          + rewrite andb_false_r. cbn [snd]. f_equal. change (ptext [] []) with (@nil Z). rewrite app_nil_r, <- app_assoc. reflexivity. }
      destruct (IH (pre ++ zlen L :: L) fuel (k + 1) a1 lg2 E' (Forall_inv_tail HSh)) as (f2 & a2 & lg3 & E2 & F2 & P2); auto; try lia.
      { intros j L' Hj. pose proof (znth_lt _ _ _ _ Hj) as Hj'.
        replace (k + 1 + j) with (k + (j + 1)) by lia. apply HKs.
        rewrite znth_cons_pos by lia. rewrite <- Hj. f_equal. lia. }
      exists f2, a2, lg3. rewrite zlen_cons. replace (k + (zlen (filter (keep params) Ls) + 1))
        with (k + 1 + zlen (filter (keep params) Ls)) by lia. split; [|auto].
      rewrite <- E2. unfold lg2. cbv beta zeta. destruct ((k + 1) mod 1000 =? 0); reflexivity.
    + apply IH; auto; try lia. exact (Forall_inv_tail HSh).
Qed.
End Prefix.

Lemma live_scan_ends {A} verb last_verb dbg params u u' Ls tail (K' : list (list Z)) ix
    (body : Z -> Z -> Z -> Z -> A -> live A) start rep (inv : A -> Prop) :
  let kept := filter (keep params) Ls in
  let data := collection u Ls ++ tail in
  ix_universe ix = u' -> Forall short Ls -> zlen kept <= zlen K' -> inv start ->
  (forall k i L S a lg, znth kept k = Some L -> znth K' k = Some S -> inv a -> list_at data (i + 1) L ->
     exists a', body k i (zlen L) (last L 0) a lg = (reported (rep L S) lg, Ok a') /\ inv a') ->
  let run := live_scan verb last_verb dbg params ix data body start (true, []) in
  (tail = [] -> exists g, run = ((g, ptext [] (session verb last_verb u' rep (combine kept K'))), Ok tt))
  /\ (forall n part, tail = n :: part -> zlen part < n ->
        exists g, run = ((g, ptext [] (so_far verb u' rep (combine kept K'))), UB))
  /\ (forall L more, tail = zlen L :: L ++ more -> short L -> keep params L = true ->
        ((forall a lg i, inv a -> body (zlen kept) i (zlen L) (last L 0) a lg = (lg, UB)) ->
           exists g, run = ((g, ptext [] (so_far verb u' rep (combine kept K'))), UB))
        /\ ((forall a lg i, inv a -> body (zlen kept) i (zlen L) (last L 0) a lg = (lg, Abort)) ->
           exists g, run = ((g, ptext [] (so_far verb u' rep (combine kept K'))), Abort))).
Proof.
  intros kept data EU HSh HK HI HB run.
  set (pairs := combine kept K').
  assert (LP : zlen pairs = zlen kept) by (unfold pairs, zlen in *; rewrite combine_length; lia).
  destruct (live_prefix verb params data body u' kept K' rep inv HB HK tail Ls [1; u] (length data) 0 start
    (true, say_universe u')) as (fuel' & a' & lg' & E & Hf & Ia & El).
  { unfold data, collection. fold (words Ls). reflexivity. }
  { exact HSh. }
  { lia. }
  { intros j L H. rewrite Z.add_0_l. exact H. }
  { unfold data, collection. fold (words Ls). cbn [app]. unfold zlen. cbn [length]. rewrite app_length. lia. }
  { split; [exact HI|]. cbn [firstn Z.to_nat reports forallb]. now rewrite app_nil_r. }
  fold kept in E, El. rewrite Z.add_0_l in E, El. fold pairs in El.
  assert (EF : firstn (Z.to_nat (zlen kept)) pairs = pairs) by (apply firstn_all2; unfold zlen in *; lia).
  rewrite EF in El.
  assert (TU : ptext [] [[W "universe size: "; N u']] = say_universe u').
  { unfold ptext, say_universe. cbn [flat_map]. rewrite app_nil_r. line. }
  assert (SF : snd lg' = ptext [] (so_far verb u' rep pairs)).
  { rewrite El. cbn [snd]. rewrite <- TU, <- ptext_app. reflexivity. }
  assert (R : run = (go! (k, _) := fun lg => live_lists fuel' verb params data body (zlen ([1; u] ++ words Ls)) (zlen kept) a' lg' in
                     fun lg => ((fst lg, verdict (say_count last_verb k " sequences") lg), Ok tt)) (true, [])).
  { unfold run, live_scan. change (vget data 0) with (Ok 1). rewrite go_just, assert_ok by reflexivity.
    rewrite go_just, go_tell. cbv beta zeta. rewrite EU. unfold lthen at 1 2. unfold tell. cbn [fst snd app].
    change 2 with (zlen [1; u]). rewrite E. reflexivity. }
  assert (ED : data = ([1; u] ++ words Ls) ++ tail) by reflexivity.
  split; [|split].
  - intro ET. rewrite R. unfold lthen. rewrite ET, app_nil_r in ED. rewrite <- ED, live_end. eexists. do 2 f_equal.
    unfold verdict, session. rewrite SF, El. cbn [fst snd]. unfold so_far.
    rewrite !ptext_app. change (([W "universe size: "; N u'] :: reports verb rep 0 pairs))
      with ([[W "universe size: "; N u']] ++ reports verb rep 0 pairs). rewrite ptext_app. rewrite LP.
    rewrite <- !app_assoc. do 2 f_equal. f_equal.
    { unfold ptext, say_count. cbn [flat_map]. rewrite app_nil_r. line. }
    destruct (forallb _ pairs); cbn [negb if_not]; [|reflexivity].
    unfold ptext. cbn [flat_map]. rewrite app_nil_r. line.
  - intros n part ET HP. rewrite R. rewrite ET in ED, Hf. rewrite zlen_cons in Hf. pose proof (zlen_nonneg _ part).
    destruct fuel' as [|fuel']; [lia|]. exists (fst lg'). apply go_ub.
    change (Datatypes.S fuel') with (1 + fuel')%nat. rewrite (live_cut verb params data body _ n part fuel' _ _ _ ED HP).
    rewrite <- SF. now destruct lg'.
  - intros L more ET HS EK. rewrite ET in ED, Hf. rewrite zlen_cons in Hf. pose proof (zlen_nonneg _ (L ++ more)).
    destruct fuel' as [|fuel']; [lia|].
    assert (ES : forall lg', live_lists (1 + fuel') verb params data body (zlen ([1; u] ++ words Ls)) (zlen kept) a' lg'
      = (go! st := body (zlen kept) (zlen ([1; u] ++ words Ls)) (zlen L) (last L 0) a' in
         go! _ := if (zlen kept + 1) mod 1000 =? 0 then ltell (say_count verb (zlen kept + 1) " sequences") else just (Ok tt) in
         live_lists fuel' verb params data body (zlen (([1; u] ++ words Ls) ++ zlen L :: L)) (zlen kept + 1) st) lg').
    { intro lg2. rewrite (live_step verb params data body _ L more fuel' _ _ _ ED HS), EK. reflexivity. }
    split; intro HE; rewrite R; exists (fst lg'); [apply go_ub|apply go_abort];
      change (Datatypes.S fuel') with (1 + fuel')%nat; rewrite ES, <- SF; replace (fst lg', snd lg') with lg' by (now destruct lg');
      [apply go_ub|apply go_abort]; apply HE; exact Ia.
Qed.
