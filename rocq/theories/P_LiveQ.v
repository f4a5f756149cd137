(** Proofs for C66: queries, one by one. *)
From Coq Require Import Lia Sorted String.
From Verif Require Import Base Hw Spec Lib Layout M_Util M_Build M_Seq M_Decode M_Uncompress
  M_Query M_Union M_Many M_Index M_Print M_Calls M_Tests M_Drivers M_Text M_Out M_Say M_Session M_Bench M_Live M_LiveQ
  Holds Format Room Shown Typed Printed Told Report Session Bench
  P_Build1 P_Build2 P_Build3 P_Seq P_Decode P_Sets P_Index P_Fin1 P_Fin2 P_Fin3 P_Room P_Tests P_Tests2 P_RoomSets P_Fits P_Out3 P_Say P_Say2 P_Say3
  P_Bench P_Bench2 P_Live.
Local Open Scope Z_scope.

(** ** a query without errors *)
Lemma check_live expected out size : forall m j g, check_loop m expected out j g = Ok true ->
  forall lg, live_check_loop m expected out j size lg = (lg, Ok tt).
Proof.
  induction m as [|m IH]; intros j g H lg; cbn [check_loop live_check_loop] in *; [reflexivity|].
  destruct (vget expected j) as [x| | | |]; try discriminate H. cbn [bind] in H. rewrite go_just.
  destruct (vget out j) as [y| | | |]; try discriminate H. cbn [bind] in H. rewrite go_just, go_report.
  pose proof (check_good _ _ _ _ _ H) as G. apply andb_true_iff in G as [_ ->]. cbn [negb report]. now apply (IH _ _ H).
Qed.

Lemma pair_live what core expected_size size g q st st' lg :
  core q st = Ok (st', expected_size, size) ->
  check_loop (Z.to_nat size) (q_expected st') (q_out st') 0 (g && (expected_size =? size)) = Ok true ->
  live_pair_query what core q st lg = (lg, Ok st').
Proof.
  intros EC EL. unfold live_pair_query. rewrite EC, go_just, go_report.
  pose proof (check_good _ _ _ _ _ EL) as G. apply andb_true_iff in G as [_ ->]. cbn [negb report].
  rewrite (go_ok _ _ _ lg tt) by (now apply (check_live _ _ _ _ _ _ EL)). reflexivity.
Qed.
Lemma pair_fails what core q st lg :
  (core q st = UB -> live_pair_query what core q st lg = (lg, UB))
  /\ (core q st = Abort -> live_pair_query what core q st lg = (lg, Abort)).
Proof. unfold live_pair_query. split; intros ->; reflexivity. Qed.

Lemma intersect_live tbl sort dbg mem ix q st st' lg : intersect_query tbl sort dbg mem ix q st = Ok st' -> q_good st' = true ->
  live_pair_query "intersection" (intersect_core tbl sort dbg mem ix) q st lg = (lg, Ok st').
Proof.
  intros E G. unfold intersect_query in E.
  destruct (index_get dbg mem ix (fst q)) as [si| | | |] eqn:E1; try discriminate E. cbn [bind] in E.
  destruct (decode dbg mem si (q_i st) 0) as [[vi i_size]| | | |] eqn:E2; try discriminate E. cbn [bind] in E.
  destruct (index_get dbg mem ix (snd q)) as [sj| | | |] eqn:E3; try discriminate E. cbn [bind] in E.
  destruct (decode dbg mem sj (q_j st) 0) as [[vj j_size]| | | |] eqn:E4; try discriminate E. cbn [bind] in E.
  destruct (store (q_expected st) 0 (merge_and (firstn (Z.to_nat i_size) vi) (firstn (Z.to_nat j_size) vj))) as [expected| | | |] eqn:E5;
    try discriminate E. cbn [bind] in E.
  destruct (run_call _ _ _ _) as [[sc [out size]]| | | |] eqn:E6 in E; try discriminate E. cbn [bind] in E.
  destruct (check_loop _ _ _ _ _) as [good| | | |] eqn:E7 in E; try discriminate E. cbn [bind] in E. injection E as <-.
  cbn [q_good] in G. subst good.
  apply (pair_live _ _ (zlen (merge_and (firstn (Z.to_nat i_size) vi) (firstn (Z.to_nat j_size) vj))) size (q_good st)); [|exact E7].
  unfold intersect_core. rewrite E1. cbn [bind]. rewrite E2. cbn [bind]. rewrite E3. cbn [bind]. rewrite E4. cbn [bind].
  rewrite E5. cbn [bind]. rewrite E6. reflexivity.
Qed.
Lemma union_live tbl dbg mem ix q st st' lg : union_query tbl dbg mem ix q st = Ok st' -> q_good st' = true ->
  live_pair_query "union" (union_core tbl dbg mem ix) q st lg = (lg, Ok st').
Proof.
  intros E G. unfold union_query in E.
  destruct (index_get dbg mem ix (fst q)) as [si| | | |] eqn:E1; try discriminate E. cbn [bind] in E.
  destruct (decode dbg mem si (q_i st) 0) as [[vi i_size]| | | |] eqn:E2; try discriminate E. cbn [bind] in E.
  destruct (index_get dbg mem ix (snd q)) as [sj| | | |] eqn:E3; try discriminate E. cbn [bind] in E.
  destruct (decode dbg mem sj (q_j st) 0) as [[vj j_size]| | | |] eqn:E4; try discriminate E. cbn [bind] in E.
  destruct (store (q_expected st) 0 (merge_or (firstn (Z.to_nat i_size) vi) (firstn (Z.to_nat j_size) vj))) as [expected| | | |] eqn:E5;
    try discriminate E. cbn [bind] in E.
  destruct (run_call _ _ _ _) as [[sc [out size]]| | | |] eqn:E6 in E; try discriminate E. cbn [bind] in E.
  destruct (check_loop _ _ _ _ _) as [good| | | |] eqn:E7 in E; try discriminate E. cbn [bind] in E. injection E as <-.
  cbn [q_good] in G. subst good.
  apply (pair_live _ _ (zlen (merge_or (firstn (Z.to_nat i_size) vi) (firstn (Z.to_nat j_size) vj))) size (q_good st)); [|exact E7].
  unfold union_core. rewrite E1. cbn [bind]. rewrite E2. cbn [bind]. rewrite E3. cbn [bind]. rewrite E4. cbn [bind].
  rewrite E5. cbn [bind]. rewrite E6. reflexivity.
Qed.

(** ** a pair that fails *)
Section Pair.
Context (tbl : Z -> list Z) (sort : list s_sequence -> list s_sequence) (dbg : bool) (mem : list Z) (f u : Z) (kept : list (list Z)) (ix : s_index).
Context (O : opened 31 mem f u kept ix).

Lemma first_unfit q S st : znth kept (fst q) = Some S -> ~ decode_fits S u -> q_inv u st ->
  intersect_core tbl sort dbg mem ix q st = UB /\ union_core tbl dbg mem ix q st = UB.
Proof.
  intros ES NF (Gd & SZ & L1 & L2 & L3 & L4). unfold intersect_core, union_core.
  destruct (opened_decode_exact dbg mem f u kept ix _ S (q_i st) O ES L2) as (si & Esi & -> & [(FS & _)|(FS & EDi)]); [contradiction|].
  cbn [bind]. rewrite EDi. split; reflexivity.
Qed.
Lemma intersect_unfit q S T st : znth kept (fst q) = Some S -> znth kept (snd q) = Some T -> q_inv u st ->
  ~ both_decode kept u q -> intersect_core tbl sort dbg mem ix q st = UB.
Proof.
  intros ES ET (Gd & SZ & L1 & L2 & L3 & L4) NB. unfold intersect_core, both_decode, list_of in *. rewrite ES, ET in NB.
  destruct (opened_decode_exact dbg mem f u kept ix _ S (q_i st) O ES L2) as (si & Esi & -> & [(FS & vi & EDi & Li & Fi)|(FS & EDi)]).
  2: { cbn [bind]. rewrite EDi. reflexivity. }
  cbn [bind]. rewrite EDi. cbn [bind].
  destruct (opened_decode_exact dbg mem f u kept ix _ T (q_j st) O ET L3) as (sj & Esj & -> & [(FT & vj & EDj & Lj & Fj)|(FT & EDj)]); [tauto|].
  cbn [bind]. rewrite EDj. reflexivity.
Qed.
Lemma union_unfit q S T st : znth kept (fst q) = Some S -> znth kept (snd q) = Some T -> q_inv u st ->
  ~ (both_decode kept u q /\ unites kept u q) -> union_core tbl dbg mem ix q st = UB.
Proof.
  intros ES ET (Gd & SZ & L1 & L2 & L3 & L4) NB. unfold union_core.
  assert (ELS : list_of kept (fst q) = S) by (unfold list_of; now rewrite ES).
  assert (ELT : list_of kept (snd q) = T) by (unfold list_of; now rewrite ET). unfold both_decode in NB. rewrite ELS, ELT in NB.
  pose proof (opened_valid _ _ _ _ _ _ _ _ O ES) as VS. pose proof (opened_valid _ _ _ _ _ _ _ _ O ET) as VT.
  destruct (opened_decode_exact dbg mem f u kept ix _ S (q_i st) O ES L2) as (si & Esi & -> & [(FS & vi & EDi & Li & Fi)|(FS & EDi)]).
  2: { cbn [bind]. rewrite EDi. reflexivity. }
  cbn [bind]. rewrite EDi. cbn [bind].
  destruct (opened_decode_exact dbg mem f u kept ix _ T (q_j st) O ET L3) as (sj & Esj & -> & [(FT & vj & EDj & Lj & Fj)|(FT & EDj)]).
  2: { cbn [bind]. rewrite EDj. reflexivity. }
  cbn [bind]. rewrite EDj. cbn [bind].
  destruct SZ as (Z1 & Z2 & Z3 & Z4 & Z5 & Z6 & Z7 & Z8).
  destruct (opened_union dbg mem f u kept ix q S T si sj O ES ET Esi Esj (sc_block (q_sc st)) (sc_union (q_sc st)) (q_out st))
    as [(F & _)|(F & EC)]; auto; [tauto|].
  unfold store. destruct (_ && _); cbn [bind run_call]; auto. now rewrite EC.
Qed.
Lemma pair_missing q st : dbg = true -> q_inv u st ->
  zlen kept <= fst q \/ zlen kept <= snd q /\ (exists S, znth kept (fst q) = Some S /\ decode_fits S u) ->
  intersect_core tbl sort dbg mem ix q st = Abort /\ union_core tbl dbg mem ix q st = Abort.
Proof.
  intros -> (Gd & SZ & L1 & L2 & L3 & L4) HB. assert (OS : ix_size ix = zlen kept) by apply O. unfold intersect_core, union_core.
  destruct HB as [HB|[HB (S & ES & FS)]].
  - rewrite get_beyond by lia. split; reflexivity.
  - destruct (opened_decode_exact true mem f u kept ix _ S (q_i st) O ES L2) as (si & Esi & -> & [(_ & vi & EDi & Li & Fi)|(NF & EDi)]); [|contradiction].
    cbn [bind]. rewrite EDi. cbn [bind]. rewrite get_beyond by lia. split; reflexivity.
Qed.

(** ** many positions *)
Lemma collects_missing : dbg = true -> forall q, Forall (fun i => 0 <= i) q -> Exists (fun i => zlen kept <= i) q ->
  res_map (collect dbg mem ix) q = Abort.
Proof.
  intros ED. assert (OS : ix_size ix = zlen kept) by apply O.
  induction q as [|i q IH]; intros HF HX; [inversion HX|]. cbn [res_map]. pose proof (Forall_inv HF) as H0. cbv beta in H0. apply Forall_inv_tail in HF.
  destruct (Z_lt_le_dec i (zlen kept)) as [L|L].
  - destruct (znth kept i) as [S|] eqn:E; [|apply znth_None in E; lia].
    rewrite (collect_ok _ mem f u kept ix i S O E). cbn [bind]. apply Exists_cons in HX as [L'|HX]; [lia|].
    now rewrite IH.
  - unfold collect. rewrite ED, get_beyond by lia. reflexivity.
Qed.
Lemma many_missing q sc out : dbg = true -> Forall (fun i => 0 <= i) q -> Exists (fun i => zlen kept <= i) q ->
  intersect_many_core tbl sort dbg mem ix q sc out = Abort /\ union_many_core tbl dbg mem ix q sc out = Abort.
Proof. intros ED HF HX. unfold intersect_many_core, union_many_core. rewrite collects_missing by assumption. split; reflexivity. Qed.

Lemma intersect_many_unfit q sc out : sorts mem sort -> over_and u kept q -> sized sc -> zlen out = u ->
  intersect_many_core tbl sort dbg mem ix q sc out = UB.
Proof.
  intros HS (EB & Ss & e & HN & HE & Le) SZ LO. unfold intersect_many_core.
  unfold big in EB. apply Z.leb_le in EB.
  rewrite (collects_ok dbg mem f u kept ix q Ss O HN). cbn [bind].
  destruct (gets_ok dbg mem f u kept ix q Ss O HN) as (seqs & EG & F1 & F2 & F3 & F4).
  assert (ES : exists S T R, Ss = S :: T :: R).
  { inversion HN as [|? S ? Ss1 H1 H2]; subst; [rewrite zlen_nil in *; lia|].
    inversion H2 as [|? T ? R H3 H4]; subst; [rewrite zlen_cons, zlen_nil in *; lia|]. eauto. }
  destruct ES as (S & T & R & ->). cbn [and_all bind].
  rewrite EG. cbn [bind run_call].
  destruct (c42_intersection_many mem (map (addr kept f) q) (S :: T :: R)) as (seqs' & e' & F2' & HE' & HC); auto.
  { discriminate. }
  assert (seqs' = seqs) as -> by (eapply seqs_unique; eauto).
  assert (e' = e) as -> by (eapply enumerates_unique; eauto).
  destruct SZ as (Z1 & Z2 & Z3 & Z4 & Z5 & Z6 & Z7 & Z8). pose proof (zlen_nonneg _ out).
  destruct (HC _ (HS seqs F3) dbg (sc_headers sc) (sc_and sc) (sc_ibitmap sc) out 0) as [_ ->]; auto; lia.
Qed.
Lemma union_many_unfit q sc out : over_or u kept q -> sized sc -> zlen out = u ->
  union_many_core tbl dbg mem ix q sc out = UB.
Proof.
  intros (EB & Ss & e & HN & HE & Le) SZ LO. unfold union_many_core.
  unfold big in EB. apply Z.leb_le in EB.
  rewrite (collects_ok dbg mem f u kept ix q Ss O HN). cbn [bind].
  destruct (gets_ok dbg mem f u kept ix q Ss O HN) as (seqs & EG & F1 & F2 & F3 & F4).
  rewrite EG. cbn [bind run_call].
  destruct (c42_union_many mem (map (addr kept f) q) Ss) as (seqs' & e' & F2' & HE' & HC); auto.
  { intros ->. inversion HN; subst. rewrite zlen_nil in *. lia. }
  assert (seqs' = seqs) as -> by (eapply seqs_unique; eauto).
  assert (e' = e) as -> by (eapply enumerates_unique; eauto).
  destruct SZ as (Z1 & Z2 & Z3 & Z4 & Z5 & Z6 & Z7 & Z8). pose proof (zlen_nonneg _ out).
  destruct (HC dbg (sc_or sc) (sc_ubitmap sc) out 0) as [_ ->]; auto; lia.
Qed.
End Pair.

Definition size_line (what : string) (size : Z) : list Z := codes what ++ codes " has size " ++ show size ++ endl.
Lemma many_live what core expected size g q num sc out sc' out' lg : 2 <= zlen q ->
  core q sc out = Ok (expected, sc', out', size) ->
  check_loop (Z.to_nat size) expected out' 0 (g && (zlen expected =? size)) = Ok true ->
  live_many_query what core q (num, sc, out) lg = (tell (size_line what (zlen expected)) lg, Ok (num + 1, sc', out')).
Proof.
  intros HQ EC EL. unfold live_many_query. replace (zlen q <? 2) with false by (symmetry; apply Z.ltb_ge; lia).
  rewrite EC, go_just, go_tell, go_report.
  pose proof (check_good _ _ _ _ _ EL) as G. apply andb_true_iff in G as [_ G]. rewrite G. cbn [negb report]. apply Z.eqb_eq in G. rewrite G in *.
  rewrite (go_ok _ _ _ (tell (size_line what size) lg) tt) by (now apply (check_live _ _ _ _ _ _ EL)). reflexivity.
Qed.
Lemma many_fails what core q num sc out lg : 2 <= zlen q ->
  (core q sc out = UB -> live_many_query what core q (num, sc, out) lg = (lg, UB))
  /\ (core q sc out = Abort -> live_many_query what core q (num, sc, out) lg = (lg, Abort)).
Proof.
  intro HQ. unfold live_many_query. replace (zlen q <? 2) with false by (symmetry; apply Z.ltb_ge; lia).
  split; intros ->; reflexivity.
Qed.
Lemma intersect_many_live tbl sort dbg mem ix q num sc out num' sc' out' e lg : 2 <= zlen q ->
  intersect_many_query tbl sort dbg mem ix q (num, true, sc, out) = Ok (num', true, sc', out') -> expect_and dbg mem ix q = Ok e ->
  live_many_query "intersection" (intersect_many_core tbl sort dbg mem ix) q (num, sc, out) lg
  = (tell (size_line "intersection" (zlen e)) lg, Ok (num', sc', out')).
Proof.
  intros HQ E EE. unfold intersect_many_query in E. replace (zlen q <? 2) with false in E by (symmetry; apply Z.ltb_ge; lia).
  unfold expect_and in EE.
  destruct (res_map (collect dbg mem ix) q) as [ls| | | |] eqn:E1; try discriminate E. cbn [bind] in E, EE.
  rewrite EE in E. cbn [bind] in E.
  destruct (res_map (index_get dbg mem ix) q) as [seqs| | | |] eqn:E3; try discriminate E. cbn [bind] in E.
  destruct (run_call _ _ _ _) as [[sc1 [out1 size]]| | | |] eqn:E6 in E; try discriminate E. cbn [bind] in E.
  destruct (check_loop _ _ _ _ _) as [good| | | |] eqn:E7 in E; try discriminate E. cbn [bind] in E. injection E as <- -> <- <-.
  apply (many_live _ _ e size true); [exact HQ| |exact E7].
  unfold intersect_many_core. rewrite E1. cbn [bind]. rewrite EE. cbn [bind]. rewrite E3. cbn [bind]. rewrite E6. reflexivity.
Qed.
Lemma union_many_live tbl dbg mem ix q num sc out num' sc' out' e lg : 2 <= zlen q ->
  union_many_query tbl dbg mem ix q (num, true, sc, out) = Ok (num', true, sc', out') -> expect_or dbg mem ix q = Ok e ->
  live_many_query "union" (union_many_core tbl dbg mem ix) q (num, sc, out) lg
  = (tell (size_line "union" (zlen e)) lg, Ok (num', sc', out')).
Proof.
  intros HQ E EE. unfold union_many_query in E. replace (zlen q <? 2) with false in E by (symmetry; apply Z.ltb_ge; lia).
  unfold expect_or in EE.
  destruct (res_map (collect dbg mem ix) q) as [ls| | | |] eqn:E1; try discriminate E. cbn [bind] in E, EE. injection EE as EE. rewrite EE in E.
  destruct (res_map (index_get dbg mem ix) q) as [seqs| | | |] eqn:E3; try discriminate E. cbn [bind] in E.
  destruct (run_call _ _ _ _) as [[sc1 [out1 size]]| | | |] eqn:E6 in E; try discriminate E. cbn [bind] in E.
  destruct (check_loop _ _ _ _ _) as [good| | | |] eqn:E7 in E; try discriminate E. cbn [bind] in E. injection E as <- -> <- <-.
  apply (many_live _ _ e size true); [exact HQ| |exact E7].
  unfold union_many_core. rewrite E1. cbn [bind]. rewrite E3. cbn [bind]. rewrite E6. cbn [bind]. now rewrite EE.
Qed.

(** ** the loop *)
Section Pairs.
Context (what : string) (core : Z * Z -> qstate -> res (qstate * Z * Z)) (P : qstate -> Prop).
Lemma pairs_prefix : forall good rest st lg,
  (forall q st lg, In q good -> P st -> exists st', live_pair_query what core q st lg = (lg, Ok st') /\ P st') -> P st ->
  exists st', P st' /\ live_queries (live_pair_query what core) (good ++ rest) st lg = live_queries (live_pair_query what core) rest st' lg.
Proof.
  induction good as [|q good IH]; intros rest st lg HG HP; [eauto|]. cbn [app live_queries].
  destruct (HG q st lg ltac:(now left) HP) as (st1 & E1 & P1). rewrite (go_ok _ _ _ lg st1 E1).
  apply IH; [|exact P1]. intros q' st' lg' Hq. apply HG. now right.
Qed.
End Pairs.
Section Many.
Context (what : string) (core : list Z -> scratch -> list Z -> res (list Z * scratch * list Z * Z)) (u : Z).
Context (R : list Z -> Z -> Prop).
Let inv (num : Z) (st : Z * scratch * list Z) := let '(n, sc, out) := st in n = num /\ sized sc /\ zlen out = u.
Lemma many_prefix : forall good rest num st lg,
  (forall q num st lg, In q good -> 2 <= zlen q -> inv num st ->
     exists s st', live_many_query what core q st lg = (tell (size_line what s) lg, Ok st') /\ R q s /\ inv (num + 1) st') -> inv num st ->
  exists sizes st', Forall2 R (filter (fun q => 2 <=? zlen q) good) sizes /\ inv (num + zlen sizes) st'
    /\ live_queries (live_many_query what core) (good ++ rest) st lg
       = live_queries (live_many_query what core) rest st' (tell (flat_map (size_line what) sizes) lg).
Proof.
  induction good as [|q good IH]; intros rest num st lg HG HP.
  - exists [], st. split; [constructor|]. rewrite zlen_nil, Z.add_0_r. split; [exact HP|]. cbn [app flat_map]. unfold tell. rewrite app_nil_r.
    now destruct lg.
  - assert (HG' : forall q num st lg, In q good -> 2 <= zlen q -> inv num st ->
      exists s st', live_many_query what core q st lg = (tell (size_line what s) lg, Ok st') /\ R q s /\ inv (num + 1) st').
    { intros q' num' st' lg' Hq. apply HG. now right. }
    cbn [app live_queries filter]. destruct (Z.leb_spec 2 (zlen q)) as [L|L].
    + destruct (HG q num st lg ltac:(now left) L HP) as (s & st1 & E1 & R1 & P1). rewrite (go_ok _ _ _ _ st1 E1).
      destruct (IH rest (num + 1) st1 (tell (size_line what s) lg) HG' P1) as (sizes & st2 & F & P2 & ->).
      exists (s :: sizes), st2. split; [now constructor|]. split.
      * rewrite zlen_cons. now replace (num + (zlen sizes + 1)) with (num + 1 + zlen sizes) by lia.
      * f_equal. cbn [flat_map]. unfold tell. cbn [fst snd]. now rewrite <- app_assoc.
    + assert (E1 : live_many_query what core q st lg = (lg, Ok st)).
      { unfold live_many_query. destruct st as [[n sc] out]. replace (zlen q <? 2) with true by (symmetry; apply Z.ltb_lt; lia). reflexivity. }
      rewrite (go_ok _ _ _ lg st E1). exact (IH rest num st lg HG' HP).
Qed.
End Many.
