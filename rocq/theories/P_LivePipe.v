(** Proofs for C67: generated queries piped into test programs. *)
From Coq Require Import String Lia Sorted.
From Verif Require Import Base Hw Spec Lib Format Shown Counts Room RoomSets Holds Told Drawn Typed Printed Report Session Lax Bench
  M_Util M_Build M_Seq M_Many M_Index M_Print M_Calls M_Tests M_Drivers M_Tools M_Text M_Out M_Say M_Session M_Lax M_Bench M_Live M_LiveQ
  P_Ex P_Fin1 P_Index P_Room P_RoomSets P_Format P_Tests P_Tests2 P_Tests4 P_Drivers P_Tools P_Fits P_Text P_Text2 P_Text3 P_Text4 P_Text5 P_Text6 P_Out3 P_Say P_Say3 P_Say4
  P_Session P_Session2 P_Session3 P_Lax P_Bench P_Bench2 P_Bench3 P_LiveQ2.
From Verif Require Import Bench.
Local Open Scope Z_scope.

(** what a run of the generator yields, and that any such queries can come *)
Lemma run_pairs_of_all iso name v w more num m d :
  begins v num -> storable_int iso num -> 0 <= num < 2 ^ 32 -> begins w m -> storable_int iso m -> 1 <= m < 2 ^ 32 ->
  let yields qs tape := zlen qs = num /\ Forall (fun q => 0 <= fst q < m /\ 0 <= snd q < m) qs
    /\ exists t, typed t (in_a_row qs) /\ run_pairs_of iso name (v :: w :: more) tape d = (t, d, Ok 0) in
  (forall tape, exists qs, yields qs tape)
  /\ forall qs, zlen qs = num -> Forall (fun q => 0 <= fst q < m /\ 0 <= snd q < m) qs -> exists tape, yields qs tape.
Proof.
  intros Hv Hs Hn Hw Hsm Hm yields. split.
  - intro tape. destruct (run_pairs_of_ok iso name v w more num m tape d Hv Hs Hn Hw Hsm Hm) as (qs & t & A & B & C & D).
    exists qs. split; [exact A|]. split; [exact B|]. exists t. auto.
  - intros qs L F. assert (Hn' : is_u32 num) by (unfold is_u32; lia). assert (Hm' : is_u32 m) by (unfold is_u32; lia).
    destruct (c36_pairwise num m Hn' Hm') as [P _].
    replace (m =? 0) with false in P by (symmetry; apply Z.eqb_neq; lia).
    destruct (proj2 (P (in_a_row qs))) as [tape E].
    { exists qs. split; [|reflexivity]. split; [exact L|]. eapply Forall_impl; [|exact F]. cbv beta. intros; lia. }
    exists tape. split; [exact L|]. split; [exact F|]. exists (show_pairs (in_a_row qs)). split.
    + apply typed_pairs. apply row_forall. eapply Forall_impl; [|exact F]. cbv beta. intros; lia.
    + unfold run_pairs_of. rewrite (then_quiet _ _ _ (Some (show_pairs (in_a_row qs)))).
      * rewrite then_cout. unfold quiet. cbn [fst snd]. now rewrite app_nil_r.
      * cbn [pairwise_main]. rewrite (atoi_ok iso v num Hv Hs), (atoi_ok iso w m Hw Hsm). cbn [bind].
        rewrite !low_id by auto. rewrite E. reflexivity.
Qed.

(** the queries before the first that does not fit *)
Lemma first_bad {A} (P : A -> Prop) : forall l : list A, (forall x, In x l -> P x \/ ~ P x) ->
  Exists (fun x => ~ P x) l -> exists good q after, l = good ++ q :: after /\ Forall P good /\ ~ P q.
Proof.
  induction l as [|x l IH]; intros D E; [inversion E|]. destruct (D x (or_introl eq_refl)) as [H|H].
  - inversion E as [? ? N|? ? E']; subst; [tauto|]. destruct IH as (g & q & a & -> & F & N); auto.
    { intros y Hy. apply D. now right. }
    exists (x :: g), q, a. split; [reflexivity|]. split; [now constructor|exact N].
  - exists [], x, l. split; [reflexivity|]. split; [constructor|exact H].
Qed.

Theorem c67_pairs : forall iso dbg tbl sort mapped name name' idx v w more more' num m d u Ks,
  index_on d mapped idx u Ks -> sorts_by_cardinality (fst (mapped (f_index u Ks))) sort ->
  begins v num -> storable_int iso num -> 0 <= num < 2 ^ 32 ->
  begins w m -> storable_int iso m -> 1 <= m < 2 ^ 32 ->
  let decodes i := decode_fits (list_of Ks i) u in
  let both q := decodes (fst q) /\ decodes (snd q) in
  let joins q := both q /\ (fst q = snd q \/ join_fits (list_of Ks (fst q)) (list_of Ks (snd q)) u) in
  let drawn qs := zlen qs = num /\ Forall (fun q => 0 <= fst q < m /\ 0 <= snd q < m) qs in
  let pipe tape test := piped (run_pairs_of iso name (v :: w :: more) tape) (test name' (idx :: v :: more')) d in
  let both_tests tape (says : (Z * Z -> Prop) -> list Z * files * res Z -> Prop) :=
    says both (pipe tape (run_test_intersect iso tbl sort dbg mapped))
    /\ says joins (pipe tape (run_test_union iso tbl dbg mapped)) in
  let ends qs fits program :=
    (Forall fits qs -> reports [] (reading_line ++ [[W "tested "; N num; W " queries"]; [W "everything good"]]) d program)
    /\ (Exists (fun q => ~ fits q) qs -> stops reading_line UB d program) in
  (m <= zlen Ks ->
     (forall tape, exists qs, drawn qs /\ both_tests tape (ends qs))
     /\ (forall qs, drawn qs -> exists tape, both_tests tape (ends qs)))
  /\ (dbg = true -> zlen Ks < m -> 1 <= num -> exists tape, both_tests tape (fun _ program => stops reading_line Abort d program)).
Proof.
  intros iso dbg tbl sort mapped name name' idx v w more more' num m d u Ks H HS Hv Hs Hn Hw Hsm Hm decodes both joins drawn pipe both_tests ends.
  assert (Hc : count_word v num) by (apply begins_count; auto; lia).
  destruct (run_pairs_of_all iso name v w more num m d Hv Hs Hn Hw Hsm Hm) as [G1 G2].
  assert (V : Forall valid Ks) by apply H.
  assert (SI : forall qs, Forall (fun q : Z * Z => 0 <= fst q < m /\ 0 <= snd q < m) qs -> Forall (storable_int iso) (in_a_row qs)).
  { intros qs F. apply row_forall. eapply Forall_impl; [|exact F]. cbv beta. intros q [A B]. unfold storable_int in *. destruct iso; lia. }
  assert (RD : forall qs, zlen qs = num -> pairs_read num (in_a_row qs) qs).
  { intros qs L. exists []. rewrite app_nil_r. split; [reflexivity|]. left. lia. }
  split.
  - intro HK.
    assert (AT : forall i, 0 <= i < m -> exists S, znth Ks i = Some S /\ list_of Ks i = S /\ valid S).
    { intros i Hi. destruct (znth Ks i) as [S|] eqn:ES; [|apply znth_None in ES; lia]. exists S. split; [reflexivity|].
      split; [unfold list_of; now rewrite ES|]. rewrite Forall_forall in V. apply V. eapply znth_In; eauto. }
    assert (DE : forall i, 0 <= i < m -> (decodes i <-> exists S, znth Ks i = Some S /\ decode_fits S u)).
    { intros i Hi. destruct (AT i Hi) as (S & E1 & E2 & _). unfold decodes. rewrite E2. split; [eauto|].
      intros (S' & E3 & D). congruence. }
    assert (DD : forall i, 0 <= i < m -> decodes i \/ ~ decodes i).
    { intros i Hi. destruct (AT i Hi) as (S & _ & E2 & VS). unfold decodes. rewrite E2. now apply decode_fits_dec. }
    assert (DJ : forall i j, 0 <= i < m -> 0 <= j < m -> join_fits (list_of Ks i) (list_of Ks j) u \/ ~ join_fits (list_of Ks i) (list_of Ks j) u).
    { intros i j Hi Hj. destruct (AT i Hi) as (S & _ & -> & VS). destruct (AT j Hj) as (T & _ & -> & VT). now apply join_fits_dec. }
    assert (PP : forall qs, Forall (fun q : Z * Z => 0 <= fst q < m /\ 0 <= snd q < m) qs -> pairs_of Ks qs).
    { intros qs F. eapply Forall_impl; [|exact F]. cbv beta. intros q [A B]. destruct (AT _ A) as (S & ES & _). destruct (AT _ B) as (T & ET & _).
      unfold is_u32. split; [eauto|]. split; [eauto|]. lia. }
    assert (MAIN : forall qs tape t, drawn qs -> typed t (in_a_row qs) ->
              run_pairs_of iso name (v :: w :: more) tape d = (t, d, Ok 0) -> both_tests tape (ends qs)).
    { intros qs tape t [L F] HT E. unfold both_tests, pipe, piped. rewrite E.
      assert (C : forall good rest, qs = good ++ rest -> _) by
        (intros good rest Eq; assert (Hx := F); rewrite Eq in Hx; apply Forall_app in Hx as [F1 F2];
         assert (HU : Forall (fun q => is_u32 (fst q) /\ is_u32 (snd q)) rest) by
           (eapply Forall_impl; [|exact F2]; cbv beta; unfold is_u32; intros; lia);
         assert (HR := RD qs L); rewrite Eq in HR at 2;
         exact (c66_pairs iso dbg tbl sort mapped name' idx v more' num t (in_a_row qs) good rest d u Ks H HS Hc ltac:(lia) HT (SI qs F) HR (PP good F1) HU)).
      cbn zeta in C.
      assert (EB : forall q, In q qs -> (both q <-> (exists S, znth Ks (fst q) = Some S /\ decode_fits S u) /\ (exists S, znth Ks (snd q) = Some S /\ decode_fits S u))).
      { intros q Hq. rewrite Forall_forall in F. destruct (F q Hq) as [A B]. unfold both. now rewrite (DE _ A), (DE _ B). }
      assert (DB : forall q, In q qs -> both q \/ ~ both q).
      { intros q Hq. rewrite Forall_forall in F. destruct (F q Hq) as [A B]. unfold both. destruct (DD _ A), (DD _ B); tauto. }
      assert (DJJ : forall q, In q qs -> joins q \/ ~ joins q).
      { intros q Hq. rewrite Forall_forall in F. destruct (F q Hq) as [A B]. unfold joins. destruct (DB q Hq) as [D|D]; [|tauto].
        destruct (Z.eq_dec (fst q) (snd q)) as [e|e]; [tauto|]. destruct (DJ _ _ A B); tauto. }
      split; split.
      - intro HG. destruct (C qs [] (eq_sym (app_nil_r qs))) as [C1 _]. rewrite L in C1. apply C1; [|reflexivity].
        rewrite Forall_forall in HG |- *. intros q Hq. apply EB; auto.
      - intro HB. destruct (first_bad both qs DB HB) as (good & q & after & Eq & HG & NB).
        destruct (C good (q :: after) Eq) as [C1 _]. destruct C1 as [_ C1].
        { rewrite Forall_forall in HG |- *. intros q' Hq. apply EB; auto. rewrite Eq. apply in_or_app. now left. }
        assert (Hq : In q qs) by (rewrite Eq; apply in_or_app; right; now left).
        rewrite Forall_forall in F. destruct (F q Hq) as [A B].
        destruct (C1 q after eq_refl) as [C2 _]. apply C2; [lia|]. right. split; [lia|]. intro K. apply NB. now apply EB.
      - intro HG. destruct (C qs [] (eq_sym (app_nil_r qs))) as [_ C1]. rewrite L in C1. apply C1; [|reflexivity].
        rewrite Forall_forall in HG |- *. intros q Hq. destruct (HG q Hq) as [K1 K2]. split; [apply EB; auto|exact K2].
      - intro HB. destruct (first_bad joins qs DJJ HB) as (good & q & after & Eq & HG & NB).
        destruct (C good (q :: after) Eq) as [_ C1]. destruct C1 as [_ C1].
        { rewrite Forall_forall in HG |- *. intros q' Hq. destruct (HG q' Hq) as [K1 K2]. split; [apply EB; auto|exact K2]. rewrite Eq. apply in_or_app. now left. }
        assert (Hq : In q qs) by (rewrite Eq; apply in_or_app; right; now left).
        rewrite Forall_forall in F. destruct (F q Hq) as [A B].
        destruct (C1 q after eq_refl) as [C2 _]. apply C2; [lia|]. right. split; [lia|]. intros [K1 K2]. apply NB. split; [now apply EB|exact K2]. }
    split.
    + intro tape. destruct (G1 tape) as (qs & L & F & t & HT & E). exists qs. split; [split; assumption|].
      apply (MAIN qs tape t); [split; assumption|exact HT|exact E].
    + intros qs [L F]. destruct (G2 qs L F) as (tape & _ & _ & t & HT & E). exists tape.
      apply (MAIN qs tape t); [split; assumption|exact HT|exact E].
  - intros Hd HK H1. set (qs := repeat (zlen Ks, zlen Ks) (Z.to_nat num)). pose proof (zlen_nonneg _ Ks) as K0.
    assert (L : zlen qs = num) by (unfold qs; rewrite zlen_repeat; lia).
    assert (F : Forall (fun q : Z * Z => 0 <= fst q < m /\ 0 <= snd q < m) qs).
    { apply Forall_forall. intros q Hq. apply repeat_spec in Hq as ->. cbn [fst snd]. lia. }
    destruct (G2 qs L F) as (tape & _ & _ & t & HT & E). exists tape. unfold both_tests, pipe, piped. rewrite E.
    assert (HU : Forall (fun q => is_u32 (fst q) /\ is_u32 (snd q)) qs) by
      (eapply Forall_impl; [|exact F]; cbv beta; unfold is_u32; intros; lia).
    destruct (c66_pairs iso dbg tbl sort mapped name' idx v more' num t (in_a_row qs) [] qs d u Ks H HS Hc ltac:(lia) HT (SI qs F) (RD qs L) (Forall_nil _) HU) as [C1 C2].
    cbn zeta in C1, C2. destruct (C1 (Forall_nil _)) as [_ D1]. destruct (C2 (Forall_nil _)) as [_ D2].
    destruct qs as [|q after] eqn:EQ; [change (zlen (@nil (Z * Z))) with 0 in L; lia|].
    assert (Eq : q = (zlen Ks, zlen Ks)) by (apply (repeat_spec (Z.to_nat num)); fold qs; rewrite EQ; now left).
    destruct (D1 q after eq_refl) as [_ E1]. destruct (D2 q after eq_refl) as [_ E2]. rewrite Eq in E1, E2. cbn [fst snd] in E1, E2.
    split; [apply E1|apply E2]; auto; left; lia.
Qed.

(** ** a session *)
Lemma join_enough S T u : valid S -> valid T -> zlen S + zlen T + 23 <= u -> join_fits S T u.
Proof.
  intros VS VT HB. assert (En : enumerates (fun v => In v S \/ In v T) (merge_or S T)) by (apply merge_or_enum; [apply VS|apply VT]).
  destruct (c42_enough S T (merge_or S T) u VS VT) as [_ K]. apply K; [exact En|]. destruct En as [So En].
  assert (zlen (merge_or S T) <= zlen (S ++ T)).
  { unfold zlen. apply inj_le. apply NoDup_incl_length; [now apply sorted_NoDup|]. intros x Hx. apply in_or_app. now apply En. }
  rewrite zlen_app in *. lia.
Qed.

Theorem c67_session : forall stod iso conv nan dbg sized tbl sort mapped names a b c e wd ws wq wk coll idx num lo hi u density size n tape d,
  (forall x, 0 <= conv x < 2 ^ 64) ->
  int_word iso a num -> int_word iso b lo -> int_word iso c hi -> int_word iso e u ->
  is_u32 num -> is_u32 lo -> is_u32 hi -> 0 <= u < 4294901760 -> lo <= hi ->
  stod wd = Ok density -> int_word iso ws size -> 0 <= size -> coll <> idx ->
  begins wq n -> storable_int iso n -> 0 <= n < 2 ^ 32 ->
  (forall file, zlen file <= 2 ^ 63 -> in_memory file (fst (mapped file)) (snd (mapped file))) ->
  let words := [word "--density"; wd; word "--size"; ws] in
  exists Ls d1,
    let Ks := kept_lists (mkParams density size) Ls in
    run_uniform iso (names 0) [a; b; c; e; coll] tape d = ([], d1, Ok 0)
    /\ zlen Ls = num /\ Forall (uniform_list lo hi u) Ls
    /\ (total zlen Ks < 2 ^ 37 -> zlen (f_index u Ks) <= 2 ^ 63 -> 1 <= zlen Ks ->
        sorts_by_cardinality (fst (mapped (f_index u Ks))) sort ->
        begins wk (zlen Ks) -> storable_int iso (zlen Ks) ->
        exists t d2,
          run_build_lax stod iso conv nan dbg sized (names 1) (coll :: words ++ [word "--out"; idx]) d1 = (t, d2, Ok 0)
          /\ let good test := forall tape',
               reports [] (reading_line ++ [[W "tested "; N n; W " queries"]; [W "everything good"]]) d2
                 (piped (run_pairs_of iso (names 2) [wq; wk] tape') (test (names 3) [idx; wq]) d2) in
             (hi + 23 <= u -> good (run_test_intersect iso tbl sort dbg mapped))
             /\ (2 * hi + 23 <= u -> good (run_test_union iso tbl dbg mapped))).
Proof.
  intros stod iso conv nan dbg sized tbl sort mapped names a b c e wd ws wq wk coll idx num lo hi u density size n tape d
    HC Ha Hb Hc He Hn Hl Hh Hu Hlh Hd Hs Hs0 NE Hq Hns Hn32 HM words.
  destruct (c63_session stod iso conv nan dbg dbg sized mapped names a b c e wd ws coll idx num lo hi u density size tape d
    HC Ha Hb Hc He Hn Hl Hh Hu Hlh Hd Hs Hs0 NE) as (Ls & d1 & C).
  exists Ls, d1. cbn zeta in C. destruct C as (R1 & L1 & L2 & C). intro Ks. split; [exact R1|]. split; [exact L1|]. split; [exact L2|].
  intros B HZ HK1 HS Hk Hks. destruct (C B) as (t1 & t2 & d2 & _ & _ & R2 & _ & HI & _). exists (t1 ++ sized (f_index u Ks) ++ t2), d2.
  split; [exact R2|]. intro good.
  assert (V : Forall valid Ks).
  { apply (kept_valid (mkParams density size) u Ls); [exact Hs0|lia|eapply uniform_plain; eauto]. }
  assert (H : index_on d2 mapped idx u Ks).
  { split; [unfold is_u32; lia|]. split; [exact V|]. split; [exact HI|]. now apply HM. }
  assert (HK : zlen Ks < 2 ^ 32).
  { unfold Ks, kept_lists. assert (zlen (filter (fun L => pass (mkParams density size) (zlen L) (last L 0)) Ls) <= zlen Ls).
    { generalize (fun L => pass (mkParams density size) (zlen L) (last L 0)). intro g. clear. induction Ls as [|L Ls IH]; [cbn [filter]; lia|].
      cbn [filter]. destruct (g L); rewrite ?zlen_cons; lia. }
    unfold is_u32 in Hn. lia. }
  assert (SZ : forall i, 0 <= i < zlen Ks -> valid (list_of Ks i) /\ zlen (list_of Ks i) <= hi).
  { intros i Hi. destruct (znth Ks i) as [S|] eqn:ES; [|apply znth_None in ES; lia]. unfold list_of. rewrite ES.
    apply znth_In in ES. split; [rewrite Forall_forall in V; now apply V|]. apply filter_In in ES as [ES _].
    rewrite Forall_forall in L2. apply (L2 S ES). }
  destruct (c67_pairs iso dbg tbl sort mapped (names 2) (names 3) idx wq wk [] [] n (zlen Ks) d2 u Ks H HS Hq Hns Hn32 Hk Hks ltac:(lia)) as [P _].
  cbn zeta in P. destruct (P (Z.le_refl _)) as [P1 _].
  assert (DE : hi + 23 <= u -> forall i, 0 <= i < zlen Ks -> decode_fits (list_of Ks i) u).
  { intros HB i Hi. destruct (SZ i Hi). apply c34_enough; [auto|lia]. }
  assert (H0 : 0 <= hi) by (unfold is_u32 in Hh; lia).
  split; intros HB tape'; destruct (P1 tape') as (qs & [L F] & [[T1 _] [T2 _]]).
  - apply T1. eapply Forall_impl; [|exact F]. cbv beta. intros q [A A']. split; now apply DE.
  - apply T2. eapply Forall_impl; [|exact F]. cbv beta. intros q [A A']. split; [split; apply DE; auto; lia|].
    right. destruct (SZ _ A), (SZ _ A'). apply join_enough; auto; lia.
Qed.

Lemma plain_words u Ls : 0 <= u < 4294901760 -> Forall (fun L => sorted L /\ Forall (fun v => 0 <= v <= u) L) Ls ->
  Forall is_u32 (collection u Ls) /\ Forall short Ls.
Proof.
  intros Hu F.
  assert (SZ : Forall (fun L => zlen L <= 4294901760) Ls).
  { eapply Forall_impl; [|exact F]. intros L (S & R).
    assert (S1 : Forall (fun v => 0 <= v < Z.of_nat (Z.to_nat 4294901760)) L).
    { eapply Forall_impl; [|exact R]. cbn beta. intros v Hv. lia. }
    pose proof (L_Group.sorted_zlen_le _ _ S S1). lia. }
  split; [|eapply Forall_impl; [|exact SZ]; cbv beta; unfold short; intros; lia].
  unfold collection. constructor; [unfold is_u32; lia|]. constructor; [unfold is_u32; lia|].
  apply Forall_forall. intros w Hw. apply in_flat_map in Hw as (L & HL & Hw). rewrite Forall_forall in F, SZ.
  destruct (F L HL) as (_ & B). specialize (SZ L HL). cbv beta in SZ. destruct Hw as [<-|Hw].
  - pose proof (zlen_nonneg _ L). unfold is_u32 in *. lia.
  - rewrite Forall_forall in B. specialize (B w Hw). cbv beta in B. unfold is_u32 in *. lia.
Qed.

Theorem c67_clustered : forall stod iso conv nan fuel dbg dbg' junk sized tbl sort mapped names a b wd ws wq wk coll idx more num u density size n tape d,
  (forall x, 0 <= conv x < 2 ^ 64) ->
  int_word iso a num -> int_word iso b u -> is_u32 num -> 0 <= u < 4294901760 -> u <= 65536 * Z.of_nat fuel ->
  In (word "--binary") more ->
  stod wd = Ok density -> int_word iso ws size -> 0 <= size -> coll <> idx ->
  begins wq n -> storable_int iso n -> 0 <= n < 2 ^ 32 ->
  (forall file, zlen file <= 2 ^ 63 -> in_memory file (fst (mapped file)) (snd (mapped file))) ->
  let words := [word "--density"; wd; word "--size"; ws] in
  exists Ls d1,
    let Ks := kept_lists (mkParams density size) Ls in
    run_clustered iso fuel dbg' junk (names 0) (a :: b :: coll :: more) tape d = ([], d1, Ok 0)
    /\ zlen Ls = num /\ Forall (clustered_list u) Ls
    /\ (total zlen Ks < 2 ^ 37 -> zlen (f_index u Ks) <= 2 ^ 63 ->
        exists t1 t2 d2,
          page nan (build_lines_on conv u (zlen Ks) (counters (8 * zlen (f_index u Ks)) Ks)) t1
          /\ page nan [[W "saving data structure to disk..."]] t2
          /\ run_build_lax stod iso conv nan dbg sized (names 1) (coll :: words ++ [word "--out"; idx]) d1
             = (t1 ++ sized (f_index u Ks) ++ t2, d2, Ok 0)
          /\ index_on d2 mapped idx u Ks
          /\ (forall n, n <> coll -> n <> idx -> forall x, has_file d2 n x <-> has_file d n x)
          /\ all_pass stod iso dbg mapped (names 2) (idx :: coll :: words) d2 u Ks
          /\ (1 <= zlen Ks -> sorts_by_cardinality (fst (mapped (f_index u Ks))) sort ->
              begins wk (zlen Ks) -> storable_int iso (zlen Ks) ->
              let good test := forall tape',
                reports [] (reading_line ++ [[W "tested "; N n; W " queries"]; [W "everything good"]]) d2
                  (piped (run_pairs_of iso (names 3) [wq; wk] tape') (test (names 4) [idx; wq]) d2) in
              (Forall (fun L => zlen L + 23 <= u) Ks -> good (run_test_intersect iso tbl sort dbg mapped))
              /\ (Forall (fun L => 2 * zlen L + 23 <= u) Ks -> good (run_test_union iso tbl dbg mapped)))).
Proof.
  intros stod iso conv nan fuel dbg dbg' junk sized tbl sort mapped names a b wd ws wq wk coll idx more num u density size n tape d
    HC Ha Hb Hn Hu Hf HB Hd Hs Hs0 NE Hq Hns Hn32 HM words.
  destruct (c62_clustered iso fuel dbg' junk (names 0) a b coll more num u tape d Ha Hb Hn ltac:(lia) Hf HB) as (Ls & d1 & L1 & L2 & (SV1 & SV2) & RU).
  exists Ls, d1. set (params := mkParams density size). intro Ks.
  split; [exact RU|]. split; [exact L1|]. split; [exact L2|]. intros B HZ.
  pose proof (clustered_plain u Ls L2) as PL. destruct (plain_words u Ls Hu PL) as [U HS].
  assert (V : Forall valid Ks) by (apply (kept_valid params u Ls); [exact Hs0|lia|exact PL]).
  set (built := run_build_lax stod iso conv nan dbg sized (names 1) (coll :: words ++ [word "--out"; idx]) d1).
  assert (EB : built = after_by (print_text_lax conv nan) dbg sized coll params (Some idx) d1).
  { unfold built, run_build_lax, run_build_by, words. cbn [app]. rewrite (then_quiet _ _ _ (params, Some idx)); [reflexivity|].
    cbn [build_options]. rewrite is_word_eq, Hd. cbn [bind]. rewrite (is_word_neq (word "--size") "--density") by discriminate.
    rewrite is_word_eq, (atoi_word _ _ _ Hs). cbn [bind]. rewrite (is_word_neq (word "--out") "--density") by discriminate.
    rewrite (is_word_neq (word "--out") "--size") by discriminate. rewrite is_word_eq. reflexivity. }
  destruct (after_lax conv nan dbg sized coll params (Some idx) d1 u Ls HC U HS SV1 V B) as [(t1 & P1 & t2 & d2 & P2 & (SV3 & SV4) & EA) _].
  fold Ks in P1, SV3, EA. rewrite EB, EA. exists t1, t2, d2.
  assert (HD : has_file d2 coll (words32 (collection u Ls))) by (apply SV4; [exact NE|exact SV1]).
  assert (H : index_on d2 mapped idx u Ks).
  { split; [unfold is_u32; lia|]. split; [exact V|]. split; [exact SV3|]. now apply HM. }
  split; [exact P1|]. split; [exact P2|]. split; [reflexivity|]. split; [exact H|]. split; [|split].
  - intros x N1 N2 y. rewrite (SV4 x N2 y). now apply SV2.
  - destruct (mapped (f_index u Ks)) as [mem f] eqn:EM. pose proof (HM _ HZ) as IM. rewrite EM in IM.
    apply (tests_pass stod iso dbg mapped (names 2) idx coll words params d2 u Ls mem f); auto.
    unfold words. cbn [test_options]. rewrite is_word_eq, Hd. cbn [bind].
    rewrite (is_word_neq (word "--size") "--density") by discriminate. rewrite is_word_eq, (atoi_word _ _ _ Hs). reflexivity.
  - intros HK1 HSo Hk Hks good.
    assert (HK : zlen Ks < 2 ^ 32).
    { unfold Ks, kept_lists. assert (zlen (filter (fun L => pass params (zlen L) (last L 0)) Ls) <= zlen Ls).
      { generalize (fun L => pass params (zlen L) (last L 0)). intro g. clear. induction Ls as [|L Ls IH]; [cbn [filter]; lia|].
        cbn [filter]. destruct (g L); rewrite ?zlen_cons; lia. }
      unfold is_u32 in Hn. lia. }
    assert (AT : forall i, 0 <= i < zlen Ks -> In (list_of Ks i) Ks).
    { intros i Hi. destruct (znth Ks i) as [S|] eqn:ES; [|apply znth_None in ES; lia]. unfold list_of. rewrite ES. eapply znth_In; eauto. }
    rewrite Forall_forall in V.
    destruct (c67_pairs iso dbg tbl sort mapped (names 3) (names 4) idx wq wk [] [] n (zlen Ks) d2 u Ks H HSo Hq Hns Hn32 Hk Hks ltac:(lia)) as [P _].
    cbn zeta in P. destruct (P (Z.le_refl _)) as [T1 _].
    split; intros HL tape'; destruct (T1 tape') as (qs & [L F] & [[E1 _] [E2 _]]); rewrite Forall_forall in HL.
    + apply E1. eapply Forall_impl; [|exact F]. cbv beta. intros q [A A']. split; apply c34_enough; auto.
    + apply E2. eapply Forall_impl; [|exact F]. cbv beta. intros q [A A'].
      pose proof (HL _ (AT _ A)) as B1. pose proof (HL _ (AT _ A')) as B2. cbv beta in B1, B2.
      pose proof (zlen_nonneg _ (list_of Ks (fst q))). pose proof (zlen_nonneg _ (list_of Ks (snd q))).
      split; [split; apply c34_enough; auto; lia|]. right. apply join_enough; auto. lia.
Qed.

(** ** queries of many positions about values below the universe *)
Lemma enum_below (f : Z -> bool) u : 0 <= u -> exists r, enumerates (fun v => 0 <= v < u /\ f v = true) r /\ zlen r <= u.
Proof.
  intro Hu. exists (filter f (zrange 0 (Z.to_nat u))). split; [split; [apply sorted_filter, sorted_zrange|]|].
  - intro x. rewrite filter_In, In_zrange. rewrite Z2Nat.id by lia. cbn. reflexivity.
  - assert (forall l, zlen (filter f l) <= zlen l) as L.
    { induction l as [|a l IH]; cbn [filter]; [lia|]. destruct (f a); rewrite ?zlen_cons; lia. }
    specialize (L (zrange 0 (Z.to_nat u))). rewrite zlen_zrange in L. lia.
Qed.
Lemma enum_ext (P Q : Z -> Prop) r : (forall v, P v <-> Q v) -> enumerates P r -> enumerates Q r.
Proof. intros E [S I]. split; [exact S|]. intro x. rewrite I. apply E. Qed.
Lemma inb_In v S : existsb (Z.eqb v) S = true <-> In v S.
Proof. rewrite existsb_exists. split; [intros (x & I & E); apply Z.eqb_eq in E; now subst|intro I; exists v; split; [exact I|apply Z.eqb_refl]]. Qed.

Theorem c67_many : forall dbg tbl sort mapped name idx w more num ls e nss ens d u Ks,
  index_on d mapped idx u Ks -> sorts_by_cardinality (fst (mapped (f_index u Ks))) sort ->
  count_word w num -> 24 * num < 2 ^ 63 ->
  Forall2 line_of ls nss -> Forall (Forall fits_word) nss -> last_line e ens ->
  let read := firstn (Z.to_nat num) (nss ++ ens) in
  (dbg = true -> Forall (fun ns => ns <> []) read) ->
  Forall (Forall (fun v => v < u)) Ks -> Forall (Forall (fun n => low n < zlen Ks)) read ->
  let argv := idx :: w :: more in
  exists queries, Forall2 (fun q ns => enumerates (fun v => In v (map low ns)) q) queries read
  /\ let passes verb (result : list Z -> list Z -> Prop) program :=
       exists sizes,
         Forall2 (fun q s => exists r, result q r /\ s = zlen r) (filter (fun q => 2 <=? zlen q) queries) sizes
         /\ reports [] (size_lines verb sizes ++ [[W "tested "; N (zlen sizes); W " queries"]; [W "everything good"]]) d program in
     passes "intersection has size "%string (fun q r => exists Ss, named Ks q Ss /\ enumerates (fun v => forall S, In S Ss -> In v S) r)
       (run_test_intersect_many tbl sort dbg mapped name argv (lines ls ++ e) d)
     /\ passes "union has size "%string (fun q r => exists Ss, named Ks q Ss /\ enumerates (fun v => exists S, In S Ss /\ In v S) r)
       (run_test_union_many tbl dbg mapped name argv (lines ls ++ e) d).
Proof.
  intros dbg tbl sort mapped name idx w more num ls e nss ens d u Ks H HS Hw Hn H1 H2 H3 read HD HV HR argv.
  destruct (c66_many dbg tbl sort mapped name idx w more num ls e nss ens d u Ks H HS Hw Hn H1 H2 H3 HD) as (queries & Q & C).
  exists queries. split; [exact Q|]. destruct (C queries [] (eq_sym (app_nil_r queries))) as [C1 C2]. cbn zeta.
  assert (Hu : 0 <= u) by (destruct H as (Hu & _); unfold is_u32 in Hu; lia).
  assert (V : Forall valid Ks) by apply H.
  assert (NM : Forall (fun q => exists Ss, named Ks q Ss) queries).
  { clear -Q HR. unfold read in *. revert HR. induction Q as [|q ns qs rs E Q IH]; intro HR; [constructor|].
    inversion HR as [|? ? R1 R2]; subst. constructor; [|auto]. apply exists_named. apply Forall_forall. intros v Hv.
    apply (proj2 E) in Hv. apply in_map_iff in Hv as (x & <- & Hx). rewrite Forall_forall in R1. specialize (R1 x Hx). cbv beta in R1.
    split; [unfold low; apply Z.mod_pos_bound; lia|exact R1]. }
  assert (RG : forall Ss q, named Ks q Ss -> forall S v, In S Ss -> In v S -> 0 <= v < u).
  { intros Ss q N S v HSs Hv. apply named_in in N. rewrite Forall_forall in N, V, HV. specialize (N S HSs).
    destruct (V S N) as (_ & _ & F). specialize (HV S N). rewrite Forall_forall in F, HV. specialize (F v Hv). specialize (HV v Hv). cbv beta in F, HV. lia. }
  split.
  - destruct C1 as (sizes & S1 & S2 & _); [|exists sizes; split; [exact S1|now apply S2]].
    eapply Forall_impl; [|exact NM]. cbv beta. intros q (Ss & N) L2.
    destruct (enum_below (fun v => forallb (fun S => existsb (Z.eqb v) S) Ss) u Hu) as (r & E & L). exists r. split; [|exact L].
    exists Ss. split; [exact N|]. eapply enum_ext; [|exact E]. intro v. cbv beta. rewrite forallb_forall. split.
    + intros [_ K] S I. apply inb_In. now apply K.
    + intro K. split; [|intros S I; apply inb_In; now apply K].
      pose proof (named_length _ _ _ N). destruct Ss as [|S Ss]; [change (zlen (@nil (list Z))) with 0 in *; lia|].
      apply (RG _ _ N S v); [now left|]. apply K. now left.
  - destruct C2 as (sizes & S1 & S2 & _); [|exists sizes; split; [exact S1|now apply S2]].
    eapply Forall_impl; [|exact NM]. cbv beta. intros q (Ss & N) L2.
    destruct (enum_below (fun v => existsb (fun S => existsb (Z.eqb v) S) Ss) u Hu) as (r & E & L). exists r. split; [|exact L].
    exists Ss. split; [exact N|]. eapply enum_ext; [|exact E]. intro v. cbv beta. rewrite existsb_exists. split.
    + intros [_ (S & I & K)]. exists S. split; [exact I|now apply inb_In].
    + intros (S & I & K). split; [now apply (RG _ _ N S v)|]. exists S. split; [exact I|now apply inb_In].
Qed.
