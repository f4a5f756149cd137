(** Proofs for C64, continued: generators of queries, pipes, and a session. *)
From Coq Require Import String Lia Sorted Floats.SpecFloat.
From Verif Require Import Base Hw Spec Lib Format Shown Counts Room Holds Told Drawn Typed Printed Report Session Lax Bench
  M_Util M_Build M_Seq M_Many M_Index M_Print M_Calls M_Tests M_Drivers M_Tools M_Text M_Out M_Say M_Session M_Lax M_Bench
  P_Ex P_Fin1 P_Index P_Format P_Align P_Tests P_Tests4 P_Drivers P_Tools P_Text P_Text2 P_Text3 P_Text4 P_Text5 P_Text6 P_Out3 P_Say P_Say3 P_Say4
  P_Session P_Session2 P_Session3 P_Lax P_Bench P_Bench2.
Local Open Scope Z_scope.

(** ** generators *)
Lemma run_pairs_of_ok iso name v w more num m tape d :
  begins v num -> storable_int iso num -> 0 <= num < 2 ^ 32 -> begins w m -> storable_int iso m -> 1 <= m < 2 ^ 32 ->
  exists qs t, zlen qs = num /\ Forall (fun q => 0 <= fst q < m /\ 0 <= snd q < m) qs
    /\ typed t (in_a_row qs) /\ run_pairs_of iso name (v :: w :: more) tape d = (t, d, Ok 0).
Proof.
  intros Hv Hs Hn Hw Hsm Hm.
  assert (Hn' : is_u32 num) by (unfold is_u32; lia). assert (Hm' : is_u32 m) by (unfold is_u32; lia).
  destruct (c36_pairwise num m Hn' Hm') as [P _].
  destruct (proj1 (P (gen_pairwise_queries num m tape)) (ex_intro _ tape eq_refl)) as (qs & [G1 G2] & E).
  replace (m =? 0) with false in G2 by (symmetry; apply Z.eqb_neq; lia).
  exists qs, (show_pairs (in_a_row qs)). split; [auto|]. split; [eapply Forall_impl; [|exact G2]; cbv beta; intros; lia|].
  split.
  - apply typed_pairs. clear -G2. induction G2 as [|q qs Hq _ IH]; [constructor|].
    change (in_a_row (q :: qs)) with (fst q :: snd q :: in_a_row qs). constructor; [lia|]. constructor; [lia|auto].
  - unfold run_pairs_of. rewrite (then_quiet _ _ _ (Some (show_pairs (in_a_row qs)))).
    + rewrite then_cout. unfold quiet. cbn [fst snd]. now rewrite app_nil_r.
    + cbn [pairwise_main]. rewrite (atoi_ok iso v num Hv Hs), (atoi_ok iso w m Hw Hsm). cbn [bind].
      rewrite !low_id by auto. rewrite E. reflexivity.
Qed.

Lemma run_queries_of_ok iso generate mapped name idx w more n d u Ks mem f ix qs :
  index_on d mapped idx u Ks -> mapped (f_index u Ks) = (mem, f) -> index_mmap mem f = Ok ix ->
  begins w n -> storable_int iso n -> is_u32 n -> generate mem f n = Ok qs ->
  run_queries_of iso generate mapped name (idx :: w :: more) d = (show_lines qs, d, Ok 0).
Proof.
  intros H EM OM Hw Hs Hn E. unfold run_queries_of.
  rewrite (then_quiet _ _ _ n) by (rewrite (atoi_ok iso w n Hw Hs); now rewrite low_id).
  rewrite (then_mmap d mapped idx u Ks mem f ix) by assumption. rewrite (then_quiet _ _ _ qs E), then_cout. unfold quiet. cbn [fst snd].
  now rewrite app_nil_r.
Qed.

Theorem c64_generators : forall iso dbg mapped name idx w more n tape d,
  int_word iso w n ->
  let ranks := run_queries_of iso (fun mem f n => gen_select_queries dbg mem f n tape) mapped name (idx :: w :: more) d in
  let values := run_queries_of iso (fun mem f n => gen_next_geq_queries dbg mem f n tape) mapped name (idx :: w :: more) d in
  (no_file d idx -> ranks = ([], d, Throw) /\ values = ([], d, Throw))
  /\ forall u Ks, index_on d mapped idx u Ks ->
     (exists qs, zlen qs = zlen Ks * n /\ Forall (fun q => 0 <= snd q < zlen (fst q)) (asked Ks n qs)
        /\ reports [] (map (fun q => [N q]) qs) d ranks)
     /\ (Forall (fun S => decode_fits S u) Ks ->
         exists qs, zlen qs = zlen Ks * n /\ Forall (fun q => In (snd q) (fst q)) (asked Ks n qs)
           /\ reports [] (map (fun q => [N q]) qs) d values)
     /\ (Exists (fun S => ~ decode_fits S u) Ks -> values = ([], d, UB)).
Proof.
  intros iso dbg mapped name idx w more n tape d Hw ranks values.
  assert (EA : atoi iso w = Ok n) by now apply atoi_word.
  assert (Hn : is_u32 n).
  { destruct Hw as [(m & _ & _ & ->)|[_ ->]]; [|unfold is_u32; lia]. unfold low, is_u32. pose proof (Z.mod_pos_bound m (2 ^ 32)). lia. }
  split.
  - intro H. unfold ranks, values, run_queries_of. rewrite !(then_quiet _ _ _ n EA). now rewrite !mmap_missing.
  - intros u Ks H. destruct (mapped (f_index u Ks)) as [mem f] eqn:EM.
    destruct (index_on_holds dbg d mapped idx u Ks mem f H EM) as (H31 & H0 & ix & O).
    destruct H as (Hu & V & HH). assert (H : index_on d mapped idx u Ks) by exact (conj Hu (conj V HH)). clear HH.
    pose proof (keeps_all Ks V) as K. assert (VK : Forall valid (kept_lists default_params Ks)) by now rewrite K.
    assert (OM : index_mmap mem f = Ok ix) by apply O.
    assert (T : forall qs, show_lines qs = ptext [] (map (fun q => [N q]) qs)).
    { induction qs as [|q qs IH]; [reflexivity|]. unfold show_lines, ptext in *. cbn [flat_map map]. rewrite IH. unfold ltext. cbn [map concat text].
      rewrite app_nil_r. reflexivity. }
    assert (X : forall generate qs, generate mem f n = Ok qs -> Forall (fun q => 0 <= q) qs ->
      reports [] (map (fun q => [N q]) qs) d (run_queries_of iso generate mapped name (idx :: w :: more) d)).
    { intros generate qs E F. apply reports_of.
      - apply Forall_map. eapply Forall_impl; [|exact F]. intros q Hq. constructor; [exact Hq|constructor].
      - unfold run_queries_of. rewrite (then_quiet _ _ _ n EA). rewrite (then_mmap d mapped idx u Ks mem f ix) by assumption.
        rewrite (then_quiet _ _ _ qs E), then_cout. unfold quiet. cbn [fst snd]. now rewrite app_nil_r, T. }
    split; [|split].
    + pose proof (c36_select dbg dbg default_params u Ks mem f n Hu Hn VK H0) as C. rewrite K in C. destruct C as (A & B & _).
      destruct (A tape) as [qs E]. destruct (proj1 (B qs) (ex_intro _ tape E)) as [G1 G2].
      exists qs. split; [exact G1|]. split; [exact G2|]. apply X; [exact E|].
      apply (asked_all Ks n qs _ _ ltac:(unfold is_u32 in Hn; lia) G1 G2). intros S q _ Hq. cbn [fst snd] in Hq. lia.
    + intro HD. pose proof (c36_next_geq dbg dbg default_params u Ks mem f n Hu Hn VK H31) as C. rewrite K in C. destruct C as (C & _ & _).
      destruct (C HD) as [A B]. destruct (A tape) as [qs E]. destruct (proj1 (B qs) (ex_intro _ tape E)) as [G1 G2].
      exists qs. split; [exact G1|]. split; [exact G2|]. apply X; [exact E|].
      apply (asked_all Ks n qs _ _ ltac:(unfold is_u32 in Hn; lia) G1 G2). intros S q HS Hq. cbn [fst snd] in Hq.
      rewrite Forall_forall in V. destruct (V S HS) as (_ & _ & F). rewrite Forall_forall in F. specialize (F q Hq). lia.
    + intro HD. pose proof (c36_next_geq dbg dbg default_params u Ks mem f n Hu Hn VK H31) as C. rewrite K in C. destruct C as (_ & C & _).
      unfold values, run_queries_of. rewrite (then_quiet _ _ _ n EA). rewrite (then_mmap d mapped idx u Ks mem f ix) by assumption.
      now rewrite (C HD tape).
Qed.

(** ** pipes *)
Lemma common_le S T : common S T <= zlen S.
Proof.
  unfold common. induction S as [|x S IH]; [cbn [filter]; lia|]. cbn [filter]. rewrite zlen_cons. destruct (existsb _ _); [rewrite zlen_cons|]; lia.
Qed.
Lemma row_forall (P : Z -> Prop) qs : Forall (fun q => P (fst q) /\ P (snd q)) qs -> Forall P (in_a_row qs).
Proof.
  induction 1 as [|q qs [H1 H2] _ IH]; [constructor|]. change (in_a_row (q :: qs)) with (fst q :: snd q :: in_a_row qs).
  constructor; [exact H1|]. now constructor.
Qed.

Theorem c64_pipe_pairs : forall iso nan time dbg tbl mapped name name' idx v w more more' num tape d u Ks,
  index_on d mapped idx u Ks ->
  begins v num -> storable_int iso num -> 0 <= num < 2 ^ 32 ->
  begins w (zlen Ks) -> storable_int iso (zlen Ks) -> 1 <= zlen Ks < 2 ^ 32 ->
  let found q := existsb (Z.eqb (snd q)) (list_of Ks (fst q)) in
  let meet q := common (list_of Ks (fst q)) (list_of Ks (snd q)) in
  let join q := zlen (list_of Ks (fst q)) + zlen (list_of Ks (snd q)) - meet q in
  let pipe main := piped (run_pairs_of iso name (v :: w :: more) tape) (main name' (idx :: v :: more')) d in
  exists qs, zlen qs = num /\ Forall (fun q => 0 <= fst q < zlen Ks /\ 0 <= snd q < zlen Ks) qs
    /\ reports nan (perf_lines "contains queries" num num (4 * zlen (filter found qs) mod 2 ^ 64) time) d
         (pipe (run_contains iso nan time dbg mapped))
    /\ (shuffle_table_ok tbl -> Forall (fun S => zlen S + 23 <= u) Ks ->
          reports nan (perf_lines "pairwise-intersections" num num (11 * total meet qs mod 2 ^ 64) time) d
            (pipe (run_intersect iso nan time tbl dbg mapped)))
    /\ ((forall S T, In S Ks -> In T Ks -> zlen S + zlen T - common S T + 23 <= u) ->
          reports nan (perf_lines "pairwise-unions" num num (11 * total join qs mod 2 ^ 64) time) d
            (pipe (run_union iso nan time tbl dbg mapped))).
Proof.
  intros iso nan time dbg tbl mapped name name' idx v w more more' num tape d u Ks H Hv Hs Hn Hw Hsm Hm found meet join pipe.
  destruct (run_pairs_of_ok iso name v w more num (zlen Ks) tape d Hv Hs Hn Hw Hsm Hm) as (qs & t & L & F & HT & E).
  assert (Hc : count_word v num) by (apply begins_count; auto; lia).
  assert (HF : Forall (storable_int iso) (in_a_row qs)).
  { apply row_forall. eapply Forall_impl; [|exact F]. cbv beta. intros q [A B]. unfold storable_int in *. destruct iso; lia. }
  assert (HR : pairs_read num (in_a_row qs) qs).
  { exists []. rewrite app_nil_r. split; [reflexivity|]. left. lia. }
  assert (AT : forall i, 0 <= i < zlen Ks -> exists S, znth Ks i = Some S /\ In S Ks).
  { intros i Hi. destruct (znth Ks i) as [S|] eqn:ES; [|apply znth_None in ES; lia]. exists S. split; [reflexivity|]. eapply znth_In; eauto. }
  assert (PP : pairs_of Ks qs).
  { eapply Forall_impl; [|exact F]. cbv beta. intros q [A B]. destruct (AT _ A) as (S & ES & _). destruct (AT _ B) as (T & ET & _).
    unfold is_u32. split; [eauto|]. split; [eauto|]. lia. }
  assert (PO : positions Ks qs).
  { eapply Forall_impl; [|exact PP]. cbv beta. intros q (A & _ & B & C). auto. }
  assert (IN : forall q, In q qs -> In (list_of Ks (fst q)) Ks /\ In (list_of Ks (snd q)) Ks).
  { intros q Hq. rewrite Forall_forall in F. destruct (F q Hq) as [A B]. unfold list_of.
    destruct (AT _ A) as (S & -> & I1). destruct (AT _ B) as (T & -> & I2). auto. }
  destruct (c64_pairs iso nan time dbg tbl mapped name' idx v more' num t (in_a_row qs) qs d u Ks H Hc ltac:(lia) HT HF HR) as (C1 & C2 & C3).
  rewrite L in C1, C2, C3. exists qs. split; [exact L|]. split; [exact F|]. unfold pipe, piped. rewrite E. split; [|split].
  - exact (C1 PO).
  - intros HS HB. apply C2; auto. apply Forall_forall. intros q Hq. destruct (IN q Hq) as [I1 _]. rewrite Forall_forall in HB. specialize (HB _ I1).
    cbv beta in HB. pose proof (common_le (list_of Ks (fst q)) (list_of Ks (snd q))). lia.
  - intros HB. apply C3; auto. apply Forall_forall. intros q Hq. destruct (IN q Hq) as [I1 I2]. exact (HB _ _ I1 I2).
Qed.

Theorem c64_pipe_words : forall iso nan time dbg mapped name name' idx w more more' n tape d u Ks,
  index_on d mapped idx u Ks ->
  begins w n -> storable_int iso n -> is_u32 n -> zlen Ks < 2 ^ 32 -> zlen Ks * n < 2 ^ 32 ->
  let pipe (generate : list Z -> Z -> Z -> list Z -> res (list Z)) main :=
    piped (run_queries_of iso (fun mem f n => generate mem f n tape) mapped name (idx :: w :: more)) (main name' (idx :: w :: more')) d in
  (Forall (fun S => storable_int iso (zlen S - 1)) Ks ->
   exists qs, zlen qs = zlen Ks * n /\ Forall (fun q => 0 <= snd q < zlen (fst q)) (asked Ks n qs)
     /\ reports nan (perf_lines "select queries" (zlen Ks * n) (zlen Ks * n)
                       (4 * total (fun q => nth (Z.to_nat (snd q)) (fst q) 0) (asked Ks n qs) mod 2 ^ 64) time) d
          (pipe (gen_select_queries dbg) (run_select iso nan time dbg mapped)))
  /\ (Forall (fun S => decode_fits S u) Ks -> Forall (Forall (storable_int iso)) Ks ->
   exists qs, zlen qs = zlen Ks * n /\ Forall (fun q => In (snd q) (fst q)) (asked Ks n qs)
     /\ reports nan (perf_lines "next_geq queries" (zlen Ks * n) (zlen Ks * n) (4 * total (fun q => q) qs mod 2 ^ 64) time) d
          (pipe (gen_next_geq_queries dbg) (run_next_geq iso nan time dbg mapped))).
Proof.
  intros iso nan time dbg mapped name name' idx w more more' n tape d u Ks H Hw Hs Hn HK HX pipe.
  destruct (mapped (f_index u Ks)) as [mem f] eqn:EM.
  destruct (index_on_holds dbg d mapped idx u Ks mem f H EM) as (H31 & H0 & ix & O).
  destruct H as (Hu & V & HH). assert (H : index_on d mapped idx u Ks) by exact (conj Hu (conj V HH)). clear HH.
  pose proof (keeps_all Ks V) as K. assert (VK : Forall valid (kept_lists default_params Ks)) by now rewrite K.
  assert (OM : index_mmap mem f = Ok ix) by apply O. unfold is_u32 in Hn. pose proof (zlen_nonneg _ Ks) as K0.
  assert (Hc : count_word w n) by (apply begins_count; auto; lia).
  assert (LT : (zlen Ks * n <? 2 ^ 32) = true) by (apply Z.ltb_lt; exact HX).
  split.
  - intros HF. pose proof (c36_select dbg dbg default_params u Ks mem f n Hu Hn VK H0) as C. rewrite K in C. destruct C as (A & B & _).
    destruct (A tape) as [qs E]. destruct (proj1 (B qs) (ex_intro _ tape E)) as [G1 G2].
    assert (P : Forall (fun q => 0 <= q /\ storable_int iso q /\ is_u32 q) qs).
    { apply (asked_all Ks n qs _ _ ltac:(lia) G1 G2). intros S q I Hq. cbn [fst snd] in Hq. rewrite Forall_forall in HF, V. specialize (HF S I). cbv beta in HF.
      pose proof (valid_zlen S (V S I)). unfold storable_int, is_u32 in *. destruct iso; lia. }
    exists qs. split; [exact G1|]. split; [exact G2|]. unfold pipe, piped.
    rewrite (run_queries_of_ok iso (fun mem f n => gen_select_queries dbg mem f n tape) mapped name idx w more n d u Ks mem f ix qs) by assumption.
    destruct (c64_words iso nan time dbg mapped name' idx w more' n (show_lines qs) qs d u Ks H Hc HK ltac:(lia)) as [C _].
    + apply typed_lines. eapply Forall_impl; [|exact P]. tauto.
    + eapply Forall_impl; [|exact P]. tauto.
    + eapply Forall_impl; [|exact P]. tauto.
    + destruct (C ltac:(right; lia) ltac:(lia)) as [R _]. rewrite LT in R. rewrite (selected_ok _ _ G2), total_map in R. exact R.
  - intros HD HF. pose proof (c36_next_geq dbg dbg default_params u Ks mem f n Hu Hn VK H31) as C. rewrite K in C. destruct C as (C & _ & C3).
    destruct (C HD) as [A B]. clear C. destruct (A tape) as [qs E]. destruct (proj1 (B qs) (ex_intro _ tape E)) as [G1 G2].
    assert (P : Forall (fun q => 0 <= q /\ storable_int iso q /\ is_u32 q) qs).
    { apply (asked_all Ks n qs _ _ ltac:(lia) G1 G2). intros S q I Hq. cbn [fst snd] in Hq. rewrite Forall_forall in HF, V. specialize (HF S I).
      destruct (V S I) as (_ & _ & F). rewrite Forall_forall in HF, F. specialize (F q Hq). specialize (HF q Hq). unfold is_u32. split; [lia|]. split; [auto|lia]. }
    assert (FU : Forall is_u32 qs) by (eapply Forall_impl; [|exact P]; tauto).
    exists qs. split; [exact G1|]. split; [exact G2|]. unfold pipe, piped.
    rewrite (run_queries_of_ok iso (fun mem f n => gen_next_geq_queries dbg mem f n tape) mapped name idx w more n d u Ks mem f ix qs) by assumption.
    destruct (c64_words iso nan time dbg mapped name' idx w more' n (show_lines qs) qs d u Ks H Hc HK ltac:(lia)) as [C _].
    + apply typed_lines. eapply Forall_impl; [|exact P]. tauto.
    + eapply Forall_impl; [|exact P]. tauto.
    + exact FU.
    + destruct (C ltac:(right; lia) ltac:(lia)) as [_ R]. rewrite LT in R.
      pose proof (c35_next_geq dbg dbg default_params u Ks mem f n qs Hu VK H0) as D. rewrite K in D. destruct (D ltac:(lia) HK FU) as [D1 _].
      specialize (D1 ltac:(right; lia) ltac:(lia)). rewrite (C3 qs (conj G1 G2) HX HK) in D1. apply (f_equal (fun r => match r with Ok p => snd p | _ => 0 end)) in D1.
      cbv beta iota in D1. cbn [snd] in D1. rewrite <- D1 in R. exact R.
Qed.

(** ** a session *)
Theorem c64_session : forall stod iso conv nan time dbg sized mapped names a b c e wd ws wq coll idx num lo hi u density size n tape tape' d,
  (forall x, 0 <= conv x < 2 ^ 64) ->
  int_word iso a num -> int_word iso b lo -> int_word iso c hi -> int_word iso e u ->
  is_u32 num -> is_u32 lo -> is_u32 hi -> 0 <= u < 4294901760 -> lo <= hi ->
  stod wd = Ok density -> int_word iso ws size -> 0 <= size -> coll <> idx ->
  begins wq n -> 0 <= n < 2 ^ 31 -> hi <= 2 ^ 31 ->
  (forall file, zlen file <= 2 ^ 63 -> in_memory file (fst (mapped file)) (snd (mapped file))) ->
  let words := [word "--density"; wd; word "--size"; ws] in
  exists Ls d1,
    let Ks := kept_lists (mkParams density size) Ls in
    run_uniform iso (names 0) [a; b; c; e; coll] tape d = ([], d1, Ok 0)
    /\ zlen Ls = num /\ Forall (uniform_list lo hi u) Ls
    /\ (total zlen Ks < 2 ^ 37 -> zlen (f_index u Ks) <= 2 ^ 63 ->
        exists t d2,
          run_build_lax stod iso conv nan dbg sized (names 1) (coll :: words ++ [word "--out"; idx]) d1 = (t, d2, Ok 0)
          /\ index_on d2 mapped idx u Ks
          /\ reports nan [[N (11 * total zlen Ks mod 2 ^ 64 / 11)]; [W "Mean per run: "; R time; W " [musec]"];
                          [W "Mean per query: "; R (SFmul 53 1024 (over time (zlen Ks)) (dbl 1000)); W " [ns]"]] d2
               (run_cardinality nan time dbg mapped (names 2) [idx] d2)
          /\ (zlen Ks * n < 2 ^ 32 ->
              exists qs, zlen qs = zlen Ks * n /\ Forall (fun q => 0 <= snd q < zlen (fst q)) (asked Ks n qs)
                /\ reports nan (perf_lines "select queries" (zlen Ks * n) (zlen Ks * n)
                     (4 * total (fun q => nth (Z.to_nat (snd q)) (fst q) 0) (asked Ks n qs) mod 2 ^ 64) time) d2
                     (piped (run_queries_of iso (fun mem f n => gen_select_queries dbg mem f n tape') mapped (names 3) [idx; wq])
                        (run_select iso nan time dbg mapped (names 4) [idx; wq]) d2))).
Proof.
  intros stod iso conv nan time dbg sized mapped names a b c e wd ws wq coll idx num lo hi u density size n tape tape' d
    HC Ha Hb Hc He Hn Hl Hh Hu Hlh Hd Hs Hs0 NE Hq Hn31 Hhi HM words.
  destruct (c63_session stod iso conv nan dbg dbg sized mapped names a b c e wd ws coll idx num lo hi u density size tape d
    HC Ha Hb Hc He Hn Hl Hh Hu Hlh Hd Hs Hs0 NE) as (Ls & d1 & C).
  exists Ls, d1. cbn zeta in C. destruct C as (R1 & L1 & L2 & C). intro Ks. split; [exact R1|]. split; [exact L1|]. split; [exact L2|].
  intros B HZ. destruct (C B) as (t1 & t2 & d2 & _ & _ & R2 & _ & HI & _). exists (t1 ++ sized (f_index u Ks) ++ t2), d2.
  assert (V : Forall valid Ks).
  { apply (kept_valid (mkParams density size) u Ls); [exact Hs0|lia|eapply uniform_plain; eauto]. }
  assert (H : index_on d2 mapped idx u Ks).
  { split; [unfold is_u32; lia|]. split; [exact V|]. split; [exact HI|]. now apply HM. }
  split; [exact R2|]. split; [exact H|]. split.
  - exact (proj1 (proj2 (c64_index nan time dbg mapped (names 2) idx [] d2) u Ks H)).
  - intro HX.
    assert (HK : zlen Ks < 2 ^ 32).
    { unfold Ks, kept_lists. assert (zlen (filter (fun L => pass (mkParams density size) (zlen L) (last L 0)) Ls) <= zlen Ls).
      { generalize (fun L => pass (mkParams density size) (zlen L) (last L 0)). intro g. clear. induction Ls as [|L Ls IH]; [cbn [filter]; lia|].
        cbn [filter]. destruct (g L); rewrite ?zlen_cons; lia. }
      unfold is_u32 in Hn. lia. }
    apply (c64_pipe_words iso nan time dbg mapped (names 3) (names 4) idx wq [] [] n tape' d2 u Ks H Hq); auto.
    + unfold storable_int. destruct iso; lia.
    + unfold is_u32. lia.
    + apply Forall_forall. intros S HS. apply filter_In in HS as [HS _]. rewrite Forall_forall in L2. destruct (L2 S HS) as (_ & _ & Z1 & _).
      pose proof (zlen_nonneg _ S). unfold storable_int. destruct iso; lia.
Qed.

(** ** too few words *)
Theorem c64_usage : forall iso nan time tbl dbg generate mapped name argv stdin tape d,
  let says (words : string) r := r = (name ++ word words, d, Ok 1) in
  (zlen argv < 2 ->
   Forall (says " index_filename num_queries < queries
"%string) [run_contains iso nan time dbg mapped name argv stdin d; run_intersect iso nan time tbl dbg mapped name argv stdin d;
    run_union iso nan time tbl dbg mapped name argv stdin d]
   /\ Forall (says " index_filename num_queries_per_sequence < queries
"%string) [run_select iso nan time dbg mapped name argv stdin d; run_next_geq iso nan time dbg mapped name argv stdin d]
   /\ says " index_filename num_queries_per_sequence
"%string (run_queries_of iso generate mapped name argv d)
   /\ says " num_queries num_sequences
"%string (run_pairs_of iso name argv tape d))
  /\ (argv = [] ->
      Forall (says " <index_filename>
"%string) [run_cardinality nan time dbg mapped name argv d; run_decode nan time dbg mapped name argv d; run_uncompress nan time dbg mapped name argv d]).
Proof.
  intros iso nan time tbl dbg generate mapped name argv stdin tape d says. split.
  - intro H. destruct argv as [|a [|b more]]; [| |rewrite !zlen_cons in H; pose proof (zlen_nonneg _ more); lia].
    all: repeat split; repeat constructor; unfold says, run_contains, run_intersect, run_union, run_select, run_next_geq, run_pairs, run_words,
      run_queries_of, run_pairs_of, pairwise_main, usage_.
    all: rewrite ?(then_quiet _ _ _ None) by reflexivity; unfold usage_; rewrite then_cout; unfold quiet; cbn [fst snd]; now rewrite app_nil_r.
  - intros ->. repeat constructor; unfold says, run_cardinality, run_decode, run_uncompress, usage_; rewrite then_cout; unfold quiet; cbn [fst snd];
      now rewrite app_nil_r.
Qed.
