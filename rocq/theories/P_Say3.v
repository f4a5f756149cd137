(** Proofs for C53: the exact texts for the indexes of build.cpp. *)
From Coq Require Import Lia Sorted String Floats.SpecFloat.
From Verif Require Import Base Hw Spec Lib L_Bits L_Group Layout M_Util M_Build M_Seq M_Decode M_Uncompress
  M_Query M_Union M_Many M_Index M_Print M_Calls M_Tests M_Drivers M_Text M_Out M_Say Holds Format Room Shown Typed Printed
  Told Counts Outcome Report
  P_Build1 P_Build2 P_Build3 P_Seq P_Decode P_Query P_NextGeq
  P_Ng P_Enum P_Uncompress P_Sets P_Index P_Fin1 P_Fin2 P_Fin3 P_Fin4 P_Room P_Tests P_Tests2 P_Tests3 P_Tests4 P_Fits
  P_Counts P_Shown P_Drivers P_Text5 P_Text6 P_Out3 P_Say P_Say2.
From Verif Require P_Print.
Local Open Scope Z_scope.

Lemma writes_text nan ls : Forall (Forall nonneg) ls -> writes nan ls (Ok (ptext nan ls)).
Proof. intro H. exists (ptext nan ls). split; [reflexivity|]. now apply ptext_page. Qed.

(** ** the numbers are not negative *)
Lemma if_not_nonneg b l : Forall nonneg l -> Forall (Forall nonneg) (if_not b l).
Proof. intro H. destruct b; constructor; auto. Qed.
Lemma at_nonneg l d j : Forall (fun v => 0 <= v) l -> 0 <= d -> 0 <= at_ l d j.
Proof.
  intros H Hd. unfold at_. destruct (nth_in_or_default (Z.to_nat j) l d) as [I| ->]; [|exact Hd].
  rewrite Forall_forall in H. auto.
Qed.
Lemma last_nonneg l : Forall (fun v => 0 <= v) l -> 0 <= last l 0.
Proof.
  intro H. destruct l as [|x l]; [cbn; lia|]. rewrite Forall_forall in H. apply H.
  rewrite (app_removelast_last 0 (l := x :: l)) at 2 by discriminate. apply in_or_app. right. now left.
Qed.
Lemma geq_nonneg l v : Forall (fun v => 0 <= v) l -> 0 <= spec_next_geq l v.
Proof.
  intro H. induction H as [|x l Hx H IH]; cbn [spec_next_geq]; [lia|].
  destruct (v <=? x); auto.
Qed.
Lemma reports_nonneg verb rep pairs : forall k, 0 <= k ->
  Forall (fun p => Forall (Forall nonneg) (rep (fst p) (snd p))) pairs -> Forall (Forall nonneg) (reports verb rep k pairs).
Proof.
  induction pairs as [|(L & L') pairs IH]; intros k Hk H; cbn [reports]; [constructor|]. inversion H; subst.
  apply Forall_app. split; [assumption|]. apply Forall_app. split; [|apply IH; [lia|assumption]].
  apply if_not_nonneg. pieces. lia.
Qed.
Lemma session_nonneg verb last_verb u rep pairs : 0 <= u ->
  Forall (fun p => Forall (Forall nonneg) (rep (fst p) (snd p))) pairs ->
  Forall (Forall nonneg) (session verb last_verb u rep pairs).
Proof.
  intros Hu H. unfold session. apply Forall_app. split; [pieces|]. apply Forall_app. split; [now apply reports_nonneg|].
  apply Forall_app. split; [pieces; apply zlen_nonneg|]. apply if_not_nonneg. pieces.
Qed.

Section Nonneg.
Variables L S : list Z.
Hypothesis HL : Forall (fun v => 0 <= v) L.
Hypothesis HS : Forall (fun v => 0 <= v) S.
Lemma card_nonneg : Forall (Forall nonneg) (card_report L S).
Proof. apply if_not_nonneg. pieces; apply zlen_nonneg. Qed.
Lemma length_nonneg : Forall (Forall nonneg) (length_report L S).
Proof. apply if_not_nonneg. pieces; apply zlen_nonneg. Qed.
Lemma value_nonneg d : 0 <= d -> Forall (Forall nonneg) (value_report d L S).
Proof.
  intro Hd. apply flat_map_Forall. intros j Hj. apply In_zrange in Hj. apply if_not_nonneg. unfold value_line.
  pieces; try apply zlen_nonneg; try lia; apply at_nonneg; auto; lia.
Qed.
Lemma decode_nonneg : Forall (Forall nonneg) (decode_report L S).
Proof.
  apply Forall_app. split; [apply card_nonneg|]. apply Forall_app. split; [apply length_nonneg|]. now apply value_nonneg.
Qed.
Lemma uncompress_nonneg : Forall (Forall nonneg) (uncompress_report L S).
Proof. apply Forall_app. split; [apply length_nonneg|]. now apply value_nonneg. Qed.
Lemma contains_nonneg : Forall (Forall nonneg) (contains_report L S).
Proof.
  apply Forall_app. split; [apply card_nonneg|]. apply flat_map_Forall. intros v Hv. apply if_not_nonneg.
  pieces. rewrite Forall_forall in HL. auto.
Qed.
Lemma select_nonneg : Forall (Forall nonneg) (select_report L S).
Proof.
  apply Forall_app. split; [apply card_nonneg|]. apply flat_map_Forall. intros j Hj. apply In_zrange in Hj.
  apply Forall_app. split; apply if_not_nonneg; unfold value_line; pieces; try apply zlen_nonneg; try lia;
    apply at_nonneg; auto; try lia. now apply last_nonneg.
Qed.
Lemma next_geq_nonneg : Forall (Forall nonneg) (next_geq_report L S).
Proof.
  apply Forall_app. split; [apply card_nonneg|]. apply Forall_app. split; apply flat_map_Forall; intros j Hj;
    apply In_zrange in Hj; apply if_not_nonneg; pieces; try lia; try (now apply last_nonneg); now apply geq_nonneg.
Qed.
End Nonneg.

Lemma valid_nonneg S : valid S -> Forall (fun v => 0 <= v) S.
Proof. intros (_ & _ & H). eapply Forall_impl; [|exact H]. cbn. unfold is_u32. lia. Qed.
Lemma pairs_nonneg (P : list Z -> list Z -> Prop) Ks Ks' :
  (forall L S, Forall (fun v => 0 <= v) L -> Forall (fun v => 0 <= v) S -> P L S) ->
  Forall (Forall is_u32) Ks -> Forall valid Ks' -> Forall (fun p => P (fst p) (snd p)) (combine Ks Ks').
Proof.
  intros H F V. apply Forall_forall. intros (L & S) HI. cbn [fst snd].
  pose proof (in_combine_l _ _ _ _ HI) as H1. pose proof (in_combine_r _ _ _ _ HI) as H2.
  rewrite Forall_forall in F, V. apply H; [|apply valid_nonneg; auto].
  eapply Forall_impl; [|exact (F L H1)]. cbn. unfold is_u32. lia.
Qed.

Theorem c53_reports : forall dbg dbg' params params' u u' Ls Ls' mem f,
  is_u32 u' -> Forall valid (kept_lists params' Ls') -> holds_index dbg params' u' Ls' 31 mem f ->
  let Ks := kept_lists params Ls in
  let Ks' := kept_lists params' Ls' in
  let data := collection u Ls in
  let pairs := combine Ks Ks' in
  zlen Ks <= zlen Ks' -> Forall short Ls -> Forall (Forall is_u32) Ks ->
  let long := Forall (fun p => zlen (fst p) <= zlen (snd p)) pairs in
  (Forall (fun S => decode_fits S u') Ks' -> long ->
     writes [] (session "decoded " "decoded " u' decode_report pairs) (say_test_decode dbg' params mem f data))
  /\ writes [] (session "checked " "checked " u' contains_report pairs) (say_test_contains dbg' params mem f data)
  /\ writes [] (session "checked " "checked " u' select_report pairs) (say_test_select dbg' params mem f data)
  /\ writes [] (session "decoded " "decoded " u' (enumerator_report u') pairs) (say_test_enumerator dbg' params mem f data)
  /\ (forall fuel, (100 <= fuel)%nat -> Forall (fun L => valid L /\ last L 0 + 1000001 < 2 ^ 32) Ks ->
        writes [] (session "checked " "checked " u' next_geq_report pairs) (say_test_next_geq fuel dbg' params mem f data)
        /\ writes [] (session "checked " "checked " u' next_geq_report pairs)
             (say_test_next_geq_enumerator fuel dbg' params mem f data))
  /\ (u' < 2 ^ 32 - 65536 -> Forall (fun S => last S 0 / 65536 <= u' / 65536 /\ zlen S <= u') Ks' -> long ->
        writes [] (session "decoded " "uncompressed " u' uncompress_report pairs)
          (say_test_uncompress dbg' params mem f data)).
Proof.
  intros dbg dbg' params params' u u' Ls Ls' mem f Hu V HI Ks Ks' data pairs HK HSh HU long.
  destruct (holds_opened dbg params' u' Ls' 31 mem f Hu ltac:(lia) V HI) as (ix & O). fold Ks' in O, V.
  assert (O0 : opened 0 mem f u' Ks' ix) by (eapply opened_slack; [exact O|lia]).
  assert (U0 : 0 <= u') by (unfold is_u32 in Hu; lia).
  assert (HSk : Forall short Ks).
  { unfold Ks, kept_lists. apply Forall_forall. intros L HL. apply filter_In in HL as [HL _].
    rewrite Forall_forall in HSh. auto. }
  assert (NN : forall verb last_verb rep,
    (forall L S, Forall (fun v => 0 <= v) L -> Forall (fun v => 0 <= v) S -> Forall (Forall nonneg) (rep L S)) ->
    writes [] (session verb last_verb u' rep pairs) (Ok (ptext [] (session verb last_verb u' rep pairs)))).
  { intros verb last_verb rep H. apply writes_text, session_nonneg; [exact U0|].
    apply (pairs_nonneg (fun L S => Forall (Forall nonneg) (rep L S))); auto. }
  unfold data. split; [|split; [|split; [|split; [|split]]]].
  - intros HF HP. rewrite (say_decode_ok dbg' params mem f u u' Ls Ks' ix); auto. apply NN. apply decode_nonneg.
  - rewrite (say_contains_ok dbg' params mem f u u' Ls Ks' ix); auto. apply NN. intros. now apply contains_nonneg.
  - rewrite (say_select_ok dbg' params mem f u u' Ls Ks' ix); auto.
    + apply NN. apply select_nonneg.
    + eapply Forall_impl; [|exact HSk]. unfold short. cbn. lia.
  - rewrite (say_enumerator_ok dbg' params mem f u u' Ls Ks' ix); auto.
    + apply NN. intros. now apply value_nonneg.
    + eapply Forall_impl; [|exact HSk]. unfold short. cbn. lia.
  - intros fuel Hf HL. change (2 ^ 32) with 4294967296 in HL.
    rewrite (say_next_geq_ok fuel dbg' params mem f u u' Ls Ks' ix), (say_ng_ok fuel dbg' params mem f u u' Ls Ks' ix); auto.
    split; apply NN; apply next_geq_nonneg.
  - intros Hu' HF HP. change (2 ^ 32) with 4294967296 in Hu'.
    rewrite (say_uncompress_ok dbg' params mem f u u' Ls Ks' ix); auto. apply NN. apply uncompress_nonneg.
Qed.

(** ** when nothing is wrong *)
Lemma holds_plain dbg params u Ls slack mem f : is_u32 u -> Forall valid (kept_lists params Ls) ->
  holds_index dbg params u Ls slack mem f -> rd64 mem (f + 8) = Ok u /\ plain_universe mem f.
Proof.
  intros Hu V (HSh & st & o & q & E & Hf & HB & _).
  destruct (index_build_ok dbg params u Ls V HSh) as (st' & E' & _). rewrite E in E'. injection E' as <- -> ->.
  unfold index_file in HB. apply bytes_at_app in HB as [_ HB]. rewrite zlen_le_bytes in HB.
  apply bytes_at_app in HB as [HB _]. unfold bytes_of_u64s in HB. cbn [flat_map] in HB.
  apply bytes_at_app in HB as [HB _]. change (Z.of_nat 8) with 8 in HB.
  assert (B : 0 <= u < 2 ^ 64) by (unfold is_u32 in Hu; lia).
  assert (E0 : rd64 mem (f + 8) = Ok u) by (apply rd64_at; auto).
  split; [exact E0|]. intros v Ev. rewrite E0 in Ev. injection Ev as <-. now split.
Qed.

Lemma clean_writes verb last_verb mem f u r k : 0 <= u < 2 ^ 64 ->
  rd64 mem (f + 8) = Ok u -> tells (clean_scan verb mem f) last_verb " sequences" r (Ok (k, true)) ->
  writes [] (clean_session verb last_verb u k) r.
Proof.
  intros Hu E T. unfold tells in T. destruct r as [t| | | |]; try contradiction.
  destruct T as (ls & (v & B & Hv & ->) & P). exists t. split; [reflexivity|].
  assert (v = u). { rewrite (rd64_at mem (f + 8) v) in E by auto. now injection E. }
  subst v. unfold clean_session. cbn [app] in *. exact P.
Qed.

Theorem c53_clean : forall dbg dbg' params u Ls mem f,
  is_u32 u -> Forall valid (kept_lists params Ls) -> holds_index dbg params u Ls 31 mem f ->
  let Ks := kept_lists params Ls in
  let data := collection u Ls in
  let clean verb last_verb := writes [] (clean_session verb last_verb u (zlen Ks)) in
  (Forall (fun L => zlen L + 23 <= u) Ks -> clean "decoded "%string "decoded "%string (say_test_decode dbg' params mem f data))
  /\ clean "checked "%string "checked "%string (say_test_contains dbg' params mem f data)
  /\ clean "checked "%string "checked "%string (say_test_select dbg' params mem f data)
  /\ clean "decoded "%string "decoded "%string (say_test_enumerator dbg' params mem f data)
  /\ (forall fuel, (100 <= fuel)%nat -> Forall (fun L => last L 0 + 1000001 < 2 ^ 32) Ks ->
        clean "checked "%string "checked "%string (say_test_next_geq fuel dbg' params mem f data)
        /\ clean "checked "%string "checked "%string (say_test_next_geq_enumerator fuel dbg' params mem f data))
  /\ (u < 2 ^ 32 - 65536 -> Forall (fun L => last L 0 / 65536 <= u / 65536 /\ zlen L <= u) Ks ->
        clean "decoded "%string "uncompressed "%string (say_test_uncompress dbg' params mem f data)).
Proof.
  intros dbg dbg' params u Ls mem f Hu V H Ks data clean. unfold clean.
  destruct (holds_plain dbg params u Ls 31 mem f Hu V H) as [E P].
  assert (Hu0 : 0 <= u < 2 ^ 64) by (unfold is_u32 in Hu; lia).
  destruct (c30_accept dbg dbg' params u Ls mem f Hu V H) as (A1 & A2 & A3 & A4 & A5 & A6). fold Ks data in A1, A2, A3, A4, A5, A6.
  split; [|split; [|split; [|split; [|split]]]].
  - intro HF. eapply clean_writes; eauto. rewrite <- (A1 HF). now apply decode_tells.
  - eapply clean_writes; eauto. rewrite <- A2. now apply contains_tells.
  - eapply clean_writes; eauto. rewrite <- A3. now apply select_tells.
  - eapply clean_writes; eauto. rewrite <- A4. now apply enumerator_tells.
  - intros fuel Hf HL. destruct (A5 fuel Hf HL) as [A51 A52]. split; eapply clean_writes; eauto.
    + rewrite <- A51. now apply next_geq_tells.
    + rewrite <- A52. now apply ng_tells.
  - intros HU HF. eapply clean_writes; eauto. rewrite <- (A6 HU HF). now apply uncompress_tells.
Qed.

Theorem c53_verdict : forall dbg params mem f data fuel tbl sort pairs queries,
  (Forall is_byte mem ->
     let told verb last_verb := tells (clean_scan verb mem f) last_verb " sequences" in
     told "decoded "%string "decoded "%string (say_test_decode dbg params mem f data) (test_decode dbg params mem f data)
     /\ told "checked "%string "checked "%string (say_test_contains dbg params mem f data) (test_contains dbg params mem f data)
     /\ told "checked "%string "checked "%string (say_test_select dbg params mem f data) (test_select dbg params mem f data)
     /\ told "decoded "%string "decoded "%string (say_test_enumerator dbg params mem f data) (test_enumerator dbg params mem f data)
     /\ told "checked "%string "checked "%string (say_test_next_geq fuel dbg params mem f data) (test_next_geq fuel dbg params mem f data)
     /\ told "checked "%string "checked "%string (say_test_next_geq_enumerator fuel dbg params mem f data)
          (test_next_geq_enumerator fuel dbg params mem f data)
     /\ told "decoded "%string "uncompressed "%string (say_test_uncompress dbg params mem f data) (test_uncompress dbg params mem f data))
  /\ tells clean_pairs "tested " " queries" (say_test_intersect tbl sort dbg mem f pairs)
       (test_intersect tbl sort dbg mem f pairs)
  /\ tells clean_pairs "tested " " queries" (say_test_union tbl dbg mem f pairs) (test_union tbl dbg mem f pairs)
  /\ tells (clean_many "intersection has size ") "tested " " queries" (say_test_intersect_many tbl sort dbg mem f queries)
       (test_intersect_many tbl sort dbg mem f queries)
  /\ tells (clean_many "union has size ") "tested " " queries" (say_test_union_many tbl dbg mem f queries)
       (test_union_many tbl dbg mem f queries).
Proof.
  intros. split; [|split; [|split; [|split]]].
  - intro HM. pose proof (bytes_plain mem f HM) as P. intro told. unfold told.
    split; [|split; [|split; [|split; [|split; [|split]]]]].
    + now apply decode_tells. + now apply contains_tells. + now apply select_tells. + now apply enumerator_tells.
    + now apply next_geq_tells. + now apply ng_tells. + now apply uncompress_tells.
  - apply intersect_tells.
  - apply union_tells.
  - eapply tells_weaken; [|apply intersect_many_asked]. apply asked_many.
  - eapply tells_weaken; [|apply union_many_asked]. apply asked_many.
Qed.

(** ** set operations *)
Lemma expect_and_ok dbg mem f u kept ix q Ss e :
  opened 31 mem f u kept ix -> named kept q Ss -> 2 <= zlen q -> enumerates (fun v => forall S, In S Ss -> In v S) e ->
  expect_and dbg mem ix q = Ok e.
Proof.
  intros O HN Hq HE. unfold expect_and. rewrite (collects_ok dbg mem f u kept ix q Ss O HN). cbn [bind].
  destruct (gets_ok dbg mem f u kept ix q Ss O HN) as (seqs & EG & F1 & F2 & F3 & F4).
  assert (ES : exists S T R, Ss = S :: T :: R).
  { inversion HN as [|? S ? Ss1 H1 H2]; subst; [rewrite zlen_nil in *; lia|].
    inversion H2 as [|? T ? R H3 H4]; subst; [rewrite zlen_cons, zlen_nil in *; lia|]. eauto. }
  destruct ES as (S & T & R & ->). cbn [and_all].
  inversion F4 as [|? ? V1 F5]; subst. inversion F5 as [|? ? V2 F6]; subst.
  assert (FS : Forall sorted R) by (eapply Forall_impl; [|exact F6]; intros ? (? & ? & ?); auto).
  f_equal. eapply enumerates_unique; [|exact HE].
  pose proof (and_fold_enum R _ _ (merge_and_enum S T (proj1 (proj2 V1)) (proj1 (proj2 V2))) FS) as [S1 I1].
  split; auto. intro v. rewrite I1. cbn [In]. split.
  - intros ((H1 & H2) & H3) X [<-|[<-|HX]]; auto.
  - intro H1. split; [split|]; auto.
Qed.
Lemma expect_or_ok dbg mem f u kept ix q Ss e :
  opened 31 mem f u kept ix -> named kept q Ss -> enumerates (fun v => exists S, In S Ss /\ In v S) e ->
  expect_or dbg mem ix q = Ok e.
Proof.
  intros O HN HE. unfold expect_or. rewrite (collects_ok dbg mem f u kept ix q Ss O HN). cbn [bind].
  destruct (gets_ok dbg mem f u kept ix q Ss O HN) as (seqs & EG & F1 & F2 & F3 & F4).
  assert (FS : Forall sorted Ss) by (eapply Forall_impl; [|exact F4]; intros ? (? & ? & ?); auto).
  f_equal. eapply enumerates_unique; [|exact HE]. unfold or_all.
  pose proof (or_fold_enum Ss [] (fun _ => False)) as HF.
  destruct HF as [S1 I1]; auto; [split; [constructor|intro v; cbn; tauto]|].
  split; auto. intro v. rewrite I1. tauto.
Qed.

Lemma asked_exact (expect : list Z -> res (list Z)) (P : list Z -> list Z -> Prop) (u : Z) queries sizes :
  (forall q e, 2 <= zlen q -> P q e -> expect q = Ok e) ->
  Forall (fun q => 2 <= zlen q -> exists e, P q e) queries -> asked_sizes expect queries sizes ->
  Forall2 (fun q s => exists e, P q e /\ s = zlen e) (filter (fun q => 2 <=? zlen q) queries) sizes.
Proof.
  intros HE HQ A. unfold asked_sizes in A.
  assert (HF : Forall (fun q => 2 <= zlen q /\ exists e, P q e) (filter (fun q => 2 <=? zlen q) queries)).
  { apply Forall_forall. intros q Hq. apply filter_In in Hq as [H1 H2]. apply Z.leb_le in H2.
    rewrite Forall_forall in HQ. auto. }
  revert A HF. generalize (filter (fun q => 2 <=? zlen q) queries). intros l A. induction A as [|q s l sizes (e & E & ->) A IH];
    intro HF; constructor; inversion HF as [|? ? (H1 & e' & HP) HF']; subst.
  - exists e'. split; [exact HP|]. rewrite (HE q e' H1 HP) in E. now injection E as ->.
  - auto.
Qed.

Lemma tells_writes C v w r k : tells C v w r (Ok (k, true)) ->
  exists ls, C k ls /\ writes [] (ls ++ [[W v; N k; W w]; [W "everything good"]]) r.
Proof.
  unfold tells. destruct r as [t| | | |]; try contradiction. intros (ls & H1 & H2). exists ls. split; [exact H1|].
  now exists t.
Qed.

Theorem c53_queries : forall dbg dbg' params u Ls mem f tbl sort,
  is_u32 u -> Forall valid (kept_lists params Ls) -> holds_index dbg params u Ls 31 mem f ->
  sorts_by_cardinality mem sort ->
  let Ks := kept_lists params Ls in
  let ending k := [[W "tested "; N k; W " queries"]; [W "everything good"]] in
  (forall queries,
     Forall (fun q => exists S T, named Ks [fst q; snd q] [S; T] /\ zlen S + 23 <= u /\ zlen T + 23 <= u) queries ->
     writes [] ([W "reading queries..."] :: ending (zlen queries)) (say_test_intersect tbl sort dbg' mem f queries))
  /\ (forall queries,
     Forall (fun q => exists S T e, named Ks [fst q; snd q] [S; T]
       /\ enumerates (fun v => In v S \/ In v T) e /\ zlen e + 23 <= u) queries ->
     writes [] ([W "reading queries..."] :: ending (zlen queries)) (say_test_union tbl dbg' mem f queries))
  /\ (forall queries,
     let result q e := exists Ss, named Ks q Ss /\ enumerates (fun v => forall S, In S Ss -> In v S) e in
     Forall (fun q => 2 <= zlen q -> exists e, result q e /\ zlen e <= u) queries ->
     exists sizes,
       Forall2 (fun q s => exists e, result q e /\ s = zlen e) (filter (fun q => 2 <=? zlen q) queries) sizes
       /\ writes [] (size_lines "intersection has size " sizes ++ ending (zlen sizes))
            (say_test_intersect_many tbl sort dbg' mem f queries))
  /\ (forall queries,
     let result q e := exists Ss, named Ks q Ss /\ enumerates (fun v => exists S, In S Ss /\ In v S) e in
     Forall (fun q => 2 <= zlen q -> exists e, result q e /\ zlen e <= u) queries ->
     exists sizes,
       Forall2 (fun q s => exists e, result q e /\ s = zlen e) (filter (fun q => 2 <=? zlen q) queries) sizes
       /\ writes [] (size_lines "union has size " sizes ++ ending (zlen sizes))
            (say_test_union_many tbl dbg' mem f queries)).
Proof.
  intros dbg dbg' params u Ls mem f tbl sort Hu V H HS Ks ending.
  destruct (holds_opened dbg params u Ls 31 mem f Hu ltac:(lia) V H) as (ix & O). fold Ks in O.
  destruct (c31_accept dbg dbg' params u Ls mem f tbl sort Hu V H HS) as (A1 & A2 & A3 & A4). fold Ks in A1, A2, A3, A4.
  assert (L2 : forall A B (R : A -> B -> Prop) l l', Forall2 R l l' -> zlen l' = zlen l).
  { intros A B R l l' F. unfold zlen. f_equal. induction F; cbn [length]; congruence. }
  split; [|split; [|split]].
  - intros queries HQ. pose proof (intersect_tells tbl sort dbg' mem f queries) as T. rewrite (A1 queries HQ) in T.
    apply tells_writes in T as (ls & -> & T). exact T.
  - intros queries HQ. pose proof (union_tells tbl dbg' mem f queries) as T. rewrite (A2 queries HQ) in T.
    apply tells_writes in T as (ls & -> & T). exact T.
  - intros queries result HQ. pose proof (intersect_many_asked tbl sort dbg' mem f queries) as T. rewrite A3 in T.
    2: { eapply Forall_impl; [|exact HQ]. cbn beta. intros q Hq H2. destruct (Hq H2) as (e & (Ss & N & HE) & L). eauto. }
    apply tells_writes in T as (ls & (_ & ix' & sizes & E & A & ->) & T).
    rewrite (proj1 O) in E. injection E as <-. exists sizes.
    assert (F : Forall2 (fun q s => exists e, result q e /\ s = zlen e) (filter (fun q => 2 <=? zlen q) queries) sizes).
    { apply (asked_exact (expect_and dbg' mem ix) result u); [|eapply Forall_impl; [|exact HQ]|exact A].
      - intros q e Hq (Ss & N & HE). eapply expect_and_ok; eauto.
      - cbn beta. intros q Hq H2. destruct (Hq H2) as (e & R & _). eauto. }
    split; [exact F|]. unfold ending. rewrite (L2 _ _ _ _ _ F). exact T.
  - intros queries result HQ. pose proof (union_many_asked tbl dbg' mem f queries) as T. rewrite A4 in T.
    2: { eapply Forall_impl; [|exact HQ]. cbn beta. intros q Hq H2. destruct (Hq H2) as (e & (Ss & N & HE) & L). eauto. }
    apply tells_writes in T as (ls & (_ & ix' & sizes & E & A & ->) & T).
    rewrite (proj1 O) in E. injection E as <-. exists sizes.
    assert (F : Forall2 (fun q s => exists e, result q e /\ s = zlen e) (filter (fun q => 2 <=? zlen q) queries) sizes).
    { apply (asked_exact (expect_or dbg' mem ix) result u); [|eapply Forall_impl; [|exact HQ]|exact A].
      - intros q e Hq (Ss & N & HE). eapply expect_or_ok; eauto.
      - cbn beta. intros q Hq H2. destruct (Hq H2) as (e & R & _). eauto. }
    split; [exact F|]. unfold ending. rewrite (L2 _ _ _ _ _ F). exact T.
Qed.
