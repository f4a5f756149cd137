(** Proofs for C65, continued: the bodies of the loops. *)
From Coq Require Import Lia Sorted String.
From Verif Require Import Base Hw Spec Lib L_Bits L_Group Layout M_Util M_Build M_Seq M_Decode M_Uncompress
  M_Query M_Union M_Many M_Index M_Print M_Calls M_Tests M_Drivers M_Text M_Out M_Say M_Session M_Bench M_Live
  Holds Format Room Shown Typed Printed Told Report Live
  P_Build1 P_Build2 P_Build3 P_Seq P_Decode P_Query P_NextGeq
  P_Ng P_Enum P_Uncompress P_Sets P_Index P_Fin1 P_Fin2 P_Fin3 P_Room P_Tests P_Tests2 P_Tests3 P_Tests4 P_Fits P_Out3 P_Say P_Live.
Local Open Scope Z_scope.

(** ** what M_Say.v says about a body that comes to its end *)
Ltac sim H := repeat match type of H with
  | bind ?r _ = Ok _ => let E := fresh "E" in destruct r eqn:E; cbn [bind] in H; try discriminate H
  | context [let (_, _) := ?p in _] => is_var p; destruct p
  end.
Ltac fwd := repeat (cbv beta iota zeta; first [rewrite go_just | rewrite go_report
  | match goal with E : ?r = Ok _ |- lthen (just ?r) _ _ = _ => rewrite E end]); cbv beta iota zeta.
Lemma sim_compare data out n : forall m p j lg lg', say_compare_loop m data p out j n lg = Ok lg' ->
  live_compare_loop m data p out j n lg = (lg', Ok tt).
Proof.
  induction m as [|m IH]; intros p j lg lg' H; cbn [say_compare_loop live_compare_loop] in *; [unfold just; congruence|].
  sim H. fwd. now apply IH.
Qed.
Lemma sim_decode dbg mem data ix k i n v a lg a' lg' : say_decode_body dbg mem data ix k i n v (a, lg) = Ok (a', lg') ->
  live_decode_body dbg mem data ix k i n v a lg = (lg', Ok a').
Proof.
  unfold say_decode_body, live_decode_body. intro H. sim H. injection H as <- <-.
  fwd. apply sim_compare in E2. now rewrite (go_ok _ _ _ _ _ E2).
Qed.
Lemma sim_contains_loop dbg mem s data : forall m p lg lg', say_contains_loop m dbg mem s data p lg = Ok lg' ->
  live_contains_loop m dbg mem s data p lg = (lg', Ok tt).
Proof.
  induction m as [|m IH]; intros p lg lg' H; cbn [say_contains_loop live_contains_loop] in *; [unfold just; congruence|].
  sim H. fwd. now apply IH.
Qed.
Lemma sim_contains dbg mem data ix k i n v a lg a' lg' : say_contains_body dbg mem data ix k i n v (a, lg) = Ok (a', lg') ->
  live_contains_body dbg mem data ix k i n v a lg = (lg', Ok a').
Proof.
  unfold say_contains_body, live_contains_body. intro H. sim H. injection H as <- <-.
  fwd. now apply sim_contains_loop.
Qed.
Lemma sim_enumerator_loop dbg mem data n : forall m p j e lg lg' e',
  say_enumerator_loop m dbg mem data p j n e lg = Ok (lg', e') ->
  live_enumerator_loop m dbg mem data p j n e lg = (lg', Ok e').
Proof.
  induction m as [|m IH]; intros p j e lg lg' e' H; cbn [say_enumerator_loop live_enumerator_loop] in *; [unfold just; congruence|].
  sim H. fwd. now apply IH.
Qed.
Lemma sim_enumerator dbg mem data ix k i n v a lg a' lg' : say_enumerator_body dbg mem data ix k i n v (a, lg) = Ok (a', lg') ->
  live_enumerator_body dbg mem data ix k i n v a lg = (lg', Ok a').
Proof.
  unfold say_enumerator_body, live_enumerator_body. intro H. sim H. injection H as <- <-.
  fwd. apply sim_enumerator_loop in E1. now rewrite (go_ok _ _ _ _ _ E1).
Qed.
Lemma sim_select_loop dbg mem s data n : forall m p j v lg lg', say_select_loop m dbg mem s data p j n v lg = Ok lg' ->
  live_select_loop m dbg mem s data p j n v lg = (lg', Ok tt).
Proof.
  induction m as [|m IH]; intros p j v lg lg' H; cbn [say_select_loop live_select_loop] in *; [unfold just; congruence|].
  sim H. fwd. now apply IH.
Qed.
Lemma sim_select dbg mem data ix k i n v a lg a' lg' : say_select_body dbg mem data ix k i n v (a, lg) = Ok (a', lg') ->
  live_select_body dbg mem data ix k i n v a lg = (lg', Ok a').
Proof.
  unfold say_select_body, live_select_body. intro H. sim H. injection H as <- <-.
  fwd. now apply sim_select_loop.
Qed.
Lemma sim_geq_loop {A} dbg (next : A -> Z -> res (A * Z)) data i n v : forall fuel st lb lg st' lg',
  say_geq_loop fuel dbg next data i n v st lb lg = Ok (st', lg') ->
  live_geq_loop fuel dbg next data i n v st lb lg = (lg', Ok st').
Proof.
  induction fuel as [|m IH]; intros st lb lg st' lg' H; cbn [say_geq_loop live_geq_loop] in *;
    destruct (lb =? u32 (v + 1)); try (unfold just; congruence).
  sim H. fwd. now apply IH.
Qed.
Lemma sim_beyond_loop {A} (next : A -> Z -> res (A * Z)) v : forall fuel st lb lg st' lg',
  say_beyond_loop fuel next v st lb lg = Ok (st', lg') -> live_beyond_loop fuel next v st lb lg = (lg', Ok st').
Proof.
  induction fuel as [|m IH]; intros st lb lg st' lg' H; cbn [say_beyond_loop live_beyond_loop] in *;
    destruct (lb =? u32 (v + 1000000 + 1)); try (unfold just; congruence).
  sim H. fwd. now apply IH.
Qed.
Lemma sim_next_geq fuel dbg mem data ix k i n v a lg a' lg' :
  say_next_geq_body fuel dbg mem data ix k i n v (a, lg) = Ok (a', lg') ->
  live_next_geq_body fuel dbg mem data ix k i n v a lg = (lg', Ok a').
Proof.
  unfold say_next_geq_body, live_next_geq_body. intro H. sim H. injection H as <- <-.
  fwd. apply sim_geq_loop in E1. rewrite (go_ok _ _ _ _ _ E1).
  apply sim_beyond_loop in E2. rewrite E2. now destruct u0.
Qed.
Lemma sim_ng fuel dbg mem data ix k i n v a lg a' lg' :
  say_ng_body fuel dbg mem data ix k i n v (a, lg) = Ok (a', lg') ->
  live_ng_body fuel dbg mem data ix k i n v a lg = (lg', Ok a').
Proof.
  unfold say_ng_body, live_ng_body. intro H. sim H. injection H as <- <-.
  fwd. apply sim_geq_loop in E2. rewrite (go_ok _ _ _ _ _ E2).
  apply sim_beyond_loop in E3. now rewrite (go_ok _ _ _ _ _ E3).
Qed.
Lemma sim_uncompress dbg mem data ix k i n v a lg a' lg' :
  say_uncompress_body dbg mem data ix k i n v (a, lg) = Ok (a', lg') ->
  live_uncompress_body dbg mem data ix k i n v a lg = (lg', Ok a').
Proof.
  unfold say_uncompress_body, live_uncompress_body. destruct a as [bm out]. intro H. sim H. injection H as <- <-.
  fwd.
  apply sim_compare in E2. now rewrite (go_ok _ _ _ _ _ E2).
Qed.

(** ** the bodies on a list that is in the collection *)
Section Steps.
Context (dbg : bool) (mem : list Z) (f u' : Z) (K K' : list (list Z)) (ix : s_index) (data : list Z).

Lemma decode_step : opened 31 mem f u' K' ix -> Forall (fun p => decode_fits (snd p) u' /\ zlen (fst p) <= zlen (snd p)) (combine K K') ->
  forall k i L S out lg, znth K k = Some L -> znth K' k = Some S -> zlen out = u' -> list_at data (i + 1) L ->
  exists a', live_decode_body dbg mem data ix k i (zlen L) (last L 0) out lg = (reported (decode_report L S) lg, Ok a') /\ zlen a' = u'.
Proof.
  intros O HP k i L S out lg EL ES Lo HA.
  pose proof (combine_znth _ _ _ _ _ EL ES) as EC. apply znth_In in EC.
  rewrite Forall_forall in HP. specialize (HP _ EC). cbn [fst snd] in HP. destruct HP as [F HP].
  assert (X : exists a', say_decode_body dbg mem data ix k i (zlen L) (last L 0) (out, lg) = Ok (a', reported (decode_report L S) lg)
    /\ zlen a' = u').
  { unfold say_decode_body.
    destruct (opened_decode_exact dbg mem f u' K' ix k S out O ES Lo) as (s & Es & -> & D). cbn [bind].
    destruct D as [(_ & out' & -> & Lo' & EF)|(NF & _)]; [|contradiction]. cbn [bind].
    rewrite (opened_card mem f u' K' ix 31 k S s O ltac:(lia) ES Es). cbn [bind].
    rewrite card_line, decoded_line, (say_values _ i L S); auto.
    - cbn [bind]. unfold decode_report. rewrite !reported_app. eauto.
    - intros j Hj. destruct (znth_Some _ S j Hj) as (x & Ex). rewrite (at_list S 0 j x Ex). apply vget_ok.
      rewrite length_of_zlen in EF. rewrite <- EF in Ex. rewrite <- Ex. symmetry. apply znth_firstn. unfold zlen in Hj. lia. }
  destruct X as (a' & E & I). exists a'. split; [now apply sim_decode|exact I].
Qed.
Lemma contains_step : opened 0 mem f u' K' ix -> Forall (Forall is_u32) K ->
  forall k i L S (a : unit) lg, znth K k = Some L -> znth K' k = Some S -> True -> list_at data (i + 1) L ->
  exists a', live_contains_body dbg mem data ix k i (zlen L) (last L 0) a lg = (reported (contains_report L S) lg, Ok a') /\ True.
Proof.
  intros O HR k i L S a lg EL ES _ HA. exists tt. split; [|auto]. apply sim_contains. unfold say_contains_body.
  pose proof (opened_valid _ _ _ _ _ _ _ _ O ES) as VS.
  pose proof O as (_ & _ & _ & _ & G). destruct (G k S ES) as (s & Es & St & EG). rewrite EG. cbn [bind].
  rewrite (opened_card mem f u' K' ix 0 k S s O ltac:(lia) ES Es). cbn [bind]. rewrite card_line, length_of_zlen.
  erewrite say_contains_loop_ok; eauto.
  - cbn [bind]. unfold contains_report. rewrite reported_app. eauto.
  - rewrite Forall_forall in HR. apply HR. eapply znth_In; eauto.
Qed.
Lemma select_step : opened 0 mem f u' K' ix -> Forall short K ->
  forall k i L S (a : unit) lg, znth K k = Some L -> znth K' k = Some S -> True -> list_at data (i + 1) L ->
  exists a', live_select_body dbg mem data ix k i (zlen L) (last L 0) a lg = (reported (select_report L S) lg, Ok a') /\ True.
Proof.
  intros O HR k i L S a lg EL ES _ HA. exists tt. split; [|auto]. apply sim_select. unfold say_select_body.
  pose proof (opened_valid _ _ _ _ _ _ _ _ O ES) as VS.
  pose proof O as (_ & _ & _ & _ & G). destruct (G k S ES) as (s & Es & St & EG). rewrite EG. cbn [bind].
  rewrite (opened_card mem f u' K' ix 0 k S s O ltac:(lia) ES Es). cbn [bind]. rewrite card_line, length_of_zlen.
  rewrite <- (Z.add_0_r (i + 1)).
  rewrite Forall_forall in HR. pose proof (HR L (znth_In _ _ _ _ EL)) as HS. unfold short in HS.
  rewrite (say_select_loop_ok dbg mem (addr K' f k) S s data (i + 1) L (zlen L)); eauto; try lia.
  cbn [bind]. unfold select_report. rewrite reported_app. eauto.
Qed.
Lemma enumerator_step : opened 31 mem f u' K' ix -> is_u32 u' -> Forall short K ->
  forall k i L S b lg, znth K k = Some L -> znth K' k = Some S -> zlen b = 65536 -> list_at data (i + 1) L ->
  exists a', live_enumerator_body dbg mem data ix k i (zlen L) (last L 0) b lg
    = (reported (enumerator_report u' L S) lg, Ok a') /\ zlen a' = 65536.
Proof.
  intros O Hu HR k i L S b lg EL ES Hb HA.
  assert (X : exists a', say_enumerator_body dbg mem data ix k i (zlen L) (last L 0) (b, lg)
    = Ok (a', reported (enumerator_report u' L S) lg) /\ zlen a' = 65536).
  { unfold say_enumerator_body.
    pose proof (opened_valid _ _ _ _ _ _ _ _ O ES) as VS.
    pose proof O as (_ & _ & EU & _ & G). destruct (G k S ES) as (s & Es & St & EG). rewrite EG. cbn [bind].
    rewrite EU, u32_id by exact Hu.
    destruct (enum_init_inv dbg mem _ S u' b s VS St Es Hb) as (e & -> & I). cbn [bind]. rewrite length_of_zlen.
    rewrite Forall_forall in HR. pose proof (HR L (znth_In _ _ _ _ EL)) as HS. unfold short in HS.
    destruct (say_enumerator_loop_ok dbg mem u' data (i + 1) L (zlen L) S HA) with
      (m := length L) (j := 0) (e := e) (lg := lg) (R := S) as (e' & E & Hz); auto; try lia.
    - destruct S; [exfalso; now apply (proj1 VS)|exact I].
    - rewrite Z.add_0_r in E. rewrite E. cbn [bind]. unfold enumerator_report, value_report. eauto. }
  destruct X as (a' & E & I). exists a'. split; [now apply sim_enumerator|exact I].
Qed.
Lemma next_geq_step fuel : opened 0 mem f u' K' ix -> ng_lists K -> (100 <= fuel)%nat ->
  forall k i L S (a : unit) lg, znth K k = Some L -> znth K' k = Some S -> True -> list_at data (i + 1) L ->
  exists a', live_next_geq_body fuel dbg mem data ix k i (zlen L) (last L 0) a lg = (reported (next_geq_report L S) lg, Ok a') /\ True.
Proof.
  intros O HR Hf k i L S a lg EL ES _ HA. exists tt. split; [|auto]. apply sim_next_geq. unfold say_next_geq_body.
  pose proof (opened_valid _ _ _ _ _ _ _ _ O ES) as VS.
  assert (RL : valid L /\ last L 0 + 1000001 < 4294967296)
    by (unfold ng_lists in HR; rewrite Forall_forall in HR; apply HR; eapply znth_In; eauto).
  pose proof O as (_ & _ & _ & _ & G). destruct (G k S ES) as (s & Es & St & EG). rewrite EG. cbn [bind].
  rewrite (opened_card mem f u' K' ix 0 k S s O ltac:(lia) ES Es). cbn [bind]. rewrite card_line.
  set (next := fun (_ : unit) v => let! r := next_geq dbg mem s v in Ok (tt, r)). cbv zeta.
  destruct (say_geq_parts fuel dbg next (fun _ _ => True) data i L S tt (reported (card_report L S) lg))
    as (s1 & lg1 & s2 & E1 & E2); try apply RL; auto.
  { intros st lb Hlb _. exists tt. split; auto. unfold next.
    destruct (next_geq_ok dbg mem _ S lb VS St Hlb) as (s' & Es' & EN).
    rewrite Es in Es'. injection Es' as <-. now rewrite EN. }
  rewrite E1. cbn [bind]. destruct s1. rewrite E2. cbn [bind]. rewrite <- reported_app. reflexivity.
Qed.
Lemma ng_step_ fuel : opened 0 mem f u' K' ix -> ng_lists K -> (100 <= fuel)%nat ->
  forall k i L S (a : unit) lg, znth K k = Some L -> znth K' k = Some S -> True -> list_at data (i + 1) L ->
  exists a', live_ng_body fuel dbg mem data ix k i (zlen L) (last L 0) a lg = (reported (next_geq_report L S) lg, Ok a') /\ True.
Proof.
  intros O HR Hf k i L S a lg EL ES _ HA. exists tt. split; [|auto]. apply sim_ng. unfold say_ng_body.
  pose proof (opened_valid _ _ _ _ _ _ _ _ O ES) as VS.
  assert (RL : valid L /\ last L 0 + 1000001 < 4294967296)
    by (unfold ng_lists in HR; rewrite Forall_forall in HR; apply HR; eapply znth_In; eauto).
  pose proof O as (_ & _ & _ & _ & G). destruct (G k S ES) as (s & Es & St & EG). rewrite EG. cbn [bind].
  rewrite (opened_card mem f u' K' ix 0 k S s O ltac:(lia) ES Es). cbn [bind]. rewrite card_line.
  destruct (ng_init_ok mem _ S VS St) as (s' & e & Es' & EI & _ & I & A).
  rewrite Es in Es'. injection Es' as <-. rewrite EI. cbn [bind]. cbv zeta.
  destruct (say_geq_parts fuel dbg (fun e v => ng_next_geq dbg mem e v)
    (fun q e => q < 4294967296 -> ng_ask mem S q e) data i L S e (reported (card_report L S) lg))
    as (s1 & lg1 & s2 & E1 & E2); try apply RL; auto.
  { intros e1 lb Hlb I1. destruct (ng_step dbg mem S lb e1 VS (I1 ltac:(lia))) as (e2 & E2 & N2); [unfold is_u32; lia|].
    pose proof (spec_next_geq_ge S lb ltac:(lia)). exists e2. split; auto. split; intro Hq; apply N2; lia. }
  { intros _. exists (chunks_of S), 0. split; auto. split; [lia|auto]. }
  rewrite E1. cbn [bind]. rewrite E2. cbn [bind]. rewrite <- reported_app. reflexivity.
Qed.
Definition spread (u : Z) (S : list Z) : Prop := last S 0 / 65536 <= u / 65536 /\ zlen S <= u.
Definition two_buffers (st : list Z * list Z) : Prop := fst st = repeat 0 (Z.to_nat (bitmap_words u')) /\ zlen (snd st) = u'.
Lemma uncompress_step : opened 0 mem f u' K' ix -> 0 <= u' < 4294901760 ->
  Forall (fun p => spread u' (snd p) /\ zlen (fst p) <= zlen (snd p)) (combine K K') ->
  forall k i L S st lg, znth K k = Some L -> znth K' k = Some S -> two_buffers st -> list_at data (i + 1) L ->
  exists a', live_uncompress_body dbg mem data ix k i (zlen L) (last L 0) st lg
    = (reported (uncompress_report L S) lg, Ok a') /\ two_buffers a'.
Proof.
  intros O Hu HP k i L S [bm out] lg EL ES (Eb & Lo) HA. cbn [fst snd] in Eb, Lo.
  set (n := Z.to_nat (bitmap_words u')) in *. subst bm.
  assert (Hn : Z.of_nat n = 1024 * (u' / 65536 + 1)) by (unfold n; rewrite bitmap_words_ok by lia; lia).
  pose proof (combine_znth _ _ _ _ _ EL ES) as EC. apply znth_In in EC.
  rewrite Forall_forall in HP. specialize (HP _ EC). cbn [fst snd] in HP. destruct HP as [B HP]. unfold spread in B.
  assert (X : exists a', say_uncompress_body dbg mem data ix k i (zlen L) (last L 0) (repeat 0 n, out, lg)
     = Ok (a', reported (uncompress_report L S) lg) /\ two_buffers a').
  { unfold say_uncompress_body.
    pose proof (opened_valid _ _ _ _ _ _ _ _ O ES) as VS.
    pose proof O as (_ & _ & EU & _ & G). destruct (G k S ES) as (s & Es & St & EG). rewrite EG. cbn [bind].
    destruct (bitmap_round dbg mem _ s S n out VS St Es) as (bm' & out' & -> & ED & W); try lia.
    { intros v Hv. pose proof (le_last S v (proj1 (proj2 VS)) Hv).
      destruct VS as (_ & _ & R). rewrite Forall_forall in R. specialize (R v Hv). lia. }
    cbn [bind]. rewrite EU. replace (bitmap_words u') with (Z.of_nat n) by (rewrite bitmap_words_ok by lia; exact Hn).
    rewrite ED. cbn [bind]. rewrite Z.eqb_refl. cbn [negb report]. rewrite decoded_line, (say_values _ i L S); auto.
    - cbn [bind]. unfold uncompress_report. rewrite !reported_app. eexists. split; [reflexivity|]. unfold two_buffers. cbn [fst snd].
      split; auto. now rewrite (wrote_zlen _ _ _ _ _ W).
    - intros j Hj. eapply wrote_at; eauto. }
  destruct X as (a' & E & I). exists a'. split; [now apply sim_uncompress|exact I].
Qed.

(** ** a list the index has not, and lists that do not fit *)
Lemma index_over : opened 0 mem f u' K' ix -> dbg = true -> index_get dbg mem ix (zlen K') = Abort.
Proof.
  intros (_ & ES & _) ->. unfold index_get. rewrite ES. unfold assert_. cbn [negb andb orb].
  destruct (Z.ltb_spec (zlen K') (zlen K')); [lia|]. reflexivity.
Qed.
Lemma decode_unfit k i n v S out lg : opened 31 mem f u' K' ix -> znth K' k = Some S -> ~ decode_fits S u' -> zlen out = u' ->
  live_decode_body dbg mem data ix k i n v out lg = (lg, UB).
Proof.
  intros O ES NF Lo. unfold live_decode_body.
  destruct (opened_decode_exact dbg mem f u' K' ix k S out O ES Lo) as (s & Es & -> & D).
  destruct D as [(F & _)|(_ & D)]; [contradiction|]. rewrite go_just, D. reflexivity.
Qed.
Lemma uncompress_unfit k i n v S st lg : opened 0 mem f u' K' ix -> 0 <= u' < 4294901760 -> znth K' k = Some S ->
  ~ spread u' S -> two_buffers st -> live_uncompress_body dbg mem data ix k i n v st lg = (lg, UB).
Proof.
  intros O Hu ES NF (Eb & Lo). destruct st as [bm out]. cbn [fst snd] in *.
  set (N := Z.to_nat (bitmap_words u')) in *. subst bm.
  assert (Hn : Z.of_nat N = 1024 * (u' / 65536 + 1)) by (unfold N; rewrite bitmap_words_ok by lia; lia).
  pose proof (opened_valid _ _ _ _ _ _ _ _ O ES) as VL.
  pose proof O as (_ & _ & EU & _ & G). destruct (G k S ES) as (s & Es & St & EG).
  unfold live_uncompress_body. rewrite EG, go_just. unfold spread in NF.
  destruct (Z.le_gt_cases (last S 0 / 65536) (u' / 65536)) as [B|B].
  2: { destruct (c34_uncompress dbg mem _ S (repeat 0 N) 0 VL St) as (s' & Es' & _ & U); try lia.
       rewrite Es in Es'. injection Es' as <-. rewrite U; [reflexivity|]. unfold uncompress_fits. rewrite zlen_repeat. lia. }
  assert (RV : forall v, In v S -> 0 <= v /\ v / 65536 <= u' / 65536).
  { intros w Hv. pose proof (le_last S w (proj1 (proj2 VL)) Hv).
    destruct VL as (_ & _ & R). rewrite Forall_forall in R. specialize (R w Hv). lia. }
  destruct (c08_uncompress dbg mem _ S (repeat 0 N) 0 VL St) as (s' & bm' & Es' & EU' & LB & H1 & H2); try lia.
  { intros w Hv. rewrite zlen_repeat. specialize (RV w Hv). lia. }
  rewrite Es in Es'. injection Es' as <-. rewrite EU', go_just. cbv beta iota. rewrite EU.
  rewrite zlen_repeat in LB.
  replace (bitmap_words u') with (Z.of_nat N) by (rewrite bitmap_words_ok by lia; exact Hn).
  assert (BM : bm_at (words_vec bm') (Z.of_nat N) (memb S)).
  { intros j Hj.
    destruct (existsb (fun v => v / 65536 =? j / 1024) S) eqn:EX.
    * apply existsb_exists in EX as (w & Hv & Ev). apply Z.eqb_eq in Ev.
      destruct (H1 j ltac:(lia)) as (x & Ew & Hw & Hb); [eauto|]. rewrite Z.add_0_l in Ew.
      exists x. split; [unfold words_vec; now apply vget_ok|]. split; [exact Hw|].
      intros b Hb'. specialize (Hb b Hb'). apply eq_true_iff_eq. rewrite Hb. symmetry. apply memb_In.
    * assert (NX : forall v, In v S -> v / 65536 <> j / 1024).
      { intros w Hv Ev. assert (X : existsb (fun v => v / 65536 =? j / 1024) S = true)
          by (apply existsb_exists; exists w; split; auto; now apply Z.eqb_eq). congruence. }
      specialize (H2 j (or_intror NX)). rewrite Z.add_0_l in H2. rewrite znth_repeat in H2 by lia.
      exists 0. split; [unfold words_vec; now apply vget_ok|]. split; [unfold w64; lia|].
      intros b Hb'. rewrite zero_word_bits. symmetry. apply memb_false. intro Hi.
      apply (NX _ Hi). lia. }
  assert (RL : Forall (fun x => 0 <= x < 64 * Z.of_nat N) S)
    by (rewrite Forall_forall; intros w Hv; specialize (RV w Hv); lia).
  rewrite (bitmap_and_reset_short N bm' S out LB BM); auto; [apply VL|lia].
Qed.
End Steps.
