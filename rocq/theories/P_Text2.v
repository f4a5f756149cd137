(** The programs that read queries from text: C47. *)
From Coq Require Import String Ascii Lia Sorted Permutation.
From Verif Require Import Base Hw Spec Lib Told Typed M_Util M_Build M_Seq M_Many M_Index M_Print M_Calls M_Tests
  M_Drivers M_Tools M_Text P_Text.

(** ** command line words *)
Lemma begins_integer w n : begins w n -> exists r, integer (skip_spaces w) = (Some n, r).
Proof.
  intros (b & v & j & -> & Hb & Hv & Hj). exists j.
  destruct (numeral_head v n Hv) as (c & w' & E & Hc).
  rewrite skip_blank; [now apply integer_ok|auto|]. rewrite E. exact Hc.
Qed.
Lemma numeral_begins w n : numeral w n -> begins w n.
Proof. intro H. exists [], w, []. rewrite app_nil_r. repeat split; auto. Qed.
Lemma stoull_ok w n : begins w n -> - 2 ^ 64 < n < 2 ^ 64 -> stoull w = Ok (n mod 2 ^ 64).
Proof.
  intros H Hn. unfold stoull. destruct (begins_integer w n H) as [r E]; rewrite E.
  replace (Z.abs n <? 2 ^ 64) with true by (symmetry; apply Z.ltb_lt; lia). reflexivity.
Qed.
Lemma stoull_count w num : count_word w num -> stoull w = Ok num.
Proof. intros (n & H & Hn & ->). now apply stoull_ok. Qed.
Lemma count_range w num : count_word w num -> 0 <= num < 2 ^ 64.
Proof. intros (n & H & Hn & ->). apply Z.mod_pos_bound. lia. Qed.
Lemma begins_count w n : begins w n -> 0 <= n < 2 ^ 64 -> count_word w n.
Proof. intros H Hn. exists n. split; auto. split; [lia|]. now rewrite Z.mod_small. Qed.
Lemma stoull_over w n : begins w n -> n <= - 2 ^ 64 \/ 2 ^ 64 <= n -> stoull w = Throw.
Proof.
  intros H Hn. unfold stoull. destruct (begins_integer w n H) as [r E]; rewrite E.
  replace (Z.abs n <? 2 ^ 64) with false by (symmetry; apply Z.ltb_ge; lia). reflexivity.
Qed.
Lemma stoull_garbage w : garbage w -> stoull w = Throw.
Proof.
  intros H. unfold stoull. pose proof (integer_garbage w H) as E. destruct H as (c & w' & -> & Hc & _).
  cbn [skip_spaces]. now rewrite (not_space c Hc), E.
Qed.
Lemma stoull_empty : stoull [] = Throw.
Proof. reflexivity. Qed.
Lemma atoi_ok iso w n : begins w n -> storable_int iso n -> atoi iso w = Ok (low n).
Proof. intros H Hn. unfold atoi. destruct (begins_integer w n H) as [r E]; rewrite E. now apply to_int_ok. Qed.
Lemma atoi_over w n : begins w n -> ~ storable_int true n -> atoi true w = UB.
Proof. intros H Hn. unfold atoi. destruct (begins_integer w n H) as [r E]; rewrite E. now apply to_int_over. Qed.
Lemma atoi_garbage iso w : garbage w -> atoi iso w = Ok 0.
Proof.
  intros H. unfold atoi. pose proof (integer_garbage w H) as E. destruct H as (c & w' & -> & Hc & _).
  cbn [skip_spaces]. now rewrite (not_space c Hc), E.
Qed.

Lemma reserve_ok n width : 0 < width -> n * width < 2 ^ 63 -> reserve n width = Ok tt.
Proof.
  intros H1 H2. unfold reserve. replace (n <=? _) with true; auto.
  symmetry. apply Z.leb_le, Z.div_le_lower_bound; lia.
Qed.
Lemma reserve_over n width : 0 < width -> 2 ^ 63 <= n * width -> reserve n width = Throw.
Proof.
  intros H1 H2. unfold reserve. replace (n <=? _) with false; auto.
  symmetry. apply Z.leb_gt, Z.div_lt_upper_bound; lia.
Qed.

(** ** pairs_main *)
Section Pairs.
Context {A : Type} (iso : bool) (run : list Z -> list (Z * Z) -> res A) (f w : list Z) (argv : list (list Z)) (num : Z).
Hypothesis (Hw : count_word w num) (Hnum : 0 <= num < 2 ^ 60).
Lemma pairs_main_eq s : pairs_main iso run (f :: w :: argv) s
  = let! queries := scan_pairs (S (length s)) iso s 0 num in let! r := run f queries in Ok (Some r).
Proof.
  unfold pairs_main. rewrite (stoull_count w num Hw). cbn [bind].
  rewrite reserve_ok by lia. reflexivity.
Qed.
Lemma pairs_enough t g qs rest : typed t (in_a_row qs ++ rest) -> Forall (storable_int iso) (in_a_row qs) ->
  zlen qs = num -> num < 2 ^ 32 -> no_digit g ->
  pairs_main iso run (f :: w :: argv) (t ++ g) = let! r := run f (map low2 qs) in Ok (Some r).
Proof.
  intros HT HF HL HN Hg. rewrite pairs_main_eq.
  rewrite (scan_pairs_enough iso g Hg qs rest t 0 num); auto; try lia. rewrite app_length. lia.
Qed.
Lemma pairs_all t g qs rest : typed t (in_a_row qs ++ rest) -> Forall (storable_int iso) (in_a_row qs ++ rest) ->
  zlen rest <= 1 -> zlen qs < num \/ 2 ^ 32 <= num -> stop g ->
  pairs_main iso run (f :: w :: argv) (t ++ g)
  = match g with [] => let! r := run f (map low2 qs) in Ok (Some r) | _ => UB end.
Proof.
  intros HT HF HR HN Hg. rewrite pairs_main_eq.
  rewrite (scan_pairs_all iso g Hg qs rest t 0 num); auto; try lia.
  - destruct g; reflexivity.
  - rewrite app_length. lia.
  - unfold beyond. lia.
Qed.
End Pairs.

Lemma pairs_over {A : Type} (run : list Z -> list (Z * Z) -> res A) f w argv num t g ns n rest :
  count_word w num -> 0 <= num < 2 ^ 60 ->
  typed t (ns ++ n :: rest) -> Forall (storable_int true) ns -> ~ storable_int true n ->
  zlen ns < 2 * num -> no_digit g ->
  pairs_main true run (f :: w :: argv) (t ++ g) = UB.
Proof.
  intros Hw Hnum HT HF Hn HL Hg. rewrite (pairs_main_eq true run f w argv num Hw Hnum).
  assert (P : exists qs a, ns = in_a_row qs ++ a /\ (a = [] \/ exists c, a = [c])).
  { clear. enough (forall k ns, (length ns <= k)%nat -> exists qs a, ns = in_a_row qs ++ a /\ (a = [] \/ exists c, a = [c])) as H
      by (apply (H (length ns)); lia).
    clear ns. induction k as [|k IH]; intros [|x [|y ns]] H; cbn [length] in H; try lia.
    - exists [], []. auto.
    - exists [], []. auto.
    - exists [], [x]. eauto.
    - destruct (IH ns) as (qs & a & -> & Ha); [lia|]. exists ((x, y) :: qs), a. auto. }
  destruct P as (qs & a & -> & Ha).
  apply Forall_app in HF as [HF1 HF2]. rewrite <- app_assoc in HT.
  assert (LQ : zlen (in_a_row qs) = 2 * zlen qs).
  { clear. induction qs as [|q qs IH]; [reflexivity|].
    change (in_a_row (q :: qs)) with (fst q :: snd q :: in_a_row qs). rewrite !zlen_cons, IH. lia. }
  rewrite zlen_app, LQ in HL.
  assert (B : beyond 0 (zlen qs) num).
  { unfold beyond. right. destruct Ha as [->|[c ->]]; [rewrite zlen_nil in HL|rewrite zlen_cons, zlen_nil in HL]; lia. }
  destruct Ha as [->|[c ->]].
  - cbn [app] in HT. rewrite (scan_pairs_over g Hg qs [n] rest t 0 num); auto; try lia.
    + exists n. auto.
    + rewrite app_length. lia.
  - inversion HF2; subst. change ([c] ++ n :: rest) with ([c; n] ++ rest) in HT.
    rewrite (scan_pairs_over g Hg qs [c; n] rest t 0 num); auto; try lia.
    + exists n. right. exists c. auto.
    + rewrite app_length. lia.
Qed.

(** numbers which are words already *)
Lemma low_id n : is_u32 n -> low n = n.
Proof. unfold is_u32, low. intro. now rewrite Z.mod_small by lia. Qed.
Lemma map_low_id ns : Forall is_u32 ns -> map low ns = ns.
Proof. intro H. induction H as [|n ns Hn H IH]; cbn [map]; auto. now rewrite IH, low_id. Qed.
Lemma map_low2_id qs : Forall is_u32 (in_a_row qs) -> map low2 qs = qs.
Proof.
  induction qs as [|[a b] qs IH]; intro H; auto.
  change (in_a_row ((a, b) :: qs)) with (a :: b :: in_a_row qs) in H.
  inversion H as [|? ? H1 H']; subst. inversion H' as [|? ? H2 H'']; subst.
  cbn [map]. rewrite IH by auto. unfold low2. cbn [fst snd]. now rewrite !low_id.
Qed.

(** with the description of the queries used for C35 *)
Lemma pairs_read_main {A : Type} iso (run : list Z -> list (Z * Z) -> res A) f w argv num t ns qs :
  count_word w num -> num < 2 ^ 60 -> typed t ns -> Forall (storable_int iso) ns ->
  pairs_read num ns qs -> Forall is_u32 (in_a_row qs) ->
  pairs_main iso run (f :: w :: argv) t = let! r := run f qs in Ok (Some r).
Proof.
  intros Hw Hn HT HF (rest & E & H) HU. fold (in_a_row qs) in E.
  pose proof (zlen_nonneg _ qs). subst ns.
  rewrite <- (map_low2_id qs HU) at 1. rewrite <- (app_nil_r t). destruct H as [[H1 H2]|[H1 H2]].
  - apply (pairs_enough iso run f w argv num Hw ltac:(lia) t [] qs rest); auto; [|exact I].
    now apply Forall_app in HF as [HF _].
  - apply (pairs_all iso run f w argv num Hw ltac:(lia) t [] qs rest); auto. now left.
Qed.

(** and equal to the reading of a list of integers *)
Lemma scan_pairs_read iso : forall fuel ns t i num, typed t ns -> Forall (storable_int iso) ns ->
  (length t < fuel)%nat -> scan_pairs fuel iso t i num = Ok (read_pairs ns i num).
Proof.
  induction fuel as [|fuel IH]; intros ns t i num HT HF HL; [lia|]. cbn [scan_pairs].
  destruct ns as [|a [|b ns]]; cbn [read_pairs]; destruct (i =? num); auto.
  - rewrite (scanf_end iso t None HT). reflexivity.
  - inversion HF as [|? ? H1 _]; subst.
    destruct (scanf_next iso t a [] [] None HT I) as (t1 & T1 & L1 & E1).
    rewrite !app_nil_r, (to_int_ok _ _ H1) in E1. cbn [bind] in E1. rewrite E1. cbn [bind].
    rewrite (scanf_end iso t1 None T1). reflexivity.
  - inversion HF as [|? ? H1 H']; subst. inversion H' as [|? ? H2 H'']; subst.
    destruct (scanf_two iso t a b ns [] HT I H1 H2) as (t1 & t2 & T1 & T2 & L & E1 & E2).
    rewrite !app_nil_r in *. rewrite E1. cbn [bind]. rewrite E2. cbn [bind is_EOF orb].
    rewrite (IH ns t2 (u32 (i + 1)) num T2 H'') by lia. reflexivity.
Qed.
Lemma scan_words_read iso : forall fuel ns t i num, typed t ns -> Forall (storable_int iso) ns ->
  (length t < fuel)%nat -> scan_words fuel iso t i num = Ok (read_words ns i num).
Proof.
  induction fuel as [|fuel IH]; intros ns t i num HT HF HL; [lia|]. cbn [scan_words].
  destruct ns as [|a ns]; cbn [read_words]; destruct (i =? num); auto.
  - rewrite (scanf_end iso t None HT). reflexivity.
  - inversion HF as [|? ? H1 H']; subst.
    destruct (scanf_next iso t a ns [] None HT I) as (t1 & T1 & L1 & E1).
    rewrite !app_nil_r, (to_int_ok _ _ H1) in E1. cbn [bind] in E1. rewrite E1. cbn [bind is_EOF].
    rewrite (IH ns t1 (u32 (i + 1)) num T1 H') by lia. reflexivity.
Qed.

(** ** writing *)
Lemma value_of_snoc ds d : value_of (ds ++ [d]) = 10 * value_of ds + d.
Proof. unfold value_of. now rewrite fold_left_app. Qed.
Lemma show_loop_ok fuel : forall n after, 0 <= n < 2 ^ Z.of_nat fuel -> (fuel <> 0)%nat ->
  exists ds, ds <> [] /\ Forall (fun d => 0 <= d <= 9) ds
    /\ show_loop fuel n after = map (Z.add 48) ds ++ after /\ value_of ds = n.
Proof.
  induction fuel as [|fuel IH]; intros n after Hn Hf; [lia|]. cbn [show_loop].
  pose proof (Z.mod_pos_bound n 10 ltac:(lia)) as Hm.
  destruct (n <? 10) eqn:E.
  - apply Z.ltb_lt in E. rewrite Z.mod_small by lia. exists [n]. split; [discriminate|].
    split; [constructor; [lia|constructor]|]. split; [reflexivity|]. unfold value_of. cbn [fold_left]. lia.
  - apply Z.ltb_ge in E. rewrite Nat2Z.inj_succ, Z.pow_succ_r in Hn by lia.
    destruct (IH (n / 10) ((48 + n mod 10) :: after)) as (ds & H1 & H2 & H3 & H4).
    + split; [apply Z.div_pos; lia|]. apply Z.div_lt_upper_bound; lia.
    + intros ->. cbn in Hn. lia.
    + exists (ds ++ [n mod 10]). split; [destruct ds; discriminate|].
      split; [apply Forall_app; split; [auto|constructor; [lia|constructor]]|].
      split; [now rewrite H3, map_app, <- app_assoc|].
      rewrite value_of_snoc, H4. pose proof (Z.div_mod n 10 ltac:(lia)). lia.
Qed.
Lemma show_numeral n : 0 <= n -> numeral (show n) n.
Proof.
  intro H. unfold show. destruct (show_loop_ok (S (Z.to_nat (Z.log2 n))) n []) as (ds & H1 & H2 & H3 & H4); [|lia|].
  - split; [auto|]. rewrite Nat2Z.inj_succ, Z2Nat.id by apply Z.log2_nonneg.
    destruct (Z.eq_dec n 0) as [->|N]; [now compute|]. apply Z.log2_spec. lia.
  - exists ds. rewrite H3, app_nil_r. auto.
Qed.

Lemma typed_blank c t ns : blank c -> typed t ns -> typed (c :: t) ns.
Proof.
  intros Hc H. destruct H as [b Hb|b w n t ns Hb Hw Ht Hs].
  - constructor. now constructor.
  - change (c :: b ++ w ++ t) with ((c :: b) ++ w ++ t). now constructor; [constructor|..].
Qed.
Lemma typed_cons n c t ns : 0 <= n -> blank c -> typed t ns -> typed (show n ++ c :: t) (n :: ns).
Proof.
  intros Hn Hc H. change (show n ++ c :: t) with ([] ++ show n ++ c :: t).
  constructor; [constructor|now apply show_numeral|now apply typed_blank|auto].
Qed.
Lemma typed_lines ns : Forall (fun n => 0 <= n) ns -> typed (show_lines ns) ns.
Proof.
  induction 1 as [|n ns Hn _ IH]; [constructor; constructor|].
  unfold show_lines in *. cbn [flat_map]. rewrite <- app_assoc. cbn [app].
  apply typed_cons; auto. right. lia.
Qed.
Lemma typed_pairs qs : Forall (fun n => 0 <= n) (in_a_row qs) -> typed (show_pairs (in_a_row qs)) (in_a_row qs).
Proof.
  induction qs as [|q qs IH]; intro H; [constructor; constructor|].
  change (in_a_row (q :: qs)) with (fst q :: snd q :: in_a_row qs) in *.
  inversion H as [|? ? H1 H']; subst. inversion H' as [|? ? H2 H'']; subst.
  cbn [show_pairs app]. apply typed_cons; [auto|right; lia|]. apply typed_cons; [auto|right; lia|auto].
Qed.
