(** Reading and writing text: C47. *)
From Coq Require Import String Ascii Lia Sorted Permutation.
From Verif Require Import Base Hw Spec Lib Told Typed M_Util M_Build M_Seq M_Many M_Index M_Print M_Calls M_Tests
  M_Drivers M_Tools M_Text.

(** ** characters *)
Lemma is_space_blank c : is_space c = true <-> blank c.
Proof.
  unfold is_space, blank. rewrite orb_true_iff, andb_true_iff, !Z.leb_le, Z.eqb_eq. tauto.
Qed.
Lemma is_digit_iff c : is_digit c = true <-> 48 <= c <= 57.
Proof. unfold is_digit. rewrite andb_true_iff, !Z.leb_le. tauto. Qed.
Lemma not_space c : ~ blank c -> is_space c = false.
Proof. intro H. destruct (is_space c) eqn:E; auto. apply is_space_blank in E. tauto. Qed.
Lemma not_digit c : ~ 48 <= c <= 57 -> is_digit c = false.
Proof. intro H. destruct (is_digit c) eqn:E; auto. apply is_digit_iff in E. tauto. Qed.

Definition no_blank (r : list Z) : Prop := match r with [] => True | c :: _ => ~ blank c end.

Lemma skip_blank b r : Forall blank b -> no_blank r -> skip_spaces (b ++ r) = r.
Proof.
  intros Hb Hr. induction Hb as [|c b Hc Hb IH]; cbn [app skip_spaces].
  - destruct r as [|c r]; auto. cbn [skip_spaces]. now rewrite (not_space c Hr).
  - apply is_space_blank in Hc. now rewrite Hc.
Qed.

Lemma digits_ok ds r v : Forall (fun d => 0 <= d <= 9) ds -> no_digit r ->
  digits (map (Z.add 48) ds ++ r) v = (fold_left (fun v d => 10 * v + d) ds v, r).
Proof.
  intros Hd Hr. revert v. induction Hd as [|d ds Hd _ IH]; intro v; cbn [map app digits fold_left].
  - destruct r as [|c r]; auto. cbn [digits]. now rewrite (not_digit c Hr).
  - rewrite (proj2 (is_digit_iff (48 + d))) by lia. rewrite IH. do 2 f_equal. lia.
Qed.

Lemma integer_ok w n r : numeral w n -> no_digit r -> integer (w ++ r) = (Some n, r).
Proof.
  intros (ds & N & Hd & H) Hr. destruct ds as [|d ds]; [easy|]. clear N.
  assert (D0 : is_digit (48 + d) = true) by (apply is_digit_iff; inversion Hd; lia).
  assert (D : digits (map (Z.add 48) (d :: ds) ++ r) 0 = (value_of (d :: ds), r)) by (now apply digits_ok).
  destruct H as [[-> ->]|[[-> ->]|[-> ->]]].
  - unfold integer. cbn [map app sign].
    inversion Hd as [|? ? H1 H2]; subst.
    replace (48 + d =? 45) with false by (symmetry; apply Z.eqb_neq; lia).
    replace (48 + d =? 43) with false by (symmetry; apply Z.eqb_neq; lia).
    rewrite D0. cbn [map app] in D. rewrite D. reflexivity.
  - unfold integer. cbn [map app sign Z.eqb Pos.eqb]. rewrite D0. cbn [map app] in D. rewrite D. reflexivity.
  - unfold integer. cbn [map app sign Z.eqb Pos.eqb]. rewrite D0. cbn [map app] in D. rewrite D. reflexivity.
Qed.

Lemma numeral_head w n : numeral w n -> exists c w', w = c :: w' /\ ~ blank c.
Proof.
  intros (ds & N & Hd & H). destruct ds as [|d ds]; [easy|]. inversion Hd as [|? ? H1 H2]; subst.
  unfold blank. destruct H as [[-> _]|[[-> _]|[-> _]]]; cbn [map]; eexists _, _; split; try reflexivity; lia.
Qed.

(** what may follow a text of numbers *)
Definition stop (g : list Z) : Prop := g = [] \/ garbage g.
Lemma stop_no_blank g : stop g -> no_blank g.
Proof. intros [->|(c & g' & -> & H & _)]; cbn; auto. Qed.
Lemma stop_no_digit g : stop g -> no_digit g.
Proof. intros [->|(c & g' & -> & _ & H & _)]; cbn; auto. Qed.

Lemma typed_none_inv t ns : typed t ns -> ns = [] -> Forall blank t.
Proof. intros H. destruct H; auto. discriminate. Qed.

Lemma scan_end t g : typed t [] -> stop g -> skip_spaces (t ++ g) = g.
Proof. intros H Hg. apply skip_blank; [|apply stop_no_blank, Hg]. now apply (typed_none_inv t []). Qed.

Lemma scan_next t n ns g : typed t (n :: ns) -> no_digit g ->
  exists t', typed t' ns /\ (length t' < length t)%nat
    /\ (exists c s, skip_spaces (t ++ g) = c :: s) /\ integer (skip_spaces (t ++ g)) = (Some n, t' ++ g).
Proof.
  intros H Hg. inversion H as [|b w n' t' ns' Hb Hw Ht Hs]; subst. exists t'. split; [auto|].
  destruct (numeral_head w n Hw) as (c & w' & -> & Hc).
  split; [rewrite !app_length; cbn [length]; lia|].
  rewrite <- !app_assoc. rewrite skip_blank; auto.
  split.
  - cbn [app]. eauto.
  - apply integer_ok; auto. destruct t' as [|c' t']; cbn [app]; [auto|].
    cbn [no_digit]. unfold blank in Hs. lia.
Qed.

Lemma to_int_ok iso n : storable_int iso n -> to_int iso n = Ok (low n).
Proof.
  unfold storable_int, to_int, low, u32. intro H.
  destruct ((- 2 ^ 31 <=? n) && (n <? 2 ^ 31)) eqn:E; auto.
  destruct iso.
  - apply andb_false_iff in E. rewrite Z.leb_gt, Z.ltb_ge in E. lia.
  - do 2 f_equal. lia.
Qed.
Lemma to_int_over n : ~ storable_int true n -> to_int true n = UB.
Proof.
  unfold storable_int, to_int. intro H.
  destruct ((- 2 ^ 31 <=? n) && (n <? 2 ^ 31)) eqn:E; auto.
  apply andb_prop in E. rewrite Z.leb_le, Z.ltb_lt in E. lia.
Qed.

(** one scanf *)
Lemma scanf_end iso t old : typed t [] -> scanf_d iso t old = Ok (EOF_, old, []).
Proof. intro H. unfold scanf_d. pose proof (scan_end t [] H (or_introl eq_refl)) as E. rewrite app_nil_r in E. now rewrite E. Qed.
Lemma integer_garbage g : garbage g -> integer g = (None, g).
Proof.
  intros (c & g' & -> & _ & H1 & H2 & H3). unfold integer, sign.
  apply Z.eqb_neq in H2, H3. rewrite H2, H3. now rewrite (not_digit c H1).
Qed.
Lemma scanf_garbage iso t g old : typed t [] -> garbage g -> scanf_d iso (t ++ g) old = Ok (Zero, old, g).
Proof.
  intros H Hg. unfold scanf_d. rewrite (scan_end t g H (or_intror Hg)). pose proof (integer_garbage g Hg) as E.
  destruct Hg as (c & g' & -> & _). now rewrite E.
Qed.
Lemma scanf_next iso t n ns g old : typed t (n :: ns) -> no_digit g ->
  exists t', typed t' ns /\ (length t' < length t)%nat
    /\ scanf_d iso (t ++ g) old = let! v := to_int iso n in Ok (One, Some v, t' ++ g).
Proof.
  intros H Hg. destruct (scan_next t n ns g H Hg) as (t' & H1 & H2 & (c & s & E) & H3).
  exists t'. split; [auto|]. split; [auto|]. unfold scanf_d. rewrite E in *. now rewrite H3.
Qed.

(** ** pairs *)
(** two scanf *)
Lemma scanf_two iso t a b ns g : typed t (a :: b :: ns) -> no_digit g ->
  storable_int iso a -> storable_int iso b ->
  exists t1 t2, typed t1 (b :: ns) /\ typed t2 ns /\ (length t2 < length t)%nat
    /\ scanf_d iso (t ++ g) None = Ok (One, Some (low a), t1 ++ g)
    /\ scanf_d iso (t1 ++ g) None = Ok (One, Some (low b), t2 ++ g).
Proof.
  intros H Hg Ha Hb. destruct (scanf_next iso t a (b :: ns) g None H Hg) as (t1 & H1 & L1 & E1).
  destruct (scanf_next iso t1 b ns g None H1 Hg) as (t2 & H2 & L2 & E2).
  rewrite (to_int_ok _ _ Ha) in E1. rewrite (to_int_ok _ _ Hb) in E2. cbn [bind] in E1, E2.
  exists t1, t2. split; [auto|]. split; [auto|]. split; [lia|]. auto.
Qed.

Lemma in_a_row_cons q qs rest : in_a_row (q :: qs) ++ rest = fst q :: snd q :: in_a_row qs ++ rest.
Proof. reflexivity. Qed.

Lemma scan_pairs_enough iso g : no_digit g -> forall qs rest t i num fuel,
  typed t (in_a_row qs ++ rest) -> Forall (storable_int iso) (in_a_row qs) ->
  (length t < fuel)%nat -> 0 <= i -> i + zlen qs = num -> num < 2 ^ 32 ->
  scan_pairs fuel iso (t ++ g) i num = Ok (map low2 qs).
Proof.
  intros Hg. induction qs as [|q qs IH]; intros rest t i num fuel HT HF HL Hi Hn Hu.
  - rewrite zlen_nil in Hn. destruct fuel as [|f]; [lia|]. cbn [scan_pairs map]. now replace (i =? num) with true by (symmetry; apply Z.eqb_eq; lia).
  - rewrite zlen_cons in Hn. pose proof (zlen_nonneg _ qs). destruct fuel as [|f]; [lia|]. cbn [scan_pairs map].
    replace (i =? num) with false by (symmetry; apply Z.eqb_neq; lia).
    rewrite in_a_row_cons in HT. change (in_a_row (q :: qs)) with (fst q :: snd q :: in_a_row qs) in HF.
    inversion HF as [|? ? F1 HF1]; subst. inversion HF1 as [|? ? F2 HF2]; subst.
    destruct (scanf_two iso t _ _ _ g HT Hg F1 F2) as (t1 & t2 & T1 & T2 & L & E1 & E2).
    rewrite E1. cbn [bind]. rewrite E2. cbn [bind is_EOF orb].
    replace (u32 (i + 1)) with (i + 1) by (unfold u32; rewrite Z.mod_small; lia).
    rewrite (IH rest t2 (i + 1) _ f T2 HF2); auto; lia.
Qed.

(** the number of queries is not reached *)
Definition beyond (i k num : Z) : Prop := 2 ^ 32 <= num \/ i + k < num.

Lemma scan_pairs_all iso g : stop g -> forall qs rest t i num fuel,
  typed t (in_a_row qs ++ rest) -> Forall (storable_int iso) (in_a_row qs ++ rest) -> zlen rest <= 1 ->
  (length t < fuel)%nat -> 0 <= i < 2 ^ 32 -> beyond i (zlen qs) num ->
  scan_pairs fuel iso (t ++ g) i num = match g with [] => Ok (map low2 qs) | _ => UB end.
Proof.
  intros Hg. pose proof (stop_no_digit g Hg) as Hd.
  induction qs as [|q qs IH]; intros rest t i num fuel HT HF HR HL Hi HB.
  - rewrite zlen_nil in HB. destruct fuel as [|f]; [lia|]. cbn [scan_pairs map].
    replace (i =? num) with false by (symmetry; apply Z.eqb_neq; unfold beyond in HB; lia).
    cbn [in_a_row flat_map app] in HT, HF. destruct rest as [|x rest].
    + destruct Hg as [->|Hg].
      * rewrite app_nil_r, (scanf_end iso t None HT). cbn [bind]. unfold scanf_d. cbn [skip_spaces bind is_EOF orb]. reflexivity.
      * rewrite (scanf_garbage iso t g None HT Hg). cbn [bind].
        assert (Z0 : typed [] []) by (constructor; constructor).
        pose proof (scanf_garbage iso [] g None Z0 Hg) as E. cbn [app] in E. rewrite E. cbn [bind is_EOF orb].
        destruct Hg as (c & g' & -> & _). reflexivity.
    + assert (rest = []) as -> by (destruct rest; auto; rewrite !zlen_cons in HR; pose proof (zlen_nonneg _ rest); lia).
      inversion HF as [|? ? F1 _]; subst.
      destruct (scanf_next iso t x [] g None HT Hd) as (t1 & T1 & L1 & E1).
      rewrite (to_int_ok _ _ F1) in E1. cbn [bind] in E1. rewrite E1. cbn [bind].
      destruct Hg as [->|Hg].
      * rewrite app_nil_r, (scanf_end iso t1 None T1). reflexivity.
      * rewrite (scanf_garbage iso t1 g None T1 Hg). cbn [bind is_EOF orb].
        destruct Hg as (c & g' & -> & _). reflexivity.
  - rewrite zlen_cons in HB. pose proof (zlen_nonneg _ qs). destruct fuel as [|f]; [lia|]. cbn [scan_pairs map].
    replace (i =? num) with false by (symmetry; apply Z.eqb_neq; unfold beyond in HB; lia).
    rewrite in_a_row_cons in HT, HF.
    inversion HF as [|? ? F1 HF1]; subst. inversion HF1 as [|? ? F2 HF2]; subst.
    destruct (scanf_two iso t _ _ _ g HT Hd F1 F2) as (t1 & t2 & T1 & T2 & L & E1 & E2).
    rewrite E1. cbn [bind]. rewrite E2. cbn [bind is_EOF orb].
    rewrite (IH rest t2 (u32 (i + 1)) num f T2 HF2 HR).
    + destruct g; reflexivity.
    + lia.
    + unfold u32. apply Z.mod_pos_bound. lia.
    + unfold beyond in *. unfold u32. destruct HB as [HB|HB]; [auto|].
      destruct (Z_lt_dec (i + 1) (2 ^ 32)); [right; rewrite Z.mod_small; lia|left; lia].
Qed.

(** a number which is too large *)
Lemma scan_pairs_over g : no_digit g -> forall qs a rest t i num fuel,
  (exists b, a = [b] /\ ~ storable_int true b
     \/ exists c, a = [c; b] /\ storable_int true c /\ ~ storable_int true b) ->
  typed t (in_a_row qs ++ a ++ rest) -> Forall (storable_int true) (in_a_row qs) ->
  (length t < fuel)%nat -> 0 <= i < 2 ^ 32 -> beyond i (zlen qs) num ->
  scan_pairs fuel true (t ++ g) i num = UB.
Proof.
  intros Hg. induction qs as [|q qs IH]; intros a rest t i num fuel HA HT HF HL Hi HB.
  - rewrite zlen_nil in HB. destruct fuel as [|f]; [lia|]. cbn [scan_pairs].
    replace (i =? num) with false by (symmetry; apply Z.eqb_neq; unfold beyond in HB; lia).
    cbn [in_a_row flat_map app] in HT. destruct HA as [b [[-> Hb]|(c & -> & Hc & Hb)]]; cbn [app] in HT.
    + destruct (scanf_next true t b rest g None HT Hg) as (t1 & T1 & L1 & E1).
      rewrite E1, (to_int_over _ Hb). reflexivity.
    + destruct (scanf_next true t c (b :: rest) g None HT Hg) as (t1 & T1 & L1 & E1).
      destruct (scanf_next true t1 b rest g None T1 Hg) as (t2 & T2 & L2 & E2).
      rewrite E1, (to_int_ok _ _ Hc). cbn [bind]. rewrite E2, (to_int_over _ Hb). reflexivity.
  - rewrite zlen_cons in HB. pose proof (zlen_nonneg _ qs). destruct fuel as [|f]; [lia|]. cbn [scan_pairs].
    replace (i =? num) with false by (symmetry; apply Z.eqb_neq; unfold beyond in HB; lia).
    rewrite in_a_row_cons in HT. change (in_a_row (q :: qs)) with (fst q :: snd q :: in_a_row qs) in HF.
    inversion HF as [|? ? F1 HF1]; subst. inversion HF1 as [|? ? F2 HF2]; subst.
    destruct (scanf_two true t _ _ _ g HT Hg F1 F2) as (t1 & t2 & T1 & T2 & L & E1 & E2).
    rewrite E1. cbn [bind]. rewrite E2. cbn [bind is_EOF orb].
    rewrite (IH a rest t2 (u32 (i + 1)) num f HA T2 HF2); [reflexivity|lia|unfold u32; apply Z.mod_pos_bound; lia|].
    unfold beyond in *. unfold u32. destruct HB as [HB|HB]; [auto|].
    destruct (Z_lt_dec (i + 1) (2 ^ 32)); [right; rewrite Z.mod_small; lia|left; lia].
Qed.

(** ** single numbers *)
Lemma scan_words_enough iso g : no_digit g -> forall qs rest t i num fuel,
  typed t (qs ++ rest) -> Forall (storable_int iso) qs ->
  (length t < fuel)%nat -> 0 <= i -> i + zlen qs = num -> num < 2 ^ 32 ->
  scan_words fuel iso (t ++ g) i num = Ok (map low qs).
Proof.
  intros Hg. induction qs as [|q qs IH]; intros rest t i num fuel HT HF HL Hi Hn Hu.
  - rewrite zlen_nil in Hn. destruct fuel as [|f]; [lia|]. cbn [scan_words map]. now replace (i =? num) with true by (symmetry; apply Z.eqb_eq; lia).
  - rewrite zlen_cons in Hn. pose proof (zlen_nonneg _ qs). destruct fuel as [|f]; [lia|]. cbn [scan_words map].
    replace (i =? num) with false by (symmetry; apply Z.eqb_neq; lia).
    inversion HF as [|? ? F1 HF1]; subst. cbn [app] in HT.
    destruct (scanf_next iso t _ _ g None HT Hg) as (t1 & T1 & L1 & E1).
    rewrite (to_int_ok _ _ F1) in E1. cbn [bind] in E1. rewrite E1. cbn [bind is_EOF].
    replace (u32 (i + 1)) with (i + 1) by (unfold u32; rewrite Z.mod_small; lia).
    rewrite (IH rest t1 (i + 1) _ f T1 HF1); auto; lia.
Qed.

Lemma scan_words_all iso g : stop g -> forall qs t i num fuel,
  typed t qs -> Forall (storable_int iso) qs ->
  (length t < fuel)%nat -> 0 <= i < 2 ^ 32 -> beyond i (zlen qs) num ->
  scan_words fuel iso (t ++ g) i num = match g with [] => Ok (map low qs) | _ => UB end.
Proof.
  intros Hg. pose proof (stop_no_digit g Hg) as Hd.
  induction qs as [|q qs IH]; intros t i num fuel HT HF HL Hi HB.
  - rewrite zlen_nil in HB. destruct fuel as [|f]; [lia|]. cbn [scan_words map].
    replace (i =? num) with false by (symmetry; apply Z.eqb_neq; unfold beyond in HB; lia).
    destruct Hg as [->|Hg].
    + rewrite app_nil_r, (scanf_end iso t None HT). reflexivity.
    + rewrite (scanf_garbage iso t g None HT Hg). cbn [bind is_EOF].
      destruct Hg as (c & g' & -> & _). reflexivity.
  - rewrite zlen_cons in HB. pose proof (zlen_nonneg _ qs). destruct fuel as [|f]; [lia|]. cbn [scan_words map].
    replace (i =? num) with false by (symmetry; apply Z.eqb_neq; unfold beyond in HB; lia).
    inversion HF as [|? ? F1 HF1]; subst.
    destruct (scanf_next iso t _ _ g None HT Hd) as (t1 & T1 & L1 & E1).
    rewrite (to_int_ok _ _ F1) in E1. cbn [bind] in E1. rewrite E1. cbn [bind is_EOF].
    rewrite (IH t1 (u32 (i + 1)) num f T1 HF1).
    + destruct g; reflexivity.
    + lia.
    + unfold u32. apply Z.mod_pos_bound. lia.
    + unfold beyond in *. unfold u32. destruct HB as [HB|HB]; [auto|].
      destruct (Z_lt_dec (i + 1) (2 ^ 32)); [right; rewrite Z.mod_small; lia|left; lia].
Qed.

Lemma scan_words_over g : no_digit g -> forall qs b rest t i num fuel,
  ~ storable_int true b -> typed t (qs ++ b :: rest) -> Forall (storable_int true) qs ->
  (length t < fuel)%nat -> 0 <= i < 2 ^ 32 -> beyond i (zlen qs) num ->
  scan_words fuel true (t ++ g) i num = UB.
Proof.
  intros Hg. induction qs as [|q qs IH]; intros b rest t i num fuel HA HT HF HL Hi HB.
  - rewrite zlen_nil in HB. destruct fuel as [|f]; [lia|]. cbn [scan_words].
    replace (i =? num) with false by (symmetry; apply Z.eqb_neq; unfold beyond in HB; lia).
    cbn [app] in HT. destruct (scanf_next true t b rest g None HT Hg) as (t1 & T1 & L1 & E1).
    rewrite E1, (to_int_over _ HA). reflexivity.
  - rewrite zlen_cons in HB. pose proof (zlen_nonneg _ qs). destruct fuel as [|f]; [lia|]. cbn [scan_words].
    replace (i =? num) with false by (symmetry; apply Z.eqb_neq; unfold beyond in HB; lia).
    inversion HF as [|? ? F1 HF1]; subst. cbn [app] in HT.
    destruct (scanf_next true t _ _ g None HT Hg) as (t1 & T1 & L1 & E1).
    rewrite (to_int_ok _ _ F1) in E1. cbn [bind] in E1. rewrite E1. cbn [bind is_EOF].
    rewrite (IH b rest t1 (u32 (i + 1)) num f HA T1 HF1); [reflexivity|lia|unfold u32; apply Z.mod_pos_bound; lia|].
    unfold beyond in *. unfold u32. destruct HB as [HB|HB]; [auto|].
    destruct (Z_lt_dec (i + 1) (2 ^ 32)); [right; rewrite Z.mod_small; lia|left; lia].
Qed.
