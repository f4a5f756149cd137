(** Every number that is printed. *)
From Coq Require Import Floats.SpecFloat.
From Verif Require Import Base Hw Spec Format Lib M_Util M_Build M_Print M_Index Counts Shown
  P_Build1 P_Build2 P_Build3 P_Seq P_Index P_Stats P_Format P_Fin4 P_Float P_Print P_Counts.
Local Open Scope Z_scope.

Lemma cards_shown st fuel : forall i ev out,
  print_cards fuel st i ev out
  = (fold_left (fun s i => SFadd 53 1024 s (SFmul 53 1024 (dbl i)
        (quot (st (F_sparse_blocks_cardinalities i)) (st F_sparse_blocks)))) (zrange i fuel) ev,
     out ++ flat_map (card_line st) (zrange i fuel)).
Proof.
  induction fuel as [|f IH]; intros i ev out; cbn [print_cards zrange fold_left flat_map].
  - now rewrite app_nil_r.
  - rewrite IH, <- app_assoc. reflexivity.
Qed.

Lemma dist_shown st fuel : forall i ev out, 1 <= i ->
  (forall j, i <= j < i + Z.of_nat fuel -> fine st j) ->
  print_dist fuel st i (total (fun j => st (F_num_integers j)) (zrange 1 (Z.to_nat (i - 1)))) ev out
  = Ok (fold_left (fun s i => SFadd 53 1024 s (SFmul 53 1024 (dbl i)
          (quot (st (F_num_blocks_in_chunks i)) (st F_sparse_chunks)))) (zrange i fuel) ev,
        out ++ flat_map (dist_line st) (zrange i fuel)).
Proof.
  induction fuel as [|f IH]; intros i ev out Hi H; cbn [print_dist zrange fold_left flat_map].
  - now rewrite app_nil_r.
  - destruct (H i ltac:(lia)) as [F1 F2]. rewrite avg_ok by lia. cbn [bind].
    assert (P : 0 < average st i) by (apply Z.div_str_pos; lia).
    unfold average in P. unfold elias_fano_bitsize. rewrite (proj2 (Z.eqb_neq _ _)) by lia. cbn [bind].
    assert (T : total (fun j => st (F_num_integers j)) (zrange 1 (Z.to_nat (i - 1))) + st (F_num_integers i)
              = total (fun j => st (F_num_integers j)) (zrange 1 (Z.to_nat i))).
    { replace (Z.to_nat i) with (Z.to_nat (i - 1) + 1)%nat by lia. rewrite zrange_app, total_app. cbn [zrange].
      rewrite total_cons. cbn [total fold_right]. replace (1 + Z.of_nat (Z.to_nat (i - 1))) with i by lia. lia. }
    rewrite T. replace i with (i + 1 - 1) at 2 by lia. rewrite IH; [|lia|intros; apply H; lia].
    rewrite <- app_assoc. reflexivity.
Qed.

Lemma print_shown st : (forall j, 1 <= j <= 256 -> fine st j) -> print st = Ok (shown st).
Proof.
  intro H. unfold print. rewrite cards_shown.
  pose proof (fun ev out => dist_shown st 256 1 ev out ltac:(lia) ltac:(intros; apply H; lia)) as D.
  change (total (fun j => st (F_num_integers j)) (zrange 1 (Z.to_nat (1 - 1)))) with 0 in D.
  rewrite D. cbn [bind]. unfold shown, mean. rewrite <- !app_assoc.
  set (A := flat_map (card_line st) _). set (B := flat_map (dist_line st) _).
  set (X := fold_left _ _ _). set (Y := fold_left _ (zrange 1 256) _).
  clearbody A B X Y. reflexivity.
Qed.

Lemma flat_map_ext' A B (f g : A -> list B) l : (forall x, f x = g x) -> flat_map f l = flat_map g l.
Proof. intro H. induction l as [|x l IH]; auto. cbn [flat_map]. now rewrite H, IH. Qed.
Lemma fold_left_ext A B (f g : A -> B -> A) l : (forall s x, f s x = g s x) -> forall s, fold_left f l s = fold_left g l s.
Proof. intro H. induction l as [|x l IH]; intro s; auto. cbn [fold_left]. now rewrite H, IH. Qed.

Lemma shown_ext c d : (forall f, c f = d f) -> shown c = shown d.
Proof.
  intro H. unfold shown, summary, mean.
  rewrite (flat_map_ext' _ _ (card_line c) (card_line d)), (flat_map_ext' _ _ (dist_line c) (dist_line d)).
  - rewrite (fold_left_ext _ _ _ (fun s i => SFadd 53 1024 s (SFmul 53 1024 (dbl i)
        (quot (d (F_sparse_blocks_cardinalities i)) (d F_sparse_blocks))))) by (intros; now rewrite !H).
    rewrite (fold_left_ext _ _ (fun s i => SFadd 53 1024 s (SFmul 53 1024 (dbl i)
        (quot (c (F_num_blocks_in_chunks i)) (c F_sparse_chunks)))) (fun s i => SFadd 53 1024 s (SFmul 53 1024 (dbl i)
        (quot (d (F_num_blocks_in_chunks i)) (d F_sparse_chunks))))) by (intros; now rewrite !H).
    now rewrite !H.
  - intro i. unfold dist_line, average. rewrite !H. do 6 f_equal.
    rewrite (total_ext _ (fun j => c (F_num_integers j)) (fun j => d (F_num_integers j))); auto.
  - intro i. unfold card_line. now rewrite !H.
Qed.

Theorem c28_shown : forall dbg params u Ls stats offsets sequences,
  let kept := filter (fun L => pass params (zlen L) (last L 0)) Ls in
  Forall valid kept -> Forall short Ls -> total zlen kept < 2 ^ 37 ->
  index_build dbg params (collection u Ls) = Ok (stats, offsets, sequences) ->
  (forall i, 1 <= i <= 256 -> sparse_chunks i kept <> []) ->
  print stats = Ok (shown (counters (8 * zlen (index_file offsets sequences)) kept)).
Proof.
  intros dbg params u Ls stats offsets sequences kept V HSh B E N.
  pose proof (index_stats _ _ _ _ _ _ _ V HSh E) as I. fold kept in I.
  destruct (c18_exact_index dbg params u Ls V HSh) as (st & o & q & E' & X). rewrite E' in E. injection E as <- <- <-.
  destruct (c17_size_index dbg params u Ls V HSh) as (st' & o' & q' & E2 & Y). rewrite E' in E2. injection E2 as <- <- <-.
  rewrite print_shown.
  - f_equal. apply shown_ext. intro f. destruct f; try (cbn [counters]; apply X; discriminate). exact Y.
  - intros i Hi. destruct (I i) as [I1 I2]. unfold fine. rewrite I1, I2.
    pose proof (sparse_bounds i kept) as [B1 B2]. pose proof (ints_bound i kept V).
    assert (0 < n_sparse i kept).
    { unfold n_sparse. specialize (N i Hi). destruct (sparse_chunks i kept); [easy|]. rewrite zlen_cons. pose proof (zlen_nonneg _ l). lia. }
    lia.
Qed.

Theorem c28_shown_combs : forall dbg u, exists stats offsets sequences,
  index_build dbg default_params (collection u combs) = Ok (stats, offsets, sequences)
  /\ print stats = Ok (shown (counters (8 * zlen (index_file offsets sequences)) combs)).
Proof.
  intros dbg u. pose proof combs_kept as K. pose proof combs_valid as V.
  assert (HSh : Forall short combs) by (eapply Forall_impl; [exact short_valid|exact V]).
  destruct (index_build_ok dbg default_params u combs) as (st & E & _); [unfold keep; rewrite K; exact V|exact HSh|].
  pose proof (fun A B => c28_shown dbg default_params u combs st _ _ A HSh B E) as P. cbv zeta in P. rewrite K in P.
  do 3 eexists. split; [exact E|]. apply (P V combs_small combs_sparse).
Qed.
