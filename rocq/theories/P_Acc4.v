(** C50: the output of build is exact to five digits. *)
From Coq Require Import QArith Floats.SpecFloat.
From Verif Require Import Base M_Util M_Build M_Index M_Out Spec Lib Format Layout Typed Shown Printed Exact Counts
  P_Stats P_Format P_Index P_Print P_Fin4 P_Counts P_Float P_Acc P_Acc2 P_Acc3 P_Out P_Out3 P_Out4.
Local Open Scope Z_scope.

Lemma totals_bound K f : Forall valid K -> total (fun L => counts L f) K <= 65536 * total zlen K.
Proof.
  intro V. rewrite <- total_scale. apply total_le. intros S HS. rewrite Forall_forall in V. apply counts_bound. auto.
Qed.
Lemma many_lists K : Forall valid K -> zlen K <= total zlen K.
Proof.
  intro V. rewrite <- (total_one _ K). apply total_le. intros S HS. rewrite Forall_forall in V. destruct (V S HS) as (N & _).
  destruct S; [easy|]. rewrite zlen_cons. pose proof (zlen_nonneg _ S). lia.
Qed.

Lemma ef_fits a : 0 <= a <= 65536 -> fits (ef_bits a).
Proof.
  intro H. unfold ef_bits, fits.
  assert (0 <= (if a <? 65536 then Z.log2_up ((65536 + a - 1) / a) else 0) <= 16).
  { destruct (a <? 65536); [|lia]. split; [apply Z.log2_up_nonneg|].
    replace 16 with (Z.log2_up 65536) by reflexivity. apply Z.log2_up_le_mono.
    destruct (Z.eq_dec a 0) as [->|N]; [now compute|]. apply Z.div_le_upper_bound; nia. }
  assert (65536 * 18 < 2 ^ 53) by reflexivity. nia.
Qed.

Lemma dense_blocks_small S : valid S -> counts S F_dense_blocks <= 1 * zlen S.
Proof.
  intro V. rewrite Z.mul_1_l. apply (over_blocks_le S bitmapped one V). intros n Hn. unfold one, bitmapped. lia.
Qed.
Lemma sparse_blocks_small S : valid S -> counts S F_sparse_blocks <= 1 * zlen S.
Proof.
  intro V. rewrite Z.mul_1_l. apply (over_blocks_le S listed one V). intros n Hn. unfold one, listed. lia.
Qed.
Lemma headers_small S : valid S -> counts S F_chunks_header_bits <= 144 * zlen S.
Proof.
  intro V. cbn [counts].
  assert (C : chunks_in S <= zlen S) by (apply (over_le _ one S V); intros h; unfold one; lia).
  assert (L : 1 <= zlen S).
  { destruct V as (N & _). destruct S; [easy|]. rewrite zlen_cons. pose proof (zlen_nonneg _ S). lia. }
  generalize dependent (chunks_in S). intros k C. assert (k / 32 <= zlen S); [|lia]. apply Z.div_le_upper_bound; lia.
Qed.
Lemma dense_bits_small S : valid S -> counts S F_dense_blocks_bits <= 256 * zlen S.
Proof.
  intro V. assert (K : over_blocks S bitmapped one <= zlen S) by (apply over_blocks_le; [auto|]; intros n Hn; unfold one, bitmapped; lia).
  cbn [counts]. lia.
Qed.
Lemma sparse_bits_small S : valid S -> counts S F_sparse_blocks_bits <= 16 * zlen S.
Proof.
  intro V. assert (K : over_blocks S listed one <= zlen S) by (apply over_blocks_le; [auto|]; intros n Hn; unfold one, listed; lia).
  cbn [counts].
  pose proof (over_blocks_le S listed same V ltac:(unfold same; lia)). lia.
Qed.

Lemma file_bound dbg params u Ls stats offsets sequences :
  let kept := filter (fun L => pass params (zlen L) (last L 0)) Ls in
  Forall valid kept -> Forall short Ls -> total zlen kept < 2 ^ 36 ->
  index_build dbg params (collection u Ls) = Ok (stats, offsets, sequences) ->
  fits (8 * zlen (index_file offsets sequences)).
Proof.
  intros kept V HS T E. destruct (index_build_ok dbg params u Ls V HS) as (st & E' & _). rewrite E' in E.
  injection E as <- <- <-. fold kept.
  change (filter (keep params) Ls) with kept.
  unfold index_file. rewrite !zlen_app, !zlen_le_bytes, zlen_bytes_of_u64s, zlen_cons, zlen_starts.
  pose proof (size_bits_total kept V) as SB. unfold size_bits in SB.
  rewrite !total_map_counts in SB by (auto; discriminate).
  pose proof (many_lists kept V). pose proof (zlen_nonneg _ kept).
  set (T1 := total zlen kept) in *.
  assert (X : forall f k, 0 <= k -> (forall S, valid S -> counts S f <= k * zlen S) -> total (fun L => counts L f) kept <= k * T1).
  { intros f k Hk Hf. unfold T1. rewrite <- total_scale. apply total_le. intros S HS'. rewrite Forall_forall in V. auto. }
  assert (C1 := X _ 144 ltac:(lia) headers_small).
  assert (C2 := X _ 1 ltac:(lia) dense_blocks_small).
  assert (C3 := X _ 1 ltac:(lia) sparse_blocks_small).
  assert (C4 := totals_bound kept F_dense_chunks_bits V). fold T1 in C4.
  assert (C5 := X _ 256 ltac:(lia) dense_bits_small).
  assert (C6 := X _ 16 ltac:(lia) sparse_bits_small).
  pose proof (zlen_nonneg _ (lays kept)).
  unfold fits. change (2 ^ 53) with (131072 * 2 ^ 36). split; [lia|]. lia.
Qed.

Lemma total_zero_each (f : Z -> Z) l : (forall x, In x l -> 0 <= f x) -> total f l = 0 -> forall x, In x l -> f x = 0.
Proof.
  induction l as [|a l IH]; intros H E x Hx; [easy|]. rewrite total_cons in E.
  pose proof (H a (or_introl eq_refl)). assert (0 <= total f l) by (apply total_nonneg; intros y Hy; apply H; now right).
  destruct Hx as [<-|Hx]; [lia|]. apply IH; auto; [|lia]. intros y Hy. apply H. now right.
Qed.

Lemma c50_sheet dbg params u Ls stats offsets sequences :
  let kept := filter (fun L => pass params (zlen L) (last L 0)) Ls in
  let c := counters (8 * zlen (index_file offsets sequences)) kept in
  Forall valid kept -> Forall short Ls -> total zlen kept < 2 ^ 36 ->
  index_build dbg params (collection u Ls) = Ok (stats, offsets, sequences) ->
  Forall2 (Forall2 agrees) (statistics_lines c) (statistics_sheet c).
Proof.
  intros kept c V HS T E.
  pose proof (file_bound dbg params u Ls stats offsets sequences V HS T E) as FB.
  assert (NB : 0 <= 8 * zlen (index_file offsets sequences)) by apply FB.
  assert (NN : forall f, 0 <= c f) by (intro f; apply counters_nonneg; auto).
  assert (C : forall f, f <> F_bits -> c f = total (fun L => counts L f) kept) by (intros []; easy || (intros _; reflexivity)).
  assert (FI : forall f, fits (c f)).
  { intro f. destruct (field_eq_dec f F_bits) as [->|N]; [exact FB|]. split; [apply NN|]. rewrite (C f N).
    pose proof (totals_bound kept f V). change (2 ^ 53) with (131072 * 2 ^ 36). lia. }
  assert (CN : forall i, c (F_num_blocks_in_chunks i) = n_sparse i kept).
  { intro i. rewrite <- (stats_nb i kept V). rewrite (C (F_num_blocks_in_chunks i)) by discriminate. symmetry. apply total_map_counts; auto; discriminate. }
  assert (CI : forall i, c (F_num_integers i) = n_ints i kept).
  { intro i. rewrite <- (stats_ni i kept V). rewrite (C (F_num_integers i)) by discriminate. symmetry. apply total_map_counts; auto; discriminate. }
  assert (BI : forall i, c (F_num_integers i) < 2 ^ 36) by (intro i; rewrite CI; pose proof (ints_bound i kept V); lia).
  assert (BN : forall i, c (F_num_blocks_in_chunks i) <= c (F_num_integers i) <= 65536 * c (F_num_blocks_in_chunks i)).
  { intro i. rewrite CI, CN. apply sparse_bounds. }
  assert (BA : forall i, 0 <= c (F_num_integers i) / c (F_num_blocks_in_chunks i) <= 65536).
  { intro i. specialize (BN i). pose proof (NN (F_num_blocks_in_chunks i)) as N0. pose proof (NN (F_num_integers i)) as N1.
    destruct (Z.eq_dec (c (F_num_blocks_in_chunks i)) 0) as [->|N]; [rewrite Zdiv_0_r; lia|].
    split; [apply Z.div_pos; lia|]. apply Z.div_le_upper_bound; lia. }
  destruct (c18_statistics_index dbg params u Ls V HS) as (st & o & q & E2 & D). rewrite E2 in E. injection E as -> -> ->.
  destruct (c18_exact_index dbg params u Ls V HS) as (st & o' & q' & E3 & X). rewrite E3 in E2. injection E2 as -> -> ->.
  destruct D as (_ & _ & _ & _ & _ & _ & A).
  assert (SC : forall f, f <> F_bits -> stats f = c f) by (intros f N; rewrite (C f N); now apply X).
  clear C CN CI X E3 FB NB. clearbody c. clear V HS T. clearbody kept.
  apply statistics_agree; auto.
  - intros i Hi. specialize (BN i). specialize (BI i). pose proof (NN (F_num_blocks_in_chunks i)).
    unfold fits. change (2 ^ 53) with (131072 * 2 ^ 36). nia.
  - intros i Hi. specialize (BA i). unfold fits. assert (65536 < 2 ^ 53) by reflexivity. lia.
  - intros i Hi. apply ef_fits, BA.
  - intros i Hi. split; [apply total_nonneg; intros; apply NN|].
    apply Z.le_lt_trans with (total (fun _ => 2 ^ 36) (zrange 1 (Z.to_nat i))).
    + apply total_le. intros j _. specialize (BI j). lia.
    + rewrite (total_ext _ _ (fun _ => 2 ^ 36 * 1)) by (intros; lia). rewrite total_scale, total_one, zlen_zrange.
      change (2 ^ 53) with (2 ^ 36 * 131072). apply Z.mul_lt_mono_pos_l; lia.
  - intros Z0 i Hi. pose proof (acc_hist _ A) as K. rewrite (SC F_sparse_blocks ltac:(discriminate)), Z0 in K.
    assert (Y : forall j, In j (zrange 1 30) -> stats (F_sparse_blocks_cardinalities j) = 0).
    { apply (total_zero_each (fun j => stats (F_sparse_blocks_cardinalities j)) _); [|exact K]. intros j _. rewrite (SC (F_sparse_blocks_cardinalities j)) by discriminate. apply NN. }
    rewrite <- (SC (F_sparse_blocks_cardinalities i)) by discriminate. apply Y. apply In_zrange. lia.
  - intros Z0 i Hi. pose proof (acc_nb _ A) as K. rewrite (SC F_sparse_chunks ltac:(discriminate)), Z0 in K.
    assert (Y : forall j, In j (zrange 1 256) -> stats (F_num_blocks_in_chunks j) = 0).
    { apply (total_zero_each (fun j => stats (F_num_blocks_in_chunks j)) _); [|exact K]. intros j _. rewrite (SC (F_num_blocks_in_chunks j)) by discriminate. apply NN. }
    rewrite <- (SC (F_num_blocks_in_chunks i)) by discriminate. apply Y. apply In_zrange. lia.
Qed.

Theorem c50_build : forall nan dbg params u Ls stats offsets sequences t,
  let kept := filter (fun L => pass params (zlen L) (last L 0)) Ls in
  0 <= u -> Forall valid kept -> Forall short Ls -> total zlen kept < 2 ^ 36 ->
  index_build dbg params (collection u Ls) = Ok (stats, offsets, sequences) ->
  build_text nan dbg params (collection u Ls) = Ok t ->
  sheet nan (build_sheet u (zlen kept) (counters (8 * zlen (index_file offsets sequences)) kept)) t.
Proof.
  intros nan dbg params u Ls stats offsets sequences t kept Hu V HS T E B.
  assert (T' : total zlen kept < 2 ^ 37) by (change (2 ^ 37) with (2 * 2 ^ 36); lia).
  destruct (c49_build nan dbg params u Ls stats offsets sequences Hu V HS T' E) as (P1 & P2).
  pose proof (c50_sheet dbg params u Ls stats offsets sequences V HS T E) as A. cbn zeta in A.
  fold kept in P1, P2, A.
  assert (D : (exists i, 1 <= i <= 256 /\ sparse_chunks i kept = []) \/ (forall i, 1 <= i <= 256 -> sparse_chunks i kept <> [])).
  { clear - kept. assert (K : forall n, (exists i, 1 <= i <= Z.of_nat n /\ sparse_chunks i kept = [])
        \/ forall i, 1 <= i <= Z.of_nat n -> sparse_chunks i kept <> []).
    { induction n as [|n IH]; [right; lia|]. destruct IH as [(i & Hi & Hs)|IH]; [left; exists i; split; [lia|auto]|].
      assert (D : sparse_chunks (Z.of_nat (S n)) kept = [] \/ sparse_chunks (Z.of_nat (S n)) kept <> []).
      { destruct (sparse_chunks (Z.of_nat (S n)) kept) as [|a l]; [now left|right; discriminate]. }
      destruct D as [D|D].
      - left. exists (Z.of_nat (S n)). split; [lia|auto].
      - right. intros i Hi. destruct (Z.eq_dec i (Z.of_nat (S n))) as [->|]; [auto|apply IH; lia]. }
    exact (K 256%nat). }
  destruct D as [D|D].
  - rewrite (P2 D) in B. discriminate.
  - apply (P1 D) in B. revert B. apply page_sheet. apply build_agree. exact A.
Qed.

(** each number by itself *)
Lemma c50_quotient : forall nan x y, 0 <= x < 2 ^ 53 -> 0 <= y < 2 ^ 53 -> ratio_text nan x y (show_double nan (quot x y)).
Proof. intros nan x y Hx Hy. apply (prints_quot x y Hx Hy). apply double_ok. Qed.
Lemma c50_percentage : forall nan x y, 0 <= x < 2 ^ 53 -> 0 <= y < 2 ^ 53 ->
  ratio_text nan (100 * x) y (show_double nan (pct x y))
  /\ ratio_text nan (100 * x) y (show_double nan (SFmul 53 1024 (quot x y) (dbl 100))).
Proof.
  intros nan x y Hx Hy. split; [apply (prints_pct x y Hx Hy)|apply (prints_share x y Hx Hy)]; apply double_ok.
Qed.
Lemma c50_mean : forall nan n y (x : Z -> Z), 1 <= Z.of_nat n <= 256 -> 0 < y < 2 ^ 53 ->
  (forall i, 1 <= i <= Z.of_nat n -> 0 <= x i < 2 ^ 53) ->
  ratio_text nan (total (fun i => i * x i) (zrange 1 n)) y (show_double nan (mean n (fun i => quot (x i) y))).
Proof.
  intros nan n y x Hn Hy H. apply (prints_mean n y x Hn ltac:(lia) H ltac:(lia)). apply double_ok.
Qed.

Lemma combs_small36 : total zlen combs < 2 ^ 36.
Proof.
  unfold combs. rewrite total_map. rewrite (total_ext _ _ (fun i => i)).
  - vm_compute. reflexivity.
  - intros i Hi. apply In_zrange in Hi. apply zlen_comb. lia.
Qed.
Lemma c50_occurs : forall nan dbg u, 0 <= u ->
  exists stats offsets sequences t,
    index_build dbg default_params (collection u combs) = Ok (stats, offsets, sequences)
    /\ build_text nan dbg default_params (collection u combs) = Ok t
    /\ sheet nan (build_sheet u 256 (counters (8 * zlen (index_file offsets sequences)) combs)) t.
Proof.
  intros nan dbg u Hu. destruct (c49_occurs nan dbg u Hu) as (t & T).
  assert (HS : Forall short combs) by (eapply Forall_impl; [exact short_valid|exact combs_valid]).
  destruct (c18_exact_index dbg default_params u combs) as (st & o & q & E & _); [rewrite combs_kept; exact combs_valid|exact HS|].
  exists st, o, q, t. split; [exact E|]. split; [exact T|].
  pose proof (c50_build nan dbg default_params u combs st o q t Hu) as B. cbn zeta in B. rewrite combs_kept in B.
  replace 256 with (zlen combs) by reflexivity. apply B; auto; [exact combs_valid|exact combs_small36].
Qed.

Lemma c50_readme : forall nan, sheet nan (summary_sheet readme) readme_log.
Proof.
  intro nan. apply page_sheet with (summary_lines readme); [|apply c49_readme]. apply summary_agree.
  assert (P : 1000000000 < 2 ^ 53) by reflexivity. intro f. unfold fits.
  destruct f; cbn [readme]; repeat match goal with |- context [if ?b then _ else _] => destruct b end; lia.
Qed.
