(** Proofs for C63: the programs on machines that yield a number for every conversion. *)
From Coq Require Import Lia Sorted String Floats.SpecFloat.
From Verif Require Import Base Hw Spec Lib L_Bits L_Group Layout M_Util M_Build M_Seq M_Decode M_Query M_Many
  M_Index M_Print M_Drivers M_Tools M_Text M_Out M_Say M_Session M_Lax Holds Format Room Shown Typed Printed Counts Report Drawn Session Lax
  P_Build1 P_Build2 P_Build3 P_Index P_Format P_Text P_Text2 P_Text3 P_Text4 P_Text6 P_Tools P_Drivers P_Stats P_Fin4 P_Counts P_Print P_Shown P_Out3 P_Say P_Say3 P_Say4
  P_Session P_Session2 P_Session3.
Local Open Scope Z_scope.

(** ** conversions *)
Lemma dtrunc_shift m e : dtrunc m e = Z.shiftl (Zpos m) e.
Proof.
  unfold dtrunc. destruct (Z.leb_spec 0 e); [now rewrite Z.shiftl_mul_pow2|]. now rewrite Z.shiftl_div_pow2 by lia.
Qed.
Lemma shift_nonneg m e : 0 <= Z.shiftl (Zpos m) e.
Proof. apply Z.shiftl_nonneg. lia. Qed.
Lemma whole_lax conv x : u64_lax conv x = whole conv x.
Proof.
  destruct x as [s|s| |s m e]; try reflexivity. unfold u64_lax, u64_of_double, whole. rewrite dtrunc_shift.
  pose proof (shift_nonneg m e) as P. set (t := Z.shiftl (Zpos m) e) in *. destruct s.
  - destruct (Z.eqb_spec t 0) as [->|N]; [reflexivity|]. destruct (Z.leb_spec 0 (- t)); [lia|reflexivity].
  - destruct (Z.leb_spec 0 t); [|lia]. cbn [andb]. now destruct (t <? 2 ^ 64).
Qed.
Lemma odd_average_ok conv : u64_lax conv (ddiv (double_of_u64 0) (double_of_u64 0)) = odd_average conv.
Proof. reflexivity. Qed.
Lemma odd_bits_ok conv : elias_fano_lax conv (odd_average conv) = odd_bits conv.
Proof.
  unfold elias_fano_lax, odd_bits. destruct (odd_average conv =? 0); [reflexivity|].
  destruct (odd_average conv <? 65536) eqn:E; [|apply whole_lax]. unfold ef_bits. now rewrite E.
Qed.
Lemma bits_fine conv n : 0 < n <= 65536 -> elias_fano_lax conv n = ef_bits n.
Proof.
  intro H. unfold elias_fano_lax, ef_bits. destruct (Z.eqb_spec n 0); [lia|]. destruct (Z.ltb_spec n 65536); [reflexivity|].
  replace n with 65536 by lia. vm_compute. reflexivity.
Qed.

(** ** the numbers shown *)
Definition dist_line_on (conv : spec_float -> Z) (c : field -> Z) (i : Z) : list token :=
  let none := c (F_num_blocks_in_chunks i) =? 0 in
  let a := if none then odd_average conv else average c i in
  let b := if none then odd_bits conv else ef_bits (average c i) in
  [TNum i; TReal (SFmul 53 1024 (quot (c (F_num_blocks_in_chunks i)) (c F_sparse_chunks)) (dbl 100));
   TReal (quot (c (F_num_integers i)) (i * c (F_num_blocks_in_chunks i)));
   TNum a; TReal (quot b a);
   TReal (pct (total (fun j => c (F_num_integers j)) (zrange 1 (Z.to_nat i))) (c F_integers_in_sparse_chunks))].
Definition shown_on (conv : spec_float -> Z) (c : field -> Z) : list token :=
  summary c
  ++ flat_map (Shown.card_line c) (zrange 1 30)
  ++ [TReal (mean 30 (fun i => quot (c (F_sparse_blocks_cardinalities i)) (c F_sparse_blocks)));
      TReal (pct (c F_integers_in_sparse_chunks) (c F_integers))]
  ++ flat_map (dist_line_on conv c) (zrange 1 256)
  ++ [TReal (mean 256 (fun i => quot (c (F_num_blocks_in_chunks i)) (c F_sparse_chunks)))].

Lemma step_lax conv st i : fine st i \/ void st i ->
  let none := st (F_num_blocks_in_chunks i) =? 0 in
  let avg := u64_lax conv (ddiv (double_of_u64 (st (F_num_integers i))) (double_of_u64 (st (F_num_blocks_in_chunks i)))) in
  avg = (if none then odd_average conv else average st i)
  /\ elias_fano_lax conv avg = (if none then odd_bits conv else ef_bits (average st i)).
Proof.
  intros [[F1 F2]|[V1 V2]] none avg; unfold none, avg.
  - destruct (Z.eqb_spec (st (F_num_blocks_in_chunks i)) 0) as [E|E]; [lia|]. unfold u64_lax. rewrite avg_ok by lia.
    split; [reflexivity|]. apply bits_fine. split; [apply Z.div_str_pos; lia|apply Z.div_le_upper_bound; lia].
  - rewrite V1, V2, odd_average_ok. split; [reflexivity|apply odd_bits_ok].
Qed.
Lemma dist_lax_shown conv st fuel : forall i ev out, 1 <= i ->
  (forall j, i <= j < i + Z.of_nat fuel -> fine st j \/ void st j) ->
  print_dist_lax fuel conv st i (total (fun j => st (F_num_integers j)) (zrange 1 (Z.to_nat (i - 1)))) ev out
  = (fold_left (fun s i => SFadd 53 1024 s (SFmul 53 1024 (dbl i)
          (quot (st (F_num_blocks_in_chunks i)) (st F_sparse_chunks)))) (zrange i fuel) ev,
     out ++ flat_map (dist_line_on conv st) (zrange i fuel)).
Proof.
  induction fuel as [|f IH]; intros i ev out Hi H; cbn [print_dist_lax zrange fold_left flat_map].
  - now rewrite app_nil_r.
  - destruct (step_lax conv st i (H i ltac:(lia))) as [S1 S2]. rewrite S2, S1.
    assert (T : total (fun j => st (F_num_integers j)) (zrange 1 (Z.to_nat (i - 1))) + st (F_num_integers i)
              = total (fun j => st (F_num_integers j)) (zrange 1 (Z.to_nat i))).
    { replace (Z.to_nat i) with (Z.to_nat (i - 1) + 1)%nat by lia. rewrite zrange_app, total_app. cbn [zrange].
      rewrite total_cons. cbn [total fold_right]. replace (1 + Z.of_nat (Z.to_nat (i - 1))) with i by lia. lia. }
    rewrite T. replace i with (i + 1 - 1) at 2 by lia. rewrite IH; [|lia|intros; apply H; lia].
    rewrite <- app_assoc. reflexivity.
Qed.
Lemma print_lax_shown conv st : (forall j, 1 <= j <= 256 -> fine st j \/ void st j) -> print_lax conv st = shown_on conv st.
Proof.
  intro H. unfold print_lax. rewrite cards_shown.
  pose proof (fun ev out => dist_lax_shown conv st 256 1 ev out ltac:(lia) ltac:(intros; apply H; lia)) as D.
  change (total (fun j => st (F_num_integers j)) (zrange 1 (Z.to_nat (1 - 1)))) with 0 in D.
  rewrite D. unfold shown_on, mean. rewrite <- !app_assoc.
  set (A := flat_map (Shown.card_line st) _). set (B := flat_map (dist_line_on conv st) _).
  set (X := fold_left _ _ _). set (Y := fold_left _ (zrange 1 256) _).
  clearbody A B X Y. reflexivity.
Qed.
Lemma shown_on_ext conv c d : (forall f, c f = d f) -> shown_on conv c = shown_on conv d.
Proof.
  intro H. unfold shown_on, summary, mean.
  rewrite (flat_map_ext' _ _ (Shown.card_line c) (Shown.card_line d)), (flat_map_ext' _ _ (dist_line_on conv c) (dist_line_on conv d)).
  - rewrite (fold_left_ext _ _ _ (fun s i => SFadd 53 1024 s (SFmul 53 1024 (dbl i)
        (quot (d (F_sparse_blocks_cardinalities i)) (d F_sparse_blocks))))) by (intros; now rewrite !H).
    rewrite (fold_left_ext _ _ (fun s i => SFadd 53 1024 s (SFmul 53 1024 (dbl i)
        (quot (c (F_num_blocks_in_chunks i)) (c F_sparse_chunks)))) (fun s i => SFadd 53 1024 s (SFmul 53 1024 (dbl i)
        (quot (d (F_num_blocks_in_chunks i)) (d F_sparse_chunks))))) by (intros; now rewrite !H).
    now rewrite !H.
  - intro i. unfold dist_line_on, average. rewrite !H. do 6 f_equal.
    rewrite (total_ext _ (fun j => c (F_num_integers j)) (fun j => d (F_num_integers j))); auto.
  - intro i. unfold Shown.card_line. now rewrite !H.
Qed.
Lemma flat_map_ext_in' A B (f g : A -> list B) l : (forall x, In x l -> f x = g x) -> flat_map f l = flat_map g l.
Proof.
  induction l as [|a l IH]; intro H; [reflexivity|]. cbn [flat_map]. rewrite (H a) by now left. rewrite IH; [reflexivity|].
  intros x Hx. apply H. now right.
Qed.
Lemma shown_on_same conv c : (forall j, 1 <= j <= 256 -> c (F_num_blocks_in_chunks j) <> 0) -> shown_on conv c = shown c.
Proof.
  intro H. unfold shown_on, shown. rewrite (flat_map_ext_in' _ _ (dist_line_on conv c) (dist_line c)); [reflexivity|]. intros i Hi. apply In_zrange in Hi.
  unfold dist_line_on, dist_line. rewrite (proj2 (Z.eqb_neq _ _)) by (apply H; lia). reflexivity.
Qed.

(** ** the text *)
Lemma dist_text_on nan conv c i b :
  fill nan (dist_frame b) (dist_line_on conv c i) ++ codes "%" ++ endl = b ++ ptext nan (dist_lines_on conv c i).
Proof.
  unfold dist_frame, dist_line_on, dist_lines_on, ptext, ltext.
  cbn [fill flat_map map concat text show_token]. rewrite ?app_nil_r, <- ?app_assoc. reflexivity.
Qed.
Lemma print_frame_text_on nan conv c : fill nan print_frame (shown_on conv c) = ptext nan (statistics_lines_on conv c).
Proof.
  destruct (rows_text nan card_frame (Shown.card_line c) (card_lines c) endl (card_text nan c)
      (fun _ _ => eq_refl) 29 1 (endl ++ codes "== sparse blocks cardinalities (%) ==" ++ endl)) as (A1 & A2).
  destruct (rows_text nan dist_frame (dist_line_on conv c) (dist_lines_on conv c) (codes "%" ++ endl) (dist_text_on nan conv c)
      (fun _ _ => eq_refl) 255 1 (codes "% of ints) ==" ++ endl)) as (B1 & B2).
  unfold print_frame, shown_on, statistics_lines_on.
  rewrite fill_parts; [|reflexivity|exact A1|reflexivity|exact B1].
  rewrite fill_two, fill_end, !ptext_app, <- summary_text.
  rewrite !(proj1 (ptext_one nan _ (S754_zero false) "")),
    !(proj1 (proj2 (ptext_one nan _ _ ""))), !(proj2 (proj2 (ptext_one nan _ _ _))).
  cbn [show_token]. apply glue; [exact A2|exact B2].
Qed.
Lemma statistics_on_nonneg conv c : (forall f, 0 <= c f) -> 0 <= odd_average conv ->
  Forall (Forall nonneg) (statistics_lines_on conv c).
Proof.
  intros H HA. unfold statistics_lines_on. apply Forall_app. split; [|apply Forall_app; split; [|apply Forall_app; split;
    [|apply Forall_app; split; [|apply Forall_app; split]]]].
  - unfold summary_lines. pieces. apply Z.div_pos; [auto|lia].
  - pieces.
  - apply flat_map_Forall. intros i Hi. apply In_zrange in Hi. unfold card_lines. pieces. lia.
  - pieces.
  - apply flat_map_Forall. intros i Hi. apply In_zrange in Hi. unfold dist_lines_on. pieces; [lia|].
    unfold average. pose proof (H (F_num_integers i)). destruct (Z.eqb_spec (c (F_num_blocks_in_chunks i)) 0) as [E|E]; [exact HA|].
    apply Z.div_pos; [auto|]. pose proof (H (F_num_blocks_in_chunks i)). lia.
  - pieces.
Qed.

(** ** the counters *)
Lemma fine_or_void bits Ks i : Forall valid Ks -> total zlen Ks < 2 ^ 37 ->
  forall st : statistics, (forall i, st (F_num_blocks_in_chunks i) = n_sparse i Ks /\ st (F_num_integers i) = n_ints i Ks) ->
  (forall f, st f = counters bits Ks f) ->
  (fine st i \/ void st i) /\ (sparse_chunks i Ks <> [] -> fine st i).
Proof.
  intros V B st I _. destruct (I i) as [I1 I2]. unfold fine, void. rewrite I1, I2.
  pose proof (sparse_bounds i Ks) as [B1 B2]. pose proof (ints_bound i Ks V).
  assert (0 <= n_sparse i Ks) by apply zlen_nonneg. split.
  - destruct (Z.eq_dec (n_sparse i Ks) 0); [right|left]; lia.
  - intro N. assert (0 < n_sparse i Ks).
    { unfold n_sparse. destruct (sparse_chunks i Ks) as [|x l]; [easy|]. rewrite zlen_cons. pose proof (zlen_nonneg _ l). lia. }
    lia.
Qed.
Lemma index_counters dbg params u Ls : let Ks := kept_lists params Ls in
  Forall valid Ks -> Forall short Ls -> total zlen Ks < 2 ^ 37 ->
  exists st o q, index_build dbg params (collection u Ls) = Ok (st, o, q) /\ index_file o q = f_index u Ks
    /\ forall conv nan,
       print_text_lax conv nan st = Ok (ptext nan (statistics_lines_on conv (counters (8 * zlen (f_index u Ks)) Ks)))
       /\ ((forall i, 1 <= i <= 256 -> sparse_chunks i Ks <> []) -> print_text nan st = print_text_lax conv nan st).
Proof.
  intros Ks V HS B. destruct (c29_index dbg params u Ls V HS) as (st & o & q & E & F). fold Ks in F.
  exists st, o, q. split; [exact E|]. split; [exact F|]. intros conv nan.
  pose proof (index_stats _ _ _ _ _ _ _ V HS E) as I. fold Ks in I.
  destruct (P_Counts.c18_exact_index dbg params u Ls V HS) as (st' & o' & q' & E' & X). rewrite E in E'. injection E' as <- <- <-.
  destruct (P_Fin4.c17_size_index dbg params u Ls V HS) as (st' & o' & q' & E2 & Y). rewrite E in E2. injection E2 as <- <- <-.
  rewrite F in Y.
  assert (C : forall f, st f = counters (8 * zlen (f_index u Ks)) Ks f).
  { intro f. destruct f; try (cbn [counters]; apply X; discriminate). exact Y. }
  pose proof (fun i => fine_or_void _ Ks i V B st I C) as FV. split.
  - unfold print_text_lax. rewrite print_lax_shown by (intros; apply FV). now rewrite (shown_on_ext _ _ _ C), print_frame_text_on.
  - intro N. assert (FF : forall j, 1 <= j <= 256 -> fine st j) by (intros; apply FV; auto).
    unfold print_text, print_text_lax. rewrite print_shown by exact FF. cbn [bind].
    rewrite print_lax_shown by (intros; apply FV). rewrite shown_on_same; [reflexivity|].
    intros j Hj. destruct (FF j Hj). lia.
Qed.

(** ** build *)
Definition after_by (print : statistics -> res (list Z)) dbg sized coll params out : prog Z :=
  do! input := open_file coll in
  do! (stats, m_offsets, m_sequences) := builder_saying dbg params (words_in input) in
  do! text := quiet (print stats) in
  do! _ := cout text in
  match out with
  | None => quiet (Ok 0)
  | Some o =>
      let bytes := index_file m_offsets m_sequences in
      do! _ := cout (sized bytes ++ codes "saving data structure to disk..." ++ endl) in
      do! _ := save_file o bytes in
      quiet (Ok 0)
  end.
Lemma options_by stod iso dbg sized name coll args d :
  Forall (proper iso (stod_is stod)) args ->
  exists density size out,
    settled (says_density (stod_is stod)) args (p_density default_params) density
    /\ settled (says_size iso) args (p_size default_params) size
    /\ settled says_out args None out
    /\ forall print, run_build_by stod iso print dbg sized name (coll :: flat_map spelled args) d
       = after_by print dbg sized coll (mkParams density size) out d.
Proof.
  intro H. destruct (build_options_ok stod iso [] args default_params None H) as (x & s & o & S1 & S2 & S3 & E).
  exists x, s, o. split; [exact S1|]. split; [exact S2|]. split; [exact S3|]. rewrite app_nil_r in E. intro print.
  unfold run_build_by. rewrite (then_quiet _ _ _ (mkParams x s, o)); [reflexivity|]. rewrite E. reflexivity.
Qed.
Lemma after_by_ext print print' dbg sized coll params out d u Ls st o q :
  Forall is_u32 (collection u Ls) -> has_file d coll (words32 (collection u Ls)) ->
  Forall valid (kept_lists params Ls) -> Forall short Ls ->
  index_build dbg params (collection u Ls) = Ok (st, o, q) -> print st = print' st ->
  after_by print dbg sized coll params out d = after_by print' dbg sized coll params out d.
Proof.
  intros U HF V HS E X. unfold after_by. rewrite !(then_open _ _ _ _ HF), !(read_words _ U).
  pose proof (builder_complete [] dbg params u Ls d V HS) as G. rewrite E in G.
  rewrite !(then_is _ _ _ _ _ _ G), X. reflexivity.
Qed.
Lemma after_by_ok print nan txt dbg sized coll params out d u Ls st o q : let Ks := kept_lists params Ls in
  Forall is_u32 (collection u Ls) -> has_file d coll (words32 (collection u Ls)) -> Forall valid Ks -> Forall short Ls ->
  index_build dbg params (collection u Ls) = Ok (st, o, q) -> index_file o q = f_index u Ks -> print st = Ok txt ->
  after_by print dbg sized coll params out d
  = match out with
    | None => (begun nan u (zlen Ks) ++ txt, d, Ok 0)
    | Some w => ((begun nan u (zlen Ks) ++ txt) ++ sized (f_index u Ks) ++ codes "saving data structure to disk..." ++ endl,
                 (w, f_index u Ks) :: d, Ok 0)
    end.
Proof.
  intros Ks U HF V HS E F P. unfold after_by. rewrite (then_open _ _ _ _ HF), (read_words _ U).
  pose proof (builder_complete nan dbg params u Ls d V HS) as G. rewrite E in G. fold Ks in G.
  rewrite (then_is _ _ _ _ _ _ G), P, (then_quiet _ _ _ _ eq_refl), then_cout. cbn [fst snd]. destruct out as [w|].
  - rewrite then_cout, F. cbn [fst snd save_file then_ quiet]. rewrite !app_nil_r, <- !app_assoc. reflexivity.
  - cbn [quiet fst snd]. now rewrite app_nil_r.
Qed.
Lemma begun_statistics nan conv u n c : begun nan u n ++ ptext nan (statistics_lines_on conv c) = ptext nan (build_lines_on conv u n c).
Proof. unfold begun, build_lines_on, begun_lines. rewrite <- ptext_app. reflexivity. Qed.
Lemma build_page_on nan conv u bits Ks : 0 <= u -> 0 <= bits -> Forall valid Ks -> 0 <= conv S754_nan ->
  page nan (build_lines_on conv u (zlen Ks) (counters bits Ks)) (ptext nan (build_lines_on conv u (zlen Ks) (counters bits Ks))).
Proof.
  intros Hu HB V HA. apply ptext_page. unfold build_lines_on. apply Forall_app. split; [repeat constructor; auto|]. apply Forall_app. split.
  - apply Forall_forall. intros l Hl. apply in_map_iff in Hl as (k & <- & Hk). apply In_zrange in Hk. repeat constructor. cbn [nonneg]. lia.
  - apply statistics_on_nonneg; [|exact HA]. intro g. now apply counters_nonneg.
Qed.
Lemma after_lax conv nan dbg sized coll params out d u Ls :
  (forall x, 0 <= conv x < 2 ^ 64) ->
  Forall is_u32 (collection u Ls) -> Forall short Ls -> has_file d coll (words32 (collection u Ls)) ->
  let Ks := kept_lists params Ls in
  Forall valid Ks -> total zlen Ks < 2 ^ 37 ->
  let run := after_by (print_text_lax conv nan) dbg sized coll params out d in
  (exists t, page nan (build_lines_on conv u (zlen Ks) (counters (8 * zlen (f_index u Ks)) Ks)) t
     /\ match out with
        | None => run = (t, d, Ok 0)
        | Some o => exists t' d', page nan [[W "saving data structure to disk..."]] t' /\ saved d o (f_index u Ks) d'
                    /\ run = (t ++ sized (f_index u Ks) ++ t', d', Ok 0)
        end)
  /\ ((forall i, 1 <= i <= 256 -> sparse_chunks i Ks <> []) -> run = after_by (print_text nan) dbg sized coll params out d).
Proof.
  intros HC U HS HF Ks V B run.
  assert (Hu : 0 <= u) by (apply Forall_inv_tail in U; apply Forall_inv in U; unfold is_u32 in U; lia).
  destruct (index_counters dbg params u Ls V HS B) as (st & o & q & E & F & P). fold Ks in F, P.
  destruct (P conv nan) as [P1 P2]. split.
  - exists (ptext nan (build_lines_on conv u (zlen Ks) (counters (8 * zlen (f_index u Ks)) Ks))). split.
    { apply build_page_on; auto; [|apply HC]. pose proof (zlen_nonneg _ (f_index u Ks)). lia. }
    unfold run. rewrite (after_by_ok _ nan _ dbg sized coll params out d u Ls st o q U HF V HS E F P1). fold Ks.
    rewrite begun_statistics. destruct out as [w|]; [|reflexivity].
    do 2 eexists. split; [apply saving_line|]. split; [apply saved_cons|]. reflexivity.
  - intro N. apply (after_by_ext _ _ dbg sized coll params out d u Ls st o q U HF V HS E). symmetry. now apply P2.
Qed.

Theorem c63_build : forall stod iso conv nan dbg sized name coll args d u Ls,
  let double v x := stod v = Ok x in
  (forall x, 0 <= conv x < 2 ^ 64) ->
  Forall (proper iso double) args ->
  Forall is_u32 (collection u Ls) -> Forall short Ls -> has_file d coll (words32 (collection u Ls)) ->
  exists density size out,
    settled (says_density double) args (p_density default_params) density
    /\ settled (says_size iso) args (p_size default_params) size
    /\ settled says_out args None out
    /\ let Ks := kept_lists (mkParams density size) Ls in
       let run := run_build_lax stod iso conv nan dbg sized name (coll :: flat_map spelled args) d in
       Forall valid Ks -> total zlen Ks < 2 ^ 37 ->
       (exists t, page nan (build_lines_on conv u (zlen Ks) (counters (8 * zlen (f_index u Ks)) Ks)) t
          /\ match out with
             | None => run = (t, d, Ok 0)
             | Some o => exists t' d', page nan [[W "saving data structure to disk..."]] t' /\ saved d o (f_index u Ks) d'
                         /\ run = (t ++ sized (f_index u Ks) ++ t', d', Ok 0)
             end)
       /\ ((forall i, 1 <= i <= 256 -> sparse_chunks i Ks <> []) ->
           run = run_build stod iso nan dbg sized name (coll :: flat_map spelled args) d).
Proof.
  intros stod iso conv nan dbg sized name coll args d u Ls double HC HA U HS HF.
  destruct (options_by stod iso dbg sized name coll args d HA) as (x & s & o & S1 & S2 & S3 & E).
  exists x, s, o. split; [exact S1|]. split; [exact S2|]. split; [exact S3|]. intros Ks run V B.
  unfold run, run_build_lax, run_build. rewrite !E. now apply after_lax.
Qed.

(** ** a session *)
Theorem c63_session : forall stod iso conv nan dbg dbg' sized mapped names a b c e wd ws coll idx num lo hi u density size tape d,
  (forall x, 0 <= conv x < 2 ^ 64) ->
  int_word iso a num -> int_word iso b lo -> int_word iso c hi -> int_word iso e u ->
  is_u32 num -> is_u32 lo -> is_u32 hi -> 0 <= u < 4294901760 -> lo <= hi ->
  stod wd = Ok density -> int_word iso ws size -> 0 <= size -> coll <> idx ->
  let words := [word "--density"; wd; word "--size"; ws] in
  exists Ls d1,
    let Ks := kept_lists (mkParams density size) Ls in
    run_uniform iso (names 0) [a; b; c; e; coll] tape d = ([], d1, Ok 0)
    /\ zlen Ls = num /\ Forall (uniform_list lo hi u) Ls
    /\ let built := run_build_lax stod iso conv nan dbg sized (names 1) (coll :: words ++ [word "--out"; idx]) d1 in
       total zlen Ks < 2 ^ 37 ->
       exists t1 t2 d2,
         page nan (build_lines_on conv u (zlen Ks) (counters (8 * zlen (f_index u Ks)) Ks)) t1
         /\ page nan [[W "saving data structure to disk..."]] t2
         /\ built = (t1 ++ sized (f_index u Ks) ++ t2, d2, Ok 0)
         /\ has_file d2 coll (words32 (collection u Ls)) /\ has_file d2 idx (f_index u Ks)
         /\ (forall n, n <> coll -> n <> idx -> forall x, has_file d2 n x <-> has_file d n x)
         /\ forall mem f, mapped (f_index u Ks) = (mem, f) -> in_memory (f_index u Ks) mem f ->
            all_pass stod iso dbg' mapped (names 2) (idx :: coll :: words) d2 u Ks.
Proof.
  intros stod iso conv nan dbg dbg' sized mapped names a b c e wd ws coll idx num lo hi u density size tape d
    HC Ha Hb Hc He Hn Hl Hh Hu Hlh Hd Hs Hs0 NE words.
  assert (Hu' : is_u32 u) by (unfold is_u32; lia).
  destruct (c62_uniform iso (names 0) a b c e coll [] num lo hi u tape d Ha Hb Hc He Hn Hl Hh Hu') as [C _].
  destruct (C Hlh) as (Ls & d1 & L1 & L2 & (SV1 & SV2) & RU). exists Ls, d1. set (params := mkParams density size). intro Ks.
  split; [exact RU|]. split; [exact L1|]. split; [exact L2|]. intros built B.
  pose proof (uniform_words lo hi u Ls Hh Hu' L2) as U. pose proof (uniform_short lo hi u Ls (proj2 Hu) L2) as HS.
  assert (V : Forall valid Ks).
  { apply (kept_valid params u Ls); [exact Hs0|lia|eapply uniform_plain; eauto]. }
  assert (EB : built = after_by (print_text_lax conv nan) dbg sized coll params (Some idx) d1).
  { unfold built, run_build_lax, run_build_by, words. cbn [app]. rewrite (then_quiet _ _ _ (params, Some idx)); [reflexivity|].
    cbn [build_options]. rewrite is_word_eq, Hd. cbn [bind]. rewrite (is_word_neq (word "--size") "--density") by discriminate.
    rewrite is_word_eq, (atoi_word _ _ _ Hs). cbn [bind]. rewrite (is_word_neq (word "--out") "--density") by discriminate.
    rewrite (is_word_neq (word "--out") "--size") by discriminate. rewrite is_word_eq. reflexivity. }
  destruct (after_lax conv nan dbg sized coll params (Some idx) d1 u Ls HC U HS SV1 V B) as [(t1 & P1 & t2 & d2 & P2 & (SV3 & SV4) & EA) _].
  fold Ks in P1, SV3, EA. rewrite EB, EA. exists t1, t2, d2.
  assert (HD : has_file d2 coll (words32 (collection u Ls))) by (apply SV4; [exact NE|exact SV1]).
  split; [exact P1|]. split; [exact P2|]. split; [reflexivity|]. split; [exact HD|]. split; [exact SV3|]. split.
  - intros n N1 N2 x. rewrite (SV4 n N2 x). now apply SV2.
  - intros mem f EM IM. apply (tests_pass stod iso dbg' mapped (names 2) idx coll words params d2 u Ls mem f); auto.
    unfold words. cbn [test_options]. rewrite is_word_eq, Hd. cbn [bind].
    rewrite (is_word_neq (word "--size") "--density") by discriminate. rewrite is_word_eq, (atoi_word _ _ _ Hs). reflexivity.
Qed.

(** ** example *)
Lemma example_text_on dbg S : valid S ->
  exists stats enc, builder_build dbg [] S = (Ok stats, enc) /\ encoding dbg S enc
    /\ forall conv nan, print_text_lax conv nan stats = Ok (ptext nan (statistics_lines_on conv (counters (8 * zlen enc + 128) [S]))).
Proof.
  intros V. destruct (P_Counts.c18_exact_sequence dbg [] S V) as (st & enc & EB & C). exists st, enc. split; [exact EB|].
  destruct (P_Fin4.c17_size_sequence dbg [] S V) as (st2 & enc2 & EB2 & Y & _). rewrite EB in EB2. cbn [app] in EB2. injection EB2 as <- <-.
  assert (K : filter (fun L => pass default_params (zlen L) (last L 0)) [S] = [S]) by (apply kept_default, V).
  assert (V1 : Forall valid (filter (fun L => pass default_params (zlen L) (last L 0)) [S])) by (rewrite K; auto).
  assert (HSh : Forall short [S]) by (constructor; [now apply P_Index.short_valid|constructor]).
  destruct (P_Counts.c18_exact_index dbg default_params 0 [S] V1 HSh) as (st' & o & q & E' & C'). rewrite K in C'.
  assert (EQ : forall f, f <> F_bits -> st' f = st f).
  { intros f F. rewrite C, C' by auto. cbn. lia. }
  split; [exists st; exact EB|].
  assert (B : total zlen [S] < 2 ^ 37) by (pose proof (valid_len S V); cbn [total fold_right]; lia).
  assert (CC : forall f, st f = counters (8 * zlen enc + 128) [S] f).
  { intro f. destruct f; try (rewrite <- EQ by discriminate; cbn [counters]; apply C'; discriminate). exact Y. }
  intros conv nan. unfold print_text_lax. rewrite print_lax_shown.
  - now rewrite (shown_on_ext _ _ _ CC), print_frame_text_on.
  - intros i Hi. apply (fine_or_void (8 * zlen enc + 128) [S] i ltac:(auto) B st); [|exact CC].
    intro j. pose proof (index_stats dbg default_params 0 [S] st' o q V1 HSh E' j) as I. rewrite K in I.
    now rewrite !EQ in I by discriminate.
Qed.

Lemma rest_any dbg S mem a d : valid S ->
  (exists enc, encoding dbg S enc /\ bytes_at mem a enc /\ a + zlen enc + 31 <= zlen mem) ->
  exists r, (decode_fits S (zlen S) -> r = Ok 0) /\ (~ decode_fits S (zlen S) -> r = UB) /\ example_rest dbg S mem a d = ([], d, r).
Proof.
  intros V H. destruct (decode_fits_dec S (zlen S) V) as [F|F].
  - exists (Ok 0). split; [reflexivity|]. split; [contradiction|]. now apply rest_ok.
  - exists UB. split; [contradiction|]. split; [reflexivity|]. destruct H as (enc & EE & EB & EL).
    assert (St : stored 31 mem a S) by (exists dbg, enc; auto).
    destruct (P_Fin1.c04_size mem a S V (P_Tests.stored_weaken _ 0 _ _ _ St ltac:(lia))) as (s & Es & Ez & _).
    unfold example_rest. rewrite Es, (then_quiet _ _ _ _ eq_refl), Ez, (then_quiet _ _ _ _ eq_refl).
    assert (LR : zlen (repeat 0 (Z.to_nat (zlen S))) = zlen S) by (pose proof (zlen_nonneg _ S); rewrite zlen_repeat; lia).
    destruct (P_Room.c34_decode dbg mem a S (repeat 0 (Z.to_nat (zlen S))) 0 V St ltac:(pose proof (zlen_nonneg _ S); lia)) as (s' & Es' & _ & D2).
    rewrite Es in Es'. injection Es' as <-. rewrite LR, Z.sub_0_r in D2. rewrite (D2 F). reflexivity.
Qed.

Theorem c63_example : forall conv nan dbg sized heap mapped name names t g S more d,
  (forall x, 0 <= conv x < 2 ^ 64) ->
  typed t (zlen S :: S ++ more) -> no_digit g -> valid S ->
  (forall b, bytes_at (fst (heap b)) (snd (heap b)) b /\ snd (heap b) + zlen b + 31 <= zlen (fst (heap b))) ->
  (forall b, bytes_at (fst (mapped b)) (snd (mapped b)) b /\ snd (mapped b) + zlen b + 31 <= zlen (fst (mapped b))) ->
  let run := run_example_lax conv nan dbg sized heap mapped name (flat_map (fun v => [word "-o"; v]) names) (t ++ g) d in
  exists t r, page nan (statistics_lines_on conv (counters (8 * zlen (f_sequence S) + 128) [S])) t
    /\ (decode_fits S (zlen S) -> r = Ok 0) /\ (~ decode_fits S (zlen S) -> r = UB)
    /\ (names = [] -> run = (t, d, r))
    /\ (names <> [] -> exists d', saved d (last names []) (f_sequence_file S) d'
          /\ run = (t ++ sized (f_sequence_file S), d', r)).
Proof.
  intros conv nan dbg sized heap mapped name names t g S more d HC HT HG V HH HM run.
  assert (ER : read_input (t ++ g) = Ok S).
  { apply read_input_ok with more; auto.
    - destruct V as (_ & _ & F'). eapply Forall_impl; [|exact F']. unfold is_u32. intros; lia.
    - pose proof (short_valid S V) as X. unfold short in X. lia. }
  unfold run, run_example_lax, run_example_by. rewrite <- (app_nil_r (flat_map _ names)), example_words_names. cbn [example_words].
  rewrite (then_quiet _ _ _ _ eq_refl), (then_quiet _ _ _ _ ER).
  destruct (example_text_on dbg S V) as (st & enc & EB & EE & P). rewrite EB, (then_quiet _ _ _ _ eq_refl), (then_quiet _ _ _ _ (P conv nan)).
  destruct (c25_format dbg [] S V) as (st' & E'). rewrite app_nil_l, EB in E'. injection E' as -> ->.
  exists (ptext nan (statistics_lines_on conv (counters (8 * zlen (f_sequence S) + 128) [S]))).
  assert (PG : page nan (statistics_lines_on conv (counters (8 * zlen (f_sequence S) + 128) [S]))
                 (ptext nan (statistics_lines_on conv (counters (8 * zlen (f_sequence S) + 128) [S])))).
  { apply ptext_page, statistics_on_nonneg; [|apply HC]. intro h. apply counters_nonneg; [auto|]. pose proof (zlen_nonneg _ (f_sequence S)). lia. }
  rewrite then_cout. destruct names as [|v names].
  - destruct (HH (f_sequence S)) as [H1 H2]. destruct (heap (f_sequence S)) as [mem a]. cbn [fst snd] in *.
    destruct (rest_any dbg S mem a d V ltac:(exists (f_sequence S); auto)) as (r & R1 & R2 & ER'). exists r.
    split; [exact PG|]. split; [exact R1|]. split; [exact R2|]. split; [|contradiction].
    intros _. rewrite ER'. cbn [fst snd]. now rewrite app_nil_r.
  - set (o := last (v :: names) []).
    assert (EF : sequence_file (f_sequence S) = f_sequence_file S) by (unfold sequence_file, f_sequence_file; now rewrite le8_le64).
    rewrite EF, then_cout.
    rewrite (then_is (save_file o (f_sequence_file S)) _ d [] ((o, f_sequence_file S) :: d) tt eq_refl).
    rewrite (then_open o _ ((o, f_sequence_file S) :: d) (f_sequence_file S)) by exact (proj1 (saved_cons d o (f_sequence_file S))).
    destruct (HM (f_sequence_file S)) as [H1 H2]. destruct (mapped (f_sequence_file S)) as [mem a]. cbn [fst snd] in *.
    rewrite <- EF in H1, H2. unfold sequence_file in H1, H2. apply bytes_at_app in H1 as [_ H1].
    rewrite zlen_app, zlen_le_bytes in H2. rewrite zlen_le_bytes in H1. change (Z.of_nat 8) with 8 in *.
    destruct (rest_any dbg S mem (a + 8) ((o, f_sequence_file S) :: d) V) as (r & R1 & R2 & ER').
    { exists (f_sequence S). split; [exact EE|]. split; [exact H1|lia]. }
    exists r. split; [exact PG|]. split; [exact R1|]. split; [exact R2|]. split; [discriminate|].
    intros _. exists ((o, f_sequence_file S) :: d). split; [apply saved_cons|]. rewrite ER'. cbn [fst snd app]. now rewrite app_nil_r.
Qed.

(** ** what three machines show *)
Theorem c63_machines :
  (odd_average x86 = 2 ^ 63 /\ odd_bits x86 = 0)
  /\ (odd_average avx512 = 2 ^ 64 - 1 /\ odd_bits avx512 = 2 ^ 64 - 1)
  /\ (odd_average aarch64 = 0 /\ odd_bits aarch64 = 0).
Proof. vm_compute. repeat split. Qed.
