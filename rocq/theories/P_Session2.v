(** Proofs for C62: whole programs. *)
From Coq Require Import Lia Sorted String Floats.SpecFloat.
From Verif Require Import Base Hw Spec Lib L_Bits L_Group Layout M_Util M_Build M_Seq M_Decode M_Query M_Many
  M_Index M_Print M_Drivers M_Tools M_Text M_Out M_Say M_Session Holds Format Room Shown Typed Printed Counts Report Drawn Session
  P_Build1 P_Build2 P_Build3 P_Index P_Format P_Text P_Text2 P_Text3 P_Text4 P_Text6 P_Tools P_Drivers P_Out3 P_Say P_Say3 P_Say4 P_Session.
Local Open Scope Z_scope.

Lemma then_open {B} name (k : list Z -> prog B) d b : has_file d name b -> then_ (open_file name) k d = k b d.
Proof.
  intro H. apply file_of_has in H. unfold then_, open_file. rewrite H. now destruct (k b d) as [[t d'] r].
Qed.
Lemma then_missing {B} name (k : list Z -> prog B) d : no_file d name -> then_ (open_file name) k d = ([], d, Throw).
Proof. intro H. unfold then_, open_file. now rewrite (file_of_no _ _ H). Qed.
Lemma then_is {A B} (x : prog A) (k : A -> prog B) d t d' a :
  x d = (t, d', Ok a) -> then_ x k d = (t ++ fst (fst (k a d')), snd (fst (k a d')), snd (k a d')).
Proof. intro E. unfold then_. rewrite E. now destruct (k a d') as [[t' d''] r]. Qed.
Lemma read_words ws : Forall is_u32 ws -> words_in (words32 ws) = ws.
Proof. intro H. rewrite <- words32_bytes. now apply words_bytes. Qed.

(** ** build *)
Definition after_options nan dbg sized coll params out : prog Z :=
  do! input := open_file coll in
  do! (stats, m_offsets, m_sequences) := builder_saying dbg params (words_in input) in
  do! text := quiet (print_text nan stats) in
  do! _ := cout text in
  match out with
  | None => quiet (Ok 0)
  | Some o =>
      let bytes := index_file m_offsets m_sequences in
      do! _ := cout (sized bytes ++ codes "saving data structure to disk..." ++ endl) in
      do! _ := save_file o bytes in
      quiet (Ok 0)
  end.
Lemma run_build_options stod iso nan dbg sized name coll args d :
  Forall (proper iso (stod_is stod)) args ->
  exists density size out,
    settled (says_density (stod_is stod)) args (p_density default_params) density
    /\ settled (says_size iso) args (p_size default_params) size
    /\ settled says_out args None out
    /\ run_build stod iso nan dbg sized name (coll :: flat_map spelled args) d
       = after_options nan dbg sized coll (mkParams density size) out d.
Proof.
  intro H. destruct (build_options_ok stod iso [] args default_params None H) as (x & s & o & S1 & S2 & S3 & E).
  exists x, s, o. split; [exact S1|]. split; [exact S2|]. split; [exact S3|]. rewrite app_nil_r in E.
  unfold run_build, run_build_by. rewrite (then_quiet _ _ _ (mkParams x s, o)); [reflexivity|]. rewrite E. reflexivity.
Qed.
Lemma saving_line nan : page nan [[W "saving data structure to disk..."]] (codes "saving data structure to disk..." ++ endl).
Proof.
  replace (codes "saving data structure to disk..." ++ endl) with (ptext nan [[W "saving data structure to disk..."]]).
  - apply ptext_page. repeat constructor.
  - unfold ptext, ltext. cbn [flat_map map concat text]. now rewrite !app_nil_r.
Qed.
Lemma build_page nan u o q Ks : 0 <= u -> Forall valid Ks ->
  page nan (build_lines u (zlen Ks) (counters (8 * zlen (index_file o q)) Ks))
    (ptext nan (build_lines u (zlen Ks) (counters (8 * zlen (index_file o q)) Ks))).
Proof.
  intros Hu V. apply ptext_page. unfold build_lines. apply Forall_app. split; [repeat constructor; auto|]. apply Forall_app. split.
  - apply Forall_forall. intros l Hl. apply in_map_iff in Hl as (k & <- & Hk). apply In_zrange in Hk. repeat constructor. cbn [nonneg]. lia.
  - apply statistics_nonneg. intro g. apply counters_nonneg; [auto|]. pose proof (zlen_nonneg _ (index_file o q)). lia.
Qed.
Lemma begun_progress nan u n txt :
  codes "universe size: " ++ show u ++ endl ++ progress (Z.to_nat (n / 1000)) 1 ++ txt = begun nan u n ++ txt.
Proof.
  rewrite (progress_text nan). unfold begun, begun_lines. unfold ptext at 2. cbn [flat_map]. unfold ltext at 1.
  cbn [map concat text]. rewrite app_nil_r, <- !app_assoc. reflexivity.
Qed.
Lemma build_text_is nan dbg params u Ls st o q : index_build dbg params (collection u Ls) = Ok (st, o, q) ->
  build_text nan dbg params (collection u Ls)
  = let! txt := print_text nan st in
    Ok (codes "universe size: " ++ show u ++ endl ++ progress (Z.to_nat (st F_sequences / 1000)) 1 ++ txt).
Proof. intro E. unfold build_text. rewrite E. reflexivity. Qed.
Lemma sequences_kept dbg params u Ls st o q : Forall valid (kept_lists params Ls) -> Forall short Ls ->
  index_build dbg params (collection u Ls) = Ok (st, o, q) -> st F_sequences = zlen (kept_lists params Ls).
Proof.
  intros V HS E. destruct (P_Counts.c18_exact_index dbg params u Ls V HS) as (st' & o' & q' & E' & X). rewrite E' in E. injection E as <- <- <-.
  rewrite (X F_sequences) by discriminate. cbn [counts]. apply P_Print.total_one.
Qed.
Lemma after_ok nan dbg sized coll params out d u Ls :
  Forall is_u32 (collection u Ls) -> Forall short Ls -> has_file d coll (words32 (collection u Ls)) ->
  let Ks := kept_lists params Ls in
  Forall valid Ks -> total zlen Ks < 2 ^ 37 ->
  let run := after_options nan dbg sized coll params out d in
  ((forall i, 1 <= i <= 256 -> sparse_chunks i Ks <> []) ->
     exists t, page nan (build_lines u (zlen Ks) (counters (8 * zlen (f_index u Ks)) Ks)) t
       /\ match out with
          | None => run = (t, d, Ok 0)
          | Some o => exists t' d', page nan [[W "saving data structure to disk..."]] t' /\ saved d o (f_index u Ks) d'
                      /\ run = (t ++ sized (f_index u Ks) ++ t', d', Ok 0)
          end)
  /\ ((exists i, 1 <= i <= 256 /\ sparse_chunks i Ks = []) ->
      exists t t', page nan (begun_lines u (zlen Ks)) t /\ run = (t ++ t', d, UB)).
Proof.
  intros U HS HF Ks V B run.
  assert (Hu : 0 <= u) by (apply Forall_inv_tail in U; apply Forall_inv in U; unfold is_u32 in U; lia).
  destruct (c29_index dbg params u Ls V HS) as (st & o & q & E & F). fold Ks in F.
  pose proof (builder_complete nan dbg params u Ls d V HS) as G. rewrite E in G. fold Ks in G.
  destruct (c49_build nan dbg params u Ls st o q Hu V HS B E) as [P1 P2].
  rewrite (build_text_is _ _ _ _ _ _ _ _ E) in P1, P2.
  unfold run, after_options. rewrite (then_open _ _ _ _ HF), (read_words _ U).
  pose proof (sequences_kept dbg params u Ls st o q V HS E) as SQ. fold Ks in SQ.
  rewrite (then_is _ _ _ _ _ _ G). split.
  - intro N. specialize (P1 N). destruct (print_text nan st) as [txt| | | |] eqn:EP.
    2-5: exfalso; pose proof (proj2 (P1 _) (build_page nan u o q Ks Hu V)) as PG; discriminate PG.
    cbn [bind] in P1. pose proof (proj1 (P1 _) eq_refl) as PG. rewrite F in PG.
    rewrite SQ, (begun_progress nan) in PG. exists (begun nan u (zlen Ks) ++ txt). split; [exact PG|].
    rewrite (then_quiet _ _ _ _ eq_refl), then_cout. cbn [fst snd]. destruct out as [w|].
    + exists (codes "saving data structure to disk..." ++ endl), ((w, f_index u Ks) :: d). split; [apply saving_line|].
      split; [apply saved_cons|]. rewrite then_cout, F. cbn [fst snd save_file then_ quiet]. rewrite !app_nil_r, <- !app_assoc. reflexivity.
    + cbn [quiet fst snd]. now rewrite app_nil_r.
  - intro N. specialize (P2 N). exists (begun nan u (zlen Ks)). eexists. split; [now apply begun_page|].
    destruct (print_text nan st) as [txt| | | |]; cbn [bind] in P2; try discriminate. reflexivity.
Qed.

Theorem c62_build : forall stod iso nan dbg sized name coll args d u Ls,
  let double v x := stod v = Ok x in
  Forall (proper iso double) args ->
  Forall is_u32 (collection u Ls) -> Forall short Ls -> has_file d coll (words32 (collection u Ls)) ->
  exists density size out,
    settled (says_density double) args (p_density default_params) density
    /\ settled (says_size iso) args (p_size default_params) size
    /\ settled says_out args None out
    /\ let Ks := kept_lists (mkParams density size) Ls in
       let run := run_build stod iso nan dbg sized name (coll :: flat_map spelled args) d in
       Forall valid Ks -> total zlen Ks < 2 ^ 37 ->
       ((forall i, 1 <= i <= 256 -> sparse_chunks i Ks <> []) ->
          exists t, page nan (build_lines u (zlen Ks) (counters (8 * zlen (f_index u Ks)) Ks)) t
            /\ match out with
               | None => run = (t, d, Ok 0)
               | Some o => exists t' d', page nan [[W "saving data structure to disk..."]] t' /\ saved d o (f_index u Ks) d'
                           /\ run = (t ++ sized (f_index u Ks) ++ t', d', Ok 0)
               end)
       /\ ((exists i, 1 <= i <= 256 /\ sparse_chunks i Ks = []) ->
           exists t t', page nan (begun_lines u (zlen Ks)) t /\ run = (t ++ t', d, UB)).
Proof.
  intros stod iso nan dbg sized name coll args d u Ls double HA U HS HF.
  destruct (run_build_options stod iso nan dbg sized name coll args d HA) as (x & s & o & S1 & S2 & S3 & E).
  exists x, s, o. split; [exact S1|]. split; [exact S2|]. split; [exact S3|]. intros Ks run V B. unfold run. rewrite E.
  now apply after_ok.
Qed.

(** what has been written, and left, when build fails *)
Theorem c62_interrupted : forall stod iso nan dbg sized name coll args d u Ls,
  let double v x := stod v = Ok x in
  Forall (proper iso double) args ->
  exists density size,
    settled (says_density double) args (p_density default_params) density
    /\ settled (says_size iso) args (p_size default_params) size
    /\ let params := mkParams density size in
       let Ks := kept_lists params Ls in
       let run := run_build stod iso nan dbg sized name (coll :: flat_map spelled args) d in
       let begun t := page nan (begun_lines u (zlen Ks)) t in
       (no_file d coll -> run = ([], d, Throw))
       /\ (Forall valid Ks -> Forall short Ls ->
           (forall L Ls', has_file d coll (words32 (collection u (Ls ++ L :: Ls'))) -> Forall is_u32 (collection u (Ls ++ L :: Ls')) ->
              kept_lists params [L] = [L] ->
              L <> [] -> StronglySorted Z.le L -> ~ NoDup L -> Forall (fun v => v < 4294901760) L ->
              exists t, begun t /\ run = (t, d, Throw))
           /\ (forall n R, has_file d coll (words32 (collection u Ls ++ n :: R)) -> Forall is_u32 (collection u Ls ++ n :: R) ->
                 zlen R < n -> exists t, begun t /\ run = (t, d, UB)))
       /\ (forall w ws, has_file d coll (words32 (w :: ws)) -> Forall is_u32 (w :: ws) -> w <> 1 -> dbg = true ->
             run = ([], d, Abort)).
Proof.
  intros stod iso nan dbg sized name coll args d u Ls double HA.
  destruct (run_build_options stod iso nan dbg sized name coll args d HA) as (x & s & o & S1 & S2 & S3 & E).
  exists x, s. split; [exact S1|]. split; [exact S2|]. intros params Ks run begun. unfold run. rewrite E. unfold after_options.
  split; [intro H; now rewrite then_missing|]. split.
  - intros V HS. split.
    + intros L Ls' HF U HK N HL D B. exists (P_Session.begun nan u (zlen Ks)). assert (Hu : 0 <= u).
      { apply Forall_inv_tail in U; apply Forall_inv in U; unfold is_u32 in U; lia. }
      split; [now apply begun_page|]. rewrite (then_open _ _ _ _ HF), (read_words _ U). unfold then_ at 1.
      rewrite (builder_dup nan); auto.
      * unfold kept_lists in HK. cbn [filter] in HK. unfold keep. fold params. now destruct (pass params (zlen L) (last L 0)).
      * unfold collection in U. do 2 apply Forall_inv_tail in U. rewrite flat_map_app in U. apply Forall_app in U as [_ U].
        cbn [flat_map app] in U. apply Forall_inv_tail in U. apply Forall_app in U as [U _].
        rewrite Forall_forall in *. intros v Hv. specialize (U v Hv). specialize (B v Hv). unfold is_u32 in U. lia.
    + intros n R HF U HR. exists (P_Session.begun nan u (zlen Ks)). assert (Hu : 0 <= u).
      { apply Forall_app in U as [U _]. apply Forall_inv_tail in U; apply Forall_inv in U; unfold is_u32 in U; lia. }
      split; [now apply begun_page|]. rewrite (then_open _ _ _ _ HF), (read_words _ U). unfold then_ at 1.
      rewrite (builder_cut nan); auto.
  - intros w ws HF U NE ->. rewrite (then_open _ _ _ _ HF), (read_words _ U). unfold then_ at 1, builder_saying.
    change (vget (w :: ws) 0) with (Ok w). rewrite (then_quiet _ _ _ _ eq_refl). unfold assert_.
    destruct (Z.eqb_spec w 1); [contradiction|]. reflexivity.
Qed.
