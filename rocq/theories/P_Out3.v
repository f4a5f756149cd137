(** Proofs for C49: the text of the statistics, and what the program build writes. *)
From Coq Require Import Lia String Ascii QArith Floats.SpecFloat.
From Verif Require Import Base Hw Spec Format Lib L_Group Layout M_Util M_Build M_Index M_Print M_Text M_Out
  Counts Shown Typed Printed P_Build3 P_Seq P_Index P_Stats P_Print P_Fin4 P_Counts P_Shown P_Text2 P_Out P_Out2.
Local Open Scope Z_scope.

(** ** there is one text for a page *)
Lemma natural_unique n t t' : natural n t -> natural n t' -> t = t'.
Proof.
  intros (ds & A & -> & B) (ds' & A' & -> & B'). f_equal. apply lean_inj; [auto|auto|congruence].
Qed.
Lemma written_unique nan p t t' : written nan p t -> written nan p t' -> t = t'.
Proof.
  destruct p; cbn [written]; [congruence|apply natural_unique|apply real_unique].
Qed.
Lemma Forall2_unique A B (P : A -> B -> Prop) l : (forall a b b', P a b -> P a b' -> b = b') ->
  forall m m', Forall2 P l m -> Forall2 P l m' -> m = m'.
Proof.
  intro H. induction l as [|a l IH]; intros m m' F F'; inversion F; inversion F'; subst; auto.
  f_equal; eauto.
Qed.
Lemma page_unique nan ls t t' : page nan ls t -> page nan ls t' -> t = t'.
Proof.
  intros (ts & A & ->) (ts' & A' & ->). do 2 f_equal. revert A A'. apply Forall2_unique.
  intros l m m'. apply Forall2_unique. apply written_unique.
Qed.

(** ** the text of lines, as a function *)
Definition text (nan : list Z) (p : piece) : list Z :=
  match p with W s => codes s | N n => show n | R x => show_double nan x end.
Definition ltext (nan : list Z) (l : list piece) : list Z := concat (map (text nan) l) ++ endl.
Definition ptext (nan : list Z) (ls : list (list piece)) : list Z := flat_map (ltext nan) ls.
Definition nonneg (p : piece) : Prop := match p with N n => 0 <= n | _ => True end.

Lemma ptext_page nan ls : Forall (Forall nonneg) ls -> page nan ls (ptext nan ls).
Proof.
  intro H. exists (map (map (text nan)) ls). split.
  - induction H as [|l ls Hl _ IH]; constructor; auto. clear IH.
    induction Hl as [|p l Hp _ IH]; constructor; auto.
    destruct p; cbn [written text]; [reflexivity|now apply show_natural|apply double_ok].
  - unfold ptext, lines, ltext. clear H. induction ls as [|l ls IH]; [reflexivity|].
    cbn [flat_map map]. now rewrite IH.
Qed.
Lemma ptext_app nan l m : ptext nan (l ++ m) = ptext nan l ++ ptext nan m.
Proof. unfold ptext. now rewrite !flat_map_concat_map, map_app, concat_app. Qed.

(** ** the frame *)
Lemma fill_app nan f1 : forall t1 f2 t2, length f1 = length t1 ->
  fill nan (f1 ++ f2) (t1 ++ t2) = fill nan f1 t1 ++ fill nan f2 t2.
Proof.
  induction f1 as [|w f1 IH]; intros [|t t1] f2 t2 L; try discriminate; [reflexivity|].
  cbn [app fill]. injection L as L. rewrite (IH _ _ _ L), <- !app_assoc. reflexivity.
Qed.

Lemma summary_text nan c : fill nan summary_frame (summary c) ++ endl = ptext nan (summary_lines c).
Proof.
  unfold summary_frame, summary, summary_lines, ptext, ltext.
  cbn [fill flat_map map concat text show_token]. rewrite ?app_nil_r, <- ?app_assoc. reflexivity.
Qed.
Lemma card_text nan c i b : fill nan (card_frame b) (card_line c i) ++ endl = b ++ ptext nan (card_lines c i).
Proof.
  unfold card_frame, card_line, card_lines, ptext, ltext.
  cbn [fill flat_map map concat text show_token]. rewrite ?app_nil_r, <- ?app_assoc. reflexivity.
Qed.
Lemma dist_text nan c i b :
  fill nan (dist_frame b) (dist_line c i) ++ codes "%" ++ endl = b ++ ptext nan (dist_lines c i).
Proof.
  unfold dist_frame, dist_line, dist_lines, ptext, ltext.
  cbn [fill flat_map map concat text show_token]. rewrite ?app_nil_r, <- ?app_assoc. reflexivity.
Qed.

Lemma rows_text nan (frame : list Z -> list (list Z)) (line : Z -> list token) (ls : Z -> list (list piece)) sep :
  (forall i b, fill nan (frame b) (line i) ++ sep = b ++ ptext nan (ls i)) ->
  (forall i b, length (frame b) = length (line i)) ->
  forall n i b,
  length (frame b ++ concat (repeat (frame sep) n)) = length (flat_map line (zrange i (S n)))
  /\ fill nan (frame b ++ concat (repeat (frame sep) n)) (flat_map line (zrange i (S n))) ++ sep
     = b ++ ptext nan (flat_map ls (zrange i (S n))).
Proof.
  intros H L. induction n as [|n IH]; intros i b.
  - cbn [repeat concat zrange flat_map app]. rewrite !app_nil_r. split; [apply L|apply H].
  - specialize (IH (i + 1) sep) as (I1 & I2).
    change (zrange i (S (S n))) with (i :: zrange (i + 1) (S n)). cbn [flat_map repeat concat].
    rewrite app_length, (L i b), I1, app_length. split; [reflexivity|].
    rewrite (fill_app nan (frame b) (line i)) by apply L.
    rewrite <- app_assoc, I2, app_assoc, H, ptext_app. now rewrite app_assoc.
Qed.

Lemma fill_parts nan f1 t1 f2 f2' t2 f3 t3 f4 f4' t4 f5 t5 :
  length f1 = length t1 -> length (f2 ++ f2') = length t2 -> length f3 = length t3 ->
  length (f4 ++ f4') = length t4 ->
  fill nan (f1 ++ f2 ++ f2' ++ f3 ++ f4 ++ f4' ++ f5) (t1 ++ t2 ++ t3 ++ t4 ++ t5)
  = fill nan f1 t1 ++ fill nan (f2 ++ f2') t2 ++ fill nan f3 t3 ++ fill nan (f4 ++ f4') t4 ++ fill nan f5 t5.
Proof.
  intros L1 L2 L3 L4. rewrite fill_app by auto. rewrite (app_assoc f2), fill_app by auto.
  rewrite fill_app by auto. rewrite (app_assoc f4), fill_app by auto. reflexivity.
Qed.
Lemma fill_two nan a b s t : fill nan [a; b] [s; t] = a ++ show_token nan s ++ b ++ show_token nan t.
Proof. cbn [fill]. now rewrite app_nil_r. Qed.
Lemma fill_end nan a b s : fill nan [a; b] [s] = a ++ show_token nan s ++ b.
Proof. reflexivity. Qed.
Lemma glue (A B C D E F G H I J K P w e : list Z) :
  B ++ e = (e ++ C) ++ D -> H ++ P ++ e = I ++ J ->
  A ++ B ++ ((e ++ w) ++ E ++ (e ++ F) ++ G) ++ H ++ (P ++ e ++ w) ++ K ++ e
  = (A ++ e) ++ C ++ D ++ (w ++ E ++ e ++ F ++ G ++ I) ++ J ++ w ++ K ++ e.
Proof.
  intros E1 E2. rewrite <- !app_assoc. f_equal. rewrite (app_assoc B), E1, <- !app_assoc.
  do 8 f_equal. rewrite (app_assoc P), (app_assoc H), E2, <- app_assoc. reflexivity.
Qed.
Lemma ptext_one nan a b c : ptext nan [[W a]] = codes a ++ endl
  /\ ptext nan [[W a; R b]] = codes a ++ show_double nan b ++ endl
  /\ forall a' b', ptext nan [[W a; R b]; [W a'; R b'; W c]]
     = codes a ++ show_double nan b ++ endl ++ codes a' ++ show_double nan b' ++ codes c ++ endl.
Proof.
  unfold ptext, ltext. cbn [flat_map map concat text]. rewrite ?app_nil_r, <- ?app_assoc. split; [reflexivity|].
  split; [reflexivity|]. intros. rewrite ?app_nil_r, <- ?app_assoc. reflexivity.
Qed.

Lemma print_frame_text nan c : fill nan print_frame (shown c) = ptext nan (statistics_lines c).
Proof.
  destruct (rows_text nan card_frame (card_line c) (card_lines c) endl (card_text nan c)
      (fun _ _ => eq_refl) 29 1 (endl ++ codes "== sparse blocks cardinalities (%) ==" ++ endl)) as (A1 & A2).
  destruct (rows_text nan dist_frame (dist_line c) (dist_lines c) (codes "%" ++ endl) (dist_text nan c)
      (fun _ _ => eq_refl) 255 1 (codes "% of ints) ==" ++ endl)) as (B1 & B2).
  unfold print_frame, shown, statistics_lines.
  rewrite fill_parts; [|reflexivity|exact A1|reflexivity|exact B1].
  rewrite fill_two, fill_end, !ptext_app, <- summary_text.
  rewrite !(proj1 (ptext_one nan _ (S754_zero false) "")),
    !(proj1 (proj2 (ptext_one nan _ _ ""))), !(proj2 (proj2 (ptext_one nan _ _ _))).
  cbn [show_token]. apply glue; [exact A2|exact B2].
Qed.

(** ** the counters are not negative *)
Lemma total_nonneg A (f : A -> Z) l : (forall x, In x l -> 0 <= f x) -> 0 <= total f l.
Proof.
  induction l as [|a l IH]; intro H; [unfold total; cbn [fold_right]; lia|]. rewrite total_cons.
  pose proof (H a (or_introl eq_refl)). assert (0 <= total f l) by (apply IH; intros x Hx; apply H; now right). lia.
Qed.
Lemma filter_upto p m n : forall i, (forall h, i <= h -> p h = true -> h < m) ->
  zlen (filter p (zrange i n)) <= Z.max 0 (m - i).
Proof.
  induction n as [|n IH]; intros i H; cbn [zrange filter]; [change (zlen (@nil Z)) with 0; lia|].
  specialize (IH (i + 1) ltac:(intros h Hh; apply H; lia)). destruct (p i) eqn:E; [|lia].
  specialize (H i ltac:(lia) E). rewrite zlen_cons. lia.
Qed.
Lemma card_pos k S h : 0 < card k S h -> exists v, In v S /\ v / k = h.
Proof.
  unfold card. destruct (filter (fun v => v / k =? h) S) as [|v l] eqn:E; [change (zlen (@nil Z)) with 0; lia|]. intros _.
  assert (I : In v (filter (fun v => v / k =? h) S)) by (rewrite E; now left).
  apply filter_In in I as (I1 & I2). exists v. split; [auto|lia].
Qed.
Lemma card_nonneg k S h : 0 <= card k S h.
Proof. apply zlen_nonneg. Qed.
Lemma sorted_last S v : StronglySorted Z.lt S -> In v S -> v <= last S 0.
Proof.
  intros Hs Hi. assert (N : S <> []) by (intros ->; easy).
  pose proof (last_max Z.lt S _ Hs (last_znth S N)) as M. rewrite Forall_forall in M. specialize (M v Hi). lia.
Qed.

Lemma chunks_bound S : valid S -> chunks_in S <= last S 0 / 65536 + 1.
Proof.
  intros (N & Hs & HF). unfold chunks_in, over, one. rewrite total_one.
  pose proof (filter_upto (fun h => 0 <? card 65536 S h) (last S 0 / 65536 + 1) (Z.to_nat 65536) 0) as B.
  assert (0 <= last S 0).
  { rewrite Forall_forall in HF. destruct (exists_last N) as (S' & x & E). rewrite E, last_last.
    assert (In x S) by (rewrite E; apply in_or_app; right; now left). specialize (HF x H). lia. }
  assert (0 <= last S 0 / 65536) by (apply Z.div_pos; lia).
  rewrite Z.sub_0_r, Z.max_r in B by lia. apply B. intros h _ Hh. apply Z.ltb_lt in Hh.
  apply card_pos in Hh as (v & I & <-). pose proof (sorted_last S v Hs I).
  assert (v / 65536 <= last S 0 / 65536) by (apply Z.div_le_mono; lia). lia.
Qed.
Lemma div_div v b h : v / 256 = 256 * h + b -> 0 <= b < 256 -> v / 65536 = h /\ v mod 65536 / 256 = b.
Proof.
  intros E B. pose proof (Z.div_mod v 256 ltac:(lia)). pose proof (Z.mod_pos_bound v 256 ltac:(lia)).
  assert (v / 65536 = h).
  { symmetry. apply (Z.div_unique v 65536 h (256 * b + v mod 256)); lia. }
  split; [auto|]. pose proof (Z.div_mod v 65536 ltac:(lia)).
  symmetry. apply (Z.div_unique _ 256 b (v mod 256)); lia.
Qed.
Lemma blocks_bound S h n : valid S -> Z.of_nat n = 65536 -> 0 <= h < 65536 -> as_blocks S h = true ->
  blocks_in S h <= blocks_upto S h.
Proof.
  intros V Hn Hh A. unfold as_blocks in A. apply andb_prop in A as [A _]. apply andb_prop in A as [A _].
  apply Z.ltb_lt in A. destruct (card_pos _ _ _ A) as (v & I & Ev).
  assert (W : wfc1 (h, part 65536 S h)).
  { apply (kind_format n S h V Hn). unfold ids. apply filter_In. split; [apply In_zrange; lia|].
    apply existsb_exists. exists v. split; [auto|lia]. }
  destruct W as (_ & N & Hs & HF). cbn [snd] in *. unfold blocks_in, blocks_upto.
  assert (P : forall w, In w S -> w / 65536 = h -> In (w mod 65536) (part 65536 S h)).
  { intros w Hw E. unfold part. apply in_map_iff. exists w. split; [auto|]. apply filter_In. split; [auto|lia]. }
  pose proof (sorted_last _ _ Hs (P v I Ev)). pose proof (Z.mod_pos_bound v 65536 ltac:(lia)).
  assert (0 <= last (part 65536 S h) 0 / 256) by (apply Z.div_pos; lia).
  pose proof (filter_upto (fun b => negb (card 256 S (256 * h + b) =? 0) && (b <? 256)) (last (part 65536 S h) 0 / 256 + 1) 256 0) as B.
  rewrite Z.sub_0_r, Z.max_r in B by lia.
  rewrite (filter_ext_in _ (fun b => negb (card 256 S (256 * h + b) =? 0) && (b <? 256))).
  - apply B. intros b Hb E. apply andb_prop in E as [E1 E2]. apply Z.ltb_lt in E2.
    apply negb_true_iff, Z.eqb_neq in E1. pose proof (card_nonneg 256 S (256 * h + b)).
    destruct (card_pos 256 S (256 * h + b) ltac:(lia)) as (w & Iw & Ew).
    destruct (div_div w b h Ew ltac:(lia)) as (D1 & D2). pose proof (sorted_last _ _ Hs (P w Iw D1)).
    assert (w mod 65536 / 256 <= last (part 65536 S h) 0 / 256) by (apply Z.div_le_mono; lia). lia.
  - intros b Hb. apply In_zrange in Hb. rewrite (proj2 (Z.ltb_lt b 256)) by lia. now rewrite andb_true_r.
Qed.

Lemma over_nonneg p w : (forall h, 0 <= h < 65536 -> p h = true -> 0 <= w h) -> 0 <= over p w.
Proof.
  intro H. unfold over. apply total_nonneg. intros h Hh. apply filter_In in Hh as (Hh & Hp). apply In_zrange in Hh.
  apply H; [|auto]. rewrite Z2Nat.id in Hh; lia.
Qed.
Lemma over_blocks_nonneg S p w : (forall n, 0 <= n -> 0 <= w n) -> 0 <= over_blocks S p w.
Proof.
  intro H. unfold over_blocks. apply over_nonneg. intros h _ _. apply total_nonneg. intros b _. apply H, card_nonneg.
Qed.
Lemma counts_nonneg S f : valid S -> 0 <= counts S f.
Proof.
  intro V. pose proof V as (N & Hs & HF).
  assert (0 <= last S 0).
  { rewrite Forall_forall in HF. destruct (exists_last N) as (S' & x & E). rewrite E, last_last.
    assert (In x S) by (rewrite E; apply in_or_app; right; now left). specialize (HF x H). lia. }
  assert (0 <= last S 0 / 65536) by (apply Z.div_pos; lia).
  assert (O1 : forall p, 0 <= over p one) by (intro; apply over_nonneg; unfold one; lia).
  assert (OB : forall p, 0 <= over_blocks S p one) by (intro; apply over_blocks_nonneg; unfold one; lia).
  assert (OS : forall p, 0 <= over_blocks S p same) by (intro; apply over_blocks_nonneg; unfold same; lia).
  assert (OC : forall p, 0 <= over p (card 65536 S)) by (intro; apply over_nonneg; intros; apply card_nonneg).
  assert (OU : 0 <= over (as_blocks S) (fun h => blocks_upto S h - blocks_in S h)).
  { apply over_nonneg. intros h Hh A. pose proof (blocks_bound S h (Z.to_nat 65536) V) as BB.
    rewrite Z2Nat.id in BB by lia. specialize (BB eq_refl Hh A). lia. }
  assert (OV : 0 <= over (as_blocks S) (blocks_upto S)).
  { apply over_nonneg. intros h Hh A. pose proof (blocks_bound S h (Z.to_nat 65536) V) as BB.
    rewrite Z2Nat.id in BB by lia. specialize (BB eq_refl Hh A).
    assert (0 <= blocks_in S h) by apply zlen_nonneg. lia. }
  pose proof (chunks_bound S V). assert (0 <= chunks_in S) by apply O1.
  assert (0 <= chunks_in S / 32) by (apply Z.div_pos; lia). pose proof (zlen_nonneg _ S).
  destruct f; cbn [counts]; try lia; try apply O1; try apply OB; try apply OS; try apply OC.
  - pose proof (O1 (fun h => card 65536 S h =? 65536)). lia.
  - pose proof (OB bitmapped). pose proof (OB listed). lia.
  - pose proof (O1 (as_bitmap S)). lia.
  - pose proof (OB bitmapped). lia.
  - pose proof (OS listed). pose proof (OB listed). lia.
  - destruct (listed i); [apply OB|lia].
Qed.

(** ** the program *)
Lemma counters_nonneg bits K f : Forall valid K -> 0 <= bits -> 0 <= counters bits K f.
Proof.
  intros V B. assert (T : forall f, 0 <= total (fun L => counts L f) K).
  { intro g. apply total_nonneg. intros L HL. apply counts_nonneg. rewrite Forall_forall in V. auto. }
  destruct f; cbn [counters]; auto.
Qed.
Lemma flat_map_Forall A B (P : B -> Prop) (f : A -> list B) l : (forall x, In x l -> Forall P (f x)) -> Forall P (flat_map f l).
Proof.
  induction l as [|a l IH]; intro H; [constructor|]. cbn [flat_map]. apply Forall_app. split; [apply H; now left|].
  apply IH. intros x Hx. apply H. now right.
Qed.
Ltac pieces := repeat (apply Forall_cons || apply Forall_nil); cbn [nonneg]; auto.
Lemma statistics_nonneg c : (forall f, 0 <= c f) -> Forall (Forall nonneg) (statistics_lines c).
Proof.
  intro H. unfold statistics_lines. apply Forall_app. split; [|apply Forall_app; split; [|apply Forall_app; split;
    [|apply Forall_app; split; [|apply Forall_app; split]]]].
  - unfold summary_lines. pieces. apply Z.div_pos; [auto|lia].
  - pieces.
  - apply flat_map_Forall. intros i Hi. apply In_zrange in Hi. unfold card_lines. pieces. lia.
  - pieces.
  - apply flat_map_Forall. intros i Hi. apply In_zrange in Hi. unfold dist_lines. pieces; [lia|].
    unfold average. pose proof (H (F_num_integers i)). destruct (Z.eq_dec (c (F_num_blocks_in_chunks i)) 0) as [E|E].
    + rewrite E. now rewrite Zdiv_0_r.
    + apply Z.div_pos; [auto|]. pose proof (H (F_num_blocks_in_chunks i)). lia.
  - pieces.
Qed.
Lemma progress_text nan n : forall k,
  progress n k = ptext nan (map (fun k => [W "processed "; N (1000 * k); W " sequences"]) (zrange k n)).
Proof.
  induction n as [|n IH]; intro k; [reflexivity|]. cbn [progress zrange map]. rewrite (IH (k + 1)).
  unfold ptext at 2. cbn [flat_map]. unfold ltext at 1. cbn [map concat text]. rewrite app_nil_r, <- !app_assoc. reflexivity.
Qed.

Theorem c49_build : forall nan dbg params u Ls stats offsets sequences,
  let kept := filter (fun L => pass params (zlen L) (last L 0)) Ls in
  0 <= u -> Forall valid kept -> Forall short Ls -> total zlen kept < 2 ^ 37 ->
  index_build dbg params (collection u Ls) = Ok (stats, offsets, sequences) ->
  ((forall i, 1 <= i <= 256 -> sparse_chunks i kept <> []) ->
   forall t, build_text nan dbg params (collection u Ls) = Ok t
     <-> page nan (build_lines u (zlen kept) (counters (8 * zlen (index_file offsets sequences)) kept)) t)
  /\ ((exists i, 1 <= i <= 256 /\ sparse_chunks i kept = []) ->
      build_text nan dbg params (collection u Ls) = UB).
Proof.
  intros nan dbg params u Ls stats offsets sequences kept Hu V HSh B E. split.
  - intros N t. pose proof (c28_shown dbg params u Ls stats offsets sequences V HSh B E N) as P.
    set (c := counters (8 * zlen (index_file offsets sequences)) kept) in *.
    assert (SQ : stats F_sequences = zlen kept).
    { destruct (c18_exact_index dbg params u Ls V HSh) as (st & o & q & E' & X). rewrite E' in E. injection E as <- <- <-.
      rewrite (X F_sequences) by discriminate. cbn [counts]. apply total_one. }
    assert (T : build_text nan dbg params (collection u Ls) = Ok (ptext nan (build_lines u (zlen kept) c))).
    { unfold build_text. rewrite E. cbn [bind]. change (vget (collection u Ls) 1) with (Ok u). cbn [bind].
      unfold print_text. rewrite P. cbn [bind]. rewrite print_frame_text, SQ, (progress_text nan). unfold build_lines.
      rewrite !ptext_app. f_equal. unfold ptext at 3. cbn [flat_map]. unfold ltext at 1. cbn [map concat text].
      rewrite !app_nil_r, <- !app_assoc. reflexivity. }
    assert (PG : page nan (build_lines u (zlen kept) c) (ptext nan (build_lines u (zlen kept) c))).
    { apply ptext_page. unfold build_lines. apply Forall_app. split; [pieces|]. apply Forall_app. split.
      - apply Forall_forall. intros l Hl. apply in_map_iff in Hl as (k & <- & Hk). apply In_zrange in Hk. pieces. lia.
      - apply statistics_nonneg. intro f. apply counters_nonneg; [auto|]. pose proof (zlen_nonneg _ (index_file offsets sequences)). lia. }
    rewrite T. split; intro H; [now injection H as <-|]. f_equal. exact (page_unique _ _ _ _ PG H).
  - intro N. destruct (c28_print dbg params u Ls stats offsets sequences V HSh B E) as (P & _).
    unfold build_text. rewrite E. cbn [bind]. change (vget (collection u Ls) 1) with (Ok u). cbn [bind].
    unfold print_text. rewrite (P N). reflexivity.
Qed.
