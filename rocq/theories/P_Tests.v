(** The test programs. *)
From Verif Require Import Base Hw Spec Lib L_Bits L_Group Layout M_Util M_Build M_Seq M_Decode M_Uncompress
  M_Query M_Union M_Many M_Index M_Calls M_Tests P_Build1 P_Build2 P_Build3 P_Seq P_Decode P_Query P_NextGeq
  P_Ng P_Enum P_Uncompress P_Sets P_Index P_Fin1 P_Fin2 P_Fin3.
From Coq Require Import Lia Sorted.

Definition words (Ls : list (list Z)) : list Z := flat_map (fun L => zlen L :: L) Ls.
(** the words of [L] are in [data] from index [i] on *)
Definition list_at (data : list Z) (i : Z) (L : list Z) : Prop :=
  forall j, 0 <= j < zlen L -> znth data (i + j) = znth L j.

Section Scan.
Context {A : Type} (params : parameters) (body : list Z -> Z -> Z -> Z -> Z -> A -> res A).

Lemma scan_step data pre L Ls fuel k st :
  data = pre ++ words (L :: Ls) -> short L ->
  scan (1 + fuel) params data (body data) (zlen pre) k st
  = if keep params L then
      let! st := body data k (zlen pre) (zlen L) (last L 0) st in
      scan fuel params data (body data) (zlen (pre ++ zlen L :: L)) (k + 1) st
    else scan fuel params data (body data) (zlen (pre ++ zlen L :: L)) k st.
Proof.
  intros -> HSh. cbn [Nat.add]. set (data := pre ++ words (L :: Ls)).
  assert (E0 : vget data (zlen pre) = Ok (zlen L)).
  { unfold vget, data. rewrite znth_app_r by lia. unfold words. cbn [flat_map app].
    now rewrite Z.sub_diag, znth_cons_0. }
  assert (E1 : vget data (zlen pre + zlen L) = Ok (last L 0)).
  { clear HSh. unfold vget, data. zpos. rewrite znth_app_r by lia.
    replace (zlen pre + zlen L - zlen pre) with (zlen L) by lia. unfold words. cbn [flat_map app].
    destruct L as [|x L]; [reflexivity|]. rewrite znth_cons_pos by zl.
    rewrite znth_app_l by zl. now rewrite last_znth. }
  cbn [scan]. destruct (Z.ltb_spec (zlen pre) (zlen data)) as [_|HX].
  2: { unfold data, words in HX. cbn [flat_map] in HX. zl. }
  rewrite E0. cbn [bind]. rewrite E1. cbn [bind]. fold (keep params L).
  replace (zlen (pre ++ zlen L :: L)) with (zlen pre + (zlen L + 1)) by zl. now rewrite u32_short by exact HSh.
Qed.

Lemma scan_end data fuel k st :
  scan fuel params data (body data) (zlen data) k st = Ok (k, st).
Proof. destruct fuel; cbn [scan]; destruct (Z.ltb_spec (zlen data) (zlen data)); auto; lia. Qed.

Lemma list_at_words data pre L Ls : data = pre ++ words (L :: Ls) -> list_at data (zlen pre + 1) L.
Proof.
  intros -> j Hj. pose proof (zlen_nonneg _ pre). rewrite znth_app_r by lia. unfold words. cbn [flat_map app].
  rewrite znth_cons_pos by lia. rewrite znth_app_l by lia. f_equal. lia.
Qed.

Lemma scan_ok (P : A -> Prop) (K : list (list Z)) data :
  (forall k i L st, znth K k = Some L -> P st -> list_at data (i + 1) L ->
     exists st', body data k i (zlen L) (last L 0) st = Ok st' /\ P st') ->
  forall Ls pre fuel k st, data = pre ++ words Ls -> Forall short Ls ->
    0 <= k -> (forall j L, znth (filter (keep params) Ls) j = Some L -> znth K (k + j) = Some L) ->
    zlen (words Ls) <= Z.of_nat fuel -> P st ->
    exists st', scan fuel params data (body data) (zlen pre) k st
      = Ok (k + zlen (filter (keep params) Ls), st') /\ P st'.
Proof.
  intros HB. induction Ls as [|L Ls IH]; intros pre fuel k st E HSh Hk HK Hf HP.
  - cbn [filter]. rewrite zlen_nil, Z.add_0_r. assert (data = pre) as <- by (rewrite E; apply app_nil_r).
    exists st. split; auto. apply scan_end.
  - assert (Hf' : zlen (words Ls) + zlen L + 1 <= Z.of_nat fuel).
    { revert Hf. unfold words. cbn [flat_map]. rewrite zlen_app, zlen_cons. lia. }
    zpos. destruct fuel as [|fuel]; [lia|].
    change (S fuel) with (1 + fuel)%nat. rewrite (scan_step data pre L Ls fuel k st E (Forall_inv HSh)).
    assert (E' : data = (pre ++ zlen L :: L) ++ words Ls) by (rewrite E, <- app_assoc; reflexivity).
    cbn [filter] in *. destruct (keep params L) eqn:EK.
    + assert (K0 : znth K k = Some L) by (rewrite <- (HK 0 L); [f_equal; lia|now rewrite znth_cons_0]).
      destruct (HB k (zlen pre) L st K0 HP) as (st1 & E1 & P1); [now apply (list_at_words _ _ _ Ls)|].
      rewrite E1. cbn [bind].
      destruct (IH (pre ++ zlen L :: L) fuel (k + 1) st1 E' (Forall_inv_tail HSh)) as (st2 & E2 & P2); auto; try lia.
      { intros j L' Hj. pose proof (znth_lt _ _ _ _ Hj) as Hj'.
        replace (k + 1 + j) with (k + (j + 1)) by lia. apply HK.
        rewrite znth_cons_pos by lia. rewrite <- Hj. f_equal. lia. }
      exists st2. split; auto. rewrite E2, zlen_cons. f_equal. f_equal. lia.
    + apply IH; auto; try lia. exact (Forall_inv_tail HSh).
Qed.

(** one list on which the program cannot end well is enough *)
Lemma scan_never (bad : A -> Prop) data L0 :
  (forall k i L st st', bad st -> body data k i (zlen L) (last L 0) st = Ok st' -> bad st') ->
  forall Ls pre fuel k st k' st', data = pre ++ words Ls -> Forall short Ls ->
    (forall j i st st', znth (filter (keep params) Ls) j = Some L0 -> list_at data (i + 1) L0 ->
       body data (k + j) i (zlen L0) (last L0 0) st = Ok st' -> bad st') ->
    In L0 (filter (keep params) Ls) \/ bad st ->
    scan fuel params data (body data) (zlen pre) k st = Ok (k', st') -> bad st'.
Proof.
  intro HM. induction Ls as [|L Ls IH]; intros pre fuel k st k' st' E HSh HB HI ES.
  - assert (data = pre) as <- by (rewrite E; apply app_nil_r). rewrite scan_end in ES. injection ES as <- <-.
    destruct HI as [[]|HI]; auto.
  - destruct fuel as [|fuel].
    { cbn [scan] in ES. destruct (zlen pre <? zlen data) eqn:El; [discriminate ES|].
      apply Z.ltb_ge in El. rewrite E in El. unfold words in El. cbn [flat_map] in El. zl. }
    change (S fuel) with (1 + fuel)%nat in ES. rewrite (scan_step data pre L Ls fuel k st E (Forall_inv HSh)) in ES.
    assert (E' : data = (pre ++ zlen L :: L) ++ words Ls) by (rewrite E, <- app_assoc; reflexivity).
    cbn [filter] in *. destruct (keep params L) eqn:EK.
    + destruct (body data k (zlen pre) (zlen L) (last L 0) st) as [st1| | | |] eqn:E1; try discriminate ES.
      cbn [bind] in ES. eapply IH; [exact E'|exact (Forall_inv_tail HSh)| | |exact ES].
      * intros j i s s' Hj Ha Hs. pose proof (znth_lt _ _ _ _ Hj). apply (HB (j + 1) i s s'); auto.
        { rewrite znth_cons_pos by lia. rewrite <- Hj. f_equal. lia. }
        replace (k + (j + 1)) with (k + 1 + j) by lia. exact Hs.
      * destruct HI as [[->|HI]|HI]; auto; right.
        { apply (HB 0 (zlen pre) st st1); [apply znth_cons_0|now apply (list_at_words _ _ _ Ls)|].
          now rewrite Z.add_0_r. }
        { eapply HM; eauto. }
    + eapply IH; eauto. exact (Forall_inv_tail HSh).
Qed.
End Scan.

Lemma scan_collection {A} (body : list Z -> Z -> Z -> Z -> Z -> A -> res A) params u Ls (P : A -> Prop) st :
  Forall short Ls ->
  let data := collection u Ls in
  let kept := filter (keep params) Ls in
  (forall k i L st, znth kept k = Some L -> P st -> list_at data (i + 1) L ->
     exists st', body data k i (zlen L) (last L 0) st = Ok st' /\ P st') ->
  P st ->
  exists st', scan (length data) params data (body data) 2 0 st = Ok (zlen kept, st') /\ P st'.
Proof.
  intros HSh data kept HB HP. change 2 with (zlen [1; u]).
  destruct (scan_ok params body P kept data HB Ls [1; u] (length data) 0 st) as (st' & E & P');
    [reflexivity|exact HSh|lia|intros j L H; exact H| |exact HP|].
  { unfold data, collection. fold (words Ls). unfold zlen. cbn [length]. lia. }
  exists st'. auto.
Qed.

(** ** What a program finds in an index built from a collection *)
Definition opened (slack : Z) (mem : list Z) (f u : Z) (kept : list (list Z)) (ix : s_index) : Prop :=
  index_mmap mem f = Ok ix /\ ix_size ix = zlen kept /\ ix_universe ix = u /\ Forall valid kept
  /\ forall i S, znth kept i = Some S ->
       exists s, seq_at mem (addr kept f i) = Ok s /\ stored slack mem (addr kept f i) S
         /\ forall dbg, index_get dbg mem ix i = Ok s.

Lemma opened_ok dbg params u Ls :
  is_u32 u -> Forall valid (filter (keep params) Ls) -> Forall short Ls ->
  exists stats offsets sequences,
    index_build dbg params (collection u Ls) = Ok (stats, offsets, sequences)
    /\ forall mem f slack, 0 <= f -> 0 <= slack -> bytes_at mem f (index_file offsets sequences) ->
         f + zlen (index_file offsets sequences) + slack <= zlen mem -> zlen mem <= 2 ^ 64 ->
         exists ix, opened slack mem f u (filter (keep params) Ls) ix.
Proof.
  intros Hu V HSh. destruct (index_build_ok dbg params u Ls V HSh) as (st & E & _).
  exists st, (u :: starts 0 (filter (keep params) Ls)), (lays (filter (keep params) Ls)). split; [exact E|].
  intros mem f slack Hf Hs B L HM.
  destruct (index_mmap_ok u (filter (keep params) Ls) mem f slack) as (ix & E1 & E2 & E3 & G); auto.
  { unfold is_u32 in Hu. lia. }
  exists ix. repeat split; auto.
Qed.

Lemma stored_weaken k k' mem a S : stored k mem a S -> k' <= k -> stored k' mem a S.
Proof. intros (d & e & H1 & H2 & H3) L. exists d, e. split; auto. split; auto. lia. Qed.

Lemma opened_valid slack mem f u kept ix i S : opened slack mem f u kept ix -> znth kept i = Some S -> valid S.
Proof.
  intros (_ & _ & _ & V & _) E. rewrite Forall_forall in V. apply V. eapply znth_In; eauto.
Qed.

(** the words of a list, one by one *)
Lemma list_at_cons data p x L : list_at data p (x :: L) -> vget data p = Ok x /\ list_at data (p + 1) L.
Proof.
  intro H. split.
  - apply vget_ok. rewrite <- (Z.add_0_r p), H by zl. apply znth_cons_0.
  - intros j Hj. replace (p + 1 + j) with (p + (j + 1)) by lia. rewrite H by zl.
    rewrite znth_cons_pos by lia. f_equal. lia.
Qed.
Lemma length_of_zlen (L : list Z) : Z.to_nat (zlen L) = length L.
Proof. unfold zlen. lia. Qed.

Lemma compare_loop_ok data out : forall L p j g,
  list_at data p L -> list_at out j L -> compare_loop (length L) data p out j g = Ok g.
Proof.
  induction L as [|x L IH]; intros p j g H1 H2; cbn [length compare_loop]; auto.
  apply list_at_cons in H1 as [E1 H1]. apply list_at_cons in H2 as [E2 H2].
  rewrite E1. cbn [bind]. rewrite E2. cbn [bind]. rewrite Z.eqb_refl, andb_true_r. auto.
Qed.

Lemma test_decode_ok dbg params mem f u Ls ix :
  let kept := filter (keep params) Ls in Forall short Ls ->
  opened 31 mem f u kept ix -> Forall (fun L => zlen L + 23 <= u) kept ->
  test_decode dbg params mem f (collection u Ls) = Ok (zlen kept, true).
Proof.
  intros kept HSh O HB. unfold test_decode. rewrite (proj1 O). cbn [bind].
  change (vget (collection u Ls) 0) with (Ok 1). cbn [bind].
  rewrite assert_ok by reflexivity. cbn [bind].
  destruct (scan_collection (fun data => decode_body dbg mem ix data) params u Ls
    (fun st => fst st = true /\ zlen (snd st) = Z.max 0 u) (true, repeat 0 (Z.to_nat (ix_universe ix))) HSh)
    as ((g & out) & E & Eg & _).
  - intros k i L (g & out) EK (Eg & El) HA. cbn [fst snd] in *. subst g. fold kept in EK.
    pose proof (opened_valid _ _ _ _ _ _ _ _ O EK) as VL.
    assert (B : zlen L + 23 <= u) by (rewrite Forall_forall in HB; apply HB; eapply znth_In; eauto).
    destruct O as (_ & _ & _ & _ & G). destruct (G k L EK) as (s & Es & St & EG).
    unfold decode_body. rewrite EG. cbn [bind].
    destruct (decode_ok dbg mem _ L out 0 VL St) as (s' & out' & Es' & ED & W); try lia.
    rewrite Es in Es'. injection Es' as <-. rewrite ED. cbn [bind].
    destruct (c04_size mem _ L VL (stored_weaken _ 0 _ _ _ St ltac:(lia))) as (s' & Es' & _ & EC).
    rewrite Es in Es'. injection Es' as <-. rewrite EC. cbn [bind]. rewrite Z.eqb_refl. cbn [andb].
    rewrite length_of_zlen, compare_loop_ok; auto.
    + cbn [bind]. eexists. split; [reflexivity|]. cbn [fst snd]. split; auto.
      now rewrite (wrote_zlen _ _ _ _ _ W).
    + intros j Hj. destruct W as (_ & W & _). apply W. exact Hj.
  - cbn [fst snd]. split; auto. destruct O as (_ & _ & -> & _). rewrite zlen_repeat. lia.
  - cbn [fst] in Eg. subst g. rewrite E. reflexivity.
Qed.

Lemma contains_loop_ok dbg mem a S s data : forall L p g,
  valid S -> stored 0 mem a S -> seq_at mem a = Ok s -> (forall x, In x L -> In x S) ->
  list_at data p L -> contains_loop (length L) dbg mem s data p g = Ok g.
Proof.
  induction L as [|x L IH]; intros p g V St Es HI H; cbn [length contains_loop]; auto.
  apply list_at_cons in H as [E H]. rewrite E. cbn [bind].
  assert (Hx : In x S) by (apply HI; now left).
  assert (Ux : is_u32 x).
  { destruct V as (_ & _ & R). rewrite Forall_forall in R. specialize (R x Hx). unfold is_u32. lia. }
  destruct (c05_contains dbg mem a S x V St Ux) as (s' & b & Es' & EC & B).
  rewrite Es in Es'. injection Es' as <-. rewrite EC. cbn [bind].
  rewrite (proj2 B Hx), andb_true_r. apply IH; auto. intros y Hy. apply HI. now right.
Qed.

Lemma test_contains_ok dbg params mem f u Ls ix :
  let kept := filter (keep params) Ls in Forall short Ls ->
  opened 0 mem f u kept ix ->
  test_contains dbg params mem f (collection u Ls) = Ok (zlen kept, true).
Proof.
  intros kept HSh O. unfold test_contains. rewrite (proj1 O). cbn [bind].
  change (vget (collection u Ls) 0) with (Ok 1). cbn [bind].
  rewrite assert_ok by reflexivity. cbn [bind].
  destruct (scan_collection (fun data => contains_body dbg mem ix data) params u Ls
    (fun st => st = true) true HSh) as (g & E & ->); auto.
  intros k i L g EK -> HA. fold kept in EK. pose proof (opened_valid _ _ _ _ _ _ _ _ O EK) as VL.
  destruct O as (_ & _ & _ & _ & G). destruct (G k L EK) as (s & Es & St & EG).
  unfold contains_body. rewrite EG. cbn [bind].
  destruct (c04_size mem _ L VL St) as (s' & Es' & _ & EC).
  rewrite Es in Es'. injection Es' as <-. rewrite EC. cbn [bind]. rewrite Z.eqb_refl. cbn [andb].
  rewrite length_of_zlen. erewrite contains_loop_ok; eauto.
Qed.

Lemma select_loop_ok dbg mem a S s data : forall L p j value g,
  valid S -> stored 0 mem a S -> seq_at mem a = Ok s -> 0 <= j -> list_at S j L -> j + zlen L <= zlen S ->
  list_at data p L -> select_loop (length L) dbg mem s data p j value g = Ok g.
Proof.
  induction L as [|x L IH]; intros p j value g V St Es Hj HI Hl H; cbn [length select_loop]; auto.
  apply list_at_cons in H as [E H]. rewrite E. cbn [bind]. rewrite zlen_cons in Hl. zpos.
  assert (LS : zlen S < 4294967296).
  { destruct (valid_chunks S V) as (W & _ & _ & _ & LS). lia. }
  rewrite u32_id by lia.
  destruct (c06_select dbg mem a S j value V St) as (s' & Es' & ES & _); [unfold is_u32; lia|].
  rewrite Es in Es'. injection Es' as <-. apply list_at_cons in HI as [EI HI].
  rewrite (ES x). 2: { unfold vget in EI. destruct (znth S j); congruence. }
  cbn [bind]. rewrite Z.eqb_refl, !andb_true_r. apply IH; auto; lia.
Qed.

Lemma test_select_ok dbg params mem f u Ls ix :
  let kept := filter (keep params) Ls in Forall short Ls ->
  opened 0 mem f u kept ix ->
  test_select dbg params mem f (collection u Ls) = Ok (zlen kept, true).
Proof.
  intros kept HSh O. unfold test_select. rewrite (proj1 O). cbn [bind].
  change (vget (collection u Ls) 0) with (Ok 1). cbn [bind].
  rewrite assert_ok by reflexivity. cbn [bind].
  destruct (scan_collection (fun data => select_body dbg mem ix data) params u Ls
    (fun st => st = true) true HSh) as (g & E & ->); auto.
  intros k i L g EK -> HA. fold kept in EK. pose proof (opened_valid _ _ _ _ _ _ _ _ O EK) as VL.
  destruct O as (_ & _ & _ & _ & G). destruct (G k L EK) as (s & Es & St & EG).
  unfold select_body. rewrite EG. cbn [bind].
  destruct (c04_size mem _ L VL St) as (s' & Es' & _ & EC).
  rewrite Es in Es'. injection Es' as <-. rewrite EC. cbn [bind]. rewrite Z.eqb_refl. cbn [andb].
  rewrite length_of_zlen. erewrite select_loop_ok; eauto; try lia. intros j Hj. reflexivity.
Qed.

(** ** enumerator *)
Lemma enum_init_inv dbg mem a S p buf s :
  valid S -> stored 31 mem a S -> seq_at mem a = Ok s -> zlen buf = 65536 ->
  exists e, enum_init dbg mem buf s p = Ok e /\ en_inv mem p e S.
Proof.
  intros H St Es' Hb. destruct (stored_seq 31 mem a S H St ltac:(lia)) as (s' & Es & En & V & A & B0).
  rewrite Es' in Es. injection Es as <-.
  destruct (valid_chunks S H) as (W & N & U & SC & L). unfold enum_init.
  destruct (chunks_of S) as [|[id c] cs] eqn:EC; [easy|]. rewrite zlen_cons in En.
  assert (LC : s_chunks s <= 65535).
  { rewrite En. pose proof (chunks_le _ W) as LC. rewrite zlen_cons in LC. exact LC. }
  destruct (enum_start dbg mem (seq_begin s) id c cs buf p 0 (s_chunks s)) as (buf' & E & I); auto; try lia.
  rewrite E. eexists. split; [reflexivity|]. now rewrite U in I.
Qed.

(** standing before [rest], or exhausted *)
Definition en_at (mem : list Z) (p : Z) (e : enumerator) (rest : list Z) : Prop :=
  match rest with [] => en_done p e 0 | _ :: _ => en_inv mem p e rest end.

Lemma enumerator_loop_ok dbg mem p data : forall L q e g,
  en_at mem p e L -> list_at data q L ->
  exists e', enumerator_loop (length L) dbg mem data q e g = Ok (g, e') /\ en_done p e' 0.
Proof.
  induction L as [|x L IH]; intros q e g I H; cbn [length enumerator_loop]; [eauto|].
  apply list_at_cons in H as [E H]. rewrite E. cbn [bind]. cbn [en_at] in I.
  rewrite (enum_value_inv mem p e x L I). cbn [bind].
  destruct (enum_next_inv dbg mem p e x L I) as (e1 & -> & I1). cbn [bind].
  rewrite Z.eqb_refl, andb_true_r. apply IH; auto.
Qed.

Lemma test_enumerator_ok dbg params mem f u Ls ix :
  let kept := filter (keep params) Ls in Forall short Ls ->
  opened 31 mem f u kept ix ->
  test_enumerator dbg params mem f (collection u Ls) = Ok (zlen kept, true).
Proof.
  intros kept HSh O. unfold test_enumerator. rewrite (proj1 O). cbn [bind].
  change (vget (collection u Ls) 0) with (Ok 1). cbn [bind].
  rewrite assert_ok by reflexivity. cbn [bind].
  destruct (scan_collection (fun data => enumerator_body dbg mem ix data) params u Ls
    (fun st => fst st = true /\ zlen (snd st) = 65536) (true, enum_new_buf) HSh) as ((g & buf) & E & Eg & _).
  - intros k i L (g & buf) EK (Eg & El) HA. cbn [fst snd] in *. subst g. fold kept in EK.
    pose proof (opened_valid _ _ _ _ _ _ _ _ O EK) as VL.
    destruct O as (_ & _ & _ & _ & G). destruct (G k L EK) as (s & Es & St & EG).
    unfold enumerator_body. rewrite EG. cbn [bind].
    destruct (enum_init_inv dbg mem _ L (u32 (ix_universe ix)) buf s VL St Es El) as (e & -> & I). cbn [bind].
    rewrite length_of_zlen.
    destruct (enumerator_loop_ok dbg mem (u32 (ix_universe ix)) (collection u Ls) L (i + 1) e true)
      as (e' & -> & D); auto.
    { destruct L; [exfalso; now apply (proj1 VL)|exact I]. }
    cbn [bind]. eexists. split; [reflexivity|]. cbn [fst snd]. split; auto. apply D.
  - cbn [fst snd]. split; [reflexivity|]. unfold enum_new_buf. rewrite zlen_repeat. unfold chunk_size. lia.
  - cbn [fst] in Eg. subst g. rewrite E. reflexivity.
Qed.

(** ** next_geq *)
Lemma lower_bound_ok data v : forall L p, list_at data p L -> (exists x, In x L /\ v <= x) ->
  exists it, lower_bound (length L) data p v = Ok it /\ vget data it = Ok (spec_next_geq L v).
Proof.
  induction L as [|x L IH]; intros p H (y & Hy & Hv); [destruct Hy|]. cbn [length lower_bound spec_next_geq].
  apply list_at_cons in H as [E H]. rewrite E. cbn [bind].
  destruct (Z.ltb_spec x v), (Z.leb_spec v x); try lia.
  - apply IH; auto. destruct Hy as [->|Hy]; [lia|eauto].
  - exists p. split; auto.
Qed.

Lemma spec_next_geq_le L v x : In x L -> v <= x -> v <= spec_next_geq L v /\ In (spec_next_geq L v) L.
Proof.
  induction L as [|y L IH]; intros Hx Hv; [destruct Hx|]. cbn [spec_next_geq].
  destruct (Z.leb_spec v y); [split; auto; now left|].
  destruct Hx as [->|Hx]; [lia|]. destruct IH; auto. split; auto. now right.
Qed.

Lemma last_In L : L <> [] -> In (last L 0) L.
Proof. intro N. eapply znth_In. now apply last_znth. Qed.
Lemma le_last L x : StronglySorted Z.lt L -> In x L -> x <= last L 0.
Proof.
  induction L as [|y L IH]; intros H Hx; [destruct Hx|]. apply StronglySorted_inv in H as [H F].
  destruct L as [|z L]; [destruct Hx as [->|[]]; cbn; lia|].
  change (last (y :: z :: L) 0) with (last (z :: L) 0). destruct Hx as [->|Hx]; auto.
  rewrite Forall_forall in F. specialize (F z ltac:(now left)).
  apply StronglySorted_inv in H as [H F2]. destruct L as [|w L]; [cbn; lia|].
  assert (HL : In (last (z :: w :: L) 0) (z :: w :: L)) by (eapply znth_In, last_znth; discriminate).
  destruct HL as [<-|HL]; [lia|]. rewrite Forall_forall in F2. specialize (F2 _ HL). lia.
Qed.
Lemma valid_last L : valid L -> 0 <= last L 0 < 4294901760.
Proof. intros (N & _ & R). rewrite Forall_forall in R. now apply R, last_In. Qed.

Lemma geq_loop_ok {A} dbg (next : A -> Z -> res (A * Z)) (I : Z -> A -> Prop) data i L :
  valid L -> list_at data (i + 1) L ->
  (forall st lb, 0 <= lb <= last L 0 -> I lb st ->
     exists st', next st lb = Ok (st', spec_next_geq L lb) /\ I (lb + 1) st') ->
  forall fuel st lb g, 0 <= lb <= last L 0 + 1 -> last L 0 + 1 - lb <= Z.of_nat fuel -> I lb st ->
  exists st', geq_loop fuel dbg next data i (zlen L) (last L 0) st lb g = Ok (st', g) /\ I (last L 0 + 1) st'.
Proof.
  intros V HA HN. pose proof (valid_last L V) as VL.
  induction fuel as [|fuel IH]; intros st lb g Hlb Hf HI; cbn [geq_loop].
  - destruct (Z.eqb_spec lb (u32 (last L 0 + 1))) as [->|HE].
    + exists st. split; auto. now rewrite u32_id in HI by lia.
    + rewrite u32_id in HE by lia. lia.
  - destruct (Z.eqb_spec lb (u32 (last L 0 + 1))) as [->|HE].
    + exists st. split; auto. now rewrite u32_id in HI by lia.
    + rewrite u32_id in HE by lia. rewrite length_of_zlen.
      assert (HL : In (last L 0) L) by (apply last_In; apply V).
      destruct (lower_bound_ok data lb L (i + 1) HA) as (it & -> & Eit).
      { exists (last L 0). split; auto. lia. }
      cbn [bind]. rewrite (u32_id lb) by lia.
      destruct (HN st lb ltac:(lia) HI) as (st1 & -> & I1). cbn [bind].
      destruct (spec_next_geq_le L lb (last L 0) HL ltac:(lia)) as [Hle _].
      rewrite assert_ok by (now apply Z.leb_le). cbn [bind]. rewrite Eit. cbn [bind].
      rewrite Z.eqb_refl, andb_true_r. apply IH; auto; lia.
Qed.

Lemma spec_next_geq_none L v : (forall x, In x L -> x < v) -> spec_next_geq L v = 4294967295.
Proof.
  induction L as [|y L IH]; intro H; cbn [spec_next_geq]; auto.
  destruct (Z.leb_spec v y); [specialize (H y ltac:(now left)); lia|]. apply IH. intros x Hx. apply H. now right.
Qed.

Lemma beyond_loop_ok {A} (next : A -> Z -> res (A * Z)) (I : Z -> A -> Prop) L :
  valid L -> last L 0 + 1000001 < 4294967296 ->
  (forall st lb, last L 0 < lb < 4294967296 -> I lb st ->
     exists st', next st lb = Ok (st', 4294967295) /\ I (lb + 10000) st') ->
  forall m fuel st lb g, lb = last L 0 + 1 + 10000 * (100 - Z.of_nat m) -> (m <= 100)%nat -> (m <= fuel)%nat ->
  I lb st -> exists st', beyond_loop fuel next (last L 0) st lb g = Ok (st', g).
Proof.
  intros V HL HN. pose proof (valid_last L V) as VL.
  assert (ET : u32 (last L 0 + 1000000 + 1) = last L 0 + 1000001) by (rewrite u32_id; lia).
  induction m as [|m IH]; intros fuel st lb g Elb Hm Hf HI.
  - exists st. destruct fuel; cbn [beyond_loop]; rewrite ET;
      (destruct (Z.eqb_spec lb (last L 0 + 1000001)); [reflexivity|lia]).
  - destruct fuel as [|fuel]; [lia|]. cbn [beyond_loop]. rewrite ET.
    destruct (Z.eqb_spec lb (last L 0 + 1000001)); [lia|]. rewrite (u32_id lb) by lia.
    destruct (HN st lb) as (st1 & -> & I1); auto; try lia. cbn [bind].
    change (4294967295 =? not_found) with true. rewrite andb_true_r.
    rewrite u64_id by lia. apply IH; auto; lia.
Qed.

Lemma beyond_100 {A} (next : A -> Z -> res (A * Z)) (I : Z -> A -> Prop) L fuel st g :
  valid L -> last L 0 + 1000001 < 4294967296 -> (100 <= fuel)%nat ->
  (forall st lb, last L 0 < lb < 4294967296 -> I lb st ->
     exists st', next st lb = Ok (st', 4294967295) /\ I (lb + 10000) st') ->
  I (last L 0 + 1) st ->
  exists st', beyond_loop fuel next (last L 0) st (u32 (last L 0 + 1)) g = Ok (st', g).
Proof.
  intros V HL Hf HN HI. pose proof (valid_last L V). rewrite u32_id by lia.
  apply (beyond_loop_ok next I L V HL HN 100); auto. lia.
Qed.

Lemma test_next_geq_ok fuel dbg params mem f u Ls ix :
  let kept := filter (keep params) Ls in Forall short Ls ->
  opened 0 mem f u kept ix -> Forall (fun L => last L 0 + 1000001 < 4294967296) kept -> (100 <= fuel)%nat ->
  test_next_geq fuel dbg params mem f (collection u Ls) = Ok (zlen kept, true).
Proof.
  intros kept HSh O HB Hf. unfold test_next_geq. rewrite (proj1 O). cbn [bind].
  change (vget (collection u Ls) 0) with (Ok 1). cbn [bind].
  rewrite assert_ok by reflexivity. cbn [bind].
  destruct (scan_collection (fun data => next_geq_body fuel dbg mem ix data) params u Ls
    (fun st => st = true) true HSh) as (g & E & ->); auto.
  intros k i L g EK -> HA. fold kept in EK. pose proof (opened_valid _ _ _ _ _ _ _ _ O EK) as VL.
  assert (B : last L 0 + 1000001 < 4294967296) by (rewrite Forall_forall in HB; apply HB; eapply znth_In; eauto).
  destruct O as (_ & _ & _ & _ & G). destruct (G k L EK) as (s & Es & St & EG).
  unfold next_geq_body. rewrite EG. cbn [bind].
  destruct (c04_size mem _ L VL St) as (s' & Es' & _ & EC).
  rewrite Es in Es'. injection Es' as <-. rewrite EC. cbn [bind]. rewrite Z.eqb_refl. cbn [andb].
  set (next := fun (_ : unit) v => let! r := next_geq dbg mem s v in Ok (tt, r)).
  assert (NX : forall st v, 0 <= v < 4294967296 -> next st v = Ok (tt, spec_next_geq L v)).
  { intros st v Hv. unfold next. destruct (next_geq_ok dbg mem _ L v VL St Hv) as (s' & Es' & EN).
    rewrite Es in Es'. injection Es' as <-. now rewrite EN. }
  destruct (geq_loop_ok dbg next (fun _ _ => True) (collection u Ls) i L VL HA) with
    (fuel := Z.to_nat (u32 (last L 0 + 1))) (st := tt) (lb := 0) (g := true) as ([] & -> & _); auto;
    pose proof (valid_last L VL); try lia.
  { intros st lb Hlb _. exists tt. split; auto. apply NX. lia. }
  { rewrite u32_id by lia. lia. }
  cbn [bind]. destruct (beyond_100 next (fun _ _ => True) L fuel tt true) as ([] & ->); auto.
  { intros st lb Hlb _. exists tt. split; auto. rewrite NX by lia.
    rewrite spec_next_geq_none; auto. intros x Hx.
    pose proof (le_last L x (proj1 (proj2 VL)) Hx). lia. }
  cbn [bind]. eauto.
Qed.

(** ** next_geq_enumerator *)
(** the enumerator may be asked for [q] next *)
Definition ng_ask (mem S : list Z) (q : Z) (g : ng_enumerator) : Prop :=
  exists cs v0, ng_inv mem S g cs v0 /\ v0 <= q
    /\ (aligned mem (g_it g) cs \/ zlen cs <= 32 \/ exists ch r, cs = ch :: r /\ q / 65536 < fst ch + 32).

Lemma ng_step dbg mem S v g :
  valid S -> ng_ask mem S v g -> is_u32 v ->
  exists g', ng_next_geq dbg mem g v = Ok (g', spec_next_geq S v)
    /\ forall q, v <= q -> q / 65536 < spec_next_geq S v / 65536 + 32 -> ng_ask mem S q g'.
Proof.
  intros V (cs & v0 & I & Hv & HC) Hu.
  destruct (ng_next_geq_ok dbg mem S g cs v0 v V I Hv Hu HC) as (g' & cs' & E & I' & _ & _ & L).
  exists g'. split; auto. intros q Hq Hd. exists cs', v. split; auto. split; auto. right.
  destruct cs' as [|ch r]; [left; rewrite zlen_nil; lia|]. right. exists ch, r. split; auto.
  rewrite <- (L ch r eq_refl). exact Hd.
Qed.

Lemma test_next_geq_enumerator_ok fuel dbg params mem f u Ls ix :
  let kept := filter (keep params) Ls in Forall short Ls ->
  opened 0 mem f u kept ix -> Forall (fun L => last L 0 + 1000001 < 4294967296) kept -> (100 <= fuel)%nat ->
  test_next_geq_enumerator fuel dbg params mem f (collection u Ls) = Ok (zlen kept, true).
Proof.
  intros kept HSh O HB Hf. unfold test_next_geq_enumerator. rewrite (proj1 O). cbn [bind].
  change (vget (collection u Ls) 0) with (Ok 1). cbn [bind].
  rewrite assert_ok by reflexivity. cbn [bind].
  destruct (scan_collection (fun data => ng_body fuel dbg mem ix data) params u Ls
    (fun st => st = true) true HSh) as (g & E & ->); auto.
  intros k i L g EK -> HA. fold kept in EK. pose proof (opened_valid _ _ _ _ _ _ _ _ O EK) as VL.
  assert (B : last L 0 + 1000001 < 4294967296) by (rewrite Forall_forall in HB; apply HB; eapply znth_In; eauto).
  destruct O as (_ & _ & _ & _ & G). destruct (G k L EK) as (s & Es & St & EG).
  unfold ng_body. rewrite EG. cbn [bind].
  destruct (c04_size mem _ L VL St) as (s' & Es' & _ & EC).
  rewrite Es in Es'. injection Es' as <-. rewrite EC. cbn [bind]. rewrite Z.eqb_refl. cbn [andb].
  destruct (ng_init_ok mem _ L VL St) as (s' & e & Es' & EI & _ & I & A).
  rewrite Es in Es'. injection Es' as <-. rewrite EI. cbn [bind].
  pose proof (valid_last L VL) as LL.
  assert (LI : In (last L 0) L) by (apply last_In; apply VL).
  destruct (geq_loop_ok dbg (fun e v => ng_next_geq dbg mem e v) (fun q e => ng_ask mem L q e)
    (collection u Ls) i L VL HA) with
    (fuel := Z.to_nat (u32 (last L 0 + 1))) (st := e) (lb := 0) (g := true) as (e1 & -> & I1); try lia.
  { intros e1 lb Hlb I1. destruct (ng_step dbg mem L lb e1 VL I1) as (e2 & E2 & N2); [unfold is_u32; lia|].
    exists e2. split; auto. apply N2; [lia|].
    destruct (spec_next_geq_le L lb (last L 0) LI ltac:(lia)). lia. }
  { rewrite u32_id by lia. lia. }
  { exists (chunks_of L), 0. split; auto. split; [lia|auto]. }
  cbn [bind].
  destruct (beyond_100 (fun e v => ng_next_geq dbg mem e v)
    (fun q e => q < 4294967296 -> ng_ask mem L q e) L fuel e1 true) as (e2 & ->); auto.
  { intros e2 lb Hlb I2. destruct (ng_step dbg mem L lb e2 VL (I2 ltac:(lia))) as (e3 & E3 & N3); [unfold is_u32; lia|].
    assert (EN : spec_next_geq L lb = 4294967295).
    { apply spec_next_geq_none. intros x Hx. pose proof (le_last L x (proj1 (proj2 VL)) Hx). lia. }
    rewrite EN in *. exists e3. split; auto. intro Hq. apply N3; lia. }
  cbn [bind]. eauto.
Qed.

(** ** the arithmetic of the out-of-bound queries *)
Lemma geq_loop_false {A} dbg (next : A -> Z -> res (A * Z)) data i n universe : forall fuel st lb st' g,
  geq_loop fuel dbg next data i n universe st lb false = Ok (st', g) -> g = false.
Proof.
  induction fuel as [|fuel IH]; intros st lb st' g; cbn [geq_loop];
    (destruct (lb =? _); [intros [= _ <-]; reflexivity|]); [discriminate|].
  destruct (lower_bound _ _ _ _); try discriminate. cbn [bind].
  destruct (next st (u32 lb)) as [[? ?]| | | |]; try discriminate. cbn [bind].
  destruct (assert_ _ _); try discriminate. cbn [bind].
  destruct (vget data _); try discriminate. cbn [bind andb]. eauto.
Qed.
Lemma beyond_loop_false {A} (next : A -> Z -> res (A * Z)) universe : forall fuel st lb st' g,
  beyond_loop fuel next universe st lb false = Ok (st', g) -> g = false.
Proof.
  induction fuel as [|fuel IH]; intros st lb st' g; cbn [beyond_loop];
    (destruct (lb =? _); [intros [= _ <-]; reflexivity|]); [discriminate|].
  destruct (next st (u32 lb)) as [[? ?]| | | |]; try discriminate. cbn [bind andb]. eauto.
Qed.
Lemma next_geq_body_false fuel dbg mem ix data k i n universe g :
  next_geq_body fuel dbg mem ix data k i n universe false = Ok g -> g = false.
Proof.
  unfold next_geq_body. destruct (index_get dbg mem ix k); try discriminate. cbn [bind].
  destruct (cardinality mem a); try discriminate. cbn [bind andb].
  destruct (geq_loop _ _ _ _ _ _ _ _ _ _) as [[? g1]| | | |] eqn:E1; try discriminate. cbn [bind].
  apply geq_loop_false in E1. subst g1.
  destruct (beyond_loop _ _ _ _ _ _) as [[? g2]| | | |] eqn:E2; try discriminate. cbn [bind].
  apply beyond_loop_false in E2. congruence.
Qed.

Lemma beyond_wraps {A} (next : A -> Z -> res (A * Z)) L :
  valid L -> 4294967296 <= last L 0 + 1000001 ->
  (forall st v, is_u32 v -> exists st', next st v = Ok (st', spec_next_geq L v)) ->
  forall fuel st lb g st' g', last L 0 < lb < 4294967296 + 10000 ->
  beyond_loop fuel next (last L 0) st lb g = Ok (st', g') -> g' = false.
Proof.
  intros V HL HN. pose proof (valid_last L V) as VL.
  assert (ET : u32 (last L 0 + 1000000 + 1) = last L 0 + 1000001 - 4294967296)
    by (unfold u32; change (2 ^ 32) with 4294967296; lia).
  induction fuel as [|fuel IH]; intros st lb g st' g' Hlb; cbn [beyond_loop]; rewrite ET;
    destruct (Z.eqb_spec lb (last L 0 + 1000001 - 4294967296)); try lia; [discriminate|].
  destruct (HN st (u32 lb)) as (st1 & ->).
  { unfold is_u32, u32. change (2 ^ 32) with 4294967296. lia. }
  cbn [bind]. rewrite (u64_id (lb + 10000)) by lia.
  destruct (Z.lt_ge_cases lb 4294967296).
  - destruct (Z.lt_ge_cases (lb + 10000) (4294967296 + 10000)); [|lia]. apply IH. lia.
  - assert (Eu : u32 lb = lb - 4294967296) by (unfold u32; change (2 ^ 32) with 4294967296; lia).
    assert (LI : In (last L 0) L) by (apply last_In; apply V).
    destruct (spec_next_geq_le L (u32 lb) (last L 0) LI ltac:(lia)) as [_ HI].
    assert (HR : spec_next_geq L (u32 lb) <> not_found).
    { destruct V as (_ & _ & R). rewrite Forall_forall in R. specialize (R _ HI).
      unfold not_found. change (u32 (-1)) with 4294967295. lia. }
    apply Z.eqb_neq in HR. rewrite HR, andb_false_r. apply beyond_loop_false.
Qed.

Lemma test_next_geq_alarm fuel dbg params mem f u Ls ix L k :
  let kept := filter (keep params) Ls in Forall short Ls ->
  opened 0 mem f u kept ix -> In L kept -> 4294967296 <= last L 0 + 1000001 ->
  test_next_geq fuel dbg params mem f (collection u Ls) <> Ok (k, true).
Proof.
  intros kept HSh O HI HL. unfold test_next_geq. rewrite (proj1 O). cbn [bind].
  change (vget (collection u Ls) 0) with (Ok 1). cbn [bind].
  rewrite assert_ok by reflexivity. cbn [bind]. intro E.
  change 2 with (zlen [1; u]) in E.
  assert (true = false); [|discriminate].
  refine (scan_never params (fun data => next_geq_body fuel dbg mem ix data) (fun g => g = false)
    (collection u Ls) L _ Ls [1; u] _ 0 true k true eq_refl HSh _ (or_introl HI) E).
  - intros k0 i L0 st st' ->. apply next_geq_body_false.
  - intros j i st st' EK HA. rewrite Z.add_0_l. fold kept in EK.
    pose proof (opened_valid _ _ _ _ _ _ _ _ O EK) as VL.
    destruct O as (_ & _ & _ & _ & G). destruct (G j L EK) as (s & Es & St & EG).
    unfold next_geq_body. rewrite EG. cbn [bind].
    destruct (cardinality mem s); try discriminate. cbn [bind].
    set (next := fun (_ : unit) v => let! r := next_geq dbg mem s v in Ok (tt, r)).
    destruct (geq_loop _ _ _ _ _ _ _ _ _ _) as [[? g1]| | | |]; try discriminate. cbn [bind].
    destruct (beyond_loop _ _ _ _ _ _) as [[? g2]| | | |] eqn:E2; try discriminate. cbn [bind].
    intros [= <-]. revert E2. apply (beyond_wraps next L VL HL).
    + intros x v Hv. exists tt. unfold next.
      destruct (next_geq_ok dbg mem _ L v VL St Hv) as (s' & Es' & EN).
      rewrite Es in Es'. injection Es' as <-. now rewrite EN.
    + pose proof (valid_last L VL). rewrite u32_id; lia.
Qed.

(** ** uncompress *)
Lemma bitmap_loop_ext n : forall w w' i base buf pos size,
  (forall k, i <= k < i + Z.of_nat n -> w k = w' k) ->
  bitmap_loop n w i base buf pos size = bitmap_loop n w' i base buf pos size.
Proof.
  induction n as [|n IH]; intros w w' i base buf pos size H; cbn [bitmap_loop]; auto.
  rewrite (H i) by lia. destruct (w' i); auto. cbn [bind].
  destruct (word_loop _ _ _ _ _ _) as [[? ?]| | | |]; auto. cbn [bind]. apply IH. intros k Hk. apply H. lia.
Qed.

Lemma reset_loop_eq : forall (rest pre : list Z) base out size,
  reset_loop (length rest) (pre ++ rest) (zlen pre) base out size
  = let! (out, size) := bitmap_loop (length rest) (words_vec (pre ++ rest)) (zlen pre) base out 0 size in
    Ok (pre ++ repeat 0 (length rest), out, size).
Proof.
  induction rest as [|w rest IH]; intros pre base out size; cbn [length reset_loop bitmap_loop repeat]; auto.
  unfold words_vec at 1. destruct (vget _ _) as [x| | | |]; auto. cbn [bind].
  destruct (word_loop _ _ _ _ _ _) as [[out1 s1]| | | |]; auto. cbn [bind].
  assert (EV : vset (pre ++ w :: rest) (zlen pre) 0 = Ok ((pre ++ [0]) ++ rest)).
  { unfold vset, store. zpos.
    destruct (Z.leb_spec 0 (zlen pre)); [|lia].
    destruct (Z.leb_spec (zlen pre + zlen [0]) (zlen (pre ++ w :: rest))) as [_|HX]; [|zl].
    cbn [andb]. f_equal. replace (Z.to_nat (zlen pre)) with (length pre) by (unfold zlen; lia).
    replace (Z.to_nat (zlen pre + zlen [0])) with (length pre + 1)%nat by (unfold zlen; cbn [length]; lia).
    rewrite firstn_app, firstn_all, Nat.sub_diag. cbn [firstn]. rewrite app_nil_r.
    rewrite skipn_app, skipn_all2 by lia. replace (length pre + 1 - length pre)%nat with 1%nat by lia.
    cbn [skipn app]. rewrite <- app_assoc. reflexivity. }
  rewrite EV. cbn [bind].
  replace (zlen pre + 1) with (zlen (pre ++ [0])) by zl. rewrite IH.
  rewrite (bitmap_loop_ext (length rest) (words_vec (pre ++ w :: rest)) (words_vec ((pre ++ [0]) ++ rest))).
  2: { intros k Hk. rewrite zlen_app, zlen_cons, zlen_nil in Hk. unfold words_vec, vget.
       rewrite znth_app_r by lia. rewrite znth_cons_pos by lia. rewrite znth_app_r by zl.
       rewrite zlen_app, zlen_cons, zlen_nil.
       replace (k - zlen pre - 1) with (k - (zlen pre + (0 + 1))) by lia. reflexivity. }
  destruct (bitmap_loop _ _ _ _ _ _ _) as [[? ?]| | | |]; auto. cbn [bind]. rewrite <- app_assoc. reflexivity.
Qed.

Lemma decode_bitmap_and_reset_ok (n : nat) bitmap S out :
  zlen bitmap = Z.of_nat n -> bm_at (words_vec bitmap) (Z.of_nat n) (memb S) -> sorted S ->
  Forall (fun x => 0 <= x < 64 * Z.of_nat n) S -> 64 * Z.of_nat n <= 4294967296 -> zlen S < 4294967296 ->
  zlen S <= zlen out ->
  exists out', decode_bitmap_and_reset bitmap (Z.of_nat n) out = Ok (repeat 0 n, out', zlen S)
    /\ wrote 0 out 0 S out'.
Proof.
  intros Hn Hb HS HR H64 HL Ho. unfold decode_bitmap_and_reset. rewrite Nat2Z.id.
  assert (EL : n = length bitmap) by (unfold zlen in Hn; lia).
  subst n. pose proof (reset_loop_eq bitmap [] 0 out 0) as ER. cbn [app] in ER.
  change (zlen (@nil Z)) with 0 in ER. rewrite ER. clear ER. set (n := length bitmap) in *.
  assert (EF : filter (memb S) (zrange 0 (64 * n)) = S).
  { apply filter_memb; auto. eapply Forall_impl; [|exact HR]. cbn beta. intros. lia. }
  destruct (bitmap_loop_0 n (words_vec bitmap) (memb S) 0 out 0) as (out' & E & W); auto; try lia.
  { rewrite EF. lia. }
  rewrite EF in *. rewrite E. cbn [bind]. exists out'. rewrite u32_id by (pose proof (zlen_nonneg _ S); lia).
  split; auto. erewrite map_ext_in in W; [rewrite map_id in W; exact W|].
  intros x Hx. rewrite Forall_forall in HR. specialize (HR x Hx). cbn beta. rewrite Z.add_0_r, u32_id; auto. lia.
Qed.

Lemma bitmap_words_ok u : 0 <= u < 4294901760 -> bitmap_words u = 1024 * (u / 65536 + 1).
Proof.
  intro H. unfold bitmap_words, num_chunks. change chunk_size with 65536. rewrite (u32_id ((u + 65536) / 65536)) by lia.
  rewrite u32_id; lia.
Qed.
Lemma bitmap_words_wrap u : 4294901760 <= u < 4294967296 -> bitmap_words u = 0.
Proof.
  intro H. unfold bitmap_words, num_chunks. change chunk_size with 65536.
  replace ((u + 65536) / 65536) with 65536 by lia. reflexivity.
Qed.

Lemma zero_word_bits j : Z.testbit 0 j = false.
Proof. apply Z.testbit_0_l. Qed.

Lemma test_uncompress_ok dbg params mem f u Ls ix :
  let kept := filter (keep params) Ls in Forall short Ls ->
  opened 0 mem f u kept ix -> 0 <= u < 4294901760 ->
  Forall (fun L => last L 0 / 65536 <= u / 65536 /\ zlen L <= u) kept ->
  test_uncompress dbg params mem f (collection u Ls) = Ok (zlen kept, true).
Proof.
  intros kept HSh O Hu HB. unfold test_uncompress. rewrite (proj1 O). cbn [bind].
  change (vget (collection u Ls) 0) with (Ok 1). cbn [bind].
  rewrite assert_ok by reflexivity. cbn [bind].
  assert (EU : ix_universe ix = u) by apply O. rewrite EU.
  set (n := Z.to_nat (bitmap_words u)).
  assert (Hn : Z.of_nat n = 1024 * (u / 65536 + 1)) by (unfold n; rewrite bitmap_words_ok by lia; lia).
  destruct (scan_collection (fun data => uncompress_body dbg mem ix data) params u Ls
    (fun st => fst (fst st) = true /\ snd (fst st) = repeat 0 n /\ zlen (snd st) = u)
    (true, repeat 0 n, repeat 0 (Z.to_nat u)) HSh) as (((g & bm) & out) & E & Eg & _).
  - intros k i L ((g & bm) & out) EK (Eg & Em & El) HA. cbn [fst snd] in *. subst g bm. fold kept in EK.
    pose proof (opened_valid _ _ _ _ _ _ _ _ O EK) as VL.
    assert (B : last L 0 / 65536 <= u / 65536 /\ zlen L <= u)
      by (rewrite Forall_forall in HB; apply HB; eapply znth_In; eauto).
    destruct O as (_ & _ & _ & _ & G). destruct (G k L EK) as (s & Es & St & EG).
    unfold uncompress_body. rewrite EG. cbn [bind].
    assert (RV : forall v, In v L -> 0 <= v /\ v / 65536 <= u / 65536).
    { intros v Hv. pose proof (le_last L v (proj1 (proj2 VL)) Hv).
      destruct VL as (_ & _ & R). rewrite Forall_forall in R. specialize (R v Hv). lia. }
    destruct (c08_uncompress dbg mem _ L (repeat 0 n) 0 VL St) as (s' & bm' & Es' & EU' & LB & H1 & H2); try lia.
    { intros v Hv. rewrite zlen_repeat. specialize (RV v Hv). lia. }
    rewrite Es in Es'. injection Es' as <-. rewrite EU'. cbn [bind]. rewrite EU.
    rewrite zlen_repeat in LB.
    replace (bitmap_words u) with (Z.of_nat n) by (rewrite bitmap_words_ok by lia; exact Hn).
    destruct (decode_bitmap_and_reset_ok n bm' L out LB) as (out' & -> & W); try lia.
    + intros j Hj.
      destruct (existsb (fun v => v / 65536 =? j / 1024) L) eqn:EX.
      * apply existsb_exists in EX as (v & Hv & Ev). apply Z.eqb_eq in Ev.
        destruct (H1 j ltac:(lia)) as (w & Ew & Hw & Hb); [eauto|]. rewrite Z.add_0_l in Ew.
        exists w. split; [unfold words_vec; now apply vget_ok|]. split; [exact Hw|].
        intros b Hb'. specialize (Hb b Hb'). apply eq_true_iff_eq. rewrite Hb. symmetry. apply memb_In.
      * assert (NX : forall v, In v L -> v / 65536 <> j / 1024).
        { intros v Hv Ev. assert (X : existsb (fun v => v / 65536 =? j / 1024) L = true)
            by (apply existsb_exists; exists v; split; auto; now apply Z.eqb_eq). congruence. }
        specialize (H2 j (or_intror NX)). rewrite Z.add_0_l in H2. rewrite znth_repeat in H2 by lia.
        exists 0. split; [unfold words_vec; now apply vget_ok|]. split; [unfold w64; lia|].
        intros b Hb'. rewrite zero_word_bits. symmetry. apply memb_false. intro Hi.
        apply (NX _ Hi). lia.
    + apply VL.
    + rewrite Forall_forall. intros v Hv. specialize (RV v Hv). lia.
    + cbn [bind]. rewrite Z.eqb_refl. cbn [andb]. rewrite length_of_zlen, compare_loop_ok; auto.
      * cbn [bind]. eexists. split; [reflexivity|]. cbn [fst snd]. split; auto. split; auto.
        now rewrite (wrote_zlen _ _ _ _ _ W).
      * intros j Hj. destruct W as (_ & W & _). apply W. exact Hj.
  - cbn [fst snd]. split; [reflexivity|]. split; [reflexivity|]. rewrite zlen_repeat. lia.
  - cbn [fst snd] in Eg. subst g. rewrite E. reflexivity.
Qed.
