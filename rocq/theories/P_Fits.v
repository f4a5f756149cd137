(** The programs in src/ and test/ on buffers of any size: exactly when they are defined. *)
From Verif Require Import Base Hw Spec Format Room RoomSets Holds Told Lib L_Bits L_Group Layout M_Util M_Build M_Seq M_Decode M_Uncompress
  M_Query M_Intersect M_Union M_Many M_Index M_Print M_Calls M_Tests M_Drivers P_Build1 P_Build2 P_Build3 P_Seq P_Decode
  P_Query P_NextGeq P_Sets P_Index P_Ex P_Fin1 P_Fin2 P_Fin3 P_Fin5 P_Tests P_Tests2 P_Short P_Tests4 P_Tests5 P_Room P_Laws
  P_Drivers P_RoomMany P_RoomInter P_RoomUnion P_RoomJoin P_RoomSets.
From Verif Require P_Stats.
From Coq Require Import Lia.

(** ** requirements are decidable *)
Lemma meet_fits_dec S T n : valid S -> valid T -> meet_fits S T n \/ ~ meet_fits S T n.
Proof.
  intros VS VT. destruct (fitsg_dec 65536 n (chunk_fits n) 0 (chunks_of S) (chunks_of T)) as [F|F].
  { intros. apply chunk_fits_dec. }
  - left. apply meet_fits_iff in F; auto. now rewrite Z.sub_0_r in F.
  - right. rewrite <- meet_fits_iff in F by auto. now rewrite Z.sub_0_r in F.
Qed.
Lemma join_fits_dec S T n : valid S -> valid T -> join_fits S T n \/ ~ join_fits S T n.
Proof. intros VS VT. rewrite <- (Z.sub_0_r n), (join_fits_iff S T n 0 VS VT). lia. Qed.

(** ** loops that succeed or stop in undefined behaviour *)
Lemma queries_or_ub {Q A} (good : Q -> Prop) (P : Z -> A -> Prop) (body : Q -> A -> res A) (g : Q -> Z) : forall qs,
  (forall q t st, In q qs -> P t st ->
     (good q /\ exists st', body q st = Ok st' /\ P (t + g q) st') \/ (~ good q /\ body q st = UB)) ->
  forall t st, P t st ->
    (Forall good qs /\ exists st', run_queries body qs st = Ok st' /\ P (t + total g qs) st')
    \/ (~ Forall good qs /\ run_queries body qs st = UB).
Proof.
  induction qs as [|q qs IH]; intros H t st HP; cbn [run_queries].
  - left. split; [constructor|]. exists st. split; auto. cbn. now rewrite Z.add_0_r.
  - destruct (H q t st ltac:(now left) HP) as [(G & st1 & -> & P1)|(G & ->)]; cbn [bind].
    + destruct (IH ltac:(intros; apply H; [now right|auto]) _ _ P1) as [(F & st2 & E & P2)|(F & E)].
      * left. split; [now constructor|]. exists st2. split; auto.
        change (total g (q :: qs)) with (g q + total g qs). now rewrite Z.add_assoc.
      * right. split; auto. intro X. apply F. now inversion X.
    + right. split; auto. intro X. apply G. now inversion X.
Qed.
Lemma times_or_ub {A} (good : Prop) (P : Z -> A -> Prop) (body : A -> res A) d :
  (forall t st, P t st -> (good /\ exists st', body st = Ok st' /\ P (t + d) st') \/ (~ good /\ body st = UB)) ->
  forall n t st, (0 < n)%nat -> P t st ->
    (good -> exists st', times n body st = Ok st' /\ P (t + Z.of_nat n * d) st')
    /\ (~ good -> times n body st = UB).
Proof.
  intros H n t st Hn HP. destruct (H t st HP) as [(G & _)|(G & E)].
  - split; [|easy]. intros _. apply times_sum; auto. intros t' st' HP'. destruct (H t' st' HP') as [(_ & X)|(X & _)]; [exact X|easy].
  - split; [easy|]. intros _. now apply times_ub.
Qed.
Lemma not_forall {Q} (good : Q -> Prop) qs : Exists (fun q => ~ good q) qs -> ~ Forall good qs.
Proof. intros X F. apply Exists_exists in X as (q & Hq & N). rewrite Forall_forall in F. auto. Qed.

(** ** intersect.cpp and union.cpp *)
Definition room_ok (u : Z) (t : Z) (st : scratch * list Z * Z) : Prop :=
  sized (fst (fst st)) /\ zlen (snd (fst st)) = u /\ snd st = u64 t.

Lemma intersect_cpp_exact tbl dbg mem f u Ks ix num input qs :
  shuffle_table_ok tbl -> 0 <= u -> opened 31 mem f u Ks ix -> pairs_read num input qs -> pairs_of Ks qs ->
  let good q := meet_fits (list_of Ks (fst q)) (list_of Ks (snd q)) u in
  (Forall good qs -> intersect_cpp tbl dbg mem f num input
     = Ok (zlen qs, 11 * total (fun q => common (list_of Ks (fst q)) (list_of Ks (snd q))) qs mod 2 ^ 64))
  /\ (Exists (fun q => ~ good q) qs -> intersect_cpp tbl dbg mem f num input = UB).
Proof.
  intros Ht Hu O HR HQ good. unfold intersect_cpp, perf_intersection. rewrite (pairs_read_ok _ _ _ HR (pairs_of_u32 _ _ HQ)).
  rewrite (proj1 O). cbn [bind]. rewrite (proj1 (proj2 (proj2 O))).
  set (g := fun q : Z * Z => common (list_of Ks (fst q)) (list_of Ks (snd q))).
  set (body := fun (q : Z * Z) (st : scratch * list Z * Z) => _).
  destruct (times_or_ub (Forall good qs) (room_ok u) (run_queries body qs) (total g qs)) with
    (n := 11%nat) (t := 0) (st := (scratch0, repeat 0 (Z.to_nat u), 0)) as [R1 R2].
  - apply queries_or_ub. intros q t [[sc out] t'] Hq (SZ & Lo & Et). cbn [fst snd] in *. subst t'.
    unfold pairs_of in HQ. rewrite Forall_forall in HQ. destruct (HQ q Hq) as ((S & ES) & (T & ET) & _ & _).
    unfold g, good. unfold list_of in *. rewrite ES, ET in *.
    pose proof (opened_valid _ _ _ _ _ _ _ _ O ES) as VS. pose proof (opened_valid _ _ _ _ _ _ _ _ O ET) as VT.
    destruct O as (O1 & O2 & O3 & O4 & G). destruct (G _ S ES) as (s1 & Es1 & StS & EG1).
    destruct (G _ T ET) as (s2 & Es2 & StT & EG2). unfold body. rewrite EG1, EG2. cbn [bind run_call].
    destruct (c42_intersection tbl mem _ _ S T Ht VS VT StS StT) as (s' & t' & e & Hs' & Ht' & En & HC).
    rewrite Es1 in Hs'. injection Hs' as <-. rewrite Es2 in Ht'. injection Ht' as <-.
    assert (e = isect S T) as -> by (apply isect_unique; [apply VS|apply En|apply En]).
    change (common S T) with (zlen (isect S T)) in *.
    destruct SZ as (Z1 & Z2 & Z3 & Z4 & Z5 & Z6 & Z7 & Z8).
    destruct (HC dbg (sc_inter sc) out 0) as [K1 K2]; try lia. rewrite Lo, Z.sub_0_r in K1, K2.
    destruct (meet_fits_dec S T u VS VT) as [F|F]; [left|right; split; auto; now rewrite (K2 F)].
    split; auto. destruct (K1 F) as (x' & o' & EC & Hx & W). rewrite EC.
    cbn [bind]. eexists. split; [reflexivity|]. unfold room_ok. cbn [fst snd]. split.
    { unfold sized. cbn [sc_inter sc_block sc_union sc_and sc_or sc_headers sc_ibitmap sc_ubitmap]. repeat split; auto. }
    split; [|apply u64_add]. rewrite (wrote_zlen _ _ _ _ _ W). lia.
  - lia.
  - unfold room_ok. cbn [fst snd]. split; [apply sized_scratch0|]. split; auto. rewrite zlen_repeat. lia.
  - split.
    + intro F. destruct (R1 F) as ([[sc out] t] & -> & _ & _ & Et). cbn [bind]. cbn [fst snd] in Et. rewrite Et. reflexivity.
    + intro X. rewrite (R2 (not_forall _ _ X)). reflexivity.
Qed.

(** uniting a sequence with itself takes another way *)
Definition unites (Ks : list (list Z)) (u : Z) (q : Z * Z) : Prop :=
  if fst q =? snd q then zlen (list_of Ks (fst q)) <= u
  else join_fits (list_of Ks (fst q)) (list_of Ks (snd q)) u.

Lemma lay_pos S : 0 < zlen (lay S).
Proof. unfold lay, layout. rewrite !zlen_app, zlen_le_bytes. zpos. lia. Qed.

(** one union of two lists of an index *)
Lemma opened_union dbg mem f u Ks ix q S T si sj :
  opened 31 mem f u Ks ix -> znth Ks (fst q) = Some S -> znth Ks (snd q) = Some T ->
  seq_at mem (addr Ks f (fst q)) = Ok si -> seq_at mem (addr Ks f (snd q)) = Ok sj ->
  forall x y out, zlen x = 4 -> zlen y = 1024 -> zlen out = u ->
    (unites Ks u q /\ exists x' y' out',
       pairwise_union dbg mem si sj x y out 0 = Ok (x', y', out', zlen (uni S T))
       /\ zlen x' = 4 /\ zlen y' = 1024 /\ wrote 23 out 0 (uni S T) out')
    \/ (~ unites Ks u q /\ pairwise_union dbg mem si sj x y out 0 = UB).
Proof.
  intros O ES ET Esi Esj x y out Lx Ly Lo. pose proof (zlen_nonneg _ out).
  pose proof (opened_valid _ _ _ _ _ _ _ _ O ES) as VS. pose proof (opened_valid _ _ _ _ _ _ _ _ O ET) as VT.
  destruct O as (O1 & O2 & O3 & O4 & G). destruct (G _ S ES) as (s1 & Es1 & StS & EG1).
  destruct (G _ T ET) as (s2 & Es2 & StT & EG2). unfold unites, list_of. rewrite ES, ET.
  destruct (Z.eqb_spec (fst q) (snd q)) as [E|N].
  - rewrite E in *. assert (S = T) by congruence. subst T. assert (sj = si) by congruence. subst sj.
    destruct (c42_union_self mem _ S VS StS) as (s' & Es' & HC). assert (s' = si) by congruence. subst s'.
    destruct (HC dbg x y out 0) as [K1 K2]; try lia. rewrite (uni_same S) by apply VS.
    destruct (Z.le_gt_cases (zlen S) u).
    + left. split; auto. apply K1. lia.
    + right. split; [lia|]. apply K2. lia.
  - assert (NA : addr Ks f (fst q) <> addr Ks f (snd q)).
    { pose proof (znth_lt _ _ _ _ ES). pose proof (znth_lt _ _ _ _ ET). rewrite Forall_forall in O4.
      assert (LS : 0 < zlen (lay S)) by apply lay_pos. assert (LT : 0 < zlen (lay T)) by apply lay_pos.
      unfold addr. destruct (Z.lt_ge_cases (fst q) (snd q)).
      - pose proof (zlen_lays_firstn Ks (fst q) (snd q) S ltac:(lia) ES). lia.
      - pose proof (zlen_lays_firstn Ks (snd q) (fst q) T ltac:(lia) ET). lia. }
    destruct (c42_union mem _ _ S T VS VT StS StT (addr_apart Ks f _ _ S T O4 ES ET) NA) as (s' & t' & e & Hs' & Ht' & En & HC).
    assert (s' = si) by congruence. assert (t' = sj) by congruence. subst s' t'.
    assert (e = uni S T) as -> by (apply uni_unique; [apply VS|apply VT|apply En|apply En]).
    destruct (HC dbg x y out 0) as [K1 K2]; try lia. rewrite Lo, Z.sub_0_r in K1, K2.
    destruct (join_fits_dec S T u VS VT) as [F|F]; [left|right]; auto.
Qed.

Lemma union_cpp_exact tbl dbg mem f u Ks ix num input qs :
  0 <= u -> opened 31 mem f u Ks ix -> pairs_read num input qs -> pairs_of Ks qs ->
  let size q := zlen (list_of Ks (fst q)) + zlen (list_of Ks (snd q)) - common (list_of Ks (fst q)) (list_of Ks (snd q)) in
  (Forall (unites Ks u) qs -> union_cpp tbl dbg mem f num input = Ok (zlen qs, 11 * total size qs mod 2 ^ 64))
  /\ (Exists (fun q => ~ unites Ks u q) qs -> union_cpp tbl dbg mem f num input = UB).
Proof.
  intros Hu O HR HQ g. unfold union_cpp, perf_union. rewrite (pairs_read_ok _ _ _ HR (pairs_of_u32 _ _ HQ)).
  rewrite (proj1 O). cbn [bind]. rewrite (proj1 (proj2 (proj2 O))).
  set (body := fun (q : Z * Z) (st : scratch * list Z * Z) => _).
  destruct (times_or_ub (Forall (unites Ks u) qs) (room_ok u) (run_queries body qs) (total g qs)) with
    (n := 11%nat) (t := 0) (st := (scratch0, repeat 0 (Z.to_nat u), 0)) as [R1 R2].
  - apply queries_or_ub. intros q t [[sc out] t'] Hq (SZ & Lo & Et). cbn [fst snd] in *. subst t'.
    unfold pairs_of in HQ. rewrite Forall_forall in HQ. destruct (HQ q Hq) as ((S & ES) & (T & ET) & _ & _).
    unfold g. unfold list_of. rewrite ES, ET.
    pose proof (opened_valid _ _ _ _ _ _ _ _ O ES) as VS. pose proof (opened_valid _ _ _ _ _ _ _ _ O ET) as VT.
    destruct (proj2 (proj2 (proj2 (proj2 O))) _ S ES) as (s1 & Es1 & StS & EG1).
    destruct (proj2 (proj2 (proj2 (proj2 O))) _ T ET) as (s2 & Es2 & StT & EG2).
    unfold body. rewrite EG1, EG2. cbn [bind run_call]. rewrite <- (zlen_uni S T VS VT).
    destruct SZ as (Z1 & Z2 & Z3 & Z4 & Z5 & Z6 & Z7 & Z8).
    destruct (opened_union dbg mem f u Ks ix q S T s1 s2 O ES ET Es1 Es2 (sc_block sc) (sc_union sc) out) as [(F & x' & y' & o' & EC & Hx & Hy & W)|(F & EC)]; auto.
    + left. split; auto. rewrite EC. cbn [bind]. eexists. split; [reflexivity|]. unfold room_ok. cbn [fst snd]. split.
      { unfold sized. cbn [sc_inter sc_block sc_union sc_and sc_or sc_headers sc_ibitmap sc_ubitmap]. repeat split; auto. }
      split; [|apply u64_add]. rewrite (wrote_zlen _ _ _ _ _ W). lia.
    + right. split; auto. rewrite EC. reflexivity.
  - lia.
  - unfold room_ok. cbn [fst snd]. split; [apply sized_scratch0|]. split; auto. rewrite zlen_repeat. lia.
  - split.
    + intro F. destruct (R1 F) as ([[sc out] t] & -> & _ & _ & Et). cbn [bind]. cbn [fst snd] in Et. rewrite Et. reflexivity.
    + intro X. rewrite (R2 (not_forall _ _ X)). reflexivity.
Qed.

(** ** the test programs over the lists *)
Lemma scan_or_ub {A} params (body : list Z -> Z -> Z -> Z -> Z -> A -> res A) (good : list Z -> Prop) (P : A -> Prop) (K : list (list Z)) data :
  (forall k i L st, znth K k = Some L -> P st -> list_at data (i + 1) L ->
     (good L /\ exists st', body data k i (zlen L) (last L 0) st = Ok st' /\ P st')
     \/ (~ good L /\ body data k i (zlen L) (last L 0) st = UB)) ->
  forall Ls pre fuel k st, data = pre ++ words Ls -> Forall short Ls ->
    0 <= k -> (forall j L, znth (filter (keep params) Ls) j = Some L -> znth K (k + j) = Some L) ->
    zlen (words Ls) <= Z.of_nat fuel -> P st ->
    (Forall good (filter (keep params) Ls) /\ exists st', scan fuel params data (body data) (zlen pre) k st
       = Ok (k + zlen (filter (keep params) Ls), st') /\ P st')
    \/ (~ Forall good (filter (keep params) Ls) /\ scan fuel params data (body data) (zlen pre) k st = UB).
Proof.
  intros HB. induction Ls as [|L Ls IH]; intros pre fuel k st E HSh Hk HK Hf HP.
  - left. cbn [filter]. split; auto. rewrite zlen_nil, Z.add_0_r. assert (data = pre) as <- by (rewrite E; apply app_nil_r).
    exists st. split; auto. apply scan_end.
  - assert (Hf' : zlen (words Ls) + zlen L + 1 <= Z.of_nat fuel).
    { revert Hf. unfold words. cbn [flat_map]. rewrite zlen_app, zlen_cons. lia. }
    zpos. destruct fuel as [|fuel]; [lia|].
    change (S fuel) with (1 + fuel)%nat. rewrite (scan_step params body data pre L Ls fuel k st E (Forall_inv HSh)).
    assert (E' : data = (pre ++ zlen L :: L) ++ words Ls) by (rewrite E, <- app_assoc; reflexivity).
    cbn [filter] in *. destruct (keep params L) eqn:EK.
    + assert (K0 : znth K k = Some L) by (rewrite <- (HK 0 L); [f_equal; lia|now rewrite znth_cons_0]).
      assert (AL : list_at data (zlen pre + 1) L) by exact (list_at_words body data pre L Ls E).
      destruct (HB k (zlen pre) L st K0 HP AL) as [(GL & st1 & E1 & P1)|(GL & E1)].
      2: { right. rewrite E1. split; auto. intro X. apply GL. now inversion X. }
      rewrite E1. cbn [bind].
      destruct (IH (pre ++ zlen L :: L) fuel (k + 1) st1 E' (Forall_inv_tail HSh)) as [(F2 & st2 & E2 & P2)|(F2 & E2)]; auto; try lia.
      { intros j L' Hj. pose proof (znth_lt _ _ _ _ Hj) as Hj'.
        replace (k + 1 + j) with (k + (j + 1)) by lia. apply HK.
        rewrite znth_cons_pos by lia. rewrite <- Hj. f_equal. lia. }
      * left. split; auto. exists st2. split; auto. rewrite E2, zlen_cons. f_equal. f_equal. lia.
      * right. split; auto. intro X. apply F2. now inversion X.
    + apply IH; auto; try lia. exact (Forall_inv_tail HSh).
Qed.
Lemma collection_or_ub {A} (body : list Z -> Z -> Z -> Z -> Z -> A -> res A) params u Ls (good : list Z -> Prop) (P : A -> Prop) st :
  Forall short Ls ->
  let data := collection u Ls in
  let kept := filter (keep params) Ls in
  (forall k i L st, znth kept k = Some L -> P st -> list_at data (i + 1) L ->
     (good L /\ exists st', body data k i (zlen L) (last L 0) st = Ok st' /\ P st')
     \/ (~ good L /\ body data k i (zlen L) (last L 0) st = UB)) ->
  P st ->
  (Forall good kept -> exists st', scan (length data) params data (body data) 2 0 st = Ok (zlen kept, st') /\ P st')
  /\ (Exists (fun L => ~ good L) kept -> scan (length data) params data (body data) 2 0 st = UB).
Proof.
  intros HSh data kept HB HP. change 2 with (zlen [1; u]).
  destruct (scan_or_ub params body good P kept data HB Ls [1; u] (length data) 0 st) as [(F & st' & E & P')|(F & E)];
    [reflexivity|exact HSh|lia|intros j L H; exact H| |exact HP| |].
  { unfold data, collection. fold (words Ls). unfold zlen. cbn [length]. lia. }
  - split; [intros _; exists st'; auto|]. intro X. apply not_forall in X. contradiction.
  - split; [contradiction|auto].
Qed.

Lemma test_decode_exact dbg params mem f u Ls ix :
  let kept := filter (keep params) Ls in Forall short Ls -> 0 <= u -> opened 31 mem f u kept ix ->
  (Forall (fun L => decode_fits L u) kept -> test_decode dbg params mem f (collection u Ls) = Ok (zlen kept, true))
  /\ (Exists (fun L => ~ decode_fits L u) kept -> test_decode dbg params mem f (collection u Ls) = UB).
Proof.
  intros kept HSh Hu O. unfold test_decode. rewrite (proj1 O). cbn [bind].
  change (vget (collection u Ls) 0) with (Ok 1). cbn [bind].
  rewrite assert_ok by reflexivity. cbn [bind].
  destruct (collection_or_ub (fun data => decode_body dbg mem ix data) params u Ls (fun L => decode_fits L u)
    (fun st => fst st = true /\ zlen (snd st) = u) (true, repeat 0 (Z.to_nat (ix_universe ix))) HSh) as [R1 R2].
  - intros k i L (g & out) EK (Eg & El) HA. cbn [fst snd] in *. subst g. fold kept in EK.
    pose proof (opened_valid _ _ _ _ _ _ _ _ O EK) as VL.
    destruct O as (_ & _ & _ & _ & G). destruct (G k L EK) as (s & Es & St & EG).
    unfold decode_body. rewrite EG. cbn [bind].
    destruct (c34_decode dbg mem _ L out 0 VL St) as (s' & Es' & D1 & D2); try lia.
    rewrite Es in Es'. injection Es' as <-. rewrite El, Z.sub_0_r in D1, D2.
    destruct (decode_fits_dec L u VL) as [F|F]; [left; split; auto|right; split; auto; now rewrite (D2 F)].
    destruct (D1 F) as (out' & ED & Lo & HO & _). rewrite ED. cbn [bind].
    destruct (c04_size mem _ L VL (stored_weaken _ 0 _ _ _ St ltac:(lia))) as (s' & Es' & _ & EC).
    rewrite Es in Es'. injection Es' as <-. rewrite EC. cbn [bind]. rewrite Z.eqb_refl. cbn [andb].
    rewrite length_of_zlen, compare_loop_ok; auto.
    cbn [bind]. eexists. split; [reflexivity|]. cbn [fst snd]. split; [auto|lia].
  - cbn [fst snd]. split; auto. destruct O as (_ & _ & -> & _). rewrite zlen_repeat. lia.
  - split.
    + intro F. destruct (R1 F) as ((g & out) & -> & Eg & _). cbn [fst] in Eg. subst g. reflexivity.
    + intro X. rewrite (R2 X). reflexivity.
Qed.

Lemma bitmap_and_reset_short (n : nat) bitmap S out :
  zlen bitmap = Z.of_nat n -> bm_at (words_vec bitmap) (Z.of_nat n) (memb S) -> sorted S ->
  Forall (fun x => 0 <= x < 64 * Z.of_nat n) S -> zlen out < zlen S ->
  decode_bitmap_and_reset bitmap (Z.of_nat n) out = UB.
Proof.
  intros Hn Hb HS HR Ho. unfold decode_bitmap_and_reset. rewrite Nat2Z.id.
  assert (EL : n = length bitmap) by (unfold zlen in Hn; lia).
  subst n. pose proof (reset_loop_eq bitmap [] 0 out 0) as ER. cbn [app] in ER.
  change (zlen (@nil Z)) with 0 in ER. rewrite ER. clear ER. set (n := length bitmap) in *.
  assert (EF : filter (memb S) (zrange 0 (64 * n)) = S).
  { apply filter_memb; auto. eapply Forall_impl; [|exact HR]. cbn beta. intros. lia. }
  pose proof (zlen_nonneg _ out). rewrite (bitmap_loop_short (words_vec bitmap) (memb S)); auto; try lia.
  - intros k H1 H2. apply Hb. lia.
  - change (64 * 0) with 0. rewrite EF. lia.
Qed.

Lemma test_uncompress_exact dbg params mem f u Ls ix :
  let kept := filter (keep params) Ls in Forall short Ls ->
  opened 0 mem f u kept ix -> 0 <= u < 4294901760 ->
  let good L := last L 0 / 65536 <= u / 65536 /\ zlen L <= u in
  (Forall good kept -> test_uncompress dbg params mem f (collection u Ls) = Ok (zlen kept, true))
  /\ (Exists (fun L => ~ good L) kept -> test_uncompress dbg params mem f (collection u Ls) = UB).
Proof.
  intros kept HSh O Hu good. unfold test_uncompress. rewrite (proj1 O). cbn [bind].
  change (vget (collection u Ls) 0) with (Ok 1). cbn [bind].
  rewrite assert_ok by reflexivity. cbn [bind].
  assert (EU : ix_universe ix = u) by apply O. rewrite EU.
  set (n := Z.to_nat (bitmap_words u)).
  assert (Hn : Z.of_nat n = 1024 * (u / 65536 + 1)) by (unfold n; rewrite bitmap_words_ok by lia; lia).
  clearbody n.
  destruct (collection_or_ub (fun data => uncompress_body dbg mem ix data) params u Ls good
    (fun st => fst (fst st) = true /\ snd (fst st) = repeat 0 n /\ zlen (snd st) = u)
    (true, repeat 0 n, repeat 0 (Z.to_nat u)) HSh) as [R1 R2].
  - intros k i L ((g & bm) & out) EK (Eg & Em & El) HA. cbn [fst snd] in *. subst g bm. fold kept in EK.
    pose proof (opened_valid _ _ _ _ _ _ _ _ O EK) as VL.
    destruct O as (_ & _ & _ & _ & G). destruct (G k L EK) as (s & Es & St & EG).
    unfold uncompress_body. rewrite EG. cbn [bind]. unfold good.
    destruct (Z.le_gt_cases (last L 0 / 65536) (u / 65536)) as [B|B].
    2: { right. split; [lia|]. destruct (c34_uncompress dbg mem _ L (repeat 0 n) 0 VL St) as (s' & Es' & _ & U); try lia.
         rewrite Es in Es'. injection Es' as <-. rewrite U; auto. unfold uncompress_fits. rewrite zlen_repeat. lia. }
    assert (RV : forall v, In v L -> 0 <= v /\ v / 65536 <= u / 65536).
    { intros v Hv. pose proof (le_last L v (proj1 (proj2 VL)) Hv).
      destruct VL as (_ & _ & R). rewrite Forall_forall in R. specialize (R v Hv). lia. }
    destruct (c08_uncompress dbg mem _ L (repeat 0 n) 0 VL St) as (s' & bm' & Es' & EU' & LB & H1 & H2); try lia.
    { intros v Hv. rewrite zlen_repeat. specialize (RV v Hv). lia. }
    rewrite Es in Es'. injection Es' as <-. rewrite EU'. cbn [bind]. rewrite EU.
    rewrite zlen_repeat in LB.
    replace (bitmap_words u) with (Z.of_nat n) by (rewrite bitmap_words_ok by lia; exact Hn).
    assert (BM : bm_at (words_vec bm') (Z.of_nat n) (memb L)).
    { intros j Hj.
      destruct (existsb (fun v => v / 65536 =? j / 1024) L) eqn:EX.
      * apply existsb_exists in EX as (v & Hv & Ev). apply Z.eqb_eq in Ev.
        destruct (H1 j ltac:(lia)) as (w & Ew & Hw & Hb); [eauto|]. rewrite Z.add_0_l in Ew.
        exists w. split; [unfold words_vec; now apply vget_ok|]. split; [exact Hw|].
        intros b Hb'. specialize (Hb b Hb'). apply eq_true_iff_eq. rewrite Hb. symmetry. apply memb_In.
      * assert (NX : forall v, In v L -> v / 65536 <> j / 1024).
        { intros v Hv Ev. assert (X : existsb (fun v => v / 65536 =? j / 1024) L = true)
            by (apply existsb_exists; exists v; split; auto; now apply Z.eqb_eq). congruence. }
        specialize (H2 j (or_intror NX)). rewrite Z.add_0_l in H2. rewrite znth_repeat in H2 by lia.
        exists 0. split; [unfold words_vec; now apply vget_ok|]. split; [unfold w64; lia|].
        intros b Hb'. rewrite zero_word_bits. symmetry. apply memb_false. intro Hi.
        apply (NX _ Hi). lia. }
    assert (RL : Forall (fun x => 0 <= x < 64 * Z.of_nat n) L)
      by (rewrite Forall_forall; intros v Hv; specialize (RV v Hv); lia).
    destruct (Z.le_gt_cases (zlen L) u) as [B'|B'].
    2: { right. split; [lia|]. rewrite (bitmap_and_reset_short n bm' L out LB BM); auto; [apply VL|lia]. }
    left. split; [auto|].
    destruct (decode_bitmap_and_reset_ok n bm' L out LB BM) as (out' & -> & W); try lia; [apply VL|auto|].
    cbn [bind]. rewrite Z.eqb_refl. cbn [andb]. rewrite length_of_zlen, compare_loop_ok; auto.
    + cbn [bind]. eexists. split; [reflexivity|]. cbn [fst snd]. split; auto. split; auto.
      now rewrite (wrote_zlen _ _ _ _ _ W).
    + intros j Hj. destruct W as (_ & W & _). apply W. exact Hj.
  - cbn [fst snd]. split; [reflexivity|]. split; [reflexivity|]. rewrite zlen_repeat. lia.
  - split.
    + intro F. destruct (R1 F) as (((g & bm) & out) & -> & Eg & _). cbn [fst] in Eg. subst g. reflexivity.
    + intro X. rewrite (R2 X). reflexivity.
Qed.

(** ** the test programs over queries *)
Lemma opened_decode_exact dbg mem f u kept ix i S buf :
  opened 31 mem f u kept ix -> znth kept i = Some S -> zlen buf = u ->
  exists s, seq_at mem (addr kept f i) = Ok s /\ index_get dbg mem ix i = Ok s
    /\ ((decode_fits S u /\ exists buf', decode dbg mem s buf 0 = Ok (buf', zlen S) /\ zlen buf' = u
          /\ firstn (Z.to_nat (zlen S)) buf' = S)
        \/ (~ decode_fits S u /\ decode dbg mem s buf 0 = UB)).
Proof.
  intros O E Hb. pose proof (opened_valid _ _ _ _ _ _ _ _ O E) as V.
  destruct O as (_ & _ & _ & _ & G). destruct (G i S E) as (s & Es & St & EG).
  pose proof (zlen_nonneg _ buf).
  destruct (c34_decode dbg mem _ S buf 0 V St) as (s' & Es' & D1 & D2); try lia.
  rewrite Es in Es'. injection Es' as <-. rewrite Hb, Z.sub_0_r in D1, D2. exists s. split; auto. split; auto.
  destruct (decode_fits_dec S u V) as [F|F]; [left|right; auto]. split; auto.
  destruct (D1 F) as (buf' & ED & Lb & HO & H0). exists buf'. split; auto. split; auto.
  rewrite length_of_zlen. apply (wrote_firstn 23 buf); [|destruct F; lia]. split; [lia|]. split; auto.
Qed.

Definition q_inv (u : Z) (st : qstate) : Prop :=
  q_good st = true /\ sized (q_sc st) /\ zlen (q_out st) = u /\ zlen (q_i st) = u /\ zlen (q_j st) = u
  /\ zlen (q_expected st) = u.
Definition both_decode (Ks : list (list Z)) (u : Z) (q : Z * Z) : Prop :=
  decode_fits (list_of Ks (fst q)) u /\ decode_fits (list_of Ks (snd q)) u.

Lemma intersect_query_exact tbl sort dbg mem f u kept ix q S T st :
  opened 31 mem f u kept ix -> sorts mem sort ->
  znth kept (fst q) = Some S -> znth kept (snd q) = Some T -> q_inv u st ->
  (both_decode kept u q /\ exists st', intersect_query tbl sort dbg mem ix q st = Ok st' /\ q_inv u st')
  \/ (~ both_decode kept u q /\ intersect_query tbl sort dbg mem ix q st = UB).
Proof.
  intros O HS ES ET (Gd & SZ & L1 & L2 & L3 & L4). unfold intersect_query, both_decode, list_of. rewrite ES, ET.
  pose proof (opened_valid _ _ _ _ _ _ _ _ O ES) as VS. pose proof (opened_valid _ _ _ _ _ _ _ _ O ET) as VT.
  destruct (opened_decode_exact dbg mem f u kept ix _ S (q_i st) O ES L2) as (si & Esi & -> & [(FS & vi & EDi & Li & Fi)|(FS & EDi)]).
  2: { right. split; [tauto|]. cbn [bind]. rewrite EDi. reflexivity. }
  cbn [bind]. rewrite EDi. cbn [bind].
  destruct (opened_decode_exact dbg mem f u kept ix _ T (q_j st) O ET L3) as (sj & Esj & -> & [(FT & vj & EDj & Lj & Fj)|(FT & EDj)]).
  2: { right. split; [tauto|]. cbn [bind]. rewrite EDj. reflexivity. }
  left. split; auto.
  cbn [bind]. rewrite EDj. cbn [bind]. rewrite Fi, Fj.
  pose proof (merge_and_enum S T (proj1 (proj2 VS)) (proj1 (proj2 VT))) as HE.
  set (e := merge_and S T) in *.
  assert (Le : zlen e <= zlen S).
  { unfold zlen. apply inj_le. apply NoDup_incl_length; [apply sorted_NoDup, HE|].
    intros v Hv. apply HE in Hv. tauto. }
  assert (Lu : zlen S <= u) by apply FS.
  destruct (store_at0 (q_expected st) e) as (ex & -> & WE); [lia|]. cbn [bind run_call].
  destruct O as (O1 & O2 & O3 & O4 & G). destruct (G _ S ES) as (s1 & Es1 & StS & _).
  destruct (G _ T ET) as (s2 & Es2 & StT & _).
  assert (O : opened 31 mem f u kept ix) by (split; auto).
  destruct (c13_intersection_many mem [addr kept f (fst q); addr kept f (snd q)] [S; T])
    as (seqs & e' & F2 & HE' & _ & HC).
  { discriminate. }
  { constructor; auto. }
  { constructor; [eapply stored_weaken; eauto; lia|]. constructor; [eapply stored_weaken; eauto; lia|constructor]. }
  assert (seqs = [si; sj]) as ->.
  { inversion F2 as [|? ? ? ? H1 H2]; subst. inversion H2 as [|? ? ? ? H3 H4]; subst. inversion H4; subst.
    congruence. }
  assert (e' = e) as ->.
  { eapply enumerates_unique; [exact HE'|]. split; [apply HE|]. intro v. rewrite (proj2 HE v). cbn [In]. split.
    - intros [H1 H2] R [<-|[<-|[]]]; auto.
    - intro H. split; apply H; auto. }
  assert (SO : sort_outcome mem [si; sj] (sort [si; sj])).
  { apply HS. intros s [<-|[<-|[]]]; eexists.
    - apply (opened_card mem f u kept ix 31 _ S si O ltac:(lia) ES Esi).
    - apply (opened_card mem f u kept ix 31 _ T sj O ltac:(lia) ET Esj). }
  destruct SZ as (Z1 & Z2 & Z3 & Z4 & Z5 & Z6 & Z7 & Z8).
  destruct (HC _ SO dbg (sc_headers (q_sc st)) (sc_and (q_sc st)) (sc_ibitmap (q_sc st)) (q_out st) 0)
    as (h' & t' & b' & o' & -> & Hh & Ht & Hb & W); try lia.
  cbn [bind]. rewrite Z.eqb_refl, andb_true_r, length_of_zlen, check_loop_ok by (eapply wrote_list_at; eauto).
  cbn [bind]. eexists. split; [reflexivity|]. unfold q_inv.
  cbn [q_good q_sc q_out q_i q_j q_expected]. split; [exact Gd|].
  split. { unfold sized. cbn [sc_inter sc_block sc_union sc_and sc_or sc_headers sc_ibitmap sc_ubitmap]. repeat split; auto. }
  rewrite (wrote_zlen _ _ _ _ _ W), (wrote_zlen _ _ _ _ _ WE). repeat split; lia.
Qed.

Lemma union_query_exact tbl dbg mem f u kept ix q S T st :
  opened 31 mem f u kept ix ->
  znth kept (fst q) = Some S -> znth kept (snd q) = Some T -> q_inv u st ->
  let good q := both_decode kept u q /\ unites kept u q in
  (good q /\ exists st', union_query tbl dbg mem ix q st = Ok st' /\ q_inv u st')
  \/ (~ good q /\ union_query tbl dbg mem ix q st = UB).
Proof.
  intros O ES ET (Gd & SZ & L1 & L2 & L3 & L4) good. unfold union_query, good, both_decode.
  assert (ELS : list_of kept (fst q) = S) by (unfold list_of; now rewrite ES).
  assert (ELT : list_of kept (snd q) = T) by (unfold list_of; now rewrite ET). rewrite ELS, ELT.
  pose proof (opened_valid _ _ _ _ _ _ _ _ O ES) as VS. pose proof (opened_valid _ _ _ _ _ _ _ _ O ET) as VT.
  destruct (opened_decode_exact dbg mem f u kept ix _ S (q_i st) O ES L2) as (si & Esi & -> & [(FS & vi & EDi & Li & Fi)|(FS & EDi)]).
  2: { right. split; [tauto|]. cbn [bind]. rewrite EDi. reflexivity. }
  cbn [bind]. rewrite EDi. cbn [bind].
  destruct (opened_decode_exact dbg mem f u kept ix _ T (q_j st) O ET L3) as (sj & Esj & -> & [(FT & vj & EDj & Lj & Fj)|(FT & EDj)]).
  2: { right. split; [tauto|]. cbn [bind]. rewrite EDj. reflexivity. }
  cbn [bind]. rewrite EDj. cbn [bind]. rewrite Fi, Fj.
  assert (merge_or S T = uni S T) as ->.
  { apply uni_unique; [apply VS|apply VT| |]; apply merge_or_enum; [apply VS|apply VT|apply VS|apply VT]. }
  destruct SZ as (Z1 & Z2 & Z3 & Z4 & Z5 & Z6 & Z7 & Z8).
  destruct (opened_union dbg mem f u kept ix q S T si sj O ES ET Esi Esj (sc_block (q_sc st)) (sc_union (q_sc st)) (q_out st))
    as [(F & x' & y' & o' & EC & Hx & Hy & W)|(F & EC)]; auto.
  2: { right. split; [tauto|]. unfold store. destruct (_ && _); cbn [bind run_call]; auto. now rewrite EC. }
  left. split; [tauto|].
  assert (zlen (uni S T) <= u) by (pose proof (wrote_bound _ _ _ _ _ W (zlen_nonneg _ _)); lia).
  destruct (store_at0 (q_expected st) (uni S T)) as (ex & -> & WE); [lia|]. cbn [bind run_call]. rewrite EC.
  cbn [bind]. rewrite Z.eqb_refl, andb_true_r, length_of_zlen, check_loop_ok by (eapply wrote_list_at; eauto).
  cbn [bind]. eexists. split; [reflexivity|]. unfold q_inv.
  cbn [q_good q_sc q_out q_i q_j q_expected]. split; [exact Gd|].
  split. { unfold sized. cbn [sc_inter sc_block sc_union sc_and sc_or sc_headers sc_ibitmap sc_ubitmap]. repeat split; auto. }
  rewrite (wrote_zlen _ _ _ _ _ W), (wrote_zlen _ _ _ _ _ WE). repeat split; lia.
Qed.

Lemma pair_positions {A} mem f u kept ix (good : Z * Z -> Prop) (body : Z * Z -> A -> res A) (P : A -> Prop) qs st :
  opened 31 mem f u kept ix -> pairs_of kept qs ->
  (forall q S T st, znth kept (fst q) = Some S -> znth kept (snd q) = Some T -> P st ->
     (good q /\ exists st', body q st = Ok st' /\ P st') \/ (~ good q /\ body q st = UB)) -> P st ->
  (Forall good qs -> exists st', run_queries body qs st = Ok st' /\ P st')
  /\ (Exists (fun q => ~ good q) qs -> run_queries body qs st = UB).
Proof.
  intros O HQ H HP. unfold pairs_of in HQ. rewrite Forall_forall in HQ.
  destruct (queries_or_ub good (fun _ st => P st) body (fun _ => 0) qs) with (t := 0) (st := st) as [(F & st' & E & P')|(F & E)]; auto.
  - intros q t st' Hq HP'. destruct (HQ q Hq) as ((S & ES) & (T & ET) & _). now apply (H q S T).
  - split; [intros _; exists st'; auto|]. intro X. apply not_forall in X. contradiction.
  - split; [contradiction|auto].
Qed.

Lemma test_intersect_exact tbl sort dbg mem f u kept ix queries :
  0 <= u -> opened 31 mem f u kept ix -> sorts mem sort -> pairs_of kept queries ->
  (Forall (both_decode kept u) queries -> test_intersect tbl sort dbg mem f queries = Ok (zlen queries, true))
  /\ (Exists (fun q => ~ both_decode kept u q) queries -> test_intersect tbl sort dbg mem f queries = UB).
Proof.
  intros Hu O HS HQ. unfold test_intersect. rewrite (proj1 O). cbn [bind].
  assert (EU : ix_universe ix = u) by apply O. rewrite EU.
  destruct (pair_positions mem f u kept ix (both_decode kept u) (intersect_query tbl sort dbg mem ix) (q_inv u) queries (qstate0 u) O HQ)
    as [R1 R2].
  - intros q S T st ES ET HI. now apply (intersect_query_exact tbl sort dbg mem f u kept ix q S T).
  - unfold q_inv, qstate0. cbn [q_good q_sc q_out q_i q_j q_expected]. rewrite zlen_repeat, Z2Nat.id by lia.
    split; [reflexivity|]. split; [apply sized_scratch0|]. auto.
  - split; intro F; [destruct (R1 F) as (st & -> & Hg & _); cbn [bind]; now rewrite Hg|now rewrite (R2 F)].
Qed.
Lemma test_union_exact tbl dbg mem f u kept ix queries :
  0 <= u -> opened 31 mem f u kept ix -> pairs_of kept queries ->
  let good q := both_decode kept u q /\ unites kept u q in
  (Forall good queries -> test_union tbl dbg mem f queries = Ok (zlen queries, true))
  /\ (Exists (fun q => ~ good q) queries -> test_union tbl dbg mem f queries = UB).
Proof.
  intros Hu O HQ good. unfold test_union. rewrite (proj1 O). cbn [bind].
  assert (EU : ix_universe ix = u) by apply O. rewrite EU.
  destruct (pair_positions mem f u kept ix good (union_query tbl dbg mem ix) (q_inv u) queries (qstate0 u) O HQ)
    as [R1 R2].
  - intros q S T st ES ET HI. now apply (union_query_exact tbl dbg mem f u kept ix q S T).
  - unfold q_inv, qstate0. cbn [q_good q_sc q_out q_i q_j q_expected]. rewrite zlen_repeat, Z2Nat.id by lia.
    split; [reflexivity|]. split; [apply sized_scratch0|]. auto.
  - split; intro F; [destruct (R1 F) as (st & -> & Hg & _); cbn [bind]; now rewrite Hg|now rewrite (R2 F)].
Qed.

(** a query of many positions whose result does not fit *)
Definition over_and (u : Z) (kept : list (list Z)) (q : list Z) : Prop :=
  big q = true /\ exists Ss e, names kept q Ss /\ enumerates (fun v => forall S, In S Ss -> In v S) e /\ u < zlen e.
Definition over_or (u : Z) (kept : list (list Z)) (q : list Z) : Prop :=
  big q = true /\ exists Ss e, names kept q Ss /\ enumerates (fun v => exists S, In S Ss /\ In v S) e /\ u < zlen e.

Lemma intersect_many_over tbl sort dbg mem f u kept ix q num st :
  opened 31 mem f u kept ix -> sorts mem sort -> over_and u kept q -> many_inv u num st ->
  intersect_many_query tbl sort dbg mem ix q st = UB.
Proof.
  intros O HS (EB & Ss & e & HN & HE & Le). destruct st as [[[n g] sc] out]. intros (-> & -> & SZ & LO). unfold intersect_many_query.
  unfold big in EB. destruct (Z.ltb_spec (zlen q) 2); [apply Z.leb_le in EB; lia|].
  rewrite (collects_ok dbg mem f u kept ix q Ss O HN). cbn [bind].
  destruct (gets_ok dbg mem f u kept ix q Ss O HN) as (seqs & EG & F1 & F2 & F3 & F4).
  assert (ES : exists S T R, Ss = S :: T :: R).
  { inversion HN as [|? S ? Ss1 H1 H2]; subst; [rewrite zlen_nil in *; lia|].
    inversion H2 as [|? T ? R H3 H4]; subst; [rewrite zlen_cons, zlen_nil in *; lia|]. eauto. }
  destruct ES as (S & T & R & ->). cbn [and_all bind].
  rewrite EG. cbn [bind run_call].
  destruct (c42_intersection_many mem (map (addr kept f) q) (S :: T :: R)) as (seqs' & e' & F2' & HE' & HC); auto.
  { discriminate. }
  assert (seqs' = seqs) as -> by (eapply seqs_unique; eauto).
  assert (e' = e) as -> by (eapply enumerates_unique; eauto).
  destruct SZ as (Z1 & Z2 & Z3 & Z4 & Z5 & Z6 & Z7 & Z8). pose proof (zlen_nonneg _ out).
  destruct (HC _ (HS seqs F3) dbg (sc_headers sc) (sc_and sc) (sc_ibitmap sc) out 0) as [_ ->]; auto; lia.
Qed.
Lemma union_many_over tbl dbg mem f u kept ix q num st :
  opened 31 mem f u kept ix -> over_or u kept q -> many_inv u num st ->
  union_many_query tbl dbg mem ix q st = UB.
Proof.
  intros O (EB & Ss & e & HN & HE & Le). destruct st as [[[n g] sc] out]. intros (-> & -> & SZ & LO). unfold union_many_query.
  unfold big in EB. destruct (Z.ltb_spec (zlen q) 2); [apply Z.leb_le in EB; lia|].
  rewrite (collects_ok dbg mem f u kept ix q Ss O HN). cbn [bind].
  destruct (gets_ok dbg mem f u kept ix q Ss O HN) as (seqs & EG & F1 & F2 & F3 & F4).
  rewrite EG. cbn [bind run_call].
  destruct (c42_union_many mem (map (addr kept f) q) Ss) as (seqs' & e' & F2' & HE' & HC); auto.
  { intros ->. inversion HN; subst. rewrite zlen_nil in *. lia. }
  assert (seqs' = seqs) as -> by (eapply seqs_unique; eauto).
  assert (e' = e) as -> by (eapply enumerates_unique; eauto).
  destruct SZ as (Z1 & Z2 & Z3 & Z4 & Z5 & Z6 & Z7 & Z8). pose proof (zlen_nonneg _ out).
  destruct (HC dbg (sc_or sc) (sc_ubitmap sc) out 0) as [_ ->]; auto; lia.
Qed.

Lemma run_many_over {A} (good bad : list Z -> Prop) (body : list Z -> A -> res A) (P : Z -> A -> Prop) : forall qs num st,
  (forall q num st, In q qs -> good q -> P num st ->
     exists st', body q st = Ok st' /\ P (num + (if big q then 1 else 0)) st') ->
  (forall q num st, In q qs -> bad q -> P num st -> body q st = UB) ->
  Forall (fun q => good q \/ bad q) qs -> Exists bad qs -> P num st -> run_queries body qs st = UB.
Proof.
  induction qs as [|q qs IH]; intros num st HG HB HF HX HP; [inversion HX|]. cbn [run_queries].
  inversion HF as [|? ? [G|B] HF']; subst.
  - destruct (HG q num st) as (st1 & E1 & P1); [now left|auto|auto|].
    inversion HX as [? ? B|? ? HX']; subst; [now rewrite (HB q num st ltac:(now left) B HP)|].
    rewrite E1. cbn [bind]. eapply IH; eauto; intros; [apply HG|eapply HB]; eauto; now right.
  - now rewrite (HB q num st ltac:(now left) B HP).
Qed.

Lemma test_intersect_many_over tbl sort dbg mem f u kept ix queries :
  0 <= u -> opened 31 mem f u kept ix -> sorts mem sort ->
  Forall (fun q => fits_and_all u kept q \/ over_and u kept q) queries -> Exists (over_and u kept) queries ->
  test_intersect_many tbl sort dbg mem f queries = UB.
Proof.
  intros Hu O HS HQ HX. unfold test_intersect_many. rewrite (proj1 O). cbn [bind].
  assert (EU : ix_universe ix = u) by apply O. rewrite EU.
  rewrite (run_many_over (fits_and_all u kept) (over_and u kept) (intersect_many_query tbl sort dbg mem ix) (many_inv u) queries 0); auto.
  - intros. eapply intersect_many_query_ok; eauto.
  - intros. eapply intersect_many_over; eauto.
  - cbn [many_inv]. split; auto. split; auto. split; [apply sized_scratch0|]. rewrite zlen_repeat. lia.
Qed.
Lemma test_union_many_over tbl dbg mem f u kept ix queries :
  0 <= u -> opened 31 mem f u kept ix ->
  Forall (fun q => fits_or_all u kept q \/ over_or u kept q) queries -> Exists (over_or u kept) queries ->
  test_union_many tbl dbg mem f queries = UB.
Proof.
  intros Hu O HQ HX. unfold test_union_many. rewrite (proj1 O). cbn [bind].
  assert (EU : ix_universe ix = u) by apply O. rewrite EU.
  rewrite (run_many_over (fits_or_all u kept) (over_or u kept) (union_many_query tbl dbg mem ix) (many_inv u) queries 0); auto.
  - intros. eapply union_many_query_ok; eauto.
  - intros. eapply union_many_over; eauto.
  - cbn [many_inv]. split; auto. split; auto. split; [apply sized_scratch0|]. rewrite zlen_repeat. lia.
Qed.

(** ** an index file in memory *)
Lemma c30_exact : forall dbg dbg' params u Ls mem f,
  is_u32 u -> Forall valid (kept_lists params Ls) -> holds_index dbg params u Ls 31 mem f ->
  let Ks := kept_lists params Ls in
  let data := collection u Ls in
  (Forall (fun L => decode_fits L u) Ks -> test_decode dbg' params mem f data = Ok (zlen Ks, true))
  /\ (Exists (fun L => ~ decode_fits L u) Ks -> test_decode dbg' params mem f data = UB)
  /\ (u < 2 ^ 32 - 65536 ->
        let good L := last L 0 / 65536 <= u / 65536 /\ zlen L <= u in
        (Forall good Ks -> test_uncompress dbg' params mem f data = Ok (zlen Ks, true))
        /\ (Exists (fun L => ~ good L) Ks -> test_uncompress dbg' params mem f data = UB)).
Proof.
  intros dbg dbg' params u Ls mem f Hu V H Ks data.
  destruct (holds_opened dbg params u Ls 31 mem f Hu ltac:(lia) V H) as (ix & O).
  pose proof (opened_slack 31 0 _ _ _ _ _ O ltac:(lia)) as O0.
  pose proof (proj1 H) as HSh. change (2 ^ 32) with 4294967296. unfold is_u32 in Hu.
  destruct (test_decode_exact dbg' params mem f u Ls ix HSh ltac:(lia) O) as [D1 D2].
  split; [exact D1|]. split; [exact D2|]. intros HU good.
  exact (test_uncompress_exact dbg' params mem f u Ls ix HSh O0 ltac:(lia)).
Qed.

Lemma c31_exact : forall dbg dbg' params u Ls mem f tbl sort,
  is_u32 u -> Forall valid (kept_lists params Ls) -> holds_index dbg params u Ls 31 mem f ->
  sorts_by_cardinality mem sort ->
  let Ks := kept_lists params Ls in
  let both q := decode_fits (list_of Ks (fst q)) u /\ decode_fits (list_of Ks (snd q)) u in
  let joins q := fst q = snd q \/ join_fits (list_of Ks (fst q)) (list_of Ks (snd q)) u in
  (forall queries, pairs_of Ks queries ->
     (Forall both queries -> test_intersect tbl sort dbg' mem f queries = Ok (zlen queries, true))
     /\ (Exists (fun q => ~ both q) queries -> test_intersect tbl sort dbg' mem f queries = UB)
     /\ (Forall (fun q => both q /\ joins q) queries -> test_union tbl dbg' mem f queries = Ok (zlen queries, true))
     /\ (Exists (fun q => ~ (both q /\ joins q)) queries -> test_union tbl dbg' mem f queries = UB))
  /\ (forall queries,
     Forall (fun q => exists Ss e, named Ks q Ss /\ enumerates (fun v => forall S, In S Ss -> In v S) e) queries ->
     Exists (fun q => 2 <= zlen q /\ exists Ss e, named Ks q Ss
       /\ enumerates (fun v => forall S, In S Ss -> In v S) e /\ u < zlen e) queries ->
     test_intersect_many tbl sort dbg' mem f queries = UB)
  /\ (forall queries,
     Forall (fun q => exists Ss e, named Ks q Ss /\ enumerates (fun v => exists S, In S Ss /\ In v S) e) queries ->
     Exists (fun q => 2 <= zlen q /\ exists Ss e, named Ks q Ss
       /\ enumerates (fun v => exists S, In S Ss /\ In v S) e /\ u < zlen e) queries ->
     test_union_many tbl dbg' mem f queries = UB).
Proof.
  intros dbg dbg' params u Ls mem f tbl sort Hu V H HS Ks both joins.
  destruct (holds_opened dbg params u Ls 31 mem f Hu ltac:(lia) V H) as (ix & O). fold Ks in O.
  assert (Hu0 : 0 <= u) by (unfold is_u32 in Hu; lia).
  assert (EQ : forall q, both_decode Ks u q /\ unites Ks u q <-> both q /\ joins q).
  { intro q. unfold both_decode, unites, both, joins. destruct (Z.eqb_spec (fst q) (snd q)) as [E|N]; [|tauto].
    split; [tauto|]. intros [B _]. split; [exact B|]. apply B. }
  split; [|split]; intros queries HQ.
  - destruct (test_intersect_exact tbl sort dbg' mem f u Ks ix queries Hu0 O HS HQ) as [I1 I2].
    destruct (test_union_exact tbl dbg' mem f u Ks ix queries Hu0 O HQ) as [U1 U2].
    split; [exact I1|]. split; [exact I2|]. split; intro F.
    + apply U1. eapply Forall_impl; [|exact F]. intros q. apply EQ.
    + apply U2. eapply Exists_impl; [|exact F]. intros q X Y. apply X. now apply EQ.
  - intro HX. apply (test_intersect_many_over tbl sort dbg' mem f u Ks ix); auto.
    + eapply Forall_impl; [|exact HQ]. cbn beta. intros q (Ss & e & N & E). unfold fits_and_all, over_and.
      destruct (big q) eqn:EB; [|left; discriminate]. destruct (Z.le_gt_cases (zlen e) u); [left|right; split; auto]; eauto.
    + eapply Exists_impl; [|exact HX]. cbn beta. intros q (B & Ss & e & N & E & L). split; [now apply Z.leb_le|]. eauto.
  - intro HX. apply (test_union_many_over tbl dbg' mem f u Ks ix); auto.
    + eapply Forall_impl; [|exact HQ]. cbn beta. intros q (Ss & e & N & E). unfold fits_or_all, over_or.
      destruct (big q) eqn:EB; [|left; discriminate]. destruct (Z.le_gt_cases (zlen e) u); [left|right; split; auto]; eauto.
    + eapply Exists_impl; [|exact HX]. cbn beta. intros q (B & Ss & e & N & E & L). split; [now apply Z.leb_le|]. eauto.
Qed.

Lemma c35_intersect_exact : forall dbg dbg' tbl params u Ls mem f num input qs,
  is_u32 u -> Forall valid (kept_lists params Ls) -> holds_index dbg params u Ls 31 mem f ->
  let Ks := kept_lists params Ls in
  shuffle_table_ok tbl -> pairs_read num input qs -> pairs_of Ks qs ->
  let size q := common (list_of Ks (fst q)) (list_of Ks (snd q)) in
  let fits q := meet_fits (list_of Ks (fst q)) (list_of Ks (snd q)) u in
  (Forall fits qs -> intersect_cpp tbl dbg' mem f num input = Ok (zlen qs, 11 * total size qs mod 2 ^ 64))
  /\ (Exists (fun q => ~ fits q) qs -> intersect_cpp tbl dbg' mem f num input = UB).
Proof.
  intros dbg dbg' tbl params u Ls mem f num input qs Hu V H Ks Ht HR HQ size fits.
  destruct (holds_opened dbg params u Ls 31 mem f Hu ltac:(lia) V H) as (ix & O).
  eapply intersect_cpp_exact; eauto. unfold is_u32 in Hu; lia.
Qed.
Lemma c35_union_exact : forall dbg dbg' tbl params u Ls mem f num input qs,
  is_u32 u -> Forall valid (kept_lists params Ls) -> holds_index dbg params u Ls 31 mem f ->
  let Ks := kept_lists params Ls in
  pairs_read num input qs -> pairs_of Ks qs ->
  let size q := zlen (list_of Ks (fst q)) + zlen (list_of Ks (snd q)) - common (list_of Ks (fst q)) (list_of Ks (snd q)) in
  let fits q := if fst q =? snd q then zlen (list_of Ks (fst q)) <= u
                else join_fits (list_of Ks (fst q)) (list_of Ks (snd q)) u in
  (Forall fits qs -> union_cpp tbl dbg' mem f num input = Ok (zlen qs, 11 * total size qs mod 2 ^ 64))
  /\ (Exists (fun q => ~ fits q) qs -> union_cpp tbl dbg' mem f num input = UB).
Proof.
  intros dbg dbg' tbl params u Ls mem f num input qs Hu V H Ks HR HQ size fits.
  destruct (holds_opened dbg params u Ls 31 mem f Hu ltac:(lia) V H) as (ix & O).
  eapply union_cpp_exact; eauto. unfold is_u32 in Hu; lia.
Qed.

(** ** the programs at the boundary *)
Definition fits_lists : list (list Z) := [[1; 2; 3]; [2; 3; 5]].
Definition fits_mem (u : Z) : list Z := file_of u fits_lists ++ repeat 0 (Z.to_nat 31).
Lemma c35_fits_ex :
  (forall u, In u [3; 7; 8; 11; 12; 13] -> holds_index true t_params u fits_lists 31 (fits_mem u) 0)
  /\ kept_lists t_params fits_lists = fits_lists /\ Forall valid fits_lists
  /\ decode_fits [1; 2; 3] 8 /\ ~ decode_fits [1; 2; 3] 7
  /\ meet_fits [1; 2; 3] [2; 3; 5] 8 /\ ~ meet_fits [1; 2; 3] [2; 3; 5] 7
  /\ join_fits [1; 2; 3] [2; 3; 5] 12 /\ ~ join_fits [1; 2; 3] [2; 3; 5] 11
  /\ (let d u := test_decode true t_params (fits_mem u) 0 (collection u fits_lists) in
      d 8 = Ok (2, true) /\ d 7 = UB)
  /\ (let d u := test_uncompress true t_params (fits_mem u) 0 (collection u fits_lists) in
      d 3 = Ok (2, true) /\ d 2 = UB)
  /\ (let d u := test_intersect ex_tbl (by_card (fits_mem u)) true (fits_mem u) 0 [(0, 1)] in
      d 8 = Ok (1, true) /\ d 7 = UB)
  /\ (let d u := test_union ex_tbl true (fits_mem u) 0 [(0, 1)] in d 12 = Ok (1, true) /\ d 11 = UB)
  /\ (let d u := test_union_many ex_tbl true (fits_mem u) 0 [[0; 1]] in d 4 = Ok (1, true) /\ d 3 = UB)
  /\ (let d u := test_intersect_many ex_tbl (by_card (fits_mem u)) true (fits_mem u) 0 [[0; 1]] in
      d 2 = Ok (1, true) /\ d 1 = UB)
  /\ (let d u := intersect_cpp ex_tbl true (fits_mem u) 0 1 [0; 1] in d 8 = Ok (1, 22) /\ d 7 = UB)
  /\ (let d u := union_cpp ex_tbl true (fits_mem u) 0 1 [0; 1] in d 12 = Ok (1, 44) /\ d 11 = UB)
  /\ (let d u := union_cpp ex_tbl true (fits_mem u) 0 1 [1; 1] in d 3 = Ok (1, 33) /\ d 2 = UB).
Proof.
  assert (V : Forall valid fits_lists) by (apply valid_all; vm_compute; reflexivity).
  pose proof (Forall_inv V) as V1. pose proof (Forall_inv (Forall_inv_tail V)) as V2.
  assert (H : forall u, In u [3; 7; 8; 11; 12; 13] -> holds_index true t_params u fits_lists 31 (fits_mem u) 0)
    by (intros u Hu; apply (holds_file u fits_lists []);
        [apply built_b|]; destruct Hu as [<-|[<-|[<-|[<-|[<-|[<-|[]]]]]]]; vm_compute; (reflexivity || discriminate)).
  split; [exact H|].
  split; [vm_compute; reflexivity|]. split; [exact V|].
  split; [apply decode_fits_iff; auto; vm_compute; congruence|].
  split; [rewrite decode_fits_iff by auto; vm_compute; congruence|].
  split.
  { destruct (meet_fits_dec [1; 2; 3] [2; 3; 5] 8 V1 V2) as [F|F]; [exact F|exfalso].
    assert (K : kept_lists t_params fits_lists = fits_lists) by (vm_compute; reflexivity).
    destruct (c35_intersect_exact true true ex_tbl t_params 8 fits_lists (fits_mem 8) 0 1 [0; 1] [(0, 1)]) as [_ U].
    - unfold is_u32. lia.
    - now rewrite K.
    - apply H. cbn [In]. auto.
    - exact ex_tbl_ok.
    - exists []. split; [reflexivity|]. left. split; reflexivity.
    - rewrite K. constructor; [|constructor]. cbn [fst snd]. split; [exists [1; 2; 3]; reflexivity|].
      split; [exists [2; 3; 5]; reflexivity|]. unfold is_u32. lia.
    - rewrite K in U. assert (X : intersect_cpp ex_tbl true (fits_mem 8) 0 1 [0; 1] = Ok (1, 22)) by (vm_compute; reflexivity).
      rewrite U in X; [discriminate X|]. constructor. exact F. }
  split.
  { intros (_ & B). destruct (B 0) as [H8 _].
    specialize (H8 ltac:(vm_compute; reflexivity) ltac:(vm_compute; reflexivity) ltac:(vm_compute; reflexivity)
      ltac:(vm_compute; reflexivity)). revert H8. vm_compute. congruence. }
  split; [rewrite <- (Z.sub_0_r 12), join_fits_iff by auto; vm_compute; congruence|].
  split; [rewrite <- (Z.sub_0_r 11), join_fits_iff by auto; vm_compute; congruence|].
  cbv beta zeta. repeat match goal with |- _ /\ _ => split end; vm_compute; reflexivity.
Qed.
