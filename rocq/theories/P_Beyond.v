(** Queries that name a list the index does not have. *)
From Verif Require Import Base Hw Spec Lib Format Shown Counts Room Holds Told Beyond Cut Layout M_Util M_Build M_Seq M_Decode
  M_Uncompress M_Query M_Intersect M_Union M_Many M_Index M_Print M_Calls M_Tests M_Drivers P_Ex P_Build1 P_Build2 P_Build3
  P_Seq P_Index P_Fin1 P_Fin4 P_Format P_Total P_Tests P_Tests2 P_Tests4 P_Tests5 P_Drivers P_Cut.
From Coq Require Import Lia Permutation.
Local Open Scope Z_scope.

(** ** one list *)
Lemma get_debug mem ix i : ix_size ix <= i -> index_get true mem ix i = Abort.
Proof.
  intro H. unfold index_get, assert_. destruct (Z.ltb_spec i (ix_size ix)); [lia|]. reflexivity.
Qed.
Lemma get_ok_below mem ix i s : index_get true mem ix i = Ok s -> i < ix_size ix.
Proof. intro E. destruct (Z.ltb_spec i (ix_size ix)); auto. rewrite get_debug in E by lia. discriminate. Qed.

Lemma cut_all mem : cut (zlen mem) mem = mem.
Proof. unfold cut, zlen. rewrite Nat2Z.id. apply firstn_all. Qed.
Lemma rd64_in mem a : wp (rd64 mem a) (fun _ => a + 8 <= zlen mem).
Proof.
  pose proof (rd64_cut (zlen mem) mem a) as H. rewrite cut_all in H. eapply wp_mono; [exact H|]. intros x [_ Hx]. exact Hx.
Qed.
Lemma seq_at_in mem a : wp (seq_at mem a) (fun _ => a + 2 <= zlen mem).
Proof. pose proof (seq_at_cut (zlen mem) mem a) as H. now rewrite cut_all in H. Qed.

Lemma get_release mem ix i : wp (index_get false mem ix i) (fun _ => True).
Proof.
  unfold index_get. cbn [assert_ bind andb]. eapply wp_seq; [apply rd64_in|]. intros o _. eapply wp_mono; [apply seq_at_in|]. auto.
Qed.

Lemma mapped_at mem f ix : index_mmap mem f = Ok ix -> exists size, rd64 mem f = Ok size
  /\ ix_offsets ix = f + 16 /\ ix_sequences ix = f + 16 + 8 * size.
Proof.
  unfold index_mmap. destruct (rd64 mem f) as [size| | | |]; try discriminate. cbn [bind].
  destruct (rd64 mem (f + 8)); try discriminate. cbn [bind]. intro E. exists size. split; auto.
  apply Ok_inj in E. subst ix. cbn [ix_offsets ix_sequences]. lia.
Qed.

(** the file of an index, and the 64-bit word behind its offsets *)
Lemma holds_index_file dbg params u Ls slack mem f : is_u32 u -> 0 <= slack -> Forall valid (kept_lists params Ls) ->
  holds_index dbg params u Ls slack mem f ->
  let Ks := kept_lists params Ls in
  0 <= f /\ bytes_at mem f (f_index u Ks) /\ f + zlen (f_index u Ks) + slack <= zlen mem /\ zlen mem <= 2 ^ 64
  /\ zlen (f_index u Ks) = 24 + 8 * zlen Ks + zlen (flat_map f_sequence Ks)
  /\ rd64 mem f = Ok (zlen Ks + 1) /\ rd64 mem (f + 16 + 8 * zlen Ks) = Ok (zlen (flat_map f_sequence Ks)).
Proof.
  intros Hu Hs V (HSh & st & o & q & E & Hf & HB & HL & HM) Ks.
  destruct (index_build_ok dbg params u Ls V HSh) as (st' & E' & _).
  change (filter (keep params) Ls) with Ks in E'. change (Forall valid Ks) in V. rewrite E in E'. apply Ok_inj in E'. injection E' as _ -> ->.
  rewrite (index_file_format u Ks V) in *.
  split; auto. split; auto. split; auto. split; auto.
  assert (EL : zlen (f_index u Ks) = 24 + 8 * zlen Ks + zlen (flat_map f_sequence Ks)).
  { rewrite <- (index_file_format u Ks V). unfold index_file. rewrite !zlen_app, !zlen_le_bytes, zlen_bytes_of_u64s.
    rewrite zlen_cons, zlen_starts, (lays_format Ks V). lia. }
  split; auto. rewrite EL in HL. rewrite <- (index_file_format u Ks V) in HB. unfold index_file in HB.
  rewrite zlen_cons, zlen_starts, (lays_format Ks V) in HB.
  rewrite !bytes_at_app, !zlen_le_bytes, zlen_bytes_of_u64s, zlen_cons, zlen_starts in HB.
  destruct HB as (B1 & _ & B2 & _). change (Z.of_nat 8) with 8 in *. pose proof (zlen_nonneg _ Ks).
  pose proof (zlen_nonneg _ (flat_map f_sequence Ks)). split.
  - apply rd64_at; auto. lia.
  - replace (f + 16 + 8 * zlen Ks) with (f + 8 + 8 * (zlen Ks + 1)) by lia. apply rd64_at; auto. lia.
Qed.

Lemma c57_next : forall dbg params u Ls mem f ix,
  is_u32 u -> Forall valid (kept_lists params Ls) -> holds_index dbg params u Ls 0 mem f ->
  let Ks := kept_lists params Ls in
  index_mmap mem f = Ok ix -> index_get false mem ix (zlen Ks) = seq_at mem (f + zlen (f_index u Ks)).
Proof.
  intros dbg params u Ls mem f ix Hu V H Ks EM.
  destruct (holds_index_file dbg params u Ls 0 mem f Hu ltac:(lia) V H) as (Hf & HB & HL & HM & EL & R1 & R2). fold Ks in R1, R2, EL.
  destruct (mapped_at mem f ix EM) as (size & Rs & Eo & Es). rewrite R1 in Rs. apply Ok_inj in Rs. subst size.
  unfold index_get. cbn [assert_ bind andb]. rewrite Eo, R2. cbn [bind]. f_equal. rewrite Es, EL. lia.
Qed.
Lemma c57_later : forall dbg params u Ls mem f ix i o,
  is_u32 u -> Forall valid (kept_lists params Ls) -> holds_index dbg params u Ls 0 mem f ->
  let Ks := kept_lists params Ls in
  index_mmap mem f = Ok ix -> rd64 mem (f + 16 + 8 * i) = Ok o ->
  index_get false mem ix i = seq_at mem (f + 24 + 8 * zlen Ks + o).
Proof.
  intros dbg params u Ls mem f ix i o Hu V H Ks EM R.
  destruct (holds_index_file dbg params u Ls 0 mem f Hu ltac:(lia) V H) as (Hf & HB & HL & HM & EL & R1 & R2). fold Ks in R1, R2, EL.
  destruct (mapped_at mem f ix EM) as (size & Rs & Eo & Es). rewrite R1 in Rs. apply Ok_inj in Rs. subst size.
  unfold index_get. cbn [assert_ bind andb]. rewrite Eo, R. cbn [bind]. f_equal. rewrite Es. lia.
Qed.
Lemma get_nowhere dbg params u Ls mem f ix i :
  is_u32 u -> Forall valid (kept_lists params Ls) -> holds_index dbg params u Ls 0 mem f ->
  index_mmap mem f = Ok ix -> nowhere mem f u (kept_lists params Ls) i -> index_get false mem ix i = UB.
Proof.
  intros Hu V H EM [[-> HL]|[Hi HL]].
  - rewrite (c57_next dbg params u Ls mem f ix Hu V H EM). eapply wp_ub; [apply seq_at_in|]. cbn beta. intros _. lia.
  - destruct (mapped_at mem f ix EM) as (size & Rs & Eo & Es).
    unfold index_get. cbn [assert_ bind andb]. rewrite Eo. eapply wp_ub with (P := fun _ => f + 24 + 8 * i <= zlen mem); [|intros; lia].
    eapply wp_seq; [apply rd64_in|]. intros o Ho. cbn beta in Ho. eapply wp_mono; [apply seq_at_in|]. intros _ _. cbn beta. lia.
Qed.

(** ** the programs in src/ *)
Lemma run_bad {Q A} (body : Q -> A -> res A) q rest (r : res A) : r = Abort \/ r = UB -> forall good st0 st,
  run_queries body good st0 = Ok st -> body q st = r -> run_queries body (good ++ q :: rest) st0 = r.
Proof.
  intros Hr. induction good as [|x good IH]; intros st0 st E HB; cbn [run_queries app] in *.
  - apply Ok_inj in E. subst st0. rewrite HB. destruct Hr as [-> | ->]; reflexivity.
  - destruct (body x st0) as [st1| | | |] eqn:E1; try discriminate. cbn [bind] in *. eapply IH; eauto.
Qed.
Lemma times_first {A} n (body : A -> res A) st0 x : times (S n) body st0 = Ok x -> exists st, body st0 = Ok st.
Proof. cbn [times]. destruct (body st0); try discriminate. eauto. Qed.
Lemma times_bad {A} n (body : A -> res A) st0 (r : res A) : r = Abort \/ r = UB -> body st0 = r -> times (S n) body st0 = r.
Proof. cbn [times]. intros Hr ->. destruct Hr as [-> | ->]; reflexivity. Qed.

(** the integers of [good] alone *)
Lemma good_read good : pairs_read (zlen good + 1) (flat_map (fun q => [fst q; snd q]) good) good.
Proof. exists []. rewrite app_nil_r. split; auto. right. zl. Qed.

(** a query that cannot be opened *)
Lemma bad_of {A} (r : res A) : wp r (fun _ => False) -> r = UB.
Proof. destruct r; cbn; easy. Qed.

Lemma c57_contains : forall dbg params u Ls mem f num input good q rest,
  is_u32 u -> Forall valid (kept_lists params Ls) -> holds_index dbg params u Ls 0 mem f ->
  let Ks := kept_lists params Ls in
  pairs_read num input (good ++ q :: rest) -> Forall (fun q => is_u32 (fst q) /\ is_u32 (snd q)) (good ++ q :: rest) ->
  positions Ks good ->
  (zlen Ks <= fst q -> contains_cpp true mem f num input = Abort)
  /\ (nowhere mem f u Ks (fst q) -> contains_cpp false mem f num input = UB).
Proof.
  intros dbg params u Ls mem f num input good q rest Hu V H Ks HR H32 HP.
  destruct (holds_opened dbg params u Ls 0 mem f Hu ltac:(lia) V H) as (ix & O). fold Ks in O.
  assert (X : forall d (r : res s_sequence), r = Abort \/ r = UB -> index_get d mem ix (fst q) = r ->
    contains_cpp d mem f num input = match r with Abort => Abort | _ => UB end).
  { intros d r Hr E. unfold contains_cpp, perf_contains. rewrite (pairs_read_ok _ _ _ HR H32), (proj1 O). cbn [bind].
    pose proof (contains_cpp_ok d mem f u Ks ix _ _ good O (good_read good) HP) as G.
    unfold contains_cpp, perf_contains in G. rewrite (pairs_read_ok _ _ _ (good_read good) (positions_u32 _ _ HP)), (proj1 O) in G.
    cbn [bind] in G. set (body := fun (q : Z * Z) (st : Z) => _) in *.
    destruct (times 4 (run_queries body good) 0) as [t| | | |] eqn:ET; try discriminate.
    apply times_first in ET as (st & ES).
    rewrite (times_bad 3 (run_queries body (good ++ q :: rest)) 0 (match r with Abort => Abort | _ => UB end)).
    - destruct Hr as [-> | ->]; reflexivity.
    - destruct Hr as [-> | ->]; auto.
    - eapply run_bad; [destruct Hr as [-> | ->]; auto|exact ES|]. unfold body. rewrite E. destruct Hr as [-> | ->]; reflexivity. }
  split.
  - intro HL. apply (X true Abort); auto. apply get_debug. rewrite (proj1 (proj2 O)). exact HL.
  - intro HN. apply (X false UB); auto. eapply get_nowhere; eauto. apply O.
Qed.

(** the first of two lists that cannot be opened decides *)
Lemma two_bad mem ix i j {A} (k : s_sequence -> s_sequence -> res A) :
  (ix_size ix <= i \/ (exists s, index_get true mem ix i = Ok s) /\ ix_size ix <= j ->
     (let! l := index_get true mem ix i in let! r := index_get true mem ix j in k l r) = Abort)
  /\ (index_get false mem ix i = UB \/ index_get false mem ix j = UB ->
     (let! l := index_get false mem ix i in let! r := index_get false mem ix j in k l r) = UB).
Proof.
  split.
  - intros [H|[(s & E) H]]; [now rewrite get_debug|]. rewrite E. cbn [bind]. now rewrite get_debug.
  - intros [E|E]; [now rewrite E|]. pose proof (get_release mem ix i) as W. rewrite E.
    destruct (index_get false mem ix i); cbn in W; try easy.
Qed.

Lemma named_or_beyond slack mem f u Ks ix i : opened slack mem f u Ks ix -> 0 <= i ->
  ix_size ix <= i \/ exists s, index_get true mem ix i = Ok s.
Proof.
  intros (_ & E & _ & _ & G) Hi. destruct (Z.ltb_spec i (zlen Ks)); [right|left; lia].
  destruct (znth_Some _ Ks i) as (S & ES); [lia|]. destruct (G i S ES) as (s & _ & _ & EG). eauto.
Qed.
Lemma two_open slack mem f u Ks ix q {A} (k : s_sequence -> s_sequence -> res A) :
  opened slack mem f u Ks ix -> is_u32 (fst q) -> zlen Ks <= fst q \/ zlen Ks <= snd q ->
  (let! l := index_get true mem ix (fst q) in let! r := index_get true mem ix (snd q) in k l r) = Abort.
Proof.
  intros O H0 H. pose proof (proj1 (proj2 O)) as E. apply two_bad. rewrite E.
  destruct (named_or_beyond slack mem f u Ks ix (fst q) O) as [B|G]; [unfold is_u32 in H0; lia|left; lia|].
  destruct H; [now left|right]. auto.
Qed.

Lemma c57_intersect : forall dbg tbl params u Ls mem f slack num input good q rest,
  is_u32 u -> Forall valid (kept_lists params Ls) -> holds_index dbg params u Ls slack mem f ->
  0 <= slack -> good = [] \/ 31 <= slack -> shuffle_table_ok tbl ->
  let Ks := kept_lists params Ls in
  pairs_read num input (good ++ q :: rest) -> Forall (fun q => is_u32 (fst q) /\ is_u32 (snd q)) (good ++ q :: rest) ->
  pairs_of Ks good -> Forall (fun q => common (list_of Ks (fst q)) (list_of Ks (snd q)) + 23 <= u) good ->
  (zlen Ks <= fst q \/ zlen Ks <= snd q -> intersect_cpp tbl true mem f num input = Abort)
  /\ (nowhere mem f u Ks (fst q) \/ nowhere mem f u Ks (snd q) -> intersect_cpp tbl false mem f num input = UB).
Proof.
  intros dbg tbl params u Ls mem f slack num input good q rest Hu V H Hs Hg Ht Ks HR H32 HP HF.
  destruct (holds_opened dbg params u Ls slack mem f Hu Hs V H) as (ix & O). fold Ks in O.
  assert (H0 : holds_index dbg params u Ls 0 mem f).
  { destruct H as (A & st & o & s & B & C & D & E & F). split; auto. exists st, o, s. do 3 (split; auto). split; auto. lia. }
  assert (Hq : is_u32 (fst q) /\ is_u32 (snd q)). { rewrite Forall_app in H32. destruct H32 as [_ H32]. now inversion H32. }
  unfold intersect_cpp, perf_intersection. rewrite (pairs_read_ok _ _ _ HR H32), (proj1 O). cbn [bind].
  assert (X : forall d (r : res (scratch * list Z * Z)), r = Abort \/ r = UB ->
    (forall A (k : s_sequence -> s_sequence -> res A),
       (let! l := index_get d mem ix (fst q) in let! r := index_get d mem ix (snd q) in k l r)
       = match r with Abort => Abort | _ => UB end) ->
    times 11 (run_queries (fun (q : Z * Z) st =>
      let '(sc, out, total) := (st : scratch * list Z * Z) in
      let! l := index_get d mem ix (fst q) in
      let! r := index_get d mem ix (snd q) in
      let! (sc, (out, size)) := run_call tbl d sc (CInter mem l r out 0) in
      Ok (sc, out, u64 (total + size))) (good ++ q :: rest)) (scratch0, repeat 0 (Z.to_nat (ix_universe ix)), 0) = r).
  { intros d r Hr E. set (body := fun (q : Z * Z) (st : scratch * list Z * Z) => _) in *.
    assert (ES : exists st, run_queries body good (scratch0, repeat 0 (Z.to_nat (ix_universe ix)), 0) = Ok st).
    { destruct Hg as [-> |Hg]; [eexists; reflexivity|].
    pose proof (opened_slack slack 31 _ _ _ _ _ O Hg) as O31.
    pose proof (intersect_cpp_ok tbl d mem f u Ks ix _ _ good Ht ltac:(unfold is_u32 in Hu; lia) O31 (good_read good) HP HF) as G.
    unfold intersect_cpp, perf_intersection in G. rewrite (pairs_read_ok _ _ _ (good_read good) (pairs_of_u32 _ _ HP)), (proj1 O) in G.
    cbn [bind] in G. change (fun (q : Z * Z) (st : scratch * list Z * Z) => _) with body in G.
    destruct (times 11 (run_queries body good) _) as [t| | | |] eqn:ET; try discriminate.
    eapply times_first, ET. }
    destruct ES as ([[sc out] t'] & ES). apply (times_bad 10); auto.
    eapply run_bad; [exact Hr|exact ES|]. unfold body. rewrite E. destruct Hr as [-> | ->]; reflexivity. }
  split; intro HN.
  - rewrite (X true Abort); auto. intros A k. eapply two_open; eauto. apply Hq.
  - rewrite (X false UB); auto. intros A k. apply two_bad. destruct HN; [left|right]; eapply get_nowhere; eauto; apply O.
Qed.
Lemma c57_union : forall dbg tbl params u Ls mem f slack num input good q rest,
  is_u32 u -> Forall valid (kept_lists params Ls) -> holds_index dbg params u Ls slack mem f ->
  0 <= slack -> good = [] \/ 31 <= slack ->
  let Ks := kept_lists params Ls in
  pairs_read num input (good ++ q :: rest) -> Forall (fun q => is_u32 (fst q) /\ is_u32 (snd q)) (good ++ q :: rest) ->
  pairs_of Ks good -> Forall (fun q => zlen (list_of Ks (fst q)) + zlen (list_of Ks (snd q)) - common (list_of Ks (fst q)) (list_of Ks (snd q)) + 23 <= u) good ->
  (zlen Ks <= fst q \/ zlen Ks <= snd q -> union_cpp tbl true mem f num input = Abort)
  /\ (nowhere mem f u Ks (fst q) \/ nowhere mem f u Ks (snd q) -> union_cpp tbl false mem f num input = UB).
Proof.
  intros dbg tbl params u Ls mem f slack num input good q rest Hu V H Hs Hg Ks HR H32 HP HF.
  destruct (holds_opened dbg params u Ls slack mem f Hu Hs V H) as (ix & O). fold Ks in O.
  assert (H0 : holds_index dbg params u Ls 0 mem f).
  { destruct H as (A & st & o & s & B & C & D & E & F). split; auto. exists st, o, s. do 3 (split; auto). split; auto. lia. }
  assert (Hq : is_u32 (fst q) /\ is_u32 (snd q)). { rewrite Forall_app in H32. destruct H32 as [_ H32]. now inversion H32. }
  unfold union_cpp, perf_union. rewrite (pairs_read_ok _ _ _ HR H32), (proj1 O). cbn [bind].
  assert (X : forall d (r : res (scratch * list Z * Z)), r = Abort \/ r = UB ->
    (forall A (k : s_sequence -> s_sequence -> res A),
       (let! l := index_get d mem ix (fst q) in let! r := index_get d mem ix (snd q) in k l r)
       = match r with Abort => Abort | _ => UB end) ->
    times 11 (run_queries (fun (q : Z * Z) st =>
      let '(sc, out, total) := (st : scratch * list Z * Z) in
      let! l := index_get d mem ix (fst q) in
      let! r := index_get d mem ix (snd q) in
      let! (sc, (out, size)) := run_call tbl d sc (CUnion mem l r out 0) in
      Ok (sc, out, u64 (total + size))) (good ++ q :: rest)) (scratch0, repeat 0 (Z.to_nat (ix_universe ix)), 0) = r).
  { intros d r Hr E. set (body := fun (q : Z * Z) (st : scratch * list Z * Z) => _) in *.
    assert (ES : exists st, run_queries body good (scratch0, repeat 0 (Z.to_nat (ix_universe ix)), 0) = Ok st).
    { destruct Hg as [-> |Hg]; [eexists; reflexivity|].
    pose proof (opened_slack slack 31 _ _ _ _ _ O Hg) as O31.
    pose proof (union_cpp_ok tbl d mem f u Ks ix _ _ good ltac:(unfold is_u32 in Hu; lia) O31 (good_read good) HP HF) as G.
    unfold union_cpp, perf_union in G. rewrite (pairs_read_ok _ _ _ (good_read good) (pairs_of_u32 _ _ HP)), (proj1 O) in G.
    cbn [bind] in G. change (fun (q : Z * Z) (st : scratch * list Z * Z) => _) with body in G.
    destruct (times 11 (run_queries body good) _) as [t| | | |] eqn:ET; try discriminate.
    eapply times_first, ET. }
    destruct ES as ([[sc out] t'] & ES). apply (times_bad 10); auto.
    eapply run_bad; [exact Hr|exact ES|]. unfold body. rewrite E. destruct Hr as [-> | ->]; reflexivity. }
  split; intro HN.
  - rewrite (X true Abort); auto. intros A k. eapply two_open; eauto. apply Hq.
  - rewrite (X false UB); auto. intros A k. apply two_bad. destruct HN; [left|right]; eapply get_nowhere; eauto; apply O.
Qed.

(** ** no sequences at all *)
Lemma c57_none : forall dbg mem headers tmp bitmap out pos,
  (forall seqs, sort_outcome mem [] seqs -> intersection_sorted dbg mem seqs headers tmp bitmap out pos = UB)
  /\ union_many dbg mem [] tmp bitmap out pos = UB.
Proof.
  intros dbg mem headers tmp bitmap out pos. split; [|reflexivity].
  intros seqs [HP _]. apply Permutation_nil in HP. subst seqs. reflexivity.
Qed.

(** ** the test programs *)
Lemma run_each {Q A} (body : Q -> A -> res A) (P : Q -> Prop) : (forall q st st', body q st = Ok st' -> P q) ->
  forall qs st st', run_queries body qs st = Ok st' -> Forall P qs.
Proof.
  intros H. induction qs as [|q qs IH]; intros st st' E; constructor; cbn [run_queries] in E;
    destruct (body q st) as [st1| | | |] eqn:E1; try discriminate; eauto.
Qed.
Lemma res_map_each {A B} (g : A -> res B) : forall l r, res_map g l = Ok r -> Forall (fun x => exists y, g x = Ok y) l.
Proof.
  induction l as [|x l IH]; intros r E; constructor; cbn [res_map] in E; destruct (g x) as [y| | | |] eqn:E1; try discriminate;
    eauto. cbn [bind] in E. destruct (res_map g l) as [ys| | | |] eqn:E2; try discriminate. eauto.
Qed.
Lemma bind_ok {A B} (r : res A) (k : A -> res B) y : bind r k = Ok y -> exists x, r = Ok x /\ k x = Ok y.
Proof. destruct r; try discriminate. eauto. Qed.

Lemma c57_tests : forall tbl sort mem f,
  (forall qs r, test_intersect tbl sort true mem f qs = Ok r ->
     exists ix, index_mmap mem f = Ok ix /\ Forall (fun q => fst q < ix_size ix /\ snd q < ix_size ix) qs)
  /\ (forall qs r, test_union tbl true mem f qs = Ok r ->
     exists ix, index_mmap mem f = Ok ix /\ Forall (fun q => fst q < ix_size ix /\ snd q < ix_size ix) qs)
  /\ (forall qs r, test_intersect_many tbl sort true mem f qs = Ok r ->
     exists ix, index_mmap mem f = Ok ix /\ Forall (fun q => 2 <= zlen q -> Forall (fun i => i < ix_size ix) q) qs)
  /\ (forall qs r, test_union_many tbl true mem f qs = Ok r ->
     exists ix, index_mmap mem f = Ok ix /\ Forall (fun q => 2 <= zlen q -> Forall (fun i => i < ix_size ix) q) qs).
Proof.
  intros tbl sort mem f.
  split; [|split; [|split]]; intros qs r E; apply bind_ok in E as (ix & EM & E); exists ix; (split; [exact EM|]);
    apply bind_ok in E as (st & E & _); (eapply run_each; [|exact E]); clear; intros q st st' E.
  - unfold intersect_query in E. apply bind_ok in E as (si & E1 & E). apply bind_ok in E as ([vi ni] & _ & E).
    apply bind_ok in E as (sj & E2 & E). split; eapply get_ok_below; eauto.
  - unfold union_query in E. apply bind_ok in E as (si & E1 & E). apply bind_ok in E as ([vi ni] & _ & E).
    apply bind_ok in E as (sj & E2 & E). split; eapply get_ok_below; eauto.
  - intro H2. unfold intersect_many_query in E. destruct st as [[[num good] sc] out].
    replace (zlen q <? 2) with false in E by (destruct (Z.ltb_spec (zlen q) 2); [lia|reflexivity]).
    apply bind_ok in E as (ls & E1 & _). apply res_map_each in E1. eapply Forall_impl; [|exact E1]. cbn beta.
    intros i (y & Ey). unfold collect in Ey. apply bind_ok in Ey as (s & Ey & _). eapply get_ok_below; eauto.
  - intro H2. unfold union_many_query in E. destruct st as [[[num good] sc] out].
    replace (zlen q <? 2) with false in E by (destruct (Z.ltb_spec (zlen q) 2); [lia|reflexivity]).
    apply bind_ok in E as (ls & E1 & _). apply res_map_each in E1. eapply Forall_impl; [|exact E1]. cbn beta.
    intros i (y & Ey). unfold collect in Ey. apply bind_ok in Ey as (s & Ey & _). eapply get_ok_below; eauto.
Qed.

(** ** an example: two lists; the offset read for list number 8 lies in a bitmap of the first one and happens to be 0 *)
Definition bx_lists : list (list Z) := [exA; []; [9]; exB].
Definition bx_mem : list Z := Eval vm_compute in file_of 200000 bx_lists.

Lemma holds_alone u Ls : (Forall short Ls /\ exists r, index_build true t_params (collection u Ls) = Ok r) ->
  zlen (file_of u Ls) <= 2 ^ 64 -> holds_index true t_params u Ls 0 (file_of u Ls) 0.
Proof.
  intros (HSh & [[st o] q] & E). unfold file_of. rewrite E. intro HM. split; auto. exists st, o, q. split; auto. split; [lia|].
  split; [|split; auto; lia]. intros i Hi. reflexivity.
Qed.
Lemma c57_ex : kept_lists t_params bx_lists = [exA; exB] /\ Forall valid [exA; exB]
  /\ holds_index true t_params 200000 bx_lists 0 bx_mem 0
  /\ nowhere bx_mem 0 200000 [exA; exB] 2 /\ nowhere bx_mem 0 200000 [exA; exB] 19
  /\ contains_cpp true bx_mem 0 9 [1; 20; 0; 7; 8; 7] = Abort
  /\ contains_cpp false bx_mem 0 9 [1; 20; 0; 7; 8; 7] = Ok (3, 4 * 3)
  /\ contains_cpp false bx_mem 0 9 [1; 20; 2; 7; 8; 7] = UB
  /\ contains_cpp false bx_mem 0 9 [1; 20; 19; 7; 8; 7] = UB
  /\ intersect_cpp ex_tbl true bx_mem 0 9 [2; 1] = Abort
  /\ intersect_cpp ex_tbl false bx_mem 0 9 [0; 2] = UB
  /\ union_cpp ex_tbl true bx_mem 0 9 [0; 8] = Abort.
Proof.
  split; [vm_compute; reflexivity|]. split; [constructor; [exact valid_A|constructor; [exact valid_B|constructor]]|].
  split.
  { replace bx_mem with (file_of 200000 bx_lists) by (vm_compute; reflexivity).
    apply holds_alone; [apply built_b; vm_compute; reflexivity|vm_compute; discriminate]. }
  split; [left; split; [reflexivity|]|].
  { assert (E : f_index 200000 [exA; exB] = bx_mem); [|rewrite E; vm_compute; discriminate].
    rewrite <- index_file_format; [vm_compute; reflexivity|]. constructor; [exact valid_A|constructor; [exact valid_B|constructor]]. }
  split; [right; split; [lia|vm_compute; reflexivity]|].
  repeat (split; [vm_compute; reflexivity|]). vm_compute; reflexivity.
Qed.
Lemma c57_release_refuted : exists dbg params u Ls mem f i v,
  holds_index dbg params u Ls 0 mem f /\ Forall valid (kept_lists params Ls) /\ is_u32 u
  /\ zlen (kept_lists params Ls) <= i /\ contains_cpp false mem f 1 [i; v] = Ok (1, 4).
Proof.
  exists true, t_params, 200000, bx_lists, bx_mem, 0, 8, 7. destruct c57_ex as (E & V & H & _). split; auto. rewrite E. split; auto.
  split; [unfold is_u32; lia|]. split; vm_compute; congruence.
Qed.
