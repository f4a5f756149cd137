(** Proofs for C53: the texts of the test programs go with their verdicts. *)
From Coq Require Import Lia String.
From Verif Require Import Base Hw Spec Lib Layout M_Util M_Build M_Seq M_Decode M_Uncompress
  M_Query M_Union M_Many M_Index M_Print M_Calls M_Tests M_Text M_Out M_Say Outcome Holds Shown Typed Printed Report
  P_Total P_Out3 P_Say.
Local Open Scope Z_scope.

(** ** outcomes of the same kind *)
Definition same {A B} (R : A -> B -> Prop) (r : res A) (r' : res B) : Prop :=
  match r, r' with
  | Ok a, Ok b => R a b
  | Throw, Throw | Abort, Abort | UB, UB | Fuel, Fuel => True
  | _, _ => False
  end.
Lemma same_bind {A B C D} (R : A -> B -> Prop) (R' : C -> D -> Prop) r r' f g :
  same R r r' -> (forall a b, R a b -> same R' (f a) (g b)) -> same R' (bind r f) (bind r' g).
Proof. destruct r, r'; cbn [same bind]; intros H K; try contradiction; auto. Qed.
Lemma same_then {A C D} (R' : C -> D -> Prop) (r : res A) f g :
  (forall a, r = Ok a -> same R' (f a) (g a)) -> same R' (bind r f) (bind r g).
Proof. destruct r; cbn [same bind]; auto. Qed.
Lemma same_weaken {A B} (R R' : A -> B -> Prop) r r' :
  same R r r' -> (forall a b, R a b -> R' a b) -> same R' r r'.
Proof. destruct r, r'; cbn [same]; auto. Qed.

(** the log when nothing has been reported; [T] is what has been written else *)
Definition logged (T : list Z) (g : bool) (lg : log) : Prop := fst lg = g /\ (g = true -> snd lg = T).
Lemma logged_report T g lg b t : logged T g lg -> logged T (g && b) (report (negb b) t lg).
Proof.
  intros [E1 E2]. destruct b; cbn [negb report].
  - rewrite andb_true_r. now split.
  - rewrite andb_false_r. split; [reflexivity|discriminate].
Qed.
Lemma logged_tell T g lg l : logged T g lg -> logged (T ++ l) g (tell l lg).
Proof. intros [E1 E2]. split; [exact E1|]. intro H. cbn [tell snd]. now rewrite (E2 H). Qed.

Ltac sim := apply same_then; intros ? _.

(** ** the loops *)
Lemma compare_same T data out n : forall m p j g lg, logged T g lg ->
  same (fun g lg => logged T g lg) (compare_loop m data p out j g) (say_compare_loop m data p out j n lg).
Proof.
  induction m as [|m IH]; intros p j g lg H; cbn [compare_loop say_compare_loop]; [exact H|].
  sim. sim. apply IH. now apply logged_report.
Qed.
Lemma contains_same T dbg mem s data : forall m p g lg, logged T g lg ->
  same (fun g lg => logged T g lg) (contains_loop m dbg mem s data p g) (say_contains_loop m dbg mem s data p lg).
Proof.
  induction m as [|m IH]; intros p g lg H; cbn [contains_loop say_contains_loop]; [exact H|].
  sim. sim. apply IH. now apply logged_report.
Qed.
Lemma enumerator_same T dbg mem data n : forall m p j e g lg, logged T g lg ->
  same (fun x y => logged T (fst x) (fst y) /\ snd x = snd y)
    (enumerator_loop m dbg mem data p e g) (say_enumerator_loop m dbg mem data p j n e lg).
Proof.
  induction m as [|m IH]; intros p j e g lg H; cbn [enumerator_loop say_enumerator_loop]; [split; [exact H|reflexivity]|].
  sim. sim. sim. apply IH. now apply logged_report.
Qed.
Lemma select_same T dbg mem s data n : forall m p j v g lg, logged T g lg ->
  same (fun g lg => logged T g lg) (select_loop m dbg mem s data p j v g) (say_select_loop m dbg mem s data p j n v lg).
Proof.
  induction m as [|m IH]; intros p j v g lg H; cbn [select_loop say_select_loop]; [exact H|].
  sim. apply same_then. intros [b w] _. apply IH. now do 2 apply logged_report.
Qed.
Lemma geq_same {A} T dbg (next : A -> Z -> res (A * Z)) data i n universe : forall fuel st lb g lg, logged T g lg ->
  same (fun x y => fst x = fst y /\ logged T (snd x) (snd y))
    (geq_loop fuel dbg next data i n universe st lb g) (say_geq_loop fuel dbg next data i n universe st lb lg).
Proof.
  induction fuel as [|fuel IH]; intros st lb g lg H; cbn [geq_loop say_geq_loop];
    destruct (lb =? u32 (universe + 1)); try (split; [reflexivity|exact H]); [exact I|].
  sim. apply same_then. intros [st' r] _. sim. sim. apply IH. now apply logged_report.
Qed.
Lemma beyond_same {A} T (next : A -> Z -> res (A * Z)) universe : forall fuel st lb g lg, logged T g lg ->
  same (fun x y => fst x = fst y /\ logged T (snd x) (snd y))
    (beyond_loop fuel next universe st lb g) (say_beyond_loop fuel next universe st lb lg).
Proof.
  induction fuel as [|fuel IH]; intros st lb g lg H; cbn [beyond_loop say_beyond_loop];
    destruct (lb =? u32 (universe + 1000000 + 1)); try (split; [reflexivity|exact H]); [exact I|].
  apply same_then. intros [st' r] _. apply IH. now apply logged_report.
Qed.
Lemma check_same T expected out size : forall m j g lg, logged T g lg ->
  same (fun g lg => logged T g lg) (check_loop m expected out j g) (say_check_loop m expected out j size lg).
Proof.
  induction m as [|m IH]; intros j g lg H; cbn [check_loop say_check_loop]; [exact H|].
  sim. sim. apply IH. now apply logged_report.
Qed.

(** ** the programs reading a collection *)
Lemma scan_same {A B} (R : Z -> A -> B -> Prop) params data body body' :
  (forall k i n u st st', 0 <= k -> R k st st' -> same (R (k + 1)) (body k i n u st) (body' k i n u st')) ->
  forall fuel i k st st', 0 <= k -> R k st st' ->
  same (fun x y => fst x = fst y /\ 0 <= fst x /\ R (fst x) (snd x) (snd y))
    (scan fuel params data body i k st) (scan fuel params data body' i k st').
Proof.
  intro HB. induction fuel as [|fuel IH]; intros i k st st' Hk H; cbn [scan]; destruct (i <? zlen data);
    try (cbn [same fst snd]; auto).
  sim. sim. destruct (pass params _ _); [|now apply IH].
  eapply same_bind; [apply HB; eassumption|]. intros. apply IH; [lia|assumption].
Qed.

Fixpoint counts (verb : string) (n : nat) : list Z :=
  match n with
  | O => []
  | S m => counts verb m ++ (if Z.of_nat (S m) mod 1000 =? 0 then say_count verb (Z.of_nat (S m)) " sequences" else [])
  end.
Lemma count_line verb k things : say_count verb k things = ptext [] [[W verb; N k; W things]].
Proof. unfold say_count, ptext. cbn [flat_map]. rewrite app_nil_r. line. Qed.
Lemma zrange_snoc a n : zrange a (S n) = zrange a n ++ [a + Z.of_nat n].
Proof.
  revert a. induction n as [|n IH]; intro a.
  - cbn [zrange app]. now rewrite Z.add_0_r.
  - change (zrange a (S (S n))) with (a :: zrange (a + 1) (S n)). rewrite IH. cbn [zrange app]. do 3 f_equal. lia.
Qed.
Lemma counts_text verb n :
  counts verb n = ptext [] (map (fun i => [W verb; N (1000 * i); W " sequences"]) (zrange 1 (Z.to_nat (Z.of_nat n / 1000)))).
Proof.
  induction n as [|n IH]; [reflexivity|]. cbn [counts]. rewrite IH.
  destruct (Z.eqb_spec (Z.of_nat (S n) mod 1000) 0) as [E|E].
  - replace (Z.to_nat (Z.of_nat (S n) / 1000)) with (S (Z.to_nat (Z.of_nat n / 1000))) by lia.
    rewrite zrange_snoc, map_app, ptext_app. f_equal. cbn [map]. rewrite count_line.
    replace (1000 * (1 + Z.of_nat (Z.to_nat (Z.of_nat n / 1000)))) with (Z.of_nat (S n)) by lia. reflexivity.
  - rewrite app_nil_r. do 4 f_equal. lia.
Qed.

(** [U] is the first line *)
Definition at_count (verb : string) (U : list Z) (k : Z) : list Z := U ++ counts verb (Z.to_nat k).
Lemma counting_same {A B} (R : A -> B -> Prop) (good : A -> bool) verb U
    (body : Z -> Z -> Z -> Z -> A -> res A) (body' : Z -> Z -> Z -> Z -> B * log -> res (B * log)) :
  (forall T k i n u a b lg, R a b -> logged T (good a) lg ->
     same (fun x y => R x (fst y) /\ logged T (good x) (snd y)) (body k i n u a) (body' k i n u (b, lg))) ->
  forall k i n u a st, 0 <= k -> R a (fst st) /\ logged (at_count verb U k) (good a) (snd st) ->
  same (fun x y => R x (fst y) /\ logged (at_count verb U (k + 1)) (good x) (snd y))
    (body k i n u a) (counting verb body' k i n u st).
Proof.
  intros HB k i n u a (b & lg) Hk (HR & HL). cbn [fst snd] in *. unfold counting.
  replace (body k i n u a) with (bind (body k i n u a) Ok) by (now destruct (body k i n u a)).
  eapply same_bind; [eapply HB; eassumption|]. intros x (y & lg') (HR' & HL'). cbn [fst snd same] in *. split; [exact HR'|].
  unfold at_count. replace (Z.to_nat (k + 1)) with (S (Z.to_nat k)) by lia. cbn [counts].
  replace (Z.of_nat (S (Z.to_nat k))) with (k + 1) by lia.
  destruct ((k + 1) mod 1000 =? 0).
  - rewrite app_assoc. apply logged_tell. exact HL'.
  - rewrite app_nil_r. exact HL'.
Qed.

(** the verdict *)
Lemma universe_line u : say_universe u = ptext [] [[W "universe size: "; N u]].
Proof. unfold say_universe, ptext. cbn [flat_map]. rewrite app_nil_r. line. Qed.
Lemma good_line : codes "everything good" ++ endl = ptext [] [[W "everything good"]].
Proof. unfold ptext. cbn [flat_map]. rewrite app_nil_r. line. Qed.

Lemma le_bytes_val : forall bs, Forall is_byte bs -> le_bytes (length bs) (le_val bs) = bs.
Proof.
  induction bs as [|b bs IH]; intro H; [reflexivity|]. cbn [length le_bytes le_val].
  inversion H as [|? ? Hb Ht]; subst. unfold is_byte in Hb. 
  replace ((b + 256 * le_val bs) mod 256) with b by lia. replace ((b + 256 * le_val bs) / 256) with (le_val bs) by lia.
  now rewrite (IH Ht).
Qed.
Lemma rd64_bytes mem a v : Forall is_byte mem -> rd64 mem a = Ok v -> bytes_at mem a (le_bytes 8 v) /\ 0 <= v < 2 ^ 64.
Proof.
  intros HM E. unfold rd64, rd_le in E. destruct (rd_bytes mem a 8) as [bs| | | |] eqn:EB; try discriminate.
  cbn [bind] in E. injection E as <-.
  assert (HB : bytes_at mem a bs /\ length bs = 8%nat /\ Forall is_byte bs).
  { revert a bs EB. generalize 8%nat. intro n. induction n as [|n IH]; intros a bs EB; cbn [rd_bytes] in EB.
    - injection EB as <-. split; [apply bytes_at_nil|auto].
    - unfold rd8, vget in EB. destruct (znth mem a) as [b|] eqn:E0; try discriminate. cbn [bind] in EB.
      destruct (rd_bytes mem (a + 1) n) as [r| | | |] eqn:E1; try discriminate. cbn [bind] in EB. injection EB as <-.
      destruct (IH _ _ E1) as (H1 & H2 & H3). split; [|split].
      + apply bytes_at_cons. now split.
      + cbn [length]. now rewrite H2.
      + constructor; [|exact H3]. rewrite Forall_forall in HM. apply HM.
        unfold znth in E0. destruct (a <? 0); [discriminate|]. eapply nth_error_In; eauto. }
  destruct HB as (H1 & H2 & H3). pose proof (le_val_range bs H3) as H4.
  assert (zlen bs = 8) as L by (unfold zlen; now rewrite H2). rewrite L in H4.
  assert (le_bytes 8 (le_val bs) = bs) as -> by (rewrite <- H2; now apply le_bytes_val).
  split; [exact H1|]. exact H4.
Qed.

(** the universe of the index at [f] is a number of 64 bits *)
Definition plain_universe (mem : list Z) (f : Z) : Prop :=
  forall u, rd64 mem (f + 8) = Ok u -> bytes_at mem (f + 8) (le_bytes 8 u) /\ 0 <= u < 2 ^ 64.
Lemma bytes_plain mem f : Forall is_byte mem -> plain_universe mem f.
Proof. intros HM u. now apply rd64_bytes. Qed.

Lemma verdict_tells (clean : Z -> list (list piece) -> Prop) last_verb things k g lg T :
  logged T g lg -> 0 <= k ->
  (g = true -> exists ls, clean k ls /\ T = ptext [] ls /\ Forall (Forall nonneg) ls) ->
  tells clean last_verb things (Ok (verdict (say_count last_verb k things) lg)) (Ok (k, g)).
Proof.
  intros [E1 E2] Hk HC. unfold tells, verdict. rewrite E1.
  assert (NN : Forall (Forall nonneg) [[W last_verb; N k; W things]]).
  { repeat constructor. exact Hk. }
  destruct g.
  - destruct (HC eq_refl) as (ls & C & -> & F). exists ls. split; [exact C|]. rewrite (E2 eq_refl).
    rewrite good_line, count_line, <- !ptext_app. apply ptext_page. apply Forall_app. split; [exact F|].
    cbn [app]. inversion NN; subst. constructor; [assumption|]. repeat constructor.
  - exists (snd lg), (say_count last_verb k things). rewrite app_nil_r. split; [reflexivity|].
    rewrite count_line. now apply ptext_page.
Qed.

Lemma same_tells (clean : Z -> list (list piece) -> Prop) last_verb things (r : res (list Z)) s :
  same (fun kg t => tells clean last_verb things (Ok t) (Ok kg)) s r -> tells clean last_verb things r s.
Proof. destruct s as [(k & g)| | | |], r; cbn [same]; intro H; try contradiction; exact H. Qed.

Lemma scan_tells {A B} (R : A -> B -> Prop) (good : A -> bool) verb last_verb dbg params mem f data body body' init start fin :
  plain_universe mem f -> (forall k a, fin (k, a) = Ok (k, good a)) ->
  (forall ix T k i n u a b lg, R a b -> logged T (good a) lg ->
     same (fun x y => R x (fst y) /\ logged T (good x) (snd y)) (body ix k i n u a) (body' ix k i n u (b, lg))) ->
  (forall ix, R (init ix) (start ix) /\ good (init ix) = true) ->
  tells (clean_scan verb mem f) last_verb " sequences" (say_scan verb last_verb dbg params mem f data body' start)
    (let! ix := index_mmap mem f in
     let! d0 := vget data 0 in
     let! _ := assert_ dbg (d0 =? 1) in
     bind (scan (length data) params data (body ix) 2 0 (init ix)) fin).
Proof.
  intros HM HF HB HI. apply same_tells. unfold say_scan. apply same_then. intros ix Eix. sim. sim.
  eapply same_bind.
  - apply (scan_same (fun k x y => R x (fst y) /\ logged (at_count verb (say_universe (ix_universe ix)) k) (good x) (snd y))).
    + intros. apply (counting_same R good); auto.
    + lia.
    + cbn [fst snd]. destruct (HI ix) as [H1 ->]. split; [exact H1|]. split; [reflexivity|].
      intros _. cbn [snd]. unfold at_count. cbn [Z.to_nat counts]. now rewrite app_nil_r.
  - intros (k & x) (k' & y & lg) (E & Hk & HR & HL). cbn [fst snd] in *. subst k'. rewrite HF. cbn [same].
    eapply verdict_tells; [exact HL|exact Hk|]. intros _.
    assert (EU : rd64 mem (f + 8) = Ok (ix_universe ix)).
    { revert Eix. unfold index_mmap. destruct (rd64 mem f); try discriminate. cbn [bind].
      destruct (rd64 mem (f + 8)); try discriminate. cbn [bind]. intro H. injection H as <-. reflexivity. }
    destruct (HM _ EU) as [B1 B2].
    eexists. split; [exists (ix_universe ix); split; [exact B1|split; [exact B2|reflexivity]]|]. split.
    + unfold at_count. rewrite counts_text, universe_line. rewrite Z2Nat.id by lia. rewrite <- ptext_app. reflexivity.
    + constructor; [repeat constructor; apply B2|].
      apply Forall_forall. intros l Hl. apply in_map_iff in Hl as (i & <- & Hi).
      apply In_zrange in Hi.
      repeat constructor. cbn [nonneg]. lia.
Qed.

Section Scans.
Variables (dbg : bool) (params : parameters) (mem : list Z) (f : Z) (data : list Z).
Hypothesis HM : plain_universe mem f.

Lemma decode_tells : tells (clean_scan "decoded " mem f) "decoded " " sequences"
  (say_test_decode dbg params mem f data) (test_decode dbg params mem f data).
Proof.
  apply (scan_tells (fun (a : bool * list Z) b => snd a = b) fst "decoded " "decoded " dbg params mem f data
      (fun ix => decode_body dbg mem ix data) (say_decode_body dbg mem data)
      (fun ix => (true, repeat 0 (Z.to_nat (ix_universe ix)))) _ _ HM).
  - now intros k [].
  - intros ix T k i n u (g & out) b lg E HL. cbn [fst snd] in *. subst b. unfold decode_body, say_decode_body.
    sim. apply same_then. intros (o & d) _. sim.
    eapply same_bind; [apply compare_same; do 2 apply logged_report; exact HL|].
    intros. cbn [same fst snd]. now split.
  - intro ix. now split.
Qed.
Lemma uncompress_tells : tells (clean_scan "decoded " mem f) "uncompressed " " sequences"
  (say_test_uncompress dbg params mem f data) (test_uncompress dbg params mem f data).
Proof.
  apply (scan_tells (fun (a : bool * list Z * list Z) b => (snd (fst a), snd a) = b) (fun a => fst (fst a))
      "decoded " "uncompressed " dbg params mem f data
      (fun ix => uncompress_body dbg mem ix data) (say_uncompress_body dbg mem data)
      (fun ix => (true, repeat 0 (Z.to_nat (bitmap_words (ix_universe ix))), repeat 0 (Z.to_nat (ix_universe ix)))) _ _ HM).
  - now intros k [[? ?] ?].
  - intros ix T k i n u ((g & bitmap) & out) b lg E HL. cbn [fst snd] in *. subst b.
    unfold uncompress_body, say_uncompress_body.
    sim. apply same_then. intros (o & d) _. apply same_then. intros ((o' & d') & d'') _.
    eapply same_bind; [apply compare_same; do 2 apply logged_report; exact HL|].
    intros. cbn [same fst snd]. now split.
  - intro ix. now split.
Qed.
Lemma enumerator_tells : tells (clean_scan "decoded " mem f) "decoded " " sequences"
  (say_test_enumerator dbg params mem f data) (test_enumerator dbg params mem f data).
Proof.
  apply (scan_tells (fun (a : bool * list Z) b => snd a = b) fst "decoded " "decoded " dbg params mem f data
      (fun ix => enumerator_body dbg mem ix data) (say_enumerator_body dbg mem data)
      (fun ix => (true, enum_new_buf)) _ _ HM).
  - now intros k [].
  - intros ix T k i n u (g & out) b lg E HL. cbn [fst snd] in *. subst b. unfold enumerator_body, say_enumerator_body.
    sim. sim. eapply same_bind; [apply enumerator_same; exact HL|].
    intros (g' & e) (lg' & e') (H & E). cbn [same fst snd] in *. subst e'. now split.
  - intro ix. now split.
Qed.

Lemma bind_ok {A} (r : res A) : bind r Ok = r.
Proof. now destruct r. Qed.
Lemma bool_tells verb last_verb body body' :
  (forall ix T k i n u g lg, logged T g lg ->
     same (fun g y => logged T g (snd y)) (body ix k i n u g) (body' ix k i n u (tt, lg))) ->
  tells (clean_scan verb mem f) last_verb " sequences"
    (say_scan verb last_verb dbg params mem f data body' (fun _ => tt))
    (let! ix := index_mmap mem f in
     let! d0 := vget data 0 in
     let! _ := assert_ dbg (d0 =? 1) in
     scan (length data) params data (body ix) 2 0 true).
Proof.
  intro HB. pose proof (scan_tells (fun (_ : bool) (_ : unit) => True) (fun a => a) verb last_verb dbg params mem f data
    body body' (fun _ => true) (fun _ => tt) Ok HM) as H.
  assert (E : (let! ix := index_mmap mem f in
     let! d0 := vget data 0 in
     let! _ := assert_ dbg (d0 =? 1) in
     bind (scan (length data) params data (body ix) 2 0 true) Ok) = 
     (let! ix := index_mmap mem f in
     let! d0 := vget data 0 in
     let! _ := assert_ dbg (d0 =? 1) in
     scan (length data) params data (body ix) 2 0 true)).
  { destruct (index_mmap mem f); auto. cbn [bind]. destruct (vget data 0); auto. cbn [bind].
    destruct (assert_ dbg _); auto. cbn [bind]. apply bind_ok. }
  rewrite <- E. apply H; auto.
  intros ix T k i n u a [] lg _ HL. eapply same_weaken; [apply HB; exact HL|]. auto.
Qed.
Lemma contains_tells : tells (clean_scan "checked " mem f) "checked " " sequences"
  (say_test_contains dbg params mem f data) (test_contains dbg params mem f data).
Proof.
  apply (bool_tells "checked " "checked " (fun ix => contains_body dbg mem ix data)).
  intros ix T k i n u g lg HL. unfold contains_body, say_contains_body. sim. sim. rewrite <- (bind_ok (contains_loop _ _ _ _ _ _ _)).
  eapply same_bind; [apply contains_same, logged_report, HL|]. auto.
Qed.
Lemma select_tells : tells (clean_scan "checked " mem f) "checked " " sequences"
  (say_test_select dbg params mem f data) (test_select dbg params mem f data).
Proof.
  apply (bool_tells "checked " "checked " (fun ix => select_body dbg mem ix data)).
  intros ix T k i n u g lg HL. unfold select_body, say_select_body. sim. sim. rewrite <- (bind_ok (select_loop _ _ _ _ _ _ _ _ _)).
  eapply same_bind; [apply select_same, logged_report, HL|]. auto.
Qed.
Lemma next_geq_tells fuel : tells (clean_scan "checked " mem f) "checked " " sequences"
  (say_test_next_geq fuel dbg params mem f data) (test_next_geq fuel dbg params mem f data).
Proof.
  apply (bool_tells "checked " "checked " (fun ix => next_geq_body fuel dbg mem ix data)).
  intros ix T k i n u g lg HL. unfold next_geq_body, say_next_geq_body. sim. sim.
  eapply same_bind; [apply geq_same, logged_report, HL|]. intros (st & g1) (st' & lg1) (E & H1). cbn [fst snd] in *.
  eapply same_bind; [apply beyond_same, H1|]. intros (? & g2) (? & lg2) (_ & H2). exact H2.
Qed.
Lemma ng_tells fuel : tells (clean_scan "checked " mem f) "checked " " sequences"
  (say_test_next_geq_enumerator fuel dbg params mem f data) (test_next_geq_enumerator fuel dbg params mem f data).
Proof.
  apply (bool_tells "checked " "checked " (fun ix => ng_body fuel dbg mem ix data)).
  intros ix T k i n u g lg HL. unfold ng_body, say_ng_body. sim. sim. sim.
  eapply same_bind; [apply geq_same, logged_report, HL|]. intros (st & g1) (st' & lg1) (E & H1). cbn [fst snd] in *. subst st'.
  eapply same_bind; [apply beyond_same, H1|]. intros (? & g2) (? & lg2) (_ & H2). exact H2.
Qed.
End Scans.

(** ** the programs reading queries *)
Lemma queries_same {Q A B} (R : list Q -> A -> B -> Prop) body body' :
  (forall done q st st', R done st st' -> same (R (done ++ [q])) (body q st) (body' q st')) ->
  forall queries done st st', R done st st' ->
  same (R (done ++ queries)) (run_queries body queries st) (run_queries body' queries st').
Proof.
  intro HB. induction queries as [|q queries IH]; intros done st st' H; cbn [run_queries].
  - rewrite app_nil_r. exact H.
  - eapply same_bind; [apply HB; exact H|]. intros st1 st1' H1. change (q :: queries) with ([q] ++ queries).
    rewrite app_assoc. apply IH. exact H1.
Qed.

Definition alike (st : qstate) (st' : qstate * log) : Prop :=
  q_sc st = q_sc (fst st') /\ q_out st = q_out (fst st') /\ q_i st = q_i (fst st') /\ q_j st = q_j (fst st')
  /\ q_expected st = q_expected (fst st') /\ logged say_reading (q_good st) (snd st').

Lemma reading_line : say_reading = ptext [] [[W "reading queries..."]].
Proof. unfold say_reading, ptext. cbn [flat_map]. rewrite app_nil_r. line. Qed.

Lemma intersect_tells tbl sort dbg mem f queries :
  tells clean_pairs "tested " " queries" (say_test_intersect tbl sort dbg mem f queries)
    (test_intersect tbl sort dbg mem f queries).
Proof.
  apply same_tells. unfold say_test_intersect, test_intersect. apply same_then. intros ix _.
  eapply same_bind.
  - refine (queries_same (fun _ => alike) _ _ _ queries [] _ _ _).
    + intros _ q st (st' & lg) (E1 & E2 & E3 & E4 & E5 & HL). cbn [fst snd] in *. unfold intersect_query, say_intersect_query.
      rewrite E1, E2, E3, E4, E5.
      sim. apply same_then. intros (vi & si) _. sim. apply same_then. intros (vj & sj) _. sim.
      apply same_then. intros (sc & out & size) _.
      eapply same_bind; [apply check_same, logged_report, HL|]. intros g' lg' H. repeat split; auto; apply H.
    + repeat split; auto.
  - intros st (st' & lg) (_ & _ & _ & _ & _ & HL). cbn [snd] in HL. cbn [same].
    eapply verdict_tells; [exact HL|apply zlen_nonneg|]. intros _. eexists. split; [reflexivity|].
    split; [apply reading_line|]. repeat constructor.
Qed.
Lemma union_tells tbl dbg mem f queries :
  tells clean_pairs "tested " " queries" (say_test_union tbl dbg mem f queries) (test_union tbl dbg mem f queries).
Proof.
  apply same_tells. unfold say_test_union, test_union. apply same_then. intros ix _.
  eapply same_bind.
  - refine (queries_same (fun _ => alike) _ _ _ queries [] _ _ _).
    + intros _ q st (st' & lg) (E1 & E2 & E3 & E4 & E5 & HL). cbn [fst snd] in *. unfold union_query, say_union_query.
      rewrite E1, E2, E3, E4, E5.
      sim. apply same_then. intros (vi & si) _. sim. apply same_then. intros (vj & sj) _. sim.
      apply same_then. intros (sc & out & size) _.
      eapply same_bind; [apply check_same, logged_report, HL|]. intros g' lg' H. repeat split; auto; apply H.
    + repeat split; auto.
  - intros st (st' & lg) (_ & _ & _ & _ & _ & HL). cbn [snd] in HL. cbn [same].
    eapply verdict_tells; [exact HL|apply zlen_nonneg|]. intros _. eexists. split; [reflexivity|].
    split; [apply reading_line|]. repeat constructor.
Qed.

(** the sizes written while nothing was wrong are those the programs expect *)
Section Many.
Variables (verb : string) (expect : list Z -> res (list Z)).
Definition asked_sizes (done : list (list Z)) (sizes : list Z) : Prop :=
  Forall2 (fun q s => exists e, expect q = Ok e /\ s = zlen e) (filter (fun q => 2 <=? zlen q) done) sizes.
Definition many_text (sizes : list Z) : list Z := ptext [] (size_lines verb sizes).
Definition many_alike (done : list (list Z)) (st : Z * bool * scratch * list Z) (st' : Z * log * scratch * list Z) : Prop :=
  match st, st' with
  | (num, g, sc, out), (num', lg, sc', out') =>
      num = num' /\ sc = sc' /\ out = out' /\ fst lg = g /\ num = zlen (filter (fun q => 2 <=? zlen q) done)
      /\ (g = true -> exists sizes, asked_sizes done sizes /\ snd lg = many_text sizes)
  end.
Lemma many_next done q num g sc out num' lg sc' out' size expected g' lg' :
  many_alike done (num, g, sc, out) (num', lg, sc', out') -> 2 <= zlen q -> expect q = Ok expected ->
  (forall T, logged T g lg ->
     logged (T ++ say_count verb size "") g' lg') -> (g' = true -> g = true /\ zlen expected = size) -> forall out1 sc1,
  many_alike (done ++ [q]) (num + 1, g', sc1, out1) (num' + 1, lg', sc1, out1).
Proof.
  intros (-> & -> & -> & Eg & En & HS) Hq EE HL HG out1 sc1. cbn [many_alike].
  assert (EF : filter (fun q => 2 <=? zlen q) (done ++ [q]) = filter (fun q => 2 <=? zlen q) done ++ [q]).
  { rewrite filter_app. cbn [filter]. destruct (Z.leb_spec 2 (zlen q)); [reflexivity|lia]. }
  assert (H0 : logged (snd lg) g lg) by (now split).
  pose proof (HL (snd lg) H0) as [HL1 HL2].
  split; [reflexivity|]. split; [reflexivity|]. split; [reflexivity|]. split; [exact HL1|].
  split; [rewrite EF, zlen_app, En; reflexivity|].
  intro G. destruct (HG G) as [G0 Es]. destruct (HS G0) as (sizes & A & E). exists (sizes ++ [size]). split.
  - unfold asked_sizes. rewrite EF. apply Forall2_app; [exact A|]. constructor; [|constructor]. now exists expected.
  - rewrite (HL2 G), E. unfold many_text, size_lines. rewrite map_app, !app_comm_cons, ptext_app. f_equal.
    unfold say_count, ptext. cbn [map flat_map]. rewrite app_nil_r. line.
Qed.
Lemma many_skip done q st st' : many_alike done st st' -> zlen q < 2 -> many_alike (done ++ [q]) st st'.
Proof.
  destruct st as [[[num g] sc] out], st' as [[[num' lg] sc'] out']. cbn [many_alike]. intros H Hq.
  assert (EF : filter (fun q => 2 <=? zlen q) (done ++ [q]) = filter (fun q => 2 <=? zlen q) done).
  { rewrite filter_app. cbn [filter]. destruct (Z.leb_spec 2 (zlen q)); [lia|apply app_nil_r]. }
  unfold asked_sizes in *. rewrite EF. exact H.
Qed.
End Many.

Lemma check_good : forall m expected out j g, check_loop m expected out j g = Ok true -> g = true.
Proof.
  induction m as [|m IH]; intros expected out j g H; cbn [check_loop] in H; [congruence|].
  destruct (vget expected j); try discriminate. cbn [bind] in H. destruct (vget out j); try discriminate. cbn [bind] in H.
  apply IH in H. now apply andb_true_iff in H as [? _].
Qed.
Lemma same_bind_eq {A B C D} (R : A -> B -> Prop) (R' : C -> D -> Prop) r r' f g :
  same R r r' -> (forall a b, r = Ok a -> r' = Ok b -> R a b -> same R' (f a) (g b)) -> same R' (bind r f) (bind r' g).
Proof. destruct r, r'; cbn [same bind]; intros H K; try contradiction; auto. Qed.

Definition expect_and (dbg : bool) (mem : list Z) (ix : s_index) (q : list Z) : res (list Z) :=
  let! ls := res_map (collect dbg mem ix) q in and_all ls.
Definition expect_or (dbg : bool) (mem : list Z) (ix : s_index) (q : list Z) : res (list Z) :=
  let! ls := res_map (collect dbg mem ix) q in Ok (or_all ls).

Lemma intersect_many_same tbl sort dbg mem ix done q st st' :
  many_alike "intersection has size " (expect_and dbg mem ix) done st st' ->
  same (many_alike "intersection has size " (expect_and dbg mem ix) (done ++ [q]))
    (intersect_many_query tbl sort dbg mem ix q st) (say_intersect_many_query tbl sort dbg mem ix q st').
Proof.
  destruct st as [[[num g] sc] out], st' as [[[num' lg] sc'] out']. intro H.
  unfold intersect_many_query, say_intersect_many_query. destruct (Z.ltb_spec (zlen q) 2) as [Hq|Hq].
  - now apply many_skip.
  - assert (E : sc = sc' /\ out = out') by (cbn [many_alike] in H; tauto). destruct E as [E1 E2].
    subst sc' out'.
    apply same_then. intros ls Els. apply same_then. intros e Ee. apply same_then. intros seqs _.
    apply same_then. intros (sc1 & out1 & size) _.
    eapply same_bind_eq.
    { apply check_same with (T := snd lg ++ say_count "intersection has size " size ""). apply logged_report, logged_tell.
      split; [cbn [many_alike] in H; tauto|reflexivity]. }
    intros g' lg' EG _ HL. cbn [same].
    eapply (many_next _ _ done q num g sc out num' lg sc out size e); [exact H|exact Hq| | |].
    + unfold expect_and. rewrite Els. exact Ee.
    + intros T [HT1 HT2]. split; [apply HL|]. intro G. rewrite (proj2 HL G). rewrite G in EG. apply check_good in EG.
      apply andb_true_iff in EG as [G0 _]. now rewrite (HT2 G0).
    + intro G. rewrite G in EG. apply check_good in EG. apply andb_true_iff in EG as [G0 G1]. apply Z.eqb_eq in G1. now split.
Qed.
Lemma union_many_same tbl dbg mem ix done q st st' :
  many_alike "union has size " (expect_or dbg mem ix) done st st' ->
  same (many_alike "union has size " (expect_or dbg mem ix) (done ++ [q]))
    (union_many_query tbl dbg mem ix q st) (say_union_many_query tbl dbg mem ix q st').
Proof.
  destruct st as [[[num g] sc] out], st' as [[[num' lg] sc'] out']. intro H.
  unfold union_many_query, say_union_many_query. destruct (Z.ltb_spec (zlen q) 2) as [Hq|Hq].
  - now apply many_skip.
  - assert (E : sc = sc' /\ out = out') by (cbn [many_alike] in H; tauto). destruct E as [E1 E2].
    subst sc' out'.
    apply same_then. intros ls Els. apply same_then. intros seqs _.
    apply same_then. intros (sc1 & out1 & size) _.
    eapply same_bind_eq.
    { apply check_same with (T := snd lg ++ say_count "union has size " size ""). apply logged_report, logged_tell.
      split; [cbn [many_alike] in H; tauto|reflexivity]. }
    intros g' lg' EG _ HL. cbn [same].
    eapply (many_next _ _ done q num g sc out num' lg sc out size (or_all ls)); [exact H|exact Hq| | |].
    + unfold expect_or. rewrite Els. reflexivity.
    + intros T [HT1 HT2]. split; [apply HL|]. intro G. rewrite (proj2 HL G). rewrite G in EG. apply check_good in EG.
      apply andb_true_iff in EG as [G0 _]. now rewrite (HT2 G0).
    + intro G. rewrite G in EG. apply check_good in EG. apply andb_true_iff in EG as [G0 G1]. apply Z.eqb_eq in G1. now split.
Qed.

(** the sizes are those which the test expects *)
Definition clean_asked verb mem f (expect : s_index -> list Z -> res (list Z)) (queries : list (list Z)) (k : Z)
    (ls : list (list piece)) : Prop :=
  k = zlen (filter (fun q => 2 <=? zlen q) queries)
  /\ exists ix sizes, index_mmap mem f = Ok ix /\ asked_sizes (expect ix) queries sizes /\ ls = size_lines verb sizes.

Lemma sizes_nonneg expect queries sizes verb : asked_sizes expect queries sizes ->
  Forall (Forall nonneg) (size_lines verb sizes).
Proof.
  intro H. unfold size_lines. do 2 (constructor; [repeat constructor|]). unfold asked_sizes in H.
  induction H as [|q s qs sizes (e & _ & ->) _ IH]; [constructor|]. cbn [map]. constructor; [|exact IH].
  repeat constructor. cbn [nonneg]. apply zlen_nonneg.
Qed.
Lemma many_start verb expect :
  snd (true, say_reading ++ codes "running test..." ++ endl) = many_text verb [] /\ asked_sizes expect [] [].
Proof.
  split; [|constructor]. cbn [snd]. unfold many_text, size_lines, ptext, say_reading. cbn [map flat_map]. rewrite app_nil_r.
  rewrite <- app_assoc. line.
Qed.
Lemma many_tells_asked verb mem f queries (expect : s_index -> list Z -> res (list Z)) body body' :
  (forall ix done q st st', many_alike verb (expect ix) done st st' ->
     same (many_alike verb (expect ix) (done ++ [q])) (body ix q st) (body' ix q st')) ->
  tells (clean_asked verb mem f expect queries) "tested " " queries" (say_many mem f queries body')
    (let! ix := index_mmap mem f in
     let! (num, good, _, _) := run_queries (body ix) queries (0, true, scratch0, repeat 0 (Z.to_nat (ix_universe ix))) in
     Ok (num, good)).
Proof.
  intro HB. apply same_tells. unfold say_many. apply same_then. intros ix Eix.
  eapply same_bind.
  - refine (queries_same (many_alike verb (expect ix)) _ _ (HB ix) queries [] _ _ _).
    cbn [many_alike filter]. repeat split; auto. intros _. exists []. destruct (many_start verb (expect ix)). auto.
  - intros [[[num g] sc] out] [[[num' lg] sc'] out'] (-> & _ & _ & Eg & En & HS). cbn [same].
    apply (verdict_tells _ _ _ num' g lg (snd lg)).
    + now split.
    + rewrite En. apply zlen_nonneg.
    + intro G. destruct (HS G) as (sizes & A & E). cbn [app] in *. eexists. split.
      * split; [exact En|]. exists ix, sizes. split; [exact Eix|]. split; [exact A|reflexivity].
      * split; [exact E|]. eapply sizes_nonneg; eauto.
Qed.
Lemma intersect_many_asked tbl sort dbg mem f queries :
  tells (clean_asked "intersection has size " mem f (expect_and dbg mem) queries) "tested " " queries"
    (say_test_intersect_many tbl sort dbg mem f queries) (test_intersect_many tbl sort dbg mem f queries).
Proof. apply many_tells_asked. intros. now apply intersect_many_same. Qed.
Lemma union_many_asked tbl dbg mem f queries :
  tells (clean_asked "union has size " mem f (expect_or dbg mem) queries) "tested " " queries"
    (say_test_union_many tbl dbg mem f queries) (test_union_many tbl dbg mem f queries).
Proof. apply many_tells_asked. intros. now apply union_many_same. Qed.

Lemma tells_weaken (C C' : Z -> list (list piece) -> Prop) v w r s :
  (forall k ls, C k ls -> C' k ls) -> tells C v w r s -> tells C' v w r s.
Proof.
  intros H. unfold tells. destruct s as [(k & [])| | | |], r; auto. intros (ls & H1 & H2). exists ls. auto.
Qed.
Lemma asked_many verb mem f expect queries k ls : clean_asked verb mem f expect queries k ls -> clean_many verb k ls.
Proof.
  intros (-> & ix & sizes & _ & A & ->). exists sizes. split; [|reflexivity].
  unfold asked_sizes in A. revert A. generalize (filter (fun q => 2 <=? zlen q) queries). intros l A. unfold zlen. f_equal.
  induction A; cbn [length]; congruence.
Qed.
