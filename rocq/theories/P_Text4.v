(** Lines of queries and the input of example.cpp: C47. *)
From Coq Require Import String Ascii Lia Sorted Permutation.
From Verif Require Import Base Hw Spec Lib Told Typed M_Util M_Build M_Seq M_Many M_Index M_Print M_Calls M_Tests
  M_Drivers M_Tools M_Text P_Tools P_Text P_Text2 P_Text3.

(** ** one extraction *)
Lemma extract_end t old : typed t [] -> extract (Some t) old = (old, None).
Proof.
  intro H. unfold extract. pose proof (scan_end t [] H (or_introl eq_refl)) as E. rewrite app_nil_r in E. now rewrite E.
Qed.
Lemma extract_garbage t g old : typed t [] -> garbage g -> extract (Some (t ++ g)) old = (Some 0, None).
Proof.
  intros H Hg. unfold extract. rewrite (scan_end t g H (or_intror Hg)). pose proof (integer_garbage g Hg) as E.
  destruct Hg as (c & g' & -> & _). now rewrite E.
Qed.
Lemma extract_next t n ns g old : typed t (n :: ns) -> no_digit g -> - 2 ^ 32 < n < 2 ^ 32 ->
  exists t', typed t' ns /\ (length t' < length t)%nat
    /\ extract (Some (t ++ g)) old = (Some (low n), Some (t' ++ g)).
Proof.
  intros H Hg Hn. destruct (scan_next t n ns g H Hg) as (t' & H1 & H2 & (c & s & E) & H3).
  exists t'. split; [auto|]. split; [auto|]. unfold extract. rewrite E in *. rewrite H3.
  replace (Z.abs n <? 2 ^ 32) with true by (symmetry; apply Z.ltb_lt; lia). reflexivity.
Qed.
Lemma extract_over t n ns g old : typed t (n :: ns) -> no_digit g -> n <= - 2 ^ 32 \/ 2 ^ 32 <= n ->
  extract (Some (t ++ g)) old = (Some (2 ^ 32 - 1), None).
Proof.
  intros H Hg Hn. destruct (scan_next t n ns g H Hg) as (t' & H1 & H2 & (c & s & E) & H3).
  unfold extract. rewrite E in *. rewrite H3.
  replace (Z.abs n <? 2 ^ 32) with false by (symmetry; apply Z.ltb_ge; lia). reflexivity.
Qed.


(** ** lines *)
Lemma line_numbers_ok g : stop g -> forall ns t fuel, typed t ns -> Forall fits_word ns ->
  (length t < fuel)%nat -> line_numbers fuel (t ++ g) = map low ns.
Proof.
  intros Hg. induction ns as [|n ns IH]; intros t fuel HT HF HL; (destruct fuel as [|fuel]; [lia|]); cbn [line_numbers map].
  - destruct Hg as [->|Hg].
    + rewrite app_nil_r, (extract_end t None HT). reflexivity.
    + rewrite (extract_garbage t g None HT Hg). reflexivity.
  - inversion HF as [|? ? F1 F2]; subst.
    destruct (extract_next t n ns g None HT (stop_no_digit g Hg) F1) as (t' & H1 & H2 & ->).
    rewrite (IH t' fuel H1 F2) by lia. reflexivity.
Qed.
Lemma line_numbers_over g n rest : no_digit g -> ~ fits_word n -> forall ns t fuel, typed t (ns ++ n :: rest) -> Forall fits_word ns ->
  (length t < fuel)%nat -> line_numbers fuel (t ++ g) = map low ns.
Proof.
  intros Hg Hn. induction ns as [|x ns IH]; intros t fuel HT HF HL; (destruct fuel as [|fuel]; [lia|]); cbn [line_numbers map].
  - cbn [app] in HT. rewrite (extract_over t n rest g None HT Hg); [reflexivity|]. unfold fits_word in Hn. lia.
  - inversion HF as [|? ? F1 F2]; subst. cbn [app] in HT.
    destruct (extract_next t x (ns ++ n :: rest) g None HT Hg F1) as (t' & H1 & H2 & ->).
    rewrite (IH t' fuel H1 F2) by lia. reflexivity.
Qed.

Lemma getline_nl l s : ~ In 10 l -> getline (l ++ 10 :: s) = (l, s).
Proof.
  induction l as [|c l IH]; intro H; cbn [app getline]; [reflexivity|].
  destruct (Z.eqb_spec c 10) as [->|N]; [destruct H; now left|]. rewrite IH; [reflexivity|].
  intro K. apply H. now right.
Qed.
Lemma getline_end l : ~ In 10 l -> getline l = (l, []).
Proof.
  induction l as [|c l IH]; intro H; cbn [getline]; [reflexivity|].
  destruct (Z.eqb_spec c 10) as [->|N]; [destruct H; now left|]. rewrite IH; [reflexivity|].
  intro K. apply H. now right.
Qed.

(** the values of a line, in order *)
Definition query_of (ns : list Z) : list Z := std_unique (std_sort (map low ns)).
Lemma query_of_ok ns : enumerates (fun v => In v (map low ns)) (query_of ns).
Proof. apply unique_sort. Qed.
Lemma query_of_empty ns : (zlen (query_of ns) =? 0) = match ns with [] => true | _ => false end.
Proof.
  destruct ns as [|n ns]; [reflexivity|]. destruct (query_of_ok (n :: ns)) as [_ H].
  specialize (H (low n)). destruct (query_of (n :: ns)) as [|x q].
  - destruct H as [_ H]. destruct H. now left.
  - rewrite zlen_cons. pose proof (zlen_nonneg _ q). apply Z.eqb_neq. lia.
Qed.

Lemma line_numbers_of l ns : line_of l ns -> Forall fits_word ns -> line_numbers (S (length l)) l = map low ns.
Proof.
  intros (_ & t & g & -> & HT & Hg) HF. apply line_numbers_ok; auto. rewrite app_length. lia.
Qed.
Lemma read_query_nl l ns s : line_of l ns -> Forall fits_word ns -> read_query (l ++ 10 :: s) = Some (query_of ns, s).
Proof.
  intros H HF. unfold read_query. rewrite getline_nl by apply H. rewrite (line_numbers_of l ns H HF).
  destruct l; reflexivity.
Qed.
Lemma read_query_end l ns : l <> [] -> line_of l ns -> Forall fits_word ns -> read_query l = Some (query_of ns, []).
Proof.
  intros N H HF. unfold read_query. rewrite getline_end by apply H. rewrite (line_numbers_of l ns H HF).
  destruct l; [congruence|reflexivity].
Qed.

Lemma firstn_S {A : Type} (x : A) l num i : i < num -> firstn (Z.to_nat (num - i)) (x :: l) = x :: firstn (Z.to_nat (num - (i + 1))) l.
Proof.
  intro H. replace (Z.to_nat (num - i)) with (S (Z.to_nat (num - (i + 1)))) by lia. reflexivity.
Qed.

Lemma read_queries_ok dbg e ens num : last_line e ens -> forall ls nss, Forall2 line_of ls nss -> forall i fuel,
  Forall (Forall fits_word) nss ->
  (dbg = true -> Forall (fun ns => ns <> []) (firstn (Z.to_nat (num - i)) (nss ++ ens))) ->
  (length (lines ls ++ e) < fuel)%nat -> i <= num ->
  read_queries fuel dbg (lines ls ++ e) i num = Ok (map query_of (firstn (Z.to_nat (num - i)) (nss ++ ens))).
Proof.
  intros He. induction 1 as [|l ns ls nss Hl HF2 IH]; intros i fuel HF HD HL Hi; (destruct fuel as [|fuel]; [lia|]); cbn [read_queries].
  - destruct (Z.eqb_spec i num) as [->|N].
    { replace (Z.to_nat (num - num)) with 0%nat by lia. reflexivity. }
    cbn [lines flat_map app] in *. destruct He as [[-> ->]|[Ne (ns & He & Hf & ->)]].
    + cbn [read_query]. now rewrite firstn_nil.
    + rewrite (read_query_end e ns Ne He Hf). rewrite firstn_S, firstn_nil in * by lia.
      rewrite query_of_empty.
      assert (A : assert_ dbg (negb (match ns with [] => true | _ => false end)) = Ok tt).
      { destruct dbg; [|reflexivity]. specialize (HD eq_refl). inversion HD; subst. now destruct ns. }
      rewrite A. cbn [bind map]. destruct fuel as [|fuel].
      { destruct e; [congruence|]. cbn [length] in HL. lia. }
      cbn [read_queries]. destruct (i + 1 =? num); reflexivity.
  - destruct (Z.eqb_spec i num) as [->|N].
    { replace (Z.to_nat (num - num)) with 0%nat by lia. reflexivity. }
    cbn [lines flat_map] in *. rewrite <- !app_assoc in *. cbn [app] in *.
    inversion HF as [|? ? F1 F2]; subst. rewrite (read_query_nl l ns _ Hl F1).
    rewrite firstn_S in * by lia. rewrite query_of_empty.
    assert (A : assert_ dbg (negb (match ns with [] => true | _ => false end)) = Ok tt).
    { destruct dbg; [|reflexivity]. specialize (HD eq_refl). inversion HD; subst. now destruct ns. }
    rewrite A. cbn [bind map]. fold (lines ls). rewrite (IH (i + 1) fuel F2); [reflexivity| | |lia].
    + intro Ed. specialize (HD Ed). now inversion HD.
    + rewrite app_length in HL. cbn [length] in HL. fold (lines ls) in HL. lia.
Qed.

Lemma read_queries_abort l l' num post : line_of l [] -> forall ls nss, Forall2 line_of ls nss -> forall i fuel,
  l' = l ++ 10 :: post \/ l' = l /\ l <> [] ->
  Forall (Forall fits_word) nss -> i + zlen ls < num -> (length (lines ls ++ l') < fuel)%nat ->
  read_queries fuel true (lines ls ++ l') i num = Abort.
Proof.
  intros H0. induction 1 as [|x ns ls nss Hl HF2 IH]; intros i fuel Hl' HF Hi HL; (destruct fuel as [|fuel]; [lia|]); cbn [read_queries].
  - rewrite zlen_nil in Hi. replace (i =? num) with false by (symmetry; apply Z.eqb_neq; lia).
    cbn [lines flat_map app]. destruct Hl' as [->|[-> N]].
    + rewrite (read_query_nl l [] _ H0) by constructor. reflexivity.
    + rewrite (read_query_end l [] N H0) by constructor. reflexivity.
  - rewrite zlen_cons in Hi. pose proof (zlen_nonneg _ ls). replace (i =? num) with false by (symmetry; apply Z.eqb_neq; lia).
    cbn [lines flat_map] in *. rewrite <- !app_assoc in *. cbn [app] in *.
    inversion HF as [|? ? F1 F2]; subst. rewrite (read_query_nl x ns _ Hl F1).
    rewrite query_of_empty. destruct ns as [|n ns]; [reflexivity|]. cbn [assert_ negb bind].
    fold (lines ls). rewrite (IH (i + 1) fuel); auto; [lia|].
    rewrite app_length in HL. cbn [length] in HL. fold (lines ls) in HL. lia.
Qed.

Section Lines.
Context {A : Type} (run : list Z -> list (list Z) -> res A) (f w : list Z) (argv : list (list Z)) (num : Z).
Hypothesis (Hw : count_word w num) (Hnum : 24 * num < 2 ^ 63).
Lemma lines_main_eq dbg s : lines_main dbg run (f :: w :: argv) s
  = let! queries := read_queries (S (length s)) dbg s 0 num in let! r := run f queries in Ok (Some r).
Proof.
  unfold lines_main. rewrite (stoull_count w num Hw). cbn [bind].
  rewrite reserve_ok by lia. reflexivity.
Qed.
Lemma lines_ok dbg ls e nss ens : Forall2 line_of ls nss -> Forall (Forall fits_word) nss -> last_line e ens ->
  let read := firstn (Z.to_nat num) (nss ++ ens) in
  (dbg = true -> Forall (fun ns => ns <> []) read) ->
  exists queries, Forall2 (fun q ns => enumerates (fun v => In v (map low ns)) q) queries read
    /\ lines_main dbg run (f :: w :: argv) (lines ls ++ e) = let! r := run f queries in Ok (Some r).
Proof.
  intros H2 HF He read HD. pose proof (count_range w num Hw). exists (map query_of read). split.
  - clear. induction read as [|ns read IH]; cbn [map]; constructor; auto. apply query_of_ok.
  - rewrite lines_main_eq. rewrite (read_queries_ok dbg e ens num He ls nss H2 0); auto; try lia.
    + now rewrite Z.sub_0_r.
    + rewrite Z.sub_0_r. auto.
Qed.
Lemma lines_abort ls l l' nss post : Forall2 line_of ls nss -> Forall (Forall fits_word) nss ->
  line_of l [] -> l' = l ++ 10 :: post \/ l' = l /\ l <> [] -> zlen ls < num ->
  lines_main true run (f :: w :: argv) (lines ls ++ l') = Abort.
Proof.
  intros H2 HF H0 Hl' HL. pose proof (count_range w num Hw). rewrite lines_main_eq.
  rewrite (read_queries_abort l l' num post H0 ls nss H2 0); auto; lia.
Qed.
End Lines.

(** whatever the text, the queries are strictly increasing *)
Lemma read_queries_sorted dbg : forall fuel s i num qs, read_queries fuel dbg s i num = Ok qs ->
  Forall (StronglySorted Z.lt) qs.
Proof.
  induction fuel as [|fuel IH]; intros s i num qs; cbn [read_queries]; destruct (i =? num);
    try (intro H; injection H as <-; constructor); [discriminate|].
  destruct (read_query s) as [[q s']|] eqn:E; [|intro H; injection H as <-; constructor].
  destruct (assert_ dbg (negb (zlen q =? 0))); cbn [bind]; try discriminate.
  destruct (read_queries fuel dbg s' (i + 1) num) as [qs'| | | |] eqn:E'; cbn [bind]; try discriminate.
  intro H. injection H as <-. constructor; [|eapply IH; eauto].
  unfold read_query in E. destruct s as [|c s]; [discriminate|].
  destruct (getline (c :: s)) as [l s0]. injection E as <- _. apply unique_sort.
Qed.

(** ** example.cpp *)
Lemma cin_failed : forall m v, cin_loop m None (Some v) = Ok (repeat v m).
Proof. induction m as [|m IH]; intro v; cbn [cin_loop repeat extract]; [reflexivity|]. now rewrite IH. Qed.
Lemma cin_ok g : no_digit g -> forall xs ys t x, typed t (xs ++ ys) -> Forall fits_word xs ->
  cin_loop (length xs) (Some (t ++ g)) x = Ok (map low xs).
Proof.
  intros Hg. induction xs as [|n xs IH]; intros ys t x HT HF; cbn [length cin_loop map]; [reflexivity|].
  inversion HF as [|? ? F1 F2]; subst. cbn [app] in HT.
  destruct (extract_next t n (xs ++ ys) g x HT Hg F1) as (t' & H1 & H2 & ->).
  now rewrite (IH ys t' _ H1 F2).
Qed.
Lemma cin_short g k : stop g -> forall xs t x, typed t xs -> Forall fits_word xs ->
  (g <> [] \/ xs <> [] \/ x <> None) ->
  cin_loop (length xs + S k) (Some (t ++ g)) x
  = Ok (map low xs ++ repeat (match g with [] => last (map low xs) (match x with Some v => v | None => 0 end) | _ => 0 end) (S k)).
Proof.
  intros Hg. induction xs as [|n xs IH]; intros t x HT HF HN; cbn [length Nat.add map app].
  - cbn [cin_loop]. destruct Hg as [->|Hg].
    + rewrite app_nil_r, (extract_end t x HT). cbn [last]. destruct x as [v|]; [|now destruct HN as [K|[K|K]]].
      rewrite cin_failed. reflexivity.
    + rewrite (extract_garbage t g x HT Hg). rewrite cin_failed. cbn [bind repeat]. destruct Hg as (c & g' & -> & _). reflexivity.
  - inversion HF as [|? ? F1 F2]; subst. cbn [cin_loop].
    destruct (extract_next t n xs g x HT (stop_no_digit g Hg) F1) as (t' & H1 & H2 & ->).
    rewrite (IH t' (Some (low n)) H1 F2) by (right; right; discriminate). cbn [bind].
    destruct g as [|c g]; [|reflexivity]. do 4 f_equal.
    destruct (map low xs) as [|y ys]; [reflexivity|]. cbn [last].
    clear. revert y. induction ys as [|z ys IH]; intro y; [reflexivity|]. cbn [last] in *. now rewrite IH.
Qed.
Lemma cin_none : forall m t, (0 < m)%nat -> typed t [] -> cin_loop m (Some t) None = UB.
Proof. intros [|m] t Hm H; [lia|]. cbn [cin_loop]. now rewrite (extract_end t None H). Qed.

Lemma read_input_ok t g S more : typed t (zlen S :: S ++ more) -> no_digit g -> Forall is_u32 S -> zlen S < 2 ^ 32 ->
  read_input (t ++ g) = Ok S.
Proof.
  intros HT Hg HF HL. pose proof (zlen_nonneg _ S). unfold read_input.
  destruct (extract_next t (zlen S) (S ++ more) g None HT Hg ltac:(lia)) as (t' & H1 & H2 & ->).
  rewrite low_id by (unfold is_u32; lia).
  replace (Z.to_nat (zlen S)) with (length S) by (unfold zlen; lia).
  rewrite (cin_ok g Hg S more t' None H1).
  - now rewrite map_low_id.
  - eapply Forall_impl; [|exact HF]. unfold is_u32, fits_word. intros; lia.
Qed.
Lemma read_input_short t g n xs : typed t (n :: xs) -> stop g -> Forall is_u32 xs -> zlen xs < n < 2 ^ 32 ->
  (g = [] -> xs <> []) ->
  read_input (t ++ g) = Ok (xs ++ repeat (match g with [] => last xs 0 | _ => 0 end) (Z.to_nat (n - zlen xs))).
Proof.
  intros HT Hg HF HL HN. pose proof (zlen_nonneg _ xs). unfold read_input.
  destruct (extract_next t n xs g None HT (stop_no_digit g Hg) ltac:(lia)) as (t' & H1 & H2 & ->).
  rewrite low_id by (unfold is_u32; lia).
  replace (Z.to_nat n) with (length xs + S (Z.to_nat (n - zlen xs - 1)))%nat by (unfold zlen in *; lia).
  rewrite (cin_short g _ Hg xs t' None H1).
  - rewrite map_low_id by auto. do 3 f_equal. lia.
  - eapply Forall_impl; [|exact HF]. unfold is_u32, fits_word. intros; lia.
  - destruct g; [right; left; auto|left; discriminate].
Qed.
Lemma read_input_none t n : typed t [n] -> 0 < n < 2 ^ 32 -> read_input t = UB.
Proof.
  intros HT Hn. unfold read_input.
  destruct (extract_next t n [] [] None HT I ltac:(lia)) as (t' & H1 & H2 & E). rewrite !app_nil_r in E. rewrite E.
  rewrite low_id by (unfold is_u32; lia). apply cin_none; [lia|auto].
Qed.
Lemma read_input_empty t : typed t [] -> read_input t = UB.
Proof. intro H. unfold read_input. now rewrite (extract_end t None H). Qed.
Lemma read_input_garbage t g : typed t [] -> garbage g -> read_input (t ++ g) = Ok [].
Proof. intros H Hg. unfold read_input. now rewrite (extract_garbage t g None H Hg). Qed.
Lemma read_input_over t g n ns : typed t (n :: ns) -> no_digit g -> 2 ^ 32 <= n -> read_input (t ++ g) = UB.
Proof.
  intros H Hg Hn. unfold read_input. rewrite (extract_over t n ns g None H Hg) by lia.
  destruct (Z.to_nat (2 ^ 32 - 1)) as [|m] eqn:E; [lia|]. reflexivity.
Qed.
