(** From text to results, and from program to program: C47. *)
From Coq Require Import String Ascii Lia Sorted Permutation.
From Verif Require Import Base Hw Spec Lib Format Shown Counts Room Holds Told Drawn Typed M_Util M_Build M_Seq M_Many M_Index
  M_Print M_Calls M_Tests M_Drivers M_Tools M_Text P_Ex P_Fin1 P_Fin2 P_Tests P_Tests4 P_Tests5 P_Drivers P_Tools
  P_Text P_Text2 P_Text3 P_Text4.

(** ** the programs of C35 *)
Lemma pairs_main_read {A : Type} iso (run : list Z -> list (Z * Z) -> res A) f w argv num t ns :
  count_word w num -> 0 <= num < 2 ^ 60 -> typed t ns -> Forall (storable_int iso) ns ->
  pairs_main iso run (f :: w :: argv) t = let! r := run f (read_pairs ns 0 num) in Ok (Some r).
Proof.
  intros Hw Hn HT HF. rewrite (pairs_main_eq iso run f w argv num Hw Hn).
  now rewrite (scan_pairs_read iso _ ns t 0 num HT HF) by lia.
Qed.
Lemma words_main_read {A : Type} iso (run : s_index -> Z -> list Z -> res A) mem place f w argv n t ns ix :
  count_word w n -> 0 <= n < 2 ^ 64 -> typed t ns -> Forall (storable_int iso) ns ->
  index_mmap mem (place f) = Ok ix -> 0 <= ix_size ix * n < 2 ^ 61 ->
  words_main iso run mem place (f :: w :: argv) t
  = let! r := run ix n (read_words ns 0 (u64 (ix_size ix * n))) in Ok (Some r).
Proof.
  intros Hw Hn HT HF E Hx. unfold words_main. rewrite (stoull_count w n Hw). cbn [bind].
  rewrite E. cbn [bind].
  rewrite reserve_ok; [|lia|unfold u64; rewrite Z.mod_small; lia]. cbn [bind].
  now rewrite (scan_words_read iso _ ns t 0 _ HT HF) by lia.
Qed.

Lemma pairs_read_nonneg num ns qs : pairs_read num ns qs -> 0 <= num.
Proof. intros (rest & _ & H). pose proof (zlen_nonneg _ qs). lia. Qed.

Lemma c47_contains : forall iso dbg dbg' params u Ls mem place f w more num t ns qs,
  is_u32 u -> Forall valid (kept_lists params Ls) -> holds_index dbg params u Ls 0 mem (place f) ->
  let Ks := kept_lists params Ls in
  count_word w num -> num < 2 ^ 60 -> typed t ns -> Forall (storable_int iso) ns ->
  pairs_read num ns qs -> positions Ks qs ->
  pairs_main iso (fun name => perf_contains dbg' mem (place name)) (f :: w :: more) t
  = Ok (Some (zlen qs, 4 * zlen (filter (fun q => existsb (Z.eqb (snd q)) (list_of Ks (fst q))) qs) mod 2 ^ 64)).
Proof.
  intros iso dbg dbg' params u Ls mem place f w more num t ns qs Hu V H Ks Hw Hn HT HF R P.
  pose proof (pairs_read_nonneg _ _ _ R).
  rewrite (pairs_main_read iso _ f w more num t ns Hw) by (auto; lia).
  change (perf_contains dbg' mem (place f) (read_pairs ns 0 num)) with (contains_cpp dbg' mem (place f) num ns).
  now rewrite (c35_contains dbg dbg' params u Ls mem (place f) num ns qs).
Qed.
Lemma c47_intersect : forall iso dbg dbg' tbl params u Ls mem place f w more num t ns qs,
  is_u32 u -> Forall valid (kept_lists params Ls) -> holds_index dbg params u Ls 31 mem (place f) ->
  let Ks := kept_lists params Ls in
  shuffle_table_ok tbl ->
  count_word w num -> num < 2 ^ 60 -> typed t ns -> Forall (storable_int iso) ns ->
  pairs_read num ns qs -> pairs_of Ks qs ->
  let size q := common (list_of Ks (fst q)) (list_of Ks (snd q)) in
  Forall (fun q => size q + 23 <= u) qs ->
  pairs_main iso (fun name => perf_intersection tbl dbg' mem (place name)) (f :: w :: more) t
  = Ok (Some (zlen qs, 11 * total size qs mod 2 ^ 64)).
Proof.
  intros iso dbg dbg' tbl params u Ls mem place f w more num t ns qs Hu V H Ks Ht Hw Hn HT HF R P size HS.
  pose proof (pairs_read_nonneg _ _ _ R).
  rewrite (pairs_main_read iso _ f w more num t ns Hw) by (auto; lia).
  change (perf_intersection tbl dbg' mem (place f) (read_pairs ns 0 num)) with (intersect_cpp tbl dbg' mem (place f) num ns).
  now rewrite (c35_intersect dbg dbg' tbl params u Ls mem (place f) num ns qs).
Qed.
Lemma c47_union : forall iso dbg dbg' tbl params u Ls mem place f w more num t ns qs,
  is_u32 u -> Forall valid (kept_lists params Ls) -> holds_index dbg params u Ls 31 mem (place f) ->
  let Ks := kept_lists params Ls in
  count_word w num -> num < 2 ^ 60 -> typed t ns -> Forall (storable_int iso) ns ->
  pairs_read num ns qs -> pairs_of Ks qs ->
  let size q := zlen (list_of Ks (fst q)) + zlen (list_of Ks (snd q)) - common (list_of Ks (fst q)) (list_of Ks (snd q)) in
  Forall (fun q => size q + 23 <= u) qs ->
  pairs_main iso (fun name => perf_union tbl dbg' mem (place name)) (f :: w :: more) t
  = Ok (Some (zlen qs, 11 * total size qs mod 2 ^ 64)).
Proof.
  intros iso dbg dbg' tbl params u Ls mem place f w more num t ns qs Hu V H Ks Hw Hn HT HF R P size HS.
  pose proof (pairs_read_nonneg _ _ _ R).
  rewrite (pairs_main_read iso _ f w more num t ns Hw) by (auto; lia).
  change (perf_union tbl dbg' mem (place f) (read_pairs ns 0 num)) with (union_cpp tbl dbg' mem (place f) num ns).
  now rewrite (c35_union dbg dbg' tbl params u Ls mem (place f) num ns qs).
Qed.

Lemma words_as_select iso dbg dbg' params u Ls mem place f w more n t ns :
  is_u32 u -> Forall valid (kept_lists params Ls) -> holds_index dbg params u Ls 0 mem (place f) ->
  count_word w n -> 0 <= n < 2 ^ 64 -> zlen (kept_lists params Ls) * n < 2 ^ 61 -> typed t ns -> Forall (storable_int iso) ns ->
  words_main iso (perf_select dbg' mem) mem place (f :: w :: more) t
    = (let! r := select_cpp dbg' mem (place f) n ns in Ok (Some r))
  /\ words_main iso (perf_next_geq dbg' mem) mem place (f :: w :: more) t
    = (let! r := next_geq_cpp dbg' mem (place f) n ns in Ok (Some r)).
Proof.
  intros Hu V H Hw Hn Hx HT HF.
  destruct (holds_opened dbg params u Ls 0 mem (place f) Hu ltac:(lia) V H) as (ix & E & Es & _).
  pose proof (zlen_nonneg _ (kept_lists params Ls)).
  unfold select_cpp, next_geq_cpp. rewrite E. cbn [bind].
  rewrite !(words_main_read iso _ mem place f w more n t ns ix Hw Hn HT HF E) by (rewrite Es; nia). auto.
Qed.

Lemma c47_select : forall iso dbg dbg' params u Ls mem place f w more n t ns,
  is_u32 u -> Forall valid (kept_lists params Ls) -> holds_index dbg params u Ls 0 mem (place f) ->
  let Ks := kept_lists params Ls in
  count_word w n -> 0 <= n < 2 ^ 64 -> zlen Ks < 2 ^ 32 -> zlen Ks * n < 2 ^ 61 ->
  typed t ns -> Forall (storable_int iso) ns -> Forall is_u32 ns ->
  let run := words_main iso (perf_select dbg' mem) mem place (f :: w :: more) t in
  (Ks = [] \/ n < 2 ^ 32 -> zlen Ks * n <= zlen ns ->
     run = Ok (Some (if zlen Ks * n <? 2 ^ 32 then zlen Ks * n else zlen ns,
                     4 * total (fun v => v) (selected 0 (asked Ks n ns)) mod 2 ^ 64)))
  /\ (zlen ns < zlen Ks * n \/ Ks <> [] /\ 2 ^ 32 <= n -> run = UB).
Proof.
  intros iso dbg dbg' params u Ls mem place f w more n t ns Hu V H Ks Hw Hn HK Hx HT HF HU run.
  destruct (words_as_select iso dbg dbg' params u Ls mem place f w more n t ns) as [E _]; auto.
  destruct (c35_select dbg dbg' params u Ls mem (place f) n ns Hu V H Hn HK HU) as [A B].
  unfold run. rewrite E. split; intros.
  - now rewrite A.
  - now rewrite B.
Qed.
Lemma c47_next_geq : forall iso dbg dbg' params u Ls mem place f w more n t ns,
  is_u32 u -> Forall valid (kept_lists params Ls) -> holds_index dbg params u Ls 0 mem (place f) ->
  let Ks := kept_lists params Ls in
  count_word w n -> 0 <= n < 2 ^ 64 -> zlen Ks < 2 ^ 32 -> zlen Ks * n < 2 ^ 61 ->
  typed t ns -> Forall (storable_int iso) ns -> Forall is_u32 ns ->
  let run := words_main iso (perf_next_geq dbg' mem) mem place (f :: w :: more) t in
  (Ks = [] \/ n < 2 ^ 32 -> zlen Ks * n <= zlen ns ->
     run = Ok (Some (if zlen Ks * n <? 2 ^ 32 then zlen Ks * n else zlen ns,
                     4 * total (fun q => spec_next_geq (fst q) (snd q)) (asked Ks n ns) mod 2 ^ 64)))
  /\ (zlen ns < zlen Ks * n \/ Ks <> [] /\ 2 ^ 32 <= n -> run = UB).
Proof.
  intros iso dbg dbg' params u Ls mem place f w more n t ns Hu V H Ks Hw Hn HK Hx HT HF HU run.
  destruct (words_as_select iso dbg dbg' params u Ls mem place f w more n t ns) as [_ E]; auto.
  destruct (c35_next_geq dbg dbg' params u Ls mem (place f) n ns Hu V H Hn HK HU) as [A B].
  unfold run. rewrite E. split; intros.
  - now rewrite A.
  - now rewrite B.
Qed.

(** a number that is no int *)
Lemma c47_words_over : forall {A : Type} (run : s_index -> Z -> list Z -> res A) dbg params u Ls mem place f w more n t g ns b rest,
  is_u32 u -> Forall valid (kept_lists params Ls) -> holds_index dbg params u Ls 0 mem (place f) ->
  count_word w n -> 0 <= n < 2 ^ 64 -> zlen ns < zlen (kept_lists params Ls) * n < 2 ^ 61 ->
  typed t (ns ++ b :: rest) -> no_digit g -> Forall (storable_int true) ns -> ~ storable_int true b ->
  words_main true run mem place (f :: w :: more) (t ++ g) = UB.
Proof.
  intros A run dbg params u Ls mem place f w more n t g ns b rest Hu V H Hw Hn Hx HT Hg HF Hb.
  destruct (holds_opened dbg params u Ls 0 mem (place f) Hu ltac:(lia) V H) as (ix & E & Es & _).
  pose proof (zlen_nonneg _ ns).
  unfold words_main. rewrite (stoull_count w n Hw). cbn [bind].
  rewrite E. cbn [bind]. rewrite Es.
  replace (u64 _) with (zlen (kept_lists params Ls) * n) by (unfold u64; rewrite Z.mod_small; lia).
  rewrite reserve_ok by lia. cbn [bind].
  rewrite (scan_words_over g Hg ns b rest t 0); auto; try lia.
  - rewrite app_length. lia.
  - unfold beyond. lia.
Qed.

(** ** from the generators to the programs *)
Lemma combine_snd {A B : Type} : forall (a : list A) (b : list B), length a = length b -> map snd (combine a b) = b.
Proof. induction a as [|x a IH]; intros [|y b] H; cbn in *; try lia; auto. f_equal. apply IH. lia. Qed.
Lemma asked_length Ks n : length (flat_map (fun K : list Z => repeat K (Z.to_nat n)) Ks) = (length Ks * Z.to_nat n)%nat.
Proof. induction Ks as [|K Ks IH]; cbn [flat_map length Nat.mul]; auto. rewrite app_length, repeat_length, IH. lia. Qed.
Lemma asked_all Ks n qs (P : list Z * Z -> Prop) (Q : Z -> Prop) :
  0 <= n -> zlen qs = zlen Ks * n -> Forall P (asked Ks n qs) -> (forall K q, In K Ks -> P (K, q) -> Q q) -> Forall Q qs.
Proof.
  intros Hn HL HP HQ. unfold asked in HP.
  assert (HE : length (flat_map (fun K : list Z => repeat K (Z.to_nat n)) Ks) = length qs).
  { rewrite asked_length. unfold zlen in HL. nia. }
  rewrite <- (combine_snd _ qs HE). apply Forall_map. apply Forall_forall. intros [K q] I.
  cbn [snd]. rewrite Forall_forall in HP. apply (HQ K); [|now apply HP].
  apply in_combine_l in I. apply in_flat_map in I as (K' & I1 & I2). apply repeat_spec in I2. now subst.
Qed.

Lemma c47_pipe_select : forall iso dbg dbg' params u Ls mem place f w more more' n tape,
  is_u32 u -> Forall valid (kept_lists params Ls) -> holds_index dbg params u Ls 0 mem (place f) ->
  let Ks := kept_lists params Ls in
  begins w n -> storable_int iso n -> is_u32 n -> zlen Ks < 2 ^ 32 -> zlen Ks * n < 2 ^ 32 ->
  Forall (fun S => storable_int iso (zlen S - 1)) Ks ->
  exists qs text,
    zlen qs = zlen Ks * n /\ Forall (fun q => 0 <= snd q < zlen (fst q)) (asked Ks n qs)
    /\ generate_main iso (fun name n => gen_select_queries dbg' mem (place name) n tape) (f :: w :: more) = Ok (Some text)
    /\ words_main iso (perf_select dbg' mem) mem place (f :: w :: more') text
       = Ok (Some (zlen qs, 4 * total (fun q => nth (Z.to_nat (snd q)) (fst q) 0) (asked Ks n qs) mod 2 ^ 64)).
Proof.
  intros iso dbg dbg' params u Ls mem place f w more more' n tape Hu V H Ks Hw Hs Hn HK Hx HF.
  destruct (c36_select dbg dbg' params u Ls mem (place f) n Hu Hn V H) as (A & B & C).
  destruct (A tape) as [qs E]. assert (G := proj1 (B qs) (ex_intro _ tape E)).
  exists qs, (show_lines qs). destruct G as [G1 G2]. split; [exact G1|]. split; [exact G2|].
  assert (P : Forall (fun q => 0 <= q /\ storable_int iso q) qs).
  { apply (asked_all Ks n qs _ _ ltac:(unfold is_u32 in Hn; lia) G1 G2). intros K q I Hq. cbn [fst snd] in Hq.
    split; [lia|]. rewrite Forall_forall in HF. specialize (HF K I). cbv beta in HF. unfold storable_int in *. destruct iso; lia. }
  split.
  - unfold generate_main. rewrite (atoi_ok iso w n Hw Hs). cbn [bind]. rewrite low_id by auto. now rewrite E.
  - assert (Hc : count_word w n) by (apply begins_count; auto; unfold is_u32 in Hn; lia).
    destruct (words_as_select iso dbg dbg' params u Ls mem place f w more' n (show_lines qs) qs) as [E' _]; auto.
    + unfold is_u32 in Hn. lia.
    + fold Ks. lia.
    + apply typed_lines. eapply Forall_impl; [|exact P]. intros ? [? _]. auto.
    + eapply Forall_impl; [|exact P]. intros ? [_ ?]. auto.
    + rewrite E'. now rewrite (C qs (conj G1 G2) Hx HK).
Qed.

Lemma c47_pipe_next_geq : forall iso dbg dbg' params u Ls mem place f w more more' n tape,
  is_u32 u -> Forall valid (kept_lists params Ls) -> holds_index dbg params u Ls 31 mem (place f) ->
  let Ks := kept_lists params Ls in
  begins w n -> storable_int iso n -> is_u32 n -> zlen Ks < 2 ^ 32 -> zlen Ks * n < 2 ^ 32 ->
  Forall (fun S => decode_fits S u) Ks -> Forall (Forall (storable_int iso)) Ks ->
  exists qs text,
    zlen qs = zlen Ks * n /\ Forall (fun q => In (snd q) (fst q)) (asked Ks n qs)
    /\ generate_main iso (fun name n => gen_next_geq_queries dbg' mem (place name) n tape) (f :: w :: more) = Ok (Some text)
    /\ words_main iso (perf_next_geq dbg' mem) mem place (f :: w :: more') text
       = Ok (Some (zlen qs, 4 * total (fun q => q) qs mod 2 ^ 64)).
Proof.
  intros iso dbg dbg' params u Ls mem place f w more more' n tape Hu V H Ks Hw Hs Hn HK Hx HD HF.
  destruct (c36_next_geq dbg dbg' params u Ls mem (place f) n Hu Hn V H) as (AB & _ & C).
  destruct (AB HD) as [A B]. clear AB.
  destruct (A tape) as [qs E]. assert (G := proj1 (B qs) (ex_intro _ tape E)).
  exists qs, (show_lines qs). destruct G as [G1 G2]. split; [exact G1|]. split; [exact G2|].
  assert (P : Forall (fun q => 0 <= q /\ storable_int iso q) qs).
  { apply (asked_all Ks n qs _ _ ltac:(unfold is_u32 in Hn; lia) G1 G2). intros K q I Hq. cbn [fst snd] in Hq.
    rewrite Forall_forall in HF, V. specialize (HF K I). destruct (V K I) as (_ & _ & VK). rewrite Forall_forall in HF, VK.
    split; [apply VK in Hq; lia|auto]. }
  split.
  - unfold generate_main. rewrite (atoi_ok iso w n Hw Hs). cbn [bind]. rewrite low_id by auto. now rewrite E.
  - assert (H0 : holds_index dbg params u Ls 0 mem (place f)).
    { destruct H as (HSh & st & o & q & E1 & Hf & HB & HL & HM). split; auto. exists st, o, q. repeat split; auto. lia. }
    assert (Hc : count_word w n) by (apply begins_count; auto; try unfold is_u32 in Hn; lia).
    destruct (words_as_select iso dbg dbg' params u Ls mem place f w more' n (show_lines qs) qs) as [_ E']; auto.
    + unfold is_u32 in Hn. lia.
    + fold Ks. lia.
    + apply typed_lines. eapply Forall_impl; [|exact P]. intros ? [? _]. auto.
    + eapply Forall_impl; [|exact P]. intros ? [_ ?]. auto.
    + rewrite E'. now rewrite (C qs (conj G1 G2) Hx HK).
Qed.

(** the first number which is no int *)
Lemma first_over ns : Exists (fun n => ~ storable_int true n) ns ->
  exists pre b post, ns = pre ++ b :: post /\ Forall (storable_int true) pre /\ ~ storable_int true b.
Proof.
  induction ns as [|n ns IH]; intro H; [inversion H|].
  assert (D : storable_int true n \/ ~ storable_int true n) by (unfold storable_int; lia).
  destruct D as [D|D].
  - inversion H as [? ? K|? ? K]; subst; [tauto|]. destruct (IH K) as (pre & b & post & -> & F & N).
    exists (n :: pre), b, post. auto.
  - exists [], n, ns. auto.
Qed.

Lemma c47_pipe_next_geq_undefined : forall dbg dbg' params u Ls mem place f w more more' n,
  is_u32 u -> Forall valid (kept_lists params Ls) -> holds_index dbg params u Ls 31 mem (place f) ->
  let Ks := kept_lists params Ls in
  begins w n -> 1 <= n < 2 ^ 31 -> zlen Ks * n < 2 ^ 61 ->
  Forall (fun S => decode_fits S u) Ks -> Exists (Exists (fun v => 2 ^ 31 <= v)) Ks ->
  exists tape text,
    generate_main true (fun name n => gen_next_geq_queries dbg' mem (place name) n tape) (f :: w :: more) = Ok (Some text)
    /\ words_main true (perf_next_geq dbg' mem) mem place (f :: w :: more') text = UB.
Proof.
  intros dbg dbg' params u Ls mem place f w more more' n Hu V H Ks Hw Hn Hx HD HE.
  assert (Hn' : is_u32 n) by (unfold is_u32; lia).
  destruct (c36_next_geq dbg dbg' params u Ls mem (place f) n Hu Hn' V H) as (AB & _ & _).
  destruct (AB HD) as [_ B]. clear AB. fold Ks in V, B.
  set (pickv := fun K => match find (Z.leb (2 ^ 31)) K with Some v => v | None => hd 0 K end).
  set (qs := flat_map (fun K => repeat (pickv K) (Z.to_nat n)) Ks).
  assert (G1 : zlen qs = zlen Ks * n).
  { unfold qs. clear -Hn. induction Ks as [|K Ks IH]; [reflexivity|]. cbn [flat_map]. rewrite zlen_app, zlen_cons, IH.
    unfold zlen at 1. rewrite repeat_length. lia. }
  assert (PI : forall K, In K Ks -> In (pickv K) K).
  { intros K I. unfold pickv. destruct (find (Z.leb (2 ^ 31)) K) as [v|] eqn:EF; [now apply find_some in EF|].
    rewrite Forall_forall in V. destruct (V K I) as [N _]. destruct K; [congruence|now left]. }
  assert (G2 : Forall (fun q => In (snd q) (fst q)) (asked Ks n qs)).
  { unfold asked, qs. clear -PI. induction Ks as [|K Ks IH]; [constructor|]. cbn [flat_map].
    assert (EA : forall m (A B : list _), combine (repeat K m ++ A) (repeat (pickv K) m ++ B) = repeat (K, pickv K) m ++ combine A B).
    { induction m as [|m IHm]; intros A B; cbn [repeat app combine]; auto. now rewrite IHm. }
    rewrite EA. apply Forall_app. split.
    - apply Forall_forall. intros x Hx. apply repeat_spec in Hx. subst x. cbn [fst snd]. apply PI. now left.
    - apply IH. intros K' I. apply PI. now right. }
  assert (HV : Forall (fun q => 0 <= q) qs).
  { apply (asked_all Ks n qs _ _ ltac:(lia) G1 G2). intros K q I Hq. cbn [fst snd] in Hq.
    rewrite Forall_forall in V. destruct (V K I) as (_ & _ & VK). rewrite Forall_forall in VK. apply VK in Hq. lia. }
  assert (HO : Exists (fun q => ~ storable_int true q) qs).
  { apply Exists_exists in HE as (K & I & HK). apply Exists_exists in HK as (v & Iv & Hv).
    apply Exists_exists. exists (pickv K). split.
    - unfold qs. apply in_flat_map. exists K. split; auto.
      replace (Z.to_nat n) with (S (Z.to_nat (n - 1))) by lia. now left.
    - unfold pickv. destruct (find (Z.leb (2 ^ 31)) K) as [x|] eqn:EF.
      + apply find_some in EF as [_ EF]. apply Z.leb_le in EF. unfold storable_int. lia.
      + pose proof (find_none _ _ EF v Iv) as N. apply Z.leb_gt in N. lia. }
  destruct (proj2 (B qs) (conj G1 G2)) as [tape E]. exists tape, (show_lines qs). split.
  - unfold generate_main. rewrite (atoi_ok true w n Hw) by (unfold storable_int; lia). cbn [bind]. rewrite low_id by auto. now rewrite E.
  - assert (H0 : holds_index dbg params u Ls 0 mem (place f)).
    { destruct H as (HSh & st & o & q & E1 & Hf & HB & HL & HM). split; auto. exists st, o, q. repeat split; auto. lia. }
    assert (Hc : count_word w n) by (apply begins_count; auto; try unfold is_u32 in Hn; lia).
    destruct (first_over qs HO) as (pre & b & post & EQ & F & N).
    rewrite <- (app_nil_r (show_lines qs)).
    apply (c47_words_over (perf_next_geq dbg' mem) dbg params u Ls mem place f w more' n (show_lines qs) [] pre b post); auto.
    + lia.
    + split; [|exact Hx]. fold Ks. rewrite <- G1, EQ, zlen_app, zlen_cons. pose proof (zlen_nonneg _ post). lia.
    + rewrite <- EQ. now apply typed_lines.
    + exact I.
Qed.

Lemma c47_pipe_pairs : forall {A : Type} iso (run : list Z -> list (Z * Z) -> res A) f v w more more' num m tape,
  begins v num -> storable_int iso num -> 0 <= num < 2 ^ 32 ->
  begins w m -> storable_int iso m -> 1 <= m < 2 ^ 32 ->
  exists qs text,
    zlen qs = num /\ Forall (fun q => 0 <= fst q < m /\ 0 <= snd q < m) qs
    /\ pairwise_main iso (v :: w :: more) tape = Ok (Some text)
    /\ pairs_main iso run (f :: v :: more') text = let! r := run f qs in Ok (Some r).
Proof.
  intros A iso run f v w more more' num m tape Hv Hs Hn Hw Hsm Hm.
  assert (Hn' : is_u32 num) by (unfold is_u32; lia). assert (Hm' : is_u32 m) by (unfold is_u32; lia).
  destruct (c36_pairwise num m Hn' Hm') as [P _].
  destruct (proj1 (P (gen_pairwise_queries num m tape)) (ex_intro _ tape eq_refl)) as (qs & [G1 G2] & E).
  replace (m =? 0) with false in G2 by (symmetry; apply Z.eqb_neq; lia).
  exists qs, (show_pairs (in_a_row qs)). split; [auto|]. split; [eapply Forall_impl; [|exact G2]; cbv beta; intros; lia|].
  split.
  - unfold pairwise_main. rewrite (atoi_ok iso v num Hv Hs), (atoi_ok iso w m Hw Hsm). cbn [bind].
    rewrite !low_id by auto. rewrite E. reflexivity.
  - assert (HR : Forall (fun x => 0 <= x < m) (in_a_row qs)).
    { clear -G2. induction G2 as [|q qs Hq _ IH]; [constructor|].
      change (in_a_row (q :: qs)) with (fst q :: snd q :: in_a_row qs). constructor; [lia|]. constructor; [lia|auto]. }
    assert (Hc : count_word v num) by (apply begins_count; auto; lia).
    apply (pairs_read_main iso run f v more' num _ (in_a_row qs) qs); auto.
    + lia.
    + apply typed_pairs. eapply Forall_impl; [|exact HR]. cbv beta; intros; lia.
    + eapply Forall_impl; [|exact HR]. cbv beta. intros a Ha. unfold storable_int in *. destruct iso; lia.
    + exists []. rewrite app_nil_r. split; [reflexivity|]. left. lia.
    + eapply Forall_impl; [|exact HR]. cbv beta. intros a Ha. unfold is_u32. lia.
Qed.

(** gen_clustered_data in text mode *)
Lemma clustered_text_sound dbg junk u fuel : 0 <= u <= 4294901760 -> u <= 65536 * Z.of_nat fuel -> (forall k, 0 <= junk k) ->
  forall m tape, exists LJs : list (list Z * list Z),
    clustered_lists m fuel dbg false junk u tape = Ok (flat_map (fun LJ => zlen (fst LJ) :: fst LJ ++ snd LJ) LJs)
    /\ length LJs = m /\ Forall (fun LJ => clustered_list u (fst LJ) /\ Forall (fun x => 0 <= x) (snd LJ)) LJs.
Proof.
  intros Hu HF HJ. induction m; intro tape; cbn [clustered_lists].
  - exists []. auto.
  - destruct (slices_sound dbg u ltac:(lia) fuel 0 [] tape ltac:(lia) ltac:(lia)) as (Ps & t & E & D).
    change (65536 * 0) with 0 in E. change (u32 (0 + 65536)) with 65536 in E. rewrite E. cbn [bind app].
    destruct (IHm t) as (Ls & -> & L & F). cbn [bind].
    eexists ((std_unique (std_sort (concat Ps)), map junk (seq _ _)) :: Ls).
    split; [cbn [flat_map fst snd]; reflexivity|]. split; [cbn [length]; auto|]. constructor; [|auto]. cbn [fst snd]. split.
    + apply parts_0 in D as [DL D]; [|lia]. exists Ps. split; auto. split; auto.
      destruct (unique_sort (concat Ps)) as [S I]. split; auto. intro v. rewrite I, in_concat. reflexivity.
    + apply Forall_map, Forall_forall. intros; apply HJ.
Qed.
Lemma clustered_bound u L : 0 <= u <= 4294901760 -> clustered_list u L -> Forall (fun v => 0 <= v <= u) L /\ StronglySorted Z.lt L.
Proof.
  intros Hu (Ps & HL & HD & S & I). split; auto. apply Forall_forall. intros v Hv. apply I in Hv as (P & HP & Hv).
  apply In_nth_error in HP as [k Hk]. specialize (HD (Z.of_nat k) P).
  assert (Z1 : znth Ps (Z.of_nat k) = Some P).
  { unfold znth. destruct (Z.of_nat k <? 0) eqn:K; [apply Z.ltb_lt in K; lia|]. now rewrite Nat2Z.id. }
  specialize (HD Z1). destruct HD as [->|[K|[_ K]]]; [destruct Hv|apply K in Hv; lia|].
  rewrite Forall_forall in K. apply K in Hv. lia.
Qed.

Lemma c47_pipe_example : forall iso fuel dbg dbg' junk a b more num u tape,
  begins a num -> storable_int iso num -> 1 <= num < 2 ^ 32 ->
  begins b u -> storable_int iso u -> 0 <= u <= 4294901760 -> u <= 65536 * Z.of_nat fuel ->
  (forall k, is_u32 (junk k)) ->
  ~ In (word "--binary") more ->
  forall name, exists L text,
    clustered_list u L
    /\ clustered_main iso fuel dbg junk (a :: b :: name :: more) tape = Ok (Some (inr text))
    /\ forall place, example_main dbg' place [] text = example_cpp dbg' (place None) L.
Proof.
  intros iso fuel dbg dbg' junk a b more num u tape Ha Hs Hn Hb Hsu Hu HF HJ HB name.
  assert (B : existsb (fun w => is_word w "--binary") more = false).
  { clear -HB. induction more as [|w more IH]; [reflexivity|]. cbn [existsb].
    rewrite is_word_neq by (intro E; apply HB; now left). rewrite IH; [reflexivity|]. intro K. apply HB. now right. }
  destruct (clustered_text_sound dbg junk u fuel Hu HF (fun k => proj1 (HJ k)) (Z.to_nat num) tape) as (LJs & E & EL & F).
  destruct LJs as [|[L J] LJs]; [cbn [length] in EL; lia|].
  exists L, (show_lines (flat_map (fun LJ => zlen (fst LJ) :: fst LJ ++ snd LJ) ((L, J) :: LJs))).
  assert (FL : Forall (fun LJ => Forall (fun v => 0 <= v <= u) (fst LJ)) ((L, J) :: LJs)).
  { eapply Forall_impl; [|exact F]. intros LJ [H _]. now apply clustered_bound. }
  assert (HT : Forall (fun n => 0 <= n) (flat_map (fun LJ => zlen (fst LJ) :: fst LJ ++ snd LJ) ((L, J) :: LJs))).
  { clear -F FL. induction F as [|LJ l [_ H1] F IH]; [constructor|]. inversion FL as [|? ? H2 FL']; subst. cbn [flat_map].
    cbn [app]. constructor; [apply zlen_nonneg|]. apply Forall_app. split; [|now apply IH].
    apply Forall_app. split; [|exact H1]. eapply Forall_impl; [|exact H2]. cbv beta. intros; lia. }
  inversion F as [|? ? [HC _] _]; subst. inversion FL as [|? ? HL _]; subst. cbn [fst] in HC, HL.
  split; [exact HC|]. split.
  - unfold clustered_main. rewrite (atoi_ok iso a num Ha Hs), (atoi_ok iso b u Hb Hsu). cbn [bind].
    rewrite !low_id by (unfold is_u32; lia). rewrite B. unfold gen_clustered. rewrite E. reflexivity.
  - intro place. unfold example_main. cbn [example_options bind].
    assert (R : read_input (show_lines (flat_map (fun LJ => zlen (fst LJ) :: fst LJ ++ snd LJ) ((L, J) :: LJs))) = Ok L).
    { rewrite <- (app_nil_r (show_lines _)).
      apply (read_input_ok _ [] L (J ++ flat_map (fun LJ => zlen (fst LJ) :: fst LJ ++ snd LJ) LJs)).
      - assert (EQ : zlen L :: L ++ J ++ flat_map (fun LJ => zlen (fst LJ) :: fst LJ ++ snd LJ) LJs
           = flat_map (fun LJ : list Z * list Z => zlen (fst LJ) :: fst LJ ++ snd LJ) ((L, J) :: LJs)).
        { cbn [flat_map fst snd app]. now rewrite <- app_assoc. }
        rewrite EQ. apply typed_lines. exact HT.
      - exact I.
      - eapply Forall_impl; [|exact HL]. cbv beta. unfold is_u32. intros; lia.
      - destruct (clustered_bound u L Hu HC) as [H1 H2].
        assert (H3 : Forall (fun x => 0 <= x < Z.of_nat (Z.to_nat (u + 1))) L) by (eapply Forall_impl; [|exact H1]; cbv beta; intros; lia).
        pose proof (L_Group.sorted_zlen_le _ _ H2 H3). lia. }
    rewrite R. reflexivity.
Qed.

(** ** example.cpp *)
Lemma c47_example_read : forall dbg place t g S more,
  typed t (zlen S :: S ++ more) -> no_digit g -> Forall is_u32 S -> zlen S < 2 ^ 32 ->
  example_main dbg place [] (t ++ g) = example_cpp dbg (place None) S.
Proof.
  intros dbg place t g S more HT Hg HF HL. unfold example_main. cbn [example_options bind].
  now rewrite (read_input_ok t g S more HT Hg HF HL).
Qed.

Lemma last_in (l : list Z) d : l <> [] -> In (last l d) l.
Proof. intro H. destruct (exists_last H) as (l' & x & ->). rewrite last_last. apply in_or_app. right. now left. Qed.

Lemma repeated xs k : xs <> [] -> StronglySorted Z.lt xs -> (0 < k)%nat ->
  StronglySorted Z.le (xs ++ repeat (last xs 0) k) /\ ~ NoDup (xs ++ repeat (last xs 0) k).
Proof.
  intros N S Hk. split.
  - clear Hk. induction S as [|x xs S IH F]; [congruence|]. destruct xs as [|y xs].
    + cbn [last app]. constructor; [clear; induction k as [|k IH]; cbn [repeat]; [constructor|]; constructor; [exact IH|]; apply Forall_forall; intros z Hz; apply repeat_spec in Hz; lia|].
      apply Forall_forall; intros z Hz; apply repeat_spec in Hz; lia.
    + change (last (x :: y :: xs) 0) with (last (y :: xs) 0). cbn [app]. constructor; [apply IH; discriminate|].
      rewrite Forall_forall in *. intros z Hz. change (y :: xs ++ repeat (last (y :: xs) 0) k) with ((y :: xs) ++ repeat (last (y :: xs) 0) k) in Hz.
      apply in_app_or in Hz as [Hz|Hz]; [specialize (F z Hz); lia|]. apply repeat_spec in Hz. subst z.
      specialize (F _ (last_in (y :: xs) 0 ltac:(discriminate))). lia.
  - intro H. destruct k as [|k]; [lia|]. cbn [repeat] in H. apply NoDup_remove_2 in H. apply H. apply in_or_app. left. now apply last_in.
Qed.

Lemma c47_example_short : forall dbg place t n xs,
  valid xs -> zlen xs < n < 2 ^ 32 -> typed t (n :: xs) ->
  example_main dbg place [] t = Throw.
Proof.
  intros dbg place t n xs (N & S & F) Hn HT. pose proof (zlen_nonneg _ xs). unfold example_main. cbn [example_options bind].
  rewrite <- (app_nil_r t). rewrite (read_input_short t [] n xs HT (or_introl eq_refl)); auto.
  - cbn [bind]. unfold example_cpp. destruct (repeated xs (Z.to_nat (n - zlen xs)) N S ltac:(lia)) as [R1 R2].
    assert (NE : xs ++ repeat (last xs 0) (Z.to_nat (n - zlen xs)) <> []) by (destruct xs; [congruence|discriminate]).
    rewrite (c03_duplicates_rejected dbg [] _ NE R1 R2).
    + reflexivity.
    + apply Forall_app. split; auto. apply Forall_forall. intros z Hz. apply repeat_spec in Hz. subst z.
      rewrite Forall_forall in F. apply F. now apply last_in.
  - eapply Forall_impl; [|exact F]. unfold is_u32. cbv beta. intros; lia.
Qed.
