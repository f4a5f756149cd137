(** The test programs on an index file in memory. *)
From Verif Require Import Base Hw Spec Lib L_Bits L_Group Layout M_Util M_Build M_Seq M_Decode M_Uncompress
  M_Query M_Union M_Many M_Index M_Calls M_Tests Holds P_Build1 P_Build2 P_Build3 P_Seq P_Decode P_Query P_NextGeq
  P_Ng P_Enum P_Uncompress P_Sets P_Index P_Fin1 P_Fin2 P_Fin3 P_Short P_Tests P_Tests2 P_Tests3.
From Coq Require Import Lia Sorted Permutation.

Lemma holds_opened dbg params u Ls slack mem f :
  is_u32 u -> 0 <= slack -> Forall valid (kept_lists params Ls) -> holds_index dbg params u Ls slack mem f ->
  exists ix, opened slack mem f u (kept_lists params Ls) ix.
Proof.
  intros Hu Hs V (HSh & st & o & q & E & Hf & HB & HL & HM).
  destruct (opened_ok dbg params u Ls Hu V HSh) as (st' & o' & q' & E' & H).
  rewrite E in E'. injection E' as <- <- <-. apply (H mem f slack); auto.
Qed.
Lemma opened_slack slack slack' mem f u kept ix : opened slack mem f u kept ix -> slack' <= slack ->
  opened slack' mem f u kept ix.
Proof.
  intros (A & B & C & D & G) H. split; [auto|]. split; [auto|]. split; [auto|]. split; [auto|].
  intros i S ES. destruct (G i S ES) as (s & Es & St & EG). exists s. split; auto. split; auto.
  eapply stored_weaken; eauto.
Qed.

Lemma c30_occurs : forall dbg params u Ls,
  is_u32 u -> Forall valid (kept_lists params Ls) -> Forall short Ls ->
  exists stats offsets sequences, index_build dbg params (collection u Ls) = Ok (stats, offsets, sequences)
    /\ forall pre post slack, slack <= zlen post ->
         zlen (pre ++ index_file offsets sequences ++ post) <= 2 ^ 64 ->
         holds_index dbg params u Ls slack (pre ++ index_file offsets sequences ++ post) (zlen pre).
Proof.
  intros dbg params u Ls Hu V HSh. destruct (opened_ok dbg params u Ls Hu V HSh) as (st & o & q & E & _).
  exists st, o, q. split; auto. intros pre post slack Hs HM. split; auto. exists st, o, q. split; auto.
  split; [apply zlen_nonneg|]. split; [|split; auto; rewrite !zlen_app; lia].
  set (F := index_file o q). clearbody F. intros i Hi. pose proof (zlen_nonneg _ pre).
  rewrite znth_app_r by lia. rewrite znth_app_l by lia. f_equal. lia.
Qed.

Lemma c30_accept : forall dbg dbg' params u Ls mem f,
  is_u32 u -> Forall valid (kept_lists params Ls) -> holds_index dbg params u Ls 31 mem f ->
  let Ks := kept_lists params Ls in
  let data := collection u Ls in
  let good := Ok (zlen Ks, true) in
  (Forall (fun L => zlen L + 23 <= u) Ks -> test_decode dbg' params mem f data = good)
  /\ test_contains dbg' params mem f data = good
  /\ test_select dbg' params mem f data = good
  /\ test_enumerator dbg' params mem f data = good
  /\ (forall fuel, (100 <= fuel)%nat -> Forall (fun L => last L 0 + 1000001 < 2 ^ 32) Ks ->
        test_next_geq fuel dbg' params mem f data = good
        /\ test_next_geq_enumerator fuel dbg' params mem f data = good)
  /\ (u < 2 ^ 32 - 65536 -> Forall (fun L => last L 0 / 65536 <= u / 65536 /\ zlen L <= u) Ks ->
        test_uncompress dbg' params mem f data = good).
Proof.
  intros dbg dbg' params u Ls mem f Hu V H Ks data good.
  destruct (holds_opened dbg params u Ls 31 mem f Hu ltac:(lia) V H) as (ix & O).
  pose proof (opened_slack 31 0 _ _ _ _ _ O ltac:(lia)) as O0.
  pose proof (proj1 H) as HSh. change (2 ^ 32) with 4294967296. unfold is_u32 in Hu.
  split; [intro; eapply test_decode_ok; eauto|].
  split; [eapply test_contains_ok; eauto|].
  split; [eapply test_select_ok; eauto|].
  split; [eapply test_enumerator_ok; eauto|].
  split; [intros; split; [eapply test_next_geq_ok|eapply test_next_geq_enumerator_ok]; eauto|].
  intros HU HF. eapply test_uncompress_ok; eauto. lia.
Qed.

Lemma c31_accept : forall dbg dbg' params u Ls mem f tbl sort,
  is_u32 u -> Forall valid (kept_lists params Ls) -> holds_index dbg params u Ls 31 mem f ->
  sorts_by_cardinality mem sort ->
  let Ks := kept_lists params Ls in
  (forall queries,
     Forall (fun q => exists S T, named Ks [fst q; snd q] [S; T] /\ zlen S + 23 <= u /\ zlen T + 23 <= u) queries ->
     test_intersect tbl sort dbg' mem f queries = Ok (zlen queries, true))
  /\ (forall queries,
     Forall (fun q => exists S T e, named Ks [fst q; snd q] [S; T]
       /\ enumerates (fun v => In v S \/ In v T) e /\ zlen e + 23 <= u) queries ->
     test_union tbl dbg' mem f queries = Ok (zlen queries, true))
  /\ (forall queries,
     Forall (fun q => 2 <= zlen q -> exists Ss e, named Ks q Ss
       /\ enumerates (fun v => forall S, In S Ss -> In v S) e /\ zlen e <= u) queries ->
     test_intersect_many tbl sort dbg' mem f queries = Ok (zlen (filter (fun q => 2 <=? zlen q) queries), true))
  /\ (forall queries,
     Forall (fun q => 2 <= zlen q -> exists Ss e, named Ks q Ss
       /\ enumerates (fun v => exists S, In S Ss /\ In v S) e /\ zlen e <= u) queries ->
     test_union_many tbl dbg' mem f queries = Ok (zlen (filter (fun q => 2 <=? zlen q) queries), true)).
Proof.
  intros dbg dbg' params u Ls mem f tbl sort Hu V H HS Ks.
  destruct (holds_opened dbg params u Ls 31 mem f Hu ltac:(lia) V H) as (ix & O). fold Ks in O.
  assert (Hu0 : 0 <= u) by (unfold is_u32 in Hu; lia).
  assert (N2 : forall q S T, named Ks [fst q; snd q] [S; T] -> znth Ks (fst q) = Some S /\ znth Ks (snd q) = Some T).
  { intros q S T N. inversion N as [|? ? ? ? N1 N2]; subst. inversion N2; subst. auto. }
  split; [|split; [|split]]; intros queries HQ.
  - eapply test_intersect_ok; eauto. eapply Forall_impl; [|exact HQ]. cbn beta.
    intros q (S & T & N & B). apply N2 in N as [N N']. exists S, T. auto.
  - eapply test_union_ok; eauto. eapply Forall_impl; [|exact HQ]. cbn beta.
    intros q (S & T & e & N & B). apply N2 in N as [N N']. exists S, T, e. auto.
  - eapply test_intersect_many_ok; eauto. eapply Forall_impl; [|exact HQ]. cbn beta.
    intros q B Hq. apply B. now apply Z.leb_le.
  - eapply test_union_many_ok; eauto. eapply Forall_impl; [|exact HQ]. cbn beta.
    intros q B Hq. apply B. now apply Z.leb_le.
Qed.

(** insertion sort *)
Definition card_or_0 (mem : list Z) (s : s_sequence) : Z := match cardinality mem s with Ok c => c | _ => 0 end.
Definition by_card (mem : list Z) (seqs : list s_sequence) : list s_sequence :=
  map snd (fold_right (fun s l => insert_by (card_or_0 mem s) s l) [] seqs).
Lemma by_card_sorts mem : sorts_by_cardinality mem (by_card mem).
Proof.
  intros seqs H. unfold by_card. set (l := fold_right _ _ _).
  assert (X : Permutation seqs (map snd l) /\ StronglySorted Z.le (map fst l)
     /\ Forall (fun p => cardinality mem (snd p) = Ok (fst p)) l).
  { unfold l. clear l. induction seqs as [|s seqs IH]; [cbn; repeat constructor|]. cbn [fold_right].
    destruct IH as (P & S & F); [intros; apply H; now right|]. set (l := fold_right _ _ _) in *.
    destruct (H s ltac:(now left)) as (c & Ec). unfold card_or_0. rewrite Ec.
    destruct (insert_by_ok c s l S) as [P' S']. split; [|split; auto].
    - apply (Permutation_map snd) in P'. cbn [map snd] in P'. eapply perm_trans; [|exact P']. now constructor.
    - apply Forall_forall. intros p Hp. apply (Permutation_in _ (Permutation_sym P')) in Hp.
      destruct Hp as [<-|Hp]; [exact Ec|]. rewrite Forall_forall in F. auto. }
  destruct X as (P & S & F). split; auto. exists (map fst l). split; auto.
  clear -F. induction F; cbn [map]; constructor; auto.
Qed.

(** what acceptance means *)
Lemma c32_sound : forall dbg dbg' params params' u u' Ls Ls' mem f k,
  is_u32 u' -> Forall valid (kept_lists params' Ls') -> holds_index dbg params' u' Ls' 31 mem f ->
  let Ks := kept_lists params Ls in
  let Ks' := kept_lists params' Ls' in
  let data := collection u Ls in
  zlen Ks <= zlen Ks' -> Forall short Ls ->
  (Forall (fun S => zlen S + 23 <= u') Ks' ->
     test_decode dbg' params mem f data = Ok (k, true) -> Ks = firstn (length Ks) Ks')
  /\ (test_select dbg' params mem f data = Ok (k, true) -> Ks = firstn (length Ks) Ks')
  /\ (Forall valid Ks -> test_contains dbg' params mem f data = Ok (k, true) -> Ks = firstn (length Ks) Ks')
  /\ (Forall valid Ks -> forall fuel, test_next_geq fuel dbg' params mem f data = Ok (k, true) ->
        Ks = firstn (length Ks) Ks')
  /\ (Forall valid Ks -> test_enumerator dbg' params mem f data = Ok (k, true) ->
        forall j L S, znth Ks j = Some L -> znth Ks' j = Some S ->
          L = firstn (length L) S ++ repeat u' (length L - length S)).
Proof.
  intros dbg dbg' params params' u u' Ls Ls' mem f k Hu V H Ks Ks' data HL HSh.
  destruct (holds_opened dbg params' u' Ls' 31 mem f Hu ltac:(lia) V H) as (ix & O). fold Ks' in O.
  pose proof (opened_slack 31 0 _ _ _ _ _ O ltac:(lia)) as O0.
  split; [intros; eapply test_decode_sound; eauto|].
  split; [eapply test_select_sound; eauto|].
  split; [intro; eapply test_contains_sound; eauto|].
  split; [intros HV fuel; eapply test_next_geq_sound; eauto|].
  intros HV. eapply test_enumerator_sound; eauto.
  eapply Forall_impl; [|exact HV]. intros L VL. apply (valid_chunks L VL).
Qed.

(** what the programs do not notice, and where they fail on correct indexes *)
Lemma c33_prefix : forall dbg dbg' params params' u u' Ls Ls' mem f,
  is_u32 u' -> Forall valid (kept_lists params' Ls') -> holds_index dbg params' u' Ls' 31 mem f ->
  (forall j L, znth (kept_lists params Ls) j = Some L ->
     exists R, znth (kept_lists params' Ls') j = Some (L ++ R)) -> Forall short Ls ->
  test_enumerator dbg' params mem f (collection u Ls) = Ok (zlen (kept_lists params Ls), true).
Proof.
  intros dbg dbg' params params' u u' Ls Ls' mem f Hu V H HP HSh.
  destruct (holds_opened dbg params' u' Ls' 31 mem f Hu ltac:(lia) V H) as (ix & O).
  eapply test_enumerator_prefix; eauto.
Qed.
Lemma c33_alarm : forall fuel dbg dbg' params u Ls mem f L k,
  is_u32 u -> Forall valid (kept_lists params Ls) -> holds_index dbg params u Ls 31 mem f ->
  In L (kept_lists params Ls) -> 2 ^ 32 - 1000001 <= last L 0 ->
  test_next_geq fuel dbg' params mem f (collection u Ls) <> Ok (k, true).
Proof.
  intros fuel dbg dbg' params u Ls mem f L k Hu V H HI HL.
  destruct (holds_opened dbg params u Ls 31 mem f Hu ltac:(lia) V H) as (ix & O).
  pose proof (opened_slack 31 0 _ _ _ _ _ O ltac:(lia)) as O0.
  eapply test_next_geq_alarm; eauto; [apply H|]. change (2 ^ 32) with 4294967296 in HL. lia.
Qed.
Lemma c33_wrap : forall dbg dbg' params u Ls mem f,
  is_u32 u -> Forall valid (kept_lists params Ls) -> holds_index dbg params u Ls 31 mem f ->
  kept_lists params Ls <> [] -> 2 ^ 32 - 65536 <= u ->
  test_uncompress dbg' params mem f (collection u Ls) = UB.
Proof.
  intros dbg dbg' params u Ls mem f Hu V H HN HU.
  destruct (holds_opened dbg params u Ls 31 mem f Hu ltac:(lia) V H) as (ix & O).
  pose proof (opened_slack 31 0 _ _ _ _ _ O ltac:(lia)) as O0.
  eapply test_uncompress_wrap; eauto; [apply H|]. change (2 ^ 32) with 4294967296 in HU. unfold is_u32 in Hu. lia.
Qed.
