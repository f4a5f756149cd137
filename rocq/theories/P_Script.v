(** Proofs about the scripts (C59) *)
From Coq Require Import Lia Sorted String Floats.SpecFloat.
From Verif Require Import Base Hw Spec Lib L_Bits L_Group Layout M_Util M_Build M_Seq M_Decode M_Uncompress
  M_Query M_Union M_Many M_Index M_Print M_Calls M_Tests M_Drivers M_Tools M_Text M_Out M_Say M_Script Holds Format Room Shown Typed
  Printed Told Counts Outcome Report Script
  P_Build1 P_Build2 P_Build3 P_Seq P_Decode P_Query P_Sets P_Index P_Fin1 P_Fin2 P_Fin3 P_Fin4 P_Room P_Tests P_Tests2
  P_Tests3 P_Tests4 P_Tests5 P_Ex P_Counts P_Shown P_Drivers P_Tools P_Text2 P_Text5 P_Text6 P_Out P_Out2 P_Out3 P_Out4 P_Say P_Say2 P_Say3 P_Say4.
Local Open Scope Z_scope.

(** ** The shell *)
Lemma ordinary_names : forallb ordinary (word "0123456789ABCDEFGHIJKLMNOPQRSTUVWXYZabcdefghijklmnopqrstuvwxyz%+,-./:@_") = true.
Proof. vm_compute. reflexivity. Qed.
Lemma plain_ordinary w : plain_name w -> forallb ordinary w = true.
Proof.
  intro H. apply forallb_forall. intros c Hc. unfold plain_name in H. rewrite Forall_forall in H.
  exact (proj1 (forallb_forall _ _) ordinary_names c (H c Hc)).
Qed.
Lemma ordinary_other c : ordinary c = true -> (c =? 32) = false /\ (c =? 9) = false /\ (c =? 60) = false.
Proof.
  intro H. assert (N : c <> 32 /\ c <> 9 /\ c <> 60); [|lia].
  repeat split; intros ->; vm_compute in H; discriminate.
Qed.
Lemma tokens_ordinary v : forall w l, forallb ordinary v = true -> shell_tokens w (v ++ l) = shell_tokens (w ++ v) l.
Proof.
  induction v as [|c v IH]; intros w l H; [now rewrite app_nil_r|].
  cbn [forallb] in H. apply andb_true_iff in H as [H1 H2]. destruct (ordinary_other c H1) as (E1 & E2 & E3).
  cbn [app shell_tokens]. rewrite E1, E2, E3, H1. cbn [orb]. rewrite IH by auto. now rewrite <- app_assoc.
Qed.
Lemma tokens_blank l : shell_tokens [] (32 :: l) = shell_tokens [] l.
Proof. cbn [shell_tokens]. change ((32 =? 32) || (32 =? 9)) with true. cbv iota. now destruct (shell_tokens [] l). Qed.
Lemma tokens_less l : shell_tokens [] (60 :: l) = option_map (cons Less) (shell_tokens [] l).
Proof. reflexivity. Qed.
Lemma tokens_word v l : forallb ordinary v = true -> v <> [] ->
  shell_tokens [] (v ++ 32 :: l) = option_map (cons (Word v)) (shell_tokens [] l).
Proof.
  intros H N. rewrite tokens_ordinary by auto. destruct v as [|c v]; [easy|]. reflexivity.
Qed.
Lemma tokens_end v : forallb ordinary v = true -> v <> [] -> shell_tokens [] v = Some [Word v].
Proof.
  intros H N. rewrite <- (app_nil_r v), tokens_ordinary by auto. rewrite app_nil_r. destruct v as [|c v]; [easy|]. reflexivity.
Qed.

(** the command lines of the two kinds; [f] may be several words *)
Lemma system_plain {A} text stdin (call : list Z -> list (list Z) -> list Z -> option A) v f argv :
  forallb ordinary v = true -> v <> [] ->
  shell_tokens [] f = Some (map Word argv) ->
  os_system text stdin call (v ++ 32 :: f) = call v argv stdin.
Proof.
  intros H N E. unfold os_system. rewrite tokens_word, E by auto. cbn [option_map].
  assert (C : forall ws, shell_command (map Word ws) = Some (ws, [])).
  { induction ws as [|w ws IH]; [reflexivity|]. cbn [map shell_command]. now rewrite IH. }
  change (Word v :: map Word argv) with (map Word (v :: argv)). rewrite C. reflexivity.
Qed.
Lemma system_input {A} text stdin (call : list Z -> list (list Z) -> list Z -> option A) v f argv p t :
  forallb ordinary v = true -> v <> [] ->
  (forall l, shell_tokens [] (f ++ 32 :: l) = option_map (app (map Word argv)) (shell_tokens [] l)) ->
  forallb ordinary p = true -> p <> [] -> text p = Some t ->
  os_system text stdin call (v ++ 32 :: f ++ 32 :: 60 :: 32 :: p) = call v argv t.
Proof.
  intros H N E HP NP T. unfold os_system.
  rewrite tokens_word, E, tokens_less, tokens_blank, tokens_end by auto. cbn [option_map].
  assert (C : forall ws, shell_command (map Word ws ++ [Less; Word p]) = Some (ws, [p])).
  { induction ws as [|w ws IH]; [reflexivity|]. cbn [map app shell_command]. now rewrite IH. }
  change (Word v :: map Word argv ++ [Less; Word p])%list with (map Word (v :: argv) ++ [Less; Word p])%list. rewrite C.
  cbn [shell_input]. now rewrite T.
Qed.

(** what the shell makes of a name *)
Definition becomes (f : list Z) (ws : list (list Z)) : Prop :=
  shell_tokens [] f = Some (map Word ws)
  /\ forall l, shell_tokens [] (f ++ 32 :: l) = option_map (app (map Word ws)) (shell_tokens [] l).
Lemma becomes_nothing : becomes [] [].
Proof. split; [reflexivity|]. intro l. cbn [app map]. rewrite tokens_blank. now destruct (shell_tokens [] l). Qed.
Lemma becomes_one f : forallb ordinary f = true -> f <> [] -> becomes f [f].
Proof.
  intros H N. split; [now apply tokens_end|]. intro l. rewrite tokens_word by auto. reflexivity.
Qed.
Lemma becomes_two a b : forallb ordinary a = true -> a <> [] -> forallb ordinary b = true -> b <> [] ->
  becomes (a ++ 32 :: b) [a; b].
Proof.
  intros Ha Na Hb Nb. split.
  - rewrite tokens_word, tokens_end by auto. reflexivity.
  - intro l. rewrite <- app_assoc. cbn [app]. rewrite !tokens_word by auto. now destruct (shell_tokens [] l).
Qed.
Lemma becomes_more f ws v : becomes f ws -> forallb ordinary v = true -> v <> [] ->
  forall l, shell_tokens [] ((f ++ 32 :: v) ++ 32 :: l) = option_map (app (map Word (ws ++ [v]))) (shell_tokens [] l).
Proof.
  intros [_ H] Hv Nv l. rewrite <- app_assoc. cbn [app]. rewrite H, tokens_word by auto. rewrite map_app. cbn [map].
  destruct (shell_tokens [] l); cbn [option_map]; [|reflexivity]. now rewrite <- app_assoc.
Qed.

(** ** queries.py *)
Lemma query_line {A} text stdin (call : list Z -> list (list Z) -> list Z -> option A) v f ws path name t :
  becomes f ws -> forallb ordinary v = true -> v <> [] -> plain_name path -> forallb ordinary name = true -> name <> [] ->
  text (path ++ name) = Some t ->
  os_system text stdin call ((v ++ [32]) ++ f ++ (32 :: codes "1000" ++ [32; 60; 32]) ++ path ++ name)
  = call v (ws ++ [word "1000"]) t.
Proof.
  intros B Hv Nv Hp Hn Nn T.
  replace ((v ++ [32]) ++ f ++ (32 :: codes "1000" ++ [32; 60; 32]) ++ path ++ name)%list
    with (v ++ 32 :: (f ++ 32 :: codes "1000") ++ 32 :: 60 :: 32 :: (path ++ name))%list
    by (repeat (rewrite <- app_assoc || cbn [app]); reflexivity).
  apply system_input; auto.
  - apply becomes_more; auto. discriminate.
  - rewrite forallb_app, Hn, (plain_ordinary path Hp). reflexivity.
  - now destruct path.
Qed.

Definition thrice_called {A : Type} (call : Z -> list Z -> list (list Z) -> list Z -> A) (k : Z) (v : list Z)
    (argv : list (list Z)) (t : list Z) : list A :=
  [call k v argv t; call (k + 1) v argv t; call (k + 2) v argv t].
Lemma queries_called nan time iso dbg tbl mem place text stdin f ws path more tp tr tv :
  becomes f ws -> plain_name path ->
  text (path ++ word "/pairwise_queries.1k")%list = Some tp -> text (path ++ word "/select_queries.1k")%list = Some tr ->
  text (path ++ word "/next_geq_queries.1k")%list = Some tv ->
  let call k := call_query nan (time k) iso dbg tbl mem place in
  let ws' := (ws ++ [word "1000"])%list in
  queries_py nan time iso dbg tbl mem place text stdin (f :: path :: more)
  = Some (thrice_called call 0 (word "./decode") ws stdin ++ thrice_called call 3 (word "./intersect") ws' tp
          ++ thrice_called call 6 (word "./union") ws' tp ++ thrice_called call 9 (word "./select") ws' tr
          ++ thrice_called call 12 (word "./next_geq") ws' tv)%list.
Proof.
  intros B Hp Tp Tr Tv call ws'. unfold queries_py, queries_commands. f_equal.
  cbn [repeat app timed]. unfold thrice_called. cbn [app].
  assert (D : forall k, os_system text stdin (call k) (codes "./decode " ++ f) = call k (word "./decode") ws stdin).
  { intro k. change (codes "./decode ") with (word "./decode" ++ [32])%list. rewrite <- app_assoc. cbn [app].
    apply system_plain; [reflexivity|discriminate|exact (proj1 B)]. }
  assert (I : forall k, os_system text stdin (call k)
      (codes "./intersect " ++ f ++ codes " 1000 < " ++ path ++ codes "/pairwise_queries.1k") = call k (word "./intersect") ws' tp).
  { intro k. apply (query_line text stdin (call k) (word "./intersect") f ws path (word "/pairwise_queries.1k")); auto; discriminate. }
  assert (U : forall k, os_system text stdin (call k)
      (codes "./union " ++ f ++ codes " 1000 < " ++ path ++ codes "/pairwise_queries.1k") = call k (word "./union") ws' tp).
  { intro k. apply (query_line text stdin (call k) (word "./union") f ws path (word "/pairwise_queries.1k")); auto; discriminate. }
  assert (S : forall k, os_system text stdin (call k)
      (codes "./select " ++ f ++ codes " 1000 < " ++ path ++ codes "/select_queries.1k") = call k (word "./select") ws' tr).
  { intro k. apply (query_line text stdin (call k) (word "./select") f ws path (word "/select_queries.1k")); auto; discriminate. }
  assert (G : forall k, os_system text stdin (call k)
      (codes "./next_geq " ++ f ++ codes " 1000 < " ++ path ++ codes "/next_geq_queries.1k") = call k (word "./next_geq") ws' tv).
  { intro k. apply (query_line text stdin (call k) (word "./next_geq") f ws path (word "/next_geq_queries.1k")); auto; discriminate. }
  fold (call 0) (call (0 + 1)). 
  repeat apply f_equal2; try reflexivity; (apply D || apply I || apply U || apply S || apply G).
Qed.

Lemma thousand : begins (word "1000") 1000.
Proof.
  exists [], (word "1000"), []. split; [reflexivity|]. split; [constructor|]. split; [|exact I].
  exists [1; 0; 0; 0]. split; [discriminate|]. split; [repeat constructor; lia|]. left. split; reflexivity.
Qed.
Lemma holds_less dbg params u Ls mem f : holds_index dbg params u Ls 31 mem f -> holds_index dbg params u Ls 0 mem f.
Proof.
  intros (HSh & st & o & q & E & Hf & HBy & HL & HM). split; auto. exists st, o, q. repeat (split; auto). lia.
Qed.
Lemma returns_index nan lines run name f more : writes nan lines (run f) -> returns 0 nan lines (say_index_main run name (f :: more)).
Proof. intros (t & E & P). exists t. unfold say_index_main. rewrite E. split; [reflexivity|auto]. Qed.
Lemma did_thrice nan (P : Z -> list Z -> list (list Z) -> list Z -> option (res (Z * list Z))) time k lines code v argv t :
  (forall j, did code nan (lines (time j)) (P j v argv t)) ->
  Forall2 (did code nan) (thrice time k lines) (thrice_called P k v argv t).
Proof. intro H. repeat (constructor; [apply H|]). constructor. Qed.

Lemma c59_queries : forall nan time iso dbg dbg' tbl params u Ls mem place text stdin f path more tp ps qs tr rs tv vs,
  is_u32 u -> Forall valid (kept_lists params Ls) -> holds_index dbg params u Ls 31 mem (place f) ->
  let Ks := kept_lists params Ls in
  shuffle_table_ok tbl -> plain_name f -> f <> [] -> plain_name path ->
  zlen Ks * 1000 < 2 ^ 32 -> Forall (fun S => decode_fits S u) Ks ->
  text (path ++ word "/pairwise_queries.1k")%list = Some tp -> typed tp ps -> Forall (storable_int iso) ps ->
  pairs_read 1000 ps qs -> pairs_of Ks qs -> Forall (fun q => both Ks q + 23 <= u /\ either Ks q + 23 <= u) qs ->
  text (path ++ word "/select_queries.1k")%list = Some tr -> typed tr rs -> Forall (storable_int iso) rs -> Forall is_u32 rs ->
  zlen Ks * 1000 <= zlen rs ->
  text (path ++ word "/next_geq_queries.1k")%list = Some tv -> typed tv vs -> Forall (storable_int iso) vs -> Forall is_u32 vs ->
  zlen Ks * 1000 <= zlen vs ->
  exists outs, queries_py nan time iso dbg' tbl mem place text stdin (f :: path :: more) = Some outs
    /\ Forall2 (did 0 nan)
         (experiment time Ks qs (total (fun v => v) (selected 0 (asked Ks 1000 rs)))
            (total (fun q => spec_next_geq (fst q) (snd q)) (asked Ks 1000 vs))) outs.
Proof.
  intros nan time iso dbg dbg' tbl params u Ls mem place text stdin f path more tp ps qs tr rs tv vs Hu V H Ks Htbl Hf Nf Hpath HK HD
    Tp Yp Fp Rp Pp Sp Tr Yr Fr Ur Nr Tv Yv Fv Uv Nv.
  pose proof (holds_less _ _ _ _ _ _ H) as H0.
  assert (Hc : count_word (word "1000") 1000) by (apply begins_count; [exact thousand|lia]).
  assert (HK' : zlen Ks < 2 ^ 32) by (pose proof (zlen_nonneg _ Ks); lia).
  eexists. split; [apply (queries_called nan time iso dbg' tbl mem place text stdin f [f] path more tp tr tv); auto;
                   apply becomes_one; auto using plain_ordinary|].
  unfold experiment. rewrite !Forall_forall in Sp.
  repeat apply Forall2_app; apply did_thrice; intro j; (eexists; split; [reflexivity|]); cbn [app].
  - apply returns_index. exact (proj2 (c53_index nan (time j) dbg dbg' params u Ls mem (place f) Hu V) H HD).
  - apply (c53_intersect nan (time j) iso dbg dbg' tbl params u Ls mem place _ f _ [] 1000 tp ps qs); auto; [lia|].
    apply Forall_forall. intros q Hq. exact (proj1 (Sp q Hq)).
  - apply (c53_union nan (time j) iso dbg dbg' tbl params u Ls mem place _ f _ [] 1000 tp ps qs); auto; [lia|].
    apply Forall_forall. intros q Hq. exact (proj2 (Sp q Hq)).
  - destruct (c53_select nan (time j) iso dbg dbg' params u Ls mem place (word "./select") f (word "1000") [] 1000 tr rs) as [E _];
      auto; try (fold Ks; lia).
    fold Ks in E. rewrite (proj2 (Z.ltb_lt _ _) HK) in E. exact E.
  - destruct (c53_select nan (time j) iso dbg dbg' params u Ls mem place (word "./next_geq") f (word "1000") [] 1000 tv vs) as [_ E];
      auto; try (fold Ks; lia).
    fold Ks in E. rewrite (proj2 (Z.ltb_lt _ _) HK) in E. exact E.
Qed.

(** the queries are those the tools write *)
Lemma c59_tools : forall nan time iso dbg dbg' tbl params u Ls mem place text stdin f path more w m tape tape' tape'' tp tr tv,
  is_u32 u -> Forall valid (kept_lists params Ls) -> holds_index dbg params u Ls 31 mem (place f) ->
  let Ks := kept_lists params Ls in
  shuffle_table_ok tbl -> plain_name f -> f <> [] -> plain_name path ->
  zlen Ks * 1000 < 2 ^ 32 -> Forall (fun S => decode_fits S u) Ks ->
  (forall q, pairs_of Ks [q] -> both Ks q + 23 <= u /\ either Ks q + 23 <= u) ->
  begins w m -> storable_int iso m -> 1 <= m <= zlen Ks ->
  Forall (fun S => storable_int iso (zlen S - 1)) Ks -> Forall (Forall (storable_int iso)) Ks ->
  pairwise_main iso [word "1000"; w] tape = Ok (Some tp) ->
  generate_main iso (fun name n => gen_select_queries dbg' mem (place name) n tape') [f; word "1000"] = Ok (Some tr) ->
  generate_main iso (fun name n => gen_next_geq_queries dbg' mem (place name) n tape'') [f; word "1000"] = Ok (Some tv) ->
  text (path ++ word "/pairwise_queries.1k")%list = Some tp -> text (path ++ word "/select_queries.1k")%list = Some tr ->
  text (path ++ word "/next_geq_queries.1k")%list = Some tv ->
  exists outs qs rs vs, queries_py nan time iso dbg' tbl mem place text stdin (f :: path :: more) = Some outs
    /\ zlen qs = 1000 /\ Forall (fun q => 0 <= fst q < m /\ 0 <= snd q < m) qs
    /\ zlen rs = zlen Ks * 1000 /\ Forall (fun q => 0 <= snd q < zlen (fst q)) (asked Ks 1000 rs)
    /\ zlen vs = zlen Ks * 1000 /\ Forall (fun q => In (snd q) (fst q)) (asked Ks 1000 vs)
    /\ Forall2 (did 0 nan)
         (experiment time Ks qs (total (fun q => nth (Z.to_nat (snd q)) (fst q) 0) (asked Ks 1000 rs)) (total (fun v => v) vs)) outs.
Proof.
  intros nan time iso dbg dbg' tbl params u Ls mem place text stdin f path more w m tape tape' tape'' tp tr tv Hu V H Ks Htbl Hf Nf Hpath HK HD
    Hsz Hw Hm Hm' HF HFv Ep Er Ev Tp Tr Tv.
  pose proof (holds_less _ _ _ _ _ _ H) as H0.
  assert (U1000 : is_u32 1000) by (unfold is_u32; lia).
  assert (S1000 : storable_int iso 1000) by (unfold storable_int; destruct iso; lia).
  assert (Um : is_u32 m) by (unfold is_u32; lia).
  (* pairs *)
  destruct (c36_pairwise 1000 m U1000 Um) as [P _].
  destruct (proj1 (P (gen_pairwise_queries 1000 m tape)) (ex_intro _ tape eq_refl)) as (qs & [G1 G2] & E).
  replace (m =? 0) with false in G2 by (symmetry; apply Z.eqb_neq; lia).
  unfold pairwise_main in Ep. rewrite (atoi_ok iso _ 1000 thousand S1000), (atoi_ok iso w m Hw Hm) in Ep. cbn [bind] in Ep.
  rewrite !low_id in Ep by auto. rewrite E in Ep.
  assert (Xp : show_pairs (in_a_row qs) = tp) by now injection Ep.
  assert (HR : Forall (fun x => 0 <= x < m) (in_a_row qs)).
  { clear -G2. induction G2 as [|q qs Hq _ IH]; [constructor|].
    change (in_a_row (q :: qs)) with (fst q :: snd q :: in_a_row qs). constructor; [lia|]. constructor; [lia|auto]. }
  assert (Pq : forall q, In q qs -> pairs_of Ks [q]).
  { intros q Hq. rewrite Forall_forall in G2. specialize (G2 q Hq). cbv beta in G2.
    assert (Z : forall i, 0 <= i < m -> exists S, znth Ks i = Some S).
    { intros i Hi. apply znth_Some. lia. }
    constructor; [|constructor]. repeat split; try (apply Z; lia); lia. }
  (* ranks *)
  destruct (c36_select dbg dbg' params u Ls mem (place f) 1000 Hu U1000 V H0) as (A & B & _).
  destruct (A tape') as [rs Ers]. destruct (proj1 (B rs) (ex_intro _ tape' Ers)) as [R1 R2].
  unfold generate_main in Er. rewrite (atoi_ok iso _ 1000 thousand S1000) in Er. cbn [bind] in Er. rewrite low_id in Er by auto.
  rewrite Ers in Er. assert (Xr : show_lines rs = tr) by now injection Er.
  fold Ks in R1, R2.
  assert (Pr : Forall (fun q => (0 <= q /\ storable_int iso q) /\ is_u32 q) rs).
  { apply (asked_all Ks 1000 rs _ _ ltac:(lia) R1 R2). intros K q IK Hq. cbn [fst snd] in Hq.
    rewrite Forall_forall in HF, V. specialize (HF K IK). cbv beta in HF. pose proof (valid_zlen K (V K IK)).
    unfold is_u32, storable_int in *. destruct iso; lia. }
  (* values *)
  destruct (c36_next_geq dbg dbg' params u Ls mem (place f) 1000 Hu U1000 V H) as (AB & _ & _).
  destruct (AB HD) as [A' B']. clear AB.
  destruct (A' tape'') as [vs Evs]. destruct (proj1 (B' vs) (ex_intro _ tape'' Evs)) as [V1 V2].
  unfold generate_main in Ev. rewrite (atoi_ok iso _ 1000 thousand S1000) in Ev. cbn [bind] in Ev. rewrite low_id in Ev by auto.
  rewrite Evs in Ev. assert (Xv : show_lines vs = tv) by now injection Ev.
  fold Ks in V1, V2.
  assert (Pv : Forall (fun q => (0 <= q /\ storable_int iso q) /\ is_u32 q) vs).
  { apply (asked_all Ks 1000 vs _ _ ltac:(lia) V1 V2). intros K q IK Hq. cbn [fst snd] in Hq.
    rewrite Forall_forall in HFv, V. specialize (HFv K IK). destruct (V K IK) as (_ & _ & VK).
    rewrite Forall_forall in HFv, VK. specialize (VK q Hq). specialize (HFv q Hq). unfold is_u32. cbv beta in *. lia || (split; [split; [lia|auto]|lia]). }
  destruct (c59_queries nan time iso dbg dbg' tbl params u Ls mem place text stdin f path more tp (in_a_row qs) qs tr rs tv vs)
    as (outs & E1 & E2); auto; fold Ks.
  - rewrite <- Xp. apply typed_pairs. eapply Forall_impl; [|exact HR]. cbv beta; intros; lia.
  - eapply Forall_impl; [|exact HR]. cbv beta. intros a Ha. unfold storable_int in *. destruct iso; lia.
  - exists []. rewrite app_nil_r. split; [reflexivity|]. left. lia.
  - apply Forall_forall. intros q Hq. specialize (Pq q Hq). unfold pairs_of in Pq. now inversion Pq.
  - apply Forall_forall. intros q Hq. apply Hsz. auto.
  - rewrite <- Xr. apply typed_lines. eapply Forall_impl; [|exact Pr]. cbv beta; tauto.
  - eapply Forall_impl; [|exact Pr]. cbv beta; tauto.
  - eapply Forall_impl; [|exact Pr]. cbv beta; tauto.
  - lia.
  - rewrite <- Xv. apply typed_lines. eapply Forall_impl; [|exact Pv]. cbv beta; tauto.
  - eapply Forall_impl; [|exact Pv]. cbv beta; tauto.
  - eapply Forall_impl; [|exact Pv]. cbv beta; tauto.
  - lia.
  - exists outs, qs, rs, vs. split; [exact E1|]. split; [exact G1|].
    split; [eapply Forall_impl; [|exact G2]; cbv beta; intros; lia|]. split; [exact R1|]. split; [exact R2|].
    split; [exact V1|]. split; [exact V2|].
    fold Ks in E2. rewrite (selected_ok _ _ R2), total_map in E2.
    replace (total (fun q => spec_next_geq (fst q) (snd q)) (asked Ks 1000 vs)) with (total (fun v => v) vs) in E2; [exact E2|].
    rewrite <- (asked_snd Ks 1000 vs) at 1 by (auto; lia). rewrite total_map. apply total_ext_in. intros [K x] Hq. cbn [fst snd].
    rewrite Forall_forall in V2, V. pose proof (V2 _ Hq) as Hx. cbn [fst snd] in Hx. symmetry. apply spec_next_geq_self; auto.
    unfold asked in Hq. apply in_combine_l in Hq. apply in_flat_map in Hq as (K' & HK' & HR').
    apply repeat_spec in HR'. subst K'. exact (proj1 (proj2 (V K HK'))).
Qed.

(** an index name in two words: decode takes the first one, the others the second one for the number of queries *)
Lemma c59_blank : forall nan time iso dbg tbl mem place text stdin a b path more tp tr tv,
  plain_name a -> a <> [] -> plain_name b -> b <> [] -> plain_name path ->
  text (path ++ word "/pairwise_queries.1k")%list = Some tp -> text (path ++ word "/select_queries.1k")%list = Some tr ->
  text (path ++ word "/next_geq_queries.1k")%list = Some tv ->
  let run name := queries_py nan time iso dbg tbl mem place text stdin (name :: path :: more) in
  exists outs outs', run a = Some outs /\ run (a ++ 32 :: b)%list = Some outs' /\ zlen outs = 15 /\ zlen outs' = 15
    /\ (forall k, 0 <= k < 3 -> znth outs' k = znth outs k)
    /\ (bad_count b -> forall k, 3 <= k < 15 -> znth outs' k = Some (Some Throw)).
Proof.
  intros nan time iso dbg tbl mem place text stdin a b path more tp tr tv Ha Na Hb Nb Hp Tp Tr Tv run.
  eexists. eexists. split; [apply (queries_called nan time iso dbg tbl mem place text stdin a [a] path more tp tr tv); auto;
                   apply becomes_one; auto using plain_ordinary|].
  split; [apply (queries_called nan time iso dbg tbl mem place text stdin _ [a; b] path more tp tr tv); auto;
                   apply becomes_two; auto using plain_ordinary|].
  split; [reflexivity|]. split; [reflexivity|]. split.
  - intros k Hk. assert (C : k = 0 \/ k = 1 \/ k = 2) by lia. destruct C as [->|[->| ->]]; reflexivity.
  - intros Bb k Hk. cbn [app].
    assert (I : forall j v t, v = word "./intersect" \/ v = word "./union" \/ v = word "./select" \/ v = word "./next_geq" ->
      call_query nan (time j) iso dbg tbl mem place v [a; b; word "1000"] t = Some Throw).
    { intros j v t Hv. destruct Hv as [->|[->|[->| ->]]];
        [change (Some (with_usage (word "./intersect") " index_filename num_queries < queries"
            (pairs_main iso (fun f => say_perf_intersection nan (time j) tbl dbg mem (place f)) [a; b; word "1000"] t)) = Some Throw)
        |change (Some (with_usage (word "./union") " index_filename num_queries < queries"
            (pairs_main iso (fun f => say_perf_union nan (time j) tbl dbg mem (place f)) [a; b; word "1000"] t)) = Some Throw)
        |change (Some (with_usage (word "./select") " index_filename num_queries_per_sequence < queries"
            (words_main iso (say_perf_select nan (time j) dbg mem) mem place [a; b; word "1000"] t)) = Some Throw)
        |change (Some (with_usage (word "./next_geq") " index_filename num_queries_per_sequence < queries"
            (words_main iso (say_perf_next_geq nan (time j) dbg mem) mem place [a; b; word "1000"] t)) = Some Throw)];
        cbn [pairs_main words_main]; rewrite (stoull_bad b Bb); reflexivity. }
    assert (C : k = 3 \/ k = 4 \/ k = 5 \/ k = 6 \/ k = 7 \/ k = 8 \/ k = 9 \/ k = 10 \/ k = 11 \/ k = 12 \/ k = 13 \/ k = 14) by lia.
    unfold thrice_called. cbn [app].
    destruct C as [->|[->|[->|[->|[->|[->|[->|[->|[->|[->|[->| ->]]]]]]]]]]];
      (apply (f_equal Some); apply I; tauto).
Qed.

(** no index name: all programs write how they are to be called *)
Lemma c59_empty : forall nan time iso dbg tbl mem place text stdin path more tp tr tv,
  plain_name path ->
  text (path ++ word "/pairwise_queries.1k")%list = Some tp -> text (path ++ word "/select_queries.1k")%list = Some tr ->
  text (path ++ word "/next_geq_queries.1k")%list = Some tv ->
  exists outs, queries_py nan time iso dbg tbl mem place text stdin ([] :: path :: more) = Some outs
    /\ Forall2 (did 1 nan)
         (repeat [[W "./decode <index_filename>"]] 3
          ++ repeat [[W "./intersect index_filename num_queries < queries"]] 3
          ++ repeat [[W "./union index_filename num_queries < queries"]] 3
          ++ repeat [[W "./select index_filename num_queries_per_sequence < queries"]] 3
          ++ repeat [[W "./next_geq index_filename num_queries_per_sequence < queries"]] 3)%list outs.
Proof.
  intros nan time iso dbg tbl mem place text stdin path more tp tr tv Hp Tp Tr Tv.
  eexists. split; [apply (queries_called nan time iso dbg tbl mem place text stdin [] [] path more tp tr tv); auto;
                   apply becomes_nothing|].
  cbn [app repeat]. unfold thrice_called. cbn [app].
  repeat (constructor; [eexists; split; [reflexivity|]; eexists; split; [reflexivity|]; apply ptext_page; pieces|]).
  constructor.
Qed.

(** ** build.py *)
Lemma last_app_r (a b : list Z) d : b <> [] -> last (a ++ b) d = last b d.
Proof.
  intro N. induction a as [|x a IH]; [reflexivity|]. cbn [app]. rewrite <- IH. destruct a; [now destruct b|reflexivity].
Qed.
Lemma build_commands_same : forall stod iso dbg file text stdin input output more,
  plain_name input -> input <> [] -> plain_name output ->
  exists r, build_py stod iso dbg file text stdin (input :: output :: more) = Some [Some r; Some r; Some r]
    /\ r = (let! (shown, bytes) := build_cpp dbg default_params (file input) in Ok (Some (shown, None))).
Proof.
  intros stod iso dbg file text stdin input output more Hi Ni Ho. eexists. split; [|reflexivity].
  unfold build_py, build_commands. cbn [map]. f_equal.
  assert (X : forall d s, forallb ordinary d = true -> d <> [] -> forallb ordinary s = true -> s <> [] ->
    ~ wants_value d -> last s 0 = 110 ->
    os_system text stdin (call_build stod iso dbg file) (word "./build" ++ 32 :: input ++ 32 :: d ++ 32 :: word "-o" ++ 32 :: output ++ s)
    = Some (let! (shown, bytes) := build_cpp dbg default_params (file input) in Ok (Some (shown, None)))).
  { intros d s Hd Nd Hs Ns Wd Ws.
    rewrite (system_plain text stdin _ (word "./build") _ [input; d; word "-o"; output ++ s]); [|reflexivity|discriminate|].
    - change (call_build stod iso dbg file (word "./build") [input; d; word "-o"; output ++ s] stdin)
        with (Some (build_main stod iso dbg file (input :: [d; word "-o"; output ++ s]))).
      f_equal. apply c48_script. repeat constructor; auto; intros [E|[E|E]]; try discriminate E;
        (apply (f_equal (fun l => last l 0)) in E; rewrite last_app_r in E by auto; rewrite Ws in E; discriminate E).
    - rewrite !tokens_word by (auto using plain_ordinary; discriminate).
      rewrite tokens_end; [reflexivity| |now destruct output].
      rewrite forallb_app, (plain_ordinary output Ho). exact Hs. }
  assert (L : forall d s, forallb ordinary d = true -> d <> [] -> forallb ordinary s = true -> s <> [] ->
    ~ wants_value d -> last s 0 = 110 ->
    os_system text stdin (call_build stod iso dbg file)
      (codes "./build " ++ input ++ (32 :: d ++ codes " -o ") ++ output ++ s)
    = Some (let! (shown, bytes) := build_cpp dbg default_params (file input) in Ok (Some (shown, None)))).
  { intros d s Hd Nd Hs Ns Wd Ws. rewrite <- (X d s) by auto. f_equal.
    change (codes "./build ") with (word "./build" ++ [32])%list. change (codes " -o ") with (32 :: word "-o" ++ [32])%list.
    repeat (rewrite <- app_assoc || cbn [app]). reflexivity. }
  apply f_equal2; [|apply f_equal2; [|apply f_equal2; [|reflexivity]]].
  - apply (L (word "0.01") (word ".0.01.bin")); try reflexivity; try discriminate. intros [E|[E|E]]; discriminate E.
  - apply (L (word "0.001") (word ".0.001.bin")); try reflexivity; try discriminate. intros [E|[E|E]]; discriminate E.
  - apply (L (word "0.0001") (word ".0.0001.bin")); try reflexivity; try discriminate. intros [E|[E|E]]; discriminate E.
Qed.

(** ** An experiment with the three lists of [t_mem] *)
Lemma begins_3 : begins (word "3") 3.
Proof.
  exists [], (word "3"), []. split; [reflexivity|]. split; [constructor|]. split; [|exact I].
  exists [3]. split; [discriminate|]. split; [repeat constructor; lia|]. left. split; reflexivity.
Qed.
Lemma plain_b w : forallb (fun c => existsb (Z.eqb c)
    (word "0123456789ABCDEFGHIJKLMNOPQRSTUVWXYZabcdefghijklmnopqrstuvwxyz%+,-./:@_")) w = true -> plain_name w.
Proof.
  intro H. apply Forall_forall. intros c Hc. pose proof (proj1 (forallb_forall _ _) H c Hc) as E. cbv beta in E.
  apply existsb_exists in E as (x & Hx & E). apply Z.eqb_eq in E. now subst.
Qed.
Lemma c59_example : forall nan time tape tape' tape'',
  let f := word "../index.bin" in
  let path := word "logs" in
  holds_index true t_params 1000 t_lists 31 t_mem 1 /\ kept_lists t_params t_lists = t_kept
  /\ plain_name f /\ plain_name path /\ shuffle_table_ok ex_tbl
  /\ exists text tp tr tv,
       pairwise_main true [word "1000"; word "3"] tape = Ok (Some tp)
       /\ generate_main true (fun name n => gen_select_queries true t_mem 1 n tape') [f; word "1000"] = Ok (Some tr)
       /\ generate_main true (fun name n => gen_next_geq_queries true t_mem 1 n tape'') [f; word "1000"] = Ok (Some tv)
       /\ text (word "logs/pairwise_queries.1k") = Some tp /\ text (word "logs/select_queries.1k") = Some tr
       /\ text (word "logs/next_geq_queries.1k") = Some tv
       /\ exists outs qs rs vs,
            queries_py nan time true true ex_tbl t_mem (fun _ => 1) text [] [f; path] = Some outs
            /\ zlen qs = 1000 /\ zlen rs = 3000 /\ zlen vs = 3000
            /\ Forall2 (did 0 nan)
                 (experiment time t_kept qs (total (fun q => nth (Z.to_nat (snd q)) (fst q) 0) (asked t_kept 1000 rs))
                    (total (fun v => v) vs)) outs.
Proof.
  intros nan time tape tape' tape'' f path.
  destruct c36_ex as (_ & _ & _ & _ & _ & _ & (EK & V & H & D & _) & _).
  assert (Hf : plain_name f) by (apply plain_b; vm_compute; reflexivity).
  assert (Hp : plain_name path) by (apply plain_b; vm_compute; reflexivity).
  assert (U : is_u32 1000) by (unfold is_u32; lia).
  assert (S1000 : storable_int true 1000) by (unfold storable_int; lia).
  split; [exact H|]. split; [exact EK|]. split; [exact Hf|]. split; [exact Hp|]. split; [exact ex_tbl_ok|].
  destruct (c47_pipe_pairs true (fun _ _ => Ok tt) f (word "1000") (word "3") [] [] 1000 3 tape thousand S1000 ltac:(lia)
              begins_3 ltac:(unfold storable_int; lia) ltac:(lia)) as (_ & tp & _ & _ & Ep & _).
  rewrite <- EK in V, D.
  assert (Z3 : zlen (kept_lists t_params t_lists) = 3) by now rewrite EK.
  assert (HF : Forall (fun S => storable_int true (zlen S - 1)) (kept_lists t_params t_lists))
    by (rewrite EK; repeat constructor; vm_compute; congruence).
  assert (HV : Forall (Forall (storable_int true)) (kept_lists t_params t_lists))
    by (rewrite EK; repeat constructor; vm_compute; congruence).
  destruct (c47_pipe_select true true true t_params 1000 t_lists t_mem (fun _ => 1) f (word "1000") [] [] 1000 tape' U V
              (holds_less _ _ _ _ _ _ H) thousand S1000 U ltac:(lia) ltac:(lia) HF) as (_ & tr & _ & _ & Er & _).
  destruct (c47_pipe_next_geq true true true t_params 1000 t_lists t_mem (fun _ => 1) f (word "1000") [] [] 1000 tape'' U V
              H thousand S1000 U ltac:(lia) ltac:(lia) D HV) as (_ & tv & _ & _ & Ev & _).
  pose (text name := if list_eq_dec Z.eq_dec name (word "logs/pairwise_queries.1k") then Some tp
                     else if list_eq_dec Z.eq_dec name (word "logs/select_queries.1k") then Some tr else Some tv).
  exists text, tp, tr, tv. split; [exact Ep|]. split; [exact Er|]. split; [exact Ev|].
  assert (T1 : text (word "logs/pairwise_queries.1k") = Some tp) by (vm_compute; reflexivity).
  assert (T2 : text (word "logs/select_queries.1k") = Some tr) by (vm_compute; reflexivity).
  assert (T3 : text (word "logs/next_geq_queries.1k") = Some tv) by (vm_compute; reflexivity).
  split; [exact T1|]. split; [exact T2|]. split; [exact T3|].
  destruct (c59_tools nan time true true true ex_tbl t_params 1000 t_lists t_mem (fun _ => 1) text [] f path [] (word "3") 3
              tape tape' tape'' tp tr tv U V H ex_tbl_ok Hf ltac:(discriminate) Hp ltac:(lia) D) as
    (outs & qs & rs & vs & E & Q1 & _ & R1 & _ & V1 & _ & F); auto using begins_3; try (unfold storable_int; lia).
  - intros q Hq. unfold either, both. rewrite EK in *. unfold pairs_of in Hq. inversion Hq as [|? ? [A [B _]] _]. subst.
    assert (C : forall i S, znth t_kept i = Some S -> S = [1; 2; 3] \/ S = [2; 3; 5; 70; 71] \/ S = [0; 3; 600]).
    { intros i S HS. apply znth_In in HS. destruct HS as [<-|[<-|[<-|[]]]]; auto. }
    destruct A as [S HS], B as [T HT]. unfold list_of. rewrite HS, HT. apply C in HS, HT.
    destruct HS as [->|[->| ->]], HT as [->|[->| ->]]; vm_compute; split; congruence.
  - exists outs, qs, rs, vs. rewrite EK in F. rewrite Z3 in R1, V1. repeat (split; [assumption|]). exact F.
Qed.
Lemma c59_blank_example : plain_name (word "copy") /\ bad_count (word "copy")
  /\ shell_tokens [] (word "./union my copy 1000 < logs/pairwise_queries.1k")
     = Some [Word (word "./union"); Word (word "my"); Word (word "copy"); Word (word "1000"); Less;
             Word (word "logs/pairwise_queries.1k")].
Proof.
  split; [apply plain_b; vm_compute; reflexivity|]. split; [|vm_compute; reflexivity].
  left. intros n (b & v & j & E & Hb & (ds & Nd & Hd & C) & _). apply (f_equal (fun l => nth 0 l 0)) in E. change (nth 0 (word "copy") 0) with 99 in E.
  destruct b as [|x b].
  - destruct ds as [|d ds]; [easy|]. inversion Hd as [|? ? Hd1 _]. 
    destruct C as [[-> _]|[[-> _]|[-> _]]]; cbn [app map nth] in E; lia.
  - inversion Hb as [|? ? B _]. subst. cbn [app nth] in E. unfold blank in B. lia.
Qed.
Lemma c59_build : forall stod iso dbg file text stdin input output more u Ls,
  plain_name input -> input <> [] -> plain_name output -> file input = collection u Ls ->
  let Ks := filter (fun L => 0 <? zlen L) Ls in
  Forall valid Ks -> Forall short Ls -> total zlen Ks < 2 ^ 37 ->
  exists r, build_py stod iso dbg file text stdin (input :: output :: more) = Some [Some r; Some r; Some r]
    /\ ((forall i, 1 <= i <= 256 -> sparse_chunks i Ks <> []) -> r = Ok (Some (shown (counters (8 * zlen (f_index u Ks)) Ks), None)))
    /\ ((exists i, 1 <= i <= 256 /\ sparse_chunks i Ks = []) -> r = UB).
Proof.
  intros stod iso dbg file text stdin input output more u Ls Hi Ni Ho F Ks V HSh HT.
  destruct (build_commands_same stod iso dbg file text stdin input output more Hi Ni Ho) as (r & E & R).
  assert (EK : kept_lists default_params Ls = Ks).
  { apply filter_ext. intro L. unfold pass. change (SFleb double_zero (p_density default_params)) with false. cbn [andb].
    change (p_size default_params) with 0. now destruct (0 <? zlen L). }
  exists r. split; [exact E|]. rewrite F in R. rewrite <- EK in *.
  destruct (build_cpp_ok dbg default_params u Ls V HSh HT) as [A B]. split; intro H.
  - rewrite (A H) in R. exact R.
  - rewrite (B H) in R. exact R.
Qed.
Lemma c59_build_example :
  plain_name (word "../data/test_collection") /\ plain_name (word "out")
  /\ filter (fun L => 0 <? zlen L) [[]; ladder] = [ladder] /\ Forall valid [ladder] /\ Forall short [[]; ladder]
  /\ total zlen [ladder] < 2 ^ 37 /\ forall i, 1 <= i <= 256 -> sparse_chunks i [ladder] <> [].
Proof.
  split; [apply plain_b; vm_compute; reflexivity|]. split; [apply plain_b; vm_compute; reflexivity|].
  pose proof (valid_zlen ladder ladder_valid) as HZ.
  split. { cbn [filter]. change (0 <? zlen (@nil Z)) with false. now rewrite (proj2 (Z.ltb_lt 0 (zlen ladder))) by lia. }
  split; [constructor; [exact ladder_valid|constructor]|].
  split; [constructor; [vm_compute; reflexivity|constructor; [apply short_valid, ladder_valid|constructor]]|].
  split; [unfold total; cbn [fold_right]; lia|exact ladder_sparse].
Qed.
