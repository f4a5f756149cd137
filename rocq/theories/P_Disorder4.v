(** C43: the statements. *)
From Verif Require Import Base Hw Spec Lib L_Bits L_Group Layout M_Util M_Build M_Seq M_Decode
  P_Build1 P_Build2 P_Build3 P_Seq P_Decode P_Dbg Disorder P_Disorder1 P_Disorder2 P_Disorder3.

Lemma c43_unordered : forall out L,
  L <> [] -> Forall (fun v => 0 <= v < 4294901760) L -> Forall run_ok (cuts L) ->
  Exists (fun c => snd c <> []) (cuts L) ->
  exists st enc, builder_build false out L = (Ok st, out ++ enc)
    /\ (Forall run_above (cuts L) /\ lost L = [] -> builder_build true out L = (Ok st, out ++ enc))
    /\ (~ (Forall run_above (cuts L) /\ lost L = []) -> builder_build true out L = (Abort, out))
    /\ forall dbg mem a buf pos,
         bytes_at mem a enc -> a + zlen enc + 31 <= zlen mem ->
         0 <= pos -> pos + zlen (kept L) + 23 <= zlen buf ->
         exists s buf', seq_at mem a = Ok s
           /\ decode dbg mem s buf pos = Ok (buf', zlen (kept L))
           /\ wrote 23 buf pos (kept L) buf'.
Proof.
  intros out L Hne Hr Hk He.
  destruct (disorder_build L Hne Hr Hk false out) as (st & ps & E & Ep); [discriminate|].
  exists st, (rlayout ps (full_runs (cuts L))). split; auto. split; [|split].
  - intro H. rewrite <- E. apply builder_build_ref.
    destruct (disorder_build L Hne Hr Hk true out) as (st' & ps' & E' & _); [auto|]. rewrite E'. discriminate.
  - intro H. apply disorder_abort; auto.
  - intros dbg mem a buf pos B HL Hp Ho. apply (disorder_decode dbg L ps); auto.
    apply Exists_exists in He as (c & Hc & Hn). intro Q.
    assert (I : In c (full_runs (cuts L))).
    { apply filter_In. split; auto. destruct (snd c); [easy|reflexivity]. }
    rewrite Q in I. easy.
Qed.

(** ** the cuts are the list *)
Lemma runs_concat n : forall i l,
  flat_map snd (runs (S n) i l) ++ from (65536 * (i + Z.of_nat (S n))) l = l.
Proof.
  induction n; intros i l.
  - cbn [runs flat_map]. rewrite app_nil_r. change (Z.of_nat 1) with 1. symmetry. apply upto_from.
  - remember (S n) as m. cbn [runs flat_map snd]. rewrite <- app_assoc.
    rewrite <- (from_from (65536 * (i + 1)) (65536 * (i + Z.of_nat (S m))) l) by lia.
    replace (i + Z.of_nat (S m)) with (i + 1 + Z.of_nat m) by lia. subst m. rewrite IHn.
    symmetry. apply upto_from.
Qed.
Lemma cuts_nat L : L <> [] -> Forall (fun v => 0 <= v < 4294901760) L ->
  exists n, Z.to_nat (last_chunk L + 1) = S n /\ last_chunk L + 1 = Z.of_nat (S n).
Proof.
  intros Hne Hr. pose proof (last_range L Hne Hr). unfold last_chunk.
  exists (Z.to_nat (last L 0 / 65536)). lia.
Qed.
Lemma runs_fst n : forall i l, map fst (runs n i l) = zrange i n.
Proof. induction n; intros i l; cbn [runs map zrange fst]; auto. now rewrite IHn. Qed.
Lemma runs_below n : forall i l,
  Forall (fun c => Forall (fun v => v < 65536 * (fst c + 1)) (snd c)) (runs n i l).
Proof. induction n; intros i l; cbn [runs]; constructor; auto. cbn [fst snd]. apply upto_below. Qed.
Lemma c43_cuts : forall L,
  L <> [] -> Forall (fun v => 0 <= v < 4294901760) L ->
  flat_map snd (cuts L) ++ lost L = L
  /\ map fst (cuts L) = zrange 0 (Z.to_nat (last L 0 / 65536 + 1))
  /\ Forall (fun c => Forall (fun v => v < 65536 * (fst c + 1)) (snd c)) (cuts L)
  /\ match lost L with [] => True | v :: _ => 65536 * (last L 0 / 65536 + 1) <= v end.
Proof.
  intros L Hne Hr. destruct (cuts_nat L Hne Hr) as (n & E1 & E2). split; [|split; [|split]].
  - unfold cuts, lost. rewrite E1, E2. rewrite <- (Z.add_0_l (Z.of_nat (S n))). apply runs_concat.
  - apply runs_fst.
  - apply runs_below.
  - pose proof (from_starts (65536 * (last_chunk L + 1)) L) as H. exact H.
Qed.

(** ** nothing survives *)
Lemma c43_nothing : forall out L,
  L <> [] -> Forall (fun v => 0 <= v < 4294901760) L -> Forall (fun c => snd c = []) (cuts L) ->
  builder_build true out L = (Abort, out)
  /\ exists st, builder_build false out L = (Ok st, out ++ [255; 255]).
Proof.
  intros out L Hne Hr He.
  assert (K : Forall run_ok (cuts L)).
  { eapply Forall_impl; [|exact He]. intros [i r] E. cbn [snd] in E. subst r.
    unfold run_ok. cbn [fst snd]. rewrite !zlen_nil. split; [exact I|]. split; [lia|].
    split; [constructor|]. split; [cbn; lia|constructor]. }
  assert (N : full_runs (cuts L) = [] /\ flat_map snd (cuts L) = []).
  { clear K. unfold full_runs. induction (cuts L) as [|[i r] cs IH]; auto. inversion He; subst. cbn [snd] in *.
    subst r. cbn [filter snd flat_map app]. auto. }
  destruct N as [N1 N2]. split.
  - apply disorder_abort; auto. intros [_ HL].
    destruct (c43_cuts L Hne Hr) as (E & _). rewrite N2, HL in E. apply Hne. symmetry. exact E.
  - destruct (disorder_build L Hne Hr K false out) as (st & ps & E & Ep); [discriminate|].
    rewrite N1 in *. rewrite zlen_nil in Ep. change (8 * (0 / 32)) with 0 in Ep.
    destruct ps as [|p ps]; [|rewrite zlen_cons in Ep; zpos; lia].
    exists st. rewrite E. reflexivity.
Qed.

(** ** few values *)
Lemma total_pieces (bs : list (Z * list Z)) :
  Forall (fun p => zlen (snd p) <= 30) bs ->
  total (fun p => 2 + (if zlen (snd p) <? 31 then zlen (snd p) else 32)) bs
  = 2 * zlen bs + zlen (flat_map snd bs).
Proof.
  induction bs as [|p bs IH]; intro H; [reflexivity|]. inversion H; subst.
  unfold total in *. cbn [fold_right flat_map]. rewrite IH by auto. rewrite zlen_cons, zlen_app.
  destruct (Z.ltb_spec (zlen (snd p)) 31); lia.
Qed.
Lemma pieces_values k l : flat_map snd (group k l) = map (fun v => v mod k) l.
Proof.
  induction l as [|v l IH]; auto. cbn [group map]. destruct (group k l) as [|[id vs] g].
  - cbn [flat_map snd app] in *. now rewrite <- IH.
  - destruct (v / k =? id); cbn [flat_map snd app] in *; now rewrite <- IH.
Qed.
Lemma pieces_short k l : Forall (fun p => zlen (snd p) <= zlen l) (group k l).
Proof.
  assert (G : forall n bs, zlen (flat_map snd bs) <= n -> Forall (fun p : Z * list Z => zlen (snd p) <= n) bs).
  { intros n bs. induction bs as [|p bs IH]; intro H; constructor.
    - cbn [flat_map] in H. rewrite zlen_app in H. zpos. lia.
    - apply IH. cbn [flat_map] in H. rewrite zlen_app in H. zpos. lia. }
  apply G. rewrite pieces_values, zlen_map. lia.
Qed.
Lemma few_sparse r : zlen r <= 30 -> run_sparse r = true.
Proof.
  intro H. unfold run_sparse, run_bytes. rewrite total_pieces.
  - rewrite pieces_values, zlen_map. pose proof (zlen_group_le 256 r).
    apply andb_true_intro. split; apply Z.ltb_lt; lia.
  - eapply Forall_impl; [|apply pieces_short]. cbn beta. intros; lia.
Qed.
Lemma few_ok i r : zlen r <= 30 -> no_twins r -> run_ok (i, r).
Proof.
  intros H T. unfold run_ok. cbn [fst snd]. rewrite (few_sparse r H). split; auto. split; [lia|].
  split; [|split; [|discriminate]].
  - intros _. eapply Forall_impl; [|apply pieces_short]. cbn beta. intros; lia.
  - intros _. pose proof (zlen_group_le 256 r). lia.
Qed.
Lemma pieces_image base l : forall g, g = group 256 l -> Forall (fun p => zlen (snd p) <= 30) g ->
  flat_map (fun p => map (fun x => base + 256 * (fst p mod 256) + x) (piece_image (snd p))) g
  = map (fun v => base + v mod 65536) l.
Proof.
  intros g Eg H.
  assert (E1 : flat_map (fun p => map (fun x => base + 256 * (fst p mod 256) + x) (piece_image (snd p))) g
    = flat_map (fun p => map (fun x => base + 256 * (fst p mod 256) + x) (snd p)) g).
  { clear Eg. induction g as [|p g IH]; auto. inversion H; subst. cbn [flat_map]. rewrite IH by auto.
    f_equal. unfold piece_image. destruct (Z.ltb_spec (zlen (snd p)) 31); [reflexivity|lia]. }
  rewrite E1, Eg. clear. induction l as [|v l IH]; auto. cbn [group map].
  assert (Ev : base + 256 * (v / 256 mod 256) + v mod 256 = base + v mod 65536) by lia.
  destruct (group 256 l) as [|[id vs] g].
  - cbn [flat_map fst snd map app] in *. rewrite <- IH, Ev. reflexivity.
  - destruct (Z.eqb_spec (v / 256) id) as [<-|N]; cbn [flat_map fst snd map app] in *; rewrite <- IH, Ev; reflexivity.
Qed.
Lemma few_image i r : zlen r <= 30 -> run_image (i, r) = map (fun v => 65536 * i + v mod 65536) r.
Proof.
  intro H. unfold run_image. cbn [fst snd]. rewrite (few_sparse r H). apply pieces_image; auto.
  eapply Forall_impl; [|apply pieces_short]. cbn beta. intros; lia.
Qed.
Lemma c43_few : forall L,
  Forall (fun c => zlen (snd c) <= 30 /\ no_twins (snd c)) (cuts L) ->
  Forall run_ok (cuts L)
  /\ kept L = flat_map (fun c => map (fun v => 65536 * fst c + v mod 65536) (snd c)) (cuts L).
Proof.
  intros L. unfold kept. induction (cuts L) as [|[i r] cs IH]; intro H; [split; auto|].
  inversion H as [|? ? [H1 H2] H3]; subst. cbn [snd] in *. destruct (IH H3) as [I1 I2]. split.
  - constructor; auto. apply few_ok; auto.
  - cbn [flat_map fst snd]. rewrite I2, few_image by auto. reflexivity.
Qed.

(** ** one chunk *)
Lemma upto_none b l : starts_from b l -> upto b l = [] /\ from b l = l.
Proof.
  destruct l as [|v l]; cbn [starts_from upto from]; auto. intro H.
  destruct (Z.ltb_spec v b); [lia|auto].
Qed.
Lemma upto_all b l : Forall (fun v => v < b) l -> upto b l = l /\ from b l = [].
Proof.
  induction l as [|v l IH]; intro H; auto. inversion H; subst. destruct (IH H3) as [E1 E2].
  cbn [upto from]. destruct (Z.ltb_spec v b); [|lia]. now rewrite E1, E2.
Qed.
Lemma runs_one c L : Forall (fun v => v / 65536 = c) L ->
  forall n i, i + Z.of_nat n = c + 1 -> (0 < n)%nat ->
  exists pre, runs n i L = pre ++ [(c, L)] /\ Forall (fun c => snd c = []) pre
    /\ from (65536 * (c + 1)) L = [].
Proof.
  intros H. assert (B : Forall (fun v => v < 65536 * (c + 1)) L /\ Forall (fun v => 65536 * c <= v) L).
  { split; (eapply Forall_impl; [|exact H]); cbn beta; intros; lia. }
  destruct B as [B1 B2].
  induction n; intros i Hi Hn; [lia|]. cbn [runs].
  destruct n as [|n].
  - exists []. cbn [runs app]. assert (i = c) by lia. subst i.
    destruct (upto_all _ _ B1) as [E1 E2]. rewrite E1, E2. auto.
  - assert (S1 : starts_from (65536 * (i + 1)) L).
    { apply starts_from_all. eapply Forall_impl; [|exact B2]. cbn beta. intros; lia. }
    destruct (upto_none _ _ S1) as [E1 E2]. rewrite E1, E2.
    destruct (IHn (i + 1)) as (pre & E & F & G); try lia. rewrite E. exists ((i, []) :: pre). auto.
Qed.
Lemma c43_one_chunk : forall out c L,
  L <> [] -> 0 <= c < 65535 -> Forall (fun v => v / 65536 = c) L -> zlen L <= 30 -> no_twins L ->
  exists st enc, (forall dbg, builder_build dbg out L = (Ok st, out ++ enc))
    /\ forall dbg mem a buf pos,
         bytes_at mem a enc -> a + zlen enc + 31 <= zlen mem ->
         0 <= pos -> pos + zlen L + 23 <= zlen buf ->
         exists s buf', seq_at mem a = Ok s /\ decode dbg mem s buf pos = Ok (buf', zlen L)
           /\ wrote 23 buf pos L buf'.
Proof.
  intros out c L Hne Hc HL Hz Ht.
  assert (Hr : Forall (fun v => 0 <= v < 4294901760) L).
  { eapply Forall_impl; [|exact HL]. cbn beta. intros; lia. }
  assert (EL : last_chunk L = c).
  { unfold last_chunk. rewrite Forall_forall in HL. apply HL. rewrite (last_split L Hne) at 2.
    apply in_or_app. right. left. reflexivity. }
  destruct (runs_one c L HL (Z.to_nat (c + 1)) 0) as (pre & E & F & G); try lia.
  assert (EC : cuts L = pre ++ [(c, L)]) by (unfold cuts; rewrite EL; exact E).
  assert (FW : Forall (fun c => zlen (snd c) <= 30 /\ no_twins (snd c)) (cuts L)).
  { rewrite EC. apply Forall_app. split; [|constructor; [cbn [snd]; auto|constructor]].
    eapply Forall_impl; [|exact F]. cbn beta. intros x ->. rewrite zlen_nil. split; [lia|exact I]. }
  destruct (c43_few L FW) as [K1 K2].
  assert (EK : kept L = L).
  { rewrite K2, EC, flat_map_app. cbn [flat_map fst snd]. rewrite app_nil_r.
    replace (flat_map (fun c0 : Z * list Z => map (fun v : Z => 65536 * fst c0 + v mod 65536) (snd c0)) pre) with (@nil Z).
    2:{ clear - F. induction pre as [|p pre IH]; auto. inversion F as [|? ? F1 F2]; subst. cbn [flat_map].
        rewrite F1. cbn [map app]. auto. }
    cbn [app]. rewrite <- (map_id L) at 2. apply map_ext_in. intros v Hv.
    rewrite Forall_forall in HL. specialize (HL v Hv). lia. }
  destruct (c43_unordered out L Hne Hr K1) as (st & enc & R & D & _ & Q).
  { rewrite EC. apply Exists_app. right. constructor. auto. }
  rewrite EK in Q. exists st, enc. split; auto. intros [|]; auto. apply D. split.
  - rewrite EC. apply Forall_app. split.
    + eapply Forall_impl; [|exact F]. intros x Ex. unfold run_above. rewrite Ex. constructor.
    + constructor; [|constructor]. unfold run_above. cbn [fst snd].
      eapply Forall_impl; [|exact HL]. cbn beta. intros; lia.
  - unfold lost. rewrite EL. exact G.
Qed.

(** ** a valid list followed by values that are not stored *)
Lemma no_delta cs : chunks_delta cs F_integers = 0 /\ chunks_delta cs F_chunks = 0.
Proof.
  induction cs as [|[h c] cs [I1 I2]]; [split; reflexivity|]. rewrite !chunks_delta_cons, I1, I2. unfold chunk_delta. cbn [snd].
  destruct (kind_of c); split; reflexivity.
Qed.
Lemma c43_tail : forall out P r R,
  valid P -> let L := P ++ r :: R in
  Forall (fun v => v < 65536 * (last L 0 / 65536 + 1)) P -> 65536 * (last L 0 / 65536 + 1) <= r ->
  0 <= last L 0 < 4294901760 ->
  builder_build true out L = (Abort, out)
  /\ exists st st' enc, builder_build false out L = (Ok st, out ++ enc)
       /\ builder_build false [] P = (Ok st', enc)
       /\ st F_integers = zlen L /\ st F_chunks = last L 0 / 65536 + 1
       /\ forall f, f <> F_integers -> f <> F_chunks -> f <> F_empty_chunks -> st f = st' f.
Proof.
  intros out P r R HP L HB Hr Hm.
  assert (Hne : L <> []) by (unfold L; destruct P; discriminate).
  pose proof (znth_last L Hne) as Em.
  set (n := last L 0 / 65536 + 1) in *. assert (Hn : 1 <= n <= 65535) by (unfold n; lia).
  assert (En : num_chunks (last L 0) = n).
  { unfold num_chunks. change M_Util.chunk_size with 65536. rewrite u32_id; unfold n; lia. }
  destruct (valid_chunks P HP) as (W & N & U & SC & LP).
  destruct HP as (PN & PS & PR).
  assert (EL : forall dbg, exists e, encode_sequence_chunks dbg L [] stats0
     = (let! _ := assert_ dbg false in Ok e) /\ e_header e = chdrs (chunks_of P)
     /\ e_tmp e = cdatas (chunks_of P)
     /\ forall g, e_stats e g = sadd F_chunks n (sadd F_integers (zlen L) (sadd F_sequences 1 stats0)) g
          + chunks_delta (chunks_of P) g + match g with F_empty_chunks => n - zlen (chunks_of P) | _ => 0 end).
  { intro dbg.
    destruct (encode_chunks_ok dbg (Z.to_nat n) 0 P (r :: R) [] []
      (sadd F_chunks n (sadd F_integers (zlen L) (sadd F_sequences 1 stats0)))) as (st1 & E1 & D1);
      auto; try lia.
    { rewrite Forall_forall in *. intros v Hv. specialize (PR v Hv). specialize (HB v Hv). cbn beta in *. lia. }
    { cbn [starts_from]. lia. }
    { left. discriminate. }
    cbn [app] in E1. change (u32 (0 * 65536 + 65536)) with 65536 in E1. change (0 * 65536) with 0 in E1.
    eexists. unfold encode_sequence_chunks. rewrite assert_ok by reflexivity. cbn [bind].
    unfold vget. rewrite Em. cbn [bind]. rewrite En. change M_Util.chunk_size with 65536.
    rewrite assert_ok by (apply andb_true_intro; split; [apply Z.ltb_lt|apply Z.leb_le]; lia).
    cbn [bind]. fold L in E1. rewrite E1. cbn [bind e_begin].
    replace (zlen (r :: R) =? 0) with false by (symmetry; apply Z.eqb_neq; zl).
    split; [reflexivity|]. cbn [e_header e_tmp e_stats]. split; [reflexivity|]. split; [reflexivity|].
    intro g. rewrite D1. destruct g; lia. }
  split.
  - destruct (EL true) as (e & E & _). unfold builder_build, encode_one, encode_sequence. rewrite E. reflexivity.
  - destruct (EL false) as (e & E & E1 & E2 & D). cbn [assert_ bind] in E.
    destruct (encode_sequence_finish false L [] stats0 out e (chunks_of P) E W E1 E2) as (st & E3 & D3).
    destruct (builder_ok false [] P (conj PN (conj PS PR))) as (st' & m & _ & E4 & D4).
    exists (finish_stats st), st', (layout (chunks_of P)).
    split; [|split; [exact E4|]].
    { unfold builder_build, encode_one. rewrite E3. cbn [bind].
      rewrite u16_id; [reflexivity|]. pose proof (chunks_le _ W). destruct (chunks_of P); [easy|zl]. }
    assert (D5 : forall g, st g = sadd F_chunks n (sadd F_integers (zlen L) (sadd F_sequences 1 stats0)) g
      + chunks_delta (chunks_of P) g + match g with F_empty_chunks => n - zlen (chunks_of P) | _ => 0 end
      + match g with F_chunks_header_bits => 64 * zlen (chunks_of P) + 16 + 64 * (zlen (chunks_of P) / 32) | _ => 0 end).
    { intro g. rewrite D3, D. reflexivity. }
    clear D D3 E3 EL E E1 E2. unfold finish_stats, sadd, sset, seq_delta, stats0 in *.
    split; [|split].
    + sfield. rewrite D5. sfield. rewrite (proj1 (no_delta _)). lia.
    + sfield. rewrite D5. sfield. rewrite (proj2 (no_delta _)). fold n. lia.
    + intros f H1 H2 H3. rewrite D4. destruct f; try congruence; sfield; rewrite ?D5; sfield; lia.
Qed.
