(** Proofs for C62: the text of build up to the end of the lists, or up to an exception. *)
From Coq Require Import Lia Sorted String Floats.SpecFloat.
From Verif Require Import Base Hw Spec Lib L_Bits L_Group Layout M_Util M_Build M_Seq M_Decode M_Query
  M_Index M_Print M_Drivers M_Tools M_Text M_Out M_Say M_Session Holds Format Shown Typed Printed Counts Report
  P_Build1 P_Build2 P_Build3 P_Index P_Malformed P_Text2 P_Text3 P_Out3 P_Say P_Say2 Session.
Local Open Scope Z_scope.

(** ** words and bytes *)
Lemma word_bytes w : is_u32 w -> exists b0 b1 b2 b3, le_bytes 4 w = [b0; b1; b2; b3]
  /\ b0 + 256 * (b1 + 256 * (b2 + 256 * b3)) = w.
Proof.
  intro H. unfold is_u32 in H. cbn [le_bytes]. do 4 eexists. split; [reflexivity|].
  pose proof (Z.div_mod w 256 ltac:(lia)). pose proof (Z.div_mod (w / 256) 256 ltac:(lia)).
  pose proof (Z.div_mod (w / 256 / 256) 256 ltac:(lia)). 
  rewrite (Z.mod_small (w / 256 / 256 / 256) 256); [lia|].
  rewrite !Z.div_div by lia. split; [apply Z.div_pos; lia|]. apply Z.div_lt_upper_bound; lia.
Qed.
Lemma words_bytes ws : Forall is_u32 ws -> words_in (bytes_of_u32s ws) = ws.
Proof.
  induction 1 as [|w ws Hw _ IH]; [reflexivity|]. unfold bytes_of_u32s in *. cbn [flat_map].
  destruct (word_bytes w Hw) as (b0 & b1 & b2 & b3 & -> & E). cbn [app words_in]. now rewrite IH, E.
Qed.

(** ** the monad *)
Lemma then_quiet {A B} (r : res A) (k : A -> prog B) d a : r = Ok a -> then_ (quiet r) k d = k a d.
Proof. intros ->. unfold then_, quiet. now destruct (k a d) as [[t d'] r']. Qed.
Lemma then_cout {B} t (k : unit -> prog B) d : then_ (cout t) k d = (t ++ fst (fst (k tt d)), snd (fst (k tt d)), snd (k tt d)).
Proof. unfold then_, cout. now destruct (k tt d) as [[t' d'] r']. Qed.

(** ** the loop *)
Definition forget {A} (r : res (A * statistics * list Z * list Z)) : res (statistics * list Z * list Z) :=
  match r with
  | Ok (_, st, o, q) => Ok (st, o, q) | Throw => Throw | Abort => Abort | UB => UB | Fuel => Fuel
  end.
Lemma saying_same dbg params data : forall fuel i block st o q d,
  exists t, build_saying fuel dbg params data i block st o q d
            = (t, d, forget (index_build_loop fuel dbg params data i block st o q)).
Proof.
  induction fuel as [|fuel IH]; intros i block st o q d; cbn [build_saying index_build_loop];
    destruct (i <? zlen data); try (eexists; reflexivity).
  destruct (vget data i) as [n| | | |]; try (eexists; reflexivity). rewrite (then_quiet _ _ _ n eq_refl). cbn [bind].
  destruct (vget data (i + n)) as [u| | | |]; try (eexists; reflexivity). rewrite (then_quiet _ _ _ u eq_refl). cbn [bind].
  destruct (pass params n u); [|cbn [bind]; apply IH].
  destruct (encode_sequence _ _ _ _ _) as [[[b1 s1] q1]| | | |]; try (eexists; reflexivity).
  rewrite (then_quiet _ _ _ _ eq_refl). cbn [bind]. rewrite then_cout.
  destruct (IH (i + u32 (n + 1)) b1 s1 (o ++ [zlen q1]) q1 d) as (t & ->). eexists. reflexivity.
Qed.

Definition tick (k : Z) : list Z := if k mod 1000 =? 0 then say_count "processed " k " sequences" else [].
Definition ticks (k : Z) (n : nat) : list Z := flat_map tick (zrange (k + 1) n).
Lemma ticks_counts n : ticks 0 n = counts "processed " n.
Proof.
  induction n as [|n IH]; [reflexivity|]. unfold ticks in *. rewrite zrange_snoc, flat_map_app, IH. cbn [counts flat_map].
  rewrite app_nil_r. replace (0 + 1 + Z.of_nat n) with (Z.of_nat (S n)) by lia. reflexivity.
Qed.

Lemma saying_prefix dbg params : forall Ls fuel pre rest st offs seqs d,
  Forall valid (filter (keep params) Ls) -> Forall short Ls ->
  exists st' offs' seqs',
    build_saying (length Ls + fuel) dbg params (pre ++ wds Ls ++ rest) (zlen pre) [] st offs seqs d
    = then_ (cout (ticks (st F_sequences) (length (filter (keep params) Ls))))
        (fun _ => build_saying fuel dbg params (pre ++ wds Ls ++ rest) (zlen (pre ++ wds Ls)) [] st' offs' seqs') d.
Proof.
  induction Ls as [|L Ls IH]; intros fuel pre rest st offs seqs d V HS.
  - exists st, offs, seqs. cbn [wds flat_map length Nat.add app filter ticks]. rewrite app_nil_r, then_cout.
    cbn [ticks zrange flat_map app]. now destruct (build_saying _ _ _ _ _ _ _ _ _ _) as [[? ?] ?].
  - set (data := pre ++ wds (L :: Ls) ++ rest).
    assert (ED : data = pre ++ zlen L :: L ++ wds Ls ++ rest)
      by (unfold data, wds; cbn [flat_map app]; now rewrite <- app_assoc).
    assert (ED2 : data = (pre ++ zlen L :: L) ++ wds Ls ++ rest) by (rewrite ED, <- app_assoc; reflexivity).
    assert (EQ : pre ++ wds (L :: Ls) = (pre ++ zlen L :: L) ++ wds Ls)
      by (unfold wds; cbn [flat_map]; rewrite <- !app_assoc; reflexivity).
    rewrite EQ. clearbody data. zpos.
    assert (E0 : vget data (zlen pre) = Ok (zlen L)).
    { unfold vget. rewrite ED, znth_app_r by lia. now rewrite Z.sub_diag, znth_cons_0. }
    assert (E1 : vget data (zlen pre + zlen L) = Ok (last L 0)).
    { clear HS. unfold vget. rewrite ED, znth_app_r by lia.
      replace (zlen pre + zlen L - zlen pre) with (zlen L) by lia.
      destruct L as [|x L]; [reflexivity|]. rewrite znth_cons_pos by zl.
      rewrite znth_app_l by zl. now rewrite last_znth. }
    assert (ES : firstn (Z.to_nat (zlen L)) (skipn (Z.to_nat (zlen pre + 1)) data) = L).
    { rewrite ED. replace (Z.to_nat (zlen pre + 1)) with (length pre + 1)%nat by (unfold zlen; lia).
      rewrite skipn_app, skipn_all2 by lia. replace (length pre + 1 - length pre)%nat with 1%nat by lia.
      cbn [skipn app]. replace (Z.to_nat (zlen L)) with (length L) by (unfold zlen; lia).
      rewrite firstn_app, firstn_all, Nat.sub_diag. cbn [firstn]. apply app_nil_r. }
    assert (EP : zlen pre + u32 (zlen L + 1) = zlen (pre ++ zlen L :: L))
      by (rewrite u32_short by exact (Forall_inv HS); zl).
    assert (EL : zlen pre <? zlen data = true).
    { apply Z.ltb_lt. rewrite ED, !zlen_app, zlen_cons. pose proof (zlen_nonneg _ (L ++ wds Ls ++ rest)). lia. }
    apply Forall_inv_tail in HS.
    cbn [length Nat.add build_saying]. rewrite EL, (then_quiet _ _ _ _ E0), (then_quiet _ _ _ _ E1).
    fold (keep params L). rewrite EP. cbn [filter] in V |- *. destruct (keep params L) eqn:K.
    + pose proof (Forall_inv V) as V1. apply Forall_inv_tail in V as V2. rewrite ES.
      destruct (encode_sequence_ok' dbg L st seqs V1) as (st1 & EE & D1). rewrite (then_quiet _ _ _ _ EE), then_cout.
      destruct (IH fuel (pre ++ zlen L :: L) rest st1 (offs ++ [zlen (seqs ++ lay L)]) (seqs ++ lay L) d V2 HS)
        as (st2 & o2 & q2 & E2). rewrite <- ED2 in E2. rewrite E2. exists st2, o2, q2. rewrite !then_cout.
      cbn [fst snd length]. rewrite app_assoc. 
      assert (F : st1 F_sequences = st F_sequences + 1) by (rewrite D1, P_Counts.delta_counts by (auto; discriminate); reflexivity). rewrite F.
      unfold ticks. cbn [zrange flat_map]. reflexivity.
    + destruct (IH fuel (pre ++ zlen L :: L) rest st offs seqs d V HS) as (st2 & o2 & q2 & E2).
      rewrite <- ED2 in E2. rewrite E2. eauto.
Qed.

(** ** files *)
Lemma file_of_has d name b : file_of d name = Some b <-> has_file d name b.
Proof.
  unfold has_file. induction d as [|[n c] d IH]; cbn [file_of].
  - split; [discriminate|]. intros (p & q & E & _). now destruct p.
  - destruct (list_eq_dec Z.eq_dec name n) as [->|NE].
    + split.
      * intros [= ->]. exists [], d. split; [reflexivity|]. intros [].
      * intros (p & q & E & H). destruct p as [|[m e] p]; [now injection E as -> ->|]. injection E as -> -> E.
        destruct H. now left.
    + rewrite IH. split.
      * intros (p & q & -> & H). exists ((n, c) :: p), q. split; [reflexivity|]. cbn [map fst]. intros [E|E]; [congruence|auto].
      * intros (p & q & E & H). destruct p as [|[m e] p]; [injection E as -> ->; contradiction|]. injection E as -> -> E.
        exists p, q. split; [exact E|]. intro I. apply H. now right.
Qed.
Lemma file_of_no d name : no_file d name -> file_of d name = None.
Proof.
  unfold no_file. induction d as [|[n c] d IH]; intro H; [reflexivity|]. cbn [file_of].
  destruct (list_eq_dec Z.eq_dec name n) as [->|NE]; [destruct H; now left|]. apply IH. intro I. apply H. now right.
Qed.
Lemma saved_cons d name b : saved d name b ((name, b) :: d).
Proof.
  split.
  - exists [], d. split; [reflexivity|]. intros [].
  - intros n H b'. rewrite <- !file_of_has. cbn [file_of]. destruct (list_eq_dec Z.eq_dec n name); [contradiction|reflexivity].
Qed.
Lemma words32_bytes ws : bytes_of_u32s ws = words32 ws.
Proof.
  induction ws as [|w ws IH]; [reflexivity|]. unfold bytes_of_u32s, words32 in *. cbn [flat_map]. rewrite IH. f_equal.
  cbn [le_bytes]. rewrite !Z.div_div by lia. reflexivity.
Qed.

(** ** the builder *)
Definition begun nan u n : list Z := ptext nan (begun_lines u n).
Lemma begun_page nan u n : 0 <= u -> page nan (begun_lines u n) (begun nan u n).
Proof.
  intro H. apply ptext_page. unfold begun_lines. constructor; [repeat constructor; auto|].
  apply Forall_forall. intros l Hl. apply in_map_iff in Hl as (k & <- & Hk). apply In_zrange in Hk. repeat constructor. cbn [nonneg]. lia.
Qed.
Lemma progress_ticks nan n :
  ticks 0 n = ptext nan (map (fun k => [W "processed "; N (1000 * k); W " sequences"]) (zrange 1 (Z.to_nat (Z.of_nat n / 1000)))).
Proof.
  rewrite ticks_counts, counts_text, <- !progress_text. reflexivity.
Qed.
Lemma begun_text nan u n :
  (codes "universe size: " ++ show u ++ endl) ++ ticks 0 n = begun nan u (Z.of_nat n).
Proof.
  rewrite (progress_ticks nan). unfold begun, begun_lines. unfold ptext at 2. cbn [flat_map]. unfold ltext at 1.
  cbn [map concat text]. rewrite app_nil_r, <- !app_assoc. reflexivity.
Qed.

Lemma builder_same dbg params data d : exists t, builder_saying dbg params data d = (t, d, index_build dbg params data).
Proof.
  unfold builder_saying, index_build.
  destruct (vget data 0) as [d0| | | |]; try (eexists; reflexivity). rewrite (then_quiet _ _ _ _ eq_refl). cbn [bind].
  destruct (assert_ dbg (d0 =? 1)) as [x| | | |]; try (eexists; reflexivity). rewrite (then_quiet _ _ _ _ eq_refl). cbn [bind].
  destruct (vget data 1) as [d1| | | |]; try (eexists; reflexivity). rewrite (then_quiet _ _ _ _ eq_refl), then_cout. cbn [bind app].
  unfold then_ at 1 2 3.
  destruct (saying_same dbg params data (length data) 2 [] stats0 [d1; 0] [] d) as (t & ->).
  destruct (index_build_loop _ _ _ _ _ _ _ _ _) as [[[[b st] o] q]| | | |]; eexists; reflexivity.
Qed.

Definition finished (p : statistics * list Z * list Z) : prog (statistics * list Z * list Z) :=
  let '(stats, m_offsets, m_sequences) := p in
  let m_offsets := removelast m_offsets in
  quiet (Ok (sadd F_bits (zlen m_offsets * 64) (finish_stats stats), m_offsets, m_sequences)).
Lemma builder_prefix nan dbg params u Ls rest d :
  Forall valid (kept_lists params Ls) -> Forall short Ls ->
  exists f st o q, builder_saying dbg params (collection u Ls ++ rest) d
    = then_ (cout (begun nan u (zlen (kept_lists params Ls))))
        (fun _ => then_ (build_saying (2 + f) dbg params (collection u Ls ++ rest) (zlen (collection u Ls)) [] st o q) finished) d.
Proof.
  intros V HS.
  destruct (length_split Ls 1 u rest) as (f & EF).
  destruct (saying_prefix dbg params Ls (2 + f) [1; u] rest stats0 [u; 0] [] d V HS) as (st & o & q & E1).
  change ([1; u] ++ wds Ls ++ rest) with (collection u Ls ++ rest) in E1. change ([1; u] ++ wds Ls) with (collection u Ls) in E1.
  change (1 :: u :: wds Ls ++ rest) with (collection u Ls ++ rest) in EF. change (zlen [1; u]) with 2 in E1.
  exists f, st, o, q. unfold builder_saying. change (vget (collection u Ls ++ rest) 0) with (Ok 1).
  rewrite (then_quiet _ _ _ _ eq_refl), (then_quiet _ _ _ tt) by now destruct dbg.
  change (vget (collection u Ls ++ rest) 1) with (Ok u). rewrite (then_quiet _ _ _ _ eq_refl), !then_cout.
  assert (G : forall y A B (x : prog A) (k : A -> prog B),
     then_ (fun d => then_ (cout y) (fun _ => x) d) k d
     = (y ++ fst (fst (then_ x k d)), snd (fst (then_ x k d)), snd (then_ x k d))).
  { intros. unfold then_, cout. destruct (x d) as [[tx dx] [a| | | |]]; try reflexivity.
    destruct (k a dx) as [[tk dk] rk]. cbn [fst snd]. now rewrite app_assoc. }
  assert (X : then_ (build_saying (length (collection u Ls ++ rest)) dbg params (collection u Ls ++ rest) 2 [] stats0 [u; 0] []) finished d
    = (ticks 0 (length (filter (keep params) Ls))
       ++ fst (fst (then_ (build_saying (2 + f) dbg params (collection u Ls ++ rest) (zlen (collection u Ls)) [] st o q) finished d)),
       snd (fst (then_ (build_saying (2 + f) dbg params (collection u Ls ++ rest) (zlen (collection u Ls)) [] st o q) finished d)),
       snd (then_ (build_saying (2 + f) dbg params (collection u Ls ++ rest) (zlen (collection u Ls)) [] st o q) finished d))).
  { rewrite <- G. unfold then_ at 1 2. rewrite EF, E1. reflexivity. }
  match goal with |- context [then_ (build_saying (length _) _ _ _ _ _ _ _ _) ?K d] => change K with finished end. rewrite X. cbn [fst snd]. rewrite app_assoc.
  change (filter (keep params) Ls) with (kept_lists params Ls). now rewrite (begun_text nan).
Qed.

(** the lists are all there *)
Lemma builder_complete nan dbg params u Ls d :
  Forall valid (kept_lists params Ls) -> Forall short Ls ->
  builder_saying dbg params (collection u Ls) d
  = (begun nan u (zlen (kept_lists params Ls)), d, index_build dbg params (collection u Ls)).
Proof.
  intros V HS. destruct (builder_prefix nan dbg params u Ls [] d V HS) as (f & st & o & q & E). rewrite app_nil_r in E.
  assert (X : build_saying (2 + f) dbg params (collection u Ls) (zlen (collection u Ls)) [] st o q = quiet (Ok (st, o, q))).
  { cbn [build_saying Nat.add]. now rewrite Z.ltb_irrefl. }
  rewrite X, then_cout, (then_quiet _ _ _ _ eq_refl) in E. cbn [finished quiet fst snd] in E. rewrite app_nil_r in E.
  destruct (builder_same dbg params (collection u Ls) d) as (t & E'). rewrite E in E'. rewrite E. injection E' as _ ->. reflexivity.
Qed.

(** a list with a repetition *)
Lemma builder_dup nan dbg params u Ls L Ls' d :
  Forall valid (kept_lists params Ls) -> Forall short Ls -> keep params L = true ->
  L <> [] -> StronglySorted Z.le L -> ~ NoDup L -> Forall (fun v => 0 <= v < 4294901760) L ->
  builder_saying dbg params (collection u (Ls ++ L :: Ls')) d
  = (begun nan u (zlen (kept_lists params Ls)), d, Throw).
Proof.
  intros V HS K N HL D B.
  assert (ED : collection u (Ls ++ L :: Ls') = collection u Ls ++ zlen L :: L ++ wds Ls').
  { unfold collection, wds. rewrite flat_map_app. reflexivity. }
  rewrite ED. destruct (builder_prefix nan dbg params u Ls (zlen L :: L ++ wds Ls') d V HS) as (f & st & o & q & E).
  set (pre := collection u Ls) in *. set (data := pre ++ zlen L :: L ++ wds Ls') in *. zpos.
  assert (EL : zlen pre <? zlen data = true) by (apply Z.ltb_lt; unfold data; zl).
  assert (E0 : vget data (zlen pre) = Ok (zlen L)).
  { unfold vget, data. rewrite znth_app_r by lia. now rewrite Z.sub_diag, znth_cons_0. }
  assert (E1 : vget data (zlen pre + zlen L) = Ok (last L 0)).
  { clear - N. unfold vget, data. zpos. rewrite znth_app_r by lia.
    replace (zlen pre + zlen L - zlen pre) with (zlen L) by lia. clearbody pre.
    destruct L as [|x L]; [reflexivity|]. rewrite znth_cons_pos by zl.
    rewrite znth_app_l by zl. now rewrite last_znth. }
  assert (ES : firstn (Z.to_nat (zlen L)) (skipn (Z.to_nat (zlen pre + 1)) data) = L).
  { unfold data. replace (Z.to_nat (zlen pre + 1)) with (length pre + 1)%nat by (unfold zlen; lia).
    rewrite skipn_app, skipn_all2 by lia. replace (length pre + 1 - length pre)%nat with 1%nat by lia.
    cbn [skipn app]. replace (Z.to_nat (zlen L)) with (length L) by (unfold zlen; lia).
    rewrite firstn_app, firstn_all, Nat.sub_diag. cbn [firstn]. apply app_nil_r. }
  assert (STEP : forall st o q, build_saying (2 + f) dbg params data (zlen pre) [] st o q d = ([], d, Throw)).
  { intros st0 o0 q0. cbn [Nat.add build_saying]. rewrite EL, (then_quiet _ _ _ _ E0), (then_quiet _ _ _ _ E1).
    fold (keep params L). rewrite K, ES, encode_sequence_dup by auto. reflexivity. }
  rewrite E, then_cout. unfold then_. rewrite STEP. cbn [fst snd]. now rewrite app_nil_r.
Qed.

(** a list that is cut off *)
Lemma builder_cut nan dbg params u Ls n R d :
  Forall valid (kept_lists params Ls) -> Forall short Ls -> zlen R < n ->
  builder_saying dbg params (collection u Ls ++ n :: R) d = (begun nan u (zlen (kept_lists params Ls)), d, UB).
Proof.
  intros V HS HR. destruct (builder_prefix nan dbg params u Ls (n :: R) d V HS) as (f & st & o & q & E).
  set (pre := collection u Ls) in *. set (data := pre ++ n :: R) in *. zpos.
  assert (EL : zlen pre <? zlen data = true) by (apply Z.ltb_lt; unfold data; zl).
  assert (E0 : vget data (zlen pre) = Ok n).
  { unfold vget, data. rewrite znth_app_r by lia. now rewrite Z.sub_diag, znth_cons_0. }
  assert (E1 : vget data (zlen pre + n) = UB).
  { unfold vget. rewrite (proj2 (znth_None _ data (zlen pre + n))); [reflexivity|]. right. unfold data. zl. }
  assert (STEP : forall st o q, build_saying (2 + f) dbg params data (zlen pre) [] st o q d = ([], d, UB)).
  { intros st0 o0 q0. cbn [Nat.add build_saying]. rewrite EL, (then_quiet _ _ _ _ E0), E1. reflexivity. }
  rewrite E, then_cout. unfold then_. rewrite STEP. cbn [fst snd]. now rewrite app_nil_r.
Qed.
