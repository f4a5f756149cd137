(** C22: threads that share the static vector of ds_intersect_chunk. *)
From Verif Require Import Base Hw Spec Format Lib L_Bits L_Group Layout M_Util M_Build M_Seq M_Decode
  M_Uncompress M_Intersect M_Calls M_Conc P_Seq P_Decode P_Uncompress P_Sets P_Inter P_Stats P_Format P_Fin1 P_Fin2 P_Scratch P_Ex.
From Coq Require Import Lia.

(** ** a thread that is never interrupted is the sequential model *)
Lemma vget_bind A x i (f : Z -> res A) : match vget x i with Ok v => f v | _ => UB end = bind (vget x i) f.
Proof. unfold vget. destruct (znth x i); reflexivity. Qed.
Lemma vset_bind A x i v (f : list Z -> res A) : match vset x i v with Ok x => f x | _ => UB end = bind (vset x i v) f.
Proof. unfold vset, store. destruct (_ && _); reflexivity. Qed.
Lemma alone_get A x i (k : Z -> prog A) : alone x (Get i k) = bind (vget x i) (fun v => alone x (k v)).
Proof. cbn [alone]. apply vget_bind. Qed.
Lemma alone_put A x i v (k : prog A) : alone x (Put i v k) = bind (vset x i v) (fun x => alone x k).
Proof. cbn [alone]. apply vset_bind. Qed.
Lemma bind_assoc A B C (r : res A) (f : A -> res B) (g : B -> res C) :
  bind (bind r f) g = bind r (fun a => bind (f a) g).
Proof. destruct r; reflexivity. Qed.
Lemma bind_ext A B (r : res A) (f g : A -> res B) : (forall a, r = Ok a -> f a = g a) -> bind r f = bind r g.
Proof. destruct r; cbn [bind]; auto. Qed.
Lemma alone_bind A B (p : prog A) (f : A -> prog B) : forall x,
  alone x (pbind p f) = let! q := alone x p in alone (fst q) (f (snd q)).
Proof.
  induction p as [r|i k IH|i v k IH]; intro x.
  - destruct r; reflexivity.
  - cbn [pbind]. rewrite !alone_get, bind_assoc. apply bind_ext. intros v _. apply IH.
  - cbn [pbind]. rewrite !alone_put, bind_assoc. apply bind_ext. intros y _. apply IH.
Qed.
Lemma alone_ret A B (r : res A) (f : A -> prog B) x : alone x (pbind (Ret r) f) = let! a := r in alone x (f a).
Proof. destruct r; reflexivity. Qed.

Definition tag {A} (r : res A) (x : list Z) : res (list Z * A) := let! a := r in Ok (x, a).

Lemma usb_alone mem e pos : forall fuel b x,
  alone x (uncompress_sparse_block_c fuel mem b e pos)
  = let! x := uncompress_sparse_block_loop fuel mem b e x pos in Ok (x, tt).
Proof.
  induction fuel as [|f IH]; intros b x; cbn [uncompress_sparse_block_c uncompress_sparse_block_loop]; [reflexivity|].
  rewrite alone_ret, !bind_assoc. apply bind_ext. intros p _. rewrite alone_get, !bind_assoc.
  apply bind_ext. intros v _. rewrite alone_put, !bind_assoc. apply bind_ext. intros y _.
  destruct (b + 1 =? e); [reflexivity|]. apply IH.
Qed.
Lemma skipn_skipn A a : forall b (l : list A), skipn a (skipn b l) = skipn (a + b) l.
Proof.
  induction b as [|b IH]; intros l; [now rewrite Nat.add_0_r|]. rewrite Nat.add_succ_r.
  destruct l as [|y l]; [now rewrite !skipn_nil|]. apply IH.
Qed.
Lemma store_cons x i w ws : ws <> [] -> store x i (w :: ws) = let! y := vset x i w in store y (i + 1) ws.
Proof.
  intro H. assert (1 <= zlen ws) by (destruct ws; [congruence|]; rewrite zlen_cons; pose proof (zlen_nonneg _ ws); lia).
  unfold vset, store at 1 2. rewrite zlen_cons. change (zlen [w]) with 1.
  destruct (Z.leb_spec 0 i) as [G0|G0], (Z.leb_spec (i + (zlen ws + 1)) (zlen x)) as [G1|G1]; cbn [andb].
  - destruct (Z.leb_spec (i + 1) (zlen x)); [|lia]. cbn [bind]. unfold store.
    assert (L : zlen (firstn (Z.to_nat i) x ++ [w] ++ skipn (Z.to_nat (i + 1)) x) = zlen x).
    { rewrite !zlen_app, zlen_firstn, zlen_skipn by lia. change (zlen [w]) with 1. lia. }
    rewrite L. destruct (Z.leb_spec 0 (i + 1)); [|lia].
    destruct (Z.leb_spec (i + 1 + zlen ws) (zlen x)); [|lia]. cbn [andb]. f_equal.
    assert (Lf : length (firstn (Z.to_nat i) x) = Z.to_nat i) by (rewrite firstn_length; unfold zlen in *; lia).
    rewrite (app_assoc _ [w]). rewrite firstn_app, skipn_app.
    assert (Lw : length (firstn (Z.to_nat i) x ++ [w]) = Z.to_nat (i + 1)) by (rewrite app_length, Lf; cbn [length]; lia).
    rewrite Lw. rewrite (firstn_all2 (n := Z.to_nat (i + 1)) (firstn (Z.to_nat i) x ++ [w])) by lia. rewrite Nat.sub_diag, firstn_O, app_nil_r.
    rewrite (skipn_all2 (n := Z.to_nat (i + 1 + zlen ws)) (firstn (Z.to_nat i) x ++ [w])) by lia. rewrite app_nil_l, skipn_skipn.
    replace (Z.to_nat (i + 1 + zlen ws) - Z.to_nat (i + 1) + Z.to_nat (i + 1))%nat with (Z.to_nat (i + (zlen ws + 1))) by lia.
    rewrite <- !app_assoc. reflexivity.
  - destruct (Z.leb_spec (i + 1) (zlen x)); [|reflexivity]. cbn [bind]. unfold store.
    assert (L : zlen (firstn (Z.to_nat i) x ++ [w] ++ skipn (Z.to_nat (i + 1)) x) = zlen x).
    { rewrite !zlen_app, zlen_firstn, zlen_skipn by lia. change (zlen [w]) with 1. lia. }
    rewrite L. destruct (Z.leb_spec (i + 1 + zlen ws) (zlen x)); [lia|]. now rewrite andb_false_r.
  - reflexivity.
  - reflexivity.
Qed.
Lemma put_alone : forall ws i x, ws <> [] ->
  alone x (put_words i ws) = let! x := store x i ws in Ok (x, tt).
Proof.
  induction ws as [|w ws IH]; intros i x H; [congruence|]. cbn [put_words]. rewrite alone_put.
  destruct ws as [|w' ws]; [reflexivity|]. rewrite (store_cons x i w) by discriminate.
  rewrite bind_assoc. apply bind_ext. intros y _. apply IH. discriminate.
Qed.
Lemma usc_loop_alone mem : forall n b d w p x,
  alone x (uncompress_sparse_chunk_loop_c n mem b d w p)
  = let! x := uncompress_sparse_chunk_loop n mem b d w p x in Ok (x, tt).
Proof.
  induction n as [|n IH]; intros b d w p x; cbn [uncompress_sparse_chunk_loop_c uncompress_sparse_chunk_loop]; [reflexivity|].
  rewrite alone_ret, !bind_assoc. apply bind_ext. intros id _.
  rewrite alone_ret, !bind_assoc. apply bind_ext. intros c _. cbv zeta.
  rewrite alone_bind. destruct (block_type (c + 1) =? t_sparse).
  - rewrite usb_alone. unfold uncompress_sparse_block. rewrite !bind_assoc. apply bind_ext. intros y _. apply IH.
  - rewrite alone_ret. unfold uncompress_dense_block, memcpy_words. rewrite !bind_assoc. apply bind_ext. intros ws E.
    rewrite put_alone, !bind_assoc.
    + apply bind_ext. intros y _. apply IH.
    + apply load_words_len in E. intros ->. vm_compute in E. discriminate.
Qed.
Lemma usc_alone dbg mem b n x :
  alone x (uncompress_sparse_chunk_c dbg mem b n) = let! x := uncompress_sparse_chunk dbg mem b n x 0 in Ok (x, tt).
Proof.
  unfold uncompress_sparse_chunk_c, uncompress_sparse_chunk. rewrite alone_ret, bind_assoc. apply bind_ext. intros _ _.
  apply usc_loop_alone.
Qed.
Lemma and_alone l pos x : forall n i base buf size,
  alone x (and_bitmap_loop_c n l i base buf pos size)
  = tag (bitmap_loop n (fun i => let! a := l i in let! b := words_vec x i in Ok (Z.land a b)) i base buf pos size) x.
Proof.
  unfold tag, words_vec. induction n as [|n IH]; intros i base buf size; cbn [and_bitmap_loop_c bitmap_loop]; [reflexivity|].
  rewrite alone_ret, !bind_assoc. apply bind_ext. intros a _. rewrite alone_get, !bind_assoc.
  apply bind_ext. intros b _. cbn [bind]. rewrite alone_ret, bind_assoc.
  apply bind_ext. intros [buf' size'] _. apply IH.
Qed.
Definition regroup (r : res (list Z * list Z * Z)) : res (list Z * (list Z * Z)) :=
  let! (x, out, n) := r in Ok (x, (out, n)).
Lemma ds_alone dbg mem l r b base x out pos : zlen x = 1024 ->
  alone x (ds_intersect_chunk_c dbg mem l r b base out pos)
  = regroup (ds_intersect_chunk dbg mem l r b base x out pos).
Proof.
  intro H. unfold ds_intersect_chunk_c, ds_intersect_chunk, regroup.
  rewrite alone_bind, put_alone.
  - change chunk_size_in_64bit_words with 1024.
    rewrite store_all by (rewrite zlen_repeat, Z2Nat.id; lia). cbn [bind fst snd].
    replace (length x) with (Z.to_nat 1024) by (unfold zlen in H; lia).
    rewrite alone_bind, usc_alone, !bind_assoc. apply bind_ext. intros y _. cbn [bind fst snd].
    rewrite and_alone. unfold tag, and_bitmaps. rewrite bind_assoc. apply bind_ext. intros [o n] _. reflexivity.
  - intro E. apply (f_equal (@length _)) in E. rewrite repeat_length in E. vm_compute in E. discriminate.
Qed.
Lemma ic_alone tbl dbg mem itl itr base x out pos : zlen x = 1024 ->
  alone x (intersect_chunks_c tbl dbg mem itl itr base out pos)
  = regroup (intersect_chunks tbl dbg mem itl itr base x out pos).
Proof.
  intro H. unfold intersect_chunks_c, intersect_chunks. unfold regroup at 1.
  rewrite alone_ret, bind_assoc. apply bind_ext. intros tl _.
  rewrite alone_ret, bind_assoc. apply bind_ext. intros tr _. cbv zeta.
  repeat match goal with |- context [if ?p =? ?q then _ else _] => destruct (p =? q) end;
    repeat match goal with
    | |- alone _ (Ret UB) = _ => reflexivity
    | |- alone _ (Ret ?r) = _ => generalize r; intros [[o k]| | | |]; reflexivity
    | |- alone _ (pbind (Ret _) _) = _ => rewrite alone_ret, bind_assoc; apply bind_ext; intros ? _
    | |- alone _ (if ?b then _ else _) = _ => destruct b
    | |- alone _ (ds_intersect_chunk_c _ _ _ _ _ _ _ _) = _ => rewrite ds_alone by exact H; reflexivity
    end.
Qed.
Lemma ic_len tbl dbg mem itl itr base x out pos x' out' n : zlen x = 1024 ->
  intersect_chunks tbl dbg mem itl itr base x out pos = Ok (x', out', n) -> zlen x' = 1024.
Proof.
  intros H E. pose proof (intersect_chunks_sim tbl dbg mem itl itr base x x out pos H H) as S.
  rewrite E in S. apply S.
Qed.
Lemma loop_alone tbl dbg mem : forall fuel itl itr x out pos, zlen x = 1024 ->
  alone x (pairwise_intersection_loop_c fuel tbl dbg mem itl itr out pos)
  = regroup (pairwise_intersection_loop fuel tbl dbg mem itl itr x out pos).
Proof.
  induction fuel as [|f IH]; intros itl itr x out pos H; cbn [pairwise_intersection_loop_c pairwise_intersection_loop];
    destruct (it_has_next itl && it_has_next itr); try reflexivity.
  unfold regroup at 1. rewrite alone_ret, bind_assoc. apply bind_ext. intros il _.
  rewrite alone_ret, bind_assoc. apply bind_ext. intros ir _. cbv zeta.
  destruct (u16 il =? u16 ir); [|destruct (u16 il <? u16 ir)].
  - rewrite alone_bind, ic_alone by auto. unfold regroup. rewrite !bind_assoc.
    apply bind_ext. intros [[y o] n] E. apply ic_len in E; auto. cbn [bind fst snd].
    rewrite alone_ret, bind_assoc. apply bind_ext. intros itl' _.
    rewrite alone_ret, bind_assoc. apply bind_ext. intros itr' _. apply IH. auto.
  - rewrite alone_ret, bind_assoc. apply bind_ext. intros itl' _. apply IH. auto.
  - rewrite alone_ret, bind_assoc. apply bind_ext. intros itr' _. apply IH. auto.
Qed.
Lemma c22_alone tbl dbg mem l r x out pos : zlen x = 1024 ->
  alone x (pairwise_intersection_c tbl dbg mem l r out pos)
  = let! (x, out, n) := pairwise_intersection tbl dbg mem l r x out pos in Ok (x, (out, n)).
Proof.
  intro H. unfold pairwise_intersection_c, pairwise_intersection. cbv zeta.
  rewrite alone_bind, loop_alone by auto. unfold regroup. rewrite !bind_assoc.
  apply bind_ext. intros [[y o] e] _. reflexivity.
Qed.

(** ** one thread uses the vector *)
Definition outcome {A} (x : list Z) (p : prog A) : res A := let! (_, a) := alone x p in Ok a.
Definition quiet {A} (p : prog A) : Prop := exists r, p = Ret r.

Lemma outcome_ret A x (r : res A) : outcome x (Ret r) = r.
Proof. destruct r; reflexivity. Qed.
Lemma step_alone A x (p : prog A) : alone (fst (step x p)) (snd (step x p)) = alone x p.
Proof.
  destruct p as [r|i k|i v k]; cbn [step].
  - reflexivity.
  - cbn [alone]. destruct (vget x i); reflexivity.
  - cbn [alone]. destruct (vset x i v); reflexivity.
Qed.
Lemma step_nth_quiet A x : forall (ts : list (prog A)) i,
  (forall p, nth_error ts i = Some p -> quiet p) -> step_nth x ts i = (x, ts).
Proof.
  induction ts as [|p ts IH]; intros i H; [destruct i; reflexivity|]. destruct i as [|i]; cbn [step_nth].
  - destruct (H p eq_refl) as [r ->]. reflexivity.
  - rewrite IH; [reflexivity|]. exact H.
Qed.
Lemma step_nth_one A x : forall (ts : list (prog A)) i p, nth_error ts i = Some p ->
  fst (step_nth x ts i) = fst (step x p)
  /\ nth_error (snd (step_nth x ts i)) i = Some (snd (step x p))
  /\ forall j, j <> i -> nth_error (snd (step_nth x ts i)) j = nth_error ts j.
Proof.
  induction ts as [|q ts IH]; intros i p H; [destruct i; discriminate|]. destruct i as [|i]; cbn [step_nth nth_error] in *.
  - injection H as ->. destruct (step x p) as [y p']. cbn [fst snd]. repeat split. intros [|j] Hj; [congruence|reflexivity].
  - destruct (IH i p H) as (E1 & E2 & E3). destruct (step_nth x ts i) as [y ts']. cbn [fst snd nth_error] in *.
    repeat split; auto. intros [|j] Hj; [reflexivity|]. apply E3. congruence.
Qed.
Lemma one_user A k : forall sched x (ts : list (prog A)) x' ts',
  (forall j p, nth_error ts j = Some p -> j <> k -> quiet p) ->
  interleave x ts sched = (x', ts') ->
  forall j p p', nth_error ts j = Some p -> nth_error ts' j = Some p' -> outcome x' p' = outcome x p.
Proof.
  induction sched as [|i sched IH]; intros x ts x' ts' Q E j p p' Hp Hp'; cbn [interleave] in E.
  - injection E as <- <-. rewrite Hp in Hp'. now injection Hp' as <-.
  - destruct (Nat.eq_dec i k) as [->|Hi].
    + destruct (nth_error ts k) as [q|] eqn:Hq.
      * destruct (step_nth_one A x ts k q Hq) as (E1 & E2 & E3). destruct (step_nth x ts k) as [y us]. cbn [fst snd] in *.
        assert (Q' : forall j p, nth_error us j = Some p -> j <> k -> quiet p).
        { intros j0 p0 H0 Hj0. rewrite E3 in H0 by auto. eauto. }
        destruct (Nat.eq_dec j k) as [->|Hj].
        -- rewrite (IH y us x' ts' Q' E k (snd (step x q)) p' E2 Hp').
           rewrite Hq in Hp. injection Hp as <-. unfold outcome. rewrite E1, step_alone. reflexivity.
        -- rewrite <- (E3 j Hj) in Hp. rewrite (IH y us x' ts' Q' E j p p' Hp Hp').
           destruct (Q' j p Hp Hj) as [r ->]. now rewrite !outcome_ret.
      * rewrite step_nth_quiet in E by (intros; congruence). eapply IH; eauto.
    + rewrite step_nth_quiet in E by eauto. eapply IH; eauto.
Qed.

(** ** intersections that do not use it *)
Lemma part_of S h c : valid S -> In (h, c) (chunks_of S) -> c = part 65536 S h /\ wfc1 (h, c).
Proof.
  intros V H. destruct (valid_chunks S V) as ([_ W] & _). rewrite Forall_forall in W. pose proof (W _ H) as Wc.
  rewrite (chunks_format S V) in H. apply in_map_iff in H as (h' & E & _). injection E as -> <-. auto.
Qed.
Lemma kind_rep S h c : valid S -> In (h, c) (chunks_of S) ->
  match kind_of c with KSparse => as_blocks S h = true | KDense => as_bitmap S h = true | KFull => True end.
Proof.
  intros V H. destruct (part_of S h c V H) as [E W]. pose proof (chunk_card _ _ W) as Hc.
  unfold kind_of. rewrite (sparse_format h c W). subst c. rewrite blocks_cost_sub. rewrite card_part in *.
  unfold as_bitmap, as_blocks.
  destruct (Z.ltb_spec (card 65536 S h) 32768), (Z.leb_spec 8192 (blocks_cost S h)), (Z.ltb_spec 0 (card 65536 S h)),
    (Z.ltb_spec (blocks_cost S h) 8192), (Z.ltb_spec (card 65536 S h) 65536), (Z.eqb_spec (card 65536 S h) 65536);
    cbn [andb negb]; auto; lia.
Qed.
Definition no_mix (A B : list (Z * list Z)) : Prop := forall h a b, In (h, a) A -> In (h, b) B ->
  ~ (kind_of a = KSparse /\ kind_of b = KDense) /\ ~ (kind_of a = KDense /\ kind_of b = KSparse).
Lemma unmixed_no_mix S T : valid S -> valid T -> unmixed S T -> no_mix (chunks_of S) (chunks_of T).
Proof.
  intros VS VT U h a b Ha Hb. pose proof (kind_rep S h a VS Ha) as KA. pose proof (kind_rep T h b VT Hb) as KB.
  destruct (U h) as [U1 U2]. split; intros [Ka Kb]; rewrite Ka, Kb in *.
  - now rewrite KA, KB in U1.
  - now rewrite KA, KB in U2.
Qed.
Lemma quiet_bind A B (r : res A) (f : A -> prog B) : (forall a, r = Ok a -> quiet (f a)) -> quiet (pbind (Ret r) f).
Proof. intro H. destruct r; cbn [pbind]; try (eexists; reflexivity). auto. Qed.
Lemma quiet_pbind A B (p : prog A) (f : A -> prog B) : quiet p -> (forall a, quiet (f a)) -> quiet (pbind p f).
Proof. intros [r ->] H. apply quiet_bind. auto. Qed.
Lemma ic_quiet tbl dbg mem itl itr il ir a b A B base out pos :
  it_view 31 mem itl ((il, a) :: A) -> it_view 31 mem itr ((ir, b) :: B) ->
  ~ (kind_of a = KSparse /\ kind_of b = KDense) -> ~ (kind_of a = KDense /\ kind_of b = KSparse) ->
  quiet (intersect_chunks_c tbl dbg mem itl itr base out pos).
Proof.
  intros Va Vb N1 N2. unfold intersect_chunks_c.
  rewrite (id_view_type _ _ _ _ _ (proj1 Va)), (id_view_type _ _ _ _ _ (proj1 Vb)). cbn [pbind].
  destruct (kind_of a) eqn:Ka; destruct (kind_of b) eqn:Kb;
    repeat match goal with |- context [chunk_pair ?x ?y =? chunk_pair ?z ?w] =>
      let v := eval vm_compute in (chunk_pair x y =? chunk_pair z w) in
      replace (chunk_pair x y =? chunk_pair z w) with v by reflexivity end; cbv iota;
    try (exfalso; apply N1; split; reflexivity); try (exfalso; apply N2; split; reflexivity).
  1: apply quiet_bind; intros bl _; apply quiet_bind; intros br _; destruct (bl <? br); eexists; reflexivity.
  all: first [eexists; reflexivity | apply quiet_bind; intros ? _; eexists; reflexivity].
Qed.
Lemma loop_quiet tbl dbg mem : forall fuel A B itl itr out pos,
  it_view 31 mem itl A -> it_view 31 mem itr B -> no_mix A B ->
  quiet (pairwise_intersection_loop_c fuel tbl dbg mem itl itr out pos).
Proof.
  induction fuel as [|f IH]; intros A B itl itr out pos Va Vb NM; cbn [pairwise_intersection_loop_c];
    rewrite (id_view_has_next _ _ _ (proj1 Va)), (id_view_has_next _ _ _ (proj1 Vb)).
  all: destruct A as [|[i a] A]; [eexists; reflexivity|]; destruct B as [|[j b] B]; [eexists; reflexivity|].
  { eexists; reflexivity. }
  cbn [andb]. destruct (chunk_base _ _ _ _ _ (proj1 Va)) as (Ei & Ebi & Hi).
  destruct (chunk_base _ _ _ _ _ (proj1 Vb)) as (Ej & Ebj & Hj).
  rewrite Ei, Ej. cbn [pbind]. rewrite !u16_id by lia.
  destruct (Z.eqb_spec i j) as [E|E].
  - subst j. destruct (NM i a b (or_introl eq_refl) (or_introl eq_refl)) as [N1 N2].
    apply quiet_pbind; [eapply ic_quiet; eauto|]. intros [o n].
    destruct (view_next _ _ _ _ _ _ Va) as (itl1 & -> & Va1 & _).
    destruct (view_next _ _ _ _ _ _ Vb) as (itr1 & -> & Vb1 & _). cbn [pbind].
    eapply IH; eauto. intros h a' b' Ha Hb. apply (NM h a' b'); right; auto.
  - destruct (Z.ltb_spec i j).
    + destruct (it_advance_ok 31 mem itl ((i, a) :: A) j Va) as (itl1 & pre & suf & -> & (D & _) & Va1 & _); [lia|].
      cbn [pbind]. eapply IH; eauto. intros h a' b' Ha Hb. apply (NM h a' b'); auto. rewrite D. apply in_or_app. auto.
    + destruct (it_advance_ok 31 mem itr ((j, b) :: B) i Vb) as (itr1 & pre & suf & -> & (D & _) & Vb1 & _); [lia|].
      cbn [pbind]. eapply IH; eauto. intros h a' b' Ha Hb. apply (NM h a' b'); auto. rewrite D. apply in_or_app. auto.
Qed.
Lemma pi_quiet tbl dbg mem a b S T s t out pos : valid S -> valid T -> stored 31 mem a S -> stored 31 mem b T ->
  seq_at mem a = Ok s -> seq_at mem b = Ok t -> unmixed S T ->
  quiet (pairwise_intersection_c tbl dbg mem s t out pos).
Proof.
  intros VS VT SS ST Es Et U.
  destruct (stored_seq 31 mem a S VS SS ltac:(lia)) as (s' & Es' & _ & Vs & _).
  destruct (stored_seq 31 mem b T VT ST ltac:(lia)) as (t' & Et' & _ & Vt & _).
  rewrite Es in Es'. injection Es' as <-. rewrite Et in Et'. injection Et' as <-.
  unfold pairwise_intersection_c. cbv zeta. apply quiet_pbind; [|intros [o e]; eexists; reflexivity].
  eapply loop_quiet; eauto. apply unmixed_no_mix; auto.
Qed.


Lemma job_alone tbl dbg mem j e x : shuffle_table_ok tbl -> job_ok mem j e -> zlen x = 1024 ->
  exists out', outcome x (thread tbl dbg mem j) = Ok (out', zlen e) /\ wrote 23 (j_out j) (j_pos j) e out'.
Proof.
  intros Ht (VS & VT & SS & ST & En & Hp & Ho) Hx.
  destruct (c11_intersection tbl mem (j_a j) (j_b j) (j_S j) (j_T j)) as (e' & En' & C); auto.
  pose proof (enumerates_unique _ _ _ En En') as <-.
  destruct (C dbg x (j_out j) (j_pos j) Hx Hp Ho) as (s & t & x' & out' & Es & Et & E & _ & W).
  exists out'. split; auto. unfold thread, outcome. rewrite Es, Et. cbn [pbind]. rewrite c22_alone by auto.
  rewrite E. reflexivity.
Qed.
Lemma job_quiet tbl dbg mem j e : job_ok mem j e -> unmixed (j_S j) (j_T j) -> quiet (thread tbl dbg mem j).
Proof.
  intros (VS & VT & SS & ST & _) U. unfold thread. apply quiet_bind. intros s Es. apply quiet_bind. intros t Et.
  exact (pi_quiet tbl dbg mem _ _ _ _ s t _ _ VS VT SS ST Es Et U).
Qed.
Lemma c22_safe tbl dbg mem (js : list (job * list Z)) k x sched x' ts i j e r :
  shuffle_table_ok tbl -> zlen x = 1024 ->
  Forall (fun p => job_ok mem (fst p) (snd p)) js ->
  (forall i p, nth_error js i = Some p -> i <> k -> unmixed (j_S (fst p)) (j_T (fst p))) ->
  interleave x (map (fun p => thread tbl dbg mem (fst p)) js) sched = (x', ts) ->
  nth_error js i = Some (j, e) -> nth_error ts i = Some (Ret r) ->
  exists out', r = Ok (out', zlen e) /\ wrote 23 (j_out j) (j_pos j) e out'.
Proof.
  intros Ht Hx Hj Hk E Hi Hr. rewrite Forall_forall in Hj.
  destruct (job_alone tbl dbg mem j e x Ht) as (out' & Eo & W); auto.
  { apply (Hj (j, e)). eapply nth_error_In; eauto. }
  exists out'. split; auto. rewrite <- Eo. rewrite <- (outcome_ret _ x' r).
  refine (one_user _ k sched x (map (fun p => thread tbl dbg mem (fst p)) js) x' ts _ E i (thread tbl dbg mem j) (Ret r) _ Hr).
  - intros n p Hn Hnk. rewrite nth_error_map in Hn. destruct (nth_error js n) as [[q d]|] eqn:Eq; [|discriminate].
    cbn [option_map] in Hn. injection Hn as <-. eapply job_quiet.
    + apply (Hj (q, d)). eapply nth_error_In; eauto.
    + apply (Hk n (q, d)); auto.
  - rewrite nth_error_map, Hi. reflexivity.
Qed.

(** ** two threads use it *)
Inductive runs {A} : list Z -> prog A -> list Z -> prog A -> Prop :=
| runs_refl x p : runs x p x p
| runs_get x i k v y q : vget x i = Ok v -> runs x (k v) y q -> runs x (Get i k) y q
| runs_put x i v k z y q : vset x i v = Ok z -> runs z k y q -> runs x (Put i v k) y q.
Lemma runs_trans A x (p : prog A) y q z r : runs x p y q -> runs y q z r -> runs x p z r.
Proof. induction 1; intro H'; eauto using @runs. Qed.
Lemma runs_bind A B x (p : prog A) y q (f : A -> prog B) : runs x p y q -> runs x (pbind p f) y (pbind q f).
Proof.
  induction 1; cbn [pbind]; [constructor| |].
  - eapply runs_get; eauto.
  - eapply runs_put; eauto.
Qed.
Lemma runs_alone A (p : prog A) : forall x y a, alone x p = Ok (y, a) -> runs x p y (Ret (Ok a)).
Proof.
  induction p as [r|i k IH|i v k IH]; intros x y a E.
  - cbn [alone] in E. destruct r; try discriminate. cbn [bind] in E. injection E as -> ->. constructor.
  - rewrite alone_get in E. apply bind_ok in E as (v & Ev & E). eapply runs_get; eauto.
  - rewrite alone_put in E. apply bind_ok in E as (z & Ez & E). eapply runs_put; eauto.
Qed.
Lemma runs_alone_bind A B (p : prog A) (f : A -> prog B) x y a : alone x p = Ok (y, a) -> runs x (pbind p f) y (f a).
Proof. intro E. apply runs_alone in E. apply (runs_bind _ _ _ _ _ _ f) in E. exact E. Qed.
Lemma runs_0 A x (p : prog A) y p' q : runs x p y p' -> exists s, interleave x [p; q] s = (y, [p'; q]).
Proof.
  induction 1 as [x p|x i k v y p' E R [s IH]|x i v k z y p' E R [s IH]]; [exists []; reflexivity| |];
    exists (0%nat :: s); cbn [interleave step_nth step]; rewrite E; exact IH.
Qed.
Lemma runs_1 A x (p : prog A) y p' q : runs x p y p' -> exists s, interleave x [q; p] s = (y, [q; p']).
Proof.
  induction 1 as [x p|x i k v y p' E R [s IH]|x i v k z y p' E R [s IH]]; [exists []; reflexivity| |];
    exists (1%nat :: s); cbn [interleave step_nth step]; rewrite E; exact IH.
Qed.
Lemma interleave_app A s s' : forall x (ts : list (prog A)),
  interleave x ts (s ++ s') = let (y, us) := interleave x ts s in interleave y us s'.
Proof.
  induction s as [|i s IH]; intros x ts; [reflexivity|]. cbn [app interleave].
  destruct (step_nth x ts i) as [y us]. apply IH.
Qed.

(** a sequence within one chunk *)
Lemma one_chunk S h : valid S -> Forall (fun v => v / 65536 = h) S -> exists c, chunks_of S = [(h, c)].
Proof.
  intros V F. pose proof (group_split 65536 h S [] (proj1 V) F ltac:(constructor)) as E.
  rewrite app_nil_r in E. eexists. exact E.
Qed.
Lemma rep_kind S h c : valid S -> In (h, c) (chunks_of S) ->
  (as_blocks S h = true -> kind_of c = KSparse) /\ (as_bitmap S h = true -> kind_of c = KDense).
Proof.
  intros V H. pose proof (kind_rep S h c V H) as K. destruct (part_of S h c V H) as [E W].
  pose proof (chunk_card _ _ W) as Hc. destruct (kind_of c) eqn:Ek.
  - unfold as_bitmap. rewrite K, andb_false_r. split; congruence.
  - split; [|congruence]. intro Ka. unfold as_bitmap in K. rewrite Ka, andb_false_r in K. discriminate.
  - unfold kind_of in Ek. subst c. rewrite card_part in *. unfold as_bitmap, as_blocks.
    destruct (Z.ltb_spec (card 65536 S h) 32768).
    { destruct (8192 <=? zlen (sparse_data (part 65536 S h))); discriminate. }
    destruct (Z.eqb_spec (card 65536 S h) 65536) as [->|]; [|discriminate]. split; intro; discriminate.
Qed.

(** the part before the vector is complete, and the rest *)
Lemma job_runs tbl dbg mem j e h x :
  job_ok mem j e -> zlen x = 1024 ->
  Forall (fun v => v / 65536 = h) (j_S j) -> Forall (fun v => v / 65536 = h) (j_T j) ->
  as_bitmap (j_S j) h = true -> as_blocks (j_T j) h = true ->
  exists a b y R, chunks_of (j_S j) = [(h, a)] /\ chunks_of (j_T j) = [(h, b)]
    /\ runs x (thread tbl dbg mem j) y R /\ zlen y = 1024 /\ bm_at (words_vec y) 1024 (memb b)
    /\ forall c z, wfc1 (h, c) -> bm_at (words_vec z) 1024 (memb c) ->
         j_pos j + zlen (isect a c) + 23 <= zlen (j_out j) ->
         exists out', alone z R = Ok (z, (out', zlen (isect a c)))
           /\ wrote 23 (j_out j) (j_pos j) (map (addb (h * 65536)) (isect a c)) out'.
Proof.
  intros (VS & VT & SS & ST & En & Hp & Ho) Hx FS FT RS RT.
  destruct (one_chunk _ _ VS FS) as [a EA]. destruct (one_chunk _ _ VT FT) as [b EB].
  assert (Ka : kind_of a = KDense) by (apply (rep_kind (j_S j) h a VS); [rewrite EA; left; auto|auto]).
  assert (Kb : kind_of b = KSparse) by (apply (rep_kind (j_T j) h b VT); [rewrite EB; left; auto|auto]).
  destruct (stored_seq 31 mem _ _ VS SS ltac:(lia)) as (s & Es & _ & Va & _).
  destruct (stored_seq 31 mem _ _ VT ST ltac:(lia)) as (t & Et & _ & Vb & _).
  rewrite EA in Va. rewrite EB in Vb.
  unfold thread. rewrite Es, Et. cbn [pbind]. unfold pairwise_intersection_c. cbv zeta.
  assert (Hf : exists f, (it_fuel (seq_begin s) + it_fuel (seq_begin t))%nat = S f).
  { pose proof (it_fuel_ok _ _ _ (proj1 Va)) as F. cbn [length] in F.
    destruct (it_fuel (seq_begin s)); [lia|]. eexists. reflexivity. }
  destruct Hf as [f ->]. cbn [pairwise_intersection_loop_c].
  rewrite (id_view_has_next _ _ _ (proj1 Va)), (id_view_has_next _ _ _ (proj1 Vb)). cbn [andb].
  destruct (chunk_base _ _ _ _ _ (proj1 Va)) as (Ei & Ebi & Hi).
  destruct (chunk_base _ _ _ _ _ (proj1 Vb)) as (Ej & _ & _).
  rewrite Ei, Ej. cbn [pbind]. rewrite !u16_id, Z.eqb_refl, Ebi by lia.
  unfold intersect_chunks_c.
  rewrite (id_view_type _ _ _ _ _ (proj1 Va)), (id_view_type _ _ _ _ _ (proj1 Vb)), Ka, Kb. cbn [pbind].
  repeat match goal with |- context [chunk_pair ?x ?y =? chunk_pair ?z ?w] =>
      let v := eval vm_compute in (chunk_pair x y =? chunk_pair z w) in
      replace (chunk_pair x y =? chunk_pair z w) with v by reflexivity end; cbv iota.
  rewrite (id_view_blocks _ _ _ _ _ (proj1 Vb) Kb). cbn [pbind].
  destruct (view_next _ _ _ _ _ _ Va) as (itl1 & El & Va1 & _).
  destruct (view_next _ _ _ _ _ _ Vb) as (itr1 & Er & Vb1 & _).
  destruct (uncompress_sparse_chunk_ok dbg mem 31 (seq_begin t) h b [] (repeat 0 (Z.to_nat 1024)) 0)
    as (y & Ey & By & Sy); auto; try lia.
  { rewrite zlen_repeat, Z2Nat.id; lia. }
  { apply bm_zeros; [lia|]. rewrite Z2Nat.id; lia. }
  destruct Sy as [Sy _]. rewrite zlen_repeat, Z2Nat.id in Sy by lia.
  exists a, b, y. eexists. split; [exact EA|]. split; [exact EB|]. split.
  { apply runs_bind. apply runs_bind. unfold ds_intersect_chunk_c. change chunk_size_in_64bit_words with 1024.
    eapply runs_trans.
    - apply (runs_alone_bind _ _ _ _ x (repeat 0 (Z.to_nat 1024)) tt). rewrite put_alone.
      + rewrite store_all by (rewrite zlen_repeat, Z2Nat.id; lia). reflexivity.
      + intro E0. apply (f_equal (@length _)) in E0. rewrite repeat_length in E0. vm_compute in E0. discriminate.
    - apply (runs_alone_bind _ _ _ _ _ y tt). rewrite usc_alone, Ey. reflexivity. }
  split; [exact Sy|]. split; [exact By|].
  intros c z Wc Bc Hs. pose proof (view_wf _ _ _ _ _ Va) as (_ & _ & Sa & Ra). pose proof Wc as (_ & _ & Sc & Rc).
  cbn [snd] in *.
  destruct (and_chunk_ok (words_mem mem (i_data (seq_begin s))) (words_vec z) a c (h * 65536) (j_out j) (j_pos j))
    as (out' & E & W); auto; try lia.
  { eapply view_dense; eauto. }
  exists out'. split; [|exact W].
  rewrite !alone_bind. rewrite and_alone. unfold and_bitmaps in E. change chunk_size_in_64bit_words with 1024 in E.
  unfold tag. rewrite E. cbn [bind fst snd]. rewrite El. cbn [pbind]. rewrite Er. cbn [pbind].
  assert (N : forall o p, pairwise_intersection_loop_c f tbl dbg mem itl1 itr1 o p = Ret (Ok (o, p))).
  { intros o p. destruct f; cbn [pairwise_intersection_loop_c]; rewrite (id_view_has_next _ _ _ (proj1 Va1)); reflexivity. }
  rewrite N. cbn [alone bind fst snd].
  pose proof (chunk_card _ _ (view_wf _ _ _ _ _ Va)). pose proof (zlen_isect_le a c). pose proof (zlen_nonneg _ (isect a c)).
  rewrite u32_id by lia. f_equal. f_equal. f_equal. lia.
Qed.
Lemma isect_one S T h a b : valid S -> valid T -> chunks_of S = [(h, a)] -> chunks_of T = [(h, b)] ->
  map (addb (h * 65536)) (isect a b) = isect S T.
Proof.
  intros VS VT EA EB. destruct (valid_chunks S VS) as (WS & _ & US & _). destruct (valid_chunks T VT) as (WT & _ & UT & _).
  rewrite EA in WS, US. rewrite EB in WT, UT. rewrite <- US, <- UT.
  rewrite (isect_groups_eq 65536 65535 ltac:(lia) h h a b [] []) by auto.
  cbn [ungroup flat_map]. cbn [isect]. rewrite app_nil_r. reflexivity.
Qed.
Lemma c22_race tbl dbg mem j j' e e' e2 h x :
  zlen x = 1024 -> job_ok mem j e -> job_ok mem j' e' ->
  Forall (fun v => v / 65536 = h) (j_S j ++ j_T j ++ j_S j' ++ j_T j') ->
  as_bitmap (j_S j) h = true -> as_blocks (j_T j) h = true ->
  as_bitmap (j_S j') h = true -> as_blocks (j_T j') h = true ->
  enumerates (fun v => In v (j_S j) /\ In v (j_T j')) e2 -> j_pos j + zlen e2 + 23 <= zlen (j_out j) ->
  exists sched x' out out',
    interleave x [thread tbl dbg mem j; thread tbl dbg mem j'] sched
    = (x', [Ret (Ok (out, zlen e2)); Ret (Ok (out', zlen e'))])
    /\ wrote 23 (j_out j) (j_pos j) e2 out /\ wrote 23 (j_out j') (j_pos j') e' out'.
Proof.
  intros Hx J J' F RS RT RS' RT' En Ho. rewrite !Forall_app in F. destruct F as (FS & FT & FS' & FT').
  destruct (job_runs tbl dbg mem j e h x J Hx FS FT RS RT) as (a & b & y & R & EA & EB & Hy & Ly & _ & HR).
  destruct (job_runs tbl dbg mem j' e' h y J' Ly FS' FT' RS' RT') as (a' & b' & z & R' & EA' & EB' & Hz & Lz & Bz & HR').
  pose proof J as (VS & VT & _). pose proof J' as (VS' & VT' & _ & _ & En' & _ & Ho').
  assert (Wb : wfc1 (h, b')).
  { apply (part_of (j_T j') h b' VT'). rewrite EB'. left; auto. }
  assert (I2 : isect (j_S j) (j_T j') = e2).
  { apply (enumerates_unique (fun v => In v (j_S j) /\ In v (j_T j'))); auto. split; [apply sorted_isect, VS|]. intro. apply In_isect. }
  assert (I' : isect (j_S j') (j_T j') = e').
  { apply (enumerates_unique (fun v => In v (j_S j') /\ In v (j_T j'))); auto. split; [apply sorted_isect, VS'|]. intro. apply In_isect. }
  pose proof (isect_one _ _ h a b' VS VT' EA EB') as M2. pose proof (isect_one _ _ h a' b' VS' VT' EA' EB') as M'.
  rewrite I2 in M2. rewrite I' in M'.
  assert (L2 : zlen (isect a b') = zlen e2) by (rewrite <- M2, zlen_map; auto).
  assert (L' : zlen (isect a' b') = zlen e') by (rewrite <- M', zlen_map; auto).
  destruct (HR b' z Wb Bz) as (out & E & W); [lia|]. destruct (HR' b' z Wb Bz) as (out' & E' & W'); [lia|].
  rewrite L2, M2 in *. rewrite L', M' in *.
  destruct (runs_0 _ _ _ _ _ (thread tbl dbg mem j') Hy) as [s1 S1].
  destruct (runs_1 _ _ _ _ _ R Hz) as [s2 S2].
  destruct (runs_0 _ _ _ _ _ R' (runs_alone _ _ _ _ _ E)) as [s3 S3].
  destruct (runs_1 _ _ _ _ _ (Ret (Ok (out, zlen e2))) (runs_alone _ _ _ _ _ E')) as [s4 S4].
  exists (s1 ++ s2 ++ s3 ++ s4), z, out, out'. split; [|auto].
  rewrite interleave_app, S1, interleave_app, S2, interleave_app, S3. exact S4.
Qed.

(** *** a concrete race: the values below 32768 with {5}, and with {6} *)
Definition dn : list Z := zrange 0 (Z.to_nat 32768).
Definition encD : list Z := snd (builder_build false [] dn).
Definition enc5 : list Z := snd (builder_build false [] [5]).
Definition enc6 : list Z := snd (builder_build false [] [6]).
Definition cmem : list Z := encD ++ enc5 ++ enc6 ++ repeat 0 31.
Definition job5 : job := mkJob 0 (zlen encD) dn [5] (repeat 0 24) 0.
Definition job6 : job := mkJob 0 (zlen encD + zlen enc5) dn [6] (repeat 0 24) 0.
Lemma In_dn v : In v dn <-> 0 <= v < 32768.
Proof. unfold dn. rewrite In_zrange. rewrite Z2Nat.id by lia. lia. Qed.
Lemma valid_dn : valid dn.
Proof.
  split; [intro E; assert (H : In 0 dn) by (apply In_dn; lia); rewrite E in H; exact H|].
  split; [apply sorted_zrange|]. apply Forall_forall. intros v Hv. apply In_dn in Hv. lia.
Qed.
Lemma valid_1 v : 0 <= v < 4294901760 -> valid [v].
Proof. intro H. split; [discriminate|]. split; [constructor; constructor|]. auto. Qed.
Lemma encoding_D : encoding false dn encD.
Proof. unfold encD. exact (encoding_ok false dn valid_dn). Qed.
Lemma encoding_5 : encoding false [5] enc5.
Proof. unfold enc5. exact (encoding_ok false [5] (valid_1 5 ltac:(lia))). Qed.
Lemma encoding_6 : encoding false [6] enc6.
Proof. unfold enc6. exact (encoding_ok false [6] (valid_1 6 ltac:(lia))). Qed.
Lemma stored_three (e1 e2 e3 S1 S2 S3 : list Z) :
  encoding false S1 e1 -> encoding false S2 e2 -> encoding false S3 e3 ->
  let mem := e1 ++ e2 ++ e3 ++ repeat 0 31 in
  stored 31 mem 0 S1 /\ stored 31 mem (zlen e1) S2 /\ stored 31 mem (zlen e1 + zlen e2) S3.
Proof.
  intros H1 H2 H3. pose proof (zlen_nonneg _ e2). pose proof (zlen_nonneg _ e3). split; [|split].
  - refine (stored_mid false S1 e1 [] _ 31 H1 _). rewrite !zlen_app. change (zlen (repeat 0 31)) with 31. lia.
  - refine (stored_mid false S2 e2 e1 _ 31 H2 _). rewrite !zlen_app. change (zlen (repeat 0 31)) with 31. lia.
  - pose proof (stored_mid false S3 e3 (e1 ++ e2) (repeat 0 31) 31 H3 ltac:(vm_compute; discriminate)) as H4.
    rewrite zlen_app, <- app_assoc in H4. exact H4.
Qed.
Opaque encD enc5 enc6.
Definition stored_all := stored_three encD enc5 enc6 dn [5] [6] encoding_D encoding_5 encoding_6.
Lemma enum_1 v : 0 <= v < 32768 -> enumerates (fun u => In u dn /\ In u [v]) [v].
Proof.
  intro H. split; [constructor; constructor|]. intro u. rewrite In_dn. cbn [In]. split.
  - intros [<-|[]]. lia.
  - tauto.
Qed.
Lemma job5_ok : job_ok cmem job5 [5].
Proof.
  split; [exact valid_dn|]. split; [exact (valid_1 5 ltac:(lia))|]. split; [exact (proj1 stored_all)|]. split; [exact (proj1 (proj2 stored_all))|].
  split; [exact (enum_1 5 ltac:(lia))|].
  change (0 <= 0 /\ 0 + zlen [5] + 23 <= zlen (repeat 0 24)). split; vm_compute; discriminate.
Qed.
Lemma job6_ok : job_ok cmem job6 [6].
Proof.
  split; [exact valid_dn|]. split; [exact (valid_1 6 ltac:(lia))|]. split; [exact (proj1 stored_all)|]. split; [exact (proj2 (proj2 stored_all))|].
  split; [exact (enum_1 6 ltac:(lia))|].
  change (0 <= 0 /\ 0 + zlen [6] + 23 <= zlen (repeat 0 24)). split; vm_compute; discriminate.
Qed.
Lemma chunk_dn : Forall (fun v => v / 65536 = 0) (dn ++ [5] ++ dn ++ [6]).
Proof.
  assert (F : Forall (fun v => v / 65536 = 0) dn).
  { apply Forall_forall. intros v Hv. apply In_dn in Hv. apply Z.div_small. lia. }
  rewrite !Forall_app. repeat split; auto.
Qed.
Lemma bitmap_dn : as_bitmap dn 0 = true.
Proof.
  assert (C : card 65536 dn 0 = 32768).
  { unfold card. rewrite filter_all; [unfold dn; rewrite zlen_zrange; reflexivity|].
    intros v Hv. apply In_dn in Hv. rewrite Z.div_small by lia. reflexivity. }
  unfold as_bitmap, as_blocks. rewrite C. reflexivity.
Qed.
Lemma enum_6 : enumerates (fun u => In u dn /\ In u [6]) [6].
Proof. apply enum_1. lia. Qed.
Lemma blocks_5 : as_blocks [5] 0 = true.
Proof. vm_compute. reflexivity. Qed.
Lemma blocks_6 : as_blocks [6] 0 = true.
Proof. vm_compute. reflexivity. Qed.
Lemma room_6 : 0 + zlen [6] + 23 <= zlen (repeat 0 24).
Proof. vm_compute. discriminate. Qed.
Lemma c22_refuted dbg x : zlen x = 1024 -> exists tbl mem j j' e e' sched x' out n r',
  shuffle_table_ok tbl /\ job_ok mem j e /\ job_ok mem j' e'
  /\ interleave x [thread tbl dbg mem j; thread tbl dbg mem j'] sched = (x', [Ret (Ok (out, n)); Ret (Ok r')])
  /\ exists i v, 0 <= i < n /\ znth out (j_pos j + i) = Some v /\ ~ In v (j_T j).
Proof.
  intro Hx. destruct (c22_race ex_tbl dbg cmem job5 job6 [5] [6] [6] 0 x Hx job5_ok job6_ok chunk_dn bitmap_dn
    blocks_5 bitmap_dn blocks_6 (enum_1 6 ltac:(lia)) room_6)
    as (sched & x' & out & out' & E & W & _).
  exists ex_tbl, cmem, job5, job6, [5], [6], sched, x', out, 1, (out', 1).
  split; [exact ex_tbl_ok|]. split; [exact job5_ok|]. split; [exact job6_ok|]. split; [exact E|].
  exists 0, 6. split; [lia|]. split; [|intros [H|[]]; discriminate].
  destruct W as (_ & W & _). exact (W 0 ltac:(split; vm_compute; congruence)).
Qed.

(** ** threads can always finish *)
Lemma step_nth_mid A x (p : prog A) post : forall pre,
  step_nth x (pre ++ p :: post) (length pre) = (fst (step x p), pre ++ snd (step x p) :: post).
Proof.
  induction pre as [|q pre IH]; cbn [app length step_nth].
  - destruct (step x p); reflexivity.
  - rewrite IH. reflexivity.
Qed.
Lemma finish_at A (p : prog A) : forall x pre post,
  exists s y r, interleave x (pre ++ p :: post) s = (y, pre ++ Ret r :: post).
Proof.
  induction p as [r|i k IH|i v k IH]; intros x pre post; [exists [], x, r; reflexivity| |].
  - destruct (vget x i) as [v| | | |] eqn:E.
    1: destruct (IH v x pre post) as (s & y & r & Hs); exists (length pre :: s), y, r;
       cbn [interleave]; rewrite step_nth_mid; cbn [step]; rewrite E; exact Hs.
    all: exists [length pre], x, UB; cbn [interleave]; rewrite step_nth_mid; cbn [step]; rewrite E; reflexivity.
  - destruct (vset x i v) as [z| | | |] eqn:E.
    1: destruct (IH z pre post) as (s & y & r & Hs); exists (length pre :: s), y, r;
       cbn [interleave]; rewrite step_nth_mid; cbn [step]; rewrite E; exact Hs.
    all: exists [length pre], x, UB; cbn [interleave]; rewrite step_nth_mid; cbn [step]; rewrite E; reflexivity.
Qed.
Lemma c22_finish A : forall (ts : list (prog A)) x pre,
  exists s y rs, interleave x (map Ret pre ++ ts) s = (y, map Ret pre ++ map Ret rs) /\ length rs = length ts.
Proof.
  induction ts as [|p ts IH]; intros x pre.
  - exists [], x, []. split; reflexivity.
  - destruct (finish_at A p x (map Ret pre) ts) as (s & y & r & E).
    destruct (IH y (pre ++ [r])) as (s' & z & rs & E' & L). rewrite map_app in E'. cbn [map] in E'.
    rewrite <- !app_assoc in E'. cbn [app] in E'.
    exists (s ++ s'), z, (r :: rs). split; [|cbn [length]; lia]. rewrite interleave_app, E. exact E'.
Qed.
Lemma c22_can_finish A (ts : list (prog A)) x :
  exists s y rs, interleave x ts s = (y, map Ret rs) /\ length rs = length ts.
Proof. exact (c22_finish A ts x []). Qed.

(** *** the hypotheses of c22_safe *)
Definition job56 : job := mkJob (zlen encD) (zlen encD + zlen enc5) [5] [6] (repeat 0 24) 0.
Lemma job56_ok : job_ok cmem job56 [].
Proof.
  split; [exact (valid_1 5 ltac:(lia))|]. split; [exact (valid_1 6 ltac:(lia))|].
  split; [exact (proj1 (proj2 stored_all))|]. split; [exact (proj2 (proj2 stored_all))|].
  split; [|change (0 <= 0 /\ 0 + zlen (@nil Z) + 23 <= zlen (repeat 0 24)); split; vm_compute; discriminate].
  split; [constructor|]. intro v. cbn [In job56 j_S j_T]. split; [tauto|]. intros [[<-|[]] [H|[]]]. discriminate.
Qed.
Lemma no_bitmap v h : 0 <= v < 65536 -> as_bitmap [v] 0 = false -> as_bitmap [v] h = false.
Proof.
  intros Hv H. destruct (Z.eq_dec h 0) as [->|N]; auto. unfold as_bitmap, card. cbn [filter].
  rewrite Z.div_small by lia. destruct (Z.eqb_spec 0 h); [lia|]. reflexivity.
Qed.
Lemma unmixed_56 : unmixed [5] [6].
Proof.
  intro h. rewrite (no_bitmap 5 h) by (lia || (vm_compute; reflexivity)).
  rewrite (no_bitmap 6 h) by (lia || (vm_compute; reflexivity)). rewrite andb_false_r. auto.
Qed.
Lemma but_one A (P : A -> Prop) (a b : A) : P a ->
  forall i p, nth_error [a; b; a] i = Some p -> i <> 1%nat -> P p.
Proof.
  intros Ha [|[|[|[|i]]]] p H N; cbn [nth_error] in H; try discriminate; try congruence; injection H as <-; exact Ha.
Qed.
Lemma mixed_5 : ~ unmixed dn [5].
Proof. intro U. destruct (U 0) as [_ U0]. rewrite bitmap_dn, blocks_5 in U0. discriminate. Qed.
Lemma c22_ex_hyps : Forall (fun p => job_ok cmem (fst p) (snd p)) [(job56, []); (job5, [5]); (job56, [])]
  /\ (forall i p, nth_error [(job56, []); (job5, [5]); (job56, [] : list Z)] i = Some p -> i <> 1%nat ->
        unmixed (j_S (fst p)) (j_T (fst p)))
  /\ ~ unmixed (j_S job5) (j_T job5).
Proof.
  split.
  { apply Forall_cons; [exact job56_ok|]. apply Forall_cons; [exact job5_ok|]. apply Forall_cons; [exact job56_ok|].
    apply Forall_nil. }
  split; [|exact mixed_5].
  exact (but_one _ (fun p => unmixed (j_S (fst p)) (j_T (fst p))) (job56, []) (job5, [5]) unmixed_56).
Qed.
