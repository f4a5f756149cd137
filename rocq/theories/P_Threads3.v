(** Threads that use the same buffer. *)
From Verif Require Import Base Hw Spec Format Lib L_Bits L_Group Layout M_Util M_Seq M_Decode M_Uncompress M_Intersect
  M_Union M_Many M_Calls M_Conc M_Threads P_Build1 P_Seq P_Decode P_Uncompress P_Inter P_Union P_Many P_Many2 P_Sets P_Format P_Room P_RoomInter P_RoomUnion
  P_Scratch P_Conc P_Threads1.
From Coq Require Import Lia.

(** the [n] words of the memory contain, at [lo], the bitmap of [c] *)
Definition shows (lo n : Z) (z c : list Z) : Prop := zlen z = n /\ bm_at (reg z lo) 1024 (memb c).
(** the outcome of writing [e] *)
Definition fits (out : list Z) (pos : Z) (e : list Z) (r : res (list Z * Z)) : Prop :=
  if pos + zlen e <=? zlen out then exists out', r = Ok (out', zlen e) /\ wrote 23 out pos e out' else r = UB.
(** a program that only reads *)
Fixpoint ro {A} (p : prog A) : Prop :=
  match p with
  | Ret _ => True
  | Get _ k => forall v, ro (k v)
  | Put _ _ _ => False
  end.
Lemma ro_bind A B (p : prog A) (f : A -> prog B) : ro p -> (forall a, ro (f a)) -> ro (pbind p f).
Proof.
  intros H F. induction p as [r|i k IH|i v k IH]; cbn [ro pbind] in *; auto.
  destruct r; cbn [ro]; auto.
Qed.
Lemma ro_ret A B (r : res A) (f : A -> prog B) : (forall a, r = Ok a -> ro (f a)) -> ro (pbind (Ret r) f).
Proof. intro H. destruct r; cbn [pbind ro]; auto. Qed.
Lemma ro_within A lo n (p : prog A) : ro p -> ro (within lo n p).
Proof.
  induction p as [r|i k IH|i v k IH]; cbn [ro within]; auto; intro H; [|contradiction].
  destruct ((0 <=? i) && (i <? n)); cbn [ro]; auto.
Qed.
(** from every memory of [n] words, the program reaches a state in which the bitmap of [b] is at
    [lo]; from there on it only reads, and with the bitmap of [c] at [lo] it writes [F c] *)
Definition paused (lo n h : Z) (p : prog (list Z * Z)) (b : list Z) (F : list Z -> list Z) (out : list Z) (pos : Z) : Prop :=
  forall x, zlen x = n -> exists y R, runs x p y R /\ shows lo n y b /\ ro R
    /\ forall c z, wfc1 (h, c) -> shows lo n z c -> fits out pos (F c) (outcome z R).

Lemma runs_len A x (p : prog A) y q : runs x p y q -> zlen y = zlen x.
Proof. induction 1 as [| |x i v k z y q E R IH]; auto. apply vset_len in E. congruence. Qed.
Lemma runs_within A lo n (p q : prog A) x y pre post : runs x p y q -> zlen pre = lo -> zlen x = n ->
  runs (pre ++ x ++ post) (within lo n p) (pre ++ y ++ post) (within lo n q).
Proof.
  intros R <- <-. induction R as [x p|x i k v y q E R IH|x i v k z y q E R IH]; [constructor| |]; cbn [within];
    (destruct ((0 <=? i) && (i <? zlen x)) eqn:B; [|rewrite ?vget_out, ?vset_out in E by exact B; discriminate]).
  - eapply runs_get; [|exact IH]. rewrite vget_mid by (apply in_range; exact B). exact E.
  - eapply runs_put; [rewrite vset_mid by (apply in_range; exact B); rewrite E; reflexivity|].
    apply vset_len in E. rewrite E in IH. exact IH.
Qed.
Lemma split3 lo n (x : list Z) : 0 <= lo -> 0 <= n -> lo + n <= zlen x ->
  exists pre y post, x = pre ++ y ++ post /\ zlen pre = lo /\ zlen y = n.
Proof.
  intros H1 H2 H3. exists (firstn (Z.to_nat lo) x), (firstn (Z.to_nat n) (skipn (Z.to_nat lo) x)), (skipn (Z.to_nat n) (skipn (Z.to_nat lo) x)).
  rewrite !firstn_skipn. split; auto. unfold zlen in *. rewrite !firstn_length, skipn_length. lia.
Qed.
Lemma shows_mid lo n L N pre z post c : zlen pre = L -> zlen z = n -> zlen (pre ++ z ++ post) = N -> 0 <= lo -> lo + 1024 <= n ->
  shows lo n z c <-> shows (L + lo) N (pre ++ z ++ post) c.
Proof.
  intros <- Hz HN Hlo Hn. unfold shows. split; intros [_ B]; (split; [assumption|]); intros i Hi; destruct (B i Hi) as (w & E & W);
    exists w; (split; [|exact W]); unfold reg in *.
  - rewrite <- Z.add_assoc, vget_mid by lia. exact E.
  - rewrite <- Z.add_assoc, vget_mid in E by lia. exact E.
Qed.
Lemma paused_within lo n h p b F out pos L N : paused lo n h p b F out pos ->
  0 <= lo -> lo + 1024 <= n -> 0 <= L -> L + n <= N -> paused (L + lo) N h (within L n p) b F out pos.
Proof.
  intros P H1 H2 H3 H4 X HX. destruct (split3 L n X) as (pre & x & post & -> & Hpre & Hx); [lia|lia|lia|].
  destruct (P x Hx) as (y & R & Hr & Hs & Hro & HR). pose proof (runs_len _ _ _ _ _ Hr) as Hy.
  exists (pre ++ y ++ post), (within L n R). split; [now apply runs_within|].
  assert (HY : zlen (pre ++ y ++ post) = N) by (rewrite !zlen_app in *; lia).
  split; [apply (shows_mid lo n L N pre y post b); auto; congruence|].
  split; [now apply ro_within|]. intros c Z W HZ. destruct (split3 L n Z) as (pre' & z & post' & -> & Hpre' & Hz); [lia|lia|destruct HZ; lia|].
  unfold outcome. rewrite alone_within by auto. rewrite bind_assoc.
  replace (let! a := alone z R in (let! (_, r) := (let (x, r) := a in Ok (pre' ++ x ++ post', r)) in Ok r)) with (outcome z R).
  - apply (HR c z W). apply (shows_mid lo n L N pre' z post' c); auto; apply HZ.
  - unfold outcome. apply bind_ext. intros [z' r] _. reflexivity.
Qed.

Lemma finish_ro A (p : prog A) : forall x pre post, ro p ->
  exists s, interleave x (pre ++ p :: post) s = (x, pre ++ Ret (outcome x p) :: post).
Proof.
  induction p as [r|i k IH|i v k IH]; intros x pre post H; cbn [ro] in H; [| |contradiction].
  - exists []. rewrite outcome_ret. reflexivity.
  - destruct (znth x i) as [v|] eqn:E.
    + destruct (IH v x pre post (H v)) as (s & S). exists (length pre :: s). cbn [interleave]. rewrite step_nth_mid. cbn [step].
      unfold vget at 1 2. rewrite E. cbn [fst snd]. rewrite S. unfold outcome. rewrite alone_get. unfold vget. rewrite E. reflexivity.
    + exists [length pre]. cbn [interleave]. rewrite step_nth_mid. cbn [step]. unfold outcome. rewrite alone_get.
      unfold vget. rewrite E. reflexivity.
Qed.
Lemma outcome_one z (R : prog (list Z * Z)) (g : list Z * Z -> prog (list (list Z * Z))) :
  (forall a, g a = Ret (Ok [a])) -> outcome z (pbind R g) = let! a := outcome z R in Ok [a].
Proof.
  intro G. unfold outcome. rewrite alone_bind, !bind_assoc. apply bind_ext. intros [z' a] _. cbn [fst snd]. rewrite G. reflexivity.
Qed.

(** two threads whose programs pause with their bitmaps in the same place *)
Lemma race2 lo n h p p' b b' F F' out out' pos pos' (g : list Z * Z -> prog (list (list Z * Z))) x :
  (forall a, g a = Ret (Ok [a])) -> zlen x = n -> wfc1 (h, b') ->
  paused lo n h p b F out pos -> paused lo n h p' b' F' out' pos' ->
  exists sched x' r r', interleave x [pbind p g; pbind p' g] sched
      = (x', [Ret (let! a := r in Ok [a]); Ret (let! a := r' in Ok [a])])
    /\ fits out pos (F b') r /\ fits out' pos' (F' b') r'.
Proof.
  intros G Hx W P P'. destruct (P x Hx) as (y & R & Hr & _ & Ro & HR). pose proof (runs_len _ _ _ _ _ Hr) as Hy.
  destruct (P' y) as (z & R' & Hr' & Hs & Ro' & HR'); [congruence|].
  destruct (runs_0 _ _ _ _ _ (pbind p' g) (runs_bind _ _ _ _ _ _ g Hr)) as [s1 S1].
  destruct (runs_1 _ _ _ _ _ (pbind R g) (runs_bind _ _ _ _ _ _ g Hr')) as [s2 S2].
  destruct (finish_ro _ (pbind R g) z [] [pbind R' g]) as [s3 S3]; [apply ro_bind; [exact Ro|]; intro a; rewrite G; exact I|].
  destruct (finish_ro _ (pbind R' g) z [Ret (outcome z (pbind R g))] []) as [s4 S4]; [apply ro_bind; [exact Ro'|]; intro a; rewrite G; exact I|].
  cbn [app] in S3, S4. rewrite !outcome_one in * by exact G.
  exists (s1 ++ s2 ++ s3 ++ s4), z, (outcome z R), (outcome z R').
  split; [rewrite interleave_app, S1, interleave_app, S2, interleave_app, S3; exact S4|]. auto.
Qed.
Definition buffer (c : call) : list Z * Z :=
  match c with
  | CInter _ _ _ out pos | CUnion _ _ _ out pos | CInterMany _ _ out pos | CUnionMany _ _ out pos => (out, pos)
  end.
Lemma answer_fits c e r : fits (fst (buffer c)) (snd (buffer c)) e r -> answer c e (let! a := r in Ok [a]).
Proof.
  unfold fits, answer. destruct c; cbn [buffer fst snd]; destruct (_ <=? _);
    try (intros (o & -> & W); exists o; split; [reflexivity|exact W]); intros ->; reflexivity.
Qed.
Lemma zlen_flat sc : sized sc -> zlen (flat sc) = 71684.
Proof. intros (H1 & H2 & H3 & H4 & H5 & H6 & H7 & H8). unfold flat. rewrite !zlen_app. lia. Qed.
Lemma race_calls tbl dbg sc lo h c c' b b' F F' : sized sc -> wfc1 (h, b') ->
  paused lo 71684 h (call_c tbl dbg c) b F (fst (buffer c)) (snd (buffer c)) ->
  paused lo 71684 h (call_c tbl dbg c') b' F' (fst (buffer c')) (snd (buffer c')) ->
  can_answer tbl dbg sc c c' (F b') (F' b').
Proof.
  intros Hs W P P'.
  destruct (race2 lo 71684 h _ _ _ _ _ _ _ _ _ _ (fun r => do rs <- calls_c tbl dbg [] ;; Ret (Ok (r :: rs))) (flat sc)
    (fun a => eq_refl) (zlen_flat sc Hs) W P P') as (sched & x' & r & r' & E & Hf & Hf').
  exists sched, x', (let! a := r in Ok [a]), (let! a := r' in Ok [a]). split; [exact E|]. split; now apply answer_fits.
Qed.

(** ** the pairwise operations *)
Lemma reg_vec z n c : shows 0 n z c -> bm_at (words_vec z) 1024 (memb c).
Proof. intros [_ B] i Hi. exact (B i Hi). Qed.
Lemma vec_reg z n c : zlen z = n -> bm_at (words_vec z) 1024 (memb c) -> shows 0 n z c.
Proof. intros H B. split; [exact H|]. intros i Hi. exact (B i Hi). Qed.
Lemma ro_get A i (k : Z -> prog A) : (forall v, ro (k v)) -> ro (Get i k).
Proof. exact (fun H => H). Qed.
Lemma and_S n l pos i base buf size : and_bitmap_loop_c (S n) l i base buf pos size
  = pbind (Ret (l i)) (fun a => Get i (fun b => pbind (Ret (word_loop 64 (Z.land a b) base buf pos size))
      (fun '(buf, size) => and_bitmap_loop_c n l (i + 1) (u32 (base + 64)) buf pos size))).
Proof. reflexivity. Qed.
Lemma ro_and n l pos : forall i base buf size, ro (and_bitmap_loop_c n l i base buf pos size).
Proof.
  induction n as [|n IH]; intros; [exact I|]. rewrite and_S. apply ro_bind; [exact I|]. intro a. apply ro_get. intro b.
  apply ro_bind; [exact I|]. intros [o k]. apply IH.
Qed.
Lemma or_S n l pos i base buf size : or_bitmap_loop_c (S n) l i base buf pos size
  = pbind (Ret (l i)) (fun a => Get i (fun b => pbind (Ret (word_loop 64 (Z.lor a b) base buf pos size))
      (fun '(buf, size) => or_bitmap_loop_c n l (i + 1) (u32 (base + 64)) buf pos size))).
Proof. reflexivity. Qed.
Lemma ro_or n l pos : forall i base buf size, ro (or_bitmap_loop_c n l i base buf pos size).
Proof.
  induction n as [|n IH]; intros; [exact I|]. rewrite or_S. apply ro_bind; [exact I|]. intro a. apply ro_get. intro b.
  apply ro_bind; [exact I|]. intros [o k]. apply IH.
Qed.
Lemma fill_runs dbg mem it h b (A : Type) (f : unit -> prog A) x :
  it_view 31 mem it [(h, b)] -> kind_of b = KSparse -> zlen x = 1024 ->
  exists y, runs x (do _ <- put_words 0 (repeat 0 (Z.to_nat chunk_size_in_64bit_words)) ;;
                    do u <- uncompress_sparse_chunk_c dbg mem (i_data it) (zlen (blocks_of b)) ;; f u) y (f tt)
    /\ zlen y = 1024 /\ bm_at (words_vec y) 1024 (memb b).
Proof.
  intros Vb Kb Hx.
  destruct (uncompress_sparse_chunk_ok dbg mem 31 it h b [] (repeat 0 (Z.to_nat 1024)) 0)
    as (y & Ey & By & Sy); auto; try lia.
  { rewrite zlen_repeat, Z2Nat.id; lia. }
  { apply bm_zeros; [lia|]. rewrite Z2Nat.id; lia. }
  destruct Sy as [Sy _]. rewrite zlen_repeat, Z2Nat.id in Sy by lia.
  exists y. split; [|split; [exact Sy|exact By]]. change chunk_size_in_64bit_words with 1024.
  eapply runs_trans.
  - apply (runs_alone_bind _ _ _ _ x (repeat 0 (Z.to_nat 1024)) tt). rewrite put_alone.
    + rewrite store_all by (rewrite zlen_repeat, Z2Nat.id; lia). reflexivity.
    + intro E0. apply (f_equal (@length _)) in E0. rewrite repeat_length in E0. vm_compute in E0. discriminate.
  - apply (runs_alone_bind _ _ _ _ _ y tt). rewrite usc_alone, Ey. reflexivity.
Qed.
Lemma two_chunks mem l r a b S T h : valid S -> valid T -> stored 31 mem a S -> stored 31 mem b T ->
  seq_at mem a = Ok l -> seq_at mem b = Ok r -> Forall (fun v => v / 65536 = h) (S ++ T) ->
  as_bitmap S h = true -> as_blocks T h = true ->
  exists s t, chunks_of S = [(h, s)] /\ chunks_of T = [(h, t)] /\ kind_of s = KDense /\ kind_of t = KSparse
    /\ it_view 31 mem (seq_begin l) [(h, s)] /\ it_view 31 mem (seq_begin r) [(h, t)].
Proof.
  intros VS VT SS ST El Er F RS RT. apply Forall_app in F as [FS FT].
  destruct (one_chunk _ _ VS FS) as [s ES]. destruct (one_chunk _ _ VT FT) as [t ET].
  exists s, t. split; auto. split; auto.
  split; [apply (rep_kind S h s VS); [rewrite ES; left; auto|auto]|].
  split; [apply (rep_kind T h t VT); [rewrite ET; left; auto|auto]|].
  destruct (stored_seq 31 mem _ _ VS SS ltac:(lia)) as (s' & Es & _ & Va & _).
  destruct (stored_seq 31 mem _ _ VT ST ltac:(lia)) as (t' & Et & _ & Vb & _).
  rewrite El in Es. injection Es as <-. rewrite Er in Et. injection Et as <-. rewrite ES in Va. rewrite ET in Vb. auto.
Qed.
Ltac pairs := repeat match goal with |- context [chunk_pair ?x ?y =? chunk_pair ?z ?w] =>
      let v := eval vm_compute in (chunk_pair x y =? chunk_pair z w) in
      replace (chunk_pair x y =? chunk_pair z w) with v by reflexivity end; cbv iota.
Lemma pi_paused tbl dbg mem l r out pos h s t : kind_of s = KDense -> kind_of t = KSparse ->
  it_view 31 mem (seq_begin l) [(h, s)] -> it_view 31 mem (seq_begin r) [(h, t)] -> 0 <= pos <= zlen out ->
  paused 0 1024 h (pairwise_intersection_c tbl dbg mem l r out pos) t (fun c => map (addb (h * 65536)) (isect s c)) out pos.
Proof.
  intros Ka Kb Va Vb Hp x Hx. unfold pairwise_intersection_c. cbv zeta.
  assert (Hf : exists f, (it_fuel (seq_begin l) + it_fuel (seq_begin r))%nat = S f).
  { pose proof (it_fuel_ok _ _ _ (proj1 Va)) as F. cbn [length] in F.
    destruct (it_fuel (seq_begin l)); [lia|]. eexists. reflexivity. }
  destruct Hf as [f ->]. cbn [pairwise_intersection_loop_c].
  rewrite (id_view_has_next _ _ _ (proj1 Va)), (id_view_has_next _ _ _ (proj1 Vb)). cbn [andb].
  destruct (chunk_base _ _ _ _ _ (proj1 Va)) as (Ei & Ebi & Hi).
  destruct (chunk_base _ _ _ _ _ (proj1 Vb)) as (Ej & _ & _).
  rewrite Ei, Ej. cbn [pbind]. rewrite !u16_id, Z.eqb_refl, Ebi by lia.
  unfold intersect_chunks_c.
  rewrite (id_view_type _ _ _ _ _ (proj1 Va)), (id_view_type _ _ _ _ _ (proj1 Vb)), Ka, Kb. cbn [pbind]. pairs.
  rewrite (id_view_blocks _ _ _ _ _ (proj1 Vb) Kb). cbn [pbind].
  destruct (view_next _ _ _ _ _ _ Va) as (itl1 & El & Va1 & _).
  destruct (view_next _ _ _ _ _ _ Vb) as (itr1 & Er & Vb1 & _).
  assert (N : forall o p, pairwise_intersection_loop_c f tbl dbg mem itl1 itr1 o p = Ret (Ok (o, p))).
  { intros o p. destruct f; cbn [pairwise_intersection_loop_c]; rewrite (id_view_has_next _ _ _ (proj1 Va1)); reflexivity. }
  unfold ds_intersect_chunk_c.
  destruct (fill_runs dbg mem (seq_begin r) h t _
    (fun _ => and_bitmap_loop_c (Z.to_nat chunk_size_in_64bit_words) (words_mem mem (i_data (seq_begin l))) 0 (h * 65536) out pos 0) x Vb Kb Hx)
    as (y & Hr & Hy & By).
  exists y. eexists. split; [apply runs_bind; apply runs_bind; exact Hr|]. split; [now apply vec_reg|]. split.
  - apply ro_bind; [apply ro_bind; [apply ro_and|]|]; intros [o k]; [|exact I].
    rewrite El, Er. cbn [pbind]. rewrite N. exact I.
  - intros c z W Hz. pose proof (view_wf _ _ _ _ _ Va) as (_ & _ & Sa & Ra). pose proof W as (_ & _ & Sc & Rc). cbn [snd] in *.
    pose proof (and_chunk_room (words_mem mem (i_data (seq_begin l))) (words_vec z) s c (h * 65536) out pos) as Rm.
    unfold room in Rm. unfold fits. rewrite zlen_map. unfold outcome. rewrite !alone_bind, and_alone. unfold tag.
    unfold and_bitmaps in Rm.
    assert (Rm' := Rm ltac:(eapply view_dense; eauto) (reg_vec _ _ _ Hz) Sa Sc Ra Rc ltac:(lia) ltac:(lia) ltac:(lia) ltac:(lia)).
    clear Rm. destruct (_ <=? _).
    + destruct Rm' as (o & -> & Wr). exists o. split; [|exact Wr]. cbn [bind fst snd]. rewrite El, Er. cbn [pbind]. rewrite N.
      cbn [alone bind fst snd].
      pose proof (chunk_card _ _ (view_wf _ _ _ _ _ Va)). pose proof (zlen_isect_le s c). pose proof (zlen_nonneg _ (isect s c)).
      rewrite u32_id by lia. f_equal. f_equal. lia.
    + rewrite Rm'. reflexivity.
Qed.
Lemma paused_k B lo n h p b F out pos (f : list Z * Z -> prog B) (g : B -> prog (list Z * Z)) :
  paused lo n h p b F out pos -> (forall a, ro (f a)) -> (forall a, ro (g a)) ->
  (forall c o z, wfc1 (h, c) -> alone z (pbind (f (o, zlen (F c))) g) = Ok (z, (o, zlen (F c)))) ->
  paused lo n h (pbind (pbind p f) g) b F out pos.
Proof.
  intros P Rf Rg E x Hx. destruct (P x Hx) as (y & R & Hr & Hs & Ro & HR). exists y, (pbind (pbind R f) g).
  split; [apply runs_bind; apply runs_bind; exact Hr|]. split; [exact Hs|].
  split; [apply ro_bind; [apply ro_bind; auto|auto]|]. intros c z W Hz. specialize (HR c z W Hz).
  assert (E1 : outcome z (pbind (pbind R f) g)
             = let! a := alone z R in let! b := alone (fst a) (pbind (f (snd a)) g) in Ok (snd b)).
  { unfold outcome. rewrite !alone_bind, !bind_assoc. apply bind_ext. intros [z1 a] _. cbn [fst snd].
    rewrite alone_bind, !bind_assoc. apply bind_ext. intros [z2 b2] _. cbn [fst snd]. apply bind_ext. intros [z3 r] _. reflexivity. }
  rewrite E1. unfold fits, outcome in *. destruct (_ <=? _).
  - destruct HR as (o & Ho & Wo). exists o. split; [|exact Wo].
    destruct (alone z R) as [[z1 [o1 k1]]| | | |]; cbn [bind fst snd] in Ho; try discriminate. injection Ho as -> ->.
    cbn [bind fst snd]. rewrite E by exact W. reflexivity.
  - destruct (alone z R) as [[z1 [o1 k1]]| | | |]; cbn [bind fst snd] in HR; try discriminate. reflexivity.
Qed.
Lemma zlen_uni_chunk s c : sorted s -> sorted c -> Forall (fun v => 0 <= v < 65536) s -> Forall (fun v => 0 <= v < 65536) c ->
  0 <= zlen (uni s c) <= 65536.
Proof.
  intros. split; [apply zlen_nonneg|]. change 65536 with (Z.of_nat (Z.to_nat 65536)).
  apply sorted_zlen_le; [now apply sorted_uni|]. apply Forall_forall. intros v [Hv|Hv]%In_uni;
    [rewrite Forall_forall in *; auto|rewrite Forall_forall in *; auto].
Qed.
Lemma duc_paused dbg mem itl itr out pos h s t : kind_of s = KDense -> kind_of t = KSparse ->
  it_view 31 mem itl [(h, s)] -> it_view 31 mem itr [(h, t)] -> 0 <= pos <= zlen out ->
  paused 0 1024 h (ds_union_chunk_c dbg mem (i_data itl) (i_data itr) (zlen (blocks_of t)) (h * 65536) out pos) t
    (fun c => map (addb (h * 65536)) (uni s c)) out pos.
Proof.
  intros Ka Kb Va Vb Hp x Hx. unfold ds_union_chunk_c.
  destruct (fill_runs dbg mem itr h t _
    (fun _ => or_bitmap_loop_c (Z.to_nat chunk_size_in_64bit_words) (words_mem mem (i_data itl)) 0 (h * 65536) out pos 0) x Vb Kb Hx)
    as (y & Hr & Hy & By).
  exists y. eexists. split; [exact Hr|]. split; [now apply vec_reg|]. split; [apply ro_or|].
  intros c z W Hz. pose proof (view_wf _ _ _ _ _ Va) as (_ & _ & Sa & Ra). pose proof W as (_ & _ & Sc & Rc). cbn [snd] in *.
  destruct (chunk_base _ _ _ _ _ (proj1 Va)) as (_ & _ & Hi).
  pose proof (or_chunk_room (words_mem mem (i_data itl)) (words_vec z) s c (h * 65536) out pos) as Rm.
  unfold room in Rm. unfold fits. rewrite zlen_map. unfold outcome. rewrite or_alone. unfold tag.
  unfold or_bitmaps in Rm.
  assert (Rm' := Rm ltac:(eapply view_dense; eauto) (reg_vec _ _ _ Hz) Sa Sc Ra Rc ltac:(lia) ltac:(lia) ltac:(lia) ltac:(lia)).
  clear Rm. destruct (_ <=? _).
  - destruct Rm' as (o & -> & Wr). exists o. auto.
  - rewrite Rm'. reflexivity.
Qed.
Lemma pu_paused dbg mem l r out pos h s t : kind_of s = KDense -> kind_of t = KSparse ->
  it_view 31 mem (seq_begin l) [(h, s)] -> it_view 31 mem (seq_begin r) [(h, t)] -> 0 <= pos <= zlen out ->
  paused 4 1028 h (pairwise_union_c dbg mem l r out pos) t (fun c => map (addb (h * 65536)) (uni s c)) out pos.
Proof.
  intros Ka Kb Va Vb Hp. unfold pairwise_union_c. cbv zeta.
  assert (Hf : exists f, (it_fuel (seq_begin l) + it_fuel (seq_begin r))%nat = S f).
  { pose proof (it_fuel_ok _ _ _ (proj1 Va)) as F. cbn [length] in F.
    destruct (it_fuel (seq_begin l)); [lia|]. eexists. reflexivity. }
  destruct Hf as [f ->]. cbn [pairwise_union_loop_c].
  destruct (chunk_base _ _ _ _ _ (proj1 Va)) as (Ei & Ebi & Hi).
  destruct (chunk_base _ _ _ _ _ (proj1 Vb)) as (Ej & _ & _).
  rewrite Ei, Ej. cbn [pbind]. rewrite !u16_id, Z.eqb_refl, Ebi by lia.
  unfold union_chunks_c.
  rewrite (id_view_type _ _ _ _ _ (proj1 Va)), (id_view_type _ _ _ _ _ (proj1 Vb)), Ka, Kb. cbn [pbind]. pairs.
  rewrite (id_view_blocks _ _ _ _ _ (proj1 Vb) Kb). cbn [pbind].
  destruct (view_next _ _ _ _ _ _ Va) as (itl1 & El & Va1 & _).
  destruct (view_next _ _ _ _ _ _ Vb) as (itr1 & Er & Vb1 & _).
  rewrite El, Er. cbn [pbind].
  rewrite (id_view_has_next _ _ _ (proj1 Va1)), (id_view_has_next _ _ _ (proj1 Vb1)). cbn [negb orb].
  apply paused_k.
  - change 4 with (4 + 0) at 1. apply paused_within with (lo := 0) (n := 1024); try lia. now apply duc_paused.
  - intros [o k]. exact I.
  - intros [[[a b] o] k].
    destruct (decode_rest_loop (it_fuel a) dbg mem a o k) as [[o1 k1]| | | |]; try exact I.
    destruct (decode_rest_loop (it_fuel b) dbg mem b o1 k1) as [[o2 k2]| | | |]; exact I.
  - intros c o z W. rewrite zlen_map. pose proof (view_wf _ _ _ _ _ Va) as (_ & _ & Sa & Ra). pose proof W as (_ & _ & Sc & Rc). cbn [snd] in *.
    pose proof (zlen_uni_chunk s c Sa Sc Ra Rc). rewrite u32_id by lia. cbn [pbind].
    assert (D : forall n it o p, it_view 31 mem it [] -> decode_rest_loop (S n) dbg mem it o p = Ok (o, p)).
    { intros n it o' p V. cbn [decode_rest_loop]. rewrite (id_view_has_next _ _ _ (proj1 V)). reflexivity. }
    assert (Q : forall it, it_view 31 mem it [] -> exists n, it_fuel it = S n).
    { intros it V. unfold it_fuel. eexists. reflexivity. }
    destruct (Q _ Va1) as [n1 ->]. destruct (Q _ Vb1) as [n2 ->]. rewrite D by auto. rewrite D by auto. cbn [alone bind].
    f_equal. f_equal. f_equal. lia.
Qed.
