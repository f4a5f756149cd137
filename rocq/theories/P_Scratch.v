(** C21: the static scratch buffers do not influence results. *)
From Verif Require Import Base Hw Spec Lib M_Util M_Seq M_Decode M_Uncompress M_Intersect M_Union M_Many M_Calls.
From Coq Require Import Lia.

(** ** lengths *)
Lemma store_len b p v b' : store b p v = Ok b' -> zlen b' = zlen b.
Proof.
  unfold store. destruct (Z.leb_spec 0 p), (Z.leb_spec (p + zlen v) (zlen b)); cbn [andb]; try discriminate.
  intro E. injection E as <-. pose proof (zlen_nonneg _ v).
  rewrite !zlen_app, zlen_firstn, zlen_skipn by lia. lia.
Qed.
Lemma bind_ok A B (r : res A) (k : A -> res B) y : bind r k = Ok y -> exists x, r = Ok x /\ k x = Ok y.
Proof. destruct r; cbn [bind]; try discriminate. eauto. Qed.
Ltac inv_bind H := let x := fresh "v" in let E := fresh "E" in apply bind_ok in H as (x & E & H).

Lemma usb_loop_len mem e pos : forall fuel b out out',
  uncompress_sparse_block_loop fuel mem b e out pos = Ok out' -> zlen out' = zlen out.
Proof.
  induction fuel as [|f IH]; intros b out out' H; cbn [uncompress_sparse_block_loop] in H; [discriminate|].
  inv_bind H. inv_bind H. inv_bind H. apply store_len in E1.
  destruct (b + 1 =? e); [injection H as <-; auto|]. apply IH in H. lia.
Qed.
Lemma memcpy_len mem a n out pos out' : memcpy_words mem a n out pos = Ok out' -> zlen out' = zlen out.
Proof. unfold memcpy_words. intro H. inv_bind H. now apply store_len in H. Qed.
Lemma usc_loop_len mem : forall n b d w p out out',
  uncompress_sparse_chunk_loop n mem b d w p out = Ok out' -> zlen out' = zlen out.
Proof.
  induction n as [|n IH]; intros b d w p out out' H; cbn [uncompress_sparse_chunk_loop] in H.
  - injection H as <-. auto.
  - inv_bind H. inv_bind H. inv_bind H. apply IH in H. rewrite H. destruct (block_type _ =? t_sparse).
    + unfold uncompress_sparse_block in E1. now apply usb_loop_len in E1.
    + unfold uncompress_dense_block in E1. now apply memcpy_len in E1.
Qed.
Lemma usc_len dbg mem b n out pos out' : uncompress_sparse_chunk dbg mem b n out pos = Ok out' -> zlen out' = zlen out.
Proof. unfold uncompress_sparse_chunk. intro H. inv_bind H. now apply usc_loop_len in H. Qed.
Lemma fill_len x pos : forall n i out out', fill_loop n i x out pos = Ok out' -> zlen out' = zlen out.
Proof.
  induction n as [|n IH]; intros i out out' H; cbn [fill_loop] in H; [injection H as <-; auto|].
  inv_bind H. apply store_len in E. apply IH in H. lia.
Qed.
Lemma and_words_len word : forall n i c out out' c', and_words_loop n word i c out = Ok (out', c') -> zlen out' = zlen out.
Proof.
  induction n as [|n IH]; intros i c out out' c' H; cbn [and_words_loop] in H; [injection H as <- <-; auto|].
  inv_bind H. inv_bind H. inv_bind H. apply store_len in E1. apply IH in H. lia.
Qed.
Lemma or_words_len word : forall n i out out', or_words_loop n word i out = Ok out' -> zlen out' = zlen out.
Proof.
  induction n as [|n IH]; intros i out out' H; cbn [or_words_loop] in H; [injection H as <-; auto|].
  inv_bind H. inv_bind H. inv_bind H. apply store_len in E1. apply IH in H. lia.
Qed.
Lemma load_words_len mem : forall n a ws, load_words n mem a = Ok ws -> zlen ws = Z.of_nat n.
Proof.
  induction n as [|n IH]; intros a ws H; cbn [load_words] in H; [injection H as <-; auto|].
  inv_bind H. inv_bind H. injection H as <-. apply IH in E0. rewrite zlen_cons. lia.
Qed.

(** ** overwriting a whole buffer *)
Lemma store_all b v : zlen b = zlen v -> store b 0 v = Ok v.
Proof.
  intro H. unfold store. destruct (Z.leb_spec (0 + zlen v) (zlen b)); [|lia]. cbn [Z.leb Z.compare andb].
  f_equal. cbn [Z.to_nat firstn]. rewrite app_nil_l. rewrite skipn_all2, app_nil_r; auto.
  unfold zlen in *. lia.
Qed.
Lemma memcpy_all mem a n out out' : 0 <= n -> zlen out = n -> zlen out' = n ->
  memcpy_words mem a n out 0 = memcpy_words mem a n out' 0.
Proof.
  intros Hn H H'. unfold memcpy_words. destruct (load_words (Z.to_nat n) mem a) as [ws| | | |] eqn:E; auto.
  cbn [bind]. apply load_words_len in E. rewrite !store_all by lia. reflexivity.
Qed.
Lemma fill_all x : forall n p o, zlen o = Z.of_nat n ->
  fill_loop n (zlen p) x (p ++ o) 0 = Ok (p ++ repeat x n).
Proof.
  induction n as [|n IH]; intros p o H; cbn [fill_loop].
  - destruct o; [reflexivity|]. rewrite zlen_cons in H. pose proof (zlen_nonneg _ o). lia.
  - destruct o as [|y o]; [rewrite zlen_nil in H; lia|]. rewrite zlen_cons in H.
    assert (E : vset (p ++ y :: o) (0 + zlen p) x = Ok ((p ++ [x]) ++ o)).
    { unfold vset, store. pose proof (zlen_nonneg _ p). pose proof (zlen_nonneg _ o).
      change (zlen [x]) with 1. rewrite zlen_app, zlen_cons.
      destruct (Z.leb_spec 0 (0 + zlen p)); [|lia].
      destruct (Z.leb_spec (0 + zlen p + 1) (zlen p + (zlen o + 1))); [|lia]. cbn [andb]. f_equal.
      rewrite Z.add_0_l. replace (Z.to_nat (zlen p)) with (length p) by (unfold zlen; lia).
      rewrite firstn_app, firstn_all, Nat.sub_diag, firstn_O, app_nil_r, <- app_assoc. f_equal. f_equal.
      replace (Z.to_nat (zlen p + 1)) with (length p + 1)%nat by (unfold zlen; lia).
      rewrite skipn_app, skipn_all2 by lia. replace (length p + 1 - length p)%nat with 1%nat by lia. reflexivity. }
    rewrite E. cbn [bind]. replace (zlen p + 1) with (zlen (p ++ [x])) by (rewrite zlen_app; reflexivity).
    rewrite IH by lia. rewrite <- app_assoc. reflexivity.
Qed.
Lemma fill_same x n out out' : zlen out = Z.of_nat n -> zlen out' = Z.of_nat n ->
  fill_loop n 0 x out 0 = fill_loop n 0 x out' 0.
Proof. intros H H'. exact (eq_trans (fill_all x n [] out H) (eq_sym (fill_all x n [] out' H'))). Qed.

Lemma uncompress_chunk_same dbg mem it out out' : zlen out = 1024 -> zlen out' = 1024 ->
  uncompress_chunk dbg mem it out 0 = uncompress_chunk dbg mem it out' 0.
Proof.
  intros H H'. unfold uncompress_chunk, uncompress_dense_chunk, uncompress_full_chunk.
  destruct (it_type mem it) as [t| | | |]; auto. cbn [bind]. destruct (t =? t_sparse).
  - rewrite (fill_same 0 _ out out') by (rewrite Z2Nat.id; lia). reflexivity.
  - destruct (t =? t_dense).
    + rewrite (memcpy_all mem (i_data it) _ out out') by (try assumption; discriminate). reflexivity.
    + destruct (t =? t_full); auto.
      rewrite (fill_same (u64 (-1)) _ out out') by (change chunk_size_in_64bit_words with 1024; rewrite Z2Nat.id; lia).
      reflexivity.
Qed.
Lemma uncompress_chunk_len dbg mem it out out' c :
  uncompress_chunk dbg mem it out 0 = Ok (out', c) -> zlen out' = zlen out.
Proof.
  unfold uncompress_chunk. intro H. inv_bind H. inv_bind H. inv_bind H. injection H as <- <-.
  destruct (v =? t_sparse); [|destruct (v =? t_dense); [|destruct (v =? t_full); [|discriminate]]].
  - inv_bind E0. inv_bind E0. apply fill_len in E2. apply usc_len in E0. lia.
  - now apply memcpy_len in E0.
  - now apply fill_len in E0.
Qed.

(** ** two runs in lockstep *)
Definition sim {A B} (R : A -> B -> Prop) (a : res A) (b : res B) : Prop :=
  match a, b with
  | Ok x, Ok y => R x y
  | Throw, Throw | Abort, Abort | UB, UB | Fuel, Fuel => True
  | _, _ => False
  end.
Lemma sim_eq A (R : A -> A -> Prop) (a : res A) : (forall x, a = Ok x -> R x x) -> sim R a a.
Proof. destruct a; cbn [sim]; auto. Qed.
Lemma sim_bind A B C D (R : A -> B -> Prop) (Q : C -> D -> Prop) a b f g :
  sim R a b -> (forall x y, a = Ok x -> b = Ok y -> R x y -> sim Q (f x) (g y)) -> sim Q (bind a f) (bind b g).
Proof. destruct a, b; cbn [sim bind]; auto; contradiction. Qed.
Lemma sim_bind_eq A C D (Q : C -> D -> Prop) (a : res A) f g :
  (forall x, a = Ok x -> sim Q (f x) (g x)) -> sim Q (bind a f) (bind a g).
Proof. destruct a; cbn [sim bind]; auto. Qed.
Lemma sim_mono A B (R Q : A -> B -> Prop) a b : sim R a b -> (forall x y, R x y -> Q x y) -> sim Q a b.
Proof. destruct a, b; cbn [sim]; auto. Qed.

(** results that agree except for a scratch buffer of [n] words *)
Definition same1 {A} (n : Z) (p q : list Z * A) : Prop :=
  zlen (fst p) = n /\ zlen (fst q) = n /\ snd p = snd q.

(** *** pairwise intersection *)
Definition same_x (n : Z) (p q : list Z * list Z * Z) : Prop :=
  zlen (fst (fst p)) = n /\ zlen (fst (fst q)) = n /\ snd (fst p) = snd (fst q) /\ snd p = snd q.

Lemma ds_intersect_sim dbg mem l r b base x x' out pos : zlen x = 1024 -> zlen x' = 1024 ->
  sim (same_x 1024) (ds_intersect_chunk dbg mem l r b base x out pos) (ds_intersect_chunk dbg mem l r b base x' out pos).
Proof.
  intros H H'. unfold ds_intersect_chunk. replace (length x') with (length x) by (unfold zlen in *; lia).
  apply sim_bind_eq. intros y E. apply usc_len in E.
  assert (zlen y = 1024) by (rewrite E; unfold zlen in *; rewrite repeat_length; lia).
  apply sim_bind_eq. intros [o n] _. cbn [sim]. repeat split; auto.
Qed.
Lemma keep_sim n x x' (r : res (list Z * Z)) : zlen x = n -> zlen x' = n ->
  sim (same_x n) (let! (out, n) := r in Ok (x, out, n)) (let! (out, n) := r in Ok (x', out, n)).
Proof. intros. apply sim_bind_eq. intros [o k] _. cbn [sim]. repeat split; auto. Qed.
Lemma intersect_chunks_sim tbl dbg mem l r base x x' out pos : zlen x = 1024 -> zlen x' = 1024 ->
  sim (same_x 1024) (intersect_chunks tbl dbg mem l r base x out pos) (intersect_chunks tbl dbg mem l r base x' out pos).
Proof.
  intros H H'. unfold intersect_chunks.
  repeat (apply sim_bind_eq; intros ? _).
  repeat match goal with
  | |- sim _ (if ?b then _ else _) (if ?b then _ else _) => destruct b
  | |- sim _ (bind ?e _) (bind ?e _) => first [apply keep_sim; assumption | apply sim_bind_eq; intros ? _]
  | |- sim _ (ds_intersect_chunk _ _ _ _ _ _ _ _ _) _ => apply ds_intersect_sim; assumption
  end; cbn [sim]; auto.
Qed.
Lemma intersection_loop_sim tbl dbg mem : forall fuel l r x x' out pos, zlen x = 1024 -> zlen x' = 1024 ->
  sim (same_x 1024) (pairwise_intersection_loop fuel tbl dbg mem l r x out pos)
                    (pairwise_intersection_loop fuel tbl dbg mem l r x' out pos).
Proof.
  induction fuel as [|f IH]; intros l r x x' out pos H H'; cbn [pairwise_intersection_loop];
    destruct (it_has_next l && it_has_next r); cbn [sim]; auto; try (repeat split; auto; fail).
  apply sim_bind_eq. intros il _. apply sim_bind_eq. intros ir _. cbv zeta.
  destruct (u16 il =? u16 ir).
  - eapply sim_bind; [apply intersect_chunks_sim; eassumption|].
    intros [[a o] n] [[b o'] n'] _ _ (L1 & L2 & E1 & E2). cbn [fst snd] in *. subst o' n'.
    apply sim_bind_eq. intros l' _. apply sim_bind_eq. intros r' _. apply IH; auto.
  - destruct (u16 il <? u16 ir); apply sim_bind_eq; intros; apply IH; auto.
Qed.
Lemma intersection_sim tbl dbg mem l r x x' out pos : zlen x = 1024 -> zlen x' = 1024 ->
  sim (same_x 1024) (pairwise_intersection tbl dbg mem l r x out pos) (pairwise_intersection tbl dbg mem l r x' out pos).
Proof.
  intros H H'. unfold pairwise_intersection. eapply sim_bind; [apply intersection_loop_sim; eassumption|].
  intros [[a o] n] [[b o'] n'] _ _ (L1 & L2 & E1 & E2). cbn [fst snd] in *. subst o' n'. cbn [sim]. repeat split; auto.
Qed.

(** *** pairwise union *)
Lemma ds_union_block_sim mem l r c base x x' out pos : zlen x = 4 -> zlen x' = 4 ->
  sim (same_x 4) (ds_union_block mem l r c base x out pos) (ds_union_block mem l r c base x' out pos).
Proof.
  intros H H'. unfold ds_union_block.
  rewrite (memcpy_all mem l (block_size / 8 / 8) x x') by (try assumption; discriminate).
  apply sim_bind_eq. intros y E. apply memcpy_len in E. apply sim_bind_eq. intros z E'.
  unfold uncompress_sparse_block in E'. apply usb_loop_len in E'.
  apply sim_bind_eq. intros [o n] _. cbn [sim]. repeat split; auto; cbn [fst]; lia.
Qed.
Lemma union_blocks_sim dbg mem dl dr cl cr b x x' out pos : zlen x = 4 -> zlen x' = 4 ->
  sim (same_x 4) (union_blocks dbg mem dl dr cl cr b x out pos) (union_blocks dbg mem dl dr cl cr b x' out pos).
Proof.
  intros H H'. unfold union_blocks.
  repeat match goal with
  | |- sim _ (if ?b then _ else _) (if ?b then _ else _) => destruct b
  | |- sim _ (bind ?e _) (bind ?e _) => apply keep_sim; assumption
  | |- sim _ (ds_union_block _ _ _ _ _ _ _ _) _ => apply ds_union_block_sim; assumption
  end; cbn [sim]; auto.
Qed.
Definition same_u (p q : Z * Z * Z * Z * list Z * list Z * Z) : Prop :=
  let '(l, r, dl, dr, x, o, n) := p in let '(l', r', dl', dr', x', o', n') := q in
  zlen x = 4 /\ zlen x' = 4 /\ (l, r, dl, dr, o, n) = (l', r', dl', dr', o', n').
Lemma ss_union_chunk_loop_sim dbg mem el er base : forall fuel l r dl dr x x' out pos, zlen x = 4 -> zlen x' = 4 ->
  sim same_u (ss_union_chunk_loop fuel dbg mem l r el er dl dr base x out pos)
             (ss_union_chunk_loop fuel dbg mem l r el er dl dr base x' out pos).
Proof.
  induction fuel as [|f IH]; intros l r dl dr x x' out pos H H'; cbn [ss_union_chunk_loop]; [exact I|].
  apply sim_bind_eq. intros a _. apply sim_bind_eq. intros b _.
  destruct (a <? b); [|destruct (b <? a)].
  - apply sim_bind_eq. intros [[[l' dl'] o] p] _. destruct (l' =? el); [cbn [sim]; repeat split; auto|]. apply IH; auto.
  - apply sim_bind_eq. intros [[[r' dr'] o] p] _. destruct (r' =? er); [cbn [sim]; repeat split; auto|]. apply IH; auto.
  - apply sim_bind_eq. intros c1 _. apply sim_bind_eq. intros c2 _. cbv zeta.
    eapply sim_bind; [apply union_blocks_sim; eassumption|].
    intros [[y o] n] [[y' o'] n'] _ _ (L1 & L2 & E1 & E2). cbn [fst snd] in *. subst o' n'.
    destruct (_ || _); [cbn [sim]; repeat split; auto|]. apply IH; auto.
Qed.
Lemma ss_union_chunk_sim dbg mem l r bl br base x x' out pos : zlen x = 4 -> zlen x' = 4 ->
  sim (same_x 4) (ss_union_chunk dbg mem l r bl br base x out pos) (ss_union_chunk dbg mem l r bl br base x' out pos).
Proof.
  intros H H'. unfold ss_union_chunk. apply sim_bind_eq. intros _ _. apply sim_bind_eq. intros _ _. cbv zeta.
  eapply sim_bind; [apply ss_union_chunk_loop_sim; eassumption|].
  intros [[[[[[l1 r1] dl] dr] y] o] p] [[[[[[l1' r1'] dl'] dr'] y'] o'] p'] _ _ (L1 & L2 & E).
  injection E as <- <- <- <- <- <-.
  apply sim_bind_eq. intros [o1 p1] _. apply sim_bind_eq. intros [o2 p2] _. cbn [sim]. repeat split; auto.
Qed.
Lemma ds_union_chunk_sim dbg mem l r b base y y' out pos : zlen y = 1024 -> zlen y' = 1024 ->
  sim (same_x 1024) (ds_union_chunk dbg mem l r b base y out pos) (ds_union_chunk dbg mem l r b base y' out pos).
Proof.
  intros H H'. unfold ds_union_chunk. replace (length y') with (length y) by (unfold zlen in *; lia).
  apply sim_bind_eq. intros z E. apply usc_len in E.
  assert (zlen z = 1024) by (rewrite E; unfold zlen in *; rewrite repeat_length; lia).
  apply sim_bind_eq. intros [o n] _. cbn [sim]. repeat split; auto.
Qed.
Definition same_xy (p q : list Z * list Z * list Z * Z) : Prop :=
  let '(x, y, o, n) := p in let '(x', y', o', n') := q in
  zlen x = 4 /\ zlen x' = 4 /\ zlen y = 1024 /\ zlen y' = 1024 /\ o = o' /\ n = n'.
Lemma keep_y_sim y y' a b : zlen y = 1024 -> zlen y' = 1024 -> sim (same_x 4) a b ->
  sim same_xy (let! (x, out, n) := a in Ok (x, y, out, n)) (let! (x, out, n) := b in Ok (x, y', out, n)).
Proof.
  intros H H' S. eapply sim_bind; [exact S|].
  intros [[u o] n] [[u' o'] n'] _ _ (L1 & L2 & E1 & E2). cbn [fst snd] in *. cbn [sim]. repeat split; auto.
Qed.
Lemma keep_x_sim x x' a b : zlen x = 4 -> zlen x' = 4 -> sim (same_x 1024) a b ->
  sim same_xy (let! (y, out, n) := a in Ok (x, y, out, n)) (let! (y, out, n) := b in Ok (x', y, out, n)).
Proof.
  intros H H' S. eapply sim_bind; [exact S|].
  intros [[u o] n] [[u' o'] n'] _ _ (L1 & L2 & E1 & E2). cbn [fst snd] in *. cbn [sim]. repeat split; auto.
Qed.
Lemma keep_xy_sim x x' y y' (a : res (list Z * Z)) : zlen x = 4 -> zlen x' = 4 -> zlen y = 1024 -> zlen y' = 1024 ->
  sim same_xy (let! (out, n) := a in Ok (x, y, out, n)) (let! (out, n) := a in Ok (x', y', out, n)).
Proof. intros. apply sim_bind_eq. intros [o n] _. cbn [sim]. repeat split; auto. Qed.
Lemma union_chunks_sim dbg mem l r base x x' y y' out pos :
  zlen x = 4 -> zlen x' = 4 -> zlen y = 1024 -> zlen y' = 1024 ->
  sim same_xy (union_chunks dbg mem l r base x y out pos) (union_chunks dbg mem l r base x' y' out pos).
Proof.
  intros X X' Y Y'. unfold union_chunks.
  repeat (apply sim_bind_eq; intros ? _).
  repeat match goal with
  | |- sim _ (if ?b then _ else _) (if ?b then _ else _) => destruct b
  | |- sim _ (bind _ _) (bind _ _) =>
      first [ apply keep_y_sim; [assumption|assumption|apply ss_union_chunk_sim; assumption]
            | apply keep_x_sim; [assumption|assumption|apply ds_union_chunk_sim; assumption]
            | apply keep_xy_sim; assumption
            | apply sim_bind_eq; intros ? _]
  end; cbn [sim]; auto.
Qed.
Definition same_p (p q : iterator * iterator * list Z * list Z * list Z * Z) : Prop :=
  let '(l, r, x, y, o, n) := p in let '(l', r', x', y', o', n') := q in
  zlen x = 4 /\ zlen x' = 4 /\ zlen y = 1024 /\ zlen y' = 1024 /\ (l, r, o, n) = (l', r', o', n').
Lemma union_loop_sim dbg mem : forall fuel l r x x' y y' out pos,
  zlen x = 4 -> zlen x' = 4 -> zlen y = 1024 -> zlen y' = 1024 ->
  sim same_p (pairwise_union_loop fuel dbg mem l r x y out pos) (pairwise_union_loop fuel dbg mem l r x' y' out pos).
Proof.
  induction fuel as [|f IH]; intros l r x x' y y' out pos X X' Y Y'; cbn [pairwise_union_loop]; [exact I|].
  apply sim_bind_eq. intros il _. apply sim_bind_eq. intros ir _. cbv zeta.
  destruct (u16 il =? u16 ir); [|destruct (u16 il <? u16 ir)].
  - eapply sim_bind; [apply union_chunks_sim; eassumption|].
    intros [[[x1 y1] o] n] [[[x1' y1'] o'] n'] _ _ (L1 & L2 & L3 & L4 & E1 & E2). subst o' n'.
    apply sim_bind_eq. intros l' _. apply sim_bind_eq. intros r' _.
    destruct (_ || _); [cbn [sim]; repeat split; auto|]. apply IH; auto.
  - apply sim_bind_eq. intros [o n] _. apply sim_bind_eq. intros l' _.
    destruct (negb _); [cbn [sim]; repeat split; auto|]. apply IH; auto.
  - apply sim_bind_eq. intros [o n] _. apply sim_bind_eq. intros l' _.
    destruct (negb _); [cbn [sim]; repeat split; auto|]. apply IH; auto.
Qed.
Lemma union_sim dbg mem l r x x' y y' out pos :
  zlen x = 4 -> zlen x' = 4 -> zlen y = 1024 -> zlen y' = 1024 ->
  sim same_xy (pairwise_union dbg mem l r x y out pos) (pairwise_union dbg mem l r x' y' out pos).
Proof.
  intros X X' Y Y'. unfold pairwise_union. eapply sim_bind; [apply union_loop_sim; eassumption|].
  intros [[[[[l1 r1] x1] y1] o] n] [[[[[l1' r1'] x1'] y1'] o'] n'] _ _ (L1 & L2 & L3 & L4 & E).
  injection E as <- <- <- <-.
  apply sim_bind_eq. intros [o1 p1] _. apply sim_bind_eq. intros [o2 p2] _. cbn [sim]. repeat split; auto.
Qed.

(** *** intersection of many *)
Definition agree (k : Z) (h h' : list Z) : Prop :=
  zlen h = 65536 /\ zlen h' = 65536 /\ forall i, 0 <= i < k -> znth h i = znth h' i.
Lemma vset_agree k h h' x : 0 <= k -> agree k h h' -> sim (agree (k + 1)) (vset h k x) (vset h' k x).
Proof.
  intros K (L & L' & A). destruct (Z_lt_le_dec k 65536) as [B|B].
  - destruct (vset_ok h k x) as (u & E & W1 & W2 & W3); [lia|]. destruct (vset_ok h' k x) as (u' & E' & V1 & V2 & V3); [lia|].
    rewrite E, E'. cbn [sim]. split; [lia|]. split; [lia|]. intros i Hi.
    change (zlen [x]) with 1 in *. destruct (Z.eq_dec i k) as [->|N].
    + rewrite <- (Z.add_0_r k), W2, V2 by lia. reflexivity.
    + rewrite W3, V3 by lia. apply A. lia.
  - unfold vset, store. rewrite L, L'. change (zlen [x]) with 1.
    destruct (Z.leb_spec (k + 1) 65536); [lia|]. rewrite andb_false_r. exact I.
Qed.
Definition same_h (p q : list Z * Z) : Prop := agree (snd p) (fst p) (fst q) /\ snd p = snd q /\ 0 <= snd p.
Lemma candidate_loop_sim mem : forall fuel its c i h h' k, 0 <= k -> agree k h h' ->
  sim same_h (candidate_loop fuel mem its c i h k) (candidate_loop fuel mem its c i h' k).
Proof.
  induction fuel as [|f IH]; intros its c i h h' k K A; cbn [candidate_loop];
    destruct (c <? 65536); cbn [sim]; auto; try (repeat split; auto; apply A).
  apply sim_bind_eq. intros [[its1 c1] i1] _. destruct (i1 =? zlen its1); [|apply IH; auto].
  eapply sim_bind; [apply vset_agree; eassumption|]. intros u u' _ _ U.
  apply sim_bind_eq. intros it0 _. apply sim_bind_eq. intros it1 _. cbv zeta. apply sim_bind_eq. intros c2 _.
  apply IH; [lia|auto].
Qed.

Lemma uci_sim dbg mem it t t' b c : zlen t = 1024 -> zlen t' = 1024 ->
  sim (same_x 1024) (uncompress_chunk_and_intersect dbg mem it t b c) (uncompress_chunk_and_intersect dbg mem it t' b c).
Proof.
  intros H H'. unfold uncompress_chunk_and_intersect. apply sim_bind_eq. intros ty _.
  destruct (ty =? t_sparse); [|destruct (ty =? t_dense); [|destruct (ty =? t_full); cbn [sim]; auto]].
  - apply sim_bind_eq. intros bl _. unfold uncompress_sparse_chunk_and_intersect.
    replace (length t') with (length t) by (unfold zlen in *; lia). cbv zeta.
    apply sim_bind_eq. intros y E. apply usc_len in E.
    assert (zlen y = 1024) by (rewrite E; unfold zlen in *; rewrite repeat_length; lia).
    apply sim_bind_eq. intros [o n] _. cbn [sim]. repeat split; auto.
  - apply keep_sim; auto.
  - repeat split; auto.
Qed.
Lemma uci_len dbg mem it t b c t1 b1 c1 :
  uncompress_chunk_and_intersect dbg mem it t b c = Ok (t1, b1, c1) -> zlen b1 = zlen b.
Proof.
  unfold uncompress_chunk_and_intersect. intro H. inv_bind H.
  destruct (v =? t_sparse); [|destruct (v =? t_dense); [|destruct (v =? t_full); [|discriminate]]].
  - inv_bind H. unfold uncompress_sparse_chunk_and_intersect in H. inv_bind H. inv_bind H. destruct v2 as [o n].
    injection H as <- <- <-. now apply and_words_len in E2.
  - inv_bind H. destruct v0 as [o n]. injection H as <- <- <-. unfold uncompress_dense_chunk_and_intersect in E0.
    now apply and_words_len in E0.
  - now injection H as <- <- <-.
Qed.
Definition same_r (p q : list iterator * list Z * list Z * Z * bool) : Prop :=
  let '(its, t, b, c, s) := p in let '(its', t', b', c', s') := q in
  zlen t = 1024 /\ zlen t' = 1024 /\ zlen b = 1024 /\ (its, b, c, s) = (its', b', c', s').
Lemma and_rest_sim dbg mem h : forall its t t' b c, zlen t = 1024 -> zlen t' = 1024 -> zlen b = 1024 ->
  sim same_r (and_rest dbg mem its h t b c) (and_rest dbg mem its h t' b c).
Proof.
  induction its as [|it its IH]; intros t t' b c T T' B; cbn [and_rest]; [cbn [sim]; repeat split; auto|].
  apply sim_bind_eq. intros it1 _. apply sim_bind_eq. intros id _. apply sim_bind_eq. intros _ _.
  eapply sim_bind; [apply uci_sim; eassumption|].
  intros [[t1 b1] c1] [[t1' b1'] c1'] E _ (L1 & L2 & E1 & E2). cbn [fst snd] in *. subst b1' c1'.
  apply uci_len in E. destruct (c1 =? 0); [cbn [sim]; repeat split; auto; lia|].
  eapply sim_bind; [apply IH; try eassumption; lia|].
  intros [[[[i2 t2] b2] c2] s2] [[[[i2' t2'] b2'] c2'] s2'] _ _ (M1 & M2 & M3 & M4). injection M4 as <- <- <- <-.
  cbn [sim]. repeat split; auto.
Qed.
Definition same_m (p q : list Z * list Z * list Z * Z) : Prop :=
  let '(t, b, o, n) := p in let '(t', b', o', n') := q in
  zlen t = 1024 /\ zlen t' = 1024 /\ zlen b = 1024 /\ zlen b' = 1024 /\ o = o' /\ n = n'.
Lemma intersect_headers_sim dbg mem k hs hs' : agree k hs hs' -> forall n its i t t' b b' out pos,
  0 <= i -> i + Z.of_nat n <= k ->
  zlen t = 1024 -> zlen t' = 1024 -> zlen b = 1024 -> zlen b' = 1024 ->
  sim same_m (intersect_headers n dbg mem its hs i t b out pos) (intersect_headers n dbg mem its hs' i t' b' out pos).
Proof.
  intros (_ & _ & A). induction n as [|n IH]; intros its i t t' b b' out pos I0 K T T' B B'; cbn [intersect_headers];
    [cbn [sim]; repeat split; auto|].
  replace (vget hs' i) with (vget hs i) by (unfold vget; rewrite A by lia; reflexivity).
  apply sim_bind_eq. intros h _. cbv zeta. destruct its as [|it0 its]; [exact I|].
  apply sim_bind_eq. intros it1 _. apply sim_bind_eq. intros id _. apply sim_bind_eq. intros _ _.
  rewrite (uncompress_chunk_same dbg mem it1 b b') by auto.
  apply sim_bind_eq. intros [b1 c1] E. apply uncompress_chunk_len in E.
  eapply sim_bind; [apply and_rest_sim; try eassumption; lia|].
  intros [[[[i2 t2] b2] c2] s2] [[[[i2' t2'] b2'] c2'] s2'] _ _ (M1 & M2 & M3 & M4). injection M4 as <- <- <- <-.
  destruct s2; [apply IH; auto; lia|].
  apply sim_bind_eq. intros [o k'] _. apply IH; auto; lia.
Qed.
Definition same_i (p q : list Z * list Z * list Z * list Z * Z) : Prop :=
  let '(h, t, b, o, n) := p in let '(h', t', b', o', n') := q in
  zlen h = 65536 /\ zlen h' = 65536 /\ same_m (t, b, o, n) (t', b', o', n').
Lemma intersection_sorted_sim dbg mem seqs h h' t t' b b' out pos :
  zlen h = 65536 -> zlen h' = 65536 ->
  zlen t = 1024 -> zlen t' = 1024 -> zlen b = 1024 -> zlen b' = 1024 ->
  sim same_i (intersection_sorted dbg mem seqs h t b out pos) (intersection_sorted dbg mem seqs h' t' b' out pos).
Proof.
  intros H H' T T' B B'. unfold intersection_sorted. cbv zeta.
  apply sim_bind_eq. intros it0 _. apply sim_bind_eq. intros c _.
  eapply sim_bind.
  { apply (candidate_loop_sim mem (candidate_fuel seqs) (map seq_begin seqs) c 1 h h' 0); [lia|].
    repeat split; auto. intros i Hi. lia. }
  intros [h1 k] [h1' k'] _ _ (A & E & K). cbn [fst snd] in *. subst k'.
  eapply sim_bind; [apply intersect_headers_sim with (k := k); try eassumption; lia|].
  intros [[[t2 b2] o2] n2] [[[t2' b2'] o2'] n2'] _ _ (L1 & L2 & L3 & L4 & -> & ->).
  cbn [sim]. destruct A as (A1 & A2 & _). repeat split; auto.
Qed.

(** *** union of many *)
Lemma ucm_sim dbg mem it t t' b : zlen t = 1024 -> zlen t' = 1024 ->
  sim (same1 1024) (uncompress_chunk_and_merge dbg mem it t b) (uncompress_chunk_and_merge dbg mem it t' b).
Proof.
  intros H H'. unfold uncompress_chunk_and_merge. apply sim_bind_eq. intros ty _.
  destruct (ty =? t_sparse); [|destruct (ty =? t_dense); [|destruct (ty =? t_full); cbn [sim]; auto]].
  - apply sim_bind_eq. intros bl _. unfold uncompress_sparse_chunk_and_merge.
    replace (length t') with (length t) by (unfold zlen in *; lia). cbv zeta.
    apply sim_bind_eq. intros y E. apply usc_len in E.
    assert (zlen y = 1024) by (rewrite E; unfold zlen in *; rewrite repeat_length; lia).
    apply sim_bind_eq. intros o _. cbn [sim]. repeat split; auto.
  - apply sim_bind_eq. intros o _. cbn [sim]. repeat split; auto.
  - apply sim_bind_eq. intros o _. cbn [sim]. repeat split; auto.
Qed.
Lemma ucm_len dbg mem it t b t1 b1 : uncompress_chunk_and_merge dbg mem it t b = Ok (t1, b1) -> zlen b1 = zlen b.
Proof.
  unfold uncompress_chunk_and_merge. intro H. inv_bind H.
  destruct (v =? t_sparse); [|destruct (v =? t_dense); [|destruct (v =? t_full); [|discriminate]]].
  - inv_bind H. unfold uncompress_sparse_chunk_and_merge in H. inv_bind H. inv_bind H.
    injection H as <- <-. now apply or_words_len in E2.
  - inv_bind H. injection H as <- <-. unfold uncompress_dense_chunk_and_merge in E0. now apply or_words_len in E0.
  - inv_bind H. injection H as <- <-. unfold uncompress_full_chunk_and_merge in E0. now apply fill_len in E0.
Qed.
(** the bitmaps agree as soon as one iterator is at the header *)
Definition same_b (p q : list Z * list Z) : Prop :=
  zlen (fst p) = 1024 /\ zlen (fst q) = 1024 /\ zlen (snd p) = 1024 /\ snd p = snd q.
Lemma merge_rest_sim dbg mem h : forall its t t' b, zlen t = 1024 -> zlen t' = 1024 -> zlen b = 1024 ->
  sim same_b (merge_all dbg mem its h false t b) (merge_all dbg mem its h false t' b).
Proof.
  induction its as [|it its IH]; intros t t' b T T' B; cbn [merge_all]; [cbn [sim]; repeat split; auto|].
  apply sim_bind_eq. intros id _. destruct (id =? h); [|apply IH; auto].
  eapply sim_bind; [apply ucm_sim; eassumption|].
  intros [t1 b1] [t1' b1'] E _ (L1 & L2 & E1). cbn [fst snd] in *. subst b1'. apply ucm_len in E. apply IH; auto. lia.
Qed.
Lemma merge_all_sim dbg mem h : forall its t t' b b',
  zlen t = 1024 -> zlen t' = 1024 -> zlen b = 1024 -> zlen b' = 1024 ->
  (exists it, In it its /\ it_id mem it = Ok h) ->
  sim same_b (merge_all dbg mem its h true t b) (merge_all dbg mem its h true t' b').
Proof.
  induction its as [|it its IH]; intros t t' b b' T T' B B' (i & Hi & Ei); [easy|]. cbn [merge_all].
  apply sim_bind_eq. intros id E. destruct (Z.eqb_spec id h) as [->|N].
  - rewrite (uncompress_chunk_same dbg mem it b b') by auto.
    apply sim_bind_eq. intros [b1 c1] E1. apply uncompress_chunk_len in E1. apply merge_rest_sim; auto. lia.
  - apply IH; auto. destruct Hi as [->|Hi]; [congruence|]. eauto.
Qed.
Lemma next_headers_at mem h : forall its nx its' n, next_headers mem its h nx = Ok (its', n) ->
  n = nx \/ exists it, In it its' /\ it_id mem it = Ok n.
Proof.
  induction its as [|it its IH]; intros nx its' n H; cbn [next_headers] in H; [injection H as <- <-; auto|].
  inv_bind H. inv_bind H. inv_bind H. inv_bind H. destruct v2 as [i2 n2]. injection H as <- <-.
  apply IH in E2 as [->|(i & Hi & Ei)].
  - destruct (v1 <? nx); [|now left]. right. exists v0. split; [now left|auto].
  - right. exists i. split; [now right|auto].
Qed.
Lemma min_id_loop_at mem : forall its m h, min_id_loop mem its m = Ok h ->
  h = m \/ exists it, In it its /\ it_id mem it = Ok h.
Proof.
  induction its as [|it its IH]; intros m h H; cbn [min_id_loop] in H; [injection H as <-; auto|].
  inv_bind H. apply IH in H as [->|(i & Hi & Ei)].
  - destruct (v <? m); [|now left]. right. exists it. split; [now left|auto].
  - right. exists i. split; [now right|auto].
Qed.
Lemma min_id_at mem its h : min_id mem its = Ok h -> exists it, In it its /\ it_id mem it = Ok h.
Proof.
  destruct its as [|it its]; cbn [min_id]; [discriminate|]. intro H. inv_bind H.
  apply min_id_loop_at in H as [->|(i & Hi & Ei)].
  - exists it. split; [now left|auto].
  - exists i. split; [now right|auto].
Qed.
Lemma union_many_loop_sim dbg mem : forall fuel its h t t' b b' out pos,
  zlen t = 1024 -> zlen t' = 1024 -> zlen b = 1024 -> zlen b' = 1024 ->
  (h < 65536 -> exists it, In it its /\ it_id mem it = Ok h) ->
  sim same_m (union_loop fuel dbg mem its h t b out pos) (union_loop fuel dbg mem its h t' b' out pos).
Proof.
  induction fuel as [|f IH]; intros its h t t' b b' out pos T T' B B' X; cbn [union_loop];
    destruct (Z.ltb_spec h 65536); cbn [sim]; auto; try (repeat split; auto; fail).
  cbv zeta. eapply sim_bind; [apply merge_all_sim; eauto|].
  intros [t1 b1] [t1' b1'] _ _ (L1 & L2 & L3 & E). cbn [fst snd] in *. subst b1'.
  apply sim_bind_eq. intros [o k] _. apply sim_bind_eq. intros [its' nx] E. apply IH; auto.
  intro L. apply next_headers_at in E as [->|Y]; [lia|auto].
Qed.
Lemma union_many_sim dbg mem seqs t t' b b' out pos :
  zlen t = 1024 -> zlen t' = 1024 -> zlen b = 1024 -> zlen b' = 1024 ->
  sim same_m (union_many dbg mem seqs t b out pos) (union_many dbg mem seqs t' b' out pos).
Proof.
  intros T T' B B'. unfold union_many. cbv zeta. apply sim_bind_eq. intros h E. apply min_id_at in E.
  eapply sim_bind; [apply union_many_loop_sim; eauto|].
  intros [[[t2 b2] o2] n2] [[[t2' b2'] o2'] n2'] _ _ (L1 & L2 & L3 & L4 & -> & ->).
  cbn [sim]. repeat split; auto.
Qed.

(** ** histories *)
Definition same_c (p q : scratch * (list Z * Z)) : Prop := sized (fst p) /\ sized (fst q) /\ snd p = snd q.
Lemma run_call_sim tbl dbg sc sc' c : sized sc -> sized sc' ->
  sim same_c (run_call tbl dbg sc c) (run_call tbl dbg sc' c).
Proof.
  intros (A1 & A2 & A3 & A4 & A5 & A6 & A7 & A8) (B1 & B2 & B3 & B4 & B5 & B6 & B7 & B8). destruct c; cbn [run_call].
  - eapply sim_bind; [apply intersection_sim; eassumption|].
    intros [[x o] n] [[x' o'] n'] _ _ (L1 & L2 & E1 & E2). cbn [fst snd] in *. subst. cbn [sim]. repeat split; auto.
  - eapply sim_bind; [apply union_sim; eassumption|].
    intros [[[x y] o] n] [[[x' y'] o'] n'] _ _ (L1 & L2 & L3 & L4 & -> & ->). cbn [sim]. repeat split; auto.
  - eapply sim_bind; [apply intersection_sorted_sim; eassumption|].
    intros [[[[h t] b] o] n] [[[[h' t'] b'] o'] n'] _ _ (H1 & H2 & L1 & L2 & L3 & L4 & -> & ->). cbn [sim]. repeat split; auto.
  - eapply sim_bind; [apply union_many_sim; eassumption|].
    intros [[[t b] o] n] [[[t' b'] o'] n'] _ _ (L1 & L2 & L3 & L4 & -> & ->). cbn [sim]. repeat split; auto.
Qed.
Lemma sized0 : sized scratch0.
Proof.
  repeat split; unfold scratch0; cbn [sc_inter sc_block sc_union sc_and sc_or sc_headers sc_ibitmap sc_ubitmap];
    unfold zlen; rewrite repeat_length; try reflexivity; apply Z2Nat.id; lia.
Qed.

Theorem c21_call : forall tbl dbg sc c, sized sc ->
  match run_call tbl dbg sc c with
  | Ok (sc', r) => sized sc' /\ isolated tbl dbg c = Ok r
  | Throw => isolated tbl dbg c = Throw
  | Abort => isolated tbl dbg c = Abort
  | UB => isolated tbl dbg c = UB
  | Fuel => isolated tbl dbg c = Fuel
  end.
Proof.
  intros tbl dbg sc c H. pose proof (run_call_sim tbl dbg sc scratch0 c H sized0) as S. unfold isolated.
  destruct (run_call tbl dbg sc c) as [[sc' r]| | | |], (run_call tbl dbg scratch0 c) as [[sc0 r0]| | | |];
    cbn [sim] in S; try contradiction; cbn [bind]; auto.
  destruct S as (S1 & S2 & S3). cbn [fst snd] in *. subst. auto.
Qed.
Theorem c21_history : forall tbl dbg cs sc, sized sc ->
  run_calls tbl dbg sc cs = in_order (map (isolated tbl dbg) cs).
Proof.
  intros tbl dbg. induction cs as [|c cs IH]; intros sc H; [reflexivity|]. cbn [run_calls map in_order].
  pose proof (c21_call tbl dbg sc c H) as C. destruct (run_call tbl dbg sc c) as [[sc' r]| | | |];
    [destruct C as [C1 C]|..]; rewrite C; cbn [bind]; auto.
  rewrite (IH sc' C1). reflexivity.
Qed.
