(** C45: a thread that is never interrupted is the sequential model. *)
From Verif Require Import Base Hw Spec Lib M_Util M_Seq M_Decode M_Uncompress M_Intersect M_Union M_Many M_Calls
  M_Conc M_Threads P_Scratch P_Conc.
From Coq Require Import Lia.

(** ** arrays inside a larger memory *)
Lemma vget_mid pre x post i : 0 <= i < zlen x -> vget (pre ++ x ++ post) (zlen pre + i) = vget x i.
Proof.
  intro H. unfold vget. f_equal. pose proof (zlen_nonneg _ pre). rewrite znth_app_r by lia.
  replace (zlen pre + i - zlen pre) with i by lia. rewrite znth_app_l by lia. reflexivity.
Qed.
Lemma vset_mid pre x post i v : 0 <= i < zlen x ->
  vset (pre ++ x ++ post) (zlen pre + i) v = let! x := vset x i v in Ok (pre ++ x ++ post).
Proof.
  intro H. pose proof (zlen_nonneg _ pre). pose proof (zlen_nonneg _ post). unfold vset, store. change (zlen [v]) with 1.
  rewrite !zlen_app.
  destruct (Z.leb_spec 0 (zlen pre + i)); [|lia]. destruct (Z.leb_spec (zlen pre + i + 1) (zlen pre + (zlen x + zlen post))); [|lia].
  destruct (Z.leb_spec 0 i); [|lia]. destruct (Z.leb_spec (i + 1) (zlen x)); [|lia]. cbn [andb bind]. f_equal.
  unfold zlen in *.
  rewrite firstn_app, skipn_app.
  rewrite (firstn_all2 (n := Z.to_nat (Z.of_nat (length pre) + i)) pre) by lia.
  rewrite (skipn_all2 (n := Z.to_nat (Z.of_nat (length pre) + i + 1)) pre) by lia.
  rewrite firstn_app, skipn_app.
  replace (Z.to_nat (Z.of_nat (length pre) + i) - length pre)%nat with (Z.to_nat i) by lia.
  replace (Z.to_nat (Z.of_nat (length pre) + i + 1) - length pre)%nat with (Z.to_nat (i + 1)) by lia.
  replace (Z.to_nat i - length x)%nat with O by lia.
  replace (Z.to_nat (i + 1) - length x)%nat with O by lia.
  rewrite firstn_O, app_nil_r. cbn [app skipn]. rewrite <- !app_assoc. reflexivity.
Qed.
Lemma vset_len x i v x' : vset x i v = Ok x' -> zlen x' = zlen x.
Proof. apply store_len. Qed.
Lemma alone_len A (p : prog A) : forall x x' a, alone x p = Ok (x', a) -> zlen x' = zlen x.
Proof.
  induction p as [r|i k IH|i v k IH]; intros x x' a E.
  - cbn [alone] in E. apply bind_ok in E as (b & _ & E). injection E as <- _. reflexivity.
  - rewrite alone_get in E. apply bind_ok in E as (v & _ & E). eauto.
  - rewrite alone_put in E. apply bind_ok in E as (y & Ey & E). apply vset_len in Ey. rewrite <- Ey. eauto.
Qed.
Lemma vget_out x i : (0 <=? i) && (i <? zlen x) = false -> vget x i = UB.
Proof.
  intro H. unfold vget, znth. destruct (Z.ltb_spec i 0); [reflexivity|].
  destruct (Z.leb_spec 0 i); [|lia]. cbn [andb] in H. apply Z.ltb_ge in H.
  rewrite (proj2 (nth_error_None x (Z.to_nat i))); [reflexivity|]. unfold zlen in H. lia.
Qed.
Lemma vset_out x i v : (0 <=? i) && (i <? zlen x) = false -> vset x i v = UB.
Proof.
  intro H. unfold vset, store. change (zlen [v]) with 1.
  destruct (Z.leb_spec 0 i); [|reflexivity]. cbn [andb] in *. apply Z.ltb_ge in H.
  destruct (Z.leb_spec (i + 1) (zlen x)); [lia|reflexivity].
Qed.
Lemma in_range n i : (0 <=? i) && (i <? n) = true -> 0 <= i < n.
Proof. intro H. apply andb_prop in H as [A B]. apply Z.leb_le in A. apply Z.ltb_lt in B. lia. Qed.
Lemma alone_within A lo n (p : prog A) : forall pre x post, zlen pre = lo -> zlen x = n ->
  alone (pre ++ x ++ post) (within lo n p) = let! (x, a) := alone x p in Ok (pre ++ x ++ post, a).
Proof.
  induction p as [r|i k IH|i v k IH]; intros pre x post <- <-; cbn [within].
  - cbn [alone]. rewrite bind_assoc. reflexivity.
  - rewrite alone_get. destruct ((0 <=? i) && (i <? zlen x)) eqn:E.
    + rewrite alone_get, vget_mid by (apply in_range; exact E). rewrite bind_assoc. apply bind_ext. intros v _.
      apply IH; reflexivity.
    + rewrite vget_out by exact E. reflexivity.
  - rewrite alone_put. destruct ((0 <=? i) && (i <? zlen x)) eqn:E.
    + rewrite alone_put, vset_mid by (apply in_range; exact E). rewrite !bind_assoc. apply bind_ext. intros y Ey.
      cbn [bind]. apply IH; [reflexivity|]. exact (vset_len _ _ _ _ Ey).
    + rewrite vset_out by exact E. reflexivity.
Qed.
Lemma alone_lo A n (p : prog A) x post : zlen x = n ->
  alone (x ++ post) (within 0 n p) = let! (x, a) := alone x p in Ok (x ++ post, a).
Proof. intro H. exact (alone_within A 0 n p [] x post eq_refl H). Qed.
Lemma alone_hi A lo n (p : prog A) pre x : zlen pre = lo -> zlen x = n ->
  alone (pre ++ x) (within lo n p) = let! (x, a) := alone x p in Ok (pre ++ x, a).
Proof.
  intros Hl H. pose proof (alone_within A lo n p pre x [] Hl H) as E. rewrite app_nil_r in E. rewrite E.
  apply bind_ext. intros [y a] _. rewrite app_nil_r. reflexivity.
Qed.

(** ** union.hpp *)
Lemma or_alone l pos x : forall n i base buf size,
  alone x (or_bitmap_loop_c n l i base buf pos size)
  = tag (bitmap_loop n (fun i => let! a := l i in let! b := words_vec x i in Ok (Z.lor a b)) i base buf pos size) x.
Proof.
  unfold tag, words_vec. induction n as [|n IH]; intros i base buf size; cbn [or_bitmap_loop_c bitmap_loop]; [reflexivity|].
  rewrite alone_ret, !bind_assoc. apply bind_ext. intros a _. rewrite alone_get, !bind_assoc.
  apply bind_ext. intros b _. cbn [bind]. rewrite alone_ret, bind_assoc.
  apply bind_ext. intros [buf' size'] _. apply IH.
Qed.
Lemma dub_alone mem l r c base x out pos :
  alone x (ds_union_block_c mem l r c base out pos) = regroup (ds_union_block mem l r c base x out pos).
Proof.
  unfold ds_union_block_c, ds_union_block, regroup, memcpy_words.
  rewrite alone_ret, !bind_assoc. apply bind_ext. intros ws E.
  rewrite alone_bind, put_alone.
  2:{ apply load_words_len in E. intros ->. vm_compute in E. discriminate. }
  rewrite !bind_assoc. apply bind_ext. intros y _. cbn [bind fst snd].
  rewrite alone_bind, usb_alone. unfold uncompress_sparse_block. rewrite !bind_assoc. apply bind_ext. intros z _. cbn [bind fst snd].
  rewrite or_alone. unfold tag, or_bitmaps. rewrite bind_assoc. apply bind_ext. intros [o n] _. reflexivity.
Qed.
Lemma duc_alone dbg mem l r b base x out pos : zlen x = 1024 ->
  alone x (ds_union_chunk_c dbg mem l r b base out pos) = regroup (ds_union_chunk dbg mem l r b base x out pos).
Proof.
  intro H. unfold ds_union_chunk_c, ds_union_chunk, regroup.
  rewrite alone_bind, put_alone.
  - change chunk_size_in_64bit_words with 1024.
    rewrite store_all by (rewrite zlen_repeat, Z2Nat.id; lia). cbn [bind fst snd].
    replace (length x) with (Z.to_nat 1024) by (unfold zlen in H; lia).
    rewrite alone_bind, usc_alone, !bind_assoc. apply bind_ext. intros y _. cbn [bind fst snd].
    rewrite or_alone. unfold tag, or_bitmaps. rewrite bind_assoc. apply bind_ext. intros [o n] _. reflexivity.
  - intro E. apply (f_equal (@length _)) in E. rewrite repeat_length in E. vm_compute in E. discriminate.
Qed.
Lemma regroup_within A lo n (p : prog (list Z * Z)) pre x post (r : res (list Z * list Z * Z)) (f : list Z * (list Z * Z) -> res A) :
  zlen pre = lo -> zlen x = n -> alone x p = regroup r ->
  bind (alone (pre ++ x ++ post) (within lo n p)) f = let! (x, o, k) := r in f (pre ++ x ++ post, (o, k)).
Proof.
  intros Hl Hn E. rewrite alone_within, E by auto. unfold regroup. rewrite !bind_assoc. apply bind_ext.
  intros [[y o] k] _. reflexivity.
Qed.
(** local memory x ++ y *)
Definition regroup_x (y : list Z) (r : res (list Z * list Z * Z)) : res (list Z * (list Z * Z)) :=
  let! (x, out, n) := r in Ok (x ++ y, (out, n)).
Lemma ret_keep (x y : list Z) (r : res (list Z * Z)) :
  alone (x ++ y) (Ret r) = regroup_x y (let! (out, n) := r in Ok (x, out, n)).
Proof. destruct r as [[o n]| | | |]; reflexivity. Qed.
Lemma ub_alone dbg mem dl dr cl cr b x y out pos : zlen x = 4 ->
  alone (x ++ y) (union_blocks_c dbg mem dl dr cl cr b out pos)
  = regroup_x y (union_blocks dbg mem dl dr cl cr b x out pos).
Proof.
  intro H. unfold union_blocks_c, union_blocks. cbv zeta.
  repeat match goal with |- context [if ?p =? ?q then _ else _] => destruct (p =? q) end;
    try apply ret_keep; try reflexivity.
  all: rewrite alone_lo, dub_alone by exact H; unfold regroup, regroup_x; rewrite bind_assoc; apply bind_ext;
    intros [[z o] k] _; reflexivity.
Qed.
Lemma ub_len dbg mem dl dr cl cr b x out pos x' out' n : zlen x = 4 ->
  union_blocks dbg mem dl dr cl cr b x out pos = Ok (x', out', n) -> zlen x' = 4.
Proof.
  intros H E. pose proof (union_blocks_sim dbg mem dl dr cl cr b x x out pos H H) as S. rewrite E in S. apply S.
Qed.
Definition regroup_b (y : list Z) (r : res (Z * Z * Z * Z * list Z * list Z * Z))
  : res (list Z * (Z * Z * Z * Z * list Z * Z)) :=
  let! (l, r, dl, dr, x, out, pos) := r in Ok (x ++ y, (l, r, dl, dr, out, pos)).
Lemma suc_loop_alone dbg mem el er base y : forall fuel l r dl dr x out pos, zlen x = 4 ->
  alone (x ++ y) (ss_union_chunk_loop_c fuel dbg mem l r el er dl dr base out pos)
  = regroup_b y (ss_union_chunk_loop fuel dbg mem l r el er dl dr base x out pos).
Proof.
  induction fuel as [|f IH]; intros l r dl dr x out pos H; cbn [ss_union_chunk_loop_c ss_union_chunk_loop]; [reflexivity|].
  unfold regroup_b at 1. rewrite alone_ret, bind_assoc. apply bind_ext. intros a _.
  rewrite alone_ret, bind_assoc. apply bind_ext. intros b _.
  destruct (a <? b); [|destruct (b <? a)].
  - rewrite alone_ret, bind_assoc. apply bind_ext. intros [[[l' d'] o'] p'] _.
    destruct (l' =? el); [reflexivity|]. apply IH. exact H.
  - rewrite alone_ret, bind_assoc. apply bind_ext. intros [[[l' d'] o'] p'] _.
    destruct (l' =? er); [reflexivity|]. apply IH. exact H.
  - cbv zeta. rewrite alone_ret, bind_assoc. apply bind_ext. intros c1 _.
    rewrite alone_ret, bind_assoc. apply bind_ext. intros c2 _.
    rewrite alone_bind, ub_alone by exact H. unfold regroup_x. rewrite !bind_assoc. apply bind_ext.
    intros [[x' o'] n'] E. apply ub_len in E; [|exact H]. cbn [bind fst snd].
    destruct ((l + 2 =? el) || (r + 2 =? er)); [reflexivity|]. apply IH. exact E.
Qed.
Lemma suc_alone dbg mem l r bl br base x y out pos : zlen x = 4 ->
  alone (x ++ y) (ss_union_chunk_c dbg mem l r bl br base out pos)
  = regroup_x y (ss_union_chunk dbg mem l r bl br base x out pos).
Proof.
  intro H. unfold ss_union_chunk_c, ss_union_chunk, regroup_x. rewrite alone_ret, bind_assoc. apply bind_ext. intros _ _.
  rewrite alone_ret, bind_assoc. apply bind_ext. intros _ _. cbv zeta.
  rewrite alone_bind, suc_loop_alone by exact H. unfold regroup_b. rewrite !bind_assoc. apply bind_ext.
  intros [[[[[[l' r'] dl'] dr'] x'] o'] p'] _. cbn [bind fst snd].
  rewrite alone_ret, bind_assoc. apply bind_ext. intros [o1 p1] _.
  rewrite alone_ret, bind_assoc. apply bind_ext. intros [o2 p2] _. reflexivity.
Qed.
Definition regroup_xy (r : res (list Z * list Z * list Z * Z)) : res (list Z * (list Z * Z)) :=
  let! (x, y, out, n) := r in Ok (x ++ y, (out, n)).
Lemma uc_alone dbg mem itl itr base x y out pos : zlen x = 4 -> zlen y = 1024 ->
  alone (x ++ y) (union_chunks_c dbg mem itl itr base out pos)
  = regroup_xy (union_chunks dbg mem itl itr base x y out pos).
Proof.
  intros H H'. unfold union_chunks_c, union_chunks. unfold regroup_xy at 1. cbv zeta.
  rewrite alone_ret, bind_assoc. apply bind_ext. intros tl _.
  rewrite alone_ret, bind_assoc. apply bind_ext. intros tr _.
  repeat match goal with |- context [if ?p =? ?q then _ else _] => destruct (p =? q) end;
    repeat match goal with
    | |- alone _ (Ret UB) = _ => reflexivity
    | |- alone _ (Ret ?r) = _ => generalize r; intros [[o k]| | | |]; reflexivity
    | |- alone _ (pbind (Ret _) _) = _ => rewrite alone_ret, bind_assoc; apply bind_ext; intros ? _
    | |- alone _ (if ?b then _ else _) = _ => destruct b
    | |- alone _ (ss_union_chunk_c _ _ _ _ _ _ _ _ _) = _ => rewrite suc_alone by exact H; unfold regroup_x;
        rewrite !bind_assoc; apply bind_ext; intros [[? ?] ?] _; reflexivity
    | |- alone _ (within _ _ _) = _ => rewrite alone_hi, duc_alone by assumption; unfold regroup;
        rewrite !bind_assoc; apply bind_ext; intros [[? ?] ?] _; reflexivity
    end.
Qed.
Lemma uc_len dbg mem itl itr base x y out pos x' y' out' n : zlen x = 4 -> zlen y = 1024 ->
  union_chunks dbg mem itl itr base x y out pos = Ok (x', y', out', n) -> zlen x' = 4 /\ zlen y' = 1024.
Proof.
  intros H H' E. pose proof (union_chunks_sim dbg mem itl itr base x x y y out pos H H H' H') as S. rewrite E in S.
  destruct S as (S1 & S2 & S3 & S4 & _). auto.
Qed.
Definition regroup_u (r : res (iterator * iterator * list Z * list Z * list Z * Z))
  : res (list Z * (iterator * iterator * list Z * Z)) :=
  let! (itl, itr, x, y, out, pos) := r in Ok (x ++ y, (itl, itr, out, pos)).
Lemma pul_alone dbg mem : forall fuel itl itr x y out pos, zlen x = 4 -> zlen y = 1024 ->
  alone (x ++ y) (pairwise_union_loop_c fuel dbg mem itl itr out pos)
  = regroup_u (pairwise_union_loop fuel dbg mem itl itr x y out pos).
Proof.
  induction fuel as [|f IH]; intros itl itr x y out pos H H'; cbn [pairwise_union_loop_c pairwise_union_loop]; [reflexivity|].
  unfold regroup_u at 1. rewrite alone_ret, bind_assoc. apply bind_ext. intros il _.
  rewrite alone_ret, bind_assoc. apply bind_ext. intros ir _. cbv zeta.
  destruct (u16 il =? u16 ir); [|destruct (u16 il <? u16 ir)].
  - rewrite alone_bind, uc_alone by auto. unfold regroup_xy. rewrite !bind_assoc.
    apply bind_ext. intros [[[x' y'] o] n] E. apply uc_len in E; auto. cbn [bind fst snd].
    rewrite alone_ret, bind_assoc. apply bind_ext. intros itl' _.
    rewrite alone_ret, bind_assoc. apply bind_ext. intros itr' _.
    destruct (negb (it_has_next itl') || negb (it_has_next itr')); [reflexivity|]. apply IH; apply E.
  - rewrite alone_ret, bind_assoc. apply bind_ext. intros [o n] _.
    rewrite alone_ret, bind_assoc. apply bind_ext. intros itl' _.
    destruct (negb (it_has_next itl')); [reflexivity|]. apply IH; auto.
  - rewrite alone_ret, bind_assoc. apply bind_ext. intros [o n] _.
    rewrite alone_ret, bind_assoc. apply bind_ext. intros itr' _.
    destruct (negb (it_has_next itr')); [reflexivity|]. apply IH; auto.
Qed.
Lemma pu_alone dbg mem l r x y out pos : zlen x = 4 -> zlen y = 1024 ->
  alone (x ++ y) (pairwise_union_c dbg mem l r out pos)
  = let! (x, y, out, n) := pairwise_union dbg mem l r x y out pos in Ok (x ++ y, (out, n)).
Proof.
  intros H H'. unfold pairwise_union_c, pairwise_union. cbv zeta.
  rewrite alone_bind, pul_alone by auto. unfold regroup_u. rewrite !bind_assoc.
  apply bind_ext. intros [[[[[itl itr] x'] y'] o] e] _. cbn [bind fst snd].
  rewrite alone_ret, bind_assoc. apply bind_ext. intros [o1 p1] _.
  rewrite alone_ret, bind_assoc. apply bind_ext. intros [o2 p2] _. reflexivity.
Qed.

(** ** the vectors of the n-ary operations *)
Lemma fill_alone v p : forall n i x,
  alone x (put_words (p + i) (repeat v n)) = let! x := fill_loop n i v x p in Ok (x, tt).
Proof.
  induction n as [|n IH]; intros i x; cbn [repeat put_words fill_loop]; [reflexivity|].
  rewrite alone_put, bind_assoc. apply bind_ext. intros y _. rewrite <- Z.add_assoc. apply IH.
Qed.
Lemma uncc_alone dbg mem it x : zlen x = 1024 ->
  alone x (uncompress_chunk_c dbg mem it) = let! (x, c) := uncompress_chunk dbg mem it x 0 in Ok (x, c).
Proof.
  intro H. unfold uncompress_chunk_c, uncompress_chunk. rewrite alone_ret, !bind_assoc. apply bind_ext. intros t _.
  rewrite alone_bind, !bind_assoc.
  assert (F : forall y (r : res Z), alone y (Ret r) = let! c := r in Ok (y, c)) by (intros y [c| | | |]; reflexivity).
  destruct (t =? t_sparse); [|destruct (t =? t_dense); [|destruct (t =? t_full)]].
  - rewrite alone_bind, (fill_alone 0 0 (Z.to_nat 1024) 0), !bind_assoc. apply bind_ext. intros y _. cbn [bind fst snd].
    rewrite alone_ret, !bind_assoc. apply bind_ext. intros bl _.
    rewrite usc_alone, !bind_assoc. apply bind_ext. intros z _. cbn [bind fst snd]. rewrite F, bind_assoc. reflexivity.
  - rewrite alone_ret, !bind_assoc. unfold uncompress_dense_chunk, memcpy_words. rewrite !bind_assoc. apply bind_ext. intros ws E.
    rewrite put_alone.
    2:{ apply load_words_len in E. intros ->. vm_compute in E. discriminate. }
    rewrite !bind_assoc. apply bind_ext. intros z _. cbn [bind fst snd]. rewrite F, bind_assoc. reflexivity.
  - unfold uncompress_full_chunk. rewrite (fill_alone (u64 (-1)) 0 _ 0), !bind_assoc. apply bind_ext. intros z _.
    cbn [bind fst snd]. rewrite F, bind_assoc. reflexivity.
  - reflexivity.
Qed.
Lemma dbl_alone pos x : forall n i base buf size,
  alone x (decode_bitmap_loop_c n i base buf pos size) = tag (bitmap_loop n (words_vec x) i base buf pos size) x.
Proof.
  unfold tag, words_vec. induction n as [|n IH]; intros i base buf size; cbn [decode_bitmap_loop_c bitmap_loop]; [reflexivity|].
  rewrite alone_get, !bind_assoc. apply bind_ext. intros b _. rewrite alone_ret, bind_assoc.
  apply bind_ext. intros [buf' size'] _. apply IH.
Qed.
Lemma db_alone n base out pos x :
  alone x (decode_bitmap_c n base out pos) = tag (decode_bitmap (words_vec x) n base out pos) x.
Proof.
  unfold decode_bitmap_c, decode_bitmap. rewrite alone_bind, dbl_alone. unfold tag. rewrite !bind_assoc.
  apply bind_ext. intros [o k] _. reflexivity.
Qed.
Lemma get_alone A lo n i (f : Z -> prog A) pre x post : zlen pre = lo -> zlen x = n ->
  alone (pre ++ x ++ post) (pbind (get lo n i) f) = let! v := vget x i in alone (pre ++ x ++ post) (f v).
Proof.
  intros Hl Hn. rewrite alone_bind. unfold get. rewrite alone_within by auto. rewrite alone_get, !bind_assoc.
  apply bind_ext. intros v _. reflexivity.
Qed.
Lemma put1_alone A lo n i v (f : unit -> prog A) pre x post : zlen pre = lo -> zlen x = n ->
  alone (pre ++ x ++ post) (pbind (put lo n i v) f) = let! x := vset x i v in alone (pre ++ x ++ post) (f tt).
Proof.
  intros Hl Hn. rewrite alone_bind. unfold put. rewrite alone_within by auto. rewrite alone_put, !bind_assoc.
  apply bind_ext. intros y _. reflexivity.
Qed.
(** memory t ++ b *)
Lemma get_b A i (f : Z -> prog A) t b : zlen t = 1024 -> zlen b = 1024 ->
  alone (t ++ b) (pbind (get 1024 1024 i) f) = let! v := vget b i in alone (t ++ b) (f v).
Proof. intros Ht Hb. pose proof (get_alone A 1024 1024 i f t b [] Ht Hb) as E. rewrite app_nil_r in E. exact E. Qed.
Lemma put_b A i v (f : unit -> prog A) t b : zlen t = 1024 -> zlen b = 1024 ->
  alone (t ++ b) (pbind (put 1024 1024 i v) f) = let! b := vset b i v in alone (t ++ b) (f tt).
Proof.
  intros Ht Hb. pose proof (put1_alone A 1024 1024 i v f t b [] Ht Hb) as E. rewrite app_nil_r in E. rewrite E.
  apply bind_ext. intros y _. rewrite app_nil_r. reflexivity.
Qed.
Lemma get_t A i (f : Z -> prog A) t b : zlen t = 1024 ->
  alone (t ++ b) (pbind (get 0 1024 i) f) = let! v := vget t i in alone (t ++ b) (f v).
Proof. intros Ht. exact (get_alone A 0 1024 i f [] t b eq_refl Ht). Qed.
Lemma aw_alone t (wc : Z -> prog Z) (word : Z -> res Z) : zlen t = 1024 ->
  (forall A b i (f : Z -> prog A), alone (t ++ b) (pbind (wc i) f) = let! v := word i in alone (t ++ b) (f v)) ->
  forall n i c b, zlen b = 1024 ->
  alone (t ++ b) (and_words_c n wc i c) = let! (b, c) := and_words_loop n word i c b in Ok (t ++ b, c).
Proof.
  intros Ht Hw. induction n as [|n IH]; intros i c b Hb; cbn [and_words_c and_words_loop]; [reflexivity|].
  rewrite get_b, bind_assoc by auto. apply bind_ext. intros o _.
  rewrite Hw, bind_assoc. apply bind_ext. intros w _. cbv zeta.
  rewrite put_b, bind_assoc by auto. apply bind_ext. intros b' E. apply IH. apply vset_len in E. congruence.
Qed.
Lemma ow_alone t (wc : Z -> prog Z) (word : Z -> res Z) : zlen t = 1024 ->
  (forall A b i (f : Z -> prog A), alone (t ++ b) (pbind (wc i) f) = let! v := word i in alone (t ++ b) (f v)) ->
  forall n i b, zlen b = 1024 ->
  alone (t ++ b) (or_words_c n wc i) = let! b := or_words_loop n word i b in Ok (t ++ b, tt).
Proof.
  intros Ht Hw. induction n as [|n IH]; intros i b Hb; cbn [or_words_c or_words_loop]; [reflexivity|].
  rewrite get_b, bind_assoc by auto. apply bind_ext. intros o _.
  rewrite Hw, bind_assoc. apply bind_ext. intros w _.
  rewrite put_b, bind_assoc by auto. apply bind_ext. intros b' E. apply IH. apply vset_len in E. congruence.
Qed.
Lemma tmp_alone A dbg mem begin blocks (t b : list Z) (f : unit -> prog A) : zlen t = 1024 ->
  alone (t ++ b) (pbind (within 0 1024 (put_words 0 (repeat 0 (Z.to_nat 1024)))) (fun _ =>
    pbind (within 0 1024 (uncompress_sparse_chunk_c dbg mem begin blocks)) f))
  = let! t := uncompress_sparse_chunk dbg mem begin blocks (repeat 0 (length t)) 0 in alone (t ++ b) (f tt).
Proof.
  intro H. rewrite alone_bind, alone_lo by auto. rewrite put_alone.
  - rewrite store_all by (rewrite zlen_repeat, Z2Nat.id; lia). cbn [bind fst snd].
    rewrite alone_bind, alone_lo, usc_alone by (rewrite zlen_repeat, Z2Nat.id; lia).
    replace (length t) with (Z.to_nat 1024) by (unfold zlen in H; lia).
    rewrite !bind_assoc. apply bind_ext. intros y _. reflexivity.
  - intro E. apply (f_equal (@length _)) in E. rewrite repeat_length in E. vm_compute in E. discriminate.
Qed.
Lemma usc_zero_len dbg mem begin blocks (t t' : list Z) : zlen t = 1024 ->
  uncompress_sparse_chunk dbg mem begin blocks (repeat 0 (length t)) 0 = Ok t' -> zlen t' = 1024.
Proof. intros H E. apply usc_len in E. rewrite E, zlen_repeat. exact H. Qed.
Lemma uci_alone dbg mem it c t b : zlen t = 1024 -> zlen b = 1024 ->
  alone (t ++ b) (uncompress_chunk_and_intersect_c dbg mem it c)
  = let! (t, b, c) := uncompress_chunk_and_intersect dbg mem it t b c in Ok (t ++ b, c).
Proof.
  intros Ht Hb. unfold uncompress_chunk_and_intersect_c, uncompress_chunk_and_intersect.
  rewrite alone_ret, !bind_assoc. apply bind_ext. intros ty _.
  destruct (ty =? t_sparse); [|destruct (ty =? t_dense); [|destruct (ty =? t_full)]].
  - rewrite alone_ret, !bind_assoc. apply bind_ext. intros bl _.
    rewrite tmp_alone by auto. unfold uncompress_sparse_chunk_and_intersect. rewrite !bind_assoc.
    apply bind_ext. intros t' E. apply usc_zero_len in E; auto.
    rewrite (aw_alone t' (get 0 1024) (words_vec t')); auto.
    + rewrite !bind_assoc. apply bind_ext. intros [b' c'] _. reflexivity.
    + intros A b0 i f. apply get_t. exact E.
  - unfold uncompress_dense_chunk_and_intersect.
    rewrite (aw_alone t _ (words_mem mem (i_data it))); auto.
    + rewrite !bind_assoc. apply bind_ext. intros [b' c'] _. reflexivity.
    + intros A b0 i f. apply alone_ret.
  - reflexivity.
  - reflexivity.
Qed.
Lemma ar_alone dbg mem h : forall its c t b, zlen t = 1024 -> zlen b = 1024 ->
  alone (t ++ b) (and_rest_c dbg mem its h c)
  = let! (its, t, b, c, s) := and_rest dbg mem its h t b c in Ok (t ++ b, (its, c, s)).
Proof.
  induction its as [|it its IH]; intros c t b Ht Hb; cbn [and_rest_c and_rest]; [reflexivity|].
  rewrite alone_ret, bind_assoc. apply bind_ext. intros it' _.
  rewrite alone_ret, bind_assoc. apply bind_ext. intros id _.
  rewrite alone_ret, bind_assoc. apply bind_ext. intros _ _.
  rewrite alone_bind, uci_alone, !bind_assoc by auto. apply bind_ext. intros [[t1 b1] c1] E.
  assert (L : zlen t1 = 1024 /\ zlen b1 = 1024).
  { split; [|apply uci_len in E; congruence]. pose proof (uci_sim dbg mem it' t t b c Ht Ht) as S. rewrite E in S. apply S. }
  cbn [bind fst snd].
  destruct (c1 =? 0); [reflexivity|]. rewrite alone_bind, IH, !bind_assoc by apply L.
  apply bind_ext. intros [[[[its2 t2] b2] c2] s2] _. reflexivity.
Qed.
Lemma ar_len dbg mem h its c t b its' t' b' c' s : zlen t = 1024 -> zlen b = 1024 ->
  and_rest dbg mem its h t b c = Ok (its', t', b', c', s) -> zlen t' = 1024 /\ zlen b' = 1024.
Proof.
  intros Ht Hb E. pose proof (and_rest_sim dbg mem h its t t b c Ht Ht Hb) as S. rewrite E in S.
  cbn [sim] in S. destruct S as (S1 & S2 & S3 & _). auto.
Qed.

(** ** intersection_many.hpp: memory h ++ t ++ b *)
Lemma put_h A i v (f : unit -> prog A) h tb : zlen h = 65536 ->
  alone (h ++ tb) (pbind (put 0 65536 i v) f) = let! h := vset h i v in alone (h ++ tb) (f tt).
Proof. intro H. exact (put1_alone A 0 65536 i v f [] h tb eq_refl H). Qed.
Lemma get_h A i (f : Z -> prog A) h tb : zlen h = 65536 ->
  alone (h ++ tb) (pbind (get 0 65536 i) f) = let! v := vget h i in alone (h ++ tb) (f v).
Proof. intro H. exact (get_alone A 0 65536 i f [] h tb eq_refl H). Qed.
Lemma cl_alone mem tb : forall fuel its c i k h, zlen h = 65536 ->
  alone (h ++ tb) (candidate_loop_c fuel mem its c i k)
  = let! (h, k) := candidate_loop fuel mem its c i h k in Ok (h ++ tb, k).
Proof.
  induction fuel as [|f IH]; intros its c i k h H; cbn [candidate_loop_c candidate_loop];
    (destruct (c <? 65536); [|reflexivity]); [reflexivity|].
  rewrite alone_ret, bind_assoc. apply bind_ext. intros [[its1 c1] i1] _.
  destruct (i1 =? zlen its1); [|apply IH; exact H].
  rewrite put_h, bind_assoc by exact H. apply bind_ext. intros h' E.
  rewrite alone_ret, bind_assoc. apply bind_ext. intros it0 _.
  rewrite alone_ret, bind_assoc. apply bind_ext. intros it1 _. cbv zeta.
  rewrite alone_ret, bind_assoc. apply bind_ext. intros c2 _.
  apply IH. apply vset_len in E. congruence.
Qed.
Lemma cl_len mem : forall fuel its c i k h h' k',
  candidate_loop fuel mem its c i h k = Ok (h', k') -> zlen h' = zlen h.
Proof.
  induction fuel as [|f IH]; intros its c i k h h' k' E; cbn [candidate_loop] in E;
    (destruct (c <? 65536); [|injection E as <- _; reflexivity]); [discriminate|].
  apply bind_ok in E as ([[its1 c1] i1] & _ & E). destruct (i1 =? zlen its1); [|eauto].
  apply bind_ok in E as (h1 & E1 & E). apply bind_ok in E as (it0 & _ & E). apply bind_ok in E as (it1 & _ & E).
  cbv zeta in E. apply bind_ok in E as (c2 & _ & E). apply IH in E. apply vset_len in E1. congruence.
Qed.
Lemma ih_alone dbg mem h : zlen h = 65536 -> forall n its i t b out pos, zlen t = 1024 -> zlen b = 1024 ->
  alone (h ++ t ++ b) (intersect_headers_c n dbg mem its i out pos)
  = let! (t, b, out, pos) := intersect_headers n dbg mem its h i t b out pos in Ok (h ++ t ++ b, (out, pos)).
Proof.
  intro H. induction n as [|n IH]; intros its i t b out pos Ht Hb; cbn [intersect_headers_c intersect_headers]; [reflexivity|].
  rewrite get_h, bind_assoc by exact H. apply bind_ext. intros hd _. cbv zeta.
  destruct its as [|it0 its]; [reflexivity|].
  rewrite alone_ret, bind_assoc. apply bind_ext. intros it1 _.
  rewrite alone_ret, bind_assoc. apply bind_ext. intros id _.
  rewrite alone_ret, bind_assoc. apply bind_ext. intros _ _.
  assert (Htb : forall b, zlen b = 1024 -> zlen (t ++ b) = 2048) by (intros b0 H0; rewrite zlen_app; lia).
  rewrite alone_bind, alone_hi by auto. rewrite alone_hi, uncc_alone by auto. rewrite !bind_assoc.
  apply bind_ext. intros [b1 c1] E. apply uncompress_chunk_len in E. cbn [bind fst snd].
  rewrite alone_bind, alone_hi by (auto; apply Htb; congruence). rewrite ar_alone by congruence. rewrite !bind_assoc.
  apply bind_ext. intros [[[[its2 t2] b2] c2] s2] E2. apply ar_len in E2 as [L1 L2]; [|auto|congruence]. cbn [bind fst snd].
  destruct s2; [apply IH; auto|].
  rewrite alone_bind, alone_hi by (auto; rewrite zlen_app; lia). rewrite alone_hi, db_alone by auto. unfold tag.
  rewrite !bind_assoc. apply bind_ext. intros [o k] _. cbn [bind fst snd]. apply IH; auto.
Qed.
Lemma is_alone dbg mem seqs h t b out pos : zlen h = 65536 -> zlen t = 1024 -> zlen b = 1024 ->
  alone (h ++ t ++ b) (intersection_sorted_c dbg mem seqs out pos)
  = let! (h, t, b, out, n) := intersection_sorted dbg mem seqs h t b out pos in Ok (h ++ t ++ b, (out, n)).
Proof.
  intros H Ht Hb. unfold intersection_sorted_c, intersection_sorted. cbv zeta.
  rewrite alone_ret, bind_assoc. apply bind_ext. intros it0 _.
  rewrite alone_ret, bind_assoc. apply bind_ext. intros c _.
  rewrite alone_bind, cl_alone, !bind_assoc by exact H. apply bind_ext. intros [h1 k] E. apply cl_len in E. cbn [bind fst snd].
  rewrite alone_bind, ih_alone, !bind_assoc by (auto; congruence).
  apply bind_ext. intros [[[t2 b2] o] e] _. reflexivity.
Qed.

(** ** union_many.hpp: memory t ++ b *)
Lemma ucm_alone dbg mem it t b : zlen t = 1024 -> zlen b = 1024 ->
  alone (t ++ b) (uncompress_chunk_and_merge_c dbg mem it)
  = let! (t, b) := uncompress_chunk_and_merge dbg mem it t b in Ok (t ++ b, tt).
Proof.
  intros Ht Hb. unfold uncompress_chunk_and_merge_c, uncompress_chunk_and_merge.
  rewrite alone_ret, !bind_assoc. apply bind_ext. intros ty _.
  destruct (ty =? t_sparse); [|destruct (ty =? t_dense); [|destruct (ty =? t_full)]].
  - rewrite alone_ret, !bind_assoc. apply bind_ext. intros bl _.
    rewrite tmp_alone by auto. unfold uncompress_sparse_chunk_and_merge. rewrite !bind_assoc.
    apply bind_ext. intros t' E. apply usc_zero_len in E; auto.
    rewrite (ow_alone t' (get 0 1024) (words_vec t')); auto.
    + rewrite !bind_assoc. apply bind_ext. intros b' _. reflexivity.
    + intros A b0 i f. apply get_t. exact E.
  - unfold uncompress_dense_chunk_and_merge.
    rewrite (ow_alone t _ (words_mem mem (i_data it))); auto.
    + rewrite !bind_assoc. apply bind_ext. intros b' _. reflexivity.
    + intros A b0 i f. apply alone_ret.
  - rewrite alone_hi by auto. unfold uncompress_full_chunk_and_merge.
    rewrite (fill_alone (u64 (-1)) 0 _ 0), !bind_assoc. apply bind_ext. intros b' _. reflexivity.
  - reflexivity.
Qed.
Lemma ucm_lens dbg mem it t b t' b' : zlen t = 1024 ->
  uncompress_chunk_and_merge dbg mem it t b = Ok (t', b') -> zlen t' = 1024 /\ zlen b' = zlen b.
Proof.
  intros Ht E. split; [|eapply ucm_len; eauto]. pose proof (ucm_sim dbg mem it t t b Ht Ht) as S. rewrite E in S. apply S.
Qed.
Lemma ma_alone dbg mem h : forall its first t b, zlen t = 1024 -> zlen b = 1024 ->
  alone (t ++ b) (merge_all_c dbg mem its h first)
  = let! (t, b) := merge_all dbg mem its h first t b in Ok (t ++ b, tt).
Proof.
  induction its as [|it its IH]; intros first t b Ht Hb; cbn [merge_all_c merge_all]; [reflexivity|].
  rewrite alone_ret, bind_assoc. apply bind_ext. intros id _.
  destruct (id =? h); [|apply IH; auto]. destruct first.
  - rewrite alone_bind, alone_hi, uncc_alone, !bind_assoc by auto. apply bind_ext. intros [b' c'] E.
    apply uncompress_chunk_len in E. cbn [bind fst snd]. apply IH; congruence.
  - rewrite alone_bind, ucm_alone, !bind_assoc by auto. apply bind_ext. intros [t' b'] E.
    apply ucm_lens in E as [E1 E2]; auto. cbn [bind fst snd]. apply IH; congruence.
Qed.
Lemma ma_len dbg mem h : forall its first t b t' b', zlen t = 1024 -> zlen b = 1024 ->
  merge_all dbg mem its h first t b = Ok (t', b') -> zlen t' = 1024 /\ zlen b' = 1024.
Proof.
  induction its as [|it its IH]; intros first t b t' b' Ht Hb E; cbn [merge_all] in E; [injection E as <- <-; auto|].
  apply bind_ok in E as (id & _ & E). destruct (id =? h); [|eauto]. destruct first.
  - apply bind_ok in E as ([b1 c1] & E1 & E). apply uncompress_chunk_len in E1. eapply IH; [| |eauto]; congruence.
  - apply bind_ok in E as ([t1 b1] & E1 & E). apply ucm_lens in E1 as [L1 L2]; auto. eapply IH; [| |eauto]; congruence.
Qed.
Lemma ul_alone dbg mem : forall fuel its h t b out pos, zlen t = 1024 -> zlen b = 1024 ->
  alone (t ++ b) (union_loop_c fuel dbg mem its h out pos)
  = let! (t, b, out, pos) := union_loop fuel dbg mem its h t b out pos in Ok (t ++ b, (out, pos)).
Proof.
  induction fuel as [|f IH]; intros its h t b out pos Ht Hb; cbn [union_loop_c union_loop];
    (destruct (h <? 65536); [|reflexivity]); [reflexivity|]. cbv zeta.
  rewrite alone_bind, ma_alone, !bind_assoc by auto. apply bind_ext. intros [t' b'] E.
  apply ma_len in E as [E1 E2]; auto. cbn [bind fst snd].
  rewrite alone_bind, alone_hi, db_alone by auto. unfold tag. rewrite !bind_assoc. apply bind_ext. intros [o k] _.
  cbn [bind fst snd]. rewrite alone_ret, bind_assoc. apply bind_ext. intros [its' nx] _. apply IH; auto.
Qed.
Lemma um_alone dbg mem seqs t b out pos : zlen t = 1024 -> zlen b = 1024 ->
  alone (t ++ b) (union_many_c dbg mem seqs out pos)
  = let! (t, b, out, n) := union_many dbg mem seqs t b out pos in Ok (t ++ b, (out, n)).
Proof.
  intros Ht Hb. unfold union_many_c, union_many. cbv zeta.
  rewrite alone_ret, bind_assoc. apply bind_ext. intros h _.
  rewrite alone_bind, ul_alone, !bind_assoc by auto. apply bind_ext. intros [[[t' b'] o] e] _. reflexivity.
Qed.

(** ** a call, and a thread *)
Lemma c45_alone tbl dbg sc c : sized sc ->
  alone (flat sc) (call_c tbl dbg c) = let! (sc, r) := run_call tbl dbg sc c in Ok (flat sc, r).
Proof.
  intros (H1 & H2 & H3 & H4 & H5 & H6 & H7 & H8).
  assert (L1 : zlen (sc_block sc ++ sc_union sc) = 1028) by (rewrite zlen_app; lia).
  assert (L2 : zlen (sc_headers sc ++ sc_and sc ++ sc_ibitmap sc) = 67584) by (rewrite !zlen_app; lia).
  assert (L3 : zlen (sc_or sc ++ sc_ubitmap sc) = 2048) by (rewrite zlen_app; lia).
  destruct c; cbn [call_c run_call]; unfold flat at 1.
  - rewrite alone_lo, c22_alone, !bind_assoc by assumption. apply bind_ext. intros [[x o] n] _. reflexivity.
  - rewrite alone_within, pu_alone, !bind_assoc by assumption. apply bind_ext. intros [[[x y] o] n] _. reflexivity.
  - rewrite (app_assoc (sc_inter sc)). rewrite alone_within, is_alone, !bind_assoc by (assumption || (rewrite zlen_app; lia)).
    apply bind_ext. intros [[[[h t] b] o] n] _. cbn [bind]. unfold flat.
    cbn [sc_inter sc_block sc_union sc_and sc_or sc_headers sc_ibitmap sc_ubitmap]. rewrite <- !app_assoc. reflexivity.
  - rewrite (app_assoc (sc_inter sc)), (app_assoc (sc_inter sc ++ _)).
    rewrite alone_hi, um_alone, !bind_assoc by (assumption || (rewrite !zlen_app; lia)).
    apply bind_ext. intros [[[t b] o] n] _. cbn [bind]. unfold flat.
    cbn [sc_inter sc_block sc_union sc_and sc_or sc_headers sc_ibitmap sc_ubitmap]. rewrite <- !app_assoc. reflexivity.
Qed.
Lemma calls_alone tbl dbg : forall cs sc, sized sc ->
  (let! (_, rs) := alone (flat sc) (calls_c tbl dbg cs) in Ok rs) = run_calls tbl dbg sc cs.
Proof.
  induction cs as [|c cs IH]; intros sc H; cbn [calls_c run_calls]; [reflexivity|].
  rewrite alone_bind, c45_alone, !bind_assoc by exact H. apply bind_ext. intros [sc' r] E. cbn [bind fst snd].
  assert (H' : sized sc') by (pose proof (c21_call tbl dbg sc c H) as C; rewrite E in C; apply C).
  rewrite alone_bind, !bind_assoc. rewrite <- (IH sc' H'). rewrite bind_assoc. apply bind_ext. intros [m rs] _. reflexivity.
Qed.
Lemma c45_isolated tbl dbg cs sc : sized sc ->
  (let! (_, rs) := alone (flat sc) (calls_c tbl dbg cs) in Ok rs) = in_order (map (isolated tbl dbg) cs).
Proof. intro H. rewrite calls_alone by exact H. apply c21_history. exact H. Qed.
