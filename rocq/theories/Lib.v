(** General lemmas on lists indexed by Z, memory reads and buffers. *)
From Verif Require Import Base Hw Spec.
From Coq Require Export Lia Sorted.
Ltac Zify.zify_post_hook ::= Z.div_mod_to_equations.

(** ** zlen, znth *)
Lemma zlen_nonneg A (l : list A) : 0 <= zlen l.
Proof. unfold zlen; lia. Qed.
Lemma zlen_nil A : zlen (@nil A) = 0.
Proof. reflexivity. Qed.
Lemma zlen_cons A (x : A) l : zlen (x :: l) = zlen l + 1.
Proof. unfold zlen; cbn [length]; lia. Qed.
Lemma zlen_app A (l r : list A) : zlen (l ++ r) = zlen l + zlen r.
Proof. unfold zlen; rewrite app_length; lia. Qed.
Lemma zlen_map A B (f : A -> B) l : zlen (map f l) = zlen l.
Proof. unfold zlen; now rewrite map_length. Qed.
Lemma zlen_repeat A (x : A) n : zlen (repeat x n) = Z.of_nat n.
Proof. unfold zlen; now rewrite repeat_length. Qed.
Lemma zlen_firstn A (l : list A) n : zlen (firstn n l) = Z.min (Z.of_nat n) (zlen l).
Proof. unfold zlen; rewrite firstn_length; lia. Qed.
Lemma zlen_skipn A (l : list A) n : zlen (skipn n l) = Z.max 0 (zlen l - Z.of_nat n).
Proof. unfold zlen; rewrite skipn_length; lia. Qed.
Lemma zlen_0 A (l : list A) : zlen l = 0 -> l = [].
Proof. destruct l; auto. rewrite zlen_cons. pose proof (zlen_nonneg _ l); lia. Qed.
Lemma length_zlen A (l : list A) : length l = Z.to_nat (zlen l).
Proof. unfold zlen; lia. Qed.

Global Hint Rewrite zlen_nil zlen_cons zlen_app zlen_map zlen_repeat : zlen.

(** [zl]: normalise lengths and finish with lia *)
Ltac zpos :=
  repeat match goal with
  | |- context [zlen ?l] =>
      lazymatch goal with
      | _ : 0 <= zlen l |- _ => fail
      | _ => pose proof (zlen_nonneg _ l)
      end
  | _ : context [zlen ?l] |- _ =>
      lazymatch goal with
      | _ : 0 <= zlen l |- _ => fail
      | _ => pose proof (zlen_nonneg _ l)
      end
  end.
Ltac zl := autorewrite with zlen in *; zpos; lia.

Lemma znth_neg A (l : list A) i : i < 0 -> znth l i = None.
Proof. intro H; unfold znth. destruct (Z.ltb_spec i 0); auto; lia. Qed.
Lemma znth_None A (l : list A) i : znth l i = None <-> i < 0 \/ zlen l <= i.
Proof.
  unfold znth. destruct (Z.ltb_spec i 0).
  - split; auto.
  - rewrite nth_error_None. unfold zlen; lia.
Qed.
Lemma znth_Some A (l : list A) i : 0 <= i < zlen l -> exists x, znth l i = Some x.
Proof.
  intro H. destruct (znth l i) eqn:E; eauto.
  apply znth_None in E; lia.
Qed.
Lemma znth_lt A (l : list A) i x : znth l i = Some x -> 0 <= i < zlen l.
Proof.
  intro H. destruct (Z_lt_le_dec i 0).
  - rewrite znth_neg in H; easy.
  - destruct (Z_lt_le_dec i (zlen l)); auto.
    assert (znth l i = None) by (apply znth_None; lia). congruence.
Qed.
Lemma znth_nil A i : znth (@nil A) i = None.
Proof. apply znth_None. rewrite zlen_nil. lia. Qed.
Lemma znth_cons_0 A (x : A) l : znth (x :: l) 0 = Some x.
Proof. reflexivity. Qed.
Lemma znth_cons_pos A (x : A) l i : 0 < i -> znth (x :: l) i = znth l (i - 1).
Proof.
  intro H. unfold znth.
  destruct (Z.ltb_spec i 0); [lia|]. destruct (Z.ltb_spec (i-1) 0); [lia|].
  replace (Z.to_nat i) with (S (Z.to_nat (i - 1))) by lia. reflexivity.
Qed.
Lemma znth_app_l A (l r : list A) i : i < zlen l -> znth (l ++ r) i = znth l i.
Proof.
  intro H. unfold znth. destruct (Z.ltb_spec i 0); auto.
  apply nth_error_app1. unfold zlen in H; lia.
Qed.
Lemma znth_app_r A (l r : list A) i : zlen l <= i -> znth (l ++ r) i = znth r (i - zlen l).
Proof.
  intro H. pose proof (zlen_nonneg _ l). unfold znth.
  destruct (Z.ltb_spec i 0); [lia|]. destruct (Z.ltb_spec (i - zlen l) 0); [lia|].
  rewrite nth_error_app2 by (unfold zlen in *; lia).
  f_equal. unfold zlen; lia.
Qed.
Lemma znth_In A (l : list A) i x : znth l i = Some x -> In x l.
Proof. unfold znth. destruct (i <? 0); [easy|]. apply nth_error_In. Qed.
Lemma In_znth A (l : list A) x : In x l -> exists i, 0 <= i < zlen l /\ znth l i = Some x.
Proof.
  intro H. apply In_nth_error in H as [n H]. exists (Z.of_nat n).
  assert (n < length l)%nat by (apply nth_error_Some; congruence).
  split; [unfold zlen; lia|].
  unfold znth. destruct (Z.ltb_spec (Z.of_nat n) 0); [lia|]. now rewrite Nat2Z.id.
Qed.
Lemma znth_map A B (f : A -> B) l i : znth (map f l) i = option_map f (znth l i).
Proof. unfold znth. destruct (i <? 0); auto. apply nth_error_map. Qed.
Lemma znth_repeat A (x : A) n i : 0 <= i < Z.of_nat n -> znth (repeat x n) i = Some x.
Proof.
  intro H. destruct (znth_Some _ (repeat x n) i) as [y E].
  { rewrite zlen_repeat; lia. }
  rewrite E. f_equal. apply znth_In, repeat_spec in E. auto.
Qed.
Lemma nth_error_firstn A (l : list A) n i :
  nth_error (firstn n l) i = if (i <? n)%nat then nth_error l i else None.
Proof.
  revert l i; induction n; intros l i.
  - destruct i; auto.
  - destruct l as [|x l], i as [|i]; auto.
    + cbn [firstn nth_error]. now destruct (S i <? S n)%nat.
    + cbn [firstn nth_error]. rewrite IHn. reflexivity.
Qed.
Lemma nth_error_skipn A (l : list A) n i : nth_error (skipn n l) i = nth_error l (n + i).
Proof.
  revert l; induction n; intros l; cbn; auto.
  destruct l; auto. destruct i; auto.
Qed.
Lemma znth_firstn A (l : list A) n i : i < Z.of_nat n -> znth (firstn n l) i = znth l i.
Proof.
  intro H. unfold znth. destruct (Z.ltb_spec i 0); auto.
  rewrite nth_error_firstn. destruct (Nat.ltb_spec (Z.to_nat i) n); auto; lia.
Qed.
Lemma znth_skipn A (l : list A) n i : 0 <= i -> znth (skipn n l) i = znth l (Z.of_nat n + i).
Proof.
  intro H. unfold znth. destruct (Z.ltb_spec i 0); [lia|].
  destruct (Z.ltb_spec (Z.of_nat n + i) 0); [lia|].
  rewrite nth_error_skipn. f_equal; lia.
Qed.

Lemma znth_ext A (l r : list A) :
  zlen l = zlen r -> (forall i, 0 <= i < zlen l -> znth l i = znth r i) -> l = r.
Proof.
  revert r; induction l as [|x l IH]; intros [|y r] HL H; auto;
    autorewrite with zlen in HL; zpos; try lia.
  f_equal.
  - specialize (H 0 ltac:(zl)). cbn in H. congruence.
  - apply IH; [lia|]. intros i Hi. specialize (H (i + 1) ltac:(zl)).
    rewrite !znth_cons_pos in H by lia. now replace (i + 1 - 1) with i in H by lia.
Qed.

(** ** zrange *)
Lemma zlen_zrange a n : zlen (zrange a n) = Z.of_nat n.
Proof. revert a; induction n; intro a; cbn [zrange]; auto. rewrite zlen_cons, IHn. lia. Qed.
Lemma In_zrange a n x : In x (zrange a n) <-> a <= x < a + Z.of_nat n.
Proof.
  revert a; induction n; intro a; cbn [zrange In]; [lia|].
  rewrite IHn. lia.
Qed.
Lemma zrange_app a n m : zrange a (n + m) = zrange a n ++ zrange (a + Z.of_nat n) m.
Proof.
  revert a; induction n; intro a; cbn [zrange app plus]; [f_equal; lia|].
  f_equal. rewrite IHn. do 2 f_equal. lia.
Qed.
Lemma zrange_map a n k : map (fun x => x + k) (zrange a n) = zrange (a + k) n.
Proof. revert a; induction n; intro a; cbn [zrange map]; auto. f_equal. rewrite IHn. f_equal; lia. Qed.
Lemma znth_zrange a n i : 0 <= i < Z.of_nat n -> znth (zrange a n) i = Some (a + i).
Proof.
  revert a i; induction n; intros a i H; [lia|]. cbn [zrange].
  destruct (Z.eq_dec i 0) as [->|]; [rewrite znth_cons_0; f_equal; lia|].
  rewrite znth_cons_pos, IHn by lia. f_equal; lia.
Qed.

(** ** strictly sorted lists *)
Notation sorted := (StronglySorted Z.lt).

Lemma sorted_inv x l : sorted (x :: l) -> sorted l /\ Forall (Z.lt x) l.
Proof. intro H; inversion H; auto. Qed.
Lemma sorted_nil : sorted [].
Proof. constructor. Qed.
Lemma sorted_cons x l : sorted l -> Forall (Z.lt x) l -> sorted (x :: l).
Proof. constructor; auto. Qed.
Lemma sorted_app l r :
  sorted l -> sorted r -> (forall x y, In x l -> In y r -> x < y) -> sorted (l ++ r).
Proof.
  intros Hl Hr H. induction l as [|x l IH]; auto.
  apply sorted_inv in Hl as [Hl Hx]. cbn. constructor.
  - apply IH; auto. intros; apply H; cbn; auto.
  - apply Forall_app; split; auto. apply Forall_forall. intros y Hy. apply H; cbn; auto.
Qed.
Lemma sorted_app_inv l r :
  sorted (l ++ r) -> sorted l /\ sorted r /\ (forall x y, In x l -> In y r -> x < y).
Proof.
  induction l as [|x l IH]; cbn; intro H.
  - repeat split; auto; [constructor | easy].
  - apply sorted_inv in H as [H Hx]. apply IH in H as (H1 & H2 & H3).
    apply Forall_app in Hx as [Hx Hy]. repeat split; auto.
    + constructor; auto.
    + intros a b [<-|Ha] Hb; auto. rewrite Forall_forall in Hy; auto.
Qed.
Lemma sorted_zrange a n : sorted (zrange a n).
Proof.
  revert a; induction n; intro a; cbn [zrange]; constructor; auto.
  apply Forall_forall. intros x Hx%In_zrange. lia.
Qed.
Lemma sorted_filter f l : sorted l -> sorted (filter f l).
Proof.
  induction l as [|x l IH]; cbn; auto. intros [H Hx]%sorted_inv.
  destruct (f x); auto. constructor; auto.
  rewrite Forall_forall in *. intros y Hy%filter_In. apply Hx; tauto.
Qed.
Lemma sorted_map f l :
  sorted l -> (forall x y, In x l -> In y l -> x < y -> f x < f y) -> sorted (map f l).
Proof.
  induction l as [|x l IH]; cbn; intros H Hf; [constructor|].
  apply sorted_inv in H as [H Hx]. constructor.
  - apply IH; auto.
  - rewrite Forall_forall in *. intros y (z & <- & Hz)%in_map_iff. auto.
Qed.
Lemma sorted_NoDup l : sorted l -> NoDup l.
Proof.
  induction l as [|x l IH]; intro H; constructor; apply sorted_inv in H as [H Hx]; auto.
  intro Hi. rewrite Forall_forall in Hx. specialize (Hx x Hi). lia.
Qed.

(** two increasing enumerations of the same set are equal *)
Lemma sorted_ext l r : sorted l -> sorted r -> (forall x, In x l <-> In x r) -> l = r.
Proof.
  revert r; induction l as [|x l IH]; intros r Hl Hr H.
  - destruct r as [|y r]; auto. exfalso. apply (H y); cbn; auto.
  - destruct r as [|y r]. { exfalso. apply (H x); cbn; auto. }
    apply sorted_inv in Hl as [Hl Hx]. apply sorted_inv in Hr as [Hr Hy].
    rewrite Forall_forall in Hx, Hy.
    assert (x = y).
    { destruct (proj1 (H x) (or_introl eq_refl)) as [E|E]; auto.
      destruct (proj2 (H y) (or_introl eq_refl)) as [E'|E']; auto.
      apply Hx in E'. apply Hy in E. lia. }
    subst y. f_equal. apply IH; auto. intro z; split; intro Hz.
    + destruct (proj1 (H z) (or_intror Hz)) as [<-|]; auto. apply Hx in Hz; lia.
    + destruct (proj2 (H z) (or_intror Hz)) as [<-|]; auto. apply Hy in Hz; lia.
Qed.
Lemma enumerates_unique P e e' : enumerates P e -> enumerates P e' -> e = e'.
Proof. intros [H1 H2] [H3 H4]. apply sorted_ext; auto. intro x. rewrite H2, H4; tauto. Qed.

(** split a sorted list at a bound *)
Lemma sorted_split l b :
  sorted l -> exists p q, l = p ++ q /\ Forall (fun v => v < b) p /\ Forall (fun v => b <= v) q.
Proof.
  induction l as [|x l IH]; intro H.
  - exists [], []; auto.
  - apply sorted_inv in H as [H Hx]. destruct (Z_lt_le_dec x b).
    + destruct IH as (p & q & -> & Hp & Hq); auto. exists (x :: p), q. auto.
    + exists [], (x :: l). repeat split; auto. constructor; auto.
      rewrite Forall_forall in *. intros y Hy. specialize (Hx y Hy); lia.
Qed.

(** ** memory *)
Lemma bytes_at_nil mem a : bytes_at mem a [].
Proof. intros i Hi. rewrite zlen_nil in Hi. lia. Qed.
Lemma bytes_at_cons mem a x l :
  bytes_at mem a (x :: l) <-> znth mem a = Some x /\ bytes_at mem (a + 1) l.
Proof.
  unfold bytes_at. split.
  - intro H. split.
    + rewrite <- (Z.add_0_r a). rewrite H by zl. reflexivity.
    + intros i Hi. replace (a + 1 + i) with (a + (i + 1)) by lia.
      rewrite H by zl. rewrite znth_cons_pos by lia. f_equal; lia.
  - intros [H0 H] i Hi. destruct (Z.eq_dec i 0) as [->|].
    + rewrite Z.add_0_r, H0. reflexivity.
    + rewrite znth_cons_pos by lia. rewrite <- H by zl. f_equal; lia.
Qed.
Lemma bytes_at_app mem a l r :
  bytes_at mem a (l ++ r) <-> bytes_at mem a l /\ bytes_at mem (a + zlen l) r.
Proof.
  revert a; induction l as [|x l IH]; intro a; cbn [app].
  - rewrite zlen_nil, Z.add_0_r. split; [split; auto using bytes_at_nil | tauto].
  - rewrite !bytes_at_cons, IH, zlen_cons.
    replace (a + 1 + zlen l) with (a + (zlen l + 1)) by lia. tauto.
Qed.
Lemma bytes_at_bound mem a l : bytes_at mem a l -> l <> [] -> 0 <= a /\ a + zlen l <= zlen mem.
Proof.
  intros H Hl. assert (HL : 0 < zlen l) by (destruct l; [easy|zl]).
  pose proof (H 0 ltac:(lia)) as H0. pose proof (H (zlen l - 1) ltac:(lia)) as H1.
  destruct (znth_Some _ l 0 ltac:(lia)) as [x E]. rewrite E in H0. apply znth_lt in H0.
  destruct (znth_Some _ l (zlen l - 1) ltac:(lia)) as [y E']. rewrite E' in H1.
  apply znth_lt in H1. lia.
Qed.

Lemma rd8_znth mem a x : znth mem a = Some x -> rd8 mem a = Ok x.
Proof. unfold rd8, vget. now intros ->. Qed.
Lemma rd8_ok mem a : 0 <= a < zlen mem -> exists x, rd8 mem a = Ok x.
Proof. intro H. destruct (znth_Some _ mem a H) as [x E]. exists x. now apply rd8_znth. Qed.
Lemma rd8_at mem a bs i x : bytes_at mem a bs -> znth bs i = Some x -> rd8 mem (a + i) = Ok x.
Proof.
  intros H E. apply rd8_znth. rewrite H; auto. eapply znth_lt; eauto.
Qed.
Lemma rd_bytes_at mem a bs : bytes_at mem a bs -> rd_bytes mem a (length bs) = Ok bs.
Proof.
  revert a; induction bs as [|x bs IH]; intros a H; cbn [length rd_bytes]; auto.
  apply bytes_at_cons in H as [H0 H]. rewrite (rd8_znth _ _ _ H0). cbn [bind].
  rewrite IH by auto. reflexivity.
Qed.
Lemma rd_bytes_ok mem a n :
  0 <= a -> a + Z.of_nat n <= zlen mem ->
  exists bs, rd_bytes mem a n = Ok bs /\ length bs = n /\ bytes_at mem a bs.
Proof.
  revert a; induction n; intros a H1 H2; cbn [rd_bytes].
  - exists []. auto using bytes_at_nil.
  - destruct (znth_Some _ mem a ltac:(lia)) as [x E].
    rewrite (rd8_znth _ _ _ E). cbn [bind].
    destruct (IHn (a + 1) ltac:(lia) ltac:(lia)) as (bs & -> & L & B). cbn [bind].
    exists (x :: bs). cbn [length]. rewrite bytes_at_cons. auto.
Qed.

Lemma length_le_bytes n v : length (le_bytes n v) = n.
Proof. revert v; induction n; intro v; cbn; auto. Qed.
Lemma zlen_le_bytes n v : zlen (le_bytes n v) = Z.of_nat n.
Proof. unfold zlen. now rewrite length_le_bytes. Qed.
Global Hint Rewrite zlen_le_bytes zlen_zrange : zlen.

Lemma le_val_bytes n v : 0 <= v < 256 ^ Z.of_nat n -> le_val (le_bytes n v) = v.
Proof.
  revert v; induction n; intros v H.
  - cbn in *. lia.
  - cbn [le_bytes le_val]. rewrite IHn.
    + pose proof (Z.div_mod v 256). lia.
    + rewrite Nat2Z.inj_succ, Z.pow_succ_r in H by lia. split.
      * apply Z.div_pos; lia.
      * apply Z.div_lt_upper_bound; lia.
Qed.
Lemma le_bytes_byte n v : Forall (fun b => 0 <= b < 256) (le_bytes n v).
Proof.
  revert v; induction n; intro v; cbn; constructor; auto. apply Z.mod_pos_bound; lia.
Qed.
Lemma le_bytes_inj n v w :
  0 <= v < 256 ^ Z.of_nat n -> 0 <= w < 256 ^ Z.of_nat n ->
  le_bytes n v = le_bytes n w -> v = w.
Proof. intros Hv Hw E. rewrite <- (le_val_bytes n v), <- (le_val_bytes n w); congruence. Qed.

Lemma rd_le_at mem a n v :
  bytes_at mem a (le_bytes n v) -> 0 <= v < 256 ^ Z.of_nat n -> rd_le mem n a = Ok v.
Proof.
  intros H Hv. unfold rd_le. pose proof (rd_bytes_at _ _ _ H) as E.
  rewrite length_le_bytes in E. rewrite E. cbn [bind]. now rewrite le_val_bytes.
Qed.
Lemma rd16_at mem a v : bytes_at mem a (le_bytes 2 v) -> 0 <= v < 65536 -> rd16 mem a = Ok v.
Proof. intros; apply rd_le_at; auto. Qed.
Lemma rd32_at mem a v : bytes_at mem a (le_bytes 4 v) -> 0 <= v < 4294967296 -> rd32 mem a = Ok v.
Proof. intros; apply rd_le_at; auto. Qed.
Lemma rd64_at mem a v :
  bytes_at mem a (le_bytes 8 v) -> 0 <= v < 18446744073709551616 -> rd64 mem a = Ok v.
Proof. intros; apply rd_le_at; auto. Qed.

(** ** fixed-width arithmetic *)
Lemma u8_id x : 0 <= x < 256 -> u8 x = x.
Proof. intro; unfold u8; apply Z.mod_small; auto. Qed.
Lemma u16_id x : 0 <= x < 65536 -> u16 x = x.
Proof. intro; unfold u16; apply Z.mod_small; auto. Qed.
Lemma u32_id x : 0 <= x < 4294967296 -> u32 x = x.
Proof. intro; unfold u32; apply Z.mod_small; auto. Qed.
Lemma u64_id x : 0 <= x < 18446744073709551616 -> u64 x = x.
Proof. intro; unfold u64; apply Z.mod_small; auto. Qed.
Lemma assert_ok dbg b : b = true -> assert_ dbg b = Ok tt.
Proof. intros ->. unfold assert_. now rewrite andb_false_r. Qed.

(** ** buffers *)
Lemma vget_ok v i x : znth v i = Some x -> vget v i = Ok x.
Proof. unfold vget; now intros ->. Qed.

Lemma store_ok buf pos vals :
  0 <= pos -> pos + zlen vals <= zlen buf ->
  exists buf', store buf pos vals = Ok buf' /\ wrote 0 buf pos vals buf'.
Proof.
  intros H1 H2. unfold store.
  destruct (Z.leb_spec 0 pos); [|lia]. destruct (Z.leb_spec (pos + zlen vals) (zlen buf)); [|lia].
  cbn [andb]. eexists; split; [reflexivity|].
  pose proof (zlen_nonneg _ vals).
  assert (L : zlen (firstn (Z.to_nat pos) buf) = pos) by (rewrite zlen_firstn; lia).
  split; [|split].
  - rewrite !zlen_app, zlen_skipn, L. lia.
  - intros i Hi. rewrite znth_app_r, L by lia. rewrite znth_app_l by lia. f_equal; lia.
  - intros i Hi. destruct (Z_lt_le_dec i pos).
    + rewrite znth_app_l by lia. apply znth_firstn; lia.
    + rewrite znth_app_r, L by lia. rewrite znth_app_r by lia.
      rewrite znth_skipn by lia. f_equal; lia.
Qed.
Lemma vset_ok buf pos x :
  0 <= pos < zlen buf -> exists buf', vset buf pos x = Ok buf' /\ wrote 0 buf pos [x] buf'.
Proof. intro H. apply store_ok; zl. Qed.

Lemma wrote_nil k buf pos : 0 <= k -> wrote k buf pos [] buf.
Proof. intro; repeat split; auto. intros i Hi. rewrite zlen_nil in Hi. lia. Qed.
Lemma wrote_weaken k k' buf pos e buf' : wrote k buf pos e buf' -> k <= k' -> wrote k' buf pos e buf'.
Proof. intros (H1 & H2 & H3) H. repeat split; auto. intros; apply H3; lia. Qed.
Lemma wrote_zlen k buf pos e buf' : wrote k buf pos e buf' -> zlen buf' = zlen buf.
Proof. now intros (H & _). Qed.
Lemma wrote_app k buf pos e1 buf1 e2 buf2 :
  0 <= k -> wrote k buf pos e1 buf1 -> wrote k buf1 (pos + zlen e1) e2 buf2 ->
  wrote k buf pos (e1 ++ e2) buf2.
Proof.
  intros Hk (A1 & A2 & A3) (B1 & B2 & B3). split; [lia|]. rewrite zlen_app.
  pose proof (zlen_nonneg _ e1). pose proof (zlen_nonneg _ e2). split.
  - intros i Hi. destruct (Z_lt_le_dec i (zlen e1)).
    + rewrite znth_app_l by lia. rewrite B3 by lia. apply A2; lia.
    + rewrite znth_app_r by lia. rewrite <- B2 by lia. f_equal; lia.
  - intros i Hi. rewrite B3, A3 by lia. auto.
Qed.
Lemma wrote_cons k buf pos x buf1 e buf2 :
  0 <= k -> wrote 0 buf pos [x] buf1 -> wrote k buf1 (pos + 1) e buf2 ->
  wrote k buf pos (x :: e) buf2.
Proof.
  intros Hk H1 H2. apply (wrote_app k buf pos [x] buf1 e buf2); auto.
  eapply wrote_weaken; eauto.
Qed.
(** a store whose values after the first [length e] are scratch *)
Lemma wrote_prefix k buf pos e g buf' :
  wrote 0 buf pos (e ++ g) buf' -> zlen g <= k -> wrote k buf pos e buf'.
Proof.
  intros (H1 & H2 & H3) Hk. repeat split; auto.
  - intros i Hi. rewrite H2 by zl. apply znth_app_l; lia.
  - intros i Hi. apply H3. zl.
Qed.
Lemma wrote_firstn k buf e buf' :
  wrote k buf 0 e buf' -> zlen e <= zlen buf -> firstn (length e) buf' = e.
Proof.
  intros (H1 & H2 & H3) H. apply znth_ext.
  - rewrite zlen_firstn. unfold zlen in *. lia.
  - intros i Hi. rewrite zlen_firstn in Hi. rewrite znth_firstn by (unfold zlen in *; lia).
    rewrite <- H2 by (unfold zlen in *; lia). f_equal; lia.
Qed.

(** [memb l]: boolean membership *)
Definition memb (l : list Z) (x : Z) : bool := existsb (Z.eqb x) l.
Lemma memb_In l x : memb l x = true <-> In x l.
Proof.
  unfold memb. rewrite existsb_exists. split.
  - intros (y & Hy & E). apply Z.eqb_eq in E. now subst.
  - intro H; exists x. split; auto. apply Z.eqb_refl.
Qed.
Lemma memb_false l x : memb l x = false <-> ~ In x l.
Proof. rewrite <- memb_In. destruct (memb l x); split; try easy. Qed.
Lemma memb_app l r x : memb (l ++ r) x = memb l x || memb r x.
Proof. unfold memb. apply existsb_app. Qed.

(** a sorted list within a range is the filtered range *)
Lemma filter_memb l a n :
  sorted l -> Forall (fun v => a <= v < a + Z.of_nat n) l -> filter (memb l) (zrange a n) = l.
Proof.
  intros H1 H2. apply sorted_ext; auto using sorted_filter, sorted_zrange.
  intro x. rewrite filter_In, In_zrange, memb_In. rewrite Forall_forall in H2.
  split; [tauto|]. intro; auto.
Qed.

Lemma filter_length_le A (f : A -> bool) l : (length (filter f l) <= length l)%nat.
Proof. induction l as [|x l IH]; cbn [filter length]; auto. destruct (f x); cbn [length]; lia. Qed.
Lemma zlen_filter_le A (f : A -> bool) l : zlen (filter f l) <= zlen l.
Proof. unfold zlen. pose proof (filter_length_le A f l). lia. Qed.
