(** Whatever the memory holds, the set operations write numbers of 32 bits and return sizes that are not negative. *)
From Coq Require Import Lia.
From Verif Require Import Base Hw Spec Lib M_Util M_Seq M_Decode M_Uncompress M_Intersect M_Union M_Many M_Index M_Calls M_Tests P_Spoil.
Local Open Scope Z_scope.

Definition U (l : list Z) : Prop := Forall is_u32 l.
Lemma u32_u32 x : is_u32 (u32 x).
Proof. unfold is_u32, u32. apply Z.mod_pos_bound. lia. Qed.
Lemma U_firstn n l : U l -> U (firstn n l).
Proof. intro H. rewrite <- (firstn_skipn n l) in H. now apply Forall_app in H as [H _]. Qed.
Lemma U_skipn n l : U l -> U (skipn n l).
Proof. intro H. rewrite <- (firstn_skipn n l) in H. now apply Forall_app in H as [_ H]. Qed.
Lemma U_app a b : U a -> U b -> U (a ++ b).
Proof. intros. apply Forall_app. auto. Qed.
Lemma U_zeros n : U (repeat 0 n).
Proof. apply Forall_forall. intros x Hx. apply repeat_spec in Hx. subst x. unfold is_u32. lia. Qed.

Lemma U_store out pos vals : U out -> U vals -> okp (store out pos vals) U.
Proof.
  intros H1 H2 o E. unfold store in E. destruct (_ && _); [|discriminate]. injection E as <-.
  auto using U_app, U_firstn, U_skipn.
Qed.
Lemma U_cvt base v : U (cvt_add base v).
Proof. unfold cvt_add. apply Forall_forall. intros x Hx. apply in_map_iff in Hx as (y & <- & _). apply u32_u32. Qed.
Lemma U_vset out pos x : U out -> okp (vset out pos (u32 x)) U.
Proof.
  intros H1. unfold vset. apply U_store; auto. constructor; [apply u32_u32|constructor].
Qed.

Definition U1 {A} (r : list Z * A) : Prop := U (fst r).
Definition U2 {A B} (r : A * list Z * B) : Prop := U (snd (fst r)).
Create HintDb uu.
#[local] Hint Resolve U_store U_cvt U_vset : uu.
Ltac uu1 :=
  lazymatch goal with
  | |- okp (bind _ _) _ => eapply okp_seq; [first [solve [eauto with uu] | apply okp_any]|];
      let x := fresh "x" in let Hx := fresh "Hx" in intros x Hx; cbn beta in Hx;
      repeat match goal with p : (_ * _)%type |- _ => destruct p end; unfold U1, U2 in Hx; cbn [fst snd] in Hx
  | |- okp (Ok _) _ => apply okp_ok; unfold U1, U2; cbn [fst snd]; solve [eauto with uu]
  | |- okp UB _ => intros ? ?; discriminate
  | |- okp Fuel _ => intros ? ?; discriminate
  | |- okp (if ?b then _ else _) _ => destruct b
  | |- okp (match ?o with Some _ => _ | None => _ end) _ => destruct o as [[? ?]|]
  | |- _ => solve [eauto with uu]
  end.
Ltac uu := repeat uu1.

Lemma U_word : forall fuel w base out pos size, U out -> okp (word_loop fuel w base out pos size) U1.
Proof. induction fuel as [|f IH]; intros w base out pos size H; cbn [word_loop]; uu. Qed.
#[local] Hint Resolve U_word : uu.
Lemma U_bitmap word : forall n i base out pos size, U out -> okp (bitmap_loop n word i base out pos size) U1.
Proof. induction n as [|n IH]; intros i base out pos size H; cbn [bitmap_loop]; uu. Qed.
#[local] Hint Resolve U_bitmap : uu.
Lemma U_decode_bitmap word n base out pos : U out -> okp (decode_bitmap word n base out pos) U1.
Proof. intro H. unfold decode_bitmap. uu. Qed.
Lemma U_and l r n base out pos : U out -> okp (and_bitmaps l r n base out pos) U1.
Proof. intro H. unfold and_bitmaps. uu. Qed.
Lemma U_or l r n base out pos : U out -> okp (or_bitmaps l r n base out pos) U1.
Proof. intro H. unfold or_bitmaps. uu. Qed.
Lemma U_step mem begin base out pos off : U out -> okp (decode_step mem begin base out pos off) U.
Proof. intro H. unfold decode_step. uu. Qed.
#[local] Hint Resolve U_decode_bitmap U_and U_or U_step : uu.
Lemma U_sparse_block mem begin c base out pos : U out -> okp (decode_sparse_block mem begin c base out pos) U1.
Proof. intro H. unfold decode_sparse_block. uu. Qed.
#[local] Hint Resolve U_sparse_block : uu.
Lemma U_sparse_loop mem end_ base : forall fuel begin data out tmp, U out ->
  okp (decode_sparse_chunk_loop fuel mem begin end_ data base out tmp) U1.
Proof.
  induction fuel as [|f IH]; intros begin data out tmp H; cbn [decode_sparse_chunk_loop]; destruct (begin =? end_); [now apply okp_ok|uu|now apply okp_ok|].
  do 2 uu1. eapply (okp_seq _ _ _ _ U1); [destruct (_ =? _); eauto with uu|]. intros [o n] Ho. unfold U1 in Ho. cbn [fst] in Ho. uu.
Qed.
#[local] Hint Resolve U_sparse_loop : uu.
Lemma U_sparse_chunk dbg mem begin n base out pos : U out -> okp (decode_sparse_chunk dbg mem begin n base out pos) U1.
Proof. intro H. unfold decode_sparse_chunk. uu. Qed.
Lemma U_full_loop base pos : forall n i out, U out -> okp (decode_full_loop n i base out pos) U.
Proof. induction n as [|n IH]; intros i out H; cbn [decode_full_loop]; uu. Qed.
#[local] Hint Resolve U_sparse_chunk U_full_loop : uu.
Lemma U_full base out pos : U out -> okp (decode_full_chunk base out pos) U1.
Proof. intro H. unfold decode_full_chunk. uu. Qed.
#[local] Hint Resolve U_full : uu.
Lemma U_chunk dbg mem it out pos : U out -> okp (decode_chunk dbg mem it out pos) U1.
Proof. intro H. unfold decode_chunk. uu. Qed.
#[local] Hint Resolve U_chunk : uu.
Lemma U_decode_loop dbg mem : forall n it out pos, U out -> okp (decode_loop n dbg mem it out pos) U1.
Proof. induction n as [|n IH]; intros it out pos H; cbn [decode_loop]; uu. Qed.
#[local] Hint Resolve U_decode_loop : uu.
Lemma U_decode dbg mem s out pos : U out -> okp (decode dbg mem s out pos) U1.
Proof. intro H. unfold decode. uu. Qed.

(** ** intersection of two *)
Lemma U_INTERSECT tbl a cl b cr base out pos size : U out -> okp (INTERSECT tbl a cl b cr base out pos size) U1.
Proof. intro H. unfold INTERSECT. cbn zeta. uu. Qed.
Lemma U_scalar mem end_l end_r base pos : forall fuel l r out size, U out ->
  okp (scalar_intersect_loop fuel mem l end_l r end_r base out pos size) U1.
Proof.
  induction fuel as [|f IH]; intros l r out size H; cbn [scalar_intersect_loop]; uu.
  destruct x; uu. destruct x; uu.
Qed.
#[local] Hint Resolve U_INTERSECT U_scalar : uu.
Lemma U_ss_block tbl dbg mem l r cl cr base out pos : U out -> okp (ss_intersect_block tbl dbg mem l r cl cr base out pos) U1.
Proof. intro H. unfold ss_intersect_block. uu. Qed.
Lemma U_ds_loop mem bm r base pos : forall n i out k, U out -> okp (ds_intersect_block_loop n mem bm r i base out pos k) U1.
Proof. induction n as [|n IH]; intros i out k H; cbn [ds_intersect_block_loop]; uu. Qed.
#[local] Hint Resolve U_ss_block U_ds_loop : uu.
Lemma U_ds_block mem l r c base out pos : U out -> okp (ds_intersect_block mem l r c base out pos) U1.
Proof. intro H. unfold ds_intersect_block. uu. Qed.
#[local] Hint Resolve U_ds_block : uu.
Lemma U_iblocks tbl dbg mem dl dr cl cr b out pos : U out -> okp (intersect_blocks tbl dbg mem dl dr cl cr b out pos) U1.
Proof. intro H. unfold intersect_blocks. cbn zeta. uu. Qed.
#[local] Hint Resolve U_iblocks : uu.
Lemma U_ss_loop tbl dbg mem end_l end_r base : forall fuel l r dl dr out tmp, U out ->
  okp (ss_intersect_chunk_loop fuel tbl dbg mem l r end_l end_r dl dr base out tmp) U1.
Proof.
  induction fuel as [|f IH]; intros l r dl dr out tmp H; cbn [ss_intersect_chunk_loop]; uu.
Qed.
#[local] Hint Resolve U_ss_loop : uu.
Lemma U_ss_chunk tbl dbg mem l r bl br base out pos : U out -> okp (ss_intersect_chunk tbl dbg mem l r bl br base out pos) U1.
Proof. intro H. unfold ss_intersect_chunk. cbn zeta. uu. Qed.
Lemma U_ds_chunk dbg mem l r bl base x out pos : U out -> okp (ds_intersect_chunk dbg mem l r bl base x out pos) U2.
Proof. intro H. unfold ds_intersect_chunk. cbn zeta. uu. Qed.
#[local] Hint Resolve U_ss_chunk U_ds_chunk : uu.
Lemma U_ichunks tbl dbg mem l r base x out pos : U out -> okp (intersect_chunks tbl dbg mem l r base x out pos) U2.
Proof. intro H. unfold intersect_chunks. cbn zeta. uu. Qed.
#[local] Hint Resolve U_ichunks : uu.
Definition grown {A} (pos : Z) (r : A * list Z * Z) : Prop := U (snd (fst r)) /\ pos <= snd r.
Lemma u32_pos x : 0 <= u32 x.
Proof. apply u32_u32. Qed.
Lemma U_iloop tbl dbg mem : forall fuel l r x out pos, U out -> okp (pairwise_intersection_loop fuel tbl dbg mem l r x out pos) (grown pos).
Proof.
  induction fuel as [|f IH]; intros l r x out pos H; cbn [pairwise_intersection_loop]; destruct (_ && _).
  1: intros ? ?; discriminate.
  1,3: apply okp_ok; split; [exact H|cbn [snd]; lia].
  uu. eapply okp_mono; [now apply IH|]. intros zz (A & B). split; auto.
  match type of B with pos + u32 ?n <= _ => pose proof (u32_pos n) end. lia.
Qed.
Lemma U_inter tbl dbg mem l r x out pos : U out -> okp (pairwise_intersection tbl dbg mem l r x out pos) (grown 0).
Proof.
  intro H. unfold pairwise_intersection. cbn zeta. eapply okp_seq; [now apply U_iloop|]. intros [[x' o] e] (A & B).
  cbn [fst snd] in *. apply okp_ok. split; auto. cbn [snd]. lia.
Qed.

(** ** union of two *)
Lemma U_ub_loop mem end_l end_r base pos : forall fuel l r out size, U out ->
  okp (ss_union_block_loop fuel mem l r end_l end_r base out pos size) (fun z => U (fst (fst (fst z)))).
Proof. induction fuel as [|f IH]; intros l r out size H; cbn [ss_union_block_loop]; uu. Qed.
#[local] Hint Resolve U_ub_loop : uu.
Lemma U_uss_block dbg mem l r cl cr base out pos : U out -> okp (ss_union_block dbg mem l r cl cr base out pos) U1.
Proof.
  intro H. unfold ss_union_block. cbn zeta. do 3 uu1. eapply (okp_seq _ _ _ _ U1); [uu|]. intros [o n] Ho. unfold U1 in Ho.
  cbn [fst] in Ho. uu.
Qed.
Lemma U_uds_block mem l r c base x out pos : U out -> okp (ds_union_block mem l r c base x out pos) U2.
Proof. intro H. unfold ds_union_block. uu. Qed.
Lemma U_dblock mem data t c base out pos : U out -> okp (decode_block mem data t c base out pos) U1.
Proof. intro H. unfold decode_block. uu. Qed.
#[local] Hint Resolve U_uss_block U_uds_block U_dblock : uu.
Lemma U_DECODE mem ptr data base out pos : U out -> okp (DECODE mem ptr data base out pos) U2.
Proof. intro H. unfold DECODE. cbn zeta. uu. Qed.
Lemma U_ublocks dbg mem dl dr cl cr b x out pos : U out -> okp (union_blocks dbg mem dl dr cl cr b x out pos) U2.
Proof. intro H. unfold union_blocks. cbn zeta. uu. Qed.
#[local] Hint Resolve U_DECODE U_ublocks : uu.
Lemma U_us_loop dbg mem end_l end_r base : forall fuel l r dl dr x out pos, U out ->
  okp (ss_union_chunk_loop fuel dbg mem l r end_l end_r dl dr base x out pos) U2.
Proof. induction fuel as [|f IH]; intros l r dl dr x out pos H; cbn [ss_union_chunk_loop]; cbn zeta; uu. Qed.
Lemma U_db_loop mem end_ base : forall fuel ptr data out pos, U out -> okp (decode_blocks_loop fuel mem ptr end_ data base out pos) U1.
Proof. induction fuel as [|f IH]; intros ptr data out pos H; cbn [decode_blocks_loop]; uu. Qed.
#[local] Hint Resolve U_us_loop U_db_loop : uu.
Lemma U_uss_chunk dbg mem l r bl br base x out pos : U out -> okp (ss_union_chunk dbg mem l r bl br base x out pos) U2.
Proof. intro H. unfold ss_union_chunk. cbn zeta. uu. Qed.
Lemma U_uds_chunk dbg mem l r bl base y out pos : U out -> okp (ds_union_chunk dbg mem l r bl base y out pos) U2.
Proof. intro H. unfold ds_union_chunk. cbn zeta. uu. Qed.
#[local] Hint Resolve U_uss_chunk U_uds_chunk : uu.
Lemma U_uchunks dbg mem l r base x y out pos : U out -> okp (union_chunks dbg mem l r base x y out pos) U2.
Proof. intro H. unfold union_chunks. cbn zeta. uu. Qed.
#[local] Hint Resolve U_uchunks : uu.

(** what decode_chunk returns is not negative *)
Lemma chunk_pos dbg mem it out pos : okp (decode_chunk dbg mem it out pos) (fun r => 0 <= snd r).
Proof.
  unfold decode_chunk. eapply okp_seq; [apply okp_any|]. intros id _. cbn zeta. eapply okp_seq; [apply okp_any|]. intros t _.
  destruct (t =? t_sparse).
  - eapply okp_seq; [apply okp_any|]. intros b _. unfold decode_sparse_chunk. eapply okp_seq; [apply okp_any|]. intros u _. cbn zeta.
    eapply okp_seq; [apply okp_any|]. intros [o e] _. apply okp_ok. apply u32_pos.
  - destruct (t =? t_dense).
    + unfold decode_bitmap. eapply okp_seq; [apply okp_any|]. intros [o e] _. apply okp_ok. apply u32_pos.
    + destruct (t =? t_full); [|intros ? ?; discriminate]. unfold decode_full_chunk. eapply okp_seq; [apply okp_any|]. intros o _.
      apply okp_ok. cbn [snd]. unfold chunk_size. lia.
Qed.
Lemma chunk_both dbg mem it out pos : U out -> okp (decode_chunk dbg mem it out pos) (fun r => U (fst r) /\ 0 <= snd r).
Proof. intros H r E. split; [exact (U_chunk _ _ _ _ _ H _ E)|exact (chunk_pos _ _ _ _ _ _ E)]. Qed.
#[local] Hint Resolve chunk_both : uu2.
Lemma bitmap_both word n base out pos : U out -> okp (decode_bitmap word n base out pos) (fun r => U (fst r) /\ 0 <= snd r).
Proof.
  intros H r E. split; [exact (U_decode_bitmap _ _ _ _ _ H _ E)|]. revert r E. unfold decode_bitmap. change (okp
    (let! (out, size) := bitmap_loop (Z.to_nat n) word 0 base out pos 0 in Ok (out, u32 size)) (fun r => 0 <= snd r)).
  eapply okp_seq; [apply okp_any|]. intros [o e] _. apply okp_ok. apply u32_pos.
Qed.

Lemma U_rest dbg mem : forall fuel it out pos, U out -> okp (decode_rest_loop fuel dbg mem it out pos) (fun r => U (fst r) /\ pos <= snd r).
Proof.
  induction fuel as [|f IH]; intros it out pos H; cbn [decode_rest_loop]; destruct (it_has_next it).
  1: intros ? ?; discriminate.
  1,3: apply okp_ok; split; [exact H|cbn [snd]; lia].
  eapply okp_seq; [now apply chunk_both|]. intros [o n] (A & B). cbn [fst snd] in *. eapply okp_seq; [apply okp_any|]. intros it' _.
  eapply okp_mono; [now apply IH|]. intros zz (C & D). split; auto. lia.
Qed.
Lemma U_uloop dbg mem : forall fuel l r x y out pos, U out -> okp (pairwise_union_loop fuel dbg mem l r x y out pos) (grown pos).
Proof.
  induction fuel as [|f IH]; intros l r x y out pos H; cbn [pairwise_union_loop]; cbn zeta; [intros ? ?; discriminate|].
  eapply okp_seq; [apply okp_any|]. intros il _. eapply okp_seq; [apply okp_any|]. intros ir _.
  destruct (u16 il =? u16 ir); [|destruct (u16 il <? u16 ir)].
  - eapply okp_seq; [now apply U_uchunks|]. intros [[[x' y'] o] n] Ho. unfold U2 in Ho. cbn [fst snd] in Ho. pose proof (u32_pos n) as HN.
    do 2 (eapply okp_seq; [apply okp_any|]; intros ? _). destruct (_ || _).
    + apply okp_ok. split; auto. cbn [snd]. lia.
    + eapply okp_mono; [now apply IH|]. intros zz (A & B). split; auto. lia.
  - eapply okp_seq; [now apply chunk_both|]. intros [o n] (A & B). cbn [fst snd] in *. eapply okp_seq; [apply okp_any|]. intros it' _.
    destruct (negb _).
    + apply okp_ok. split; auto. cbn [snd]. lia.
    + eapply okp_mono; [now apply IH|]. intros zz (C & D). split; auto. lia.
  - eapply okp_seq; [now apply chunk_both|]. intros [o n] (A & B). cbn [fst snd] in *. eapply okp_seq; [apply okp_any|]. intros it' _.
    destruct (negb _).
    + apply okp_ok. split; auto. cbn [snd]. lia.
    + eapply okp_mono; [now apply IH|]. intros zz (C & D). split; auto. lia.
Qed.
Lemma U_union dbg mem l r x y out pos : U out -> okp (pairwise_union dbg mem l r x y out pos) (grown 0).
Proof.
  intro H. unfold pairwise_union. cbn zeta. eapply okp_seq; [now apply U_uloop|]. intros [[[[[il ir] x'] y'] o] e] (A & B). cbn [fst snd] in *.
  eapply okp_seq; [now apply U_rest|]. intros [o1 e1] (A1 & B1). cbn [fst snd] in *.
  eapply okp_seq; [now apply U_rest|]. intros [o2 e2] (A2 & B2). cbn [fst snd] in *.
  apply okp_ok. split; auto. cbn [snd]. lia.
Qed.

(** ** many *)
Lemma U_headers dbg mem headers : forall n its i tmp bitmap out pos, U out ->
  okp (intersect_headers n dbg mem its headers i tmp bitmap out pos) (grown pos).
Proof.
  induction n as [|n IH]; intros its i tmp bitmap out pos H; cbn [intersect_headers].
  - apply okp_ok. split; [exact H|cbn [snd]; lia].
  - eapply okp_seq; [apply okp_any|]. intros h _. cbn zeta. destruct its as [|it0 its]; [intros ? ?; discriminate|].
    do 3 (eapply okp_seq; [apply okp_any|]; intros ? _). eapply okp_seq; [apply okp_any|]. intros [b c] _.
    eapply okp_seq; [apply okp_any|]. intros [[[[its' t'] b'] c'] skip] _. destruct skip.
    + now apply IH.
    + eapply okp_seq; [now apply bitmap_both|]. intros [o k] (A & B). cbn [fst snd] in *.
      eapply okp_mono; [now apply IH|]. intros zz (C & D). split; auto. lia.
Qed.
Lemma U_sorted dbg mem seqs headers tmp bitmap out pos : U out ->
  okp (intersection_sorted dbg mem seqs headers tmp bitmap out pos) (grown 0).
Proof.
  intro H. unfold intersection_sorted. cbn zeta. do 2 (eapply okp_seq; [apply okp_any|]; intros ? _).
  eapply okp_seq; [apply okp_any|]. intros [hs k] _. eapply okp_seq; [now apply U_headers|]. intros [[[t b] o] e] (A & B). cbn [fst snd] in *.
  apply okp_ok. split; auto. cbn [snd]. lia.
Qed.
Lemma U_union_loop dbg mem : forall fuel its h tmp bitmap out pos, U out ->
  okp (union_loop fuel dbg mem its h tmp bitmap out pos) (grown pos).
Proof.
  induction fuel as [|f IH]; intros its h tmp bitmap out pos H; cbn [union_loop]; destruct (h <? 65536).
  1: intros ? ?; discriminate.
  1,3: apply okp_ok; split; [exact H|cbn [snd]; lia].
  cbn zeta. eapply okp_seq; [apply okp_any|]. intros [t b] _. eapply okp_seq; [now apply bitmap_both|]. intros [o k] (A & B). cbn [fst snd] in *.
  eapply okp_seq; [apply okp_any|]. intros [its' nx] _. eapply okp_mono; [now apply IH|]. intros zz (C & D). split; auto. lia.
Qed.
Lemma U_union_many dbg mem seqs tmp bitmap out pos : U out -> okp (union_many dbg mem seqs tmp bitmap out pos) (grown 0).
Proof.
  intro H. unfold union_many. cbn zeta. eapply okp_seq; [apply okp_any|]. intros h _.
  eapply okp_seq; [now apply U_union_loop|]. intros [[[t b] o] e] (A & B). cbn [fst snd] in *.
  apply okp_ok. split; auto. cbn [snd]. lia.
Qed.

(** ** calls *)
Definition call_out (c : call) : list Z :=
  match c with CInter _ _ _ out _ | CUnion _ _ _ out _ | CInterMany _ _ out _ | CUnionMany _ _ out _ => out end.
Lemma U_call tbl dbg sc c : U (call_out c) -> okp (run_call tbl dbg sc c) (fun r => U (fst (snd r)) /\ 0 <= snd (snd r)).
Proof.
  intro H. destruct c as [mem l r out pos|mem l r out pos|mem seqs out pos|mem seqs out pos]; cbn [run_call call_out] in *.
  - eapply okp_seq; [now apply U_inter|]. intros [[x o] n] (A & B). apply okp_ok. cbn [fst snd] in *. auto.
  - eapply okp_seq; [now apply U_union|]. intros [[[x y] o] n] (A & B). apply okp_ok. cbn [fst snd] in *. auto.
  - eapply okp_seq; [now apply U_sorted|]. intros [[[[hs t] b] o] n] (A & B). apply okp_ok. cbn [fst snd] in *. auto.
  - eapply okp_seq; [now apply U_union_many|]. intros [[[t b] o] n] (A & B). apply okp_ok. cbn [fst snd] in *. auto.
Qed.

(** ** what the tests compare with *)
Lemma U_merge_and : forall l r, U l -> U (merge_and l r).
Proof.
  induction l as [|x l IH]; intros r H; [constructor|]. pose proof (Forall_inv H) as Hx. pose proof (Forall_inv_tail H) as Hl.
  induction r as [|y r IHr]; [constructor|]. cbn [merge_and]. destruct (x <? y); [now apply IH|]. destruct (y <? x); [exact IHr|].
  constructor; [exact Hx|]. now apply IH.
Qed.
Lemma U_merge_or : forall l r, U l -> U r -> U (merge_or l r).
Proof.
  induction l as [|x l IH]; intros r H HR; [exact HR|]. pose proof (Forall_inv H) as Hx. pose proof (Forall_inv_tail H) as Hl.
  induction r as [|y r IHr]; [exact H|]. pose proof (Forall_inv HR) as Hy. pose proof (Forall_inv_tail HR) as Hr.
  cbn [merge_or]. destruct (x <? y).
  - apply Forall_cons; [exact Hx|]. now apply IH.
  - destruct (y <? x); apply Forall_cons; auto; [now apply IHr|now apply IH].
Qed.
Lemma U_and_all ls : Forall U ls -> okp (and_all ls) U.
Proof.
  intros H e E. destruct ls as [|l0 [|l1 ls]]; try discriminate. cbn [and_all] in E. injection E as <-.
  pose proof (Forall_inv H) as H0. pose proof (Forall_inv_tail (Forall_inv_tail H)) as HL.
  assert (G : forall ls a, U a -> U (fold_left merge_and ls a)).
  { induction ls0 as [|l ls' IH]; intros a Ha; cbn [fold_left]; auto. apply IH. now apply U_merge_and. }
  apply G. now apply U_merge_and.
Qed.
Lemma U_or_all ls : Forall U ls -> U (or_all ls).
Proof.
  intro H. unfold or_all. assert (G : forall ls a, Forall U ls -> U a -> U (fold_left merge_or ls a)).
  { induction ls0 as [|l ls' IH]; intros a HL Ha; cbn [fold_left]; auto. apply IH; [exact (Forall_inv_tail HL)|].
    apply U_merge_or; auto. exact (Forall_inv HL). }
  apply G; auto. constructor.
Qed.
Definition enu (e : enumerator) : Prop := U (en_buf e) /\ is_u32 (en_past_the_end e).
Lemma enum_init_u dbg mem buf s p : U buf -> is_u32 p -> okp (enum_init dbg mem buf s p) enu.
Proof.
  intros H Hp. unfold enum_init. cbn zeta. eapply okp_seq; [apply okp_any|]. intros c _. eapply okp_seq; [now apply U_chunk|].
  intros [b k] Hb. unfold U1 in Hb. cbn [fst] in Hb. apply okp_ok. split; auto.
Qed.
Lemma enum_next_u dbg mem e : enu e -> okp (enum_next dbg mem e) enu.
Proof.
  intros (H & Hp). unfold enum_next. cbn zeta. destruct (_ =? _); [destruct (_ =? _)|].
  - apply okp_ok. split; auto.
  - do 2 (eapply okp_seq; [apply okp_any|]; intros ? _). eapply okp_seq; [now apply U_chunk|]. intros [b k] Hb. unfold U1 in Hb.
    cbn [fst] in Hb. apply okp_ok. split; auto.
  - apply okp_ok. split; auto.
Qed.
Lemma enum_value_u e : enu e -> okp (enum_value e) is_u32.
Proof.
  intros (H & Hp). unfold enum_value. destruct (en_has_next e); [|now apply okp_ok]. intros v E. unfold vget in E.
  destruct (znth (en_buf e) (en_i e)) as [y|] eqn:EZ; [|discriminate]. injection E as ->. unfold znth in EZ.
  destruct (_ <? _); [discriminate|]. apply nth_error_In in EZ. eapply Forall_forall in H; eauto.
Qed.
Lemma collect_loop_u dbg mem : forall fuel e acc, enu e -> U acc -> okp (collect_loop fuel dbg mem e acc) U.
Proof.
  induction fuel as [|f IH]; intros e acc He Ha; cbn [collect_loop]; destruct (en_has_next e).
  1: intros ? ?; discriminate.
  1,3: now apply okp_ok.
  eapply okp_seq; [now apply enum_value_u|]. intros v Hv. eapply okp_seq; [now apply enum_next_u|]. intros e' He'.
  apply IH; auto. apply U_app; auto. apply Forall_cons; [exact Hv|apply Forall_nil].
Qed.
Lemma collect_u dbg mem ix k : okp (collect dbg mem ix k) U.
Proof.
  unfold collect. eapply okp_seq; [apply okp_any|]. intros s _.
  eapply okp_seq; [apply enum_init_u; [apply U_zeros|apply u32_u32]|]. intros e He. eapply okp_seq; [apply okp_any|]. intros c _.
  eapply okp_seq; [apply collect_loop_u; auto; constructor|]. intros l Hl. do 2 (eapply okp_seq; [apply okp_any|]; intros ? _).
  now apply okp_ok.
Qed.
