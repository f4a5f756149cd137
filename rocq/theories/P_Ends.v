(** C44: building ends on every list, and throws only for two equal neighbours. *)
From Verif Require Import Base Hw Spec Lib Outcome Layout M_Util M_Build M_Index P_Build1 P_Build3 P_Fin1.
From Coq Require Import Lia.

(** outcomes with a condition on the result, T on an exception *)
Definition wptd {A} (dbg : bool) (T : Prop) (r : res A) (P : A -> Prop) : Prop :=
  match r with
  | Ok x => P x
  | UB => True
  | Abort => dbg = true
  | Throw => T
  | Fuel => False
  end.

Section Ends.
Variables (dbg : bool) (T : Prop).
Local Notation wpt := (wptd dbg T).
Lemma wpt_seq A B (a : res A) (f : A -> res B) P Q :
  wpt a P -> (forall x, P x -> wpt (f x) Q) -> wpt (bind a f) Q.
Proof. destruct a; cbn [wptd bind]; auto. Qed.
Lemma wpt_mono A (a : res A) (P Q : A -> Prop) : wpt a P -> (forall x, P x -> Q x) -> wpt a Q.
Proof. destruct a; cbn [wptd]; auto. Qed.
Lemma wpt_assert b : wpt (assert_ dbg b) (fun _ => True).
Proof. unfold assert_. destruct dbg, b; cbn; auto. Qed.
Lemma wpt_vget v i (P : Z -> Prop) : Forall P v -> wpt (vget v i) P.
Proof.
  intro H. unfold vget. destruct (znth v i) eqn:E; cbn; auto.
  apply znth_In in E. rewrite Forall_forall in H. auto.
Qed.
Lemma Forall_any A (l : list A) : Forall (fun _ => True) l.
Proof. induction l; auto. Qed.
Local Ltac seq := eapply wpt_seq; [|intros ? ?].
Local Ltac asserted := seq; [apply wpt_assert|].

Lemma wpt_set_bit p bits : wpt (set_bit dbg p bits) (fun _ => True).
Proof.
  unfold set_bit. asserted. seq; [apply (wpt_vget bits _ (fun _ => True)), Forall_any|].
  unfold vset, store. destruct (_ && _); cbn; auto.
Qed.
Lemma wpt_write_loop n : forall begin base bitmap,
  wpt (write_bits_loop dbg n begin base bitmap) (fun _ => True).
Proof.
  induction n; intros begin base bitmap; cbn [write_bits_loop]; [cbn; auto|].
  destruct begin as [|v begin]; [cbn; auto|]. cbv zeta. seq; [apply wpt_set_bit|]. apply IHn.
Qed.
Lemma wpt_write_bits begin n bits base out : wpt (write_bits dbg begin n bits base out) (fun _ => True).
Proof.
  unfold write_bits. asserted. cbv zeta. seq; [apply wpt_write_loop|]. cbn. auto.
Qed.
Lemma wpt_block_bitsize size stats : wpt (block_bitsize dbg size stats) (fun _ => True).
Proof.
  unfold block_bitsize. cbv zeta. asserted. destruct (size =? 0); [cbn; auto|].
  destruct (_ <=? size); [cbn; auto|]. asserted. cbn. auto.
Qed.
Lemma wpt_encode_block block id header data :
  wpt (encode_block dbg block id header data) (fun _ => True).
Proof.
  unfold encode_block. destruct (0 <? zlen block); [|cbn; auto]. cbv zeta.
  destruct (_ <=? zlen block); [|cbn; auto]. seq; [apply wpt_write_bits|]. cbn. auto.
Qed.

(** ** the loops over blocks *)
Lemma steps_pos l right : forall base, 0 <= split_steps l right base.
Proof.
  induction l as [|v l IH]; intro base; cbn [split_steps]; [lia|].
  destruct (v <? right); [|lia]. cbv zeta. specialize (IH (u32 (base + u32 (v - base) / block_size * block_size))).
  assert (0 <= u32 (v - base) / block_size); [|lia].
  unfold block_size, u32. apply Z.div_pos; [apply Z.mod_pos_bound; lia|lia].
Qed.
(** a step to the next block is one of those counted *)
Lemma steps_skip v l right base :
  v < right -> block_size <= u32 (v - base) ->
  split_steps (v :: l) right base = 1 + split_steps (v :: l) right (u32 (base + block_size)).
Proof.
  intros H1 H2. cbn [split_steps]. destruct (Z.ltb_spec v right); [|lia]. cbv zeta.
  unfold block_size in *.
  assert (E : u32 (v - u32 (base + 256)) = u32 (v - base) - 256) by (unfold u32 in *; lia).
  rewrite E.
  assert (D : (u32 (v - base) - 256) / 256 = u32 (v - base) / 256 - 1) by lia.
  rewrite D. set (k := u32 (v - base) / 256) in *.
  assert (B : u32 (u32 (base + 256) + (k - 1) * 256) = u32 (base + k * 256)).
  { unfold u32. rewrite Zplus_mod_idemp_l. f_equal. lia. }
  rewrite B. lia.
Qed.
Lemma steps_take v l right base :
  v < right -> u32 (v - base) < block_size -> 0 <= base < 4294967296 ->
  split_steps (v :: l) right base = 1 + split_steps l right base.
Proof.
  intros H1 H2 H3. cbn [split_steps]. destruct (Z.ltb_spec v right); [|lia]. cbv zeta.
  assert (E : u32 (v - base) / block_size = 0).
  { apply Z.div_small. split; [unfold u32; apply Z.mod_pos_bound; lia|auto]. }
  rewrite E. replace (base + 0 * block_size) with base by lia. rewrite u32_id by lia. lia.
Qed.

Lemma wpt_bit_loop right fuel : forall begin base size stats,
  0 <= base < 4294967296 -> split_steps begin right base <= Z.of_nat fuel ->
  wpt (sparse_chunk_bitsize_loop fuel dbg begin right base size stats) (fun _ => True).
Proof.
  induction fuel; intros begin base size stats Hb Hf;
    (destruct begin as [|v begin]; cbn [sparse_chunk_bitsize_loop]; [cbn; auto|]);
    (destruct (Z.ltb_spec v right) as [Hv|Hv]; [|cbn; auto]).
  - exfalso. cbn [split_steps] in Hf. destruct (Z.ltb_spec v right); [|lia]. cbv zeta in Hf.
    pose proof (steps_pos begin right (u32 (base + u32 (v - base) / block_size * block_size))).
    assert (0 <= u32 (v - base) / block_size); [|lia].
    unfold block_size, u32. apply Z.div_pos; [apply Z.mod_pos_bound; lia|lia].
  - cbv zeta. destruct (Z.leb_spec block_size (u32 (v - base))).
    + rewrite steps_skip in Hf by auto. seq; [apply wpt_block_bitsize|]. apply IHfuel; [|lia].
      unfold u32. apply Z.mod_pos_bound. lia.
    + rewrite steps_take in Hf by auto. asserted. asserted. apply IHfuel; auto. lia.
Qed.
Lemma wpt_enc_loop right fuel : forall begin id base block header data,
  0 <= base < 4294967296 -> split_steps begin right base <= Z.of_nat fuel ->
  wpt (encode_sparse_chunk_loop fuel dbg begin right id base block header data) (fun _ => True).
Proof.
  induction fuel; intros begin id base block header data Hb Hf;
    (destruct begin as [|v begin]; cbn [encode_sparse_chunk_loop]; [cbn; auto|]);
    (destruct (Z.ltb_spec v right) as [Hv|Hv]; [|cbn; auto]).
  - exfalso. cbn [split_steps] in Hf. destruct (Z.ltb_spec v right); [|lia]. cbv zeta in Hf.
    pose proof (steps_pos begin right (u32 (base + u32 (v - base) / block_size * block_size))).
    assert (0 <= u32 (v - base) / block_size); [|lia].
    unfold block_size, u32. apply Z.div_pos; [apply Z.mod_pos_bound; lia|lia].
  - cbv zeta. destruct (Z.leb_spec block_size (u32 (v - base))).
    + rewrite steps_skip in Hf by auto. seq; [apply wpt_encode_block|]. destruct x as [[[? ?] ?] ?].
      apply IHfuel; [|lia]. unfold u32. apply Z.mod_pos_bound. lia.
    + rewrite steps_take in Hf by auto. asserted. asserted. apply IHfuel; auto. lia.
Qed.
Lemma fuel_enough begin left right : split_steps begin right left <= Z.of_nat (split_fuel begin left right).
Proof. unfold split_fuel. pose proof (steps_pos begin right left). lia. Qed.

(** ** chunks *)
Definition twin (l : list Z) : Prop := exists a v b, l = a ++ v :: v :: b.

Lemma wpt_card_loop left right l : forall c prev pre,
  right <= 4294967295 -> (twin (pre ++ l) -> T) ->
  (prev = 4294967295 \/ exists p, pre = p ++ [prev]) ->
  wpt (chunk_cardinality_loop dbg l left right c prev) (fun _ => True).
Proof.
  induction l as [|v l IH]; intros c prev pre Hr HT Hp; cbn [chunk_cardinality_loop]; [cbn; auto|].
  destruct (Z.ltb_spec v right); [|cbn; auto]. asserted. asserted.
  destruct (Z.eqb_spec v prev) as [->|N].
  - destruct Hp as [->|(p & ->)]; [lia|]. cbn [wptd]. apply HT. exists p, prev, l.
    now rewrite <- app_assoc.
  - apply IH with (pre := pre ++ [v]); auto.
    + now rewrite <- app_assoc.
    + right. now exists pre.
Qed.
Lemma wpt_card left right l :
  right <= 4294967295 -> (twin l -> T) -> wpt (chunk_cardinality dbg l left right) (fun _ => True).
Proof.
  intros Hr HT. unfold chunk_cardinality.
  seq; [apply (wpt_card_loop left right l 0 (u32 (-1)) []); auto|]. asserted. cbn. auto.
Qed.

Definition good (data : list Z) (e : enc_state) : Prop :=
  0 <= e_left e < 4294967296 /\ 0 <= e_right e <= 4294901760 /\ e_right e mod 65536 = 0
  /\ exists pre, data = pre ++ e_begin e.

Lemma wpt_dense b begin c left header tmp stats :
  wpt (encode_dense_chunk dbg b begin c left header tmp stats) (fun _ => True).
Proof.
  unfold encode_dense_chunk. cbv zeta. asserted. seq; [apply wpt_write_bits|]. cbn. auto.
Qed.
Lemma wpt_sparse begin left right block out : 0 <= left < 4294967296 ->
  wpt (encode_sparse_chunk dbg begin left right block out) (fun _ => True).
Proof.
  intro H. unfold encode_sparse_chunk. seq; [apply wpt_enc_loop; auto using fuel_enough|].
  destruct x as [[[? ?] ?] ?]. seq; [apply wpt_encode_block|]. destruct x as [[[? ?] ?] ?]. cbn. auto.
Qed.
Lemma wpt_bitsize begin left right : 0 <= left < 4294967296 ->
  wpt (sparse_chunk_bitsize dbg begin left right) (fun _ => True).
Proof.
  intro H. unfold sparse_chunk_bitsize. seq; [apply wpt_bit_loop; auto using fuel_enough|].
  destruct x. apply wpt_block_bitsize.
Qed.

Variable data : list Z.
Hypothesis HT : twin data -> T.

Lemma wpt_chunk i e : good data e -> wpt (encode_chunk dbg i e) (good data).
Proof.
  intros (H1 & H2 & H3 & pre & H4). unfold encode_chunk.
  destruct (e_begin e) as [|v l] eqn:E; [cbn; auto|]. rewrite <- E. cbv zeta.
  assert (TW : twin (e_begin e) -> T).
  { intros (a & x & b & Q). apply HT. exists (pre ++ a), x, b. rewrite <- app_assoc, <- Q, E. auto. }
  eapply wpt_seq with (P := fun _ => True).
  - destruct (v <? e_right e); [|cbn; auto].
    seq; [apply wpt_card; auto; lia|].
    destruct (x <? chunk_sparseness_threshold).
    + seq; [apply wpt_bitsize; auto|].
      destruct (dense_chunk_bytes <=? _).
      * seq; [apply wpt_dense|]. destruct x1 as [[? ?] ?]. cbn. auto.
      * asserted. eapply wpt_seq with (P := fun _ => True); [unfold stats_entry; destruct (_ <? _); cbn; auto|intros ? _].
        seq; [apply wpt_sparse; auto|]. destruct x3. cbn. auto.
    + destruct (x =? M_Util.chunk_size); [cbn; auto|].
      seq; [apply wpt_dense|]. destruct x0 as [[? ?] ?]. cbn. auto.
  - intros [[[[c block] header] tmp] stats] _. cbn [wptd]. unfold good. cbn [e_left e_right e_begin].
    change M_Util.chunk_size with 65536. split; [lia|].
    split; [unfold u32; lia|]. split; [unfold u32; lia|].
    exists (pre ++ firstn (Z.to_nat c) (e_begin e)). rewrite <- app_assoc, firstn_skipn, E. auto.
Qed.
Lemma wpt_chunks n : forall i e, good data e -> wpt (encode_chunks n dbg i e) (good data).
Proof.
  induction n; intros i e H; cbn [encode_chunks]; [exact H|].
  seq; [apply wpt_chunk; auto|]. apply IHn. auto.
Qed.
Lemma wpt_pointer_loop n : forall header base c o,
  wpt (pointer_loop n header base c o) (fun _ => True).
Proof.
  induction n; intros header base c o; cbn [pointer_loop]; [cbn; auto|].
  seq; [apply (wpt_vget header _ (fun _ => True)), Forall_any|].
  seq; [apply (wpt_vget header _ (fun _ => True)), Forall_any|]. apply IHn.
Qed.
Lemma wpt_pointers_loop n : forall header i, wpt (pointers_loop n header i) (fun _ => True).
Proof.
  induction n; intros header i; cbn [pointers_loop]; [cbn; auto|].
  seq; [apply wpt_pointer_loop|]. destruct x. seq; [apply IHn|]. cbn. auto.
Qed.
Lemma wpt_sequence block stats out : wpt (encode_sequence dbg data block stats out) (fun _ => True).
Proof.
  unfold encode_sequence, encode_sequence_chunks. seq.
  - asserted. seq; [apply (wpt_vget data _ (fun _ => True)), Forall_any|]. cbv zeta. asserted.
    seq; [apply wpt_chunks|].
    + unfold good. cbn [e_left e_right e_begin]. change M_Util.chunk_size with 65536.
      split; [lia|]. split; [lia|]. split; [reflexivity|]. now exists [].
    + asserted. instantiate (1 := fun _ => True). cbn. auto.
  - cbv zeta. seq; [apply wpt_pointers_loop|]. cbn. auto.
Qed.
End Ends.

Lemma c44_builder : forall dbg out data,
  match builder_build dbg out data with
  | (Ok _, out') => exists enc, out' = out ++ enc
  | (Throw, out') => out' = out /\ exists a v b, data = a ++ v :: v :: b
  | (Abort, out') => out' = out /\ dbg = true
  | (UB, _) => True
  | (Fuel, _) => False
  end.
Proof.
  intros dbg out data. unfold builder_build, encode_one.
  pose proof (wpt_sequence dbg (twin data) data (fun H => H) [] stats0 out) as H.
  destruct (encode_sequence dbg data [] stats0 out) as [[[block st] o]| | | |] eqn:E; cbn [bind wptd] in *; auto.
  unfold encode_sequence in E. destruct (encode_sequence_chunks dbg data [] stats0); try discriminate.
  cbn [bind] in E. destruct (pointers_loop _ _ 0); try discriminate. cbn [bind] in E.
  injection E as _ _ <-. rewrite <- !app_assoc. eexists. reflexivity.
Qed.

Lemma wpt_index dbg (T : Prop) params data : Forall is_u32 data -> zlen data <= 4294967297 -> (twin data -> T) ->
  forall fuel i block stats offsets sequences, 2 <= i -> zlen data - i <= Z.of_nat fuel ->
  wptd dbg T (index_build_loop fuel dbg params data i block stats offsets sequences) (fun _ => True).
Proof.
  intros Hd HL HT. induction fuel; intros i block stats offsets sequences Hi Hf; cbn [index_build_loop].
  - destruct (Z.ltb_spec i (zlen data)); [lia|]. cbn. auto.
  - destruct (Z.ltb_spec i (zlen data)); [|cbn; auto].
    eapply wpt_seq; [apply (wpt_vget dbg T data i _ Hd)|]. intros n Hn. unfold is_u32 in Hn.
    eapply wpt_seq with (P := fun _ => i + n < zlen data).
    { unfold vget. destruct (znth data (i + n)) eqn:EZ; cbn [wptd]; auto. apply znth_lt in EZ. lia. }
    intros u Hu.
    eapply wpt_seq with (P := fun _ => True).
    + destruct (pass params n u); [|cbn; auto]. cbv zeta.
      eapply wpt_seq; [apply wpt_sequence|].
      * intros (a & v & b & E). apply HT.
        exists (firstn (Z.to_nat (i + 1)) data ++ a), v, (b ++ skipn (Z.to_nat n) (skipn (Z.to_nat (i + 1)) data)).
        rewrite <- app_assoc. change (v :: v :: b ++ ?x) with ((v :: v :: b) ++ x).
        rewrite (app_assoc a), <- E, firstn_skipn, firstn_skipn. reflexivity.
      * intros [[? ?] ?] _. cbn. auto.
    + intros [[[? ?] ?] ?] _. apply IHfuel; rewrite u32_id by lia; lia.
Qed.
Lemma c44_index : forall dbg params data,
  Forall is_u32 data -> zlen data <= 4294967297 ->
  match index_build dbg params data with
  | Ok _ | UB => True
  | Throw => exists a v b, data = a ++ v :: v :: b
  | Abort => dbg = true
  | Fuel => False
  end.
Proof.
  intros dbg params data Hd HL.
  assert (W : wptd dbg (twin data) (index_build dbg params data) (fun _ => True)).
  { unfold index_build.
    eapply wpt_seq; [apply (wpt_vget dbg (twin data) data 0 _ Hd)|]. intros d0 _.
    eapply wpt_seq; [apply wpt_assert|]. intros _ _.
    eapply wpt_seq; [apply (wpt_vget dbg (twin data) data 1 _ Hd)|]. intros d1 _. cbv zeta.
    eapply wpt_seq; [apply wpt_index; auto; unfold zlen; lia|].
    intros [[[? ?] ?] ?] _. cbn. auto. }
  destruct (index_build dbg params data); exact W.
Qed.

(** ** increasing lists, equal values allowed, have a defined outcome *)
Lemma encode_sequence_dup_high dbg P Q st out :
  Q <> [] -> StronglySorted Z.le P -> ~ sorted P ->
  Forall (fun v => 0 <= v < 4294901760) P -> Forall (fun v => 4294901760 <= v < 4294967296) Q ->
  encode_sequence dbg (P ++ Q) [] st out = Throw.
Proof.
  intros Hne HP HD RP RQ.
  destruct (last_exists _ (P ++ Q)) as (m & Em); [destruct P, Q; easy|].
  assert (Hm : 4294901760 <= m < 4294967296).
  { rewrite zlen_app in Em. assert (0 < zlen Q) by (destruct Q; [easy|zl]).
    rewrite znth_app_r in Em by (zpos; lia). apply znth_In in Em. rewrite Forall_forall in RQ. auto. }
  assert (En : num_chunks m = 65536).
  { unfold num_chunks. change M_Util.chunk_size with 65536.
    assert (E : (m + 65536) / 65536 = 65536) by lia. rewrite E. reflexivity. }
  unfold encode_sequence, encode_sequence_chunks. rewrite assert_ok by reflexivity. cbn [bind].
  unfold vget. rewrite Em. cbn [bind]. rewrite En. change M_Util.chunk_size with 65536.
  rewrite assert_ok by reflexivity. cbn [bind].
  replace (Z.to_nat 65536) with (Z.to_nat 65535 + 1)%nat by lia.
  rewrite encode_chunks_add.
  match goal with |- context [encode_chunks ?n ?d 0 (mkEnc _ _ _ _ _ _ ?st)] =>
    pose proof (encode_chunks_dup d n 0 P Q [] [] st) as E end.
  change (u32 (0 * 65536 + 65536)) with 65536 in E. change (0 * 65536) with 0 in E.
  rewrite Z2Nat.id in E by lia. rewrite E; auto; try lia.
  eapply Forall_impl; [|exact RQ]. cbn beta. intros; lia.
Qed.

Lemma climb_or_descend l :
  StronglySorted Z.le l \/ exists a v w b, l = a ++ v :: w :: b /\ w < v.
Proof.
  induction l as [|x l IH]; [left; constructor|].
  destruct IH as [H|(a & v & w & b & -> & H)].
  - destruct l as [|y l]; [left; constructor; auto|]. destruct (Z_lt_le_dec y x).
    + right. exists [], x, y, l. auto.
    + left. constructor; auto. constructor; auto. inversion H; subst.
      eapply Forall_impl; [|eassumption]. cbn beta. intros; lia.
  - right. exists (x :: a), v, w, b. auto.
Qed.

Lemma c44_defined : forall dbg out data,
  Forall is_u32 data -> fst (builder_build dbg out data) = UB ->
  data = [] \/ exists a v w b, data = a ++ v :: w :: b /\ w < v.
Proof.
  intros dbg out data Hu H. destruct data as [|x l]; auto. remember (x :: l) as data eqn:E.
  assert (Hne : data <> []) by (subst; discriminate). clear E x l. right.
  destruct (climb_or_descend data) as [HS|]; auto. exfalso.
  revert H. unfold builder_build, encode_one.
  destruct (le_split data 4294901760 HS) as (P & Q & -> & FP & FQ & SP & SQ).
  apply Forall_app in Hu as [UP UQ].
  assert (RP : Forall (fun v => 0 <= v < 4294901760) P).
  { rewrite Forall_forall in *. intros v Hv. specialize (UP v Hv). specialize (FP v Hv). unfold is_u32 in UP. cbn beta in *. lia. }
  assert (RQ : Forall (fun v => 4294901760 <= v < 4294967296) Q).
  { rewrite Forall_forall in *. intros v Hv. specialize (UQ v Hv). specialize (FQ v Hv). unfold is_u32 in UQ. cbn beta in *. lia. }
  destruct (le_sorted_or_dup P SP) as [S1|D].
  - assert (C : Q = [] \/ Q <> []) by (destruct Q; [left|right]; easy). destruct C as [->|NQ].
    + rewrite app_nil_r in *. destruct (encode_sequence_ok dbg P stats0 out) as (st & m & _ & -> & _).
      { repeat split; auto. }
      discriminate.
    + destruct (encode_sequence_high _ P Q stats0 out eq_refl NQ S1 RP RQ) as (A & st & R).
      destruct dbg; [rewrite A|rewrite R]; discriminate.
  - assert (S1 : ~ sorted P).
    { intro S1. destruct D as (a & v & b & ->). apply sorted_app_inv in S1 as (_ & S1 & _).
      apply sorted_inv in S1 as [_ S1]. inversion S1; subst. lia. }
    assert (C : Q = [] \/ Q <> []) by (destruct Q; [left|right]; easy). destruct C as [->|NQ].
    + rewrite app_nil_r in *. rewrite encode_sequence_dup; auto; [discriminate|].
      intro ND. destruct D as (a & v & b & ->). apply NoDup_remove_2 in ND. apply ND.
      apply in_or_app. right. now left.
    + rewrite encode_sequence_dup_high; auto. discriminate.
Qed.
