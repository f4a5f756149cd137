(** enumerator. *)
From Verif Require Import Base Hw Spec Lib L_Bits L_Group Layout M_Util M_Seq M_Decode
  P_Build1 P_Build2 P_Build3 P_Seq P_Decode.


(** [e] stands inside the first of the chunks [cs]; [rest] is still to be visited *)
Definition en_inv (mem : list Z) (p : Z) (e : enumerator) (rest : list Z) : Prop :=
  exists id c cs,
    it_view 31 mem (en_it e) ((id, c) :: cs)
    /\ 0 <= en_chunk e /\ en_chunks e = en_chunk e + 1 + zlen cs /\ en_chunks e <= 65535
    /\ en_cardinality e = zlen c /\ 0 <= en_i e < zlen c
    /\ en_past_the_end e = p /\ en_has_next e = true
    /\ zlen (en_buf e) = 65536
    /\ (forall j, 0 <= j < zlen c -> znth (en_buf e) j = znth (ungroup1 65536 (id, c)) j)
    /\ rest = skipn (Z.to_nat (en_i e)) (ungroup1 65536 (id, c)) ++ ungroup 65536 cs.

(** [e] is exhausted, and next() was called [j] more times *)
Definition en_done (p : Z) (e : enumerator) (j : Z) : Prop :=
  en_has_next e = false /\ en_past_the_end e = p /\ 0 < en_cardinality e <= 65536
  /\ en_i e = u32 (en_cardinality e + j) /\ zlen (en_buf e) = 65536.

Lemma skipn_znth (l : list Z) i x : znth l i = Some x -> skipn (Z.to_nat i) l = x :: skipn (Z.to_nat (i + 1)) l.
Proof.
  intro E. pose proof (znth_lt _ _ _ _ E) as H.
  apply znth_ext; [rewrite zlen_cons, !zlen_skipn; lia|].
  intros j Hj. rewrite zlen_skipn in Hj. rewrite znth_skipn by lia.
  destruct (Z.eq_dec j 0) as [->|].
  - rewrite znth_cons_0. rewrite <- E. f_equal. lia.
  - rewrite znth_cons_pos by lia. rewrite znth_skipn by lia. f_equal. lia.
Qed.

Lemma kind_sparse_card c : kind_of c = KSparse -> zlen c < 32768.
Proof.
  unfold kind_of. destruct (Z.ltb_spec (zlen c) 32768); auto. destruct (zlen c =? 65536); easy.
Qed.

Lemma enum_start dbg mem it id c cs buf p chunk chunks :
  it_view 31 mem it ((id, c) :: cs) -> zlen buf = 65536 -> 0 <= chunk -> chunks = chunk + 1 + zlen cs ->
  chunks <= 65535 ->
  exists buf', (let! k := it_cardinality mem it in
     let! (buf, _) := decode_chunk dbg mem it buf 0 in
     Ok (mkEnum it chunk chunks 0 k p true buf)) = Ok (mkEnum it chunk chunks 0 (zlen c) p true buf')
    /\ en_inv mem p (mkEnum it chunk chunks 0 (zlen c) p true buf') (ungroup 65536 ((id, c) :: cs)).
Proof.
  intros V Hb Hc Hn Hm. pose proof (view_wf _ _ _ _ _ V) as W1. pose proof (chunk_card _ _ W1) as Hcc.
  rewrite (id_view_cardinality _ _ _ _ _ (proj1 V)). cbn [bind].
  destruct (decode_chunk_ok dbg mem it id c cs buf 0) as (buf' & -> & Wr); auto; try lia.
  { intro K. apply kind_sparse_card in K. lia. }
  cbn [bind]. exists buf'. split; auto.
  exists id, c, cs. cbn [en_it en_chunk en_chunks en_i en_cardinality en_past_the_end en_has_next en_buf].
  split; auto. split; auto. split; auto. split; auto. split; auto. split; [lia|]. split; auto. split; auto.
  split; [now rewrite (wrote_zlen _ _ _ _ _ Wr)|]. split.
  - intros j Hj. destruct Wr as (_ & Wr & _). apply (Wr j). rewrite zlen_ungroup1. exact Hj.
  - reflexivity.
Qed.

Lemma enum_value_inv mem p e x rest : en_inv mem p e (x :: rest) -> enum_value e = Ok x.
Proof.
  intros (id & c & cs & V & _ & _ & _ & _ & Hi & _ & Hh & _ & Hb & E).
  unfold enum_value. rewrite Hh. apply vget_ok. rewrite Hb by auto.
  destruct (znth_Some _ (ungroup1 65536 (id, c)) (en_i e)) as (y & Ey).
  { now rewrite zlen_ungroup1. }
  rewrite (skipn_znth _ _ _ Ey) in E. injection E as -> _. exact Ey.
Qed.

Lemma enum_next_inv dbg mem p e x rest :
  en_inv mem p e (x :: rest) ->
  exists e', enum_next dbg mem e = Ok e'
    /\ match rest with [] => en_done p e' 0 | _ :: _ => en_inv mem p e' rest end.
Proof.
  intros (id & c & cs & V & Hc0 & Hc1 & Hc2 & Hcard & Hi & Hp & Hh & Hl & Hb & E).
  pose proof (view_wf _ _ _ _ _ V) as W1. pose proof (chunk_card _ _ W1) as Hcc. cbn [snd] in *.
  destruct (znth_Some _ (ungroup1 65536 (id, c)) (en_i e)) as (y & Ey).
  { now rewrite zlen_ungroup1. }
  rewrite (skipn_znth _ _ _ Ey) in E. injection E as -> ->.
  pose proof (zlen_nonneg _ cs).
  unfold enum_next. rewrite Hcard. rewrite u32_id by lia.
  destruct (Z.eqb_spec (en_i e + 1) (zlen c)).
  - rewrite skipn_all2 by (rewrite length_zlen, zlen_ungroup1; cbn [snd]; lia). cbn [app].
    rewrite u32_id by lia. rewrite Hc1.
    destruct cs as [|[id2 c2] cs].
    + rewrite zlen_nil. destruct (Z.eqb_spec (en_chunk e + 1) (en_chunk e + 1 + 0)); [|lia].
      eexists. split; [reflexivity|]. cbn [ungroup flat_map].
      repeat split; cbn [en_has_next en_past_the_end en_cardinality en_i en_buf]; auto; try lia.
      rewrite u32_id; lia.
    + rewrite zlen_cons in *. zpos.
      destruct (Z.eqb_spec (en_chunk e + 1) (en_chunk e + 1 + (zlen cs + 1))); [lia|].
      destruct (view_next _ _ _ _ _ _ V) as (it' & -> & V2 & _). cbn [bind].
      destruct (enum_start dbg mem it' id2 c2 cs (en_buf e) p (en_chunk e + 1)
        (en_chunk e + 1 + (zlen cs + 1))) as (buf' & E & I); auto; try lia.
      rewrite Hh, Hp. rewrite E. eexists. split; [reflexivity|].
      destruct (ungroup 65536 ((id2, c2) :: cs)) as [|z r] eqn:Eu; [|exact I].
      exfalso. pose proof (view_wf _ _ _ _ _ V2) as (_ & N & _). cbn [snd] in N.
      rewrite ungroup_cons in Eu. destruct c2; [easy|]. discriminate Eu.
  - eexists. split; [reflexivity|].
    destruct (skipn (Z.to_nat (en_i e + 1)) (ungroup1 65536 (id, c)) ++ ungroup 65536 cs) as [|z r] eqn:Eu.
    { exfalso. apply app_eq_nil in Eu as [Eu _].
      assert (zlen (skipn (Z.to_nat (en_i e + 1)) (ungroup1 65536 (id, c))) = 0) by (rewrite Eu; reflexivity).
      rewrite zlen_skipn, zlen_ungroup1 in *. cbn [snd] in *. lia. }
    exists id, c, cs. cbn [en_it en_chunk en_chunks en_i en_cardinality en_past_the_end en_has_next en_buf].
    do 3 (split; auto). split; auto. split; auto. split; [lia|]. do 4 (split; auto).
Qed.

Lemma enum_next_done dbg mem p e j :
  en_done p e j -> 0 <= j < 4294967295 ->
  exists e', enum_next dbg mem e = Ok e' /\ en_done p e' (j + 1).
Proof.
  intros (H1 & H2 & H3 & H4 & H5) Hj. unfold enum_next. rewrite H4, u32_add_l.
  destruct (Z.eqb_spec (u32 (en_cardinality e + j + 1)) (en_cardinality e)) as [E|E].
  - exfalso. unfold u32 in E. change (2 ^ 32) with 4294967296 in E. lia.
  - eexists. split; [reflexivity|]. repeat split; cbn [en_has_next en_past_the_end en_cardinality en_i en_buf]; auto; try lia.
    f_equal; lia.
Qed.

Lemma enum_steps_done dbg mem p : forall k e j,
  en_done p e j -> 0 <= j -> j + Z.of_nat k < 4294967296 ->
  exists e', enum_steps k dbg mem e = Ok e' /\ en_done p e' (j + Z.of_nat k).
Proof.
  induction k; intros e j H Hj Hk; cbn [enum_steps].
  - exists e. split; auto. now rewrite Z.add_0_r.
  - destruct (enum_next_done dbg mem p e j H ltac:(lia)) as (e1 & -> & H1). cbn [bind].
    destruct (IHk e1 (j + 1) H1) as (e' & E & H'); try lia. exists e'. split; auto.
    replace (j + Z.of_nat (S k)) with (j + 1 + Z.of_nat k) by lia. exact H'.
Qed.

Lemma enum_steps_inv dbg mem p : forall k e rest,
  en_inv mem p e rest -> rest <> [] -> Z.of_nat k < zlen rest + 4294967296 ->
  exists e', enum_steps k dbg mem e = Ok e'
    /\ (if Z.of_nat k <? zlen rest then en_inv mem p e' (skipn k rest)
        else en_done p e' (Z.of_nat k - zlen rest)).
Proof.
  induction k; intros e rest H N Hk; cbn [enum_steps].
  - exists e. split; auto. destruct rest; [easy|]. rewrite zlen_cons. zpos.
    destruct (Z.ltb_spec (Z.of_nat 0) (zlen rest + 1)); [exact H|lia].
  - destruct rest as [|x rest]; [easy|]. rewrite zlen_cons in *.
    destruct (enum_next_inv dbg mem p e x rest H) as (e1 & -> & H1). cbn [bind skipn].
    destruct rest as [|y rest].
    + rewrite zlen_nil in *. destruct (Z.ltb_spec (Z.of_nat (S k)) (0 + 1)); [lia|].
      destruct (enum_steps_done dbg mem p k e1 0 H1) as (e' & E & H'); try lia.
      exists e'. split; auto. replace (Z.of_nat (S k) - (0 + 1)) with (0 + Z.of_nat k) by lia. exact H'.
    + destruct (IHk e1 (y :: rest) H1) as (e' & E & H'); [easy|lia|]. exists e'. split; auto.
      destruct (Z.ltb_spec (Z.of_nat k) (zlen (y :: rest))), (Z.ltb_spec (Z.of_nat (S k)) (zlen (y :: rest) + 1));
        try lia; auto.
      replace (Z.of_nat (S k) - (zlen (y :: rest) + 1)) with (Z.of_nat k - zlen (y :: rest)) by lia. exact H'.
Qed.

Lemma enumerator_ok dbg mem a S p buf k :
  valid S -> stored 31 mem a S -> zlen buf = 65536 -> Z.of_nat k < zlen S + 4294967296 ->
  exists s e0 e, seq_at mem a = Ok s /\ enum_init dbg mem buf s p = Ok e0
    /\ enum_steps k dbg mem e0 = Ok e
    /\ en_has_next e = (Z.of_nat k <? zlen S)
    /\ enum_value e = Ok (match znth S (Z.of_nat k) with Some x => x | None => p end).
Proof.
  intros H St Hb Hk. destruct (stored_seq 31 mem a S H St ltac:(lia)) as (s & Es & En & V & A & B0).
  destruct (valid_chunks S H) as (W & N & U & SC & L).
  exists s. unfold enum_init.
  destruct (chunks_of S) as [|[id c] cs] eqn:EC; [easy|].
  rewrite zlen_cons in En.
  assert (LC : s_chunks s <= 65535).
  { rewrite En. pose proof (chunks_le _ W) as LC. rewrite zlen_cons in LC. exact LC. }
  destruct (enum_start dbg mem (seq_begin s) id c cs buf p 0 (s_chunks s)) as (buf' & E & I); auto; try lia.
  rewrite E. eexists. 
  destruct (enum_steps_inv dbg mem p k _ _ I) as (e & Ek & I2).
  { rewrite U. apply H. }
  { now rewrite U. }
  exists e. split; auto. split; auto. split; auto. rewrite U in I2.
  destruct (Z.ltb_spec (Z.of_nat k) (zlen S)).
  - destruct (znth_Some _ S (Z.of_nat k)) as (x & Ex); [lia|]. rewrite Ex.
    pose proof (skipn_znth S (Z.of_nat k) x Ex) as Es2. rewrite Nat2Z.id in Es2. rewrite Es2 in I2.
    split; [|eapply enum_value_inv; eauto].
    destruct I2 as (? & ? & ? & _ & _ & _ & _ & _ & _ & _ & Hh & _). exact Hh.
  - destruct I2 as (H1 & H2 & _). unfold enum_value. rewrite H1. split; auto.
    destruct (znth S (Z.of_nat k)) eqn:Ez; [|now rewrite H2].
    apply znth_lt in Ez. lia.
Qed.
