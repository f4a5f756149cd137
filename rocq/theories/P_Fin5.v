(** C19 and C20: which bytes are read, which words are written. *)
From Verif Require Import Base Hw Spec Lib L_Bits L_Group Layout M_Util M_Build M_Seq M_Decode M_Query
  M_Uncompress M_Intersect M_Union M_Many
  P_Build1 P_Build2 P_Build3 P_Seq P_Decode P_Query P_NextGeq P_Enum P_Uncompress P_Ex P_Fin1 P_Fin2 P_Fin3.
From Coq Require Import Lia Sorted Permutation.

Lemma znth_some_lt A (l : list A) i x : znth l i = Some x -> 0 <= i < zlen l.
Proof.
  intro H. split.
  - unfold znth in H. destruct (Z.ltb_spec i 0); [discriminate|lia].
  - apply Z.nle_gt. intro C. now rewrite znth_ge in H.
Qed.

Lemma encoding_nonempty dbg S enc : valid S -> encoding dbg S enc -> 0 < zlen enc.
Proof.
  intros V E. rewrite (encoding_layout dbg S enc V E), zlen_layout.
  pose proof (zlen_nonneg _ (chunks_of S)). pose proof (zlen_nonneg _ (cdatas (chunks_of S))).
  assert (0 <= zlen (chunks_of S) / 32) by (apply Z.div_pos; lia). lia.
Qed.

Lemma znth_lt_some A (l : list A) i : 0 <= i < zlen l -> exists x, znth l i = Some x.
Proof.
  intro H. unfold znth. destruct (Z.ltb_spec i 0); [lia|].
  destruct (nth_error l (Z.to_nat i)) as [x|] eqn:E; [eauto|].
  exfalso. apply nth_error_None in E. unfold zlen in *. lia.
Qed.

Lemma bytes_end mem a enc : 0 < zlen enc -> bytes_at mem a enc -> 0 <= a /\ a + zlen enc <= zlen mem.
Proof.
  intros H B.
  destruct (znth_lt_some _ enc 0 ltac:(lia)) as [x Ex].
  destruct (znth_lt_some _ enc (zlen enc - 1) ltac:(lia)) as [y Ey].
  pose proof (B 0 ltac:(lia)) as B0. pose proof (B (zlen enc - 1) ltac:(lia)) as B1.
  rewrite Ex in B0. rewrite Ey in B1. apply znth_some_lt in B0, B1. lia.
Qed.

Lemma stored_bytes dbg S enc mem a : valid S -> encoding dbg S enc -> bytes_at mem a enc -> stored 0 mem a S.
Proof.
  intros V E B. exists dbg, enc. split; auto. split; auto.
  pose proof (bytes_end mem a enc (encoding_nonempty dbg S enc V E) B). lia.
Qed.
Lemma bytes_self enc : bytes_at enc 0 enc.
Proof. intros i _. reflexivity. Qed.


Lemma seq_at_same mem a s s' : seq_at mem a = Ok s -> seq_at mem a = Ok s' -> s = s'.
Proof. congruence. Qed.

Lemma c19_own_bytes : forall dbg0 S enc mem a,
  valid S -> encoding dbg0 S enc -> bytes_at mem a enc ->
  exists s0 s, seq_at enc 0 = Ok s0 /\ seq_at mem a = Ok s
    /\ (exists n, cardinality enc s0 = Ok n /\ cardinality mem s = Ok n)
    /\ (forall dbg v, is_u32 v -> exists b, contains dbg enc s0 v = Ok b /\ contains dbg mem s v = Ok b)
    /\ (forall dbg i value, is_u32 i ->
          exists r, select dbg enc s0 i value = Ok r /\ select dbg mem s i value = Ok r)
    /\ (forall dbg v, is_u32 v -> exists r, next_geq dbg enc s0 v = Ok r /\ next_geq dbg mem s v = Ok r)
    /\ (forall dbg out pos, 0 <= pos -> (forall v, In v S -> pos + 1024 * (v / 65536 + 1) <= zlen out) ->
          exists r, uncompress dbg enc s0 out pos = Ok r /\ uncompress dbg mem s out pos = Ok r).
Proof.
  intros dbg0 S enc mem a V E B.
  pose proof (stored_bytes dbg0 S enc mem a V E B) as St.
  pose proof (stored_bytes dbg0 S enc enc 0 V E (bytes_self enc)) as St0.
  destruct (c04_size enc 0 S V St0) as (s0 & E0 & _ & C0).
  destruct (c04_size mem a S V St) as (s & E1 & _ & C1).
  exists s0, s. split; auto. split; auto. split; [eauto|].
  split; [|split; [|split]].
  - intros dbg v Hv.
    destruct (contains_ok dbg enc 0 S v V St0 Hv) as (x & X & R0).
    destruct (contains_ok dbg mem a S v V St Hv) as (y & Y & R1).
    rewrite (seq_at_same _ _ _ _ E0 X), (seq_at_same _ _ _ _ E1 Y). eauto.
  - intros dbg i value Hv.
    destruct (select_ok dbg enc 0 S i value V St0 Hv) as (x & X & R0).
    destruct (select_ok dbg mem a S i value V St Hv) as (y & Y & R1).
    rewrite (seq_at_same _ _ _ _ E0 X), (seq_at_same _ _ _ _ E1 Y). eauto.
  - intros dbg v Hv.
    destruct (next_geq_ok dbg enc 0 S v V St0 Hv) as (x & X & R0).
    destruct (next_geq_ok dbg mem a S v V St Hv) as (y & Y & R1).
    rewrite (seq_at_same _ _ _ _ E0 X), (seq_at_same _ _ _ _ E1 Y). eauto.
  - intros dbg out pos Hp Hl.
    assert (Hl' : pos + 1024 * (last S 0 / 65536 + 1) <= zlen out).
    { apply Hl. destruct V as (Hn & _). destruct (exists_last Hn) as (l & x & ->). rewrite last_last.
      apply in_or_app. right. left. auto. }
    destruct (uncompress_ok dbg enc 0 S out pos V St0 Hp Hl') as (x & o0 & X & R0 & L0 & H0).
    destruct (uncompress_ok dbg mem a S out pos V St Hp Hl') as (y & o1 & Y & R1 & L1 & H1).
    rewrite (seq_at_same _ _ _ _ E0 X), (seq_at_same _ _ _ _ E1 Y).
    assert (Eo : o0 = o1).
    { apply znth_ext; [congruence|]. intros i _. specialize (H0 (i - pos)). specialize (H1 (i - pos)).
      replace (pos + (i - pos)) with i in * by lia.
      destruct ((0 <=? i - pos) && existsb (fun v => v / 65536 =? (i - pos) / 1024) S).
      - destruct H0 as (w0 & -> & B0 & T0). destruct H1 as (w1 & -> & B1 & T1). f_equal.
        apply Z.bits_inj_iff. intro j. destruct (Z_lt_le_dec j 0) as [N|N].
        + now rewrite !Z.testbit_neg_r by lia.
        + destruct (Z_lt_le_dec j 64) as [M|M]; [now rewrite T0, T1 by lia|].
          rewrite <- (Z.mod_small w0 (2 ^ 64)), <- (Z.mod_small w1 (2 ^ 64)) by lia.
          now rewrite !Z.mod_pow2_bits_high by lia.
      - now rewrite H0, H1. }
    subst o1. eauto.
Qed.

(** the many-sequence operations: memory in which only the encodings are given *)
Lemma wrote_unique buf pos e b b' : wrote 0 buf pos e b -> wrote 0 buf pos e b' -> b = b'.
Proof.
  intros (L1 & I1 & O1) (L2 & I2 & O2). apply znth_ext; [congruence|]. intros i _.
  destruct (Z_lt_le_dec i pos) as [H|H]; [now rewrite O1, O2 by (now left)|].
  destruct (Z_lt_le_dec i (pos + zlen e)) as [H'|H'].
  - specialize (I1 (i - pos) ltac:(lia)). specialize (I2 (i - pos) ltac:(lia)).
    replace (pos + (i - pos)) with i in * by lia. congruence.
  - now rewrite O1, O2 by (right; lia).
Qed.

Definition S9 : list Z := zrange 5 9.
Definition S9h : list Z := zrange 65541 9.
Definition enc9 : list Z := Eval vm_compute in snd (builder_build false [] S9).
Definition enc9h : list Z := Eval vm_compute in snd (builder_build false [] S9h).
Definition S3 : list Z := [3].
Definition enc3 : list Z := Eval vm_compute in snd (builder_build false [] S3).
Definition SF : list Z := zrange 0 (Z.to_nat 65536).
Definition encF : list Z := Eval vm_compute in snd (builder_build false [] SF).

Lemma valid9 : valid S9.  Proof. apply valid_b_ok. vm_compute. reflexivity. Qed.
Lemma valid9h : valid S9h.  Proof. apply valid_b_ok. vm_compute. reflexivity. Qed.
Lemma valid3 : valid S3.  Proof. apply valid_b_ok. vm_compute. reflexivity. Qed.
Lemma validF : valid SF.  Proof. apply valid_b_ok. vm_compute. reflexivity. Qed.
Lemma encoding9 : encoding false S9 enc9.  Proof. exact (encoding_ok false S9 valid9). Qed.
Lemma encoding9h : encoding false S9h enc9h.  Proof. exact (encoding_ok false S9h valid9h). Qed.
Lemma encoding3 : encoding false S3 enc3.  Proof. exact (encoding_ok false S3 valid3). Qed.
Lemma encodingF : encoding false SF encF.
Proof.
  assert (E : encF = snd (builder_build false [] SF)) by (vm_compute; reflexivity).
  rewrite E. exact (encoding_ok false SF validF).
Qed.

(** memories with 30 bytes after an encoding *)
Definition mem9 : list Z := Eval vm_compute in enc9 ++ repeat 0 30.
Definition mem39 : list Z := Eval vm_compute in enc3 ++ enc9h ++ repeat 0 30.
Definition memF9 : list Z := Eval vm_compute in encF ++ enc9 ++ repeat 0 30.

Lemma st9 : stored 30 mem9 0 S9.
Proof. exact (stored_mid false S9 enc9 [] (repeat 0 30) 30 encoding9 ltac:(vm_compute; discriminate)). Qed.
Lemma st39a : stored 30 mem39 0 S3.
Proof. exact (stored_mid false S3 enc3 [] (enc9h ++ repeat 0 30) 30 encoding3 ltac:(vm_compute; discriminate)). Qed.
Lemma st39b : stored 30 mem39 (zlen enc3) S9h.
Proof. exact (stored_mid false S9h enc9h enc3 (repeat 0 30) 30 encoding9h ltac:(vm_compute; discriminate)). Qed.
Lemma stF9a : stored 30 memF9 0 SF.
Proof. exact (stored_mid false SF encF [] (enc9 ++ repeat 0 30) 30 encodingF ltac:(vm_compute; discriminate)). Qed.
Lemma stF9b : stored 30 memF9 (zlen encF) S9.
Proof. exact (stored_mid false S9 enc9 encF (repeat 0 30) 30 encoding9 ltac:(vm_compute; discriminate)). Qed.

(** 30 readable bytes after the encoding are not enough *)
Lemma c19_decode_refuted : exists S mem a buf s,
  valid S /\ stored 30 mem a S /\ zlen S + 23 <= zlen buf /\ seq_at mem a = Ok s
  /\ forall dbg, decode dbg mem s buf 0 = UB.
Proof.
  destruct (c04_size mem9 0 S9 valid9 (stored_weaken _ 0 _ _ _ st9 ltac:(lia))) as (s & E & _).
  exists S9, mem9, 0, (repeat 0 40), s. split; [exact valid9|]. split; [exact st9|].
  split; [vm_compute; discriminate|]. split; [exact E|].
  vm_compute in E. injection E as <-. intros []; vm_compute; reflexivity.
Qed.
Lemma c19_enumerator_refuted : exists S mem a buf s,
  valid S /\ stored 30 mem a S /\ zlen buf = 65536 /\ seq_at mem a = Ok s
  /\ forall dbg p, enum_init dbg mem buf s p = UB.
Proof.
  destruct (c04_size mem9 0 S9 valid9 (stored_weaken _ 0 _ _ _ st9 ltac:(lia))) as (s & E & _).
  exists S9, mem9, 0, (repeat 0 (Z.to_nat 65536)), s. split; [exact valid9|]. split; [exact st9|].
  split; [vm_compute; reflexivity|]. split; [exact E|].
  vm_compute in E. injection E as <-. intros [] p; vm_compute; reflexivity.
Qed.
Lemma c19_intersection_refuted : forall tbl, exists S T mem a b s t x out,
  valid S /\ valid T /\ stored 30 mem a S /\ stored 30 mem b T
  /\ seq_at mem a = Ok s /\ seq_at mem b = Ok t
  /\ zlen x = 1024 /\ zlen S + 23 <= zlen out
  /\ forall dbg, pairwise_intersection tbl dbg mem s t x out 0 = UB.
Proof.
  intro tbl.
  destruct (c04_size memF9 (zlen encF) S9 valid9 (stored_weaken _ 0 _ _ _ stF9b ltac:(lia))) as (s & E & _).
  destruct (c04_size memF9 0 SF validF (stored_weaken _ 0 _ _ _ stF9a ltac:(lia))) as (t & E' & _).
  exists S9, SF, memF9, (zlen encF), 0, s, t, (repeat 0 (Z.to_nat 1024)), (repeat 0 40).
  split; [exact valid9|]. split; [exact validF|]. split; [exact stF9b|]. split; [exact stF9a|].
  split; [exact E|]. split; [exact E'|]. split; [vm_compute; reflexivity|]. split; [vm_compute; discriminate|].
  vm_compute in E, E'. injection E as <-. injection E' as <-. intros []; vm_compute; reflexivity.
Qed.
Lemma c19_union_refuted : exists S T mem a b s t x y out,
  valid S /\ valid T /\ stored 30 mem a S /\ stored 30 mem b T /\ apart a S b T
  /\ seq_at mem a = Ok s /\ seq_at mem b = Ok t
  /\ zlen x = 4 /\ zlen y = 1024 /\ zlen S + zlen T + 23 <= zlen out
  /\ forall dbg, pairwise_union dbg mem s t x y out 0 = UB.
Proof.
  destruct (c04_size mem39 (zlen enc3) S9h valid9h (stored_weaken _ 0 _ _ _ st39b ltac:(lia))) as (s & E & _).
  destruct (c04_size mem39 0 S3 valid3 (stored_weaken _ 0 _ _ _ st39a ltac:(lia))) as (t & E' & _).
  exists S9h, S3, mem39, (zlen enc3), 0, s, t, [0; 0; 0; 0], (repeat 0 (Z.to_nat 1024)), (repeat 0 40).
  split; [exact valid9h|]. split; [exact valid3|]. split; [exact st39b|]. split; [exact st39a|].
  split; [right; exists false, enc9h, enc3; split; [exact encoding9h|]; split; [exact encoding3|]; right; vm_compute; discriminate|].
  split; [exact E|]. split; [exact E'|]. do 2 (split; [vm_compute; reflexivity|]). split; [vm_compute; discriminate|].
  vm_compute in E, E'. injection E as <-. injection E' as <-. intros []; vm_compute; reflexivity.
Qed.

(** ** C20 *)
Lemma wrote_outside buf pos e b i : wrote 23 buf pos e b -> i < pos \/ pos + zlen e + 23 <= i -> znth b i = znth buf i.
Proof. intros (_ & _ & H). apply H. Qed.

Definition mem9p : list Z := Eval vm_compute in enc9 ++ repeat 7 31.
Definition mem39p : list Z := Eval vm_compute in enc3 ++ enc9h ++ repeat 0 31.
Definition memF9p : list Z := Eval vm_compute in encF ++ enc9 ++ repeat 0 31.
Lemma st9p : stored 31 mem9p 0 S9.
Proof. exact (stored_mid false S9 enc9 [] (repeat 7 31) 31 encoding9 ltac:(vm_compute; discriminate)). Qed.
Lemma st39pa : stored 31 mem39p 0 S3.
Proof. exact (stored_mid false S3 enc3 [] (enc9h ++ repeat 0 31) 31 encoding3 ltac:(vm_compute; discriminate)). Qed.
Lemma st39pb : stored 31 mem39p (zlen enc3) S9h.
Proof. exact (stored_mid false S9h enc9h enc3 (repeat 0 31) 31 encoding9h ltac:(vm_compute; discriminate)). Qed.
Lemma stF9pa : stored 31 memF9p 0 SF.
Proof. exact (stored_mid false SF encF [] (enc9 ++ repeat 0 31) 31 encodingF ltac:(vm_compute; discriminate)). Qed.
Lemma stF9pb : stored 31 memF9p (zlen encF) S9.
Proof. exact (stored_mid false S9 enc9 encF (repeat 0 31) 31 encoding9 ltac:(vm_compute; discriminate)). Qed.

(** a buffer of n + 22 words is overflowed, and the 23 words after the result do change *)
Lemma c20_decode_refuted : exists S mem a s,
  valid S /\ stored 31 mem a S /\ seq_at mem a = Ok s
  /\ (forall dbg, decode dbg mem s (repeat 0 (Z.to_nat (zlen S + 22))) 0 = UB)
  /\ (forall dbg, decode dbg mem s (repeat 0 (Z.to_nat (zlen S))) 0 = UB)
  /\ (forall dbg, exists buf', decode dbg mem s (repeat 0 (Z.to_nat (zlen S + 23))) 0 = Ok (buf', zlen S)
        /\ forall i, zlen S <= i < zlen S + 23 -> znth buf' i = Some 7).
Proof.
  destruct (c04_size mem9p 0 S9 valid9 (stored_weaken _ 0 _ _ _ st9p ltac:(lia))) as (s & E & _).
  exists S9, mem9p, 0, s. split; [exact valid9|]. split; [exact st9p|]. split; [exact E|].
  vm_compute in E. injection E as <-.
  split; [intros []; vm_compute; reflexivity|]. split; [intros []; vm_compute; reflexivity|].
  intro dbg. eexists. split; [destruct dbg; vm_compute; reflexivity|].
  change (zlen S9) with 9. intros i Hi.
  assert (H : forallb (fun i => match znth (S9 ++ repeat 7 23) i with Some 7 => true | _ => false end) (zrange 9 23) = true)
    by (vm_compute; reflexivity).
  rewrite forallb_forall in H. specialize (H i).
  assert (I : In i (zrange 9 23)) by (apply In_zrange; lia). specialize (H I).
  change [5; 6; 7; 8; 9; 10; 11; 12; 13; 7; 7; 7; 7; 7; 7; 7; 7; 7; 7; 7; 7; 7; 7; 7; 7; 7; 7; 7; 7; 7; 7; 7]
    with (S9 ++ repeat 7 23).
  destruct (znth (S9 ++ repeat 7 23) i) as [z|]; [|discriminate].
  destruct (Z.eq_dec z 7) as [->|N]; [reflexivity|].
  exfalso. destruct z as [|p|p]; try discriminate. do 3 (destruct p as [p|p|]; try discriminate). now apply N.
Qed.
Lemma c20_intersection_refuted : forall tbl, exists S T mem a b s t x,
  valid S /\ valid T /\ stored 31 mem a S /\ stored 31 mem b T
  /\ seq_at mem a = Ok s /\ seq_at mem b = Ok t /\ zlen x = 1024
  /\ enumerates (fun v => In v S /\ In v T) S
  /\ forall dbg, pairwise_intersection tbl dbg mem s t x (repeat 0 (Z.to_nat (zlen S + 22))) 0 = UB.
Proof.
  intro tbl.
  destruct (c04_size memF9p (zlen encF) S9 valid9 (stored_weaken _ 0 _ _ _ stF9pb ltac:(lia))) as (s & E & _).
  destruct (c04_size memF9p 0 SF validF (stored_weaken _ 0 _ _ _ stF9pa ltac:(lia))) as (t & E' & _).
  exists S9, SF, memF9p, (zlen encF), 0, s, t, (repeat 0 (Z.to_nat 1024)).
  split; [exact valid9|]. split; [exact validF|]. split; [exact stF9pb|]. split; [exact stF9pa|].
  split; [exact E|]. split; [exact E'|]. split; [vm_compute; reflexivity|].
  split.
  { split; [apply valid9|]. intro x. split; [|tauto]. intro H. split; auto.
    unfold S9, SF in *. rewrite In_zrange in *. rewrite Z2Nat.id by lia. lia. }
  vm_compute in E, E'. injection E as <-. injection E' as <-. intros []; vm_compute; reflexivity.
Qed.
Lemma c20_union_refuted : exists S T mem a b s t x y,
  valid S /\ valid T /\ stored 31 mem a S /\ stored 31 mem b T /\ apart a S b T
  /\ seq_at mem a = Ok s /\ seq_at mem b = Ok t /\ zlen x = 4 /\ zlen y = 1024
  /\ (forall v, In v S -> ~ In v T)
  /\ forall dbg, pairwise_union dbg mem s t x y (repeat 0 (Z.to_nat (zlen S + zlen T + 22))) 0 = UB.
Proof.
  destruct (c04_size mem39p (zlen enc3) S9h valid9h (stored_weaken _ 0 _ _ _ st39pb ltac:(lia))) as (s & E & _).
  destruct (c04_size mem39p 0 S3 valid3 (stored_weaken _ 0 _ _ _ st39pa ltac:(lia))) as (t & E' & _).
  exists S9h, S3, mem39p, (zlen enc3), 0, s, t, [0; 0; 0; 0], (repeat 0 (Z.to_nat 1024)).
  split; [exact valid9h|]. split; [exact valid3|]. split; [exact st39pb|]. split; [exact st39pa|].
  split; [right; exists false, enc9h, enc3; split; [exact encoding9h|]; split; [exact encoding3|]; right; vm_compute; discriminate|].
  split; [exact E|]. split; [exact E'|]. do 2 (split; [vm_compute; reflexivity|]).
  split. { intros v H [<-|[]]. unfold S9h in H. apply In_zrange in H. lia. }
  vm_compute in E, E'. injection E as <-. injection E' as <-. intros []; vm_compute; reflexivity.
Qed.

Lemma sorted_NoDup l : StronglySorted Z.lt l -> NoDup l.
Proof.
  induction l as [|x l IH]; intro H; constructor; apply sorted_inv in H as [Hs Hx]; auto.
  intro C. rewrite Forall_forall in Hx. specialize (Hx _ C). lia.
Qed.
Lemma sorted_incl_len l m : StronglySorted Z.lt l -> incl l m -> zlen l <= zlen m.
Proof.
  intros H I. pose proof (NoDup_incl_length (sorted_NoDup l H) I). unfold zlen. lia.
Qed.

(** the many-sequence operations depend on nothing but the encodings *)
Lemma c19_many : forall mem mem' addrs addrs' Ss,
  Ss <> [] -> Forall valid Ss -> Forall2 (stored 0 mem) addrs Ss -> Forall2 (stored 0 mem') addrs' Ss ->
  exists seqs seqs', Forall2 (fun a s => seq_at mem a = Ok s) addrs seqs
    /\ Forall2 (fun a s => seq_at mem' a = Ok s) addrs' seqs'
    /\ (forall dbg headers tmp bitmap out pos q q',
          zlen headers = 65536 -> zlen tmp = 1024 -> zlen bitmap = 1024 ->
          0 <= pos -> pos + zlen (hd [] Ss) <= zlen out ->
          sort_outcome mem seqs q -> sort_outcome mem' seqs' q' ->
          exists out' n,
            (let! (_, _, _, o, k) := intersection_sorted dbg mem q headers tmp bitmap out pos in Ok (o, k)) = Ok (out', n)
            /\ (let! (_, _, _, o, k) := intersection_sorted dbg mem' q' headers tmp bitmap out pos in Ok (o, k)) = Ok (out', n))
    /\ (forall dbg tmp bitmap out pos,
          zlen tmp = 1024 -> zlen bitmap = 1024 ->
          0 <= pos -> pos + total zlen Ss <= zlen out ->
          exists out' n,
            (let! (_, _, o, k) := union_many dbg mem seqs tmp bitmap out pos in Ok (o, k)) = Ok (out', n)
            /\ (let! (_, _, o, k) := union_many dbg mem' seqs' tmp bitmap out pos in Ok (o, k)) = Ok (out', n)).
Proof.
  intros mem mem' addrs addrs' Ss N V St St'.
  destruct (c13_intersection_many mem addrs Ss N V St) as (seqs & e & R & En & _ & I).
  destruct (c13_intersection_many mem' addrs' Ss N V St') as (seqs' & e' & R' & En' & _ & I').
  destruct (c14_union_many mem addrs Ss N V St) as (useqs & u & UR & Un & U).
  destruct (c14_union_many mem' addrs' Ss N V St') as (useqs' & u' & UR' & Un' & U').
  assert (useqs = seqs) by (eapply reads_unique; eauto). subst useqs.
  assert (useqs' = seqs') by (eapply reads_unique; eauto). subst useqs'.
  assert (e' = e) by (eapply enumerates_unique; eauto; tauto). subst e'.
  assert (u' = u) by (eapply enumerates_unique; eauto; tauto). subst u'.
  exists seqs, seqs'. split; auto. split; auto. split.
  - intros dbg headers tmp bitmap out pos q q' H1 H2 H3 H4 H5 Q Q'.
    assert (L : zlen e <= zlen (hd [] Ss)).
    { destruct Ss as [|S Ss]; [congruence|]. cbn [hd]. apply sorted_incl_len; [apply En|].
      intros x Hx. apply (proj1 (proj2 En x) Hx). now left. }
    destruct (I q Q dbg headers tmp bitmap out pos) as (h1 & t1 & b1 & o1 & E1 & _ & _ & _ & W1); auto; try lia.
    destruct (I' q' Q' dbg headers tmp bitmap out pos) as (h2 & t2 & b2 & o2 & E2 & _ & _ & _ & W2); auto; try lia.
    rewrite E1, E2. cbn [bind]. rewrite (wrote_unique _ _ _ _ _ W1 W2). eauto.
  - intros dbg tmp bitmap out pos H1 H2 H3 H4.
    assert (L : zlen u <= total zlen Ss).
    { apply Z.le_trans with (zlen (concat Ss)).
      - apply sorted_incl_len; [apply Un|]. intros x Hx. destruct (proj1 (proj2 Un x) Hx) as (S & HS & HI).
        apply in_concat. eauto.
      - clear. induction Ss as [|S Ss IH]; [reflexivity|]. cbn [concat total fold_right].
        rewrite zlen_app. unfold total in IH. lia. }
    destruct (U dbg tmp bitmap out pos) as (t1 & b1 & o1 & E1 & _ & _ & W1); auto; try lia.
    destruct (U' dbg tmp bitmap out pos) as (t2 & b2 & o2 & E2 & _ & _ & W2); auto; try lia.
    rewrite E1, E2. cbn [bind]. rewrite (wrote_unique _ _ _ _ _ W1 W2). eauto.
Qed.

(** ** C20, positive part *)
Lemma c20_decode : forall dbg mem a S buf pos,
  valid S -> stored 31 mem a S -> 0 <= pos -> pos + zlen S + 23 <= zlen buf ->
  exists s buf', seq_at mem a = Ok s /\ decode dbg mem s buf pos = Ok (buf', zlen S)
    /\ forall i, i < pos \/ pos + zlen S + 23 <= i -> znth buf' i = znth buf i.
Proof.
  intros dbg mem a S buf pos V St Hp Hl. destruct (decode_ok dbg mem a S buf pos V St Hp Hl) as (s & b & E & D & W).
  exists s, b. split; auto. split; auto. intros i. now apply wrote_outside.
Qed.
Lemma c20_intersection : forall tbl dbg mem a b S T x out pos,
  shuffle_table_ok tbl -> valid S -> valid T -> stored 31 mem a S -> stored 31 mem b T ->
  zlen x = 1024 -> 0 <= pos -> pos + Z.min (zlen S) (zlen T) + 23 <= zlen out ->
  exists s t x' out' n, seq_at mem a = Ok s /\ seq_at mem b = Ok t
    /\ pairwise_intersection tbl dbg mem s t x out pos = Ok (x', out', n)
    /\ 0 <= n <= Z.min (zlen S) (zlen T)
    /\ forall i, i < pos \/ pos + n + 23 <= i -> znth out' i = znth out i.
Proof.
  intros tbl dbg mem a b S T x out pos Ht V V' St St' Hx Hp Hl.
  destruct (c11_intersection tbl mem a b S T Ht V V' St St') as (e & [Es En] & I).
  assert (L1 : zlen e <= zlen S) by (apply sorted_incl_len; auto; intros v Hv; now apply En in Hv).
  assert (L2 : zlen e <= zlen T) by (apply sorted_incl_len; auto; intros v Hv; now apply En in Hv).
  destruct (I dbg x out pos Hx Hp ltac:(lia)) as (s & t & x' & out' & E1 & E2 & R & _ & W).
  exists s, t, x', out', (zlen e). pose proof (zlen_nonneg _ e). repeat (split; auto; try lia).
  intros i. now apply wrote_outside.
Qed.
Lemma c20_union : forall dbg mem a b S T x y out pos,
  valid S -> valid T -> stored 31 mem a S -> stored 31 mem b T -> apart a S b T ->
  zlen x = 4 -> zlen y = 1024 -> 0 <= pos -> pos + zlen S + zlen T + 23 <= zlen out ->
  exists s t x' y' out' n, seq_at mem a = Ok s /\ seq_at mem b = Ok t
    /\ pairwise_union dbg mem s t x y out pos = Ok (x', y', out', n)
    /\ 0 <= n <= zlen S + zlen T
    /\ forall i, i < pos \/ pos + n + 23 <= i -> znth out' i = znth out i.
Proof.
  intros dbg mem a b S T x y out pos V V' St St' Ap Hx Hy Hp Hl.
  destruct (c12_union mem a b S T V V' St St' Ap) as (e & [Es En] & I).
  assert (L1 : zlen e <= zlen (S ++ T)).
  { apply sorted_incl_len; auto. intros v Hv. apply En in Hv. apply in_or_app. exact Hv. }
  rewrite zlen_app in L1.
  destruct (I dbg x y out pos Hx Hy Hp ltac:(lia)) as (s & t & x' & y' & out' & E1 & E2 & R & _ & _ & W).
  exists s, t, x', y', out', (zlen e). pose proof (zlen_nonneg _ e). repeat (split; auto; try lia).
  intros i. now apply wrote_outside.
Qed.
