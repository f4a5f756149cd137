(** The property theorems C01 - C09 in the form in which Prop_*.v states them. *)
From Verif Require Import Base Hw Spec Lib L_Bits L_Group Layout M_Util M_Build M_Seq M_Decode
  M_Query M_Uncompress P_Build1 P_Build2 P_Build3 P_Seq P_Decode P_Query P_NextGeq P_Ng P_Enum
  P_Uncompress P_Ex.
From Coq Require Import Lia Sorted.

Lemma c01_build_decode : forall dbg out S,
  valid S ->
  exists stats enc, builder_build dbg out S = (Ok stats, out ++ enc)
    /\ forall dbg' mem a buf pos,
         bytes_at mem a enc -> a + zlen enc + 31 <= zlen mem ->
         0 <= pos -> pos + zlen S + 23 <= zlen buf ->
         exists s buf', seq_at mem a = Ok s
           /\ decode dbg' mem s buf pos = Ok (buf', zlen S)
           /\ wrote 23 buf pos S buf'.
Proof.
  intros dbg out S V. destruct (builder_ok dbg out S V) as (st & m & _ & E & _).
  exists st, (layout (chunks_of S)). split; auto. intros dbg' mem a buf pos B L Hp Hl.
  apply decode_ok; auto.
  destruct (builder_ok dbg [] S V) as (st' & m' & _ & E' & _).
  exists dbg, (layout (chunks_of S)). split; [exists st'; exact E'|]. auto.
Qed.

(** ** C02 *)
Lemma sorted_split_high S :
  sorted S -> filter (fun v => v <? 4294901760) S ++ filter (fun v => 4294901760 <=? v) S = S.
Proof.
  induction S as [|x S IH]; auto. intros [Hs Hx]%sorted_inv. cbn [filter].
  destruct (Z.ltb_spec x 4294901760) as [H|H], (Z.leb_spec 4294901760 x) as [H'|H']; try lia.
  - cbn [app]. now rewrite IH.
  - assert (E : filter (fun v => v <? 4294901760) S = []).
    { rewrite Forall_forall in Hx. destruct (filter _ S) as [|y l] eqn:E; auto.
      assert (In y (filter (fun v => v <? 4294901760) S)) by (rewrite E; cbn; auto).
      apply filter_In in H0 as [H1 H2]. specialize (Hx y H1). apply Z.ltb_lt in H2. lia. }
    rewrite E in *. cbn [app] in *. now rewrite IH.
Qed.

Lemma c02_high_values : forall out S,
  StronglySorted Z.lt S -> Forall is_u32 S -> Exists (fun v => 4294901760 <= v) S ->
  let kept := filter (fun v => v <? 4294901760) S in
  builder_build true out S = (Abort, out)
  /\ (kept <> [] ->
      exists st st' enc, builder_build false out S = (Ok st, out ++ enc)
                         /\ builder_build false [] kept = (Ok st', enc))
  /\ (kept = [] -> exists st, builder_build false out S = (Ok st, out ++ [255; 255])).
Proof.
  intros out S Hs Hu Hx kept.
  assert (Q : filter (fun v => 4294901760 <=? v) S <> []).
  { apply Exists_exists in Hx as (v & Hv & Hh). intro E.
    assert (In v (filter (fun v => 4294901760 <=? v) S)) by (apply filter_In; split; auto; now apply Z.leb_le).
    rewrite E in H. destruct H. }
  destruct (encode_sequence_high S kept (filter (fun v => 4294901760 <=? v) S) stats0 out) as (A & st & R); auto.
  - symmetry. now apply sorted_split_high.
  - now apply sorted_filter.
  - apply Forall_forall. intros v [H1 H2]%filter_In. rewrite Forall_forall in Hu. specialize (Hu v H1).
    unfold is_u32 in Hu. apply Z.ltb_lt in H2. lia.
  - apply Forall_forall. intros v [H1 H2]%filter_In. rewrite Forall_forall in Hu. specialize (Hu v H1).
    unfold is_u32 in Hu. apply Z.leb_le in H2. lia.
  - unfold builder_build, encode_one. rewrite A, R. cbn [bind]. split; auto. split; intro K.
    + destruct (builder_ok false [] kept) as (st' & m & _ & E & _).
      { split; auto. split; [now apply sorted_filter|]. apply Forall_forall. intros v [H1 H2]%filter_In.
        rewrite Forall_forall in Hu. specialize (Hu v H1). unfold is_u32 in Hu. apply Z.ltb_lt in H2. lia. }
      exists (finish_stats st), st', (layout (chunks_of kept)). split.
      * destruct kept; [congruence|reflexivity].
      * unfold builder_build, encode_one in E. exact E.
    + rewrite K. exists (finish_stats st). reflexivity.
Qed.

Lemma znth_ge A (l : list A) i : zlen l <= i -> znth l i = None.
Proof.
  intro H. unfold znth. pose proof (zlen_nonneg _ l). destruct (Z.ltb_spec i 0); [lia|].
  apply nth_error_None. unfold zlen in *. lia.
Qed.
Lemma rd16_past mem a : zlen mem <= a -> rd16 mem a = UB.
Proof. intro H. unfold rd16, rd_le. cbn [rd_bytes]. unfold rd8, vget. now rewrite znth_ge. Qed.

Lemma c02_only_high_unreadable : forall dbg pre out pos,
  let mem := pre ++ [255; 255] in
  exists s, seq_at mem (zlen pre) = Ok s
    /\ cardinality mem s = UB /\ decode dbg mem s out pos = UB.
Proof.
  intros dbg pre out pos mem. pose proof (zlen_nonneg _ pre) as Hp.
  assert (L : zlen mem = zlen pre + 2) by (unfold mem; rewrite zlen_app; reflexivity).
  assert (E : rd16 mem (zlen pre) = Ok 65535).
  { apply (rd16_at mem (zlen pre) 65535); [|lia]. intros i Hi. unfold mem. rewrite znth_app_r by lia.
    f_equal. lia. }
  unfold seq_at. rewrite E. cbn [bind].
  change (1 + 65535) with 65536. change (65536 / associativity * 4 * 2) with 16384.
  change (65536 * 4 * 2) with 524288. change (16384 / 2) with 8192.
  eexists. split; [reflexivity|]. split.
  - unfold cardinality. cbn [s_chunks s_header].
    destruct (Z.to_nat 65536) as [|n] eqn:N; [lia|]. cbn [cardinality_loop].
    rewrite rd16_past by lia. reflexivity.
  - unfold decode. cbn [s_chunks].
    destruct (Z.to_nat 65536) as [|n] eqn:N; [lia|]. cbn [decode_loop].
    unfold decode_chunk, it_id, it_has_next. cbn [seq_begin i_begin i_end i_header s_chunks s_header].
    cbn [Z.ltb Z.compare]. rewrite rd16_past by lia. reflexivity.
Qed.

Lemma c03_duplicates_rejected : forall dbg out S,
  S <> [] -> StronglySorted Z.le S -> ~ NoDup S -> Forall (fun v => 0 <= v < 4294901760) S ->
  builder_build dbg out S = (Throw, out).
Proof.
  intros. unfold builder_build, encode_one. rewrite encode_sequence_dup by auto. reflexivity.
Qed.

Lemma c04_size : forall mem a S,
  valid S -> stored 0 mem a S ->
  exists s, seq_at mem a = Ok s /\ seq_size mem s = Ok (zlen S) /\ cardinality mem s = Ok (zlen S).
Proof.
  intros mem a S V St. destruct (stored_seq 0 mem a S V St) as (s & E & C & I & _); [lia|].
  destruct (valid_chunks S V) as (_ & _ & _ & Sm & Hl). exists s. split; auto.
  unfold seq_size. rewrite (cardinality_ok 0 mem s (chunks_of S)) by (auto; lia). now rewrite Sm.
Qed.

Lemma c05_contains : forall dbg mem a S v,
  valid S -> stored 0 mem a S -> is_u32 v ->
  exists s b, seq_at mem a = Ok s /\ contains dbg mem s v = Ok b /\ (b = true <-> In v S).
Proof.
  intros. destruct (contains_ok dbg mem a S v) as (s & E & C); auto. exists s, (memb S v).
  split; auto. split; auto. apply memb_In.
Qed.

Lemma c06_select : forall dbg mem a S i value,
  valid S -> stored 0 mem a S -> is_u32 i ->
  exists s, seq_at mem a = Ok s
    /\ (forall x, znth S i = Some x -> select dbg mem s i value = Ok (true, x))
    /\ (zlen S <= i -> select dbg mem s i value = Ok (false, value)).
Proof.
  intros. destruct (select_ok dbg mem a S i value) as (s & E & C); auto. exists s. split; auto. split.
  - intros x Hx. now rewrite Hx in C.
  - intro Hi. now rewrite znth_ge in C.
Qed.

Lemma spec_next_geq_spec S v :
  StronglySorted Z.lt S ->
  (In (spec_next_geq S v) S /\ v <= spec_next_geq S v
   /\ forall x, In x S -> v <= x -> spec_next_geq S v <= x)
  \/ (spec_next_geq S v = 4294967295 /\ forall x, In x S -> x < v).
Proof.
  induction S as [|y S IH]; intro H; [right; split; auto; intros x []|].
  apply sorted_inv in H as [Hs Hy]. cbn [spec_next_geq]. rewrite Forall_forall in Hy.
  destruct (Z.leb_spec v y) as [L|L].
  - left. split; [left; auto|]. split; auto. intros x [<-|Hx] _; [lia|]. specialize (Hy x Hx). lia.
  - destruct (IH Hs) as [(H1 & H2 & H3)|(H1 & H2)]; [left|right].
    + split; [right; auto|]. split; auto. intros x [<-|Hx] Hv; [lia|auto].
    + split; auto. intros x [<-|Hx]; auto.
Qed.

Lemma c07_next_geq : forall dbg mem a S v,
  valid S -> stored 0 mem a S -> is_u32 v ->
  exists s r, seq_at mem a = Ok s /\ next_geq dbg mem s v = Ok r
    /\ ((In r S /\ v <= r /\ (forall x, In x S -> v <= x -> r <= x))
        \/ (r = 4294967295 /\ ~ In r S /\ forall x, In x S -> x < v)).
Proof.
  intros dbg mem a S v V St U. destruct (next_geq_ok dbg mem a S v) as (s & E & C); auto.
  exists s, (spec_next_geq S v). split; auto. split; auto. destruct V as (_ & V & R).
  destruct (spec_next_geq_spec S v V) as [H|(H1 & H2)]; auto. right. split; auto. split; auto.
  rewrite H1. intro Hi. rewrite Forall_forall in R. specialize (R _ Hi). lia.
Qed.

Lemma c08_uncompress : forall dbg mem a S out pos,
  valid S -> stored 0 mem a S -> 0 <= pos ->
  (forall v, In v S -> pos + 1024 * (v / 65536 + 1) <= zlen out) ->
  exists s out', seq_at mem a = Ok s /\ uncompress dbg mem s out pos = Ok (out', zlen S)
    /\ zlen out' = zlen out
    /\ (forall i, 0 <= i -> (exists v, In v S /\ v / 65536 = i / 1024) ->
          exists w, znth out' (pos + i) = Some w /\ 0 <= w < 2 ^ 64
            /\ forall j, 0 <= j < 64 -> (Z.testbit w j = true <-> In (64 * i + j) S))
    /\ (forall i, i < 0 \/ (forall v, In v S -> v / 65536 <> i / 1024) ->
          znth out' (pos + i) = znth out (pos + i)).
Proof.
  intros dbg mem a S out pos V St Hp Hl.
  destruct (uncompress_ok dbg mem a S out pos) as (s & out' & E & C & L & H); auto.
  { apply Hl. destruct V as (Hn & _). destruct (exists_last Hn) as (l & x & ->). rewrite last_last.
    apply in_or_app. right. left. auto. }
  exists s, out'. do 3 (split; auto). split; intros i Hi.
  - intros (v & Hv & Ev). specialize (H i).
    replace ((0 <=? i) && existsb (fun v => v / 65536 =? i / 1024) S) with true in H.
    + destruct H as (w & H1 & H2 & H3). exists w. do 2 (split; auto). intros j Hj. rewrite (H3 j Hj).
      apply (memb_In S).
    + symmetry. apply andb_true_intro. split; [lia|]. apply existsb_exists. exists v. split; auto. lia.
  - specialize (H i).
    replace ((0 <=? i) && existsb (fun v => v / 65536 =? i / 1024) S) with false in H; auto.
    symmetry. apply andb_false_iff. destruct Hi as [Hi|Hi]; [left; lia|right].
    destruct (existsb _ S) eqn:X; auto. apply existsb_exists in X as (v & Hv & Ev).
    specialize (Hi v Hv). lia.
Qed.

Lemma c09_enumerator : forall dbg mem a S p buf k,
  valid S -> stored 31 mem a S -> zlen buf = 65536 -> Z.of_nat k < zlen S + 4294967296 ->
  exists s e0 e, seq_at mem a = Ok s
    /\ enum_init dbg mem buf s p = Ok e0 /\ enum_steps k dbg mem e0 = Ok e
    /\ (en_has_next e = true <-> Z.of_nat k < zlen S)
    /\ (forall x, znth S (Z.of_nat k) = Some x -> enum_value e = Ok x)
    /\ (zlen S <= Z.of_nat k -> enum_value e = Ok p).
Proof.
  intros dbg mem a S p buf k V St Hb Hk.
  destruct (enumerator_ok dbg mem a S p buf k) as (s & e0 & e & H1 & H2 & H3 & H4 & H5); auto.
  exists s, e0, e. do 3 (split; auto). rewrite H4. split; [apply Z.ltb_lt|]. split.
  - intros x Hx. now rewrite Hx in H5.
  - intro Hi. now rewrite znth_ge in H5.
Qed.
