(** Results of the pairwise union on sequences of which some chunks are damaged. *)
From Verif Require Import Base Hw Spec Outcome Lib L_Bits L_Group Layout Format Damage Astray M_Util M_Build M_Seq M_Decode
  M_Uncompress M_Intersect M_Union P_Build1 P_Build2 P_Build3 P_Seq P_Decode P_Query P_Uncompress P_Sets P_Inter P_Union
  P_Room P_RoomInter P_RoomUnion P_Damage P_Spoil P_Lands P_Astray.
From Coq Require Import Lia Sorted.

Section Mem.
Variables (dbg : bool) (mem : list Z) (ok : Z -> Prop).
Hypothesis Bytes : Forall is_byte mem.

(** the static arrays keep their length *)
Definition keeps (x : list Z) (z : list Z * list Z * Z) : Prop := zlen (fst (fst z)) = zlen x.
Lemma ds_union_block_zlen l r c b x out pos : okp (ds_union_block mem l r c b x out pos) (keeps x).
Proof.
  unfold ds_union_block. eapply okp_seq; [apply memcpy_outside; now vm_compute|]. intros x1 [L1 _].
  eapply okp_seq; [unfold uncompress_sparse_block; apply sparse_block_outside, Bytes|]. intros x2 [L2 _].
  eapply okp_seq; [apply okp_any|]. intros [o n] _. apply okp_ok. unfold keeps. cbn [fst]. lia.
Qed.
Lemma union_blocks_zlen dl dr cl cr b x out pos : okp (union_blocks dbg mem dl dr cl cr b x out pos) (keeps x).
Proof.
  unfold union_blocks. cbv zeta.
  assert (K : forall y : res (list Z * Z), okp (let! p := y in let '(out, n) := p in Ok (x, out, n)) (keeps x)).
  { intros y. eapply okp_seq; [apply okp_any|]. intros [o n] _. apply okp_ok. reflexivity. }
  destruct (_ =? _); [apply K|]. destruct (_ =? _); [apply ds_union_block_zlen|].
  destruct (_ =? _); [apply ds_union_block_zlen|]. destruct (_ =? _); [apply K|]. intros y E. discriminate.
Qed.
Lemma ss_union_chunk_loop_zlen base end_l end_r : forall fuel l r dl dr x out pos,
  okp (ss_union_chunk_loop fuel dbg mem l r end_l end_r dl dr base x out pos) (fun y => let '(_, _, _, _, x', _, _) := y in
    zlen x' = zlen x).
Proof.
  induction fuel as [|f IH]; intros l r dl dr x out pos; cbn [ss_union_chunk_loop]; [intros y E; discriminate|].
  eapply okp_seq; [apply okp_any|]. intros a _. eapply okp_seq; [apply okp_any|]. intros c _.
  destruct (a <? c); [|destruct (c <? a)].
  - eapply okp_seq; [apply okp_any|]. intros [[[l1 dl1] o] p] _. destruct (_ =? _); [apply okp_ok; reflexivity|apply IH].
  - eapply okp_seq; [apply okp_any|]. intros [[[l1 dl1] o] p] _. destruct (_ =? _); [apply okp_ok; reflexivity|apply IH].
  - eapply okp_seq; [apply okp_any|]. intros c1 _. eapply okp_seq; [apply okp_any|]. intros c2 _. cbv zeta.
    eapply okp_seq; [apply union_blocks_zlen|]. intros [[x1 o] n] X1. unfold keeps in X1. cbn [fst] in X1.
    destruct (_ || _); [apply okp_ok; exact X1|]. eapply okp_mono; [apply IH|].
    intros [[[[[[? ?] ?] ?] x'] o'] p'] Y. congruence.
Qed.
Lemma ss_union_chunk_zlen l r bl br base x out pos : okp (ss_union_chunk dbg mem l r bl br base x out pos) (keeps x).
Proof.
  unfold ss_union_chunk. eapply okp_seq; [apply okp_any|]. intros _ _. eapply okp_seq; [apply okp_any|]. intros _ _.
  cbv zeta. eapply okp_seq; [apply ss_union_chunk_loop_zlen|]. intros [[[[[[l1 r1] dl] dr] x1] o1] p1] X1.
  eapply okp_seq; [apply okp_any|]. intros [o2 p2] _. eapply okp_seq; [apply okp_any|]. intros [o3 p3] _.
  apply okp_ok. exact X1.
Qed.
Lemma ds_union_chunk_zlen l r b base y out pos : okp (ds_union_chunk dbg mem l r b base y out pos) (keeps y).
Proof.
  unfold ds_union_chunk. cbv zeta. eapply okp_seq; [apply sparse_chunk_zlen, Bytes|]. intros x' Hx. cbn beta in Hx.
  eapply okp_seq; [apply okp_any|]. intros [o n] _. apply okp_ok. unfold keeps. cbn [fst]. rewrite Hx. unfold zlen. now rewrite repeat_length.
Qed.
Lemma union_chunks_zlen itl itr base x y out pos :
  okp (union_chunks dbg mem itl itr base x y out pos) (fun z => let '(x', y', _, _) := z in zlen x' = zlen x /\ zlen y' = zlen y).
Proof.
  unfold union_chunks. cbv zeta.
  set (P := fun z : list Z * list Z * list Z * Z => let '(x', y', _, _) := z in zlen x' = zlen x /\ zlen y' = zlen y).
  assert (K : forall z : res (list Z * Z), okp (let! p := z in let '(out, n) := p in Ok (x, y, out, n)) P).
  { intros z. eapply okp_seq; [apply okp_any|]. intros [o n] _. apply okp_ok. split; auto. }
  assert (KX : forall z : res (list Z * list Z * Z), okp z (keeps y) ->
    okp (let! p := z in let '(y, out, n) := p in Ok (x, y, out, n)) P).
  { intros z Hz. eapply okp_seq; [exact Hz|]. intros [[y' o] n] L. apply okp_ok. split; auto. }
  assert (KY : forall z : res (list Z * list Z * Z), okp z (keeps x) ->
    okp (let! p := z in let '(x, out, n) := p in Ok (x, y, out, n)) P).
  { intros z Hz. eapply okp_seq; [exact Hz|]. intros [[x' o] n] L. apply okp_ok. split; auto. }
  eapply okp_seq; [apply okp_any|]. intros tl _. eapply okp_seq; [apply okp_any|]. intros tr _.
  assert (NB : forall it (f : Z -> res (list Z * list Z * list Z * Z)), (forall b, okp (f b) P) -> okp (bind (it_blocks mem it) f) P).
  { intros it f Hf. eapply okp_seq; [apply okp_any|]. intros b _. apply Hf. }
  destruct (_ =? _). { apply NB. intro. apply NB. intro. destruct (_ <? _); apply KY, ss_union_chunk_zlen. }
  destruct (_ =? _). { apply NB. intro. apply KX, ds_union_chunk_zlen. }
  destruct (_ =? _); [apply K|].
  destruct (_ =? _). { apply NB. intro. apply KX, ds_union_chunk_zlen. }
  do 5 (destruct (_ =? _); [apply K|]). intros z E. discriminate.
Qed.

Lemma part_step it id c cs : part_view 0 ok mem it ((id, c) :: cs) ->
  exists it', it_next mem it = Ok it' /\ part_view 0 ok mem it' cs /\ i_data it' = i_data it + zlen (chunk_data c).
Proof.
  intro V. destruct (part_next _ _ _ _ _ _ _ V) as (it' & E & V').
  destruct (id_view_next _ _ _ _ _ (proj1 V)) as (it2 & E2 & _ & _ & _ & D & _). rewrite E in E2. apply Ok_val in E2. subst it2.
  exists it'. auto.
Qed.
Lemma zlen_cdatas_cons id c cs : zlen (cdatas ((id, c) :: cs)) = zlen (chunk_data c) + zlen (cdatas cs).
Proof. rewrite cdatas_cons, zlen_app. reflexivity. Qed.

Lemma union_chunks_got same itl itr i a b A B x y out pos :
  part_view 0 ok mem itl ((i, a) :: A) -> part_view 0 ok mem itr ((i, b) :: B) ->
  sepb same ((i, a) :: A) ((i, b) :: B) (i_data itl) (zlen (cdatas ((i, a) :: A))) (i_data itr) (zlen (cdatas ((i, b) :: B))) ->
  Forall w64 x -> zlen x = 4 -> zlen y = 1024 -> 0 <= pos <= zlen out ->
  okp (union_chunks dbg mem itl itr (i * 65536) x y out pos) (fun r => let '(x', y', o, n) := r in
    Forall w64 x' /\ zlen x' = 4 /\ zlen y' = 1024 /\ got (ok i) i (uni a b) out pos o (u32 n)).
Proof.
  intros Va Vb Hs HX Hx Hy Hp [[[x' y'] o] n] E. destruct (chunk_base _ _ _ _ _ (proj1 Va)) as (_ & _ & Hi).
  pose proof (union_chunks_zlen _ _ _ _ _ _ _ _ E) as [L1 L2]. cbn beta iota in L1, L2.
  pose proof (union_chunks_lands dbg mem Bytes itl itr (i * 65536) x y out pos HX ltac:(lia) ltac:(lia) _ E) as [L3 L4].
  split; auto. split; [lia|]. split; [lia|].
  apply got_lands; [lia|apply lands_u32; exact L4|].
  intro Ho. pose proof (part_one _ _ _ _ _ _ _ Va Ho ltac:(lia)) as Va0. pose proof (part_one _ _ _ _ _ _ _ Vb Ho ltac:(lia)) as Vb0.
  change (union_chunks dbg mem itl itr (i * 65536) x y out pos) with (union_chunks dbg mem (one itl) (one itr) (i * 65536) x y out pos) in E.
  destruct (union_chunks_room same dbg mem (one itl) (one itr) i i a b [] [] (i * 65536) x y out pos Va0 Vb0) as (x1 & y1 & _ & _ & R); try lia.
  { unfold sepb in *. cbn [one i_data]. rewrite !zlen_cdatas_cons in *. change (zlen (cdatas [])) with 0. zpos.
    destruct same; [|lia]. destruct Hs as [Hs Es]. injection Hs as -> ->. auto. }
  destruct R as [(_ & _ & o1 & Eo & W)|(_ & Eo)]; rewrite Eo in E; [|discriminate].
  apply Ok_val in E. injection E as <- <- <- <-.
  pose proof (id_view_wf _ _ _ _ (proj1 Va)) as Wa0. pose proof (id_view_wf _ _ _ _ (proj1 Vb)) as Wb.
  assert (zlen (uni a b) <= 65536).
  { rewrite <- (Z2Nat.id 65536) by lia. apply sorted_zlen_le.
    - apply sorted_uni; [apply Wa0|apply Wb].
    - destruct Wa0 as (_ & _ & _ & R1). destruct Wb as (_ & _ & _ & R2). cbn [snd] in *.
      rewrite Z2Nat.id by lia. apply Forall_uni; auto. }
  pose proof (zlen_nonneg _ (uni a b)). rewrite u32_id by lia. split; [reflexivity|exact (proj1 (proj2 W))].
Qed.

Lemma ranged_cons id c gs : Forall (fun x => 0 <= x < 65536) c -> ranged gs -> ranged ((id, c) :: gs).
Proof. intros. constructor; auto. Qed.

(** the chunks of a union: those already delivered, and what is left of the operands *)
Definition unites (A B gs A' B' : list (Z * list Z)) : Prop :=
  (A' = [] \/ B' = []) /\ sorted (map fst (gs ++ A' ++ B')) /\ ranged (gs ++ A' ++ B')
  /\ (forall h, In h (map fst (gs ++ A' ++ B')) -> In h (map fst A) \/ In h (map fst B))
  /\ ungroup 65536 (gs ++ A' ++ B') = uni (ungroup 65536 A) (ungroup 65536 B).
Lemma unites_nil A B : wfc A -> wfc B -> A = [] \/ B = [] -> unites A B [] A B.
Proof.
  intros WA WB D. split; auto. cbn [app]. destruct D as [-> | ->].
  - cbn [app ungroup flat_map]. rewrite uni_nil_l. split; [apply WB|]. split; [now apply wfc_ranged|]. auto.
  - rewrite app_nil_r. cbn [ungroup flat_map]. rewrite uni_nil_r. split; [apply WA|]. split; [now apply wfc_ranged|]. auto.
Qed.
Lemma unites_cons i c A0 B0 A B gs A' B' : unites A B gs A' B' -> Forall (fun x => 0 <= x < 65536) c ->
  (forall h, In h (map fst A) \/ In h (map fst B) -> i < h) ->
  incl (map fst A) (map fst A0) -> incl (map fst B) (map fst B0) -> In i (map fst A0) \/ In i (map fst B0) ->
  uni (ungroup 65536 A0) (ungroup 65536 B0) = ungroup1 65536 (i, c) ++ uni (ungroup 65536 A) (ungroup 65536 B) ->
  unites A0 B0 ((i, c) :: gs) A' B'.
Proof.
  intros (D & S & R & I & U) Hc Hl IA IB Hi E. split; auto. cbn [app map fst]. split; [|split; [|split]].
  - constructor; auto. apply Forall_forall. intros h Hh. apply Hl. auto.
  - constructor; auto.
  - intros h [<-|Hh]; auto. destruct (I h Hh); auto.
  - now rewrite ungroup_cons, U, E.
Qed.

Lemma fst_above i c A : wfc ((i, c) :: A) -> forall h, In h (map fst A) -> i < h.
Proof. intros W h H. apply wf_cons in W as (_ & _ & F). rewrite Forall_forall in F. apply in_map_iff in H as (g & <- & Hg). exact (F g Hg). Qed.

Lemma union_loop_gone same : forall fuel A B itl itr x y out pos,
  (length A + length B <= fuel)%nat -> A <> [] -> B <> [] ->
  part_view 0 ok mem itl A -> part_view 0 ok mem itr B ->
  sepb same A B (i_data itl) (zlen (cdatas A)) (i_data itr) (zlen (cdatas B)) ->
  Forall w64 x -> zlen x = 4 -> zlen y = 1024 -> 0 <= pos <= zlen out ->
  okp (pairwise_union_loop fuel dbg mem itl itr x y out pos) (fun r => let '(itl', itr', x', y', o, p) := r in
    exists gs A' B', gone ok gs out pos o p /\ part_view 0 ok mem itl' A' /\ part_view 0 ok mem itr' B' /\ unites A B gs A' B').
Proof.
  assert (Hk : 0 < 65536) by lia.
  induction fuel as [|f IH]; intros A B itl itr x y out pos Hf NA NB Va Vb Hs HX Hx Hy Hp.
  { destruct A; [congruence|]. cbn [length] in Hf. lia. }
  destruct A as [|[i a] A]; [congruence|]. destruct B as [|[j b] B]; [congruence|].
  cbn [length] in Hf. cbn [pairwise_union_loop].
  pose proof (proj1 (proj1 Va)) as WA. pose proof (proj1 (proj1 Vb)) as WB.
  pose proof (id_view_wf _ _ _ _ (proj1 Va)) as Wa. pose proof (id_view_wf _ _ _ _ (proj1 Vb)) as Wb.
  destruct (chunk_base _ _ _ _ _ (proj1 Va)) as (Ei & Ebi & Hi).
  destruct (chunk_base _ _ _ _ _ (proj1 Vb)) as (Ej & Ebj & Hj).
  rewrite Ei, Ej. cbn [bind]. rewrite !u16_id by lia.
  destruct (part_step _ _ _ _ Va) as (itl1 & NXa & Va1 & Da). destruct (part_step _ _ _ _ Vb) as (itr1 & NXb & Vb1 & Db).
  pose proof (id_view_has_next _ _ _ (proj1 Va1)) as HNa. pose proof (id_view_has_next _ _ _ (proj1 Vb1)) as HNb.
  pose proof (proj1 (proj1 Va1)) as WA1. pose proof (proj1 (proj1 Vb1)) as WB1.
  pose proof (fst_above _ _ _ WA) as UA. pose proof (fst_above _ _ _ WB) as UB.
  assert (RA : Forall (fun x => 0 <= x < 65536) a) by apply Wa. assert (RB : Forall (fun x => 0 <= x < 65536) b) by apply Wb.
  destruct (Z.eqb_spec i j) as [E|E]; [|destruct (Z.ltb_spec i j)].
  - subst j. rewrite Ebi.
    eapply okp_seq; [eapply union_chunks_got; eauto|]. intros [[[x1 y1] o1] n1] (HX1 & Hx1 & Hy1 & G).
    rewrite NXa. cbn [bind]. rewrite NXb. cbn [bind]. rewrite HNa, HNb.
    assert (STEP : forall gs A' B', unites A B gs A' B' -> unites ((i, a) :: A) ((i, b) :: B) ((i, uni a b) :: gs) A' B').
    { intros gs A' B' U. eapply unites_cons; [exact U|now apply Forall_uni| | | |left; now left|].
      - intros h [Hh|Hh]; auto.
      - cbn [map]. intros h Hh. now right.
      - cbn [map]. intros h Hh. now right.
      - now apply (uni_groups_eq 65536 65535 Hk i i a b A B). }
    assert (STOP : A = [] \/ B = [] -> okp (Ok (itl1, itr1, x1, y1, o1, pos + u32 n1)) (fun r => let '(itl', itr', x', y', o, p) := r in
      exists gs A' B', gone ok gs out pos o p /\ part_view 0 ok mem itl' A' /\ part_view 0 ok mem itr' B'
        /\ unites ((i, a) :: A) ((i, b) :: B) gs A' B')).
    { intro D. apply okp_ok. exists [(i, uni a b)], A, B. split; [eapply gone_cons; [exact G|apply gone_nil]|]. do 2 (split; auto).
      apply STEP, unites_nil; auto. }
    destruct A as [|ca A]; [cbn [negb orb]; apply STOP; auto|].
    destruct B as [|cb B]; [cbn [negb orb]; apply STOP; auto|].
    cbn [negb orb]. eapply okp_mono; [apply (IH (ca :: A) (cb :: B)); auto; try discriminate|].
    + cbn [length] in *; lia.
    + unfold sepb in Hs |- *. rewrite !zlen_cdatas_cons in Hs. zpos. destruct same; [|lia].
      destruct Hs as [Hs Es]. injection Hs as -> -> ->. split; auto. lia.
    + eapply got_room; eauto.
    + intros [[[[[itl2 itr2] x2] y2] o2] p2] (gs & A' & B' & G2 & VA' & VB' & U). exists ((i, uni a b) :: gs), A', B'.
      split; [eapply gone_cons; eauto|]. auto.
  - assert (same = false) as ->. { destruct same; auto. destruct Hs as [Hs _]. congruence. }
    eapply okp_seq; [eapply decode_chunk_got; eauto|]. intros [o1 n1] G. cbn [fst snd] in G.
    rewrite NXa. cbn [bind]. rewrite HNa.
    assert (STEP : forall gs A' B', unites A ((j, b) :: B) gs A' B' -> unites ((i, a) :: A) ((j, b) :: B) ((i, a) :: gs) A' B').
    { intros gs A' B' U. eapply unites_cons; [exact U|auto| | |apply incl_refl|left; now left|].
      - intros h [Hh|[Hh|Hh]]; auto; [cbn [fst] in Hh; lia|]. specialize (UB h Hh). lia.
      - cbn [map]. intros h Hh. now right.
      - now apply (uni_groups_lt 65536 65535 Hk i j a b A B). }
    destruct A as [|ca A]; cbn [negb orb].
    + apply okp_ok. exists [(i, a)], [], ((j, b) :: B). split; [eapply gone_cons; [exact G|apply gone_nil]|]. do 2 (split; auto).
      apply STEP, unites_nil; auto.
    + eapply okp_mono; [apply (IH (ca :: A) ((j, b) :: B)); auto; try discriminate|].
      * cbn [length] in *; lia.
      * unfold sepb in Hs |- *. rewrite !zlen_cdatas_cons in *. zpos. lia.
      * eapply got_room; eauto.
      * intros [[[[[itl2 itr2] x2] y2] o2] p2] (gs & A' & B' & G2 & VA' & VB' & U). exists ((i, a) :: gs), A', B'.
        split; [eapply gone_cons; eauto|]. auto.
  - assert (same = false) as ->. { destruct same; auto. destruct Hs as [Hs _]. congruence. }
    eapply okp_seq; [eapply decode_chunk_got; eauto|]. intros [o1 n1] G. cbn [fst snd] in G.
    rewrite NXb. cbn [bind]. rewrite HNb.
    assert (STEP : forall gs A' B', unites ((i, a) :: A) B gs A' B' -> unites ((i, a) :: A) ((j, b) :: B) ((j, b) :: gs) A' B').
    { intros gs A' B' U. eapply unites_cons; [exact U|auto| |apply incl_refl| |right; now left|].
      - intros h [[Hh|Hh]|Hh]; auto; [cbn [fst] in Hh; lia|]. specialize (UA h Hh). lia.
      - cbn [map]. intros h Hh. now right.
      - assert (SA : sorted (ungroup 65536 ((i, a) :: A))) by (apply (sorted_ungroup 65536 65535); auto).
        assert (SB : sorted (ungroup 65536 ((j, b) :: B))) by (apply (sorted_ungroup 65536 65535); auto).
        assert (SB1 : sorted (ungroup 65536 B)) by (apply (sorted_ungroup 65536 65535); auto).
        rewrite (uni_comm (ungroup 65536 ((i, a) :: A))) by auto.
        rewrite (uni_comm (ungroup 65536 ((i, a) :: A)) (ungroup 65536 B)) by auto.
        apply (uni_groups_lt 65536 65535 Hk j i b a B A); auto. lia. }
    destruct B as [|cb B]; cbn [negb orb].
    + apply okp_ok. exists [(j, b)], ((i, a) :: A), []. split; [eapply gone_cons; [exact G|apply gone_nil]|]. do 2 (split; auto).
      apply STEP, unites_nil; auto.
    + eapply okp_mono; [apply (IH ((i, a) :: A) (cb :: B)); auto; try discriminate|].
      * cbn [length] in *; lia.
      * unfold sepb in Hs |- *. rewrite !zlen_cdatas_cons in *. zpos. lia.
      * eapply got_room; eauto.
      * intros [[[[[itl2 itr2] x2] y2] o2] p2] (gs & A' & B' & G2 & VA' & VB' & U). exists ((j, b) :: gs), A', B'.
        split; [eapply gone_cons; eauto|]. auto.
Qed.
End Mem.

(** where the data of a sequence with an intact head lie *)
Lemma intact_data slack ok mem a S s : valid S -> intact slack ok mem a S -> seq_at mem a = Ok s ->
  a < i_data (seq_begin s) /\ i_data (seq_begin s) + zlen (cdatas (chunks_of S)) = a + zlen (layout (chunks_of S)).
Proof.
  intros H (dbg & enc & E & B & L) Es. apply encoding_layout in E; auto. subst enc.
  destruct (valid_chunks S H) as (W & N & _). pose proof (zlen_ids_chunks S H) as HI. set (cs := chunks_of S) in *.
  pose proof (chunks_le _ W) as Hn. pose proof (zlen_layout cs) as HL.
  assert (H1 : 0 < zlen cs) by (destruct cs; [easy|zl]).
  assert (HH : head_size S = 2 + 8 * (zlen cs / 32) + 8 * zlen cs) by (unfold head_size; rewrite HI; reflexivity).
  assert (B0 : bytes_at mem a (le_bytes 2 (zlen cs - 1))).
  { intros i Hi. rewrite zlen_le_bytes in Hi. rewrite B by (left; unfold in_head; lia). unfold layout.
    rewrite znth_app_l; [reflexivity|]. rewrite zlen_le_bytes. lia. }
  unfold seq_at in Es. rewrite (rd16_at mem a (zlen cs - 1)) in Es by (auto; lia). cbn [bind] in Es.
  replace (1 + (zlen cs - 1)) with (zlen cs) in Es by lia. change M_Util.associativity with 32 in Es.
  injection Es as <-. unfold seq_begin. cbn [i_data s_data]. rewrite HL. lia.
Qed.

Lemma c60_union : forall dbg mem a b S T ok s t x y out pos x' y' out' n I,
  valid S -> valid T -> Forall is_byte mem -> intact 0 ok mem a S -> intact 0 ok mem b T ->
  apart a S b T -> (a = b -> S = T) -> seq_at mem a = Ok s -> seq_at mem b = Ok t ->
  zlen x = 4 -> Forall is_word x -> zlen y = 1024 -> 0 <= pos <= zlen out ->
  pairwise_union dbg mem s t x y out pos = Ok (x', y', out', n) ->
  enumerates (fun v => In v S \/ In v T) I ->
  exists e, delivered out pos out' n e /\ agrees_on (fun h => has_chunk S h \/ has_chunk T h) ok I e.
Proof.
  intros dbg mem a b S T ok s t x y out pos x' y' out' n I HS HT Hb IS IT Hap Hst Es Et Hx HX Hy Hp E En.
  destruct (intact_seq _ _ mem a S HS IS ltac:(lia)) as (s' & Es' & _ & Vs & _). rewrite Es in Es'. apply Ok_val in Es'. subst s'.
  destruct (intact_seq _ _ mem b T HT IT ltac:(lia)) as (t' & Et' & _ & Vt & _). rewrite Et in Et'. apply Ok_val in Et'. subst t'.
  destruct (valid_chunks S HS) as (WS & NS & US & _). destruct (valid_chunks T HT) as (WT & NT & UT & _).
  destruct (intact_data _ _ _ _ _ _ HS IS Es) as [DS1 DS2]. destruct (intact_data _ _ _ _ _ _ HT IT Et) as [DT1 DT2].
  assert (exists same, sepb same (chunks_of S) (chunks_of T) (i_data (seq_begin s)) (zlen (cdatas (chunks_of S)))
    (i_data (seq_begin t)) (zlen (cdatas (chunks_of T)))) as (same & Hs).
  { destruct Hap as [Eab|(d & eS & eT & ES & ET & Hap)].
    - exists true. cbn [sepb]. specialize (Hst Eab). subst T b. split; auto. congruence.
    - exists false. cbn [sepb]. apply encoding_layout in ES, ET; auto. subst eS eT. destruct Hap; [left|right]; lia. }
  unfold pairwise_union in E.
  destruct (pairwise_union_loop _ dbg mem (seq_begin s) (seq_begin t) x y out pos) as [[[[[[itl itr] x1] y1] o1] p1]| | | |] eqn:EL;
    cbn [bind] in E; try discriminate.
  pose proof (union_loop_gone dbg mem ok Hb same (it_fuel (seq_begin s) + it_fuel (seq_begin t))
    (chunks_of S) (chunks_of T) (seq_begin s) (seq_begin t) x y out pos) as G.
  specialize (G ltac:(pose proof (it_fuel_ok _ _ _ (proj1 Vs)); pose proof (it_fuel_ok _ _ _ (proj1 Vt)); lia) NS NT Vs Vt Hs HX Hx Hy Hp _ EL).
  cbn beta iota in G. destruct G as (gs & A' & B' & G1 & VA & VB & (_ & SG & RG & IG & UG)). rewrite US, UT in UG.
  pose proof (gone_room _ _ _ _ _ _ G1 Hp) as P1.
  destruct (decode_rest_loop (it_fuel itl) dbg mem itl o1 p1) as [[o2 p2]| | | |] eqn:E2; cbn [bind] in E; try discriminate.
  pose proof (decode_rest_gone dbg mem ok Hb A' (it_fuel itl) itl o1 p1 ltac:(eapply it_fuel_ok; apply VA) VA P1 _ E2) as G2. cbn [fst snd] in G2.
  pose proof (gone_room _ _ _ _ _ _ G2 P1) as P2.
  destruct (decode_rest_loop (it_fuel itr) dbg mem itr o2 p2) as [[o3 p3]| | | |] eqn:E3; cbn [bind] in E; try discriminate.
  pose proof (decode_rest_gone dbg mem ok Hb B' (it_fuel itr) itr o2 p2 ltac:(eapply it_fuel_ok; apply VB) VB P2 _ E3) as G3. cbn [fst snd] in G3.
  injection E as <- <- <- <-.
  pose proof (gone_app _ _ _ _ _ _ _ _ _ G1 (gone_app _ _ _ _ _ _ _ _ _ G2 G3)) as G.
  assert (I = uni S T) as ->.
  { eapply enumerates_unique; [exact En|]. split; [apply sorted_uni; [apply HS|apply HT]|]. intro. apply In_uni. }
  eapply gone_delivered; [exact SG|exact RG| |exact UG|exact G].
  intros h Hh. destruct (IG h Hh); [left|right]; now apply has_chunk_fst.
Qed.
