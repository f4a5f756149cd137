(** The pairwise operations on sequences with arbitrary data are defined. *)
From Verif Require Import Base Hw Spec Outcome Lib L_Bits L_Group Layout Format Damage M_Util M_Build M_Seq M_Decode M_Uncompress
  M_Intersect M_Union P_Build1 P_Build2 P_Build3 P_Seq P_Decode P_Uncompress P_Query P_Enum P_Format P_Fin1 P_Total P_Reads
  P_Inter P_Damage P_Damage2 P_Cut P_Spoil P_Spoil2 P_Lands P_Astray P_Astray2 P_Safe.
From Coq Require Import Lia.

Section Mem.
Variables (dbg : bool) (mem : list Z).
Hypothesis Hb : Forall is_byte mem.

(** ** blocks *)
Lemma ss_union_loop_fin base pos : forall fuel l end_l r end_r out size,
  l < end_l -> r < end_r -> (end_l - l) + (end_r - r) <= Z.of_nat fuel + 1 -> 0 <= l -> 0 <= r -> end_l <= zlen mem -> end_r <= zlen mem ->
  0 <= pos + size -> pos + size + (end_l - l) + (end_r - r) <= zlen out ->
  fin (ss_union_block_loop fuel mem l r end_l end_r base out pos size) (fun '(o, s, l', r') =>
    zlen o = zlen out /\ l <= l' <= end_l /\ r <= r' <= end_r /\ size <= s /\ s + (end_l - l') + (end_r - r') <= size + (end_l - l) + (end_r - r)).
Proof.
  induction fuel as [|f IH]; intros l end_l r end_r out size L R F L0 R0 L1 R1 P0 P1; [lia|]. cbn [ss_union_block_loop].
  eapply fin_seq; [apply (rd8_fin mem Hb); lia|]. intros a _. eapply fin_seq; [apply (rd8_fin mem Hb); lia|]. intros b _.
  destruct (a <? b); [|destruct (b <? a)]; (eapply fin_seq; [apply vset_fin; lia|]); intros o Lo; cbn beta in Lo.
  - destruct (Z.eqb_spec (l + 1) end_l); [apply fin_ok; lia|]. eapply fin_mono; [apply IH; lia|]. intros [[[o' s] l'] r'] Y. lia.
  - destruct (Z.eqb_spec (r + 1) end_r); [apply fin_ok; lia|]. eapply fin_mono; [apply IH; lia|]. intros [[[o' s] l'] r'] Y. lia.
  - destruct (Z.eqb_spec (l + 1) end_l); [apply fin_ok; lia|]. destruct (Z.eqb_spec (r + 1) end_r); [apply fin_ok; lia|].
    cbn [orb]. eapply fin_mono; [apply IH; lia|]. intros [[[o' s] l'] r'] Y. lia.
Qed.
Lemma tail_fin a c b out pos : 0 <= a -> a + 16 <= zlen mem -> (8 < c -> a + 40 <= zlen mem) -> 0 <= pos -> pos + 32 <= zlen out ->
  fin (decode_sparse_block mem a c b out pos) (fun r => zlen (fst r) = zlen out /\ snd r = c).
Proof.
  intros A0 A1 A2 P0 P1. destruct (Z_le_gt_dec c 8) as [C|C].
  - unfold decode_sparse_block. eapply fin_seq; [apply (decode_step_fin mem Hb); lia|]. intros o Lo. cbn beta in Lo.
    destruct (Z.leb_spec c 8); [|lia]. apply fin_ok. auto.
  - apply (decode_sparse_block_fin mem Hb); lia.
Qed.
Lemma ss_union_block_fin l r cl cr b out pos : 1 <= cl <= 30 -> 1 <= cr <= 30 ->
  0 <= l -> 0 <= r -> l + 61 <= zlen mem -> r + 61 <= zlen mem -> 0 <= pos -> pos + 256 <= zlen out ->
  fin (ss_union_block dbg mem l r cl cr b out pos) (fun x => zlen (fst x) = zlen out /\ 0 <= snd x <= 256).
Proof.
  intros Hl Hr L0 R0 L1 R1 P0 P1. unfold ss_union_block. rewrite !cards_ok by auto. cbn [bind]. cbv zeta.
  eapply fin_seq; [apply ss_union_loop_fin; lia|]. intros [[[o s] l'] r'] (Lo & Hl' & Hr' & S0 & S1).
  apply fin_seq with (P := fun x => zlen (fst x) = zlen out /\ 0 <= snd x <= 60 /\ snd x + (r + cr - r') <= 60).
  { destruct (negb (l' =? l + cl)); [|apply fin_ok; cbn [fst snd]; lia].
    eapply fin_seq; [apply tail_fin; lia|]. intros [o2 n] [L2 N]. cbn [fst snd] in *. apply fin_ok. cbn [fst snd]. lia. }
  intros [o2 s2] (L2 & S2 & S3). cbn [fst snd] in *. destruct (negb (r' =? l + cl)); [|apply fin_ok; cbn [fst snd]; lia].
  eapply fin_seq; [apply tail_fin; lia|]. intros [o3 n] [L3 N]. cbn [fst snd] in *. apply fin_ok. cbn [fst snd]. lia.
Qed.
Definition four (x : list Z) : Prop := zlen x = 4 /\ Forall w64 x.
Lemma ds_union_block_fin l r c b x out pos : 1 <= c <= 30 -> four x ->
  0 <= l -> 0 <= r -> l + 32 <= zlen mem -> r + 32 <= zlen mem -> 0 <= pos -> pos + 256 <= zlen out ->
  fin (ds_union_block mem l r c b x out pos) (fun '(x', o, n) => four x' /\ zlen o = zlen out /\ 0 <= n <= 256).
Proof.
  intros Hc [X4 XW] L0 R0 L1 R1 P0 P1. unfold ds_union_block. change (block_size / 8 / 8) with 4.
  eapply fin_seq; [apply (fin_wp dbg); [apply (memcpy_fin mem Hb l 4); lia|now apply memcpy_words_wp]|]. intros x1 [L W1]. cbn beta in L.
  eapply fin_seq; [apply (fin_wp dbg); [|apply uncompress_sparse_block_wp; auto; lia]|].
  { unfold uncompress_sparse_block. apply (sparse_block_fin mem Hb); lia. }
  intros x2 [L2 W2]. cbn beta in L2. change block_size_in_64bit_words with 4.
  eapply fin_seq; [apply (or_fin _ _ 4); try lia|].
  - intros i Hi. apply fin_mem; auto; lia.
  - intros i Hi. apply fin_vec; auto; lia.
  - intros [o n] [Lo N]. cbn [fst snd] in *. apply fin_ok. split; [split; [lia|auto]|]. lia.
Qed.
Lemma union_blocks_fin dl dr cl cr b x out pos : 1 <= cl <= 256 -> 1 <= cr <= 256 -> four x ->
  0 <= dl -> 0 <= dr -> dl + 61 <= zlen mem -> dr + 61 <= zlen mem -> 0 <= pos -> pos + 256 <= zlen out ->
  fin (union_blocks dbg mem dl dr cl cr b x out pos) (fun '(x', o, n) => four x' /\ zlen o = zlen out /\ 0 <= n <= 256).
Proof.
  intros Hl Hr X L0 R0 L1 R1 P0 P1. unfold union_blocks. cbv zeta.
  assert (KP : forall y : res (list Z * Z), fin y (fun x => zlen (fst x) = zlen out /\ 0 <= snd x <= 256) ->
    fin (let! (out, n) := y in Ok (x, out, n)) (fun '(x', o, n) => four x' /\ zlen o = zlen out /\ 0 <= n <= 256)).
  { intros y Y. eapply fin_seq; [exact Y|]. intros [o n] [Lo N]. cbn [fst snd] in *. now apply fin_ok. }
  destruct (block_cases cl Hl) as [[Cl ->]|[Cl ->]], (block_cases cr Hr) as [[Cr ->]|[Cr ->]];
    cbn [block_pair t_sparse t_dense Z.eqb Pos.eqb Z.mul Pos.mul Z.add Pos.add Pos.succ].
  - apply KP, ss_union_block_fin; lia.
  - apply ds_union_block_fin; auto; lia.
  - apply ds_union_block_fin; auto; lia.
  - apply KP. change block_size_in_64bit_words with 4. change 256 with (64 * 4). apply or_fin; try lia; intros i Hi; apply fin_mem; auto; lia.
Qed.
Definition fits' (p d : Z) (k : nat) : Prop := 0 <= p /\ p + 2 * Z.of_nat k <= zlen mem /\ 0 <= d /\ d + 32 * Z.of_nat k + 29 <= zlen mem.
Lemma fits_next' p d k c : fits' p d (S k) -> 1 <= c -> fits' (p + 2) (d + bytes_by_cardinality c) k.
Proof. intros (A & B & C & D) H. pose proof (bytes_at_most c H). unfold fits'. lia. Qed.
Lemma DECODE_fin p d k base out pos : fits' p d (S k) -> 0 <= pos -> pos + 256 <= zlen out ->
  fin (DECODE mem p d base out pos) (fun '(p', d', o, pos') => p' = p + 2 /\ fits' p' d' k /\ zlen o = zlen out /\ pos <= pos' <= pos + 256).
Proof.
  intros F P0 P1. pose proof F as (F1 & F2 & F3 & F4). unfold DECODE.
  eapply fin_seq; [apply (rd8_fin mem Hb); lia|]. intros id _. eapply fin_seq; [apply (rd8_fin mem Hb); lia|]. intros c Hc.
  cbv zeta. unfold is_byte in Hc. apply fin_seq with (P := fun x => zlen (fst x) = zlen out /\ 0 <= snd x <= 256).
  - unfold decode_block. destruct (block_cases (c + 1)) as [[Cl ->]|[Cl ->]]; [lia| |]; cbn [t_sparse t_dense Z.eqb Pos.eqb].
    + eapply fin_mono; [apply tail_fin; lia|]. cbn beta. intros y [Y1 Y2]. lia.
    + apply (decode_bitmap_fin mem Hb d 4); lia.
  - intros [o n] [Lo N]. cbn [fst snd] in *. apply fin_ok. split; auto. split; [apply fits_next'; auto; lia|]. lia.
Qed.
Lemma ss_union_chunk_loop_fin base : forall fuel l r kl kr dl dr x out pos,
  (1 <= kl)%nat -> (1 <= kr)%nat -> (kl + kr <= fuel + 1)%nat -> fits' l dl kl -> fits' r dr kr -> four x ->
  0 <= pos -> pos + 256 * Z.of_nat (kl + kr) <= zlen out ->
  fin (ss_union_chunk_loop fuel dbg mem l r (l + 2 * Z.of_nat kl) (r + 2 * Z.of_nat kr) dl dr base x out pos)
    (fun '(l', r', dl', dr', x', o, pos') => four x' /\ zlen o = zlen out /\ exists jl jr, (jl <= kl)%nat /\ (jr <= kr)%nat
      /\ l + 2 * Z.of_nat kl = l' + 2 * Z.of_nat jl /\ r + 2 * Z.of_nat kr = r' + 2 * Z.of_nat jr
      /\ fits' l' dl' jl /\ fits' r' dr' jr /\ pos <= pos' /\ pos' + 256 * Z.of_nat (jl + jr) <= pos + 256 * Z.of_nat (kl + kr)).
Proof.
  induction fuel as [|f IH]; intros l r kl kr dl dr x out pos L R F Fl Fr X P0 P1; [lia|]. cbn [ss_union_chunk_loop].
  pose proof Fl as (Fl1 & Fl2 & Fl3 & Fl4). pose proof Fr as (Fr1 & Fr2 & Fr3 & Fr4).
  eapply fin_seq; [apply (rd8_fin mem Hb); lia|]. intros a Ha. eapply fin_seq; [apply (rd8_fin mem Hb); lia|]. intros b _.
  destruct kl as [|kl]; [lia|]. destruct kr as [|kr]; [lia|].
  destruct (a <? b); [|destruct (b <? a)].
  - eapply fin_seq; [apply (DECODE_fin l dl kl); auto; lia|]. intros [[[l' dl'] o] p] (-> & F' & Lo & Hp).
    destruct (Z.eqb_spec (l + 2) (l + 2 * Z.of_nat (S kl))).
    + apply fin_ok. do 2 (split; auto). exists kl, (S kr). do 4 (split; [lia|]). do 2 (split; auto). lia.
    + replace (l + 2 * Z.of_nat (S kl)) with (l + 2 + 2 * Z.of_nat kl) by lia. eapply fin_mono; [apply IH; auto; lia|].
      intros [[[[[[l' r'] dl2] dr2] x2] o2] p2] (X2 & L2 & jl & jr & J1 & J2 & J3 & J4 & J5 & J6 & J7 & J8). split; auto. split; [congruence|].
      exists jl, jr. do 4 (split; [lia|]). do 2 (split; auto). lia.
  - eapply fin_seq; [apply (DECODE_fin r dr kr); auto; lia|]. intros [[[r' dr'] o] p] (-> & F' & Lo & Hp).
    destruct (Z.eqb_spec (r + 2) (r + 2 * Z.of_nat (S kr))).
    + apply fin_ok. do 2 (split; auto). exists (S kl), kr. do 4 (split; [lia|]). do 2 (split; auto). lia.
    + replace (r + 2 * Z.of_nat (S kr)) with (r + 2 + 2 * Z.of_nat kr) by lia. eapply fin_mono; [apply IH; auto; lia|].
      intros [[[[[[l' r'] dl2] dr2] x2] o2] p2] (X2 & L2 & jl & jr & J1 & J2 & J3 & J4 & J5 & J6 & J7 & J8). split; auto. split; [congruence|].
      exists jl, jr. do 4 (split; [lia|]). do 2 (split; auto). lia.
  - eapply fin_seq; [apply (rd8_fin mem Hb); lia|]. intros c1 C1. eapply fin_seq; [apply (rd8_fin mem Hb); lia|]. intros c2 C2.
    cbv zeta. unfold is_byte in *. eapply fin_seq; [apply union_blocks_fin; auto; lia|]. intros [[x1 o] n] (X1 & Lo & N). rewrite u32_id by lia.
    pose proof (fits_next' l dl kl (c1 + 1) Fl ltac:(lia)) as Gl. pose proof (fits_next' r dr kr (c2 + 1) Fr ltac:(lia)) as Gr.
    destruct ((l + 2 =? _) || _) eqn:C.
    + apply fin_ok. do 2 (split; auto). exists kl, kr. do 4 (split; [lia|]). do 2 (split; auto). lia.
    + apply orb_false_iff in C as [Ca Cb]. apply Z.eqb_neq in Ca. apply Z.eqb_neq in Cb.
      replace (l + 2 * Z.of_nat (S kl)) with (l + 2 + 2 * Z.of_nat kl) by lia.
      replace (r + 2 * Z.of_nat (S kr)) with (r + 2 + 2 * Z.of_nat kr) by lia. eapply fin_mono; [apply IH; auto; lia|].
      intros [[[[[[l' r'] dl2] dr2] x2] o2] p2] (X2 & L2 & jl & jr & J1 & J2 & J3 & J4 & J5 & J6 & J7 & J8). split; auto. split; [congruence|].
      exists jl, jr. do 4 (split; [lia|]). do 2 (split; auto). lia.
Qed.
Lemma decode_blocks_fin base : forall k fuel p d out pos, (k <= fuel)%nat -> fits' p d k -> 0 <= pos -> pos + 256 * Z.of_nat k <= zlen out ->
  fin (decode_blocks_loop fuel mem p (p + 2 * Z.of_nat k) d base out pos) (fun x => zlen (fst x) = zlen out /\ pos <= snd x <= pos + 256 * Z.of_nat k).
Proof.
  induction k as [|k IH]; intros fuel p d out pos Hf F P0 P1.
  - destruct fuel; cbn [decode_blocks_loop]; (destruct (Z.eqb_spec p (p + 2 * Z.of_nat 0)); [|lia]); cbn [negb]; apply fin_ok; cbn [fst snd]; lia.
  - destruct fuel as [|f]; [lia|]. cbn [decode_blocks_loop]. destruct (Z.eqb_spec p (p + 2 * Z.of_nat (S k))); [lia|]. cbn [negb].
    eapply fin_seq; [apply (DECODE_fin p d k); auto; lia|]. intros [[[p' d'] o] q] (-> & F' & Lo & Hq).
    replace (p + 2 * Z.of_nat (S k)) with (p + 2 + 2 * Z.of_nat k) by lia. eapply fin_mono; [apply IH; auto; lia|]. cbn beta. intros y Y. lia.
Qed.
Local Notation rdb := (rdb mem).
Lemma rdb_fits' a n : rdb 8733 a -> 1 <= n <= 256 -> fits' a (a + n * 2) (Z.to_nat n).
Proof. intros [A B] H. unfold fits'. lia. Qed.
Lemma rdb_less a : rdb 8733 a -> rdb 8712 a.
Proof. unfold P_Safe.rdb. lia. Qed.
Lemma ss_union_chunk_fin l r bl br base x out pos : 1 <= bl <= 256 -> 1 <= br <= 256 -> rdb 8733 l -> rdb 8733 r -> four x ->
  0 <= pos -> pos + 131072 <= zlen out ->
  fin (ss_union_chunk dbg mem l r bl br base x out pos) (fun '(x', o, n) => four x' /\ zlen o = zlen out /\ 0 <= n <= 131072).
Proof.
  intros Hl Hr Dl Dr X P0 P1. unfold ss_union_chunk. rewrite !blocks_ok by auto. cbn [bind]. cbv zeta.
  pose proof (rdb_fits' l bl Dl Hl) as Fl. pose proof (rdb_fits' r br Dr Hr) as Fr.
  pose proof (ss_union_chunk_loop_fin base (Z.to_nat (bl + br)) l r (Z.to_nat bl) (Z.to_nat br) (l + bl * 2) (r + br * 2) x out pos) as Y.
  replace (l + 2 * Z.of_nat (Z.to_nat bl)) with (l + bl * 2) in Y by lia.
  replace (r + 2 * Z.of_nat (Z.to_nat br)) with (r + br * 2) in Y by lia.
  eapply fin_seq; [apply Y; auto; lia|]. clear Y.
  intros [[[[[[l' r'] dl2] dr2] x2] o2] p2] (X2 & L2 & jl & jr & J1 & J2 & -> & -> & J5 & J6 & J7 & J8).
  eapply fin_seq; [apply decode_blocks_fin; auto; lia|]. intros [o3 p3] [L3 P3]. cbn [fst snd] in *.
  eapply fin_seq; [apply decode_blocks_fin; auto; lia|]. intros [o4 p4] [L4 P4]. cbn [fst snd] in *.
  apply fin_ok. split; auto. lia.
Qed.
Lemma ds_union_chunk_fin l r n base y out pos : 1 <= n <= 256 -> rdb 8712 l -> rdb 8712 r -> zlen y = 1024 ->
  0 <= pos -> pos + 65536 <= zlen out ->
  fin (ds_union_chunk dbg mem l r n base y out pos) (fun '(y, o, n) => zlen y = 1024 /\ zlen o = zlen out /\ 0 <= n <= 65536).
Proof.
  intros Hn [L0 L1] Dr Ly P0 P1. unfold ds_union_chunk. cbv zeta. eapply fin_seq; [apply sparse_vec_fin; auto|]. intros v [Lv Fv].
  change chunk_size_in_64bit_words with 1024.
  eapply fin_seq; [apply (or_fin _ _ 1024); try lia|].
  - intros i Hi. apply fin_mem; auto; lia.
  - intros i Hi. apply fin_vec; auto; lia.
  - intros [o k] [Lo K]. cbn [fst snd] in *. apply fin_ok. lia.
Qed.
Lemma union_chunks_fin l r idl cl csl idr cr csr base x y out pos :
  id_view mem l ((idl, cl) :: csl) -> id_view mem r ((idr, cr) :: csr) -> rdb 8733 (i_data l) -> rdb 8733 (i_data r) -> four x -> zlen y = 1024 ->
  0 <= pos -> pos + 131072 <= zlen out ->
  fin (union_chunks dbg mem l r base x y out pos) (fun '(x, y, o, n) => four x /\ zlen y = 1024 /\ zlen o = zlen out /\ 0 <= n <= 131072).
Proof.
  intros Vl Vr Dl Dr X Ly P0 P1. unfold union_chunks. cbv zeta.
  pose proof (id_view_wf _ _ _ _ Vl) as W1. pose proof (id_view_wf _ _ _ _ Vr) as W2.
  pose proof (blocks_count _ _ W1) as B1. pose proof (blocks_count _ _ W2) as B2.
  pose proof (rdb_less _ Dl) as El. pose proof (rdb_less _ Dr) as Er.
  rewrite (id_view_type _ _ _ _ _ Vl), (id_view_type _ _ _ _ _ Vr). cbn [bind].
  set (P := fun z : list Z * list Z * list Z * Z => let '(x, y, o, n) := z in four x /\ zlen y = 1024 /\ zlen o = zlen out /\ 0 <= n <= 131072).
  assert (KY : forall z : res (list Z * list Z * Z), fin z (fun '(x, o, n) => four x /\ zlen o = zlen out /\ 0 <= n <= 131072) ->
    fin (let! (x, out, n) := z in Ok (x, y, out, n)) P).
  { intros z Y. eapply fin_seq; [exact Y|]. intros [[x' o] n] (X' & Lo & N). apply fin_ok. unfold P. auto. }
  assert (KX : forall z : res (list Z * list Z * Z), fin z (fun '(y, o, n) => zlen y = 1024 /\ zlen o = zlen out /\ 0 <= n <= 65536) ->
    fin (let! (y, out, n) := z in Ok (x, y, out, n)) P).
  { intros z Y. eapply fin_seq; [exact Y|]. intros [[y' o] n] (X' & Lo & N). apply fin_ok. unfold P. do 3 (split; auto). lia. }
  assert (KP : forall z : res (list Z * Z), fin z (fun x => zlen (fst x) = zlen out /\ 0 <= snd x <= 65536) ->
    fin (let! (out, n) := z in Ok (x, y, out, n)) P).
  { intros z Y. eapply fin_seq; [exact Y|]. intros [o n] [Lo N]. cbn [fst snd] in *. apply fin_ok. unfold P. do 3 (split; auto). lia. }
  destruct (kind_of cl) eqn:Kl, (kind_of cr) eqn:Kr;
    repeat match goal with |- context [chunk_pair ?x ?y =? chunk_pair ?z ?w] =>
      let v := eval vm_compute in (chunk_pair x y =? chunk_pair z w) in
      replace (chunk_pair x y =? chunk_pair z w) with v by reflexivity end; cbv iota;
    rewrite ?(id_view_blocks _ _ _ _ _ Vl Kl), ?(id_view_blocks _ _ _ _ _ Vr Kr); cbn [bind].
  - destruct (_ <? _); apply KY, ss_union_chunk_fin; auto; lia.
  - apply KX, ds_union_chunk_fin; auto; lia.
  - apply KP, full_dec_fin; auto; lia.
  - apply KX, ds_union_chunk_fin; auto; lia.
  - apply KP. change chunk_size_in_64bit_words with 1024. destruct El, Er. apply (or_fin _ _ 1024); try lia; intros i Hi; apply fin_mem; auto; lia.
  - apply KP, full_dec_fin; auto; lia.
  - apply KP, full_dec_fin; auto; lia.
  - apply KP, full_dec_fin; auto; lia.
  - apply KP, full_dec_fin; auto; lia.
Qed.

(** ** iterators with K readable bytes behind their data *)
Definition far (K : Z) (it : iterator) (cs : list (Z * list Z)) : Prop :=
  id_view mem it cs /\ 0 <= i_data it /\ i_data it + zlen (cdatas cs) + K <= zlen mem.
Lemma far_rdb K it cs : far K it cs -> rdb K (i_data it).
Proof. intros (_ & A & B). unfold P_Safe.rdb. pose proof (zlen_nonneg _ (cdatas cs)). lia. Qed.
Lemma far_less it cs : far 8733 it cs -> far 8712 it cs.
Proof. unfold far. intuition lia. Qed.
Lemma far_next K it id c cs : far K it ((id, c) :: cs) -> exists it', it_next mem it = Ok it' /\ far K it' cs.
Proof.
  intros (V & A & B). destruct (id_view_next _ _ _ _ _ V) as (it' & E & V' & _ & _ & D & _). exists it'. split; auto.
  rewrite zlen_cdatas_cons in B. pose proof (zlen_nonneg _ (chunk_data c)). split; auto. lia.
Qed.
Lemma far_advance K it cs lb : far K it cs -> lb <= 65536 -> exists it' pre suf, it_advance mem it lb = Ok it' /\ dropped lb cs pre suf /\ far K it' suf.
Proof.
  intros (V & A & B) Hl. destruct (it_advance_id mem it cs lb V Hl) as (it' & pre & suf & E & D & V' & _ & _ & T & _).
  exists it', pre, suf. split; auto. split; auto. rewrite (proj1 D), cdatas_app in B. pose proof (zlen_nonneg _ (cdatas pre)).
  split; auto. lia.
Qed.
Lemma dropped_less lb id c cs pre suf : dropped lb ((id, c) :: cs) pre suf -> id < lb -> (length suf <= length cs)%nat.
Proof.
  intros (D & F & G) H. destruct pre as [|p pre].
  - cbn [app] in D. subst suf. inversion G as [|? ? G1 _]; subst. cbn [fst] in G1. lia.
  - injection D as _ ->. rewrite app_length. lia.
Qed.

(** ** pairs of sequences *)
Lemma intersection_loop_fin tbl (Ht : shuffle_table_ok tbl) : forall fuel A B itl itr x out pos,
  (length A + length B <= fuel)%nat -> far 8712 itl A -> far 8712 itr B -> zlen x = 1024 ->
  0 <= pos -> pos + 65536 * Z.min (zlen A) (zlen B) <= zlen out ->
  fin (pairwise_intersection_loop fuel tbl dbg mem itl itr x out pos) (fun _ => True).
Proof.
  induction fuel as [|f IH]; intros A B itl itr x out pos Hf Va Vb Hx P0 P1; cbn [pairwise_intersection_loop];
    rewrite (id_view_has_next _ _ _ (proj1 Va)), (id_view_has_next _ _ _ (proj1 Vb)).
  all: destruct A as [|[i a] A]; [now apply fin_ok|].
  all: destruct B as [|[j b] B]; [now apply fin_ok|]. { cbn [length] in Hf. lia. }
  cbn [andb]. destruct (chunk_base _ _ _ _ _ (proj1 Va)) as (Ei & Ebi & Hi). destruct (chunk_base _ _ _ _ _ (proj1 Vb)) as (Ej & Ebj & Hj).
  rewrite Ei, Ej. cbn [bind]. rewrite !u16_id by lia. cbn [length] in Hf. rewrite !zlen_cons in P1.
  pose proof (zlen_nonneg _ A). pose proof (zlen_nonneg _ B).
  destruct (Z.eqb_spec i j) as [E|E].
  - eapply fin_seq; [eapply intersect_chunks_fin; eauto using far_rdb; try (apply Va || apply Vb); lia|].
    intros [[x1 o1] n1] (Hx1 & Lo & N). rewrite u32_id by lia.
    destruct (far_next _ _ _ _ _ Va) as (itl1 & -> & Va1). cbn [bind]. destruct (far_next _ _ _ _ _ Vb) as (itr1 & -> & Vb1). cbn [bind].
    apply (IH A B); auto; lia.
  - destruct (Z.ltb_spec i j).
    + destruct (far_advance _ _ _ j Va) as (itl1 & pre & suf & -> & D & Va1); [lia|]. cbn [bind].
      pose proof (dropped_less _ _ _ _ _ _ D ltac:(lia)) as Ls. apply (IH suf ((j, b) :: B)); auto; [cbn [length]; lia|].
      rewrite zlen_cons. unfold zlen in *. lia.
    + destruct (far_advance _ _ _ i Vb) as (itr1 & pre & suf & -> & D & Vb1); [lia|]. cbn [bind].
      pose proof (dropped_less _ _ _ _ _ _ D ltac:(lia)) as Ls. apply (IH ((i, a) :: A) suf); auto; [cbn [length]; lia|].
      rewrite zlen_cons. unfold zlen in *. lia.
Qed.
Lemma union_loop_fin : forall fuel A B itl itr x y out pos,
  (length A + length B <= fuel)%nat -> A <> [] -> B <> [] -> far 8733 itl A -> far 8733 itr B -> four x -> zlen y = 1024 ->
  0 <= pos -> pos + 65536 * (zlen A + zlen B) <= zlen out ->
  fin (pairwise_union_loop fuel dbg mem itl itr x y out pos) (fun '(itl', itr', x', y', o, p) =>
    exists A' B', far 8733 itl' A' /\ far 8733 itr' B' /\ zlen o = zlen out /\ 0 <= p /\ p + 65536 * (zlen A' + zlen B') <= zlen out).
Proof.
  induction fuel as [|f IH]; intros A B itl itr x y out pos Hf NA NB Va Vb X Ly P0 P1.
  { destruct A; [congruence|]. cbn [length] in Hf. lia. }
  destruct A as [|[i a] A]; [congruence|]. destruct B as [|[j b] B]; [congruence|].
  cbn [length] in Hf. cbn [pairwise_union_loop].
  destruct (chunk_base _ _ _ _ _ (proj1 Va)) as (Ei & Ebi & Hi). destruct (chunk_base _ _ _ _ _ (proj1 Vb)) as (Ej & Ebj & Hj).
  rewrite Ei, Ej. cbn [bind]. rewrite !u16_id by lia. rewrite !zlen_cons in P1.
  pose proof (zlen_nonneg _ A). pose proof (zlen_nonneg _ B).
  destruct (far_next _ _ _ _ _ Va) as (itl1 & NXa & Va1). destruct (far_next _ _ _ _ _ Vb) as (itr1 & NXb & Vb1).
  pose proof (id_view_has_next _ _ _ (proj1 Va1)) as HNa. pose proof (id_view_has_next _ _ _ (proj1 Vb1)) as HNb.
  destruct (Z.eqb_spec i j) as [E|E]; [|destruct (Z.ltb_spec i j)].
  - eapply fin_seq; [eapply union_chunks_fin; eauto using far_rdb; try (apply Va || apply Vb); lia|].
    intros [[[x1 y1] o1] n1] (X1 & Y1 & Lo & N). rewrite u32_id by lia. rewrite NXa. cbn [bind]. rewrite NXb. cbn [bind]. rewrite HNa, HNb.
    destruct A as [|ca A]; [cbn [negb orb]; apply fin_ok; exists [], B; do 3 (split; auto); lia|].
    destruct B as [|cb B]; [cbn [negb orb]; apply fin_ok; exists (ca :: A), []; do 3 (split; auto); lia|].
    cbn [negb orb]. eapply fin_mono; [apply (IH (ca :: A) (cb :: B)); auto; try discriminate; cbn [length] in *; lia|].
    intros [[[[[itl2 itr2] x2] y2] o2] p2] (A' & B' & Q1 & Q2 & Q3 & Q4). exists A', B'. do 2 (split; auto). lia.
  - pose proof (far_less _ _ Va) as (V1 & V2 & V3). pose proof (far_rdb _ _ _ (far_less _ _ Va)) as [_ V4].
    eapply fin_seq; [apply (decode_chunk_fin mem Hb dbg itl i a A); auto; lia|]. intros [o1 n1] [Lo N]. cbn [fst snd] in *.
    rewrite NXa. cbn [bind]. rewrite HNa.
    destruct A as [|ca A]; cbn [negb].
    + apply fin_ok. exists [], ((j, b) :: B). do 3 (split; auto). rewrite zlen_cons. change (zlen []) with 0. lia.
    + eapply fin_mono; [apply (IH (ca :: A) ((j, b) :: B)); auto; try discriminate; [cbn [length] in *; lia|lia|rewrite zlen_cons with (x := (j, b)); lia]|].
      intros [[[[[itl2 itr2] x2] y2] o2] p2] (A' & B' & Q1 & Q2 & Q3 & Q4). exists A', B'. do 2 (split; auto). lia.
  - pose proof (far_less _ _ Vb) as (V1 & V2 & V3). pose proof (far_rdb _ _ _ (far_less _ _ Vb)) as [_ V4].
    eapply fin_seq; [apply (decode_chunk_fin mem Hb dbg itr j b B); auto; lia|]. intros [o1 n1] [Lo N]. cbn [fst snd] in *.
    rewrite NXb. cbn [bind]. rewrite HNb.
    destruct B as [|cb B]; cbn [negb].
    + apply fin_ok. exists ((i, a) :: A), []. do 3 (split; auto). rewrite zlen_cons. change (zlen []) with 0. lia.
    + eapply fin_mono; [apply (IH ((i, a) :: A) (cb :: B)); auto; try discriminate; [cbn [length] in *; lia|lia|rewrite zlen_cons with (x := (i, a)); lia]|].
      intros [[[[[itl2 itr2] x2] y2] o2] p2] (A' & B' & Q1 & Q2 & Q3 & Q4). exists A', B'. do 2 (split; auto). lia.
Qed.
Lemma decode_rest_fin : forall cs fuel it out pos, (length cs <= fuel)%nat -> far 8712 it cs -> 0 <= pos -> pos + 65536 * zlen cs <= zlen out ->
  fin (decode_rest_loop fuel dbg mem it out pos) (fun r => zlen (fst r) = zlen out /\ pos <= snd r <= pos + 65536 * zlen cs).
Proof.
  induction cs as [|[id c] cs IH]; intros fuel it out pos Hf V P0 P1; destruct fuel as [|f]; cbn [decode_rest_loop];
    rewrite (id_view_has_next _ _ _ (proj1 V)); try (apply fin_ok; cbn [fst snd]; change (zlen []) with 0; lia).
  { cbn [length] in Hf. lia. }
  rewrite zlen_cons in *. cbn [length] in Hf. pose proof (zlen_nonneg _ cs). pose proof V as (V1 & V2 & V3). pose proof (far_rdb _ _ _ V) as [_ V4].
  eapply fin_seq; [apply (decode_chunk_fin mem Hb dbg it id c cs); auto; lia|]. intros [o1 n1] [Lo N]. cbn [fst snd] in *.
  destruct (far_next _ _ _ _ _ V) as (it1 & -> & V'). cbn [bind]. eapply fin_mono; [apply IH; auto; lia|]. cbn beta. intros y Y. lia.
Qed.
End Mem.

Lemma intact_far_at K ok mem a S s : valid S -> intact 0 ok mem a S -> seq_at mem a = Ok s -> a + zlen (f_sequence S) + K <= zlen mem ->
  far mem K (seq_begin s) (chunks_of S).
Proof.
  intros H I Es L. destruct (intact_seq _ _ mem a S H I ltac:(lia)) as (s' & Es' & _ & V & _). rewrite Es in Es'. apply Ok_val in Es'. subst s'.
  destruct (intact_data _ _ _ _ _ _ H I Es) as [D1 D2]. rewrite (layout_format S H) in D2. destruct V as (V & D & _). split; auto. split; auto. lia.
Qed.
Lemma c61_intersection : forall tbl dbg mem a b S T s t x out pos,
  shuffle_table_ok tbl -> valid S -> valid T -> Forall is_byte mem ->
  intact 0 (fun _ => False) mem a S -> intact 0 (fun _ => False) mem b T -> seq_at mem a = Ok s -> seq_at mem b = Ok t ->
  a + zlen (f_sequence S) + 8712 <= zlen mem -> b + zlen (f_sequence T) + 8712 <= zlen mem ->
  zlen x = 1024 -> 0 <= pos ->
  pos + 65536 * Z.min (zlen (ids 65536 (Z.to_nat 65536) S)) (zlen (ids 65536 (Z.to_nat 65536) T)) <= zlen out ->
  exists r, pairwise_intersection tbl dbg mem s t x out pos = Ok r.
Proof.
  intros tbl dbg mem a b S T s t x out pos Ht HS HT Hb IS IT Es Et LS LT Hx P0 P1.
  pose proof (intact_far_at _ _ _ _ _ _ HS IS Es LS) as VS. pose proof (intact_far_at _ _ _ _ _ _ HT IT Et LT) as VT.
  rewrite !zlen_ids_chunks in P1 by auto. unfold pairwise_intersection. cbv zeta.
  destruct (intersection_loop_fin dbg mem Hb tbl Ht (it_fuel (seq_begin s) + it_fuel (seq_begin t)) (chunks_of S) (chunks_of T)
    (seq_begin s) (seq_begin t) x out pos) as ([[x1 o] e] & -> & _); auto.
  - pose proof (P_Seq.it_fuel_ok _ _ _ (proj1 VS)). pose proof (P_Seq.it_fuel_ok _ _ _ (proj1 VT)). lia.
  - cbn [bind]. eauto.
Qed.
Lemma c61_union : forall dbg mem a b S T s t x y out pos,
  valid S -> valid T -> Forall is_byte mem ->
  intact 0 (fun _ => False) mem a S -> intact 0 (fun _ => False) mem b T -> seq_at mem a = Ok s -> seq_at mem b = Ok t ->
  a + zlen (f_sequence S) + 8733 <= zlen mem -> b + zlen (f_sequence T) + 8733 <= zlen mem ->
  zlen x = 4 -> Forall is_word x -> zlen y = 1024 -> 0 <= pos ->
  pos + 65536 * (zlen (ids 65536 (Z.to_nat 65536) S) + zlen (ids 65536 (Z.to_nat 65536) T)) <= zlen out ->
  exists r, pairwise_union dbg mem s t x y out pos = Ok r.
Proof.
  intros dbg mem a b S T s t x y out pos HS HT Hb IS IT Es Et LS LT Hx HX Hy P0 P1.
  pose proof (intact_far_at _ _ _ _ _ _ HS IS Es LS) as VS. pose proof (intact_far_at _ _ _ _ _ _ HT IT Et LT) as VT.
  rewrite !zlen_ids_chunks in P1 by auto. unfold pairwise_union. cbv zeta.
  destruct (union_loop_fin dbg mem Hb (it_fuel (seq_begin s) + it_fuel (seq_begin t)) (chunks_of S) (chunks_of T)
    (seq_begin s) (seq_begin t) x y out pos) as ([[[[[itl itr] x1] y1] o] p] & -> & A & B & VA & VB & Lo & Hp & HP); auto.
  - pose proof (P_Seq.it_fuel_ok _ _ _ (proj1 VS)). pose proof (P_Seq.it_fuel_ok _ _ _ (proj1 VT)). lia.
  - apply (valid_chunks S HS).
  - apply (valid_chunks T HT).
  - now split.
  - cbn [bind]. pose proof (zlen_nonneg _ A). pose proof (zlen_nonneg _ B).
    destruct (decode_rest_fin dbg mem Hb A (it_fuel itl) itl o p) as ([o2 p2] & -> & L2 & P2);
      [eapply P_Seq.it_fuel_ok; apply VA|now apply far_less|lia|lia|]. cbn [bind fst snd] in *.
    destruct (decode_rest_fin dbg mem Hb B (it_fuel itr) itr o2 p2) as ([o3 p3] & -> & _);
      [eapply P_Seq.it_fuel_ok; apply VB|now apply far_less|lia|lia|]. cbn [bind]. eauto.
Qed.
