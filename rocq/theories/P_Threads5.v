(** What two threads that use the same buffer can answer. *)
From Verif Require Import Base Hw Spec Format Lib L_Bits L_Group Layout M_Util M_Seq M_Decode M_Uncompress M_Intersect
  M_Build M_Union M_Many M_Calls M_Conc M_Threads P_Build1 P_Seq P_Decode P_Uncompress P_Inter P_Union P_Many P_Many2 P_Sets P_Format P_Room P_RoomInter P_RoomUnion
  P_Scratch P_Ex P_Conc P_Threads1 P_Threads2 P_Threads3 P_Threads4.
From Coq Require Import Lia.

Lemma In_base h c v : In v (map (addb (h * 65536)) c) <-> In (v - h * 65536) c.
Proof.
  rewrite in_map_iff. unfold addb. split.
  - intros (x & <- & H). now replace (h * 65536 + x - h * 65536) with x by lia.
  - intro H. exists (v - h * 65536). split; [lia|exact H].
Qed.
Lemma In_one S h s v : valid S -> chunks_of S = [(h, s)] -> In v S <-> In (v - h * 65536) s.
Proof.
  intros V E. pose proof (proj1 (proj2 (proj2 (valid_chunks S V)))) as U. rewrite E in U. rewrite <- U. unfold ungroup, ungroup1. cbn [flat_map fst snd]. rewrite app_nil_r.
  apply In_base.
Qed.
Lemma enum_base h c e (P : Z -> Prop) : sorted c -> (forall v, In (v - h * 65536) c <-> P v) -> enumerates P e -> map (addb (h * 65536)) c = e.
Proof.
  intros S H E. apply (enumerates_unique P); [|exact E]. split.
  - apply sorted_map; [exact S|]. unfold addb. intros. lia.
  - intro v. rewrite In_base. apply H.
Qed.
Lemma wf_one S h s : valid S -> chunks_of S = [(h, s)] -> wfc1 (h, s).
Proof. intros V E. pose proof (proj1 (valid_chunks S V)) as W. rewrite E in W. apply wf_cons in W as (W & _). exact W. Qed.

Lemma c45_race_inter tbl dbg sc mem l r out pos mem' l' r' out' pos' S T S' T' h e e' :
  let c := CInter mem l r out pos in let c' := CInter mem' l' r' out' pos' in
  sized sc -> operands c S T -> operands c' S' T' -> has_place c -> has_place c' ->
  Forall (fun v => v / 65536 = h) (S ++ T ++ S' ++ T') ->
  as_bitmap S h = true -> as_blocks T h = true -> as_bitmap S' h = true -> as_blocks T' h = true ->
  enumerates (fun v => In v S /\ In v T') e -> enumerates (fun v => In v S' /\ In v T') e' ->
  can_answer tbl dbg sc c c' e e'.
Proof.
  intros c c' Hs (a & b & VS & VT & SS & ST & El & Er) (a' & b' & VS' & VT' & SS' & ST' & El' & Er') Hp Hp' F R1 R2 R3 R4 En En'.
  rewrite app_assoc in F. apply Forall_app in F as [F F'].
  destruct (two_chunks mem l r a b S T h) as (s & t & ES & ET & Ks & Kt & Vs & Vt); auto.
  destruct (two_chunks mem' l' r' a' b' S' T' h) as (s' & t' & ES' & ET' & Ks' & Kt' & Vs' & Vt'); auto.
  pose proof (wf_one _ _ _ VS ES) as (_ & _ & Ss & _). pose proof (wf_one _ _ _ VS' ES') as (_ & _ & Ss' & _).
  pose proof (wf_one _ _ _ VT' ET') as W. cbn [snd] in Ss, Ss'.
  assert (map (addb (h * 65536)) (isect s t') = e) as <-.
  { eapply enum_base; [apply sorted_isect; auto| |exact En]. intro v. cbn beta. rewrite In_isect, <- (In_one S h s v), <- (In_one T' h t' v) by auto. reflexivity. }
  assert (map (addb (h * 65536)) (isect s' t') = e') as <-.
  { eapply enum_base; [apply sorted_isect; auto| |exact En']. intro v. cbn beta. rewrite In_isect, <- (In_one S' h s' v), <- (In_one T' h t' v) by auto. reflexivity. }
  apply (race_calls tbl dbg sc (0 + 0) h c c' t t' (fun x => map (addb (h * 65536)) (isect s x)) (fun x => map (addb (h * 65536)) (isect s' x))); auto;
    apply paused_within with (lo := 0) (n := 1024); try lia; now apply pi_paused.
Qed.
Lemma c45_race_union tbl dbg sc mem l r out pos mem' l' r' out' pos' S T S' T' h e e' :
  let c := CUnion mem l r out pos in let c' := CUnion mem' l' r' out' pos' in
  sized sc -> operands c S T -> operands c' S' T' -> has_place c -> has_place c' ->
  Forall (fun v => v / 65536 = h) (S ++ T ++ S' ++ T') ->
  as_bitmap S h = true -> as_blocks T h = true -> as_bitmap S' h = true -> as_blocks T' h = true ->
  enumerates (fun v => In v S \/ In v T') e -> enumerates (fun v => In v S' \/ In v T') e' ->
  can_answer tbl dbg sc c c' e e'.
Proof.
  intros c c' Hs (a & b & VS & VT & SS & ST & El & Er) (a' & b' & VS' & VT' & SS' & ST' & El' & Er') Hp Hp' F R1 R2 R3 R4 En En'.
  rewrite app_assoc in F. apply Forall_app in F as [F F'].
  destruct (two_chunks mem l r a b S T h) as (s & t & ES & ET & Ks & Kt & Vs & Vt); auto.
  destruct (two_chunks mem' l' r' a' b' S' T' h) as (s' & t' & ES' & ET' & Ks' & Kt' & Vs' & Vt'); auto.
  pose proof (wf_one _ _ _ VS ES) as (_ & _ & Ss & _). pose proof (wf_one _ _ _ VS' ES') as (_ & _ & Ss' & _).
  pose proof (wf_one _ _ _ VT' ET') as W. pose proof W as (_ & _ & St' & _). cbn [snd] in Ss, Ss', St'.
  assert (map (addb (h * 65536)) (uni s t') = e) as <-.
  { eapply enum_base; [apply sorted_uni; auto| |exact En]. intro v. cbn beta. rewrite In_uni, <- (In_one S h s v), <- (In_one T' h t' v) by auto. reflexivity. }
  assert (map (addb (h * 65536)) (uni s' t') = e') as <-.
  { eapply enum_base; [apply sorted_uni; auto| |exact En']. intro v. cbn beta. rewrite In_uni, <- (In_one S' h s' v), <- (In_one T' h t' v) by auto. reflexivity. }
  apply (race_calls tbl dbg sc (1024 + 4) h c c' t t' (fun x => map (addb (h * 65536)) (uni s x)) (fun x => map (addb (h * 65536)) (uni s' x))); auto;
    apply paused_within with (lo := 4) (n := 1028); try lia; now apply pu_paused.
Qed.

Lemma all_one h (Ss : list (list Z)) : Forall valid Ss -> (forall S, In S Ss -> Forall (fun v => v / 65536 = h) S) ->
  exists ss, map chunks_of Ss = map (fun s => [(h, s)]) ss /\ Forall2 (fun S s => chunks_of S = [(h, s)]) Ss ss.
Proof.
  intros V F. induction V as [|S Ss V1 V2 IH]; [exists []; split; auto|].
  destruct IH as (ss & E & E2); [intros; apply F; now right|].
  destruct (one_chunk _ _ V1 (F S (or_introl eq_refl))) as [s ES]. exists (s :: ss). cbn [map]. rewrite E, ES. split; auto.
Qed.
Lemma seqs_view mem addrs Ss seqs : Forall valid Ss -> Forall2 (stored 0 mem) addrs Ss ->
  Forall2 (fun a s => seq_at mem a = Ok s) addrs seqs -> Forall2 (it_view 0 mem) (map seq_begin seqs) (map chunks_of Ss).
Proof.
  intros V St E. destruct (stored_vector 0 mem addrs Ss ltac:(lia) V St) as (seqs' & E' & I).
  replace seqs with seqs'; [exact I|]. clear -E E'. revert seqs E. induction E' as [|a s addrs seqs' H H' IH]; intros seqs E.
  - inversion E. reflexivity.
  - inversion E as [|? s2 ? seqs2 E1 E2]; subst. rewrite H in E1. injection E1 as <-. f_equal. auto.
Qed.
Lemma Forall2_In_l A B (R : A -> B -> Prop) l l' x : Forall2 R l l' -> In x l -> exists y, In y l' /\ R x y.
Proof.
  induction 1 as [|a b l l' H H' IH]; intros Hx; [destruct Hx|]. destruct Hx as [<-|Hx]; [exists b; split; [now left|auto]|].
  destruct (IH Hx) as (y & Hy & HR). exists y. split; [now right|auto].
Qed.
Lemma Forall2_In_r A B (R : A -> B -> Prop) l l' y : Forall2 R l l' -> In y l' -> exists x, In x l /\ R x y.
Proof.
  induction 1 as [|a b l l' H H' IH]; intros Hy; [destruct Hy|]. destruct Hy as [<-|Hy]; [exists a; split; [now left|auto]|].
  destruct (IH Hy) as (x & Hx & HR). exists x. split; [now right|auto].
Qed.
Lemma ones_sorted h Ss (ss : list (list Z)) : Forall valid Ss -> Forall2 (fun S s => chunks_of S = [(h, s)]) Ss ss ->
  Forall (fun s => wfc1 (h, s)) ss.
Proof.
  intros V E. apply Forall_forall. intros s Hs. destruct (Forall2_In_r _ _ _ _ _ _ E Hs) as (S & HS & ES).
  rewrite Forall_forall in V. apply (wf_one S); auto.
Qed.
Lemma ones_some h Ss (ss : list (list Z)) v : Forall valid Ss -> Forall2 (fun S s => chunks_of S = [(h, s)]) Ss ss ->
  (exists s, In s ss /\ In (v - h * 65536) s) <-> (exists S, In S Ss /\ In v S).
Proof.
  intros V E. rewrite Forall_forall in V. split.
  - intros (s & Hs & Hv). destruct (Forall2_In_r _ _ _ _ _ _ E Hs) as (S & HS & ES). exists S. split; auto.
    apply (In_one S h s v (V _ HS) ES). exact Hv.
  - intros (S & HS & Hv). destruct (Forall2_In_l _ _ _ _ _ _ E HS) as (s & Hs & ES). exists s. split; auto.
    apply (In_one S h s v (V _ HS) ES). exact Hv.
Qed.
Lemma ones_all h Ss (ss : list (list Z)) v : Forall valid Ss -> Forall2 (fun S s => chunks_of S = [(h, s)]) Ss ss ->
  (forall s, In s ss -> In (v - h * 65536) s) <-> (forall S, In S Ss -> In v S).
Proof.
  intros V E. rewrite Forall_forall in V. split.
  - intros H S HS. destruct (Forall2_In_l _ _ _ _ _ _ E HS) as (s & Hs & ES). apply (In_one S h s v (V _ HS) ES). auto.
  - intros H s Hs. destruct (Forall2_In_r _ _ _ _ _ _ E Hs) as (S & HS & ES). apply (In_one S h s v (V _ HS) ES). auto.
Qed.
Lemma ones_nil h (Ss ss : list (list Z)) : Ss <> [] -> Forall2 (fun S s => chunks_of S = [(h, s)]) Ss ss -> ss <> [].
Proof. intros N E ->. inversion E. congruence. Qed.
Lemma unis_wf h ss : ss <> [] -> Forall (fun s => wfc1 (h, s)) ss -> wfc1 (h, unis ss).
Proof.
  intros N W. assert (SS : Forall sorted ss) by (eapply Forall_impl; [|exact W]; intros s (_ & _ & H & _); exact H).
  destruct ss as [|s ss]; [easy|]. pose proof (Forall_inv W) as (Hh & Hn & Hs & Hr). cbn [fst snd] in *. split; [exact Hh|].
  cbn [snd]. split; [|split; [now apply sorted_unis|]].
  - destruct s as [|v s]; [easy|]. intro E. assert (In v (unis ((v :: s) :: ss))) as Hv by (apply In_unis; auto; exists (v :: s); split; now left).
    rewrite E in Hv. destruct Hv.
  - apply Forall_forall. intros v (s' & Hs' & Hv)%In_unis; auto. rewrite Forall_forall in W. destruct (W _ Hs') as (_ & _ & _ & R).
    cbn [snd] in R. rewrite Forall_forall in R. auto.
Qed.

Lemma c45_race_union_many tbl dbg sc mem seqs out pos mem' seqs' out' pos' Ss Ss' h e' :
  let c := CUnionMany mem seqs out pos in let c' := CUnionMany mem' seqs' out' pos' in
  sized sc -> many_operands c Ss -> many_operands c' Ss' -> has_place c -> has_place c' ->
  (forall S, In S (Ss ++ Ss') -> Forall (fun v => v / 65536 = h) S) ->
  enumerates (fun v => exists S, In S Ss' /\ In v S) e' -> can_answer tbl dbg sc c c' e' e'.
Proof.
  intros c c' Hs (a & N & V & St & E) (a' & N' & V' & St' & E') Hp Hp' F En.
  pose proof (seqs_view _ _ _ _ V St E) as I. pose proof (seqs_view _ _ _ _ V' St' E') as I'.
  destruct (all_one h Ss V) as (ss & EC & E2); [intros; apply F, in_or_app; auto|].
  destruct (all_one h Ss' V') as (ss' & EC' & E2'); [intros; apply F, in_or_app; auto|].
  rewrite EC in I. rewrite EC' in I'.
  pose proof (ones_sorted _ _ _ V' E2') as W'. pose proof (ones_nil _ _ _ N' E2') as M'. pose proof (ones_nil _ _ _ N E2) as M.
  pose proof (unis_wf h ss' M' W') as U. pose proof U as (Hh & _ & SU & _). cbn [fst snd] in Hh, SU.
  assert (SS : Forall sorted ss') by (eapply Forall_impl; [|exact W']; intros s (_ & _ & H & _); exact H).
  assert (map (addb (h * 65536)) (unis ss') = e') as <-.
  { eapply enum_base; [exact SU| |exact En]. intro v. cbn beta. rewrite In_unis by auto. apply (ones_some h Ss' ss' v V' E2'). }
  apply (race_calls tbl dbg sc (69636 + 1024) h c c' (unis ss) (unis ss') (map (addb (h * 65536))) (map (addb (h * 65536)))); auto;
    apply paused_within with (lo := 1024) (n := 2048); try lia; apply um_paused; auto; lia.
Qed.
Lemma fold_wf h s ss : fold_left isect ss s <> [] -> wfc1 (h, s) -> wfc1 (h, fold_left isect ss s).
Proof.
  intros N (Hh & _ & Hs & Hr). cbn [fst snd] in *. split; [exact Hh|]. split; [exact N|]. split; [now apply sorted_fold_isect|].
  cbn [snd]. apply Forall_forall. intros v (Hv & _)%In_fold_isect. rewrite Forall_forall in Hr. auto.
Qed.
Lemma In_fold ss s v : In v (fold_left isect ss s) <-> forall x, In x (s :: ss) -> In v x.
Proof.
  rewrite In_fold_isect. split.
  - intros [H1 H2] x [<-|Hx]; auto.
  - intro H. split; [apply H; now left|]. intros x Hx. apply H. now right.
Qed.
Lemma c45_race_intersection_many tbl dbg sc mem seqs out pos mem' seqs' out' pos' Ss Ss' h e e' :
  let c := CInterMany mem seqs out pos in let c' := CInterMany mem' seqs' out' pos' in
  sized sc -> many_operands c Ss -> many_operands c' Ss' -> has_place c -> has_place c' ->
  (forall S, In S (Ss ++ Ss') -> Forall (fun v => v / 65536 = h) S) ->
  enumerates (fun v => forall S, In S Ss -> In v S) e -> e <> [] ->
  enumerates (fun v => forall S, In S Ss' -> In v S) e' -> e' <> [] -> can_answer tbl dbg sc c c' e' e'.
Proof.
  intros c c' Hs (a & N & V & St & E) (a' & N' & V' & St' & E') Hp Hp' F En0 Ne En Ne'.
  pose proof (seqs_view _ _ _ _ V St E) as I. pose proof (seqs_view _ _ _ _ V' St' E') as I'.
  destruct (all_one h Ss V) as (ss & EC & E2); [intros; apply F, in_or_app; auto|].
  destruct (all_one h Ss' V') as (ss' & EC' & E2'); [intros; apply F, in_or_app; auto|].
  rewrite EC in I. rewrite EC' in I'.
  pose proof (ones_sorted _ _ _ V' E2') as W'. pose proof (ones_nil _ _ _ N' E2') as M'. pose proof (ones_nil _ _ _ N E2) as M.
  pose proof (ones_sorted _ _ _ V E2) as W.
  destruct ss as [|s ss]; [easy|]. destruct ss' as [|s' ss']; [easy|].
  pose proof (Forall_inv W) as W1. pose proof (Forall_inv W') as W1'. pose proof W1 as (Hh & _ & S1 & _). pose proof W1' as (_ & _ & S1' & _).
  cbn [fst snd] in Hh, S1, S1'.
  assert (Q : map (addb (h * 65536)) (fold_left isect ss s) = e).
  { apply (enum_base h _ e (fun v => forall S, In S Ss -> In v S)); auto; [now apply sorted_fold_isect|].
    intro v. rewrite In_fold. apply (ones_all h Ss (s :: ss) v V E2). }
  assert (Q' : map (addb (h * 65536)) (fold_left isect ss' s') = e').
  { apply (enum_base h _ e' (fun v => forall S, In S Ss' -> In v S)); auto; [now apply sorted_fold_isect|].
    intro v. rewrite In_fold. apply (ones_all h Ss' (s' :: ss') v V' E2'). }
  assert (B : fold_left isect ss s <> []) by (intro X; rewrite X in Q; subst e; now apply Ne).
  assert (B' : fold_left isect ss' s' <> []) by (intro X; rewrite X in Q'; subst e'; now apply Ne').
  rewrite <- Q'.
  apply (race_calls tbl dbg sc (2052 + 66560) h c c' (fold_left isect ss s) (fold_left isect ss' s') (map (addb (h * 65536))) (map (addb (h * 65536))));
    auto; [now apply fold_wf| |];
    apply paused_within with (lo := 66560) (n := 67584); try lia; apply im_paused; auto.
Qed.

(** ** a call on its own *)
Lemma runs_same A x (p : prog A) y q : runs x p y q -> alone x p = alone y q.
Proof.
  induction 1 as [x p|x i k v y q E R IH|x i v k z y q E R IH]; [reflexivity| |].
  - rewrite alone_get, E. exact IH.
  - rewrite alone_put, E. exact IH.
Qed.
Lemma isolated_outcome tbl dbg c : isolated tbl dbg c = outcome (flat scratch0) (call_c tbl dbg c).
Proof.
  unfold isolated, outcome. rewrite c45_alone by exact sized0. rewrite bind_assoc. apply bind_ext. intros [sc r] _. reflexivity.
Qed.
Lemma paused_isolated tbl dbg c lo h b F : wfc1 (h, b) ->
  paused lo 71684 h (call_c tbl dbg c) b F (fst (buffer c)) (snd (buffer c)) ->
  fits (fst (buffer c)) (snd (buffer c)) (F b) (isolated tbl dbg c).
Proof.
  intros W P. destruct (P (flat scratch0) (zlen_flat _ sized0)) as (y & R & Hr & Hs & _ & HR).
  rewrite isolated_outcome. unfold outcome at 1. rewrite (runs_same _ _ _ _ _ Hr). exact (HR b y W Hs).
Qed.

(** ** concrete threads *)
Lemma zlen_dn : zlen dn = 32768.
Proof. unfold dn. rewrite zlen_zrange, Z2Nat.id; lia. Qed.
Opaque dn.
Definition encW : list Z := snd (builder_build false [] [40000]).
Definition tmem : list Z := encD ++ enc5 ++ encW ++ repeat 0 31.
Definition words (n : Z) : list Z := repeat 0 (Z.to_nat n).
Lemma zlen_words n : 0 <= n -> zlen (words n) = n.
Proof. intro H. unfold words. rewrite zlen_repeat, Z2Nat.id; lia. Qed.
Lemma encoding_W : encoding false [40000] encW.
Proof. unfold encW. exact (encoding_ok false [40000] (valid_1 40000 ltac:(lia))). Qed.
Opaque encW.
Lemma stored_t : stored 31 tmem 0 dn /\ stored 31 tmem (zlen encD) [5] /\ stored 31 tmem (zlen encD + zlen enc5) [40000].
Proof. exact (stored_three encD enc5 encW dn [5] [40000] encoding_D encoding_5 encoding_W). Qed.
Opaque tmem words.
Lemma opened : exists l r r', (forall out pos, operands (CUnion tmem l r out pos) dn [5] /\ operands (CInter tmem l r out pos) dn [5])
  /\ (forall out pos, operands (CUnion tmem l r' out pos) dn [40000] /\ operands (CInter tmem l r' out pos) dn [40000])
  /\ (forall out pos, many_operands (CUnionMany tmem [l] out pos) [dn])
  /\ (forall out pos, many_operands (CUnionMany tmem [r] out pos) [[5]] /\ many_operands (CInterMany tmem [r] out pos) [[5]])
  /\ (forall out pos, many_operands (CUnionMany tmem [r'] out pos) [[40000]] /\ many_operands (CInterMany tmem [r'] out pos) [[40000]])
  /\ (forall out pos, operands (CInter tmem r r' out pos) [5] [40000]).
Proof.
  destruct stored_t as (S1 & S2 & S3).
  pose proof (valid_1 5 ltac:(lia)) as V5. pose proof (valid_1 40000 ltac:(lia)) as VW.
  destruct (stored_seq 31 tmem _ _ valid_dn S1 ltac:(lia)) as (l & El & _).
  destruct (stored_seq 31 tmem _ _ V5 S2 ltac:(lia)) as (r & Er & _).
  destruct (stored_seq 31 tmem _ _ VW S3 ltac:(lia)) as (r' & Er' & _).
  assert (M : forall a S s, valid S -> stored 31 tmem a S -> seq_at tmem a = Ok s -> exists addrs,
    [S] <> [] /\ Forall valid [S] /\ Forall2 (stored 0 tmem) addrs [S] /\ Forall2 (fun a s => seq_at tmem a = Ok s) addrs [s]).
  { intros a S s V St E. exists [a]. split; [discriminate|]. split; [auto|]. split; [|auto]. constructor; [|constructor].
    apply (stored_weaken 31); [exact St|lia]. }
  assert (U1 : exists a b, valid dn /\ valid [5] /\ stored 31 tmem a dn /\ stored 31 tmem b [5] /\ seq_at tmem a = Ok l /\ seq_at tmem b = Ok r)
    by (exists 0, (zlen encD); exact (conj valid_dn (conj V5 (conj S1 (conj S2 (conj El Er)))))).
  assert (U2 : exists a b, valid dn /\ valid [40000] /\ stored 31 tmem a dn /\ stored 31 tmem b [40000] /\ seq_at tmem a = Ok l /\ seq_at tmem b = Ok r')
    by (exists 0, (zlen encD + zlen enc5); exact (conj valid_dn (conj VW (conj S1 (conj S3 (conj El Er')))))).
  assert (U3 : exists a b, valid [5] /\ valid [40000] /\ stored 31 tmem a [5] /\ stored 31 tmem b [40000] /\ seq_at tmem a = Ok r /\ seq_at tmem b = Ok r')
    by (exists (zlen encD), (zlen encD + zlen enc5); exact (conj V5 (conj VW (conj S2 (conj S3 (conj Er Er')))))).
  exists l, r, r'.
  split; [intros; split; exact U1|]. split; [intros; split; exact U2|].
  split; [intros; exact (M _ _ _ valid_dn S1 El)|]. split; [intros; split; exact (M _ _ _ V5 S2 Er)|].
  split; [intros; split; exact (M _ _ _ VW S3 Er')|]. intros; exact U3.
Qed.
Lemma chunk0 : Forall (fun v => v / 65536 = 0) (dn ++ [5] ++ dn ++ [40000]).
Proof.
  assert (F : Forall (fun v => v / 65536 = 0) dn).
  { apply Forall_forall. intros v Hv. apply In_dn in Hv. apply Z.div_small. lia. }
  rewrite !Forall_app. repeat split; auto.
Qed.
Lemma chunk01 : Forall (fun v => v / 65536 = 0) (dn ++ [5]).
Proof. pose proof chunk0 as C. rewrite app_assoc in C. exact (proj1 (proj1 (Forall_app _ _ _) C)). Qed.
Lemma chunk02 : Forall (fun v => v / 65536 = 0) (dn ++ [40000]).
Proof. pose proof chunk0 as C. rewrite app_assoc in C. exact (proj2 (proj1 (Forall_app _ _ _) C)). Qed.
Lemma blocks_W : as_blocks [40000] 0 = true.
Proof. vm_compute. reflexivity. Qed.
Lemma enum_dn_W : enumerates (fun v => In v dn \/ In v [40000]) (dn ++ [40000]).
Proof.
  split.
  - apply sorted_app; [apply valid_dn|apply sorted_cons; [apply sorted_nil|constructor]|].
    intros x y Hx [<-|[]]. apply In_dn in Hx. lia.
  - intro v. apply in_app_iff.
Qed.
Lemma zlen_dn_W : zlen (dn ++ [40000]) = 32769.
Proof. rewrite zlen_app, zlen_dn. reflexivity. Qed.

(** an answer with room contains its values *)
Lemma answer_ok c e r n m : has_place c -> zlen (fst (buffer c)) = n -> zlen e = m -> snd (buffer c) + m <= n -> answer c e r ->
  exists out, r = Ok [(out, m)] /\ forall i, 0 <= i < m -> znth out (snd (buffer c) + i) = znth e i.
Proof.
  intros Hp <- <- Hl. unfold answer. destruct c; cbn [buffer fst snd] in *;
    (destruct (Z.leb_spec (pos + zlen e) (zlen out)); [|lia]); intros (o & -> & W); exists o; (split; [reflexivity|]); apply W.
Qed.
Lemma answer_ub c e r n m : zlen (fst (buffer c)) = n -> zlen e = m -> n < snd (buffer c) + m -> answer c e r -> r = UB.
Proof.
  intros <- <- Hl. unfold answer. destruct c; cbn [buffer fst snd] in *;
    (destruct (Z.leb_spec (pos + zlen e) (zlen out)); [lia|]); auto.
Qed.
Lemma at_start (out : list Z) : 0 <= 0 <= zlen out.
Proof. split; [reflexivity|apply zlen_nonneg]. Qed.

Lemma c45_union_refuted tbl dbg sc : sized sc ->
  exists mem l r out c' S T S' T' sched x' out1 n a',
    operands (CUnion mem l r out 0) S T /\ operands c' S' T'
    /\ interleave (flat sc) [calls_c tbl dbg [CUnion mem l r out 0]; calls_c tbl dbg [c']] sched
       = (x', [Ret (Ok [(out1, n)]); Ret (Ok [a'])])
    /\ exists i v, 0 <= i < n /\ znth out1 i = Some v /\ ~ In v S /\ ~ In v T.
Proof.
  intro Hs. destruct opened as (l & r & r' & O1 & O2 & _).
  pose proof (zlen_words 32769 ltac:(lia)) as LW.
  destruct (c45_race_union tbl dbg sc tmem l r (words 32769) 0 tmem l r' (words 32769) 0 dn [5] dn [40000] 0 (dn ++ [40000]) (dn ++ [40000])
    Hs (proj1 (O1 _ _)) (proj1 (O2 _ _))) as (sched & x' & a & a' & E & A & A').
  { apply at_start. }
  { apply at_start. }
  { exact chunk0. }
  { exact bitmap_dn. }
  { exact blocks_5. }
  { exact bitmap_dn. }
  { exact blocks_W. }
  { exact enum_dn_W. }
  { exact enum_dn_W. }
  apply answer_ok with (n := 32769) (m := 32769) in A as (o & -> & W); [|apply at_start|exact LW|exact zlen_dn_W|discriminate].
  apply answer_ok with (n := 32769) (m := 32769) in A' as (o' & -> & _); [|apply at_start|exact LW|exact zlen_dn_W|discriminate].
  exists tmem, l, r, (words 32769), (CUnion tmem l r' (words 32769) 0), dn, [5], dn, [40000], sched, x', o, 32769, (o', 32769).
  split; [exact (proj1 (O1 _ _))|]. split; [exact (proj1 (O2 _ _))|]. split; [exact E|].
  exists 32768, 40000. cbn [buffer snd] in W. split; [lia|]. split; [|split].
  - specialize (W 32768 ltac:(lia)). rewrite Z.add_0_l in W. rewrite W, znth_app_r by (rewrite zlen_dn; lia). rewrite zlen_dn. reflexivity.
  - intros H%In_dn. lia.
  - intros [H|[]]. discriminate.
Qed.
Lemma c45_union_overflow_refuted tbl dbg sc : sized sc ->
  exists c c' S T S' T' a b sched x' r',
    operands c S T /\ operands c' S' T' /\ isolated tbl dbg c = Ok a /\ isolated tbl dbg c' = Ok b
    /\ interleave (flat sc) [calls_c tbl dbg [c]; calls_c tbl dbg [c']] sched = (x', [Ret UB; Ret (Ok [r'])]).
Proof.
  intro Hs. destruct opened as (l & r & r' & O1 & O2 & _).
  pose proof (zlen_words 32769 ltac:(lia)) as LW. pose proof (zlen_words 32768 ltac:(lia)) as LW'.
  destruct (c45_race_union tbl dbg sc tmem l r (words 32768) 0 tmem l r' (words 32769) 0 dn [5] dn [40000] 0 (dn ++ [40000]) (dn ++ [40000])
    Hs (proj1 (O1 _ _)) (proj1 (O2 _ _))) as (sched & x' & a & a' & E & A & A').
  { apply at_start. }
  { apply at_start. }
  { exact chunk0. }
  { exact bitmap_dn. }
  { exact blocks_5. }
  { exact bitmap_dn. }
  { exact blocks_W. }
  { exact enum_dn_W. }
  { exact enum_dn_W. }
  apply answer_ub with (n := 32768) (m := 32769) in A; [|exact LW'|exact zlen_dn_W|reflexivity]. subst a.
  apply answer_ok with (n := 32769) (m := 32769) in A' as (o' & -> & _); [|apply at_start|exact LW|exact zlen_dn_W|discriminate].
  assert (ISO : forall r T out, operands (CUnion tmem l r out 0) dn T -> Forall (fun v => v / 65536 = 0) (dn ++ T) -> as_blocks T 0 = true ->
    (forall e, enumerates (fun v => In v dn \/ In v T) e -> zlen e <= zlen out) -> exists a, isolated tbl dbg (CUnion tmem l r out 0) = Ok a).
  { intros q T out (x & y & VS & VT & SS & ST & El & Er) F B Q.
    destruct (two_chunks tmem l q x y dn T 0 VS VT SS ST El Er F bitmap_dn B) as (s & t & ES & ET & Ks & Kt & Vs & Vt).
    pose proof (wf_one _ _ _ VS ES) as (_ & _ & Ss & _). pose proof (wf_one _ _ _ VT ET) as W. pose proof W as (_ & _ & St & _). cbn [snd] in Ss, St.
    pose proof (zlen_nonneg _ out).
    pose proof (paused_isolated tbl dbg (CUnion tmem l q out 0) (1024 + 4) 0 t (fun x => map (addb (0 * 65536)) (uni s x)) W) as P.
    cbn [buffer fst snd] in P. unfold fits in P. rewrite Z.add_0_l in P.
    assert (LE : zlen (map (addb (0 * 65536)) (uni s t)) <= zlen out).
    { apply Q. split; [apply sorted_map; [now apply sorted_uni|unfold addb; intros; lia]|].
      intro v. rewrite In_base, In_uni, <- (In_one dn 0 s v), <- (In_one T 0 t v) by auto. reflexivity. }
    destruct (Z.leb_spec (zlen (map (addb (0 * 65536)) (uni s t))) (zlen out)); [|lia].
    destruct P as (o & Eo & _); [|eauto]. apply paused_within with (lo := 4) (n := 1028); try lia. apply pu_paused; auto. lia. }
  destruct (ISO r [5] (words 32768)) as [a1 Ea]; [exact (proj1 (O1 _ _))| |exact blocks_5| |].
  { exact chunk01. }
  { intros e En. rewrite LW', <- zlen_dn. replace e with dn; [lia|]. apply (enumerates_unique (fun v => In v dn \/ In v [5])); [|exact En].
    split; [apply valid_dn|]. intro v. split; [auto|]. intros [Hv|[<-|[]]]; auto. apply In_dn. lia. }
  destruct (ISO r' [40000] (words 32769)) as [b1 Eb]; [exact (proj1 (O2 _ _))| |exact blocks_W| |].
  { exact chunk02. }
  { intros e En. rewrite LW, <- zlen_dn_W. replace e with (dn ++ [40000]); [lia|].
    apply (enumerates_unique (fun v => In v dn \/ In v [40000])); [exact enum_dn_W|exact En]. }
  exists (CUnion tmem l r (words 32768) 0), (CUnion tmem l r' (words 32769) 0), dn, [5], dn, [40000], a1, b1, sched, x', (o', 32769).
  split; [exact (proj1 (O1 _ _))|]. split; [exact (proj1 (O2 _ _))|]. split; [exact Ea|]. split; [exact Eb|]. exact E.
Qed.

(** *** several sequences *)
Lemma one_of u : enumerates (fun v => exists S, In S [[u]] /\ In v S) [u].
Proof.
  split; [apply sorted_cons; [apply sorted_nil|constructor]|]. intro v. split.
  - intro H. exists [u]. split; [now left|exact H].
  - intros (S & [<-|[]] & H). exact H.
Qed.
Lemma all_of u : enumerates (fun v => forall S, In S [[u]] -> In v S) [u].
Proof.
  split; [apply sorted_cons; [apply sorted_nil|constructor]|]. intro v. split.
  - intros H S [<-|[]]. exact H.
  - intro H. apply H. now left.
Qed.
Lemma one_chunks : forall S, In S ([[5]] ++ [[40000]]) -> Forall (fun v => v / 65536 = 0) S.
Proof. intros S [<-|[<-|[]]]; repeat constructor. Qed.
Lemma c45_union_many_refuted tbl dbg sc : sized sc ->
  exists mem seqs out c' Ss Ss' sched x' out1 n a',
    many_operands (CUnionMany mem seqs out 0) Ss /\ many_operands c' Ss'
    /\ interleave (flat sc) [calls_c tbl dbg [CUnionMany mem seqs out 0]; calls_c tbl dbg [c']] sched
       = (x', [Ret (Ok [(out1, n)]); Ret (Ok [a'])])
    /\ exists i v, 0 <= i < n /\ znth out1 i = Some v /\ forall S, In S Ss -> ~ In v S.
Proof.
  intro Hs. destruct opened as (l & r & r' & _ & _ & _ & O3 & O4 & _). pose proof (zlen_words 1 ltac:(lia)) as LW.
  destruct (c45_race_union_many tbl dbg sc tmem [r] (words 1) 0 tmem [r'] (words 1) 0 [[5]] [[40000]] 0 [40000]
    Hs (proj1 (O3 _ _)) (proj1 (O4 _ _))) as (sched & x' & a & a' & E & A & A').
  { apply at_start. }
  { apply at_start. }
  { exact one_chunks. }
  { apply one_of. }
  apply answer_ok with (n := 1) (m := 1) in A as (o & -> & W); [|apply at_start|exact LW|reflexivity|discriminate].
  apply answer_ok with (n := 1) (m := 1) in A' as (o' & -> & _); [|apply at_start|exact LW|reflexivity|discriminate].
  exists tmem, [r], (words 1), (CUnionMany tmem [r'] (words 1) 0), [[5]], [[40000]], sched, x', o, 1, (o', 1).
  split; [exact (proj1 (O3 _ _))|]. split; [exact (proj1 (O4 _ _))|]. split; [exact E|].
  exists 0, 40000. cbn [buffer snd] in W. split; [lia|]. split; [exact (W 0 ltac:(lia))|].
  intros S [<-|[]] [H|[]]. discriminate.
Qed.
Lemma c45_intersection_many_refuted tbl dbg sc : sized sc ->
  exists mem seqs out c' Ss Ss' sched x' out1 n a',
    many_operands (CInterMany mem seqs out 0) Ss /\ many_operands c' Ss'
    /\ interleave (flat sc) [calls_c tbl dbg [CInterMany mem seqs out 0]; calls_c tbl dbg [c']] sched
       = (x', [Ret (Ok [(out1, n)]); Ret (Ok [a'])])
    /\ exists i v, 0 <= i < n /\ znth out1 i = Some v /\ forall S, In S Ss -> ~ In v S.
Proof.
  intro Hs. destruct opened as (l & r & r' & _ & _ & _ & O3 & O4 & _). pose proof (zlen_words 1 ltac:(lia)) as LW.
  destruct (c45_race_intersection_many tbl dbg sc tmem [r] (words 1) 0 tmem [r'] (words 1) 0 [[5]] [[40000]] 0 [5] [40000]
    Hs (proj2 (O3 _ _)) (proj2 (O4 _ _))) as (sched & x' & a & a' & E & A & A').
  { apply at_start. }
  { apply at_start. }
  { exact one_chunks. }
  { apply all_of. }
  { discriminate. }
  { apply all_of. }
  { discriminate. }
  apply answer_ok with (n := 1) (m := 1) in A as (o & -> & W); [|apply at_start|exact LW|reflexivity|discriminate].
  apply answer_ok with (n := 1) (m := 1) in A' as (o' & -> & _); [|apply at_start|exact LW|reflexivity|discriminate].
  exists tmem, [r], (words 1), (CInterMany tmem [r'] (words 1) 0), [[5]], [[40000]], sched, x', o, 1, (o', 1).
  split; [exact (proj2 (O3 _ _))|]. split; [exact (proj2 (O4 _ _))|]. split; [exact E|].
  exists 0, 40000. cbn [buffer snd] in W. split; [lia|]. split; [exact (W 0 ltac:(lia))|].
  intros S [<-|[]] [H|[]]. discriminate.
Qed.

(** *** the hypotheses of the theorems *)
Lemma unmixed_5W : unmixed [5] [40000].
Proof.
  intro h. rewrite (no_bitmap 5 h) by (lia || (vm_compute; reflexivity)).
  rewrite (no_bitmap 40000 h) by (lia || (vm_compute; reflexivity)). rewrite andb_false_r. auto.
Qed.
Lemma c45_safe_hyps : exists l r r' css,
  css = [ [CInter tmem l r (words 24) 0; CUnion tmem l r' (words 40000) 0]
        ; [CInter tmem r r' (words 24) 0; CUnionMany tmem [l; r] (words 40000) 0]
        ; [CInterMany tmem [l; r] (words 24) 0; CInter tmem r r' (words 24) 0] ]
  /\ operands (CInter tmem l r (words 24) 0) dn [5] /\ operands (CInter tmem r r' (words 24) 0) [5] [40000]
  /\ forall i j cs ds c d, i <> j -> nth_error css i = Some cs -> nth_error css j = Some ds -> In c cs -> In d ds -> independent c d.
Proof.
  destruct opened as (l & r & r' & O1 & _ & _ & _ & _ & O5). exists l, r, r'. eexists. split; [reflexivity|].
  split; [exact (proj2 (O1 _ _))|]. split; [exact (O5 _ _)|].
  assert (NV : exists S T, operands (CInter tmem r r' (words 24) 0) S T /\ unmixed S T) by (exists [5], [40000]; split; [exact (O5 _ _)|exact unmixed_5W]).
  intros i j cs ds c d N Hi Hj Hc Hd.
  destruct i as [|[|[|i]]]; cbn [nth_error] in Hi; [| | |destruct i; discriminate]; injection Hi as <-;
    (destruct j as [|[|[|j]]]; cbn [nth_error] in Hj; [| | |destruct j; discriminate]); injection Hj as <-; try (exfalso; apply N; reflexivity);
    (destruct Hc as [<-|[<-|[]]]); (destruct Hd as [<-|[<-|[]]]); unfold independent; try exact I; first [left; exact NV|right; exact NV].
Qed.
Lemma c45_union_hyps : exists l r r', let c := CUnion tmem l r (words 32768) 0 in let c' := CUnion tmem l r' (words 32769) 0 in
  operands c dn [5] /\ operands c' dn [40000] /\ has_place c /\ has_place c'
  /\ Forall (fun v => v / 65536 = 0) (dn ++ [5] ++ dn ++ [40000])
  /\ as_bitmap dn 0 = true /\ as_blocks [5] 0 = true /\ as_bitmap dn 0 = true /\ as_blocks [40000] 0 = true
  /\ enumerates (fun v => In v dn \/ In v [40000]) (dn ++ [40000]).
Proof.
  destruct opened as (l & r & r' & O1 & O2 & _). exists l, r, r'.
  exact (conj (proj1 (O1 _ _)) (conj (proj1 (O2 _ _)) (conj (at_start _) (conj (at_start _) (conj chunk0
    (conj bitmap_dn (conj blocks_5 (conj bitmap_dn (conj blocks_W enum_dn_W))))))))).
Qed.
Lemma enum_dn_none : enumerates (fun v => In v dn /\ In v [40000]) [].
Proof. split; [apply sorted_nil|]. intro v. split; [intros []|]. intros [H%In_dn [<-|[]]]. lia. Qed.
Lemma c45_inter_hyps : exists l r r', let c := CInter tmem l r (words 24) 0 in let c' := CInter tmem l r' (words 24) 0 in
  operands c dn [5] /\ operands c' dn [40000] /\ has_place c /\ has_place c'
  /\ Forall (fun v => v / 65536 = 0) (dn ++ [5] ++ dn ++ [40000])
  /\ as_bitmap dn 0 = true /\ as_blocks [5] 0 = true /\ as_bitmap dn 0 = true /\ as_blocks [40000] 0 = true
  /\ enumerates (fun v => In v dn /\ In v [40000]) [].
Proof.
  destruct opened as (l & r & r' & O1 & O2 & _). exists l, r, r'.
  exact (conj (proj2 (O1 _ _)) (conj (proj2 (O2 _ _)) (conj (at_start _) (conj (at_start _) (conj chunk0
    (conj bitmap_dn (conj blocks_5 (conj bitmap_dn (conj blocks_W enum_dn_none))))))))).
Qed.
Lemma c45_many_hyps : exists r r',
  many_operands (CUnionMany tmem [r] (words 1) 0) [[5]] /\ many_operands (CUnionMany tmem [r'] (words 1) 0) [[40000]]
  /\ many_operands (CInterMany tmem [r] (words 1) 0) [[5]] /\ many_operands (CInterMany tmem [r'] (words 1) 0) [[40000]]
  /\ has_place (CUnionMany tmem [r] (words 1) 0)
  /\ (forall S, In S ([[5]] ++ [[40000]]) -> Forall (fun v => v / 65536 = 0) S)
  /\ enumerates (fun v => exists S, In S [[40000]] /\ In v S) [40000]
  /\ enumerates (fun v => forall S, In S [[5]] -> In v S) [5] /\ enumerates (fun v => forall S, In S [[40000]] -> In v S) [40000].
Proof.
  destruct opened as (l & r & r' & _ & _ & _ & O3 & O4 & _). exists r, r'.
  exact (conj (proj1 (O3 _ _)) (conj (proj1 (O4 _ _)) (conj (proj2 (O3 _ _)) (conj (proj2 (O4 _ _)) (conj (at_start _)
    (conj one_chunks (conj (one_of 40000) (conj (all_of 5) (all_of 40000))))))))).
Qed.
Definition words1 (n : Z) : list Z := repeat 1 (Z.to_nat n).
Lemma zlen_words1 n : 0 <= n -> zlen (words1 n) = n.
Proof. intro H. unfold words1. rewrite zlen_repeat, Z2Nat.id; lia. Qed.
Lemma sized1 : sized (mkScratch (words1 1024) (words1 4) (words1 1024) (words1 1024) (words1 1024) (words1 65536) (words1 1024) (words1 1024)).
Proof.
  unfold sized. cbn [sc_inter sc_block sc_union sc_and sc_or sc_headers sc_ibitmap sc_ubitmap].
  rewrite !zlen_words1 by lia. auto 10.
Qed.
