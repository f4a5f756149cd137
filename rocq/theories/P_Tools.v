(** The programs under /repo/tools. *)
From Verif Require Import Base Hw Spec Format Room Holds Told Drawn Lib M_Util M_Build M_Seq M_Decode M_Query M_Index M_Print
  M_Drivers M_Tools P_Seq P_Format P_Ex P_Index P_Fin5 P_Tests P_Tests2 P_Short P_Tests3 P_Tests4 P_Tests5 P_Room P_Drivers.
From Coq Require Import Lia Sorted Floats.SpecFloat.

(** ** random numbers *)
Lemma draw_in from to tape : from <= to -> from <= fst (draw from to tape) <= to.
Proof.
  intro H. destruct tape as [|r tape]; cbn [draw fst]; [lia|].
  pose proof (Z.mod_pos_bound r (to - from + 1) ltac:(lia)). lia.
Qed.
Lemma draw_tape from to x rest : from <= x <= to -> draw from to (x - from :: rest) = (x, rest).
Proof. intro H. cbn [draw]. rewrite Z.mod_small by lia. f_equal. lia. Qed.
Lemma draws_in from to : forall n tape, from <= to ->
  length (fst (draws n from to tape)) = n /\ Forall (fun v => from <= v <= to) (fst (draws n from to tape)).
Proof.
  induction n; intros tape H; cbn [draws]; [split; [auto|constructor]|].
  pose proof (draw_in from to tape H) as D. destruct (draw from to tape) as [x t]. cbn [fst] in D.
  destruct (IHn t H) as [L F]. destruct (draws n from to t) as [l t']. cbn [fst] in *.
  split; [cbn [length]; lia|]. constructor; auto.
Qed.
Lemma draws_tape from to rest : forall l, Forall (fun v => from <= v <= to) l ->
  draws (length l) from to (map (fun x => x - from) l ++ rest) = (l, rest).
Proof.
  induction l as [|x l IH]; intro F; auto. apply Forall_cons_iff in F as [Hx F].
  cbn [length draws map app]. rewrite draw_tape by auto. now rewrite IH.
Qed.

(** ** sorting *)
Lemma In_insert x y l : In y (insert x l) <-> y = x \/ In y l.
Proof.
  induction l as [|z l IH]; cbn [insert]; [cbn; intuition|].
  destruct (x <=? z); cbn [In]; [intuition|]. rewrite IH. intuition.
Qed.
Lemma In_sort y l : In y (std_sort l) <-> In y l.
Proof. induction l as [|x l IH]; cbn [std_sort]; [tauto|]. rewrite In_insert, IH. cbn [In]. intuition. Qed.
Lemma length_insert x l : length (insert x l) = S (length l).
Proof. induction l as [|y l IH]; cbn [insert]; auto. destruct (x <=? y); cbn [length]; auto. Qed.
Lemma length_sort l : length (std_sort l) = length l.
Proof. induction l as [|x l IH]; cbn [std_sort length]; auto. rewrite length_insert. auto. Qed.
Lemma le_insert x l : StronglySorted Z.le l -> StronglySorted Z.le (insert x l).
Proof.
  induction l as [|y l IH]; intro H; cbn [insert].
  - constructor; auto.
  - apply StronglySorted_inv in H as [H F]. destruct (Z.leb_spec x y).
    + constructor; [constructor; auto|]. constructor; auto. eapply Forall_impl; [|exact F]. cbn beta. intros; lia.
    + constructor; auto. rewrite Forall_forall in *. intros z Hz. apply In_insert in Hz as [->|Hz]; [lia|auto].
Qed.
Lemma le_sort l : StronglySorted Z.le (std_sort l).
Proof. induction l as [|x l IH]; cbn [std_sort]; [constructor|]. now apply le_insert. Qed.
Lemma unique_ok : forall l, StronglySorted Z.le l -> enumerates (fun v => In v l) (std_unique l).
Proof.
  induction l as [|x l IH]; intro H; [split; [constructor|cbn; tauto]|].
  apply StronglySorted_inv in H as [H F]. destruct (IH H) as [S I].
  assert (EQ : std_unique (x :: l) = match l with [] => [x] | y :: _ => if x =? y then std_unique l else x :: std_unique l end)
    by (destruct l; reflexivity).
  rewrite EQ. destruct l as [|y l].
  - split; [constructor; auto|]. cbn. tauto.
  - destruct (Z.eqb_spec x y) as [->|N].
    + split; auto. intro v. rewrite I. cbn [In]. intuition.
    + split.
      * constructor; auto. rewrite Forall_forall in *. intros v Hv. apply I in Hv.
        apply StronglySorted_inv in H as [_ F']. rewrite Forall_forall in F'.
        pose proof (F y (or_introl eq_refl)). destruct Hv as [->|Hv]; [lia|]. specialize (F' v Hv). lia.
      * intro v. cbn [In]. cbn [In] in I. rewrite I. intuition.
Qed.
Lemma unique_sort l : enumerates (fun v => In v l) (std_unique (std_sort l)).
Proof.
  destruct (unique_ok (std_sort l) (le_sort l)) as [S I]. split; auto. intro v. rewrite I. apply In_sort.
Qed.
Lemma length_unique : forall l, (length (std_unique l) <= length l)%nat.
Proof.
  induction l as [|x l IH]; auto. cbn [std_unique]. destruct l as [|y l]; auto.
  destruct (x =? y); cbn [length] in *; lia.
Qed.
Lemma unique_sort_eq l L : StronglySorted Z.lt L -> (forall v, In v l <-> In v L) -> std_unique (std_sort l) = L.
Proof.
  intros S I. apply enumerates_unique with (P := fun v => In v l); [apply unique_sort|]. split; auto.
  intro v. now rewrite I.
Qed.

(** ** gen_uniform_data *)
Lemma uniform_sound a b u : 0 <= a <= b -> 0 <= u -> forall m tape,
  exists Ls t, uniform_lists m a b u tape = (flat_map (fun L => zlen L :: L) Ls, t)
    /\ length Ls = m /\ Forall (uniform_list a b u) Ls.
Proof.
  intros Hab Hu. induction m; intro tape; cbn [uniform_lists].
  - exists [], tape. auto.
  - pose proof (draw_in a b tape ltac:(lia)) as D. destruct (draw a b tape) as [n t]. cbn [fst] in D.
    destruct (draws_in 0 u (Z.to_nat n) t Hu) as [Dl Df]. destruct (draws (Z.to_nat n) 0 u t) as [l t1]. cbn [fst] in Dl, Df.
    destruct (IHm t1) as (Ls & t2 & -> & LL & F). exists (std_unique (std_sort l) :: Ls), t2.
    split; [reflexivity|]. split; [cbn [length]; auto|]. constructor; auto.
    destruct (unique_sort l) as [S I]. split; auto. split; [|split].
    + rewrite Forall_forall in *. intros v Hv. apply Df. now apply I.
    + pose proof (length_unique (std_sort l)). rewrite length_sort in *. unfold zlen. lia.
    + intro E. destruct (Z.eq_dec a 0); auto. exfalso. destruct l as [|x l]; [cbn in Dl; lia|].
      rewrite E in I. apply (proj2 (I x)). now left.
Qed.
Lemma uniform_complete a b u : 0 <= a <= b -> 0 <= u -> forall Ls, Forall (uniform_list a b u) Ls ->
  exists t, forall rest, uniform_lists (length Ls) a b u (t ++ rest) = (flat_map (fun L => zlen L :: L) Ls, rest).
Proof.
  intros Hab Hu. induction Ls as [|L Ls IH]; intro F; [exists []; auto|].
  apply Forall_cons_iff in F as [(S & V & LB & N) F]. destruct (IH F) as (t & E).
  set (n := Z.max a (zlen L)).
  set (l := L ++ repeat (hd 0 L) (Z.to_nat (n - zlen L))).
  pose proof (zlen_nonneg _ L) as Z0.
  assert (Ll : length l = Z.to_nat n) by (unfold l; rewrite app_length, repeat_length; unfold n, zlen; lia).
  assert (I : forall v, In v l <-> In v L).
  { intro v. unfold l. rewrite in_app_iff. split; [|auto]. intros [H|H]; auto. pose proof (repeat_spec _ _ _ H) as Ev.
    destruct L as [|x L]; [|cbn [hd] in Ev; rewrite Ev; now left].
    unfold n in H. rewrite (N eq_refl) in H. cbn in H. destruct H. }
  exists ((n - a) :: map (fun x => x - 0) l ++ t). intro rest. cbn [length uniform_lists app].
  rewrite draw_tape by (unfold n; lia). rewrite <- Ll, <- app_assoc, draws_tape.
  - rewrite (unique_sort_eq l L S I), E. reflexivity.
  - rewrite Forall_forall in *. intros v Hv. apply V. now apply I.
Qed.

Definition may_uniform (num a b u : Z) (data : list Z) : Prop :=
  exists Ls, zlen Ls = num /\ Forall (uniform_list a b u) Ls /\ data = collection u Ls.
Lemma gen_uniform_ok num a b u : 0 <= num -> 0 <= a -> 0 <= u ->
  (a <= b -> (forall tape, exists data, gen_uniform num a b u tape = Ok data /\ may_uniform num a b u data)
             /\ (forall data, may_uniform num a b u data -> exists tape, gen_uniform num a b u tape = Ok data))
  /\ (b < a -> forall tape, gen_uniform num a b u tape = UB).
Proof.
  intros Hn Ha Hu. split.
  - intro Hab. unfold gen_uniform, distr. rewrite (proj2 (Z.leb_le a b) Hab), (proj2 (Z.leb_le 0 u) Hu). cbn [bind]. split.
    + intro tape. destruct (uniform_sound a b u (conj Ha Hab) Hu (Z.to_nat num) tape) as (Ls & t & -> & L & F).
      eexists. split; [reflexivity|]. exists Ls. split; [unfold zlen; lia|]. split; auto.
    + intros data (Ls & L & F & ->). destruct (uniform_complete a b u (conj Ha Hab) Hu Ls F) as (t & E).
      exists t. specialize (E []). rewrite app_nil_r in E. replace (Z.to_nat num) with (length Ls) by (unfold zlen in L; lia).
      now rewrite E.
  - intros H tape. unfold gen_uniform, distr. now rewrite (proj2 (Z.leb_gt a b) H).
Qed.

(** ** gen_event *)
Lemma f32_small x : 0 <= x < 2 ^ 29 -> 0 <= f32 x <= x + 32.
Proof.
  intro H. unfold f32. destruct (Z.ltb_spec x (2 ^ 24)); [lia|].
  assert (L : 24 <= Z.log2 x <= 28).
  { split; [apply Z.log2_le_pow2; lia|]. assert (Z.log2 x < 29) by (apply Z.log2_lt_pow2; lia). lia. }
  set (p := 2 ^ (Z.log2 x - 23)). assert (P : 0 < p <= 32).
  { unfold p. split; [apply Z.pow_pos_nonneg; lia|]. change 32 with (2 ^ 5). apply Z.pow_le_mono_r; lia. }
  clearbody p. pose proof (Z.div_mod x p ltac:(lia)). pose proof (Z.mod_pos_bound x p ltac:(lia)).
  pose proof (Z.div_pos x p ltac:(lia) ltac:(lia)).
  destruct ((2 * (x mod p) <? p) || (2 * (x mod p) =? p) && Z.even (x / p)); nia.
Qed.
Lemma f32_29 x : 2 ^ 29 <= x < 2 ^ 30 ->
  f32 x = let q := x / 64 in let r := x mod 64 in if (2 * r <? 64) || (2 * r =? 64) && Z.even q then q * 64 else (q + 1) * 64.
Proof.
  intro H. unfold f32. destruct (Z.ltb_spec x (2 ^ 24)); [lia|].
  rewrite (Z.log2_unique x 29) by lia. reflexivity.
Qed.
Lemma f32_30 x : 2 ^ 30 <= x < 2 ^ 31 ->
  f32 x = let q := x / 128 in let r := x mod 128 in if (2 * r <? 128) || (2 * r =? 128) && Z.even q then q * 128 else (q + 1) * 128.
Proof.
  intro H. unfold f32. destruct (Z.ltb_spec x (2 ^ 24)); [lia|].
  rewrite (Z.log2_unique x 30) by lia. reflexivity.
Qed.
Lemma f32_rand x : 0 <= x < 2 ^ 31 ->
  0 <= f32 x <= 2 ^ 31 /\ (f32 x <= 644245120 <-> x <= 644245152) /\ (f32 x <= 2 ^ 30 <-> x <= 2 ^ 30 + 64).
Proof.
  intro H. destruct (Z_lt_le_dec x (2 ^ 29)) as [A|A].
  { pose proof (f32_small x ltac:(lia)). lia. }
  destruct (Z_lt_le_dec x (2 ^ 30)) as [B|B].
  - rewrite f32_29 by lia. cbn zeta. pose proof (Z.div_mod x 64 ltac:(lia)) as D.
    pose proof (Z.mod_pos_bound x 64 ltac:(lia)) as M. set (q := x / 64) in *. set (r := x mod 64) in *. clearbody q r.
    assert (EV : q = 10066330 -> Z.even q = true) by (intros ->; reflexivity).
    destruct (Z.ltb_spec (2 * r) 64); [cbn [orb]; lia|].
    destruct (Z.eqb_spec (2 * r) 64); cbn [orb andb]; [|lia].
    destruct (Z.even q); [lia|]. assert (q <> 10066330) by (intro X; specialize (EV X); discriminate). lia.
  - rewrite f32_30 by lia. cbn zeta. pose proof (Z.div_mod x 128 ltac:(lia)) as D.
    pose proof (Z.mod_pos_bound x 128 ltac:(lia)) as M. set (q := x / 128) in *. set (r := x mod 128) in *. clearbody q r.
    assert (EV : q = 8388608 -> Z.even q = true) by (intros ->; reflexivity).
    destruct (Z.ltb_spec (2 * r) 128); [cbn [orb]; lia|].
    destruct (Z.eqb_spec (2 * r) 128); cbn [orb andb]; [|lia].
    destruct (Z.even q); [lia|]. assert (q <> 8388608) by (intro X; specialize (EV X); discriminate). lia.
Qed.
Lemma gen_event_ok dbg p : 0 <= p <= 2 ^ 31 ->
  gen_event dbg p = Ok (if p <=? 644245120 then 0 else if p <=? 2 ^ 30 then 1 else 2).
Proof.
  intro H. unfold gen_event. rewrite assert_ok by (apply andb_true_iff; split; apply Z.leb_le; lia). cbn [bind].
  change (vget event_probs 0) with (Ok 644245120). cbn [bind].
  cbn [gen_event_loop]. rewrite (Z.leb_antisym 644245120 p). destruct (Z.ltb_spec 644245120 p); cbn [negb].
  2:{ cbn [bind]. rewrite assert_ok by reflexivity. reflexivity. }
  change (vget event_probs (0 + 1)) with (Ok 429496736). cbn [bind].
  change (f32 (644245120 + 429496736)) with 1073741824. change (2 ^ 30) with 1073741824.
  cbn [gen_event_loop]. rewrite (Z.leb_antisym 1073741824 p). destruct (Z.ltb_spec 1073741824 p); cbn [negb].
  2:{ cbn [bind]. rewrite assert_ok by reflexivity. reflexivity. }
  change (vget event_probs (0 + 1 + 1)) with (Ok 1073741824). cbn [bind].
  change (f32 (1073741824 + 1073741824)) with 2147483648.
  cbn [gen_event_loop]. destruct (Z.ltb_spec 2147483648 p); [lia|]. cbn [bind]. rewrite assert_ok by reflexivity. reflexivity.
Qed.
Lemma event_ok dbg r : 0 <= r < 2 ^ 31 ->
  gen_event dbg (float_rand r) = Ok (if r <=? 644245152 then 0 else if r <=? 1073741888 then 1 else 2).
Proof.
  intro H. unfold float_rand. destruct (f32_rand r H) as (R & A & B). rewrite gen_event_ok by auto. f_equal.
  destruct (Z.leb_spec (f32 r) 644245120), (Z.leb_spec r 644245152); try lia; auto.
  destruct (Z.leb_spec (f32 r) (2 ^ 30)), (Z.leb_spec r 1073741888); try lia; auto.
Qed.

(** ** gen_clustered_data *)
Lemma event_any dbg tape : exists c tape', (c = 0 \/ c = 1 \/ c = 2)
  /\ (let (r, t) := draw 0 2147483647 tape in (gen_event dbg (float_rand r), t)) = (Ok c, tape').
Proof.
  pose proof (draw_in 0 2147483647 tape ltac:(lia)) as D. destruct (draw 0 2147483647 tape) as [r t]. cbn [fst] in D.
  rewrite event_ok by lia. do 2 eexists. split; [|reflexivity].
  destruct (r <=? 644245152); auto. destruct (r <=? 1073741888); auto.
Qed.
Lemma all_of lo hi v : 0 <= lo <= hi -> hi < 2 ^ 32 ->
  In v (map (fun j => u32 (lo + Z.of_nat j)) (seq 0 (Z.to_nat (u32 (hi - lo))))) <-> lo <= v < hi.
Proof.
  intros H H2. rewrite (u32_id (hi - lo)) by lia. rewrite in_map_iff. split.
  - intros (j & E & Hj). apply in_seq in Hj. rewrite u32_id in E; lia.
  - intro Hv. exists (Z.to_nat (v - lo)). split; [rewrite u32_id; lia|]. apply in_seq. lia.
Qed.
Lemma one_slice_sound dbg u lo tape : 0 <= lo < u -> u < 2 ^ 32 -> lo + 65536 < 2 ^ 32 ->
  exists P t, one_slice dbg u lo (lo + 65536) tape = Ok (P, t) /\ drawn lo (Z.min (lo + 65536) u) P.
Proof.
  intros H H2 H3. unfold one_slice. destruct (event_any dbg tape) as (c & t & HC & E).
  destruct (draw 0 2147483647 tape) as [r t']. injection E as E <-. rewrite E. cbn [bind].
  destruct HC as [HC|[HC|HC]]; subst c.
  - change (0 =? 0) with true. cbn iota. do 2 eexists. split; [reflexivity|]. now left.
  - change (1 =? 0) with false. change (1 =? 1) with true. cbn iota.
    do 2 eexists. split; [reflexivity|]. right. left. intro v. apply all_of; lia.
  - change (2 =? 0) with false. change (2 =? 1) with false. change (2 =? 2) with true. cbn iota.
    unfold distr. rewrite (proj2 (Z.leb_le lo _)) by lia. cbn [bind].
    pose proof (draw_in 10 16384 t' ltac:(lia)) as D. destruct (draw 10 16384 t') as [n t1]. cbn [fst] in D.
    destruct (draws_in lo (Z.min (lo + 65536) u) (Z.to_nat n) t1 ltac:(lia)) as [L F].
    destruct (draws (Z.to_nat n) lo _ t1) as [l t2]. cbn [fst] in L, F. do 2 eexists. split; [reflexivity|].
    right. right. split; auto. unfold zlen. lia.
Qed.
Lemma one_slice_complete dbg u lo P : 0 <= lo < u -> u < 2 ^ 32 -> lo + 65536 < 2 ^ 32 ->
  drawn lo (Z.min (lo + 65536) u) P ->
  exists P' t, (forall v, In v P' <-> In v P) /\ forall rest, one_slice dbg u lo (lo + 65536) (t ++ rest) = Ok (P', rest).
Proof.
  intros H H2 H3 [->|[A|[N F]]].
  - exists [], [0]. split; [tauto|]. intro rest. unfold one_slice. cbn [app].
    change (0 :: rest) with (0 - 0 :: rest). rewrite draw_tape by lia. rewrite event_ok by lia. reflexivity.
  - eexists (map (fun j => u32 (lo + Z.of_nat j)) (seq 0 (Z.to_nat (u32 (Z.min (lo + 65536) u - lo))))), [1000000000]. split.
    + intro v. rewrite A. apply all_of; lia.
    + intro rest. unfold one_slice. cbn [app]. change (1000000000 :: rest) with (1000000000 - 0 :: rest).
      rewrite draw_tape by lia. rewrite event_ok by lia. reflexivity.
  - exists P, (2000000000 :: zlen P - 10 :: map (fun x => x - lo) P). split; [tauto|]. intro rest. unfold one_slice. cbn [app].
    change (2000000000 :: ?r) with (2000000000 - 0 :: r). rewrite draw_tape by lia. rewrite event_ok by lia. cbn [bind].
    unfold distr. rewrite (proj2 (Z.leb_le lo _)) by lia. change (2000000000 <=? 644245152) with false.
    change (2000000000 <=? 1073741888) with false. cbn iota. cbn [bind Z.eqb].
    rewrite draw_tape by lia. unfold zlen. rewrite Nat2Z.id. rewrite draws_tape by auto. reflexivity.
Qed.

(** what is drawn for the slices from the [i]-th on *)
Definition parts (u i : Z) (Ps : list (list Z)) : Prop :=
  zlen Ps = Z.max 0 ((u + 65535) / 65536 - i)
  /\ forall j P, znth Ps j = Some P -> drawn (65536 * (i + j)) (Z.min (65536 * (i + j + 1)) u) P.
Lemma parts_done u i : u <= 65536 * i -> parts u i [].
Proof.
  intro H. split; [|intros j P E; now rewrite znth_nil in E]. rewrite zlen_nil.
  pose proof (Z.div_mod (u + 65535) 65536 ltac:(lia)). pose proof (Z.mod_pos_bound (u + 65535) 65536 ltac:(lia)). lia.
Qed.
Lemma parts_nil u i Ps : u <= 65536 * i -> parts u i Ps -> Ps = [].
Proof.
  intros H [L _]. apply zlen_0. rewrite L.
  pose proof (Z.div_mod (u + 65535) 65536 ltac:(lia)). pose proof (Z.mod_pos_bound (u + 65535) 65536 ltac:(lia)). lia.
Qed.
Lemma parts_cons u i P Ps : 65536 * i < u ->
  parts u i (P :: Ps) <-> drawn (65536 * i) (Z.min (65536 * i + 65536) u) P /\ parts u (i + 1) Ps.
Proof.
  intro H. unfold parts. rewrite zlen_cons. pose proof (zlen_nonneg _ Ps).
  pose proof (Z.div_mod (u + 65535) 65536 ltac:(lia)). pose proof (Z.mod_pos_bound (u + 65535) 65536 ltac:(lia)). split.
  - intros [L F]. split; [|split; [lia|]].
    + specialize (F 0 P (znth_cons_0 _ _ _)). replace (65536 * (i + 0 + 1)) with (65536 * i + 65536) in F by lia.
      now rewrite Z.add_0_r in F.
    + intros j Q E. pose proof (znth_lt _ _ _ _ E). specialize (F (j + 1) Q). rewrite znth_cons_pos in F by lia.
      rewrite Z.add_simpl_r in F. replace (i + 1 + j) with (i + (j + 1)) by lia. auto.
  - intros [D [L F]]. split; [lia|]. intros j Q E. pose proof (znth_lt _ _ _ _ E). destruct (Z.eq_dec j 0) as [->|N].
    + rewrite znth_cons_0 in E. injection E as <-. rewrite Z.add_0_r. now replace (65536 * (i + 1)) with (65536 * i + 65536) by lia.
    + rewrite znth_cons_pos in E by lia. specialize (F _ _ E). now replace (i + 1 + (j - 1)) with (i + j) in F by lia.
Qed.
Lemma parts_ne u i Ps : 65536 * i < u -> parts u i Ps -> Ps <> [].
Proof.
  intros H [L _] ->. rewrite zlen_nil in L.
  pose proof (Z.div_mod (u + 65535) 65536 ltac:(lia)). pose proof (Z.mod_pos_bound (u + 65535) 65536 ltac:(lia)). lia.
Qed.

Lemma slices_sound dbg u : u <= 4294901760 -> forall fuel i acc tape, 0 <= i <= 65535 -> u <= 65536 * (i + Z.of_nat fuel) ->
  exists Ps t, slices fuel dbg u (65536 * i) (u32 (65536 * i + 65536)) acc tape = Ok (acc ++ concat Ps, t) /\ parts u i Ps.
Proof.
  intro Hu. induction fuel; intros i acc tape Hi HF; cbn [slices].
  - destruct (Z.ltb_spec (65536 * i) u); [lia|]. exists [], tape. cbn [concat]. rewrite app_nil_r. split; auto. apply parts_done. lia.
  - destruct (Z.ltb_spec (65536 * i) u) as [A|A].
    2:{ exists [], tape. cbn [concat]. rewrite app_nil_r. split; auto. apply parts_done. lia. }
    rewrite (u32_id (65536 * i + 65536)) by lia.
    destruct (one_slice_sound dbg u (65536 * i) tape) as (P & t & E & D); try lia. rewrite E. cbn [bind].
    destruct (IHfuel (i + 1) (acc ++ P) t) as (Ps & t' & E' & D'); try lia.
    replace (65536 * (i + 1)) with (65536 * i + 65536) in E' by lia. rewrite E'.
    exists (P :: Ps), t'. cbn [concat]. rewrite app_assoc. split; auto. apply parts_cons; auto.
Qed.
Lemma slices_complete dbg u : u <= 4294901760 -> forall fuel i Ps, 0 <= i <= 65535 -> u <= 65536 * (i + Z.of_nat fuel) ->
  parts u i Ps ->
  exists l t, (forall v, In v l <-> exists P, In P Ps /\ In v P)
    /\ forall acc rest, slices fuel dbg u (65536 * i) (u32 (65536 * i + 65536)) acc (t ++ rest) = Ok (acc ++ l, rest).
Proof.
  intro Hu. assert (X : forall fuel i Ps, u <= 65536 * i -> parts u i Ps ->
    exists l t, (forall v, In v l <-> exists P, In P Ps /\ In v P)
    /\ forall acc rest, slices fuel dbg u (65536 * i) (u32 (65536 * i + 65536)) acc (t ++ rest) = Ok (acc ++ l, rest)).
  { intros fuel i Ps A HP. rewrite (parts_nil u i Ps A HP). exists [], []. split.
    - intro v. split; [intros []|intros (P & [] & _)].
    - intros acc rest. rewrite app_nil_r. cbn [app]. destruct fuel; cbn [slices]; destruct (Z.ltb_spec (65536 * i) u); auto; lia. }
  induction fuel; intros i Ps Hi HF HP; [apply X; auto; lia|].
  destruct (Z_lt_le_dec (65536 * i) u) as [A|A]; [|apply X; auto].
  destruct Ps as [|P Ps]; [now apply parts_ne in HP|]. apply parts_cons in HP as [D HP]; auto.
  destruct (one_slice_complete dbg u (65536 * i) P) as (P' & t & I & E); auto; try lia.
  destruct (IHfuel (i + 1) Ps) as (l & t' & I' & E'); auto; try lia.
  exists (P' ++ l), (t ++ t'). split.
  - intro v. rewrite in_app_iff, I, I'. cbn [In]. split.
    + intros [H|(Q & H1 & H2)]; eauto.
    + intros (Q & [->|H1] & H2); eauto.
  - intros acc rest. cbn [slices]. destruct (Z.ltb_spec (65536 * i) u); [|lia].
    rewrite (u32_id (65536 * i + 65536)) by lia. rewrite <- app_assoc, E. cbn [bind].
    replace (65536 * i + 65536) with (65536 * (i + 1)) by lia. rewrite E', app_assoc. reflexivity.
Qed.

Lemma parts_0 u Ps : 0 <= u -> parts u 0 Ps <->
  zlen Ps = (u + 65535) / 65536
  /\ (forall i P, znth Ps i = Some P -> drawn (65536 * i) (Z.min (65536 * (i + 1)) u) P).
Proof.
  intro H. unfold parts. pose proof (Z.div_pos (u + 65535) 65536 ltac:(lia) ltac:(lia)).
  rewrite Z.sub_0_r, Z.max_r by lia. reflexivity.
Qed.
Lemma clustered_sound dbg junk u fuel : 0 <= u <= 4294901760 -> u <= 65536 * Z.of_nat fuel -> forall m tape,
  exists Ls, clustered_lists m fuel dbg true junk u tape = Ok (flat_map (fun L => zlen L :: L) Ls)
    /\ length Ls = m /\ Forall (clustered_list u) Ls.
Proof.
  intros Hu HF. induction m; intro tape; cbn [clustered_lists].
  - exists []. auto.
  - destruct (slices_sound dbg u ltac:(lia) fuel 0 [] tape ltac:(lia) ltac:(lia)) as (Ps & t & E & D).
    change (65536 * 0) with 0 in E. change (u32 (0 + 65536)) with 65536 in E. rewrite E. cbn [bind app].
    destruct (IHm t) as (Ls & -> & L & F). cbn [bind]. exists (std_unique (std_sort (concat Ps)) :: Ls).
    split; [reflexivity|]. split; [cbn [length]; auto|]. constructor; auto.
    apply parts_0 in D as [DL D]; [|lia]. exists Ps. split; auto. split; auto.
    destruct (unique_sort (concat Ps)) as [S I]. split; auto. intro v. rewrite I, in_concat. reflexivity.
Qed.
Lemma clustered_complete dbg junk u fuel : 0 <= u <= 4294901760 -> u <= 65536 * Z.of_nat fuel -> forall Ls,
  Forall (clustered_list u) Ls ->
  exists t, clustered_lists (length Ls) fuel dbg true junk u t = Ok (flat_map (fun L => zlen L :: L) Ls).
Proof.
  intros Hu HF. induction Ls as [|L Ls IH]; intro F; [exists []; auto|].
  apply Forall_cons_iff in F as [(Ps & HL & HP & S & I) F]. destruct (IH F) as (t & E).
  destruct (slices_complete dbg u ltac:(lia) fuel 0 Ps ltac:(lia) ltac:(lia)) as (l & t' & I' & E').
  { apply parts_0; [lia|]. auto. }
  exists (t' ++ t). cbn [length clustered_lists]. specialize (E' [] t).
  change (65536 * 0) with 0 in E'. change (u32 (0 + 65536)) with 65536 in E'. rewrite E'. cbn [bind app].
  rewrite E. cbn [bind]. rewrite (unique_sort_eq l L S); [reflexivity|]. intro v. now rewrite I', I.
Qed.

Definition may_clustered (num u : Z) (data : list Z) : Prop :=
  exists Ls, zlen Ls = num /\ Forall (clustered_list u) Ls /\ data = collection u Ls.
Lemma gen_clustered_ok fuel dbg junk num u : 0 <= num -> 0 <= u <= 4294901760 -> u <= 65536 * Z.of_nat fuel ->
  (forall tape, exists data, gen_clustered fuel dbg true junk num u tape = Ok data /\ may_clustered num u data)
  /\ (forall data, may_clustered num u data -> exists tape, gen_clustered fuel dbg true junk num u tape = Ok data).
Proof.
  intros Hn Hu HF. unfold gen_clustered. split.
  - intro tape. destruct (clustered_sound dbg junk u fuel Hu HF (Z.to_nat num) tape) as (Ls & -> & L & F). cbn [bind].
    eexists. split; [reflexivity|]. exists Ls. split; [unfold zlen; lia|]. split; auto.
  - intros data (Ls & L & F & ->). destruct (clustered_complete dbg junk u fuel Hu HF Ls F) as (t & E).
    exists t. replace (Z.to_nat num) with (length Ls) by (unfold zlen in L; lia). now rewrite E.
Qed.

(** larger universes *)
Lemma one_slice_total dbg u lo hi tape :
  one_slice dbg u lo hi tape = UB \/ exists P t, one_slice dbg u lo hi tape = Ok (P, t).
Proof.
  unfold one_slice. destruct (event_any dbg tape) as (c & t & HC & E).
  destruct (draw 0 2147483647 tape) as [r t']. injection E as E <-. rewrite E. cbn [bind].
  destruct HC as [HC|[HC|HC]]; subst c.
  { change (0 =? 0) with true. cbn iota. eauto. }
  { change (1 =? 0) with false. change (1 =? 1) with true. cbn iota. eauto. }
  change (2 =? 0) with false. change (2 =? 1) with false. change (2 =? 2) with true. cbn iota. unfold distr.
  destruct (lo <=? Z.min hi u); cbn [bind]; auto. destruct (draw 10 16384 t') as [n t1].
  destruct (draws (Z.to_nat n) lo (Z.min hi u) t1). eauto.
Qed.
Lemma slices_endless dbg u : 4294901760 < u -> forall fuel i j acc tape, 0 <= i <= 65535 -> 0 <= j <= 65535 ->
  let r := slices fuel dbg u (65536 * i) (65536 * j) acc tape in r = UB \/ r = Fuel.
Proof.
  intro Hu. induction fuel; intros i j acc tape Hi Hj; cbn zeta; cbn [slices]; (destruct (Z.ltb_spec (65536 * i) u); [|lia]); auto.
  destruct (one_slice_total dbg u (65536 * i) (65536 * j) tape) as [->|(P & t & ->)]; cbn [bind]; auto.
  assert (E : u32 (65536 * j + 65536) = 65536 * (if j =? 65535 then 0 else j + 1)).
  { destruct (Z.eqb_spec j 65535) as [->|N]; [reflexivity|]. rewrite u32_id; lia. }
  rewrite E. apply IHfuel; auto. destruct (Z.eqb_spec j 65535); lia.
Qed.
Lemma slices_skip dbg u : 4294901760 < u -> forall fuel i j acc, 0 <= i <= 65535 -> 0 <= j <= 65535 ->
  slices fuel dbg u (65536 * i) (65536 * j) acc [] = Fuel.
Proof.
  intro Hu. induction fuel; intros i j acc Hi Hj; cbn [slices]; (destruct (Z.ltb_spec (65536 * i) u); [|lia]); auto.
  assert (E0 : one_slice dbg u (65536 * i) (65536 * j) [] = Ok ([], [])).
  { unfold one_slice. cbn [draw]. rewrite event_ok by lia. reflexivity. }
  rewrite E0. cbn [bind].
  assert (E : u32 (65536 * j + 65536) = 65536 * (if j =? 65535 then 0 else j + 1)).
  { destruct (Z.eqb_spec j 65535) as [->|N]; [reflexivity|]. rewrite u32_id; lia. }
  rewrite E. apply IHfuel; auto. destruct (Z.eqb_spec j 65535); lia.
Qed.
Lemma gen_clustered_endless dbg binary junk num u : 0 < num -> 4294901760 < u ->
  (forall fuel tape data, gen_clustered fuel dbg binary junk num u tape <> Ok data)
  /\ (forall fuel, gen_clustered fuel dbg binary junk num u [] = Fuel).
Proof.
  intros Hn Hu. unfold gen_clustered. replace (Z.to_nat num) with (S (Z.to_nat (num - 1))) by lia. cbn [clustered_lists]. split.
  - intros fuel tape data. destruct (slices_endless dbg u Hu fuel 0 1 [] tape ltac:(lia) ltac:(lia)) as [E|E]; cbn in E; rewrite E; discriminate.
  - intro fuel. pose proof (slices_skip dbg u Hu fuel 0 1 [] ltac:(lia) ltac:(lia)) as E. cbn in E. rewrite E. reflexivity.
Qed.

(** ** what is built from the generated data *)
Lemma pass_empty params : 0 <= p_size params -> pass params 0 0 = false.
Proof.
  intro H. unfold pass. change (SFdiv 53 1024 (double_of_u32 0) (double_of_u32 0)) with S754_nan.
  assert (E : SFltb (p_density params) S754_nan = false) by (destruct (p_density params); reflexivity).
  rewrite E, andb_false_r. destruct (Z.ltb_spec (p_size params) 0); auto. lia.
Qed.
Lemma kept_valid params u Ls : 0 <= p_size params -> u < 4294901760 ->
  Forall (fun L => StronglySorted Z.lt L /\ Forall (fun v => 0 <= v <= u) L) Ls -> Forall valid (kept_lists params Ls).
Proof.
  intros Hp Hu H. unfold kept_lists. rewrite Forall_forall in *. intros L HL. apply filter_In in HL as [HL P].
  destruct (H L HL) as [S F]. split; [|split; auto].
  - intros ->. change (zlen (@nil Z)) with 0 in P. change (last (@nil Z) 0) with 0 in P. rewrite pass_empty in P; [discriminate|auto].
  - eapply Forall_impl; [|exact F]. cbn beta. intros; lia.
Qed.
Lemma uniform_plain a b u Ls : Forall (uniform_list a b u) Ls ->
  Forall (fun L => StronglySorted Z.lt L /\ Forall (fun v => 0 <= v <= u) L) Ls.
Proof. apply Forall_impl. intros L (S & F & _). auto. Qed.
Lemma clustered_plain u Ls : Forall (clustered_list u) Ls ->
  Forall (fun L => StronglySorted Z.lt L /\ Forall (fun v => 0 <= v <= u) L) Ls.
Proof.
  apply Forall_impl. intros L (Ps & HL & HP & S & I). split; auto. rewrite Forall_forall. intros v Hv.
  apply I in Hv as (P & HP1 & HP2). apply In_znth in HP1 as (i & Hi & E). specialize (HP i P E).
  destruct HP as [->|[A|[_ F]]]; [destruct HP2|apply A in HP2; lia|]. rewrite Forall_forall in F. specialize (F v HP2). lia.
Qed.

(** ** queries *)
Lemma each_inv {A} (P : list (list Z) -> A -> Prop) (body : Z -> A -> res A) (Ks : list (list Z)) :
  (forall pre S R st, Ks = pre ++ S :: R -> P pre st -> exists st', body (zlen pre) st = Ok st' /\ P (pre ++ [S]) st') ->
  forall st, P [] st -> exists st', each (length Ks) 0 body st = Ok st' /\ P Ks st'.
Proof.
  intros H. assert (X : forall R pre, Ks = pre ++ R -> forall st, P pre st ->
    exists st', each (length R) (zlen pre) body st = Ok st' /\ P Ks st').
  { induction R as [|S R IH]; intros pre E st HP; cbn [length each].
    - exists st. rewrite app_nil_r in E. subst pre. auto.
    - destruct (H pre S R st E HP) as (st1 & -> & P1).
      cbn [bind]. destruct (IH (pre ++ [S])) with (st := st1) as (st2 & E2 & P2); auto.
      { now rewrite <- app_assoc. }
      rewrite zlen_app, zlen_cons, zlen_nil in E2. exists st2. auto. }
  intros st HP. apply (X Ks []); auto.
Qed.
Lemma znth_mid (pre : list (list Z)) S R : znth (pre ++ S :: R) (zlen pre) = Some S.
Proof. rewrite znth_app_r by lia. rewrite Z.sub_diag. apply znth_cons_0. Qed.

Lemma asked_snoc : forall pre S n q l, 0 <= n -> zlen q = zlen pre * n -> zlen l = n ->
  asked (pre ++ [S]) n (q ++ l) = asked pre n q ++ map (pair S) l.
Proof.
  induction pre as [|K pre IH]; intros S n q l Hn Hq Hl.
  - rewrite zlen_nil in Hq. rewrite (zlen_0 _ q) by lia. cbn [app]. rewrite asked_cons by lia.
    assert (LN : length l = Z.to_nat n) by (unfold zlen in Hl; lia).
    rewrite <- LN, firstn_all, skipn_all. cbn. now rewrite app_nil_r.
  - rewrite zlen_cons in Hq. pose proof (zlen_nonneg _ pre). cbn [app]. rewrite !asked_cons by (rewrite ?zlen_app; nia).
    assert (LQ : (Z.to_nat n <= length q)%nat) by (unfold zlen in *; nia).
    rewrite firstn_app, skipn_app. replace (Z.to_nat n - length q)%nat with 0%nat by lia. cbn [firstn skipn].
    rewrite app_nil_r, IH, app_assoc; auto. unfold zlen in *. rewrite skipn_length. lia.
Qed.
Lemma asked_snd : forall Ks n q, 0 <= n -> zlen q = zlen Ks * n -> map snd (asked Ks n q) = q.
Proof.
  induction Ks as [|K Ks IH]; intros n q Hn Hq.
  - rewrite zlen_nil in Hq. rewrite (zlen_0 _ q) by lia. reflexivity.
  - rewrite zlen_cons in Hq. pose proof (zlen_nonneg _ Ks). rewrite asked_cons by nia. rewrite map_app, map_map.
    cbn [snd]. rewrite map_id, IH; [apply firstn_skipn|auto|]. unfold zlen in *. rewrite skipn_length. nia.
Qed.

Section Q.
Context (Ks : list (list Z)) (n : Z) (ok : list Z * Z -> Prop).
Hypothesis N : 0 <= n.
Definition queries_ok (pre : list (list Z)) (qs : list Z) : Prop := zlen qs = zlen pre * n /\ Forall ok (asked pre n qs).
Lemma queries_snoc pre S q l : queries_ok pre q -> zlen l = n -> Forall (fun x => ok (S, x)) l -> queries_ok (pre ++ [S]) (q ++ l).
Proof.
  intros [HL F] L FL. split.
  - rewrite !zlen_app, zlen_cons, zlen_nil. lia.
  - rewrite asked_snoc by auto. apply Forall_app. split; auto. rewrite Forall_map. auto.
Qed.
Lemma queries_part pre S R q t : Ks = pre ++ S :: R -> queries_ok Ks (q ++ t) -> zlen q = zlen pre * n ->
  exists l t', t = l ++ t' /\ zlen l = n /\ Forall (fun x => ok (S, x)) l.
Proof.
  intros E [HL F] HQ. rewrite E, zlen_app, !zlen_app, zlen_cons in HL. pose proof (zlen_nonneg _ R).
  assert (LT : n <= zlen t) by nia. exists (firstn (Z.to_nat n) t), (skipn (Z.to_nat n) t).
  split; [now rewrite firstn_skipn|]. assert (L : zlen (firstn (Z.to_nat n) t) = n) by (rewrite zlen_firstn; lia). split; auto.
  rewrite E in F. replace (pre ++ S :: R) with ((pre ++ [S]) ++ R) in F by (now rewrite <- app_assoc).
  assert (X : forall A B q1 q2, zlen q1 = zlen A * n -> asked (A ++ B) n (q1 ++ q2) = asked A n q1 ++ asked B n q2).
  { induction A as [|K A IH]; intros B q1 q2 H1.
    - rewrite zlen_nil in H1. rewrite (zlen_0 _ q1) by lia. reflexivity.
    - rewrite zlen_cons in H1. pose proof (zlen_nonneg _ A). cbn [app]. rewrite !asked_cons by (rewrite ?zlen_app; pose proof (zlen_nonneg _ q2); nia).
      assert (LQ : (Z.to_nat n <= length q1)%nat) by (unfold zlen in *; nia).
      rewrite firstn_app, skipn_app. replace (Z.to_nat n - length q1)%nat with 0%nat by lia. cbn [firstn skipn].
      rewrite app_nil_r, IH, app_assoc; auto. unfold zlen in *. rewrite skipn_length. nia. }
  rewrite <- (firstn_skipn (Z.to_nat n) t), app_assoc in F. rewrite X in F by (rewrite !zlen_app, zlen_cons, zlen_nil; lia).
  rewrite asked_snoc in F by auto. apply Forall_app in F as [F _]. apply Forall_app in F as [_ F].
  rewrite Forall_map in F. auto.
Qed.
End Q.

Definition select_ok (q : list Z * Z) : Prop := 0 <= snd q < zlen (fst q).
Definition next_ok (q : list Z * Z) : Prop := In (snd q) (fst q).

Lemma valid_zlen S : valid S -> 0 < zlen S <= 4294967296.
Proof.
  intro V. pose proof (valid_len S V). split; [|lia]. destruct V as (N & _ & _).
  destruct S; [congruence|]. rewrite zlen_cons. pose proof (zlen_nonneg _ S). lia.
Qed.

Lemma gen_select_ok dbg mem f u Ks ix n : 0 <= n -> opened 0 mem f u Ks ix ->
  (forall tape, exists qs, gen_select_queries dbg mem f n tape = Ok qs /\ queries_ok n select_ok Ks qs)
  /\ (forall qs, queries_ok n select_ok Ks qs -> exists tape, gen_select_queries dbg mem f n tape = Ok qs).
Proof.
  intros Hn O. unfold gen_select_queries. rewrite (proj1 O). cbn [bind]. rewrite (opened_size _ _ _ _ _ _ O).
  set (body := fun i st => _).
  assert (HB : forall i S q t, znth Ks i = Some S ->
    body i (q, t) = let (l, t') := draws (Z.to_nat n) 0 (zlen S - 1) t in Ok (q ++ l, t')).
  { intros i S q t ES. pose proof (opened_valid _ _ _ _ _ _ _ _ O ES) as V. pose proof (valid_zlen S V).
    pose proof O as (O1 & O2 & O3 & O4 & G). destruct (G i S ES) as (s & Es & St & EG).
    unfold body. rewrite EG. cbn [bind]. rewrite (opened_card mem f u Ks ix 0 i S s); auto; [|lia].
    cbn [bind]. rewrite u32_id by lia. unfold distr. rewrite (proj2 (Z.leb_le 0 _)) by lia. reflexivity. }
  clearbody body. split.
  - intro tape. destruct (each_inv (fun pre st => queries_ok n select_ok pre (fst st)) body Ks) with (st := (@nil Z, tape))
      as ([q t] & -> & HQ).
    + intros pre S R [q t] E HP. cbn [fst] in HP. assert (ES : znth Ks (zlen pre) = Some S) by (rewrite E; apply znth_mid).
      pose proof (valid_zlen S (opened_valid _ _ _ _ _ _ _ _ O ES)).
      rewrite (HB _ _ _ _ ES). destruct (draws_in 0 (zlen S - 1) (Z.to_nat n) t ltac:(lia)) as [L F].
      destruct (draws (Z.to_nat n) 0 (zlen S - 1) t) as [l t']. cbn [fst] in L, F. eexists. split; [reflexivity|]. cbn [fst].
      apply queries_snoc; auto; [unfold zlen; lia|]. eapply Forall_impl; [|exact F]. unfold select_ok. cbn. intros; lia.
    + cbn [fst]. split; [reflexivity|]. constructor.
    + eexists. split; [reflexivity|]. exact HQ.
  - intros qs HQ. exists qs.
    destruct (each_inv (fun pre st => qs = fst st ++ snd st /\ zlen (fst st) = zlen pre * n) body Ks) with (st := (@nil Z, qs))
      as ([q t] & -> & E & L).
    + intros pre S R [q t] E [EQ HL]. cbn [fst snd] in *. assert (ES : znth Ks (zlen pre) = Some S) by (rewrite E; apply znth_mid).
      rewrite (HB _ _ _ _ ES). rewrite EQ in HQ.
      destruct (queries_part Ks n select_ok Hn pre S R q t E HQ HL) as (l & t' & -> & LL & F).
      replace (Z.to_nat n) with (length l) by (unfold zlen in LL; lia).
      assert (EM : l ++ t' = map (fun x => x - 0) l ++ t').
      { f_equal. rewrite <- (map_id l) at 1. apply map_ext. intro; lia. }
      rewrite EM, draws_tape.
      2:{ eapply Forall_impl; [|exact F]. unfold select_ok. cbn. intros; lia. }
      eexists. split; [reflexivity|]. cbn [fst snd]. rewrite EQ, app_assoc. split; auto.
      rewrite !zlen_app, zlen_cons, zlen_nil. lia.
    + split; reflexivity.
    + cbn [fst snd] in E, L. cbn [bind]. f_equal. destruct HQ as [HL _]. rewrite E, zlen_app in HL.
      rewrite E, (zlen_0 _ t) by lia. now rewrite app_nil_r.
Qed.

Lemma pick_sound out S : (forall j, 0 <= j < zlen S -> znth out j = znth S j) -> 0 < zlen S -> forall m q tape,
  exists l t, pick m out (zlen S - 1) q tape = Ok (q ++ l, t) /\ length l = m /\ Forall (fun v => In v S) l.
Proof.
  intros HO HS. induction m; intros q tape; cbn [pick].
  - exists [], tape. rewrite app_nil_r. auto.
  - pose proof (draw_in 0 (zlen S - 1) tape ltac:(lia)) as D. destruct (draw 0 (zlen S - 1) tape) as [j t]. cbn [fst] in D.
    destruct (znth_Some _ S j ltac:(lia)) as (x & Ex). rewrite (vget_ok out j x) by (rewrite HO; auto; lia). cbn [bind].
    destruct (IHm (q ++ [x]) t) as (l & t' & -> & L & F). exists (x :: l), t'. rewrite <- app_assoc. split; auto.
    split; [cbn [length]; auto|]. constructor; auto. eapply znth_In; eauto.
Qed.
Lemma pick_complete S : forall l, Forall (fun v => In v S) l -> exists t, forall out q rest,
  (forall j, 0 <= j < zlen S -> znth out j = znth S j) ->
  pick (length l) out (zlen S - 1) q (t ++ rest) = Ok (q ++ l, rest).
Proof.
  induction l as [|x l IH]; intro F.
  - exists []. intros out q rest _. cbn [length pick app]. now rewrite app_nil_r.
  - apply Forall_cons_iff in F as [Hx F]. destruct (IH F) as (t & E). apply In_znth in Hx as (j & Hj & Ej).
    exists (j :: t). intros out q rest HO. cbn [length pick app]. replace (j :: t ++ rest) with (j - 0 :: t ++ rest) by (f_equal; lia).
    rewrite draw_tape by lia. rewrite (vget_ok out j x) by (rewrite HO; auto). cbn [bind].
    rewrite (E out (q ++ [x]) rest HO), <- app_assoc. reflexivity.
Qed.

Lemma gen_next_geq_ok dbg mem f u Ks ix n : 0 <= n -> 0 <= u -> opened 31 mem f u Ks ix ->
  (Forall (fun S => decode_fits S u) Ks ->
     (forall tape, exists qs, gen_next_geq_queries dbg mem f n tape = Ok qs /\ queries_ok n next_ok Ks qs)
     /\ (forall qs, queries_ok n next_ok Ks qs -> exists tape, gen_next_geq_queries dbg mem f n tape = Ok qs))
  /\ (Exists (fun S => ~ decode_fits S u) Ks -> forall tape, gen_next_geq_queries dbg mem f n tape = UB).
Proof.
  intros Hn Hu O. unfold gen_next_geq_queries. rewrite (proj1 O). cbn [bind]. rewrite (opened_size _ _ _ _ _ _ O).
  assert (EU : ix_universe ix = u) by apply O. rewrite EU. set (body := fun i st => _).
  assert (HB : forall i S out q t, znth Ks i = Some S -> zlen out = u ->
    (decode_fits S u -> exists out', zlen out' = u /\ (forall j, 0 <= j < zlen S -> znth out' j = znth S j)
       /\ body i (out, q, t) = let! (q, t) := pick (Z.to_nat n) out' (zlen S - 1) q t in Ok (out', q, t))
    /\ (~ decode_fits S u -> body i (out, q, t) = UB)).
  { intros i S out q t ES HP. pose proof (opened_valid _ _ _ _ _ _ _ _ O ES) as V. pose proof (valid_zlen S V).
    destruct O as (O1 & O2 & O3 & O4 & G). destruct (G i S ES) as (s & Es & St & EG).
    destruct (decode_room dbg mem _ S out 0 V St ltac:(lia)) as (s' & Es' & F & NF).
    rewrite Es in Es'. injection Es' as <-. unfold body. rewrite EG. cbn [bind].
    rewrite HP, Z.sub_0_r in F, NF. split; intro X.
    - destruct (F X) as (out' & -> & W). cbn [bind]. exists out'. pose proof (wrote_zlen _ _ _ _ _ W).
      split; [lia|]. split; [destruct W as (_ & W & _); intros j Hj; now rewrite <- (W j Hj)|].
      rewrite u32_id by lia. unfold distr. rewrite (proj2 (Z.leb_le 0 _)) by lia. reflexivity.
    - now rewrite (NF X). }
  clearbody body. assert (L0 : zlen (repeat 0 (Z.to_nat u)) = u) by (rewrite zlen_repeat; lia).
  set (out0 := repeat 0 (Z.to_nat u)) in *. clearbody out0. split; [intro X; split|intros X tape].
  - intro tape. rewrite Forall_forall in X.
    destruct (each_inv (fun pre st => zlen (fst (fst st)) = u /\ queries_ok n next_ok pre (snd (fst st))) body Ks)
      with (st := (out0, @nil Z, tape)) as ([[out q] t] & -> & _ & HQ).
    + intros pre S R [[out q] t] E [HO HP]. cbn [fst snd] in *. assert (ES : znth Ks (zlen pre) = Some S) by (rewrite E; apply znth_mid).
      pose proof (valid_zlen S (opened_valid _ _ _ _ _ _ _ _ O ES)).
      destruct (HB _ S out q t ES HO) as [F _]. destruct (F (X S (znth_In _ _ _ _ ES))) as (out' & LO & EO & ->).
      destruct (pick_sound out' S EO ltac:(lia) (Z.to_nat n) q t) as (l & t' & -> & L & FL). cbn [bind].
      eexists. split; [reflexivity|]. cbn [fst snd]. split; auto. apply queries_snoc; auto. unfold zlen. lia.
    + split; auto. cbn [fst snd]. split; [reflexivity|]. constructor.
    + cbn [bind fst snd] in *. eauto.
  - intros qs HQ. rewrite Forall_forall in X.
    assert (Y : forall R pre q rest, Ks = pre ++ R -> qs = q ++ rest -> zlen q = zlen pre * n ->
      exists t, forall out, zlen out = u -> exists out' t', each (length R) (zlen pre) body (out, q, t) = Ok (out', qs, t')).
    { induction R as [|S R IH]; intros pre q rest EK EQ HL; cbn [length each].
      - exists []. intros out _. assert (rest = []) as ->; [|rewrite app_nil_r in EQ; subst q; eauto].
        destruct HQ as [HL2 _]. rewrite EK, app_nil_r, EQ, zlen_app in HL2. apply zlen_0. lia.
      - assert (ES : znth Ks (zlen pre) = Some S) by (rewrite EK; apply znth_mid).
        pose proof HQ as HQ'. rewrite EQ in HQ'.
        destruct (queries_part Ks n next_ok Hn pre S R q rest EK HQ' HL) as (l & r' & -> & LL & F).
        destruct (pick_complete S l F) as (t1 & E1).
        destruct (IH (pre ++ [S]) (q ++ l) r') as (t2 & E2).
        { now rewrite <- app_assoc. } { now rewrite <- app_assoc. } { rewrite !zlen_app, zlen_cons, zlen_nil. lia. }
        exists (t1 ++ t2). intros out HO. destruct (HB _ S out q (t1 ++ t2) ES HO) as [F1 _].
        destruct (F1 (X S (znth_In _ _ _ _ ES))) as (out' & LO & EO & ->).
        replace (Z.to_nat n) with (length l) by (unfold zlen in LL; lia). rewrite (E1 out' q t2 EO). cbn [bind].
        rewrite zlen_app, zlen_cons, zlen_nil in E2. apply E2. exact LO. }
    destruct (Y Ks [] [] qs eq_refl eq_refl eq_refl) as (t & E). exists t. destruct (E out0 L0) as (out' & t' & E').
    change (zlen (@nil (list Z))) with 0 in E'. rewrite E'. reflexivity.
  - rewrite (each_ub (fun st => zlen (fst (fst st)) = u) body (fun S => ~ decode_fits S u) Ks); auto.
    + intros i S [[out q] t] ES HP. cbn [fst] in HP. destruct (HB i S out q t ES HP) as [F NF].
      destruct (decode_fits_dec S u (opened_valid _ _ _ _ _ _ _ _ O ES)) as [D|D]; [left|right; auto].
      destruct (F D) as (out' & LO & EO & ->). pose proof (valid_zlen S (opened_valid _ _ _ _ _ _ _ _ O ES)).
      destruct (pick_sound out' S EO ltac:(lia) (Z.to_nat n) q t) as (l & t' & -> & L & FL). cbn [bind].
      eexists. split; [reflexivity|]. exact LO.
    + intros i S [[out q] t] ES D HP. now apply (HB i S out q t ES HP).
Qed.

Lemma selected_ok : forall qs prev, Forall select_ok qs ->
  selected prev qs = map (fun q => nth (Z.to_nat (snd q)) (fst q) 0) qs.
Proof.
  induction qs as [|[K i] qs IH]; intros prev F; auto. apply Forall_cons_iff in F as [Hi F].
  unfold select_ok in Hi. cbn [fst snd] in Hi. cbn [selected map fst snd].
  assert (E : znth K i = Some (nth (Z.to_nat i) K 0)).
  { unfold znth. destruct (Z.ltb_spec i 0); [lia|]. apply nth_error_nth'. unfold zlen in Hi. lia. }
  rewrite E. now rewrite IH.
Qed.
Lemma total_map {A B} (g : A -> B) (h : B -> Z) l : total h (map g l) = total (fun x => h (g x)) l.
Proof. induction l as [|x l IH]; auto. cbn [map]. unfold total in *. cbn [fold_right]. now rewrite IH. Qed.
Lemma total_ext_in {A} (g h : A -> Z) l : (forall x, In x l -> g x = h x) -> total g l = total h l.
Proof.
  induction l as [|x l IH]; intro H; auto. unfold total in *. cbn [fold_right]. rewrite H by now left. rewrite IH; auto.
  intros y Hy. apply H. now right.
Qed.

Lemma pairs_of_words : forall k (l : list Z), length l = (2 * k)%nat ->
  exists qs : list (Z * Z), l = flat_map (fun q => [fst q; snd q]) qs /\ length qs = k.
Proof.
  induction k; intros l H.
  - destruct l; [|discriminate]. exists []. auto.
  - destruct l as [|a [|b l]]; cbn in H; try lia. destruct (IHk l ltac:(lia)) as (qs & -> & L).
    exists ((a, b) :: qs). split; auto. cbn [length]. auto.
Qed.
Definition pair_le (hi : Z) (q : Z * Z) : Prop := 0 <= fst q <= hi /\ 0 <= snd q <= hi.
Lemma pairs_forall hi : forall qs, Forall (fun v => 0 <= v <= hi) (flat_map (fun q : Z * Z => [fst q; snd q]) qs) <-> Forall (pair_le hi) qs.
Proof.
  induction qs as [|[a b] qs IH]; cbn [flat_map app fst snd]; [split; constructor|].
  rewrite !Forall_cons_iff, IH. unfold pair_le at 2. cbn [fst snd]. tauto.
Qed.
Lemma gen_pairwise_ok num m : 0 <= num -> 
  let hi := (m - 1) mod 2 ^ 32 in
  (forall tape, exists qs, gen_pairwise_queries num m tape = flat_map (fun q => [fst q; snd q]) qs
     /\ zlen qs = num /\ Forall (pair_le hi) qs)
  /\ (forall qs, zlen qs = num -> Forall (pair_le hi) qs ->
        exists tape, gen_pairwise_queries num m tape = flat_map (fun q => [fst q; snd q]) qs).
Proof.
  intros Hn hi. unfold gen_pairwise_queries. change (u32 (m - 1)) with hi.
  pose proof (Z.mod_pos_bound (m - 1) (2 ^ 32) ltac:(lia)) as HH. fold hi in HH. clearbody hi. split.
  - intro tape. destruct (draws_in 0 hi (2 * Z.to_nat num) tape ltac:(lia)) as [L F].
    destruct (pairs_of_words _ _ L) as (qs & E & LQ). exists qs. rewrite E in *. split; auto. split; [unfold zlen; lia|].
    now apply pairs_forall.
  - intros qs L F. exists (map (fun x => x - 0) (flat_map (fun q => [fst q; snd q]) qs) ++ []).
    apply pairs_forall in F.
    assert (LL : length (flat_map (fun q : Z * Z => [fst q; snd q]) qs) = (2 * Z.to_nat num)%nat).
    { assert (Y : forall l : list (Z * Z), length (flat_map (fun q => [fst q; snd q]) l) = (2 * length l)%nat).
      { induction l as [|a l IH]; auto. cbn [flat_map]. rewrite app_length, IH. cbn [length]. lia. }
      rewrite Y. unfold zlen in L. lia. }
    rewrite <- LL, draws_tape by exact F. reflexivity.
Qed.

(** ** statements *)
Lemma c36_uniform : forall num a b u, is_u32 num -> is_u32 a -> is_u32 b -> is_u32 u ->
  (a <= b ->
     (forall tape, exists data, gen_uniform num a b u tape = Ok data)
     /\ forall data, (exists tape, gen_uniform num a b u tape = Ok data)
          <-> (exists Ls, zlen Ls = num /\ Forall (uniform_list a b u) Ls /\ data = collection u Ls))
  /\ (b < a -> forall tape, gen_uniform num a b u tape = UB).
Proof.
  unfold is_u32. intros num a b u Hn Ha Hb Hu. destruct (gen_uniform_ok num a b u) as [X Y]; try lia. split; auto.
  intro Hab. destruct (X Hab) as [S C]. split.
  - intro tape. destruct (S tape) as (data & E & _). eauto.
  - intro data. split; [|apply C]. intros (tape & E). destruct (S tape) as (data' & E' & M). rewrite E in E'.
    injection E' as <-. exact M.
Qed.
Lemma built dbg params u Ls : 0 <= p_size params -> u < 4294901760 ->
  Forall (fun L => StronglySorted Z.lt L /\ Forall (fun v => 0 <= v <= u) L) Ls ->
  Forall valid (kept_lists params Ls)
  /\ exists stats offsets sequences,
       index_build dbg params (collection u Ls) = Ok (stats, offsets, sequences)
       /\ index_file offsets sequences = f_index u (kept_lists params Ls).
Proof.
  intros Hp Hu F. pose proof (kept_valid params u Ls Hp Hu F) as V. split; auto. apply c29_index; [exact V|].
  eapply Forall_impl; [|exact F]. intros L [S R]. assert (S1 : Forall (fun v => 0 <= v < Z.of_nat (Z.to_nat 4294901760)) L).
  { eapply Forall_impl; [|exact R]. cbn beta. intros v Hv. lia. }
  pose proof (L_Group.sorted_zlen_le _ _ S S1). unfold short. lia.
Qed.
Lemma c36_uniform_index : forall dbg params num a b u tape,
  is_u32 num -> is_u32 a -> is_u32 b -> 0 <= u < 4294901760 -> a <= b -> 0 <= p_size params ->
  exists Ls, gen_uniform num a b u tape = Ok (collection u Ls)
    /\ Forall valid (kept_lists params Ls)
    /\ exists stats offsets sequences,
         index_build dbg params (collection u Ls) = Ok (stats, offsets, sequences)
         /\ index_file offsets sequences = f_index u (kept_lists params Ls).
Proof.
  unfold is_u32. intros dbg params num a b u tape Hn Ha Hb Hu Hab Hp.
  destruct (gen_uniform_ok num a b u) as [X _]; try lia. destruct (X Hab) as [S _]. destruct (S tape) as (data & E & Ls & L & F & ->).
  exists Ls. split; auto. apply built; auto; [lia|]. eapply uniform_plain; eauto.
Qed.
Lemma c36_uniform_decode : forall params num a b u,
  is_u32 num -> 1 <= num -> is_u32 a -> is_u32 b -> 0 <= u < 4294901760 -> a <= b -> u + 1 <= b ->
  0 <= p_size params -> pass params (u + 1) u = true ->
  exists tape Ls, gen_uniform num a b u tape = Ok (collection u Ls)
    /\ forall dbg dbg' mem f, holds_index dbg params u Ls 31 mem f -> decode_cpp dbg' mem f = UB.
Proof.
  unfold is_u32. intros params num a b u Hn Hn1 Ha Hb Hu Hab Hub Hp HP.
  destruct (gen_uniform_ok num a b u) as [X _]; try lia. destruct (X Hab) as [_ C].
  set (L := zrange 0 (Z.to_nat (u + 1))).
  assert (LL : zlen L = u + 1) by (unfold L; rewrite zlen_zrange; lia).
  assert (UL : uniform_list a b u L).
  { split; [apply sorted_zrange|]. split; [apply Forall_forall; intros v Hv; apply In_zrange in Hv; lia|].
    split; [lia|]. intro E. rewrite E, zlen_nil in LL. lia. }
  assert (EL : last L 0 = u).
  { unfold L. replace (Z.to_nat (u + 1)) with (Z.to_nat u + 1)%nat by lia. rewrite zrange_app. cbn [zrange].
    rewrite last_last. lia. }
  clearbody L. set (Ls := repeat L (Z.to_nat num)).
  assert (FL : Forall (uniform_list a b u) Ls) by (apply Forall_forall; intros K HK; apply repeat_spec in HK; now subst K).
  destruct (C (collection u Ls)) as (tape & E).
  { exists Ls. split; [unfold Ls; rewrite zlen_repeat; lia|]. auto. }
  exists tape, Ls. split; auto. intros dbg dbg' mem f H.
  assert (V : Forall valid (kept_lists params Ls)) by (apply kept_valid with (u := u); [auto|lia|eapply uniform_plain; eauto]).
  destruct (c35_decode dbg dbg' params u Ls mem f ltac:(unfold is_u32; lia) V H) as [_ B]. apply B.
  apply Exists_exists. exists L. split.
  - unfold kept_lists. apply filter_In. rewrite LL, EL. split; auto. unfold Ls.
    replace (Z.to_nat num) with (S (Z.to_nat (num - 1))) by lia. now left.
  - intros [D _]. lia.
Qed.
Lemma c36_event : forall dbg r, 0 <= r < 2 ^ 31 ->
  gen_event dbg (float_rand r) = Ok (if r <=? 644245152 then 0 else if r <=? 1073741888 then 1 else 2).
Proof. exact event_ok. Qed.
Lemma c36_clustered : forall fuel dbg junk num u, is_u32 num -> 0 <= u <= 4294901760 -> u <= 65536 * Z.of_nat fuel ->
  (forall tape, exists data, gen_clustered fuel dbg true junk num u tape = Ok data)
  /\ forall data, (exists tape, gen_clustered fuel dbg true junk num u tape = Ok data)
       <-> (exists Ls, zlen Ls = num /\ Forall (clustered_list u) Ls /\ data = collection u Ls).
Proof.
  unfold is_u32. intros fuel dbg junk num u Hn Hu HF. destruct (gen_clustered_ok fuel dbg junk num u) as [S C]; try lia. split.
  - intro tape. destruct (S tape) as (data & E & _). eauto.
  - intro data. split; [|apply C]. intros (tape & E). destruct (S tape) as (data' & E' & M). rewrite E in E'.
    injection E' as <-. exact M.
Qed.
Lemma c36_clustered_index : forall fuel dbg dbg' params junk num u tape,
  is_u32 num -> 0 <= u < 4294901760 -> u <= 65536 * Z.of_nat fuel -> 0 <= p_size params ->
  exists Ls, gen_clustered fuel dbg true junk num u tape = Ok (collection u Ls)
    /\ Forall valid (kept_lists params Ls)
    /\ exists stats offsets sequences,
         index_build dbg' params (collection u Ls) = Ok (stats, offsets, sequences)
         /\ index_file offsets sequences = f_index u (kept_lists params Ls).
Proof.
  unfold is_u32. intros fuel dbg dbg' params junk num u tape Hn Hu HF Hp.
  destruct (gen_clustered_ok fuel dbg junk num u) as [S _]; try lia. destruct (S tape) as (data & E & Ls & L & F & ->).
  exists Ls. split; auto. apply built; auto; [lia|]. eapply clustered_plain; eauto.
Qed.
Lemma c36_clustered_endless : forall dbg binary junk num u, is_u32 num -> 1 <= num -> is_u32 u -> 4294901760 < u ->
  (forall fuel tape data, gen_clustered fuel dbg binary junk num u tape <> Ok data)
  /\ (forall fuel, gen_clustered fuel dbg binary junk num u [] = Fuel).
Proof. intros. apply gen_clustered_endless; lia. Qed.
Lemma c36_clustered_text : forall dbg junk,
  gen_clustered 1 dbg false junk 1 5 [2000000000] = Ok (1 :: 0 :: map junk (seq 1 9)).
Proof.
  intros dbg junk. unfold gen_clustered. change (Z.to_nat 1) with 1%nat. cbn [clustered_lists slices].
  change (0 <? 5) with true. cbn iota.
  assert (E : one_slice dbg 5 0 65536 [2000000000] = Ok (repeat 0 10, [])) by (destruct dbg; vm_compute; reflexivity).
  rewrite E. cbn [bind]. destruct dbg; reflexivity.
Qed.

Lemma is_u32_queries Ks n ok qs : 0 <= n -> queries_ok n ok Ks qs -> (forall K x, In K Ks -> ok (K, x) -> is_u32 x) -> Forall is_u32 qs.
Proof.
  intros Hn [L F] H. rewrite <- (asked_snd Ks n qs Hn L). apply Forall_map. rewrite Forall_forall in *. intros [K x] Hq.
  cbn [snd]. apply (H K); [|apply F; exact Hq]. unfold asked in Hq. apply in_combine_l in Hq. apply in_flat_map in Hq as (K' & HK & HR).
  apply repeat_spec in HR. now subst.
Qed.
Lemma c36_select : forall dbg dbg' params u Ls mem f n,
  is_u32 u -> is_u32 n -> Forall valid (kept_lists params Ls) -> holds_index dbg params u Ls 0 mem f ->
  let Ks := kept_lists params Ls in
  let good qs := zlen qs = zlen Ks * n /\ Forall (fun q => 0 <= snd q < zlen (fst q)) (asked Ks n qs) in
  (forall tape, exists qs, gen_select_queries dbg' mem f n tape = Ok qs)
  /\ (forall qs, (exists tape, gen_select_queries dbg' mem f n tape = Ok qs) <-> good qs)
  /\ (forall qs, good qs -> zlen Ks * n < 2 ^ 32 -> zlen Ks < 2 ^ 32 ->
        select_cpp dbg' mem f n qs
        = Ok (zlen qs, 4 * total (fun q => nth (Z.to_nat (snd q)) (fst q) 0) (asked Ks n qs) mod 2 ^ 64)).
Proof.
  intros dbg dbg' params u Ls mem f n Hu Hn V H Ks good. unfold is_u32 in Hn.
  destruct (holds_opened dbg params u Ls 0 mem f Hu ltac:(lia) V H) as (ix & O).
  destruct (gen_select_ok dbg' mem f u Ks ix n ltac:(lia) O) as [S C]. split; [|split].
  - intro tape. destruct (S tape) as (qs & E & _). eauto.
  - intro qs. split; [|apply C]. intros (tape & E). destruct (S tape) as (qs' & E' & G). rewrite E in E'.
    injection E' as <-. exact G.
  - intros qs G HB HK. pose proof G as [L F].
    assert (U : Forall is_u32 qs).
    { apply (is_u32_queries Ks n select_ok); auto; [lia|]. intros K x HKs Hx. unfold select_ok in Hx. cbn [fst snd] in Hx.
      unfold Ks in HKs. rewrite Forall_forall in V. pose proof (valid_zlen K (V K HKs)). unfold is_u32. lia. }
    destruct (c35_select dbg dbg' params u Ls mem f n qs Hu V H ltac:(lia) HK U) as [A _]. fold Ks in A.
    rewrite A by (auto; lia). rewrite (proj2 (Z.ltb_lt _ _) HB), L. do 3 f_equal.
    rewrite (selected_ok _ _ F), total_map. reflexivity.
Qed.
Lemma c36_next_geq : forall dbg dbg' params u Ls mem f n,
  is_u32 u -> is_u32 n -> Forall valid (kept_lists params Ls) -> holds_index dbg params u Ls 31 mem f ->
  let Ks := kept_lists params Ls in
  let good qs := zlen qs = zlen Ks * n /\ Forall (fun q => In (snd q) (fst q)) (asked Ks n qs) in
  (Forall (fun S => decode_fits S u) Ks ->
     (forall tape, exists qs, gen_next_geq_queries dbg' mem f n tape = Ok qs)
     /\ (forall qs, (exists tape, gen_next_geq_queries dbg' mem f n tape = Ok qs) <-> good qs))
  /\ (Exists (fun S => ~ decode_fits S u) Ks -> forall tape, gen_next_geq_queries dbg' mem f n tape = UB)
  /\ (forall qs, good qs -> zlen Ks * n < 2 ^ 32 -> zlen Ks < 2 ^ 32 ->
        next_geq_cpp dbg' mem f n qs = Ok (zlen qs, 4 * total (fun q => q) qs mod 2 ^ 64)).
Proof.
  intros dbg dbg' params u Ls mem f n Hu Hn V H Ks good. unfold is_u32 in Hn.
  destruct (holds_opened dbg params u Ls 31 mem f Hu ltac:(lia) V H) as (ix & O).
  destruct (gen_next_geq_ok dbg' mem f u Ks ix n ltac:(lia) ltac:(unfold is_u32 in Hu; lia) O) as [X Y]. split; [|split; auto].
  - intro D. destruct (X D) as [S C]. split.
    + intro tape. destruct (S tape) as (qs & E & _). eauto.
    + intro qs. split; [|apply C]. intros (tape & E). destruct (S tape) as (qs' & E' & G). rewrite E in E'.
      injection E' as <-. exact G.
  - intros qs G HB HK. pose proof G as [L F].
    assert (HKx : forall K x, In K Ks -> In x K -> StronglySorted Z.lt K /\ is_u32 x).
    { intros K x HKs Hx. unfold Ks in HKs. rewrite Forall_forall in V. destruct (V K HKs) as (_ & SS & FF). split; auto.
      rewrite Forall_forall in FF. specialize (FF x Hx). unfold is_u32. lia. }
    assert (U : Forall is_u32 qs).
    { apply (is_u32_queries Ks n next_ok); auto; [lia|]. intros K x HKs Hx. exact (proj2 (HKx K x HKs Hx)). }
    assert (H0 : holds_index dbg params u Ls 0 mem f).
    { destruct H as (HSh & st & o & q & E & Hf & HBy & HL & HM). split; auto. exists st, o, q. repeat (split; auto). lia. }
    destruct (c35_next_geq dbg dbg' params u Ls mem f n qs Hu V H0 ltac:(lia) HK U) as [A _]. fold Ks in A.
    rewrite A by (auto; lia). rewrite (proj2 (Z.ltb_lt _ _) HB), L. do 3 f_equal.
    rewrite <- (asked_snd Ks n qs) at 2 by (auto; lia). rewrite total_map. f_equal. apply total_ext_in. intros [K x] Hq. cbn [fst snd].
    rewrite Forall_forall in F. pose proof (F _ Hq) as Hx. cbn [fst snd] in Hx. apply spec_next_geq_self; auto.
    apply (HKx K x); auto. unfold asked in Hq. apply in_combine_l in Hq. apply in_flat_map in Hq as (K' & HK' & HR).
    apply repeat_spec in HR. now subst.
Qed.
Lemma c36_pairwise : forall num m, is_u32 num -> is_u32 m ->
  let hi := if m =? 0 then 4294967295 else m - 1 in
  let good qs := zlen qs = num /\ Forall (fun q => 0 <= fst q <= hi /\ 0 <= snd q <= hi) qs in
  (forall out, (exists tape, gen_pairwise_queries num m tape = out)
     <-> exists qs : list (Z * Z), good qs /\ out = flat_map (fun q => [fst q; snd q]) qs)
  /\ (forall Ks qs, 1 <= m -> zlen Ks = m -> good qs ->
        pairs_read num (flat_map (fun q => [fst q; snd q]) qs) qs /\ pairs_of Ks qs).
Proof.
  intros num m Hn Hm hi good. unfold is_u32 in Hn, Hm. destruct (gen_pairwise_ok num m ltac:(lia)) as [S C].
  assert (EH : (m - 1) mod 2 ^ 32 = hi).
  { unfold hi. destruct (Z.eqb_spec m 0) as [->|N]; [reflexivity|]. apply Z.mod_small. lia. }
  cbn zeta in S, C. rewrite EH in S, C. split.
  - intro out. split.
    + intros (tape & <-). destruct (S tape) as (qs & E & L & F). exists qs. split; [split; auto|auto].
    + intros (qs & [L F] & ->). apply C; auto.
  - intros Ks qs H1 HK [L F]. split.
    + exists []. rewrite app_nil_r. split; auto. left. lia.
    + assert (Hhi : hi = m - 1) by (unfold hi; destruct (Z.eqb_spec m 0); lia). unfold pairs_of. eapply Forall_impl; [|exact F].
      cbn beta. intros [x y] [Hx Hy]. cbn [fst snd] in *. unfold is_u32. split; [apply znth_Some; lia|]. split; [apply znth_Some; lia|]. lia.
Qed.
Lemma c36_ex :
  gen_uniform 2 1 4 10 [3; 10; 4; 10; 0; 2; 7; 7; 9] = Ok (collection 10 [[0; 4; 10]; [7; 9]])
  /\ gen_uniform 2 5 4 10 [] = UB
  /\ uniform_list 1 4 10 [0; 4; 10]
  /\ pass t_params (10 + 1) 10 = true
  /\ gen_event true (float_rand 2147483647) = Ok 2
  /\ (forall junk, gen_clustered 2 true true junk 2 65540 [1000000; 2000000000; 2; 4; 3; 4; 3; 4; 3; 2; 2; 2; 0; 1; 1; 5; 1000000000; 9]
        = Ok (collection 65540 [[65536; 65537; 65538; 65539; 65540]; [65536; 65537; 65538; 65539]]))
  /\ (let Ks := t_kept in
      kept_lists t_params t_lists = Ks /\ Forall valid Ks /\ holds_index true t_params 1000 t_lists 31 t_mem 1
      /\ Forall (fun S => decode_fits S 1000) Ks
      /\ gen_select_queries true t_mem 1 2 [2; 4; 4; 5; 600; 1] = Ok [2; 1; 4; 0; 0; 1]
      /\ gen_next_geq_queries true t_mem 1 2 [2; 4; 4; 5; 600; 1] = Ok [3; 2; 71; 2; 0; 3]
      /\ select_cpp true t_mem 1 2 [2; 1; 4; 0; 0; 1] = Ok (6, 4 * (3 + 2 + 71 + 2 + 0 + 3))
      /\ next_geq_cpp true t_mem 1 2 [3; 2; 71; 2; 0; 3] = Ok (6, 4 * (3 + 2 + 71 + 2 + 0 + 3)))
  /\ gen_pairwise_queries 2 3 [5; 1; 0; 7] = [2; 1; 0; 1].
Proof.
  split; [vm_compute; reflexivity|]. split; [reflexivity|].
  split.
  { split; [repeat constructor|]. split; [repeat (constructor; [lia|]); constructor|].
    split; [unfold zlen; cbn [length]; lia|discriminate]. }
  split; [vm_compute; reflexivity|]. split; [vm_compute; reflexivity|].
  split; [intro junk; vm_compute; reflexivity|].
  split; [|vm_compute; reflexivity]. cbn zeta. destruct c35_ex as (E1 & E2 & E3 & E4 & _).
  split; [exact E1|]. split; [exact E2|]. split; [exact E3|]. split.
  { rewrite Forall_forall in *. intros S HS. apply c34_enough; auto. }
  split; [vm_compute; reflexivity|]. split; [vm_compute; reflexivity|]. split; vm_compute; reflexivity.
Qed.
