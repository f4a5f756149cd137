(** When printing the statistics is defined. *)
From Coq Require Import Floats.SpecFloat.
From Verif Require Import Base Hw Spec Format Lib L_Bits L_Group Layout M_Util M_Build M_Print M_Index
  P_Build1 P_Build2 P_Build3 P_Seq P_Index P_Stats P_Format P_Float.
Local Open Scope Z_scope.

Lemma dtrunc_ok m e : -1074 <= e -> dtrunc m e = Zpos m * 2 ^ (e + 1074) / 2 ^ 1074.
Proof.
  intro H. unfold dtrunc. assert (P : 0 < 2 ^ 1074) by (apply Z.pow_pos_nonneg; lia).
  destruct (Z.leb_spec 0 e).
  - rewrite Z.pow_add_r, Z.mul_assoc, Z.div_mul by lia. reflexivity.
  - replace 1074 with (- e + (e + 1074)) at 2 by lia. rewrite (Z.pow_add_r 2 (- e)) by lia.
    rewrite Z.div_mul_cancel_r; [reflexivity| |]; apply Z.pow_nonzero; lia.
Qed.

Lemma floor_core n u G M k r : 0 < u -> n = u * k + r -> 0 <= r < u -> u < 2 * G -> - u <= 2 * (M * u - n * G) <= u -> M / G = k.
Proof.
  intros Hu -> Hr HG [A1 A2]. symmetry. apply Z.div_unique with (M - k * G); [left|lia].
  assert (0 <= r * G) by nia. assert (r * G <= (u - 1) * G) by nia.
  replace (M * u - (u * k + r) * G) with ((M - k * G) * u - r * G) in * by ring.
  set (D := M - k * G) in *. clearbody D. split.
  - apply Z.nlt_ge. intro C. assert (D * u <= -1 * u) by nia. lia.
  - apply Z.nle_gt. intro C. assert (G * u <= D * u) by nia. lia.
Qed.

(** the truncated double quotient is the integer quotient *)
Lemma avg_ok n u : 0 < u < 2 ^ 37 -> 0 < n <= 65536 * u ->
  u64_of_double (ddiv (double_of_u64 n) (double_of_u64 u)) = Ok (n / u).
Proof.
  intros Hu Hn.
  assert (P37 : 2 ^ 37 = 137438953472) by reflexivity. assert (P53 : 2 ^ 53 = 9007199254740992) by reflexivity.
  destruct (div_ok n u ltac:(lia) ltac:(lia)) as (m & e & M & E & F & Bm & Be & BM & BE & EV & Hlow & Hh).
  change (ddiv (double_of_u64 n) (double_of_u64 u)) with (SFdiv 53 1024 (double_of_u32 n) (double_of_u32 u)).
  rewrite F. cbn [u64_of_double].
  assert (L : E <= 1038).
  { apply Z.nlt_ge. intro C.
    assert (X : 4503599627370496 * 2 ^ E <= 65536 * 2 ^ 1074).
    { apply Z.mul_le_mono_pos_r with u; [lia|].
      apply Z.le_trans with (n * 2 ^ 1074); [exact Hlow|].
      assert (0 < 2 ^ 1074) by (apply Z.pow_pos_nonneg; lia). nia. }
    assert (Y : 2 ^ 1039 <= 2 ^ E) by (apply Z.pow_le_mono_r; lia).
    assert (4503599627370496 * 2 ^ 1039 <= 65536 * 2 ^ 1074) by lia.
    revert H. vm_compute. congruence. }
  pose proof (Z.div_mod n u ltac:(lia)) as DM. pose proof (Z.mod_pos_bound n u ltac:(lia)) as MB.
  set (k := n / u) in *. set (r := n mod u) in *.
  assert (PE : 0 < 2 ^ E) by (apply Z.pow_pos_nonneg; lia).
  assert (PT : 2 ^ 1074 = 2 ^ (1074 - E) * 2 ^ E) by (rewrite <- Z.pow_add_r by lia; f_equal; lia).
  assert (PG : 2 ^ 36 <= 2 ^ (1074 - E)) by (apply Z.pow_le_mono_r; lia).
  change (2 ^ 36) with 68719476736 in PG.
  assert (K : Zpos m * 2 ^ (e + 1074) / 2 ^ 1074 = k).
  { rewrite EV, PT. rewrite PT in Hh. set (G := 2 ^ (1074 - E)) in *. set (T := 2 ^ E) in *.
    rewrite Z.div_mul_cancel_r by lia.
    assert (A1 : - u <= 2 * (M * u - n * G)).
    { apply Z.mul_le_mono_pos_r with T; [lia|]. lia. }
    assert (A2 : 2 * (M * u - n * G) <= u).
    { apply Z.mul_le_mono_pos_r with T; [lia|]. lia. }
    apply (floor_core n u G M k r); lia. }
  rewrite dtrunc_ok by lia. rewrite K.
  assert (0 <= k <= 65536).
  { split; [apply Z.div_pos; lia|]. unfold k. apply Z.div_le_upper_bound; lia. }
  rewrite (proj2 (Z.leb_le 0 k)) by lia. rewrite (proj2 (Z.ltb_lt k (2 ^ 64))); [reflexivity|].
  assert (2 ^ 64 = 18446744073709551616) by reflexivity. lia.
Qed.

Lemma avg_zero : u64_of_double (ddiv (double_of_u64 0) (double_of_u64 0)) = UB.
Proof. reflexivity. Qed.

(** ** the counters *)
Lemma total_if A (p : A -> bool) (f : A -> Z) l : total (fun x => if p x then f x else 0) l = total f (filter p l).
Proof. induction l as [|x l IH]; auto. rewrite total_cons, IH. cbn [filter]. destruct (p x); auto. Qed.
Lemma total_one A (l : list A) : total (fun _ => 1) l = zlen l.
Proof. induction l as [|x l IH]; auto. rewrite total_cons, zlen_cons. lia. Qed.
Lemma total_flat_map A B (f : A -> list B) (g : B -> Z) l : total g (flat_map f l) = total (fun x => total g (f x)) l.
Proof. induction l as [|x l IH]; auto. cbn [flat_map]. rewrite total_app, total_cons, IH. reflexivity. Qed.

Lemma ids_card_filter n C : ids 256 n C = filter (fun b => negb (card 256 C b =? 0)) (zrange 0 n).
Proof.
  unfold ids. apply filter_ext_in. intros b Hb. apply In_zrange in Hb.
  destruct (Z.eqb_spec (card 256 C b) 0) as [E|E]; cbn [negb].
  - destruct (existsb _ C) eqn:X; auto. exfalso. apply (ids_card 256 n C b); auto. apply filter_In.
    split; auto. apply In_zrange. lia.
  - apply (card_ids 256 n) in E; [|lia]. apply filter_In in E. easy.
Qed.
Lemma blocks_in_ids S h : zlen (ids 256 256 (part 65536 S h)) = blocks_in S h.
Proof.
  rewrite ids_card_filter. unfold blocks_in. f_equal. apply filter_ext_in. intros b Hb. apply In_zrange in Hb.
  now rewrite card_sub by lia.
Qed.

Definition nb_field (i : Z) (f : field) (w : list Z -> Z) : Prop :=
  forall c, chunk_delta c f = match kind_of c with KSparse => if i =? zlen (blocks_of c) then w c else 0 | _ => 0 end.

Lemma delta_sparse n i f w S : nb_field i f w -> valid S -> Z.of_nat n = 65536 ->
  chunks_delta (map (fun h => (h, part 65536 S h)) (ids 65536 n S)) f
  = total (fun h => w (part 65536 S h)) (filter (sparse_with i S) (zrange 0 n)).
Proof.
  intros NB V N. rewrite chunks_delta_total, total_map. cbn [snd]. rewrite <- total_if.
  assert (W : forall h, In h (ids 65536 n S) -> wfc1 (h, part 65536 S h)).
  { intros h Hh. destruct (valid_chunks S V) as ((_ & W) & _). rewrite Forall_forall in W. apply W.
    rewrite (chunks_format S V). apply in_map_iff. exists h. split; auto.
    replace (Z.to_nat 65536) with n by (rewrite <- N; symmetry; apply Nat2Z.id). exact Hh. }
  rewrite <- (total_ids 65536 n S).
  - apply total_ext. intros h Hh. specialize (W h Hh). rewrite NB.
    unfold kind_of, sparse_with. rewrite (sparse_format h _ W), blocks_cost_sub, card_part.
    rewrite (blocks_format h _ W), zlen_map, blocks_in_ids.
    pose proof (ids_card 65536 n S h Hh). pose proof (card_nonneg 65536 S h).
    assert (P0 : (0 <? card 65536 S h) = true) by (apply Z.ltb_lt; lia). rewrite P0.
    rewrite (Z.eqb_sym i).
    destruct (Z.ltb_spec (card 65536 S h) 32768); cbn [andb].
    + destruct (Z.leb_spec 8192 (blocks_cost S h)), (Z.ltb_spec (blocks_cost S h) 8192); try lia; cbn [andb]; auto.
    + destruct (card 65536 S h =? 65536); auto.
  - intros h Hh. unfold sparse_with. rewrite Hh. reflexivity.
Qed.

Lemma delta_nb i S : valid S ->
  delta S (F_num_blocks_in_chunks i) = zlen (filter (sparse_with i S) (zrange 0 (Z.to_nat 65536))).
Proof.
  intro V. unfold delta, seq_delta. rewrite Z.add_0_r, (chunks_format S V).
  rewrite (delta_sparse _ i _ (fun _ => 1)); [apply total_one| |auto|].
  - intro c. unfold chunk_delta. destruct (kind_of c); auto.
  - rewrite Z2Nat.id; lia.
Qed.
Lemma delta_ni i S : valid S ->
  delta S (F_num_integers i) = total (card 65536 S) (filter (sparse_with i S) (zrange 0 (Z.to_nat 65536))).
Proof.
  intro V. unfold delta, seq_delta. rewrite Z.add_0_r, (chunks_format S V).
  rewrite (delta_sparse _ i _ zlen); [apply total_ext; intros; apply card_part| |auto|].
  - intro c. unfold chunk_delta. destruct (kind_of c); auto.
  - rewrite Z2Nat.id; lia.
Qed.

Definition n_sparse (i : Z) (K : list (list Z)) : Z := zlen (sparse_chunks i K).
Definition n_ints (i : Z) (K : list (list Z)) : Z := total (fun c => card 65536 (fst c) (snd c)) (sparse_chunks i K).
Lemma stats_nb i K : Forall valid K -> total (fun S => delta S (F_num_blocks_in_chunks i)) K = n_sparse i K.
Proof.
  intro V. unfold n_sparse, sparse_chunks. rewrite zlen_flat_map. apply total_ext. intros S HS.
  rewrite Forall_forall in V. rewrite zlen_map. apply delta_nb. auto.
Qed.
Lemma stats_ni i K : Forall valid K -> total (fun S => delta S (F_num_integers i)) K = n_ints i K.
Proof.
  intro V. unfold n_ints, sparse_chunks. rewrite total_flat_map. apply total_ext. intros S HS.
  rewrite Forall_forall in V. rewrite total_map. cbn [fst snd]. apply delta_ni. auto.
Qed.

Lemma sparse_bounds i K : n_sparse i K <= n_ints i K <= 65536 * n_sparse i K.
Proof.
  unfold n_sparse, n_ints. rewrite <- total_one, <- total_scale.
  assert (B : forall c, In c (sparse_chunks i K) -> 1 <= card 65536 (fst c) (snd c) <= 65536).
  { intros c Hc. unfold sparse_chunks in Hc. apply in_flat_map in Hc as (S & HS & Hc).
    apply in_map_iff in Hc as (h & <- & Hh). cbn [fst snd]. apply filter_In in Hh as [_ Hh].
    unfold sparse_with in Hh. rewrite !andb_true_iff, !Z.ltb_lt in Hh. lia. }
  split; apply total_le; intros c Hc; specialize (B c Hc); lia.
Qed.
Lemma total_filter_le (f : Z -> Z) p l : (forall x, 0 <= f x) -> total f (filter p l) <= total f l.
Proof.
  intro P. induction l as [|x l IH]; [cbn; lia|]. cbn [filter]. specialize (P x).
  destruct (p x); rewrite !total_cons; lia.
Qed.
Lemma ints_bound i K : Forall valid K -> n_ints i K <= total zlen K.
Proof.
  intro V. rewrite <- stats_ni by auto. apply total_le. intros S HS. rewrite Forall_forall in V. specialize (V S HS).
  rewrite delta_ni by auto.
  eapply Z.le_trans; [apply total_filter_le; intro; apply card_nonneg|].
  rewrite total_card_all; [lia|]. intros v Hv. destruct V as (_ & _ & R). rewrite Forall_forall in R. specialize (R v Hv).
  rewrite Z2Nat.id by lia. split; [apply Z.div_pos; lia|apply Z.div_lt_upper_bound; lia].
Qed.

(** ** the loop *)
Lemma ef_ok a : 0 < a -> exists b, elias_fano_bitsize a 65536 = Ok b.
Proof. intro H. unfold elias_fano_bitsize. destruct (Z.eqb_spec a 0); [lia|]. eauto. Qed.

Definition fine (st : statistics) (i : Z) : Prop :=
  0 < st (F_num_blocks_in_chunks i) < 2 ^ 37
  /\ st (F_num_blocks_in_chunks i) <= st (F_num_integers i) <= 65536 * st (F_num_blocks_in_chunks i).
Definition void (st : statistics) (i : Z) : Prop :=
  st (F_num_blocks_in_chunks i) = 0 /\ st (F_num_integers i) = 0.

Lemma dist_step st i : fine st i ->
  exists ef, u64_of_double (ddiv (double_of_u64 (st (F_num_integers i))) (double_of_u64 (st (F_num_blocks_in_chunks i))))
     = Ok (st (F_num_integers i) / st (F_num_blocks_in_chunks i))
   /\ elias_fano_bitsize (st (F_num_integers i) / st (F_num_blocks_in_chunks i)) 65536 = Ok ef.
Proof.
  intros [F1 F2]. rewrite avg_ok by lia.
  destruct (ef_ok (st (F_num_integers i) / st (F_num_blocks_in_chunks i))) as [b E].
  - apply Z.div_str_pos. lia.
  - eauto.
Qed.
Lemma dist_ok st fuel : forall i cov ev out,
  (forall j, i <= j < i + Z.of_nat fuel -> fine st j) ->
  exists ev' tail, print_dist fuel st i cov ev out = Ok (ev', out ++ tail)
    /\ zlen tail = 6 * Z.of_nat fuel
    /\ forall j, i <= j < i + Z.of_nat fuel ->
         znth tail (6 * (j - i) + 3) = Some (TNum (st (F_num_integers j) / st (F_num_blocks_in_chunks j))).
Proof.
  induction fuel as [|f IH]; intros i cov ev out H; cbn [print_dist].
  - exists ev, []. rewrite app_nil_r. split; [reflexivity|]. split; [reflexivity|]. lia.
  - destruct (dist_step st i (H i ltac:(lia))) as (ef & E1 & E2). rewrite E1. cbn [bind]. rewrite E2. cbn [bind].
    match goal with |- context [out ++ ?l] => set (line := l) end.
    edestruct (IH (i + 1)) as (ev' & tail & E & ZL & T); [intros; apply H; lia|].
    rewrite E. exists ev', (line ++ tail). rewrite <- app_assoc. split; [reflexivity|].
    rewrite zlen_app. change (zlen line) with 6. split; [lia|]. intros j Hj.
    destruct (Z.eq_dec j i) as [->|Nj].
    + rewrite Z.sub_diag, znth_app_l by (change (zlen line) with 6; lia). reflexivity.
    + rewrite znth_app_r by (change (zlen line) with 6; lia). change (zlen line) with 6.
      replace (6 * (j - i) + 3 - 6) with (6 * (j - (i + 1)) + 3) by lia. apply T. lia.
Qed.
Lemma dist_ub st fuel : forall i cov ev out,
  (forall j, i <= j < i + Z.of_nat fuel -> fine st j \/ void st j) ->
  (exists j, i <= j < i + Z.of_nat fuel /\ void st j) ->
  print_dist fuel st i cov ev out = UB.
Proof.
  induction fuel as [|f IH]; intros i cov ev out H (j & Hj & Vj); [lia|]. cbn [print_dist].
  destruct (H i ltac:(lia)) as [Fi|[V1 V2]].
  - destruct (dist_step st i Fi) as (ef & E1 & E2). rewrite E1. cbn [bind]. rewrite E2. cbn [bind].
    apply IH; [intros; apply H; lia|]. exists j. split; auto. destruct (Z.eq_dec j i) as [->|]; [|lia].
    destruct Fi, Vj. lia.
  - rewrite V1, V2, avg_zero. reflexivity.
Qed.
Lemma cards_len st fuel : forall i ev out ev' out',
  print_cards fuel st i ev out = (ev', out') -> zlen out' = zlen out + 2 * Z.of_nat fuel.
Proof.
  induction fuel as [|f IH]; intros i ev out ev' out' E; cbn [print_cards] in E.
  - injection E as <- <-. lia.
  - apply IH in E. rewrite E, zlen_app. change (zlen [_; _]) with 2. lia.
Qed.

Lemma print_ok st : (forall j, 1 <= j <= 256 -> fine st j) ->
  exists out, print st = Ok out /\ forall j, 1 <= j <= 256 ->
    znth out (87 + 6 * (j - 1) + 3) = Some (TNum (st (F_num_integers j) / st (F_num_blocks_in_chunks j))).
Proof.
  intro H. unfold print. match goal with |- context [print_cards 30 st 1 _ ?o] => set (head := o) end.
  destruct (print_cards 30 st 1 _ head) as [ev out] eqn:EC. apply cards_len in EC. change (zlen head) with 25 in EC.
  match goal with |- context [print_dist 256 st 1 0 ?z ?o] =>
    destruct (dist_ok st 256 1 0 z o ltac:(intros; apply H; lia)) as (ev' & tail & E & ZL & T) end.
  rewrite E. cbn [bind]. eexists. split; [reflexivity|]. intros j Hj. rewrite <- app_assoc.
  match goal with |- znth (?a ++ ?b) _ = _ => assert (L : zlen a = 87) end.
  { rewrite zlen_app. change (zlen [_; _]) with 2. lia. }
  rewrite znth_app_r by lia. rewrite L, znth_app_l by (rewrite ZL; lia).
  replace (87 + 6 * (j - 1) + 3 - 87) with (6 * (j - 1) + 3) by lia. apply T. lia.
Qed.
Lemma print_ub st : (forall j, 1 <= j <= 256 -> fine st j \/ void st j) -> (exists j, 1 <= j <= 256 /\ void st j) ->
  print st = UB.
Proof.
  intros H (j & Hj & V). unfold print. destruct (print_cards 30 st 1 _ _) as [ev out].
  rewrite dist_ub; [reflexivity| |].
  - intros. apply H. lia.
  - exists j. split; [lia|auto].
Qed.

Lemma index_stats dbg params u Ls stats offsets sequences :
  let kept := filter (fun L => pass params (zlen L) (last L 0)) Ls in
  Forall valid kept -> Forall short Ls ->
  index_build dbg params (collection u Ls) = Ok (stats, offsets, sequences) ->
  forall i, stats (F_num_blocks_in_chunks i) = n_sparse i kept /\ stats (F_num_integers i) = n_ints i kept.
Proof.
  intros kept V HSh E. destruct (index_build_ok dbg params u Ls V HSh) as (st & E' & Hst).
  rewrite E' in E. injection E as <- <- <-. intro i. rewrite !Hst, <- stats_nb, <- stats_ni by exact V.
  split; reflexivity.
Qed.

Theorem c28_print : forall dbg params u Ls stats offsets sequences,
  let kept := filter (fun L => pass params (zlen L) (last L 0)) Ls in
  Forall valid kept -> Forall short Ls -> total zlen kept < 2 ^ 37 ->
  index_build dbg params (collection u Ls) = Ok (stats, offsets, sequences) ->
  ((exists i, 1 <= i <= 256 /\ sparse_chunks i kept = []) -> print stats = UB)
  /\ ((forall i, 1 <= i <= 256 -> sparse_chunks i kept <> []) ->
      exists out, print stats = Ok out
        /\ forall i, 1 <= i <= 256 ->
             znth out (87 + 6 * (i - 1) + 3)
             = Some (TNum (total (fun c => card 65536 (fst c) (snd c)) (sparse_chunks i kept)
                           / zlen (sparse_chunks i kept)))).
Proof.
  intros dbg params u Ls stats offsets sequences kept V HSh B E.
  pose proof (index_stats _ _ _ _ _ _ _ V HSh E) as I. fold kept in I.
  assert (F : forall i, sparse_chunks i kept <> [] -> fine stats i).
  { intros i N. destruct (I i) as [I1 I2]. unfold fine. rewrite I1, I2.
    pose proof (sparse_bounds i kept) as [B1 B2]. pose proof (ints_bound i kept V).
    assert (0 < n_sparse i kept).
    { unfold n_sparse. destruct (sparse_chunks i kept); [easy|]. rewrite zlen_cons. pose proof (zlen_nonneg _ l). lia. }
    lia. }
  assert (X : forall i, sparse_chunks i kept = [] -> void stats i).
  { intros i N. destruct (I i) as [I1 I2]. unfold void. rewrite I1, I2. unfold n_sparse, n_ints. rewrite N. split; reflexivity. }
  split.
  - intros (i & Hi & Ni). apply print_ub; [|exists i; auto].
    intros j _. destruct (sparse_chunks j kept) eqn:Ej; [right; auto|left]. apply F. rewrite Ej. easy.
  - intro H. destruct (print_ok stats) as (out & P & T); [intros; apply F; auto|].
    exists out. split; auto. intros i Hi. rewrite T by auto. destruct (I i) as [-> ->]. reflexivity.
Qed.

(** ** both cases occur *)
(** one value in each of the first i blocks *)
Definition comb (i : Z) : list Z := map (fun b => 256 * b) (zrange 0 (Z.to_nat i)).

Lemma comb_sorted n : forall i, sorted (map (fun b => 256 * b) (zrange i n)).
Proof.
  induction n as [|n IH]; intro i; cbn [zrange map]; [apply sorted_nil|].
  apply sorted_cons; auto. apply Forall_forall. intros x Hx. apply in_map_iff in Hx as (b & <- & Hb).
  apply In_zrange in Hb. lia.
Qed.
Lemma comb_valid i : 1 <= i <= 256 -> valid (comb i).
Proof.
  intro H. unfold comb. split; [|split].
  - destruct (Z.to_nat i) eqn:E; [lia|]. easy.
  - apply comb_sorted.
  - apply Forall_forall. intros x Hx. apply in_map_iff in Hx as (b & <- & Hb). apply In_zrange in Hb. lia.
Qed.
Lemma card_comb_block n b : 0 <= b ->
  card 256 (map (fun b => 256 * b) (zrange 0 n)) b = if b <? Z.of_nat n then 1 else 0.
Proof.
  intro Hb. induction n as [|n IH].
  - destruct (Z.ltb_spec b (Z.of_nat 0)); auto; lia.
  - replace (S n) with (n + 1)%nat by lia. rewrite zrange_app, map_app. cbn [zrange map].
    unfold card in *. rewrite filter_app, zlen_app, IH. cbn [filter].
    replace (256 * (0 + Z.of_nat n) / 256) with (Z.of_nat n) by (rewrite Z.mul_comm, Z.div_mul; lia).
    destruct (Z.ltb_spec b (Z.of_nat n)), (Z.eqb_spec (Z.of_nat n) b), (Z.ltb_spec b (Z.of_nat (n + 1))); try lia;
      reflexivity.
Qed.
Lemma card_comb_chunk i : 1 <= i <= 256 -> card 65536 (comb i) 0 = i.
Proof.
  intro H. unfold card, comb. rewrite filter_all.
  - rewrite zlen_map, zlen_zrange. lia.
  - intros x Hx. apply in_map_iff in Hx as (b & <- & Hb). apply In_zrange in Hb. apply Z.eqb_eq, Z.div_small. lia.
Qed.
Lemma comb_cost n m : (n <= m)%nat -> forall d,
  total (fun b => if b <? d + Z.of_nat n then 3 else 0) (zrange d m) = 3 * Z.of_nat n.
Proof.
  revert n. induction m as [|m IH]; intros n H d; [replace n with O by lia; reflexivity|].
  cbn [zrange]. rewrite total_cons. destruct n as [|n].
  - rewrite (total_ext _ _ (fun _ => 0)), total_0.
    + destruct (Z.ltb_spec d (d + Z.of_nat 0)); lia.
    + intros x Hx. apply In_zrange in Hx. destruct (Z.ltb_spec x (d + Z.of_nat 0)); lia.
  - rewrite (total_ext _ _ (fun b => if b <? (d + 1) + Z.of_nat n then 3 else 0)).
    + rewrite IH by lia. destruct (Z.ltb_spec d (d + Z.of_nat (S n))); lia.
    + intros x _. now replace (d + Z.of_nat (S n)) with (d + 1 + Z.of_nat n) by lia.
Qed.
Lemma comb_sparse i : 1 <= i <= 256 -> sparse_with i (comb i) 0 = true.
Proof.
  intro H. unfold sparse_with. rewrite card_comb_chunk by auto.
  assert (E : forall b, In b (zrange 0 256) -> card 256 (comb i) (256 * 0 + b) = if b <? i then 1 else 0).
  { intros b Hb. apply In_zrange in Hb. unfold comb. rewrite card_comb_block by lia.
    rewrite Z2Nat.id by lia. reflexivity. }
  assert (C : blocks_cost (comb i) 0 = 3 * i).
  { unfold blocks_cost. rewrite (total_ext _ _ (fun b => if b <? 0 + Z.of_nat (Z.to_nat i) then 3 else 0)).
    - rewrite comb_cost by lia. lia.
    - intros b Hb. rewrite E by auto. rewrite Z2Nat.id by lia. cbn [Z.add]. destruct (b <? i); reflexivity. }
  assert (B : blocks_in (comb i) 0 = i).
  { unfold blocks_in. rewrite <- total_one, <- total_if.
    assert (3 * total (fun x => if negb (card 256 (comb i) (256 * 0 + x) =? 0) then 1 else 0) (zrange 0 256) = 3 * i); [|lia].
    rewrite <- total_scale, (total_ext _ _ (fun b => if b <? 0 + Z.of_nat (Z.to_nat i) then 3 else 0)).
    - rewrite comb_cost by lia. lia.
    - intros b Hb. rewrite E by auto. rewrite Z2Nat.id by lia. cbn [Z.add]. destruct (b <? i); reflexivity. }
  rewrite C, B, Z.eqb_refl.
  destruct (Z.ltb_spec 0 i), (Z.ltb_spec i 32768), (Z.ltb_spec (3 * i) 8192); reflexivity || lia.
Qed.

Definition combs : list (list Z) := map comb (zrange 1 256).
Lemma combs_sparse i : 1 <= i <= 256 -> sparse_chunks i combs <> [].
Proof.
  intros H E. assert (X : In (comb i, 0) (sparse_chunks i combs)); [|rewrite E in X; contradiction].
  unfold sparse_chunks. apply in_flat_map. exists (comb i). split.
  - unfold combs. apply in_map, In_zrange. lia.
  - apply in_map, filter_In. split; [apply In_zrange; rewrite Z2Nat.id; lia|]. now apply comb_sparse.
Qed.
Lemma zlen_comb i : 1 <= i <= 256 -> zlen (comb i) = i.
Proof. intro H. unfold comb. rewrite zlen_map, zlen_zrange. lia. Qed.
Lemma combs_kept : filter (fun L => pass default_params (zlen L) (last L 0)) combs = combs.
Proof.
  assert (G : forall l, (forall L, In L l -> 0 < zlen L) ->
    filter (fun L => pass default_params (zlen L) (last L 0)) l = l).
  { induction l as [|L l IH]; intro H; auto. cbn [filter].
    assert (P : pass default_params (zlen L) (last L 0) = true).
    { unfold pass. destruct (_ && _); auto. cbn [p_size default_params]. specialize (H L (in_eq _ _)).
      destruct (Z.ltb_spec 0 (zlen L)); [reflexivity|lia]. }
    rewrite P. f_equal. apply IH. intros. apply H. now right. }
  apply G. intros L HL. apply in_map_iff in HL as (i & <- & Hi). apply In_zrange in Hi. rewrite zlen_comb by lia. lia.
Qed.
Lemma combs_valid : Forall valid combs.
Proof.
  apply Forall_forall. intros L HL. apply in_map_iff in HL as (i & <- & Hi). apply In_zrange in Hi.
  apply comb_valid. lia.
Qed.
Lemma combs_small : total zlen combs < 2 ^ 37.
Proof.
  unfold combs. rewrite total_map. rewrite (total_ext _ _ (fun i => i)).
  - vm_compute. reflexivity.
  - intros i Hi. apply In_zrange in Hi. apply zlen_comb. lia.
Qed.


Lemma sparse_one n L :
  total (fun i => zlen (filter (sparse_with i L) (zrange 0 n))) (zrange 1 256) <= zlen (ids 65536 n L).
Proof.
  rewrite (total_ext _ _ (fun i => total (fun h => if sparse_with i L h then 1 else 0) (zrange 0 n)))
    by (intros; rewrite total_if; symmetry; apply total_one).
  rewrite total_swap, <- total_one.
  rewrite (total_ext _ _ (fun h => if card 65536 L h =? 0 then 0 else 1)) with (l := ids 65536 n L).
  2:{ intros h Hh. apply ids_card in Hh. destruct (Z.eqb_spec (card 65536 L h) 0); lia. }
  rewrite (total_ids 65536 n L) by (intros h ->; reflexivity).
  apply total_le. intros h _.
  destruct (Z.eqb_spec (card 65536 L h) 0) as [E|E].
  - rewrite total_zero; [lia|]. intro i. unfold sparse_with. rewrite E. reflexivity.
  - apply Z.le_trans with (total (fun i => if i =? blocks_in L h then 1 else 0) (zrange 1 256)).
    + apply total_le. intros i _. unfold sparse_with. rewrite (Z.eqb_sym i).
      destruct (blocks_in L h =? i); [destruct (_ && _); lia|rewrite andb_false_r; lia].
    + rewrite (total_indicator (fun _ => 1)). destruct (_ && _); lia.
Qed.

(** with fewer than 256 chunks it is never defined *)
Theorem c28_few_chunks : forall dbg params u Ls stats offsets sequences,
  let kept := filter (fun L => pass params (zlen L) (last L 0)) Ls in
  Forall valid kept -> Forall short Ls -> total zlen kept < 2 ^ 37 ->
  total (fun L => zlen (ids 65536 (Z.to_nat 65536) L)) kept < 256 ->
  index_build dbg params (collection u Ls) = Ok (stats, offsets, sequences) ->
  print stats = UB.
Proof.
  intros dbg params u Ls stats offsets sequences kept V HSh B F E.
  destruct (c28_print dbg params u Ls stats offsets sequences V HSh B E) as [P _]. apply P. fold kept.
  destruct (Forall_Exists_dec (fun i => sparse_chunks i kept <> [])) with (l := zrange 1 256) as [A|X].
  - intro i. destruct (sparse_chunks i kept); [right|left]; easy.
  - exfalso.
    assert (T : 256 <= total (fun i => zlen (sparse_chunks i kept)) (zrange 1 256)).
    { change 256 with (zlen (zrange 1 256)) at 1. rewrite <- total_one. apply total_le. intros i Hi.
      rewrite Forall_forall in A. specialize (A i Hi). destruct (sparse_chunks i kept) as [|c l]; [easy|].
      rewrite zlen_cons. pose proof (zlen_nonneg _ l). lia. }
    assert (U : total (fun i => zlen (sparse_chunks i kept)) (zrange 1 256)
                <= total (fun L => zlen (ids 65536 (Z.to_nat 65536) L)) kept); [|lia].
    rewrite (total_ext _ _ (fun i => total (fun L => zlen (filter (sparse_with i L) (zrange 0 (Z.to_nat 65536)))) kept)).
    2:{ intros i _. unfold sparse_chunks. rewrite zlen_flat_map. apply total_ext. intros. apply zlen_map. }
    rewrite total_swap. apply total_le. intros L _.
    apply sparse_one.
  - apply Exists_exists in X as (i & Hi & X). exists i. apply In_zrange in Hi. split; [lia|].
    destruct (sparse_chunks i kept); auto. exfalso. apply X. easy.
Qed.
