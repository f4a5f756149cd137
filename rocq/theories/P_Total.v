(** C40: on arbitrary bytes every reading operation ends. *)
From Verif Require Import Base Hw Outcome M_Util M_Seq M_Decode M_Uncompress M_Query
  M_Intersect M_Union M_Many M_Index Lib L_Bits P_Build1.
From Coq Require Import Lia.

(** ** Outcomes with a condition on the result *)
Definition wpd {A} (dbg : bool) (r : res A) (P : A -> Prop) : Prop :=
  match r with
  | Ok x => P x
  | UB => True
  | Abort => dbg = true
  | Throw | Fuel => False
  end.

Lemma wp_bind A B dbg (a : res A) (f : A -> res B) P :
  wpd dbg a (fun x => wpd dbg (f x) P) -> wpd dbg (bind a f) P.
Proof. destruct a; cbn [wpd bind]; auto. Qed.
Lemma wp_mono A dbg (a : res A) (P Q : A -> Prop) :
  wpd dbg a P -> (forall x, P x -> Q x) -> wpd dbg a Q.
Proof. destruct a; cbn [wpd]; auto. Qed.
Lemma wp_seq A B dbg (a : res A) (f : A -> res B) P Q :
  wpd dbg a P -> (forall x, P x -> wpd dbg (f x) Q) -> wpd dbg (bind a f) Q.
Proof. intros H K. apply wp_bind. eapply wp_mono; eauto. Qed.
Lemma wp_eq A B dbg (a : res A) (f : A -> res B) P Q :
  wpd dbg a P -> (forall x, a = Ok x -> P x -> wpd dbg (f x) Q) -> wpd dbg (bind a f) Q.
Proof. intros H K. destruct a; cbn [wpd bind] in *; auto. Qed.
Lemma wp_settles A dbg (a : res A) P : wpd dbg a P -> settles dbg a.
Proof. destruct a; cbn; auto. Qed.
Lemma wp_true A dbg (a : res A) : settles dbg a -> wpd dbg a (fun _ => True).
Proof. destruct a; cbn; auto. Qed.
Lemma wp_assert dbg b : wpd dbg (assert_ dbg b) (fun _ => True).
Proof. unfold assert_. destruct dbg, b; cbn; auto. Qed.

Section Mem.
Variables (dbg : bool) (mem : list Z).
Hypothesis Bytes : Forall is_byte mem.

Local Notation wp := (wpd dbg).

(** ** Reading and writing *)
Lemma vget_wp v i (P : Z -> Prop) : Forall P v -> wp (vget v i) P.
Proof.
  intro H. unfold vget. destruct (znth v i) eqn:E; cbn; auto.
  apply znth_In in E. rewrite Forall_forall in H. auto.
Qed.
Lemma vget_any v i : wp (vget v i) (fun _ => True).
Proof. unfold vget. destruct (znth v i); cbn; auto. Qed.
Lemma rd8_wp a : wp (rd8 mem a) is_byte.
Proof. now apply vget_wp. Qed.
Lemma Forall_firstn A (P : A -> Prop) n l : Forall P l -> Forall P (firstn n l).
Proof. intro H. revert n. induction H; intros [|n]; cbn; constructor; auto. Qed.
Lemma Forall_skipn A (P : A -> Prop) n l : Forall P l -> Forall P (skipn n l).
Proof. intro H. revert n. induction H; intros [|n]; cbn; auto. Qed.
Lemma store_wp buf pos vals (P : Z -> Prop) :
  Forall P buf -> Forall P vals -> wp (store buf pos vals) (Forall P).
Proof.
  intros H K. unfold store. destruct (_ && _); cbn; auto.
  apply Forall_app. split; [now apply Forall_firstn|]. apply Forall_app. split; auto. now apply Forall_skipn.
Qed.
Lemma Forall_any (l : list Z) : Forall (fun _ => True) l.
Proof. induction l; auto. Qed.
Lemma store_any buf pos vals : wp (store buf pos vals) (fun _ => True).
Proof. unfold store. destruct (_ && _); cbn; auto. Qed.
Lemma vset_wp buf pos x (P : Z -> Prop) : Forall P buf -> P x -> wp (vset buf pos x) (Forall P).
Proof. intros. apply store_wp; auto. Qed.
Lemma vset_any buf pos x : wp (vset buf pos x) (fun _ => True).
Proof. apply store_any. Qed.

Lemma rd_bytes_wp n : forall a, wp (rd_bytes mem a n) (fun l => length l = n /\ Forall is_byte l).
Proof.
  induction n; intro a; cbn [rd_bytes]; [cbn; auto|].
  eapply wp_seq; [apply rd8_wp|]. intros x Hx. eapply wp_seq; [apply IHn|]. intros l [L F]. cbn. auto.
Qed.
Lemma le_val_range l : Forall is_byte l -> 0 <= le_val l < 256 ^ zlen l.
Proof.
  intro H. induction H as [|x l Hx H IH]; cbn [le_val]; [cbn; lia|].
  rewrite zlen_cons, Z.add_comm, Z.pow_add_r, Z.pow_1_r by (unfold zlen; lia).
  unfold is_byte in Hx. lia.
Qed.
Lemma rd_le_wp n a : wp (rd_le mem n a) (fun x => 0 <= x < 256 ^ Z.of_nat n).
Proof.
  unfold rd_le. eapply wp_seq; [apply rd_bytes_wp|]. intros l [L F]. cbn.
  pose proof (le_val_range l F). unfold zlen in *. now rewrite L in *.
Qed.
Lemma rd16_wp a : wp (rd16 mem a) (fun x => 0 <= x < 65536).
Proof. exact (rd_le_wp 2 a). Qed.
Lemma rd32_wp a : wp (rd32 mem a) (fun _ => True).
Proof. eapply wp_mono; [exact (rd_le_wp 4 a)|auto]. Qed.
Lemma rd64_wp a : wp (rd64 mem a) w64.
Proof. eapply wp_mono; [exact (rd_le_wp 8 a)|]. intros x H. exact H. Qed.
Lemma load128_wp a : wp (load128 mem a) (fun _ => True).
Proof. eapply wp_mono; [apply (rd_bytes_wp 16)|auto]. Qed.

(** a word source *)
Definition words (bm : Z -> res Z) : Prop := forall i, wp (bm i) w64.
Lemma words_mem_words a : words (words_mem mem a).
Proof. intro i. apply rd64_wp. Qed.
Lemma words_vec_words v : Forall w64 v -> words (words_vec v).
Proof. intros H i. now apply vget_wp. Qed.
End Mem.

Create HintDb total.
Global Hint Resolve rd8_wp rd16_wp rd32_wp rd64_wp load128_wp vset_any store_any vget_any wp_assert
  words_mem_words words_vec_words : total.

(** one step of symbolic execution; the result of each call is only named *)
Ltac wstep :=
  cbv beta iota zeta;
  match goal with
  | |- wpd _ (bind (match ?x with _ => _ end) _) _ => destruct x eqn:?
  | |- wpd _ (bind UB _) _ => exact I
  | |- wpd ?d (bind (Ok ?x) ?f) ?P => change (wpd d (f x) P)
  | |- wpd _ (bind (bind _ _) _) _ => apply wp_bind
  | |- wpd _ (bind _ _) _ => eapply wp_seq; [solve [eauto with total]|intros ? ?; cbv beta in *]
  | |- wpd _ (match ?x with _ => _ end) _ => destruct x eqn:?
  | |- wpd _ (Ok _) _ => cbn [wpd]
  | |- wpd _ UB _ => exact I
  | |- wpd _ _ _ => solve [eauto with total | eapply wp_mono; [solve [eauto with total]|auto]]
  | |- wpd _ _ _ => eapply wp_mono; [solve [eauto with total]|intros ? ?; cbv beta in *]
  end.
Ltac wgo := repeat wstep; try solve [auto | exact I].

Lemma lor_w64 a b : w64 a -> w64 b -> w64 (Z.lor a b).
Proof.
  intros A B. apply w64_of_bits.
  - apply Z.lor_nonneg. unfold w64 in *. lia.
  - intros i Hi. rewrite Z.lor_spec, !w64_testbit_high; auto.
Qed.
Lemma land_w64 a b : w64 a -> w64 b -> w64 (Z.land a b).
Proof.
  intros A B. apply w64_of_bits.
  - apply Z.land_nonneg. unfold w64 in *. lia.
  - intros i Hi. rewrite Z.land_spec, !w64_testbit_high; auto.
Qed.
Lemma bts_w64 p w : w64 w -> w64 (bts p w).
Proof. intro H. unfold bts. rewrite Z.shiftl_1_l. apply lor_pow2_w64; auto. apply Z.mod_pos_bound. lia. Qed.

Section Ops.
Variables (dbg : bool) (mem : list Z).
Hypothesis Bytes : Forall is_byte mem.
Local Notation wp := (wpd dbg).
Local Notation fine r := (wp r (fun _ => True)).

(** ** util.hpp *)
Lemma word_loop_wp : forall fuel w base buf pos size,
  w64 w -> (length (bits w) <= fuel)%nat -> fine (word_loop fuel w base buf pos size).
Proof.
  induction fuel; intros w base buf pos size Hw Hf; cbn [word_loop].
  - destruct (Z.eqb_spec w 0); [exact I|]. exfalso. apply n. apply bits_nil; auto. destruct (bits w); auto; cbn in Hf; lia.
  - destruct (Z.eqb_spec w 0); [exact I|]. cbv zeta. apply wp_bind. eapply wp_mono; [apply vset_any|]. intros b _.
    assert (0 < w) by (unfold w64 in Hw; lia).
    rewrite lowest_bit by auto. destruct (bits_step w) as [E W]; auto. apply IHfuel; auto.
    rewrite E in Hf. cbn in Hf. lia.
Qed.
Lemma bitmap_loop_wp : forall n word i base buf pos size,
  words dbg word -> fine (bitmap_loop n word i base buf pos size).
Proof.
  induction n; intros word i base buf pos size H; cbn [bitmap_loop]; [exact I|].
  eapply wp_seq; [apply H|]. intros w Hw. eapply wp_seq; [apply word_loop_wp; auto using bits_length|].
  intros [b s] _. auto.
Qed.
Lemma and_bitmaps_wp l r n base out pos : words dbg l -> words dbg r -> fine (and_bitmaps l r n base out pos).
Proof.
  intros L R. apply bitmap_loop_wp. intro i. eapply wp_seq; [apply L|]. intros a A.
  eapply wp_seq; [apply R|]. intros b B. cbn. now apply land_w64.
Qed.
Lemma or_bitmaps_wp l r n base out pos : words dbg l -> words dbg r -> fine (or_bitmaps l r n base out pos).
Proof.
  intros L R. apply bitmap_loop_wp. intro i. eapply wp_seq; [apply L|]. intros a A.
  eapply wp_seq; [apply R|]. intros b B. cbn. now apply lor_w64.
Qed.
Lemma bitmap_contains_wp bm p : words dbg bm -> fine (bitmap_contains bm p).
Proof. intro H. unfold bitmap_contains. eapply wp_seq; [apply H|]. intros; exact I. Qed.
Lemma decode_bitmap_wp bm n base out pos : words dbg bm -> fine (decode_bitmap bm n base out pos).
Proof.
  intro H. unfold decode_bitmap. eapply wp_seq; [now apply bitmap_loop_wp|]. intros [o s] _. exact I.
Qed.
Hint Resolve and_bitmaps_wp or_bitmaps_wp bitmap_contains_wp decode_bitmap_wp : total.

(** ** iterators *)
Definition itok (it : iterator) : Prop := 0 <= i_begin it <= i_end it /\ i_end it <= 65536.
(** chunks left *)
Definition left_ (it : iterator) : Z := i_end it - i_begin it.
Definition goes (it it' : iterator) : Prop :=
  itok it' /\ i_end it' = i_end it /\ i_begin it <= i_begin it'
  /\ (i_begin it' = i_begin it -> it' = it).

Lemma goes_refl it : itok it -> goes it it.
Proof. intro H. repeat split; try apply H; auto; lia. Qed.
Lemma goes_trans a b c : goes a b -> goes b c -> goes a c.
Proof.
  intros (A1 & A2 & A3 & A4) (B1 & B2 & B3 & B4). repeat split; try apply B1; try lia.
  intro E. rewrite B4 by lia. apply A4. lia.
Qed.
Lemma goes_ok a b : goes a b -> itok b.
Proof. now intros (H & _). Qed.
Lemma goes_left a b : goes a b -> 0 <= left_ b <= left_ a.
Proof. intros ((A & A') & E & L & _). unfold left_. lia. Qed.
Hint Resolve goes_refl goes_ok : total.

Lemma it_id_wp it : wp (it_id mem it) (fun x => 0 <= x <= 65536 /\ (x < 65536 <-> it_has_next it = true)).
Proof.
  unfold it_id. destruct (it_has_next it) eqn:E.
  - eapply wp_mono; [now apply rd16_wp|]. intros x H. cbn beta in *. split; [lia|]. split; auto. lia.
  - cbn. split; [lia|]. split; [lia|easy].
Qed.
Lemma it_base_wp it : fine (it_base mem it).
Proof. unfold it_base. eapply wp_seq; [apply it_id_wp|]. intros; exact I. Qed.
Lemma it_cardinality_wp it : wp (it_cardinality mem it) (fun x => 1 <= x <= 65536).
Proof. unfold it_cardinality. eapply wp_seq; [now apply rd16_wp|]. intros. cbn in *. lia. Qed.
Lemma it_type_wp it : fine (it_type mem it).
Proof. unfold it_type. eapply wp_seq; [now apply rd16_wp|]. intros; exact I. Qed.
Lemma it_blocks_wp it : wp (it_blocks mem it) (fun x => 1 <= x <= 256).
Proof.
  unfold it_blocks. eapply wp_seq; [now apply rd16_wp|]. intros x H. cbn [wpd].
  cbn beta in H. rewrite Z.shiftr_div_pow2 by lia. change (2 ^ 8) with 256.
  pose proof (Z.div_le_mono x 65535 256). pose proof (Z.div_pos x 256).
  change (65535 / 256) with 255 in *. lia.
Qed.
Lemma it_next_wp it : itok it -> it_has_next it = true ->
  wp (it_next mem it) (fun it' => goes it it' /\ left_ it' = left_ it - 1).
Proof.
  intros [H H'] N. unfold it_has_next in N. apply Z.ltb_lt in N.
  unfold it_next, it_offset. eapply wp_seq; [now apply rd16_wp|]. intros o _. cbn [wpd].
  unfold left_, goes, itok. cbn [i_begin i_end]. unfold u32. change (2 ^ 32) with 4294967296.
  rewrite Z.mod_small by lia. repeat split; try lia.
Qed.
Lemma it_next_any it : fine (it_next mem it).
Proof. unfold it_next, it_offset. eapply wp_seq; [now apply rd16_wp|]. intros; exact I. Qed.
Hint Resolve it_id_wp it_base_wp it_cardinality_wp it_type_wp it_blocks_wp it_next_any : total.

Lemma advance_loop_wp : forall fuel it b, itok it -> left_ it <= Z.of_nat fuel ->
  wp (advance_loop fuel mem it b)
     (fun it' => goes it it' /\ wp (it_id mem it') (fun id => b <= id \/ it_has_next it' = false)).
Proof.
  induction fuel; intros it b H L; cbn [advance_loop]; (eapply wp_eq; [apply it_id_wp|]); intros id E (R & N).
  all: assert (STOP : (id <? b) && it_has_next it = false ->
    goes it it /\ wp (it_id mem it) (fun id => b <= id \/ it_has_next it = false)).
  1,3: intro C; split; [now apply goes_refl|]; rewrite E; cbn [wpd];
       apply andb_false_iff in C as [C|C]; [apply Z.ltb_ge in C; auto|auto].
  all: destruct ((id <? b) && it_has_next it) eqn:C; [|cbn [wpd]; auto].
  all: apply andb_true_iff in C as [C1 C2].
  - exfalso. unfold it_has_next in C2. apply Z.ltb_lt in C2. unfold left_ in L. lia.
  - eapply wp_seq; [now apply it_next_wp|]. intros it' [G L'].
    eapply wp_mono; [apply IHfuel; [eauto with total|lia]|]. intros it2 [G2 W].
    split; auto. eapply goes_trans; eauto.
Qed.
Lemma it_fuel_ok it : itok it -> left_ it <= Z.of_nat (it_fuel it).
Proof. intros [H H']. unfold it_fuel, left_. rewrite Nat2Z.inj_succ, Z2Nat.id by lia. lia. Qed.
Lemma it_advance_wp it b : itok it -> wp (it_advance mem it b)
     (fun it' => goes it it' /\ wp (it_id mem it') (fun id => b <= id \/ it_has_next it' = false)).
Proof. intro H. apply advance_loop_wp; auto. now apply it_fuel_ok. Qed.

Lemma it_skip_wp it : itok it -> skip_position it < i_end it ->
  wp (it_skip mem it) (fun it' => goes it it' /\ left_ it' = left_ it - 32).
Proof.
  intros [H H'] N. unfold it_skip. eapply wp_seq; [now apply rd32_wp|]. intros o _. cbn [wpd].
  unfold skip_position, associativity, u32 in *. change (2 ^ 32) with 4294967296 in *.
  rewrite Z.mod_small in * by lia.
  unfold left_, goes, itok. cbn [i_begin i_end]. rewrite ?Z.mod_small by lia. repeat split; lia.
Qed.
Lemma skip_to_value_loop_wp : forall fuel it b, itok it -> left_ it <= Z.of_nat fuel ->
  wp (skip_to_value_loop fuel mem it b) (goes it).
Proof.
  induction fuel; intros it b H L; cbn [skip_to_value_loop];
    (destruct (Z.ltb_spec (skip_position it) (i_end it)) as [C|C]; [|now apply goes_refl]);
    (eapply wp_seq; [now apply rd16_wp|]); intros h Hh; (destruct (h <=? b); [|now apply goes_refl]).
  - exfalso. destruct H. unfold skip_position, associativity, u32, left_ in *. change (2 ^ 32) with 4294967296 in *.
    rewrite Z.mod_small in C by lia. lia.
  - eapply wp_seq; [now apply it_skip_wp|]. intros it' [G L'].
    eapply wp_mono; [apply IHfuel; [eauto with total|lia]|]. intros it2 G2. eapply goes_trans; eauto.
Qed.
Lemma skip_to_value_wp it b : itok it -> wp (skip_to_value mem it b)
     (fun it' => goes it it' /\ wp (it_id mem it') (fun id => b <= id \/ it_has_next it' = false)).
Proof.
  intro H. unfold skip_to_value. eapply wp_seq; [apply skip_to_value_loop_wp; auto; now apply it_fuel_ok|].
  intros it' G. eapply wp_mono; [apply it_advance_wp; eauto with total|]. intros it2 [G2 W].
  split; auto. eapply goes_trans; eauto.
Qed.
Lemma skip_to_position_loop1_wp : forall fuel it e r, itok it -> left_ it <= Z.of_nat fuel ->
  wp (skip_to_position_loop1 fuel mem it e r) (fun p => goes it (snd p)).
Proof.
  induction fuel; intros it e r H L; cbn [skip_to_position_loop1];
    (destruct (Z.ltb_spec (skip_position it) (i_end it)) as [C|C]; [|now apply goes_refl]);
    (eapply wp_seq; [now apply rd32_wp|]); intros h Hh; (destruct (r <? _); [now apply goes_refl|]).
  - exfalso. destruct H. unfold skip_position, associativity, u32, left_ in *. change (2 ^ 32) with 4294967296 in *.
    rewrite Z.mod_small in C by lia. lia.
  - eapply wp_seq; [now apply it_skip_wp|]. intros it' [G L'].
    eapply wp_mono; [apply IHfuel; [eauto with total|lia]|]. intros it2 G2. eapply goes_trans; eauto.
Qed.
Lemma skip_to_position_loop2_wp : forall fuel it e r, itok it -> left_ it <= Z.of_nat fuel ->
  wp (skip_to_position_loop2 fuel mem it e r) (fun p => goes it (snd p)).
Proof.
  induction fuel; intros it e r H L; cbn [skip_to_position_loop2];
    (destruct (it_has_next it) eqn:C; [|now apply goes_refl]);
    (eapply wp_seq; [apply it_cardinality_wp|]); intros h Hh; (destruct (r <? _); [now apply goes_refl|]).
  - exfalso. unfold it_has_next in C. apply Z.ltb_lt in C. unfold left_ in L. lia.
  - eapply wp_seq; [now apply it_next_wp|]. intros it' [G L'].
    eapply wp_mono; [apply IHfuel; [eauto with total|lia]|]. intros it2 G2. eapply goes_trans; eauto.
Qed.
Lemma skip_to_position_wp it r : itok it -> wp (skip_to_position mem it r) (fun p => goes it (snd p)).
Proof.
  intro H. unfold skip_to_position.
  eapply wp_seq; [apply skip_to_position_loop1_wp; auto; now apply it_fuel_ok|].
  intros [e it'] G. cbn [snd] in G.
  eapply wp_mono; [apply skip_to_position_loop2_wp; eauto with total; apply it_fuel_ok; eauto with total|].
  intros p G2. eapply goes_trans; eauto.
Qed.

(** ** contains.hpp, select.hpp, next_geq.hpp *)
Lemma sparse_block_contains_wp : forall n begin i v, fine (sparse_block_contains_loop n mem begin i v).
Proof. induction n; intros; cbn [sparse_block_contains_loop]; wgo. Qed.
Hint Resolve sparse_block_contains_wp : total.
Lemma contains_sparse_chunk_loop_wp : forall fuel begin k data b v,
  (k <= fuel)%nat -> fine (contains_sparse_chunk_loop fuel dbg mem begin (begin + 2 * Z.of_nat k) data b v).
Proof.
  induction fuel; intros begin k data b v H; cbn [contains_sparse_chunk_loop];
    (destruct (Z.eqb_spec begin (begin + 2 * Z.of_nat k)); [exact I|]).
  - lia.
  - unfold sparse_block_contains. wgo.
    destruct k; [lia|]. replace (begin + 2 * Z.of_nat (S k)) with (begin + 2 + 2 * Z.of_nat k) by lia.
    apply IHfuel. lia.
Qed.
Lemma contains_sparse_chunk_wp begin blocks v : 1 <= blocks -> fine (contains_sparse_chunk dbg mem begin blocks v).
Proof.
  intro H. unfold contains_sparse_chunk. eapply wp_seq; [apply wp_assert|]. intros _ _. cbv zeta.
  replace (begin + blocks * 2) with (begin + 2 * Z.of_nat (Z.to_nat blocks)) by lia.
  apply contains_sparse_chunk_loop_wp. lia.
Qed.
Lemma select_bitmap_loop_wp : forall n bm i e r, words dbg bm -> fine (select_bitmap_loop n dbg bm i e r).
Proof.
  induction n; intros; cbn [select_bitmap_loop]; [exact I|]. eapply wp_seq; [apply H|]. intros w Hw. wgo.
Qed.
Lemma select_bitmap_wp bm n r : words dbg bm -> fine (select_bitmap dbg bm n r).
Proof. apply select_bitmap_loop_wp. Qed.
Hint Resolve select_bitmap_wp : total.
Lemma select_sparse_chunk_loop_wp : forall fuel begin k data e r,
  (k <= fuel)%nat -> fine (select_sparse_chunk_loop fuel dbg mem begin (begin + 2 * Z.of_nat k) data e r).
Proof.
  induction fuel; intros begin k data e r H; cbn [select_sparse_chunk_loop];
    (destruct (Z.eqb_spec begin (begin + 2 * Z.of_nat k)); [exact I|]).
  - lia.
  - wgo.
    destruct k; [lia|]. replace (begin + 2 * Z.of_nat (S k)) with (begin + 2 + 2 * Z.of_nat k) by lia.
    apply IHfuel. lia.
Qed.
Lemma select_sparse_chunk_wp begin blocks r : 1 <= blocks -> fine (select_sparse_chunk dbg mem begin blocks r).
Proof.
  intro H. unfold select_sparse_chunk. eapply wp_seq; [apply wp_assert|]. intros _ _. cbv zeta.
  replace (begin + blocks * 2) with (begin + 2 * Z.of_nat (Z.to_nat blocks)) by lia.
  apply select_sparse_chunk_loop_wp. lia.
Qed.
Lemma next_geq_sparse_block_wp : forall n begin i v, fine (next_geq_sparse_block_loop n mem begin i v).
Proof. induction n; intros; cbn [next_geq_sparse_block_loop]; wgo. Qed.
Hint Resolve next_geq_sparse_block_wp : total.
Lemma max_value_wp : forall n bm, words dbg bm -> fine (max_value_in_bitmap_loop n bm).
Proof. induction n; intros; cbn [max_value_in_bitmap_loop]; [exact I|]. eapply wp_seq; [apply H|]. intros w Hw. wgo. Qed.
Lemma min_value_wp : forall n bm i, words dbg bm -> fine (min_value_in_bitmap_loop n bm i).
Proof. induction n; intros; cbn [min_value_in_bitmap_loop]; [exact I|]. eapply wp_seq; [apply H|]. intros w Hw. wgo. Qed.
Hint Resolve max_value_wp min_value_wp : total.
Lemma next_geq_bitmap_loop_wp : forall fuel bm n k w, words dbg bm ->
  0 <= k < n -> n <= 1024 -> n - k <= Z.of_nat fuel -> fine (next_geq_bitmap_loop fuel bm n k w).
Proof.
  induction fuel; intros bm n k w W K N F; cbn [next_geq_bitmap_loop]; [lia|].
  destruct (w =? 0); [|exact I]. cbv zeta. unfold u32. change (2 ^ 32) with 4294967296.
  rewrite Z.mod_small by lia. destruct (Z.eqb_spec (k + 1) n); [exact I|].
  eapply wp_seq; [apply W|]. intros w' _. apply IHfuel; auto; lia.
Qed.
Lemma next_geq_bitmap_wp bm n v : words dbg bm -> 0 <= v < 64 * n -> n <= 1024 -> fine (next_geq_bitmap bm n v).
Proof.
  intros W V N. unfold next_geq_bitmap. cbv zeta. eapply wp_seq; [apply W|]. intros w _.
  assert (0 <= v / 64 < n) by (split; [apply Z.div_pos; lia|apply Z.div_lt_upper_bound; lia]).
  apply next_geq_bitmap_loop_wp; auto. lia.
Qed.
Lemma block_min_wp begin data base : fine (block_min mem begin data base).
Proof. unfold block_min, min_value_in_bitmap. wgo. Qed.
Lemma max_value_in_block_wp begin data : fine (max_value_in_block mem begin data).
Proof. unfold max_value_in_block, max_value_in_bitmap. wgo. Qed.
Hint Resolve block_min_wp max_value_in_block_wp : total.
Lemma find_block_loop_wp : forall fuel begin k data id b, (k <= fuel)%nat ->
  wp (find_block_loop fuel mem begin (begin + 2 * Z.of_nat k) data id b)
     (fun '(bg, _, _) => exists j, begin + 2 * Z.of_nat k = bg + 2 * Z.of_nat j).
Proof.
  induction fuel; intros begin k data id b H; cbn [find_block_loop].
  - assert (k = 0%nat) by lia. subst k. cbn [Z.of_nat]. rewrite Z.mul_0_r, Z.add_0_r, Z.eqb_refl, andb_false_r.
    exists 0%nat. lia.
  - destruct ((id <? b) && _) eqn:C; [|exists k; lia].
    apply andb_true_iff in C as [_ C]. apply negb_true_iff, Z.eqb_neq in C. destruct k; [lia|].
    wstep. wstep. replace (begin + 2 * Z.of_nat (S k)) with (begin + 2 + 2 * Z.of_nat k) by lia.
    apply IHfuel. lia.
Qed.
Lemma land255 v : 0 <= Z.land v 255 < 256.
Proof. change 255 with (Z.ones 8). rewrite Z.land_ones by lia. now apply Z.mod_pos_bound. Qed.
Lemma land65535 v : 0 <= Z.land v 65535 < 65536.
Proof. change 65535 with (Z.ones 16). rewrite Z.land_ones by lia. now apply Z.mod_pos_bound. Qed.
Lemma next_geq_sparse_chunk_wp begin blocks v : 1 <= blocks -> fine (next_geq_sparse_chunk dbg mem begin blocks v).
Proof.
  intro H. unfold next_geq_sparse_chunk. wstep. wstep. cbv zeta.
  replace (begin + blocks * 2) with (begin + 2 * Z.of_nat (Z.to_nat blocks)) by lia.
  eapply wp_seq; [apply find_block_loop_wp; lia|]. intros [[bg data] id] _.
  unfold next_geq_sparse_block. wgo.
  eapply wp_seq; [apply next_geq_bitmap_wp; auto with total; [apply land255|easy]|]. wgo.
Qed.
Lemma min_value_in_sparse_chunk_wp begin blocks : fine (min_value_in_sparse_chunk dbg mem begin blocks).
Proof. unfold min_value_in_sparse_chunk. wgo. Qed.
Hint Resolve min_value_in_sparse_chunk_wp : total.
Lemma chunk_min_wp it : fine (chunk_min dbg mem it).
Proof. unfold chunk_min, min_value_in_bitmap. wgo. Qed.
Hint Resolve chunk_min_wp : total.

Lemma seq_begin_ok a s : seq_at mem a = Ok s -> itok (seq_begin s) /\ it_has_next (seq_begin s) = true.
Proof.
  unfold seq_at. pose proof (rd16_wp dbg mem Bytes a) as W. destruct (rd16 mem a) as [h| | | |]; cbn [bind]; try easy.
  unfold wpd in W. intro E.
  assert (C : s_chunks s = 1 + h) by (inversion E; reflexivity). clear E.
  unfold itok, it_has_next, seq_begin. cbn [i_begin i_end].
  split; [lia|]. apply Z.ltb_lt. lia.
Qed.
Hint Resolve skip_to_value_wp skip_to_position_wp it_advance_wp : total.

Lemma seq_at_wp a : fine (seq_at mem a).
Proof. unfold seq_at. wgo. Qed.
Lemma cardinality_loop_wp : forall n h c, fine (cardinality_loop n mem h c).
Proof. induction n; intros; cbn [cardinality_loop]; wgo. Qed.
Lemma cardinality_wp s : fine (cardinality mem s).
Proof. apply cardinality_loop_wp. Qed.
Lemma contains_wp a s v : seq_at mem a = Ok s -> fine (contains dbg mem s v).
Proof.
  intro E. destruct (seq_begin_ok a s E) as [K _]. unfold contains. cbv zeta.
  wstep. wgo. apply contains_sparse_chunk_wp. lia.
Qed.
Lemma select_wp a s r v : seq_at mem a = Ok s -> fine (select dbg mem s r v).
Proof.
  intro E. destruct (seq_begin_ok a s E) as [K _]. unfold select. cbv zeta.
  wstep. destruct x as [e it]. wgo. eapply wp_mono; [apply select_sparse_chunk_wp; lia|]. intros. wgo.
Qed.
Lemma next_geq_wp a s v : seq_at mem a = Ok s -> fine (next_geq dbg mem s v).
Proof.
  intro E. destruct (seq_begin_ok a s E) as [K _]. unfold next_geq. cbv zeta.
  wstep. wgo.
  - eapply wp_mono; [apply next_geq_sparse_chunk_wp; lia|]. intros. wgo.
  - eapply wp_seq; [apply next_geq_bitmap_wp; auto with total; [apply land65535|easy]|]. intros. wgo.
Qed.

(** ** next_geq_enumerator.hpp *)
Definition ngok (g : ng_enumerator) : Prop :=
  itok (g_it g) /\ (g_chunk_id g = 4294967295 \/ exists k, g_end g = g_begin g + 2 * Z.of_nat k).
Lemma ng_init_wp a s : seq_at mem a = Ok s -> wp (ng_init mem s) ngok.
Proof.
  intro E. destruct (seq_begin_ok a s E) as [K _]. unfold ng_init, seq_size.
  eapply wp_seq; [apply cardinality_wp|]. intros c _. split; auto.
Qed.
Lemma ng_set_ok g it : ngok g -> itok it -> ngok (ng_set_it g it).
Proof. intros [_ H] K. split; auto. Qed.
Lemma ng_sparse_wp g v : ngok g -> wp (ng_sparse dbg mem g v) (fun p => ngok (fst p)).
Proof.
  intros [K H]. unfold ng_sparse. cbv zeta. eapply wp_seq; [apply it_id_wp|]. intros itid [R _].
  apply wp_bind. eapply wp_mono with (P := fun g' => itok (g_it g') /\ exists k, g_end g' = g_begin g' + 2 * Z.of_nat k).
  { destruct (Z.eqb_spec (g_chunk_id g) itid) as [C|C]; cbn [negb].
    - cbn. split; auto. destruct H as [H|H]; auto. lia.
    - eapply wp_seq; [apply it_blocks_wp|]. intros b B. wstep. wstep. cbn [wpd g_it g_end g_begin]. split; auto.
      exists (Z.to_nat b). lia. }
  clear K H g. intros g [K [k H]]. rewrite H.
  eapply wp_seq; [apply find_block_loop_wp; lia|]. intros [[bg data] id] [j J]. cbn [g_end].
  assert (OK : forall c i b d dd n, itok (g_it g) -> (exists k, d = b + 2 * Z.of_nat k) -> ngok (mkNg c i b d dd n (g_it g))).
  { intros. split; auto. }
  assert (J' : bg <> g_begin g + 2 * Z.of_nat k -> bg + 2 <> g_begin g + 2 * Z.of_nat k ->
     exists j', g_begin g + 2 * Z.of_nat k = bg + 2 + 2 * Z.of_nat j').
  { intros. exists (Nat.pred j). lia. }
  unfold next_geq_sparse_block. rewrite ?H in *. wgo.
  all: try solve [cbn [fst]; apply OK; eauto].
  - cbn [fst]. apply OK; auto. apply J'.
    + apply Z.eqb_neq. now apply negb_true_iff.
    + now apply Z.eqb_neq.
  - eapply wp_seq; [apply next_geq_bitmap_wp; auto with total; [apply land255|easy]|]. intros. wgo.
    all: try solve [cbn [fst]; apply OK; eauto].
Qed.
Lemma ng_next_geq_wp g v : ngok g -> wp (ng_next_geq dbg mem g v) (fun p => ngok (fst p)).
Proof.
  intro K. unfold ng_next_geq. cbv zeta. eapply wp_seq; [apply skip_to_value_wp, K|]. intros it [G _].
  assert (OK : ngok (ng_set_it g it)) by (apply ng_set_ok; eauto with total).
  wstep. wstep; [wgo|]. destruct (it_has_next it) eqn:N; [|exact OK]. wstep.
  eapply wp_seq with (P := fun p => ngok (fst p)).
  - wgo.
    + now apply ng_sparse_wp.
    + eapply wp_seq; [apply next_geq_bitmap_wp; auto with total; [apply land65535|easy]|]. intros. exact OK.
  - intros [g' v'] OK'. cbn [fst] in OK'. wstep; [wgo|]. eapply wp_seq; [now apply it_next_wp; eauto with total|].
    intros it' [G' _]. assert (ngok (ng_set_it g' it')) by (apply ng_set_ok; eauto with total). wgo.
Qed.
Lemma ng_run_wp : forall qs g, ngok g -> fine (ng_run dbg mem g qs).
Proof.
  induction qs as [|q qs IH]; intros g K; cbn [ng_run]; [exact I|].
  eapply wp_seq; [now apply ng_next_geq_wp|]. intros [g' v] K'. cbn [fst] in K'.
  eapply wp_seq; [now apply IH|]. intros; exact I.
Qed.

(** ** decode.hpp, enumerator.hpp *)
Lemma decode_step_wp begin base out pos off : fine (decode_step mem begin base out pos off).
Proof. unfold decode_step. wgo. Qed.
Hint Resolve decode_step_wp : total.
Lemma decode_sparse_block_wp begin c base out pos : fine (decode_sparse_block mem begin c base out pos).
Proof. unfold decode_sparse_block. wgo. Qed.
Hint Resolve decode_sparse_block_wp : total.
Lemma decode_sparse_chunk_loop_wp : forall fuel begin k data base out tmp, (k <= fuel)%nat ->
  fine (decode_sparse_chunk_loop fuel mem begin (begin + 2 * Z.of_nat k) data base out tmp).
Proof.
  induction fuel; intros begin k data base out tmp H; cbn [decode_sparse_chunk_loop];
    (destruct (Z.eqb_spec begin (begin + 2 * Z.of_nat k)); [exact I|]).
  - lia.
  - destruct k; [lia|]. replace (begin + 2 * Z.of_nat (S k)) with (begin + 2 + 2 * Z.of_nat k) by lia.
    wstep. wstep. eapply wp_seq with (P := fun _ => True); [wgo|]. intros [o n'] _. apply IHfuel. lia.
Qed.
Lemma decode_sparse_chunk_wp begin blocks base out pos : 1 <= blocks ->
  fine (decode_sparse_chunk dbg mem begin blocks base out pos).
Proof.
  intro H. unfold decode_sparse_chunk. wstep. cbv zeta.
  replace (begin + blocks * 2) with (begin + 2 * Z.of_nat (Z.to_nat blocks)) by lia.
  eapply wp_seq; [apply decode_sparse_chunk_loop_wp; lia|]. intros [o t] _. exact I.
Qed.
Lemma decode_full_loop_wp : forall n i base out pos, fine (decode_full_loop n i base out pos).
Proof. induction n; intros; cbn [decode_full_loop]; wgo. Qed.
Lemma decode_full_chunk_wp base out pos : fine (decode_full_chunk base out pos).
Proof. unfold decode_full_chunk. eapply wp_seq; [apply decode_full_loop_wp|]. intros; exact I. Qed.
Hint Resolve decode_full_chunk_wp : total.
Lemma decode_chunk_wp it out pos : fine (decode_chunk dbg mem it out pos).
Proof. unfold decode_chunk. wgo. apply decode_sparse_chunk_wp. lia. Qed.
Hint Resolve decode_chunk_wp : total.
Lemma decode_loop_wp : forall n it out pos, fine (decode_loop n dbg mem it out pos).
Proof. induction n; intros; cbn [decode_loop]; wgo. Qed.
Lemma decode_wp s out pos : fine (decode dbg mem s out pos).
Proof. unfold decode. eapply wp_seq; [apply decode_loop_wp|]. intros [o e] _. exact I. Qed.
Lemma enum_init_wp buf s past : fine (enum_init dbg mem buf s past).
Proof. unfold enum_init. wgo. Qed.
Lemma enum_next_wp e : fine (enum_next dbg mem e).
Proof. unfold enum_next. wgo. Qed.
Hint Resolve enum_next_wp : total.
Lemma enum_steps_wp : forall k e, fine (enum_steps k dbg mem e).
Proof. induction k; intros; cbn [enum_steps]; wgo. Qed.
Lemma enum_value_wp e : fine (enum_value e).
Proof. unfold enum_value. wgo. Qed.

(** ** uncompress*.hpp *)
Local Notation W64 := (Forall w64).
Lemma uncompress_sparse_block_loop_wp : forall fuel begin k out pos, (1 <= k <= fuel)%nat -> W64 out ->
  wp (uncompress_sparse_block_loop fuel mem begin (begin + Z.of_nat k) out pos) W64.
Proof.
  induction fuel; intros begin k out pos K O; cbn [uncompress_sparse_block_loop]; [lia|].
  wstep. eapply wp_seq; [apply (vget_wp dbg out _ w64 O)|]. intros w Hw.
  eapply wp_seq; [apply vset_wp; eauto; now apply bts_w64|]. intros o Ho. cbv zeta.
  destruct (Z.eqb_spec (begin + 1) (begin + Z.of_nat k)); [exact Ho|].
  destruct k as [|k]; [lia|]. replace (begin + Z.of_nat (S k)) with (begin + 1 + Z.of_nat k) by lia.
  apply IHfuel; auto. lia.
Qed.
Lemma uncompress_sparse_block_wp begin c out pos : 1 <= c -> W64 out ->
  wp (uncompress_sparse_block mem begin c out pos) W64.
Proof.
  intros H O. unfold uncompress_sparse_block.
  replace (begin + c) with (begin + Z.of_nat (Z.to_nat c)) by lia.
  apply uncompress_sparse_block_loop_wp; auto. lia.
Qed.
Lemma load_words_wp : forall n a, wp (load_words n mem a) W64.
Proof.
  induction n; intro a; cbn [load_words]; [constructor|]. eapply wp_seq; [now apply rd64_wp|]. intros w Hw.
  eapply wp_seq; [apply IHn|]. intros l Hl. now constructor.
Qed.
Lemma memcpy_words_wp begin n out pos : W64 out -> wp (memcpy_words mem begin n out pos) W64.
Proof. intro O. unfold memcpy_words. eapply wp_seq; [apply load_words_wp|]. intros l Hl. now apply store_wp. Qed.
Lemma uncompress_sparse_chunk_loop_wp : forall n begin data bm prev out, W64 out ->
  wp (uncompress_sparse_chunk_loop n mem begin data bm prev out) W64.
Proof.
  induction n; intros begin data bm prev out O; cbn [uncompress_sparse_chunk_loop]; [exact O|].
  wstep. eapply wp_seq; [now apply rd8_wp|]. intros c Hc. cbv zeta.
  eapply wp_seq with (P := W64); [|intros; now apply IHn].
  unfold is_byte in Hc. destruct (block_type _ =? _); [apply uncompress_sparse_block_wp; auto; lia|now apply memcpy_words_wp].
Qed.
Lemma uncompress_sparse_chunk_wp begin blocks out pos : W64 out ->
  wp (uncompress_sparse_chunk dbg mem begin blocks out pos) W64.
Proof. intro O. unfold uncompress_sparse_chunk. wstep. now apply uncompress_sparse_chunk_loop_wp. Qed.
Lemma fill_loop_wp : forall n i x out pos, w64 x -> W64 out -> wp (fill_loop n i x out pos) W64.
Proof.
  induction n; intros i x out pos X O; cbn [fill_loop]; [exact O|].
  eapply wp_seq; [apply vset_wp; eauto|]. intros. now apply IHn.
Qed.
Lemma w64_0 : w64 0. Proof. unfold w64. lia. Qed.
Lemma w64_ff : w64 (u64 (-1)). Proof. easy. Qed.
Hint Resolve w64_0 w64_ff fill_loop_wp uncompress_sparse_chunk_wp memcpy_words_wp uncompress_sparse_block_wp : total.
Lemma uncompress_chunk_wp it out pos : W64 out -> wp (uncompress_chunk dbg mem it out pos) (fun p => W64 (fst p)).
Proof.
  intro O. unfold uncompress_chunk, uncompress_dense_chunk, uncompress_full_chunk. wstep.
  eapply wp_seq with (P := W64); [wgo|]. intros o Ho. wgo.
Qed.
Hint Resolve uncompress_chunk_wp : total.
Lemma uncompress_loop_wp : forall n it prev u out pos, W64 out -> fine (uncompress_loop n dbg mem it prev u out pos).
Proof.
  induction n; intros it prev u out pos O; cbn [uncompress_loop]; [exact I|]. wstep. wstep.
  destruct x0 as [o c]. wstep. now apply IHn.
Qed.
Lemma uncompress_wp s out pos : W64 out -> fine (uncompress dbg mem s out pos).
Proof. intro O. unfold uncompress. eapply wp_seq; [now apply uncompress_loop_wp|]. intros [o u] _. wgo. Qed.
Lemma and_words_loop_wp : forall n word i c out, words dbg word -> W64 out ->
  wp (and_words_loop n word i c out) (fun p => W64 (fst p)).
Proof.
  induction n; intros word i c out W O; cbn [and_words_loop]; [exact O|].
  eapply wp_seq; [apply (vget_wp dbg out _ w64 O)|]. intros x X. eapply wp_seq; [apply W|]. intros y Y. cbv zeta.
  eapply wp_seq; [apply vset_wp; eauto; now apply land_w64|]. intros. now apply IHn.
Qed.
Lemma or_words_loop_wp : forall n word i out, words dbg word -> W64 out ->
  wp (or_words_loop n word i out) W64.
Proof.
  induction n; intros word i out W O; cbn [or_words_loop]; [exact O|].
  eapply wp_seq; [apply (vget_wp dbg out _ w64 O)|]. intros x X. eapply wp_seq; [apply W|]. intros y Y. cbv zeta.
  eapply wp_seq; [apply vset_wp; eauto; now apply lor_w64|]. intros. now apply IHn.
Qed.
Lemma zeros_w64 n : W64 (repeat 0 n).
Proof. induction n; cbn; constructor; auto. apply w64_0. Qed.
Hint Resolve and_words_loop_wp or_words_loop_wp zeros_w64 : total.
Lemma uncompress_chunk_and_intersect_wp it tmp out c : W64 tmp -> W64 out ->
  wp (uncompress_chunk_and_intersect dbg mem it tmp out c) (fun '(t, o, _) => W64 t /\ W64 o).
Proof.
  intros T O. unfold uncompress_chunk_and_intersect, uncompress_sparse_chunk_and_intersect,
    uncompress_dense_chunk_and_intersect. wgo.
Qed.
Lemma uncompress_chunk_and_merge_wp it tmp out : W64 tmp -> W64 out ->
  wp (uncompress_chunk_and_merge dbg mem it tmp out) (fun '(t, o) => W64 t /\ W64 o).
Proof.
  intros T O. unfold uncompress_chunk_and_merge, uncompress_sparse_chunk_and_merge,
    uncompress_dense_chunk_and_merge, uncompress_full_chunk_and_merge. wgo.
Qed.
Hint Resolve uncompress_chunk_and_intersect_wp uncompress_chunk_and_merge_wp : total.

(** ** intersection.hpp *)
Lemma INTERSECT_wp tbl v_l cl v_r cr base out pos size : fine (INTERSECT tbl v_l cl v_r cr base out pos size).
Proof. unfold INTERSECT. wgo. Qed.
Hint Resolve INTERSECT_wp : total.
Lemma scalar_advance_wp : forall fuel l end_l r, l < end_l -> end_l - l <= Z.of_nat fuel ->
  wp (scalar_advance fuel mem l end_l r)
     (fun o => forall l', o = Some l' -> l <= l' < end_l /\ (l' = l ->
        forall a b, rd8 mem l = Ok a -> rd8 mem r = Ok b -> b <= a)
        /\ (forall a b, rd8 mem l' = Ok a -> rd8 mem r = Ok b -> b <= a)).
Proof.
  induction fuel; intros l end_l r L F; [lia|]. cbn [scalar_advance].
  eapply wp_eq; [now apply rd8_wp|]. intros a Ea _. eapply wp_eq; [now apply rd8_wp|]. intros b Eb _.
  destruct (Z.ltb_spec a b).
  - destruct (Z.eqb_spec (l + 1) end_l); [cbn; easy|].
    eapply wp_mono; [apply IHfuel; lia|]. intros o H' l' E. destruct (H' l' E) as (A & B & C).
    split; [lia|]. split; [lia|]. exact C.
  - cbn [wpd]. intros l' E. injection E as <-. split; [lia|].
    assert (K : forall a b, rd8 mem l = Ok a -> rd8 mem r = Ok b -> b <= a)
      by (intros a' b' Ea' Eb'; rewrite Ea in Ea'; rewrite Eb in Eb'; injection Ea' as <-; injection Eb' as <-; lia).
    split; auto.
Qed.
Lemma scalar_intersect_loop_wp : forall fuel l end_l r end_r base out pos size,
  l < end_l -> r < end_r -> (end_l - l) + (end_r - r) <= Z.of_nat fuel ->
  fine (scalar_intersect_loop fuel mem l end_l r end_r base out pos size).
Proof.
  induction fuel; intros l end_l r end_r base out pos size L R F; [lia|]. cbn [scalar_intersect_loop].
  eapply wp_seq; [apply scalar_advance_wp; lia|]. intros [l'|] Hl; [|exact I].
  destruct (Hl l' eq_refl) as (L1 & _ & L2). clear Hl.
  eapply wp_seq; [apply scalar_advance_wp; lia|]. intros [r'|] Hr; [|exact I].
  destruct (Hr r' eq_refl) as (R1 & _ & R2). clear Hr.
  eapply wp_eq; [now apply rd8_wp|]. intros a Ea _. eapply wp_eq; [now apply rd8_wp|]. intros b Eb _.
  destruct (Z.eqb_spec a b).
  - wstep. destruct (Z.eqb_spec (l' + 1) end_l); [exact I|]. destruct (Z.eqb_spec (r' + 1) end_r); [exact I|].
    apply IHfuel; lia.
  - apply IHfuel; try lia. assert (r' <> r); [|lia]. intros ->.
    specialize (L2 a b Ea Eb). specialize (R2 b a Eb Ea). lia.
Qed.
Lemma ss_intersect_block_wp tbl l r cl cr base out pos : 1 <= cl -> 1 <= cr ->
  fine (ss_intersect_block tbl dbg mem l r cl cr base out pos).
Proof.
  intros L R. unfold ss_intersect_block. wgo. apply scalar_intersect_loop_wp; lia.
Qed.
Lemma ds_intersect_block_loop_wp : forall n bm r i base out pos k, words dbg bm ->
  fine (ds_intersect_block_loop n mem bm r i base out pos k).
Proof. induction n; intros bm r i base out pos k W; cbn [ds_intersect_block_loop]; wgo. Qed.
Lemma ds_intersect_block_wp l r c base out pos : fine (ds_intersect_block mem l r c base out pos).
Proof. apply ds_intersect_block_loop_wp. auto with total. Qed.
Hint Resolve ss_intersect_block_wp ds_intersect_block_wp : total.
Lemma intersect_blocks_wp tbl dl dr cl cr b out tmp : 1 <= cl -> 1 <= cr ->
  fine (intersect_blocks tbl dbg mem dl dr cl cr b out tmp).
Proof. intros. unfold intersect_blocks. wgo. Qed.
Lemma block_advance_wp : forall fuel l k data r, (1 <= k <= fuel)%nat ->
  wp (block_advance fuel mem l (l + 2 * Z.of_nat k) data r)
     (fun o => forall l' d, o = Some (l', d) -> (exists j, (1 <= j <= k)%nat /\ l' = l + 2 * Z.of_nat (k - j))
        /\ (forall a b, rd8 mem l' = Ok a -> rd8 mem r = Ok b -> b <= a)).
Proof.
  induction fuel; intros l k data r K; [lia|]. cbn [block_advance].
  eapply wp_eq; [now apply rd8_wp|]. intros a Ea _. eapply wp_eq; [now apply rd8_wp|]. intros b Eb _.
  destruct (Z.ltb_spec a b).
  - destruct (Z.eqb_spec (l + 2) (l + 2 * Z.of_nat k)); [cbn; easy|]. wstep. cbv zeta.
    destruct k as [|k]; [lia|]. replace (l + 2 * Z.of_nat (S k)) with (l + 2 + 2 * Z.of_nat k) in * by lia.
    eapply wp_mono; [apply IHfuel; lia|]. intros o H' l' d E. destruct (H' l' d E) as ((j & J & ->) & B).
    split; auto. exists j. split; [lia|]. lia.
  - cbn [wpd]. intros l' d E. injection E as <- <-. split; [exists k; split; lia|].
    intros a' b' Ea' Eb'. rewrite Ea in Ea'; rewrite Eb in Eb'; injection Ea' as <-; injection Eb' as <-; lia.
Qed.
Lemma ss_intersect_chunk_loop_wp : forall fuel tbl l r kl kr dl dr base out tmp,
  (1 <= kl)%nat -> (1 <= kr)%nat -> (kl + kr <= fuel)%nat ->
  fine (ss_intersect_chunk_loop fuel tbl dbg mem l r (l + 2 * Z.of_nat kl) (r + 2 * Z.of_nat kr) dl dr base out tmp).
Proof.
  induction fuel; intros tbl l r kl kr dl dr base out tmp L R F; [lia|]. cbn [ss_intersect_chunk_loop].
  eapply wp_seq; [apply block_advance_wp; lia|]. intros [[l' dl']|] Hl; [|exact I].
  destruct (Hl l' dl' eq_refl) as ((jl & L1 & L1') & L2). clear Hl.
  eapply wp_seq; [apply block_advance_wp; lia|]. intros [[r' dr']|] Hr; [|exact I].
  destruct (Hr r' dr' eq_refl) as ((jr & R1 & R1') & R2). clear Hr.
  eapply wp_eq; [now apply rd8_wp|]. intros a Ea _. eapply wp_eq; [now apply rd8_wp|]. intros b Eb _.
  replace (l + 2 * Z.of_nat kl) with (l' + 2 * Z.of_nat jl) by lia.
  replace (r + 2 * Z.of_nat kr) with (r' + 2 * Z.of_nat jr) by lia.
  destruct (Z.eqb_spec a b).
  - eapply wp_seq; [now apply rd8_wp|]. intros c1 C1. eapply wp_seq; [now apply rd8_wp|]. intros c2 C2. cbv zeta.
    unfold is_byte in *.
    eapply wp_seq; [apply intersect_blocks_wp; lia|]. intros [o n] _.
    destruct ((l' + 1 + 1 =? _) || _) eqn:C; [exact I|]. apply orb_false_iff in C as [Ca Cb].
    apply Z.eqb_neq in Ca. apply Z.eqb_neq in Cb.
    replace (l' + 2 * Z.of_nat jl) with (l' + 2 + 2 * Z.of_nat (pred jl)) by lia.
    replace (r' + 2 * Z.of_nat jr) with (r' + 2 + 2 * Z.of_nat (pred jr)) by lia.
    apply IHfuel; lia.
  - apply IHfuel; try lia. assert (r' <> r); [|lia]. intros E. rewrite E in *.
    specialize (L2 a b Ea Eb). specialize (R2 b a Eb Ea). lia.
Qed.
Lemma ss_intersect_chunk_wp tbl l r bl br base out pos : 1 <= bl -> 1 <= br ->
  fine (ss_intersect_chunk tbl dbg mem l r bl br base out pos).
Proof.
  intros L R. unfold ss_intersect_chunk. wstep. wstep. cbv zeta.
  replace (l + bl * 2) with (l + 2 * Z.of_nat (Z.to_nat bl)) by lia.
  replace (r + br * 2) with (r + 2 * Z.of_nat (Z.to_nat br)) by lia.
  eapply wp_seq; [apply ss_intersect_chunk_loop_wp; lia|]. intros [o t] _. exact I.
Qed.
Lemma ds_intersect_chunk_wp l r b base x out pos : fine (ds_intersect_chunk dbg mem l r b base x out pos).
Proof.
  unfold ds_intersect_chunk. cbv zeta. eapply wp_seq; [apply uncompress_sparse_chunk_wp, zeros_w64|]. intros x' Hx.
  eapply wp_seq; [apply and_bitmaps_wp; auto with total|]. intros [o n] _. exact I.
Qed.
Hint Resolve ds_intersect_chunk_wp : total.
Lemma intersect_chunks_wp tbl l r base x out pos : fine (intersect_chunks tbl dbg mem l r base x out pos).
Proof.
  unfold intersect_chunks. wgo.
  1,2: eapply wp_seq; [apply ss_intersect_chunk_wp; lia|]; intros [o n] _; exact I.
  1,2: eapply wp_seq; [apply decode_sparse_chunk_wp; lia|]; intros [o n] _; exact I.
Qed.
Lemma pairwise_intersection_loop_wp : forall fuel tbl l r x out pos, itok l -> itok r ->
  left_ l + left_ r <= Z.of_nat fuel ->
  fine (pairwise_intersection_loop fuel tbl dbg mem l r x out pos).
Proof.
  induction fuel; intros tbl l r x out pos L R F; cbn [pairwise_intersection_loop].
  - destruct (it_has_next l) eqn:E; [|exact I]. exfalso. unfold it_has_next in E. apply Z.ltb_lt in E.
    destruct R. unfold left_ in F. lia.
  - destruct (it_has_next l && it_has_next r) eqn:E; [|exact I]. apply andb_true_iff in E as [El Er].
    eapply wp_eq; [apply it_id_wp|]. intros a Ea (A1 & A2). eapply wp_eq; [apply it_id_wp|]. intros b Eb (B1 & B2).
    cbv zeta. apply A2 in El as A3. apply B2 in Er as B3.
    unfold u16. change (2 ^ 16) with 65536. rewrite !(Z.mod_small _ 65536) by lia.
    destruct (Z.eqb_spec a b).
    + eapply wp_seq; [apply intersect_chunks_wp|]. intros [[x' o] n] _.
      eapply wp_seq; [now apply it_next_wp|]. intros l' [G1 M1]. eapply wp_seq; [now apply it_next_wp|]. intros r' [G2 M2].
      apply IHfuel; eauto with total. lia.
    + assert (MV : forall it it' i j, itok it -> it_has_next it = true -> it_id mem it = Ok i -> i < j -> goes it it' ->
        wp (it_id mem it') (fun id => j <= id \/ it_has_next it' = false) -> left_ it' < left_ it).
      { intros it it' i j K N Ei Hij (G1 & G2 & G3 & G4) W. unfold left_.
        destruct (Z.eq_dec (i_begin it') (i_begin it)) as [Q|Q]; [|lia].
        rewrite (G4 Q), Ei in W. cbn [wpd] in W. destruct W as [W|W]; [lia|congruence]. }
      destruct (Z.ltb_spec a b).
      * eapply wp_seq; [now apply it_advance_wp|]. intros l' [G W]. pose proof (MV _ _ _ _ L El Ea H G W).
        apply IHfuel; eauto with total. lia.
      * eapply wp_seq; [now apply it_advance_wp|]. intros r' [G W].
        assert (H' : b < a) by lia. pose proof (MV _ _ _ _ R Er Eb H' G W).
        apply IHfuel; eauto with total. lia.
Qed.
Lemma pairwise_intersection_wp tbl a b l r x out pos : seq_at mem a = Ok l -> seq_at mem b = Ok r ->
  fine (pairwise_intersection tbl dbg mem l r x out pos).
Proof.
  intros El Er. destruct (seq_begin_ok _ _ El) as [L _]. destruct (seq_begin_ok _ _ Er) as [R _].
  unfold pairwise_intersection. cbv zeta.
  eapply wp_seq; [apply pairwise_intersection_loop_wp; auto|].
  - rewrite Nat2Z.inj_add. pose proof (it_fuel_ok _ L). pose proof (it_fuel_ok _ R). lia.
  - intros [[x' o] e] _. exact I.
Qed.

(** ** union.hpp *)
Lemma ss_union_block_loop_wp : forall fuel l r end_l end_r base out pos size,
  l < end_l -> r < end_r -> (end_l - l) + (end_r - r) <= Z.of_nat fuel + 1 ->
  fine (ss_union_block_loop fuel mem l r end_l end_r base out pos size).
Proof.
  induction fuel; intros l r end_l end_r base out pos size L R F; [lia|]. cbn [ss_union_block_loop].
  wstep. wstep. wstep; [|wstep].
  - wstep. destruct (Z.eqb_spec (l + 1) end_l); [exact I|]. apply IHfuel; lia.
  - wstep. destruct (Z.eqb_spec (r + 1) end_r); [exact I|]. apply IHfuel; lia.
  - wstep. destruct (Z.eqb_spec (l + 1) end_l); [exact I|]. destruct (Z.eqb_spec (r + 1) end_r); [exact I|].
    apply IHfuel; lia.
Qed.
Lemma ss_union_block_wp l r cl cr base out pos : 1 <= cl -> 1 <= cr ->
  fine (ss_union_block dbg mem l r cl cr base out pos).
Proof.
  intros L R. unfold ss_union_block. wstep. wstep. cbv zeta.
  eapply wp_seq; [apply ss_union_block_loop_wp; lia|]. intros [[[o s] l'] r'] _. wgo.
Qed.
Lemma ds_union_block_wp l r c base x out pos : 1 <= c -> W64 x ->
  wp (ds_union_block mem l r c base x out pos) (fun '(x, _, _) => W64 x).
Proof.
  intros C X. unfold ds_union_block. eapply wp_seq; [now apply memcpy_words_wp|]. intros x1 X1.
  eapply wp_seq; [now apply uncompress_sparse_block_wp|]. intros x2 X2.
  eapply wp_seq; [apply or_bitmaps_wp; auto with total|]. intros [o n] _. exact X2.
Qed.
Lemma decode_block_wp data t c base out pos : fine (decode_block mem data t c base out pos).
Proof. unfold decode_block. wgo. Qed.
Hint Resolve ss_union_block_wp ds_union_block_wp decode_block_wp : total.
Lemma DECODE_wp ptr data base out pos :
  wp (DECODE mem ptr data base out pos) (fun '(p, _, _, _) => p = ptr + 2).
Proof. unfold DECODE. wgo. Qed.
Lemma union_blocks_wp dl dr cl cr b x out pos : 1 <= cl -> 1 <= cr -> W64 x ->
  wp (union_blocks dbg mem dl dr cl cr b x out pos) (fun '(x, _, _) => W64 x).
Proof.
  intros. unfold union_blocks. cbv zeta. wgo.
Qed.
Lemma ss_union_chunk_loop_wp : forall fuel l r kl kr dl dr base x out pos,
  (1 <= kl)%nat -> (1 <= kr)%nat -> (kl + kr <= fuel + 1)%nat -> W64 x ->
  wp (ss_union_chunk_loop fuel dbg mem l r (l + 2 * Z.of_nat kl) (r + 2 * Z.of_nat kr) dl dr base x out pos)
     (fun '(l', r', _, _, x', _, _) => W64 x'
        /\ (exists j, (j <= kl)%nat /\ l + 2 * Z.of_nat kl = l' + 2 * Z.of_nat j)
        /\ (exists j, (j <= kr)%nat /\ r + 2 * Z.of_nat kr = r' + 2 * Z.of_nat j)).
Proof.
  induction fuel; intros l r kl kr dl dr base x out pos L R F X; [lia|]. cbn [ss_union_chunk_loop].
  eapply wp_seq; [now apply rd8_wp|]. intros a _. eapply wp_seq; [now apply rd8_wp|]. intros b _.
  destruct (a <? b); [|destruct (b <? a)].
  - eapply wp_seq; [apply DECODE_wp|]. intros [[[l' dl'] o] p] ->.
    destruct (Z.eqb_spec (l + 2) (l + 2 * Z.of_nat kl)).
    + cbn [wpd]. split; auto. split; [exists (pred kl); lia|exists kr; lia].
    + replace (l + 2 * Z.of_nat kl) with (l + 2 + 2 * Z.of_nat (pred kl)) by lia.
      eapply wp_mono; [apply IHfuel; auto; lia|].
      intros [[[[[[l' r'] ?] ?] ?] ?] ?] (Y & (j & J & J') & K). split; auto. split; [exists j; lia|exact K].
  - eapply wp_seq; [apply DECODE_wp|]. intros [[[r' dr'] o] p] ->.
    destruct (Z.eqb_spec (r + 2) (r + 2 * Z.of_nat kr)).
    + cbn [wpd]. split; auto. split; [exists kl; lia|exists (pred kr); lia].
    + replace (r + 2 * Z.of_nat kr) with (r + 2 + 2 * Z.of_nat (pred kr)) by lia.
      eapply wp_mono; [apply IHfuel; auto; lia|].
      intros [[[[[[l' r'] ?] ?] ?] ?] ?] (Y & K & (j & J & J')). split; auto. split; [exact K|exists j; lia].
  - eapply wp_seq; [now apply rd8_wp|]. intros c1 C1. eapply wp_seq; [now apply rd8_wp|]. intros c2 C2. cbv zeta.
    unfold is_byte in *.
    eapply wp_seq; [apply union_blocks_wp; auto; lia|]. intros [[x' o] n] X'.
    destruct ((l + 2 =? _) || _) eqn:C.
    + cbn [wpd]. split; auto. split; [exists (pred kl); lia|exists (pred kr); lia].
    + apply orb_false_iff in C as [Ca Cb]. apply Z.eqb_neq in Ca. apply Z.eqb_neq in Cb.
      replace (l + 2 * Z.of_nat kl) with (l + 2 + 2 * Z.of_nat (pred kl)) by lia.
      replace (r + 2 * Z.of_nat kr) with (r + 2 + 2 * Z.of_nat (pred kr)) by lia.
      eapply wp_mono; [apply IHfuel; auto; lia|].
      intros [[[[[[l' r'] ?] ?] ?] ?] ?] (Y & (j & J & J') & (i & K & K')). split; auto.
      split; [exists j; lia|exists i; lia].
Qed.
Lemma decode_blocks_loop_wp : forall fuel ptr k data base out pos, (k <= fuel)%nat ->
  fine (decode_blocks_loop fuel mem ptr (ptr + 2 * Z.of_nat k) data base out pos).
Proof.
  induction fuel; intros ptr k data base out pos K; cbn [decode_blocks_loop];
    (destruct (Z.eqb_spec ptr (ptr + 2 * Z.of_nat k)); cbn [negb]; [exact I|]); [lia|].
  eapply wp_seq; [apply DECODE_wp|]. intros [[[p d] o] q] ->. destruct k as [|k]; [lia|].
  replace (ptr + 2 * Z.of_nat (S k)) with (ptr + 2 + 2 * Z.of_nat k) by lia. apply IHfuel. lia.
Qed.
Lemma ss_union_chunk_wp l r bl br base x out pos : 1 <= bl -> 1 <= br -> W64 x ->
  wp (ss_union_chunk dbg mem l r bl br base x out pos) (fun '(x, _, _) => W64 x).
Proof.
  intros L R X. unfold ss_union_chunk. wstep. wstep. cbv zeta.
  replace (l + bl * 2) with (l + 2 * Z.of_nat (Z.to_nat bl)) by lia.
  replace (r + br * 2) with (r + 2 * Z.of_nat (Z.to_nat br)) by lia.
  eapply wp_seq; [apply ss_union_chunk_loop_wp; auto; lia|].
  intros [[[[[[l' r'] dl] dr] x'] o] p] (X' & (j & J & ->) & (i & K & ->)).
  eapply wp_seq; [apply decode_blocks_loop_wp; lia|]. intros [o2 p2] _.
  eapply wp_seq; [apply decode_blocks_loop_wp; lia|]. intros [o3 p3] _. exact X'.
Qed.
Lemma ds_union_chunk_wp l r b base y out pos :
  wp (ds_union_chunk dbg mem l r b base y out pos) (fun '(y, _, _) => W64 y).
Proof.
  unfold ds_union_chunk. cbv zeta. eapply wp_seq; [apply uncompress_sparse_chunk_wp, zeros_w64|]. intros x' Hx.
  eapply wp_seq; [apply or_bitmaps_wp; auto with total|]. intros [o n] _. exact Hx.
Qed.
Lemma union_chunks_wp l r base x y out pos : W64 x ->
  wp (union_chunks dbg mem l r base x y out pos) (fun '(x, _, _, _) => W64 x).
Proof.
  intro X. unfold union_chunks. cbv zeta. wstep. wstep. cbv zeta.
  repeat (match goal with |- wpd _ (if ?c then _ else _) _ => destruct c end).
  all: try exact I.
  1: wstep; wstep; destruct (_ <? _); (eapply wp_seq; [apply ss_union_chunk_wp; auto; lia|]); intros [[x' o] n] X'; exact X'.
  all: try (wstep; eapply wp_seq; [apply ds_union_chunk_wp|]; intros [[y' o] n] _; exact X).
  all: match goal with
       | |- context [or_bitmaps] => eapply wp_seq; [apply or_bitmaps_wp; auto with total|]
       | |- _ => eapply wp_seq; [apply decode_full_chunk_wp|]
       end; intros [o n] _; exact X.
Qed.
Lemma not_next it : itok it -> it_has_next it = false -> left_ it = 0.
Proof. intros [H _] E. unfold it_has_next in E. apply Z.ltb_ge in E. unfold left_. lia. Qed.
Lemma has_left it : itok it -> it_has_next it = true -> 1 <= left_ it.
Proof. intros [H _] E. unfold it_has_next in E. apply Z.ltb_lt in E. unfold left_. lia. Qed.
Lemma pairwise_union_loop_wp : forall fuel l r x y out pos, itok l -> itok r ->
  it_has_next l = true -> it_has_next r = true -> W64 x -> left_ l + left_ r <= Z.of_nat fuel ->
  wp (pairwise_union_loop fuel dbg mem l r x y out pos) (fun '(l', r', _, _, _, _) => itok l' /\ itok r').
Proof.
  induction fuel; intros l r x y out pos L R NL NR X F;
    pose proof (has_left l L NL); pose proof (has_left r R NR); cbn [pairwise_union_loop]; [lia|].
  eapply wp_seq; [apply it_id_wp|]. intros a _. eapply wp_seq; [apply it_id_wp|]. intros b _. cbv zeta.
  destruct (u16 a =? u16 b); [|destruct (u16 a <? u16 b)].
  - eapply wp_seq; [now apply union_chunks_wp|]. intros [[[x' y'] o] n] X'.
    eapply wp_seq; [now apply it_next_wp|]. intros l' [G1 M1]. eapply wp_seq; [now apply it_next_wp|]. intros r' [G2 M2].
    destruct (it_has_next l') eqn:N1; [destruct (it_has_next r') eqn:N2|]; cbn [negb orb].
    + apply IHfuel; eauto with total. lia.
    + split; eauto with total.
    + split; eauto with total.
  - eapply wp_seq; [apply decode_chunk_wp|]. intros [o n] _. eapply wp_seq; [now apply it_next_wp|]. intros l' [G1 M1].
    destruct (it_has_next l') eqn:N1; cbn [negb]; [|split; eauto with total]. apply IHfuel; eauto with total. lia.
  - eapply wp_seq; [apply decode_chunk_wp|]. intros [o n] _. eapply wp_seq; [now apply it_next_wp|]. intros l' [G1 M1].
    destruct (it_has_next l') eqn:N1; cbn [negb]; [|split; eauto with total]. apply IHfuel; eauto with total. lia.
Qed.
Lemma decode_rest_loop_wp : forall fuel it out pos, itok it -> left_ it <= Z.of_nat fuel ->
  fine (decode_rest_loop fuel dbg mem it out pos).
Proof.
  induction fuel; intros it out pos K F; cbn [decode_rest_loop]; (destruct (it_has_next it) eqn:N; [|exact I]).
  - pose proof (has_left it K N). lia.
  - eapply wp_seq; [apply decode_chunk_wp|]. intros [o n] _. eapply wp_seq; [now apply it_next_wp|]. intros it' [G M].
    apply IHfuel; eauto with total. lia.
Qed.
Lemma pairwise_union_wp a b l r x y out pos : seq_at mem a = Ok l -> seq_at mem b = Ok r -> W64 x ->
  fine (pairwise_union dbg mem l r x y out pos).
Proof.
  intros El Er X. destruct (seq_begin_ok _ _ El) as [L NL]. destruct (seq_begin_ok _ _ Er) as [R NR].
  unfold pairwise_union. cbv zeta.
  eapply wp_seq; [apply pairwise_union_loop_wp; auto|].
  - rewrite Nat2Z.inj_add. pose proof (it_fuel_ok _ L). pose proof (it_fuel_ok _ R). lia.
  - intros [[[[[l' r'] ?] ?] o] e] [L' R'].
    eapply wp_seq; [apply decode_rest_loop_wp; auto; now apply it_fuel_ok|]. intros [o2 e2] _.
    eapply wp_seq; [apply decode_rest_loop_wp; auto; now apply it_fuel_ok|]. intros [o3 e3] _. exact I.
Qed.

(** ** intersection_many.hpp *)
Lemma Forall_iset (P : iterator -> Prop) its i it : Forall P its -> P it -> Forall P (iset its i it).
Proof.
  intros H K. unfold iset. apply Forall_app. split; [now apply Forall_firstn|]. constructor; auto. now apply Forall_skipn.
Qed.
Lemma iset_len its i it : 0 <= i < zlen its -> zlen (iset its i it) = zlen its.
Proof.
  intro H. unfold iset. rewrite !zlen_app, zlen_cons, zlen_nil, zlen_firstn, zlen_skipn by lia. lia.
Qed.
Lemma iset_0 its it i : 0 < i < zlen its -> znth (iset its i it) 0 = znth its 0.
Proof.
  intro H. unfold iset. rewrite znth_app_l by (rewrite zlen_firstn by lia; lia). apply znth_firstn. lia.
Qed.
Lemma iset_same its it : 0 < zlen its -> znth (iset its 0 it) 0 = Some it.
Proof. intro H. unfold iset. cbn [Z.to_nat firstn app]. apply znth_cons_0. Qed.

(** the for loop started at index [i >= 1]: the first iterator stays *)
Lemma candidate_for_wp1 : forall n its c i d0, Forall itok its -> znth its 0 = Some d0 ->
  1 <= i -> zlen its - i = Z.of_nat n -> 0 <= c < 65536 ->
  wp (candidate_for n mem its c i)
     (fun '(its', c', i') => Forall itok its' /\ zlen its' = zlen its /\ znth its' 0 = Some d0
        /\ (i' = zlen its /\ c' = c \/ i' = 0 /\ c < c' <= 65536)).
Proof.
  induction n; intros its c i d0 K Z0 I1 N C; cbn [candidate_for].
  - cbn [wpd]. split; auto. split; auto. split; auto. left. lia.
  - unfold iget. destruct (znth_Some _ its i) as [it E]; [lia|]. rewrite E. cbn [bind].
    assert (Kit : itok it) by (rewrite Forall_forall in K; apply K; eapply znth_In; eauto).
    eapply wp_seq; [now apply skip_to_value_wp|]. intros it' [G W]. cbv zeta.
    eapply wp_eq; [apply it_id_wp|]. intros v Ev (V1 & V2). rewrite Ev in W. cbn [wpd] in W.
    assert (K' : Forall itok (iset its i it')) by (apply Forall_iset; eauto with total).
    assert (L' : zlen (iset its i it') = zlen its) by (apply iset_len; lia).
    assert (Z' : znth (iset its i it') 0 = Some d0) by (rewrite iset_0; auto; lia).
    destruct (Z.eqb_spec v c); cbn [negb].
    + eapply wp_mono; [apply (IHn _ c (i + 1) d0); auto; lia|]. rewrite L'. auto.
    + cbn [wpd]. split; auto. split; auto. split; auto. right. split; auto.
      destruct W as [W|W]; [lia|]. assert (~ v < 65536) by (intro Q; apply V2 in Q; congruence). lia.
Qed.
(** started at 0 *)
Lemma candidate_for_wp0 its c d0 i0 : Forall itok its -> znth its 0 = Some d0 -> it_id mem d0 = Ok i0 ->
  i0 <= c -> 0 <= c < 65536 ->
  wp (candidate_for (Z.to_nat (zlen its)) mem its c 0)
     (fun '(its', c', i') => Forall itok its' /\ zlen its' = zlen its /\ exists d, znth its' 0 = Some d
        /\ goes d0 d /\ (i0 < c -> left_ d < left_ d0)
        /\ (i' = zlen its /\ c' = c /\ it_id mem d = Ok c
            \/ i' = 0 /\ it_id mem d = Ok c' /\ left_ d < left_ d0
            \/ i' = 0 /\ it_id mem d = Ok c /\ c < c' <= 65536)).
Proof.
  intros K Z0 E0 L C. pose proof (znth_lt _ _ _ _ Z0) as P.
  destruct (Z.to_nat (zlen its)) as [|n] eqn:EN; [lia|]. cbn [candidate_for].
  unfold iget. rewrite Z0. cbn [bind].
  assert (Kit : itok d0) by (rewrite Forall_forall in K; apply K; eapply znth_In; eauto).
  pose proof (it_id_wp d0) as W0. rewrite E0 in W0. cbn [wpd] in W0. destruct W0 as [W1 W2].
  eapply wp_seq; [now apply skip_to_value_wp|]. intros d [G W]. cbv zeta.
  eapply wp_eq; [apply it_id_wp|]. intros v Ev (V1 & V2). rewrite Ev in W. cbn [wpd] in W.
  assert (K' : Forall itok (iset its 0 d)) by (apply Forall_iset; eauto with total).
  assert (L' : zlen (iset its 0 d) = zlen its) by (apply iset_len; lia).
  assert (Z' : znth (iset its 0 d) 0 = Some d) by (apply iset_same; lia).
  assert (Cv : c <= v) by (destruct W as [W|W]; [lia|];
    assert (~ v < 65536) by (intro Q; apply V2 in Q; congruence); lia).
  assert (MV : i0 <> v -> left_ d < left_ d0).
  { destruct G as (G1 & G2 & G3 & G4). intro Q. unfold left_.
    destruct (Z.eq_dec (i_begin d) (i_begin d0)) as [R|R]; [|lia]. rewrite (G4 R), E0 in Ev. congruence. }
  destruct (Z.eqb_spec v c); cbn [negb].
  - eapply wp_mono; [apply (candidate_for_wp1 n _ c (0 + 1) d); auto; lia|]. rewrite L'. subst v.
    intros [[its' c'] i'] (A1 & A2 & A3 & A4). split; auto. split; auto. exists d. split; auto. split; auto.
    split; [intro; apply MV; lia|]. destruct A4 as [[-> ->]|[-> A4]]; [left|right; right]; auto.
  - cbn [wpd]. split; auto. split; auto. exists d. split; auto. split; auto. split; [intro; apply MV; lia|].
    right. left. split; auto. split; auto. apply MV. lia.
Qed.

(** the states of the while loop: [i] = 1 and the candidate is the id of the first iterator, or
    [i] = 0 and the id of the first iterator is at most the candidate *)
Definition cand_cost (d : iterator) (i0 c : Z) : Z := 2 * left_ d + (if i0 <? c then 0 else 1).
Lemma candidate_loop_ends : forall fuel its c i headers n d i0, Forall itok its -> znth its 0 = Some d ->
  it_id mem d = Ok i0 -> 0 <= c <= 65536 -> (i = 1 /\ c = i0 \/ i = 0 /\ i0 <= c) ->
  0 <= n -> (c < 65536 -> cand_cost d i0 c <= Z.of_nat fuel) ->
  fine (candidate_loop fuel mem its c i headers n).
Proof.
  induction fuel; intros its c i headers n d i0 K Z0 E0 C ST N F; cbn [candidate_loop];
    (destruct (Z.ltb_spec c 65536) as [LT|]; [|exact I]); specialize (F LT);
    assert (Kd : itok d) by (rewrite Forall_forall in K; apply K; eapply znth_In; eauto);
    pose proof (it_id_wp d) as W0; rewrite E0 in W0; cbn [wpd] in W0; destruct W0 as [W1 W2];
    assert (HN : it_has_next d = true) by (apply W2; lia); pose proof (has_left d Kd HN) as HL; unfold cand_cost in F.
  { destruct (i0 <? c); lia. }
  pose proof (znth_lt _ _ _ _ Z0) as P.
  (* after a push *)
  assert (PUSH : forall its' d' j, Forall itok its' -> zlen its' = zlen its -> znth its' 0 = Some d' ->
    it_id mem d' = Ok c -> goes d d' -> j = zlen its ->
    fine (if j =? zlen its' then
          let! headers := vset headers n (u16 c) in
          let! it0 := iget its' 0 in
          let! it0 := it_next mem it0 in
          let its := iset its' 0 it0 in
          let! candidate := it_id mem it0 in
          candidate_loop fuel mem its candidate 1 headers (n + 1)
        else candidate_loop fuel mem its' c j headers n)).
  { intros its' d' j K' L' Z' E' G' ->. rewrite L', Z.eqb_refl. wstep. unfold iget. rewrite Z'. cbn [bind].
    pose proof (it_id_wp d') as W'. rewrite E' in W'. cbn [wpd] in W'. destruct W' as [_ W'].
    eapply wp_seq; [apply it_next_wp; eauto with total; now apply W'|]. intros d2 [G2 M2]. cbv zeta.
    eapply wp_eq; [apply it_id_wp|]. intros c2 E2 (V1 & V2).
    eapply IHfuel with (d := d2) (i0 := c2); auto; try lia.
    - apply Forall_iset; eauto with total.
    - intros Q. unfold cand_cost. rewrite Z.ltb_irrefl. pose proof (goes_left _ _ G').
      destruct (i0 <? c); lia. }
  destruct ST as [[-> ->]|[-> ST]].
  - rewrite Z.ltb_irrefl in F. eapply wp_seq; [apply candidate_for_wp1 with (d0 := d); auto; lia|].
    intros [[its' c'] j] (K' & L' & Z' & [[-> ->]|[-> C']]).
    + eapply PUSH; eauto with total.
    + destruct (Z.eqb_spec 0 (zlen its')); [lia|]. eapply IHfuel with (d := d) (i0 := i0); auto; try lia.
      intros _. unfold cand_cost. destruct (Z.ltb_spec i0 c'); lia.
  - rewrite Z.sub_0_r. eapply wp_seq; [apply candidate_for_wp0 with (d0 := d) (i0 := i0); auto; lia|].
    intros [[its' c'] j] (K' & L' & d' & Z' & G & MV & [(-> & -> & E')|[(-> & E' & M)|(-> & E' & C')]]).
    + eapply PUSH; eauto with total.
    + destruct (Z.eqb_spec 0 (zlen its')); [lia|].
      pose proof (it_id_wp d') as W'. rewrite E' in W'. cbn [wpd] in W'. destruct W' as [W' _].
      eapply IHfuel with (d := d') (i0 := c'); auto; try lia.
      intros _. unfold cand_cost. rewrite Z.ltb_irrefl. destruct (i0 <? c); lia.
    + destruct (Z.eqb_spec 0 (zlen its')); [lia|].
      eapply IHfuel with (d := d') (i0 := c); auto; try lia.
      intros _. unfold cand_cost. destruct (Z.ltb_spec c c'); [|lia]. pose proof (goes_left _ _ G).
      destruct (Z.ltb_spec i0 c) as [Q|Q]; [specialize (MV Q)|]; lia.
Qed.

Lemma and_rest_wp : forall its h tmp bm c, Forall itok its -> W64 tmp -> W64 bm ->
  wp (and_rest dbg mem its h tmp bm c) (fun '(its', t, b, _, _) => Forall itok its' /\ W64 t /\ W64 b).
Proof.
  induction its as [|it its IH]; intros h tmp bm c K T B; cbn [and_rest].
  - cbn [wpd]. auto.
  - inversion K; subst. eapply wp_seq; [now apply it_advance_wp|]. intros it' [G _].
    wstep. wstep. eapply wp_seq; [now apply uncompress_chunk_and_intersect_wp|]. intros [[t b] k] [T' B'].
    assert (itok it') by eauto with total.
    destruct (k =? 0); [cbn [wpd]; auto|].
    eapply wp_seq; [now apply IH|]. intros [[[[i2 t2] b2] k2] s2] (I2 & T2 & B2). cbn [wpd]. auto.
Qed.
Lemma intersect_headers_wp : forall n its hs i tmp bm out pos, Forall itok its -> W64 tmp -> W64 bm ->
  fine (intersect_headers n dbg mem its hs i tmp bm out pos).
Proof.
  induction n; intros its hs i tmp bm out pos K T B; cbn [intersect_headers]; [exact I|].
  wstep. cbv zeta. destruct its as [|it its]; [exact I|]. inversion K; subst.
  eapply wp_seq; [now apply it_advance_wp|]. intros it' [G _]. wstep. wstep.
  eapply wp_seq; [now apply uncompress_chunk_wp|]. intros [b c] B'. cbn [fst] in B'.
  assert (itok it') by eauto with total.
  eapply wp_seq; [now apply and_rest_wp|]. intros [[[[i2 t2] b2] k2] s2] (I2 & T2 & B2).
  destruct s2; [now apply IHn; auto|].
  eapply wp_seq; [apply decode_bitmap_wp; auto with total|]. intros [o k] _. now apply IHn; auto.
Qed.
Lemma seqs_ok seqs : Forall (fun s => exists a, seq_at mem a = Ok s) seqs -> Forall itok (map seq_begin seqs).
Proof.
  intro H. rewrite Forall_map. eapply Forall_impl; [|exact H]. intros s [a E]. now apply (seq_begin_ok a s E).
Qed.
Lemma intersection_sorted_wp seqs headers tmp bm out pos :
  Forall (fun s => exists a, seq_at mem a = Ok s) seqs -> W64 tmp -> W64 bm ->
  fine (intersection_sorted dbg mem seqs headers tmp bm out pos).
Proof.
  intros H T B. pose proof (seqs_ok _ H) as K. unfold intersection_sorted. cbv zeta.
  unfold iget. destruct (znth (map seq_begin seqs) 0) as [it0|] eqn:Z0; [|exact I]. cbn [bind].
  eapply wp_eq; [apply it_id_wp|]. intros c Ec (C1 & C2).
  assert (Kd : itok it0) by (rewrite Forall_forall in K; apply K; eapply znth_In; eauto).
  eapply wp_seq.
  - eapply candidate_loop_ends with (d := it0) (i0 := c); auto; try lia.
    intros _. unfold cand_cost, candidate_fuel. rewrite Z.ltb_irrefl, Z2Nat.id by lia.
    destruct Kd. unfold left_. lia.
  - intros [hs nh] _. eapply wp_seq; [now apply intersect_headers_wp|]. intros [[[t b] o] e] _. exact I.
Qed.

(** ** union_many.hpp *)
Definition lefts (its : list iterator) : Z := fold_right (fun it n => left_ it + n) 0 its.
Lemma min_id_loop_wp : forall its m, wp (min_id_loop mem its m)
  (fun h => h = m \/ exists it, In it its /\ it_id mem it = Ok h).
Proof.
  induction its as [|it its IH]; intro m; cbn [min_id_loop]; [cbn; auto|].
  eapply wp_eq; [apply it_id_wp|]. intros id E _. eapply wp_mono; [apply IH|]. intros h [->|(it' & I' & E')].
  - destruct (id <? m); [right; exists it; split; [now left|auto]|auto].
  - right. exists it'. split; [now right|auto].
Qed.
Lemma merge_all_wp : forall its h first tmp bm, Forall itok its -> W64 tmp -> W64 bm ->
  wp (merge_all dbg mem its h first tmp bm) (fun '(t, b) => W64 t /\ W64 b).
Proof.
  induction its as [|it its IH]; intros h first tmp bm K T B; cbn [merge_all]; [cbn; auto|].
  inversion K; subst. wstep. destruct (_ =? h); [|now apply IH]. destruct first.
  - eapply wp_seq; [now apply uncompress_chunk_wp|]. intros [b c] B'. now apply IH.
  - eapply wp_seq; [now apply uncompress_chunk_and_merge_wp|]. intros [t b] [T' B']. now apply IH.
Qed.
Lemma next_headers_wp : forall its h nx, Forall itok its -> h < 65536 ->
  wp (next_headers mem its h nx) (fun '(its', nx') => Forall itok its' /\ lefts its' <= lefts its
     /\ ((exists it, In it its /\ it_id mem it = Ok h) -> lefts its' < lefts its)
     /\ (nx' = nx \/ exists it, In it its' /\ it_id mem it = Ok nx')).
Proof.
  induction its as [|it its IH]; intros h nx K Hh; cbn [next_headers].
  - cbn [wpd]. split; auto. split; [lia|]. split; auto. intros (it & [] & _).
  - inversion K as [|? ? Kit Kits]; subst. eapply wp_eq; [apply it_id_wp|]. intros id E (V1 & V2).
    eapply wp_seq with (P := fun it' => itok it' /\ left_ it' <= left_ it /\ (id = h -> left_ it' < left_ it)).
    { destruct (Z.eqb_spec id h).
      - eapply wp_mono; [apply it_next_wp; auto; apply V2; lia|]. intros it' [G M]. split; eauto with total. lia.
      - cbn [wpd]. split; auto. split; [lia|]. intro; contradiction. }
    intros it' (K' & L1 & L2). eapply wp_eq; [apply it_id_wp|]. intros id' E' _.
    eapply wp_seq; [now apply IH|]. intros [its' nx'] (A1 & A2 & A3 & A4). cbn [wpd lefts fold_right]. fold (lefts its') (lefts its).
    split; auto. split; [lia|]. split.
    + intros (x & [<-|Hx] & Ex); [rewrite E in Ex; injection Ex as ->; specialize (L2 eq_refl); lia|].
      assert (lefts its' < lefts its) by eauto. lia.
    + destruct A4 as [->|(x & Hx & Ex)]; [|right; exists x; split; [now right|auto]].
      destruct (id' <? nx); [right; exists it'; split; [now left|auto]|auto].
Qed.
Lemma lefts_nonneg its : Forall itok its -> 0 <= lefts its.
Proof. intro H. induction H as [|it its [K _] H IH]; cbn [lefts fold_right]; [lia|]. fold (lefts its). unfold left_. lia. Qed.
Lemma union_loop_ends : forall fuel its h tmp bm out pos, Forall itok its -> W64 tmp -> W64 bm ->
  (h < 65536 -> exists it, In it its /\ it_id mem it = Ok h) -> lefts its <= Z.of_nat fuel ->
  fine (union_loop fuel dbg mem its h tmp bm out pos).
Proof.
  induction fuel; intros its h tmp bm out pos K T B M F; cbn [union_loop];
    (destruct (Z.ltb_spec h 65536) as [LT|]; [|exact I]); specialize (M LT).
  - destruct M as (it & Hi & E). exfalso.
    assert (G : 1 <= lefts its); [|lia].
    pose proof (it_id_wp it) as W. rewrite E in W. cbn [wpd] in W. destruct W as [_ W].
    clear - K Hi W LT. induction K as [|x its Kx K IH]; [destruct Hi|]. cbn [lefts fold_right]. fold (lefts its).
    pose proof (lefts_nonneg its K). destruct Hi as [->|Hi].
    + pose proof (has_left it Kx (proj1 W LT)). lia.
    + specialize (IH Hi). destruct Kx. unfold left_. lia.
  - cbv zeta. eapply wp_seq; [now apply merge_all_wp|]. intros [t b] [T' B'].
    eapply wp_seq; [apply decode_bitmap_wp; auto with total|]. intros [o k] _.
    eapply wp_seq; [now apply next_headers_wp|]. intros [its' nx] (A1 & A2 & A3 & A4).
    apply IHfuel; auto.
    + intro Q. destruct A4 as [->|A4]; [lia|auto].
    + specialize (A3 M). lia.
Qed.
Lemma union_fuel_ok its : Forall itok its -> lefts its <= Z.of_nat (union_fuel its).
Proof.
  intro K. unfold union_fuel. rewrite Nat2Z.inj_add.
  assert (lefts its <= Z.of_nat (fold_right (fun it n => it_fuel it + n)%nat O its)).
  { induction K as [|it its Ki K IH]; cbn [lefts fold_right]; [lia|]. fold (lefts its). pose proof (it_fuel_ok it Ki). lia. }
  lia.
Qed.
Lemma union_many_wp seqs tmp bm out pos :
  Forall (fun s => exists a, seq_at mem a = Ok s) seqs -> W64 tmp -> W64 bm ->
  fine (union_many dbg mem seqs tmp bm out pos).
Proof.
  intros H T B. pose proof (seqs_ok _ H) as K. unfold union_many. cbv zeta.
  eapply wp_seq with (P := fun h => exists it, In it (map seq_begin seqs) /\ it_id mem it = Ok h).
  - unfold min_id. destruct (map seq_begin seqs) as [|it its]; [exact I|].
    eapply wp_eq; [apply it_id_wp|]. intros id E _. eapply wp_mono; [apply min_id_loop_wp|].
    intros h [->|(x & Hx & Ex)]; [exists it; split; [now left|auto]|exists x; split; [now right|auto]].
  - intros h M. eapply wp_seq; [apply union_loop_ends; auto; now apply union_fuel_ok|].
    intros [[[t b] o] e] _. exact I.
Qed.

(** ** s_index.hpp *)
Lemma index_mmap_wp f : fine (index_mmap mem f).
Proof. unfold index_mmap. wgo. Qed.
Lemma index_get_wp ix i : fine (index_get dbg mem ix i).
Proof. unfold index_get. wgo. apply seq_at_wp. Qed.
End Ops.

(** ** The statements *)
Lemma is_word_w64 l : Forall is_word l -> Forall w64 l.
Proof. intro H. exact H. Qed.

Theorem c40_one dbg mem a s :
  Forall is_byte mem -> seq_at mem a = Ok s ->
  (forall v, settles dbg (contains dbg mem s v))
  /\ (forall r v, settles dbg (select dbg mem s r v))
  /\ (forall v, settles dbg (next_geq dbg mem s v))
  /\ settles dbg (seq_size mem s)
  /\ (forall out pos, settles dbg (decode dbg mem s out pos))
  /\ (forall out pos, Forall is_word out -> settles dbg (uncompress dbg mem s out pos))
  /\ (forall buf past k, settles dbg (let! e := enum_init dbg mem buf s past in
                                     let! e := enum_steps k dbg mem e in enum_value e))
  /\ (forall qs, settles dbg (let! g := ng_init mem s in ng_run dbg mem g qs)).
Proof.
  intros B E. split; [|split; [|split; [|split; [|split; [|split; [|split]]]]]]; intros; eapply wp_settles.
  - eapply contains_wp; eauto.
  - eapply select_wp; eauto.
  - eapply next_geq_wp; eauto.
  - eapply cardinality_wp; eauto.
  - eapply decode_wp; eauto.
  - eapply uncompress_wp; eauto.
  - eapply wp_seq; [now apply enum_init_wp|]. intros e _. eapply wp_seq; [now apply enum_steps_wp|]. intros e' _.
    eapply enum_value_wp; eauto.
  - eapply wp_seq; [eapply ng_init_wp; eauto|]. intros g K. eapply ng_run_wp; eauto.
Qed.

Theorem c40_pair dbg mem a b l r tbl x y out pos :
  Forall is_byte mem -> seq_at mem a = Ok l -> seq_at mem b = Ok r ->
  settles dbg (pairwise_intersection tbl dbg mem l r x out pos)
  /\ (Forall is_word x -> settles dbg (pairwise_union dbg mem l r x y out pos)).
Proof.
  intros B El Er. split; intros; eapply wp_settles.
  - eapply pairwise_intersection_wp; eauto.
  - eapply pairwise_union_wp; eauto.
Qed.

Theorem c40_many dbg mem seqs headers tmp bitmap out pos :
  Forall is_byte mem -> Forall (fun s => exists a, seq_at mem a = Ok s) seqs ->
  Forall is_word tmp -> Forall is_word bitmap ->
  settles dbg (intersection_sorted dbg mem seqs headers tmp bitmap out pos)
  /\ settles dbg (union_many dbg mem seqs tmp bitmap out pos).
Proof.
  intros B S T M. split; eapply wp_settles.
  - eapply intersection_sorted_wp; eauto.
  - eapply union_many_wp; eauto.
Qed.

Theorem c40_open dbg mem f i :
  Forall is_byte mem -> settles dbg (let! ix := index_mmap mem f in index_get dbg mem ix i).
Proof.
  intro B. eapply wp_settles. eapply wp_seq; [now apply index_mmap_wp|]. intros ix _. eapply index_get_wp; eauto.
Qed.

(** a sequence with two chunks in the wrong order: id 9, then id 5, both with the value 7 *)
Definition swapped : list Z :=
  [1; 0;  9; 0; 0; 0; 1; 0; 3; 0;  5; 0; 0; 0; 1; 0; 3; 0;  0; 0; 7;  0; 0; 7] ++ repeat 0 16.
Lemma swapped_bytes : Forall is_byte swapped.
Proof. unfold swapped, is_byte. cbn [app repeat]. repeat constructor; lia. Qed.
