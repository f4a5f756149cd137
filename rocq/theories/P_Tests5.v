(** Concrete indexes for the theorems about the test programs. *)
From Verif Require Import Base Hw Spec Lib M_Util M_Build M_Seq M_Many M_Index M_Calls M_Tests Holds P_Ex P_Fin2 P_Tests4.
From Coq Require Import Lia Sorted.

Definition t_params : parameters := mkParams (p_density default_params) 1.
Definition t_lists : list (list Z) := [[1; 2; 3]; []; [2; 3; 5; 70; 71]; [9]; [0; 3; 600]].
Definition t_kept : list (list Z) := [[1; 2; 3]; [2; 3; 5; 70; 71]; [0; 3; 600]].
Definition file_of (u : Z) (Ls : list (list Z)) : list Z :=
  match index_build true t_params (collection u Ls) with
  | Ok (_, o, q) => index_file o q
  | _ => []
  end.
Definition t_mem : list Z := Eval vm_compute in [7] ++ file_of 1000 t_lists ++ repeat 0 (Z.to_nat 31).
Lemma holds_file u Ls pre :
  (Forall short Ls /\ exists r, index_build true t_params (collection u Ls) = Ok r) ->
  zlen (pre ++ file_of u Ls ++ repeat 0 (Z.to_nat 31)) <= 2 ^ 64 ->
  holds_index true t_params u Ls 31 (pre ++ file_of u Ls ++ repeat 0 (Z.to_nat 31)) (zlen pre).
Proof.
  intros (HSh & [[st o] q] & E). unfold file_of. rewrite E. intro HM. split; auto. exists st, o, q. split; auto. split; [apply zlen_nonneg|].
  split; [|split; auto; rewrite !zlen_app, zlen_repeat; lia].
  set (F := index_file o q). clearbody F. intros i Hi. pose proof (zlen_nonneg _ pre).
  rewrite znth_app_r by lia. rewrite znth_app_l by lia. f_equal. lia.
Qed.
Lemma built_b u Ls : match index_build true t_params (collection u Ls) with
    Ok _ => forallb (fun L => zlen L <? 4294967295) Ls | _ => false end = true ->
  Forall short Ls /\ exists r, index_build true t_params (collection u Ls) = Ok r.
Proof.
  destruct (index_build _ _ _); try discriminate. intro H. split; [|eauto].
  rewrite forallb_forall in H. apply Forall_forall. intros L HL. apply Z.ltb_lt. exact (H L HL).
Qed.
Lemma valid_all Ls : forallb valid_b Ls = true -> Forall valid Ls.
Proof. intro H. rewrite forallb_forall in H. apply Forall_forall. intros L HL. apply valid_b_ok; auto. Qed.
Lemma enum_b (P : Z -> Prop) l : sorted_b l = true -> (forall v, P v -> In v l) -> Forall P l -> enumerates P l.
Proof.
  intros H1 H2 H3. split; [now apply sorted_b_ok|]. intro v. rewrite Forall_forall in H3. split; auto.
Qed.

Lemma t_example :
  kept_lists t_params t_lists = t_kept /\ Forall valid t_kept
  /\ holds_index true t_params 1000 t_lists 31 t_mem 1
  /\ Forall (fun L => zlen L + 23 <= 1000 /\ last L 0 + 1000001 < 2 ^ 32
               /\ last L 0 / 65536 <= 1000 / 65536) t_kept
  /\ test_decode true t_params t_mem 1 (collection 1000 t_lists) = Ok (3, true)
  /\ test_select true t_params t_mem 1 (collection 1000 t_lists) = Ok (3, true)
  /\ test_decode true t_params t_mem 1 (collection 1000 [[1; 2; 3]; [2; 3; 5; 70; 72]]) = Ok (2, false).
Proof.
  split; [vm_compute; reflexivity|]. split; [apply valid_all; vm_compute; reflexivity|].
  split.
  { replace t_mem with ([7] ++ file_of 1000 t_lists ++ repeat 0 (Z.to_nat 31)) by (vm_compute; reflexivity).
    apply (holds_file 1000 t_lists [7]); [apply built_b; vm_compute; reflexivity|vm_compute; discriminate]. }
  split; [repeat constructor; vm_compute; congruence|].
  split; [vm_compute; reflexivity|]. split; vm_compute; reflexivity.
Qed.
Lemma t_sets :
  sorts_by_cardinality t_mem (by_card t_mem)
  /\ named t_kept [0; 1; 2] t_kept
  /\ enumerates (fun v => forall S, In S t_kept -> In v S) [3]
  /\ enumerates (fun v => exists S, In S t_kept /\ In v S) [0; 1; 2; 3; 5; 70; 71; 600]
  /\ test_intersect ex_tbl (by_card t_mem) true t_mem 1 [(0, 1); (2, 0)] = Ok (2, true)
  /\ test_union_many ex_tbl true t_mem 1 [[0; 1; 2]; [0]] = Ok (1, true).
Proof.
  split; [apply by_card_sorts|].
  split; [repeat constructor|].
  split.
  { apply enum_b; [reflexivity| |].
    - intros v H. assert (H1 := H _ (or_introl eq_refl)). assert (H2 := H _ (or_intror (or_intror (or_introl eq_refl)))).
      cbn [In] in *. lia.
    - constructor; [|constructor]. intros S HS. unfold t_kept in HS. cbn [In] in HS.
      destruct HS as [<-|[<-|[<-|[]]]]; cbn [In]; lia. }
  split.
  { apply enum_b; [reflexivity| |].
    - intros v (S & HS & Hv). unfold t_kept in HS. cbn [In] in HS.
      destruct HS as [<-|[<-|[<-|[]]]]; cbn [In] in *; lia.
    - apply Forall_forall. intros v Hv. cbn [In] in Hv.
      destruct Hv as [<-|[<-|[<-|[<-|[<-|[<-|[<-|[<-|[]]]]]]]]];
        first [exists [1; 2; 3]; split; cbn [In t_kept]; [auto|lia]
              |exists [2; 3; 5; 70; 71]; split; cbn [In t_kept]; [auto|lia]
              |exists [0; 3; 600]; split; cbn [In t_kept]; [auto|lia]]. }
  split; vm_compute; reflexivity.
Qed.
Lemma t_limits :
  (exists mem, holds_index true t_params 4294901760 [[1; 2; 4294901759]] 31 mem 0)
  /\ Forall valid (kept_lists t_params [[1; 2; 4294901759]])
  /\ kept_lists t_params [[1; 2; 4294901759]] <> []
  /\ In [1; 2; 4294901759] (kept_lists t_params [[1; 2; 4294901759]])
  /\ 2 ^ 32 - 1000001 <= last [1; 2; 4294901759] 0 /\ 2 ^ 32 - 65536 <= 4294901760.
Proof.
  split.
  { eexists. apply (holds_file 4294901760 [[1; 2; 4294901759]] []); [apply built_b; vm_compute; reflexivity|].
    vm_compute. discriminate. }
  split; [apply valid_all; vm_compute; reflexivity|].
  split; [vm_compute; discriminate|]. split; [vm_compute; auto|]. split; vm_compute; discriminate.
Qed.
Lemma c33_prefix_refuted : exists dbg params u Ls Ls' mem f,
  is_u32 u /\ Forall valid (kept_lists params Ls) /\ Forall valid (kept_lists params Ls')
  /\ holds_index dbg params u Ls' 31 mem f
  /\ zlen (kept_lists params Ls) = zlen (kept_lists params Ls') /\ kept_lists params Ls <> kept_lists params Ls'
  /\ test_enumerator dbg params mem f (collection u Ls) = Ok (zlen (kept_lists params Ls), true).
Proof.
  exists true, t_params, 1000, [[1; 2]], [[1; 2; 3]].
  exists ([] ++ file_of 1000 [[1; 2; 3]] ++ repeat 0 (Z.to_nat 31)), 0.
  split; [vm_compute; split; congruence|]. split; [apply valid_all; vm_compute; reflexivity|].
  split; [apply valid_all; vm_compute; reflexivity|].
  split; [apply (holds_file 1000 [[1; 2; 3]] []); [apply built_b; vm_compute; reflexivity|vm_compute; discriminate]|].
  split; [vm_compute; reflexivity|]. split; [vm_compute; discriminate|]. vm_compute. reflexivity.
Qed.
Lemma c33_overflow_refuted : exists dbg params u Ls mem f,
  is_u32 u /\ Forall valid (kept_lists params Ls) /\ Forall (Forall (fun v => v < u)) Ls
  /\ holds_index dbg params u Ls 31 mem f
  /\ test_decode dbg params mem f (collection u Ls) = UB.
Proof.
  exists true, t_params, 4, [[1; 2; 3]], ([] ++ file_of 4 [[1; 2; 3]] ++ repeat 0 (Z.to_nat 31)), 0.
  split; [vm_compute; split; congruence|]. split; [apply valid_all; vm_compute; reflexivity|].
  split; [repeat constructor; lia|].
  split; [apply (holds_file 4 [[1; 2; 3]] []); [apply built_b; vm_compute; reflexivity|vm_compute; discriminate]|].
  vm_compute. reflexivity.
Qed.

(** an index with more and longer lists than the collections it is compared with *)
Lemma t_sound :
  holds_index true t_params 1000 t_lists 31 t_mem 1 /\ Forall (fun S => zlen S + 23 <= 1000) t_kept
  /\ kept_lists t_params [[1; 2; 3]; [8]; [2; 3; 5; 70; 71]] = [[1; 2; 3]; [2; 3; 5; 70; 71]]
  /\ (let data := collection 77 [[1; 2; 3]; [8]; [2; 3; 5; 70; 71]] in
      test_decode true t_params t_mem 1 data = Ok (2, true)
      /\ test_select true t_params t_mem 1 data = Ok (2, true)
      /\ test_contains true t_params t_mem 1 data = Ok (2, true))
  /\ (let data := collection 77 [[1; 2]; [8]; [2; 3; 5; 70; 71]] in
      test_decode true t_params t_mem 1 data = Ok (2, false)
      /\ test_contains true t_params t_mem 1 data = Ok (2, false)
      /\ test_enumerator true t_params t_mem 1 data = Ok (2, true)).
Proof.
  split; [apply t_example|]. split; [repeat constructor; vm_compute; congruence|].
  split; [vm_compute; reflexivity|]. split.
  - cbn zeta. split; [vm_compute; reflexivity|]. split; vm_compute; reflexivity.
  - cbn zeta. split; [vm_compute; reflexivity|]. split; vm_compute; reflexivity.
Qed.
