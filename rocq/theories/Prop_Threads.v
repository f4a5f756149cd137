(** C45: threads that call any of the four set operations, sharing all eight static buffers. *)
From Verif Require Import Base Spec Format M_Seq M_Calls M_Conc M_Threads P_Scratch P_Conc P_Threads1 P_Threads2 P_Threads5.

(** a thread that nobody interrupts does what the sequential model does, for every content of
    the buffers: the calls give the results each has on its own *)
Theorem C45_alone : forall tbl dbg cs sc, sized sc ->
  (let! (_, rs) := alone (flat sc) (calls_c tbl dbg cs) in Ok rs) = in_order (map (isolated tbl dbg) cs).
Proof. exact c45_isolated. Qed.
Print Assumptions C45_alone.

(** buffers full of ones *)
Example C45_alone_example :
  sized (mkScratch (words1 1024) (words1 4) (words1 1024) (words1 1024) (words1 1024) (words1 65536) (words1 1024) (words1 1024)).
Proof. exact sized1. Qed.

(** Any number of threads, each making any number of calls.  If no two calls of two different
    threads are of the same operation - or, for the pairwise operations, if at least one of
    the two does not need the buffers - then in every interleaving every finished thread has
    the results its calls have on their own. *)
Theorem C45_safe : forall tbl dbg sc css sched x' ts i cs r,
  sized sc ->
  (forall i j cs ds c d, i <> j -> nth_error css i = Some cs -> nth_error css j = Some ds ->
     In c cs -> In d ds -> independent c d) ->
  interleave (flat sc) (map (calls_c tbl dbg) css) sched = (x', ts) ->
  nth_error css i = Some cs -> nth_error ts i = Some (Ret r) ->
  r = in_order (map (isolated tbl dbg) cs).
Proof. exact c45_safe. Qed.
Print Assumptions C45_safe.

Example C45_safe_example : exists l r r' css,
  css = [ [CInter tmem l r (words 24) 0; CUnion tmem l r' (words 40000) 0]
        ; [CInter tmem r r' (words 24) 0; CUnionMany tmem [l; r] (words 40000) 0]
        ; [CInterMany tmem [l; r] (words 24) 0; CInter tmem r r' (words 24) 0] ]
  /\ operands (CInter tmem l r (words 24) 0) dn [5] /\ operands (CInter tmem r r' (words 24) 0) [5] [40000]
  /\ forall i j cs ds c d, i <> j -> nth_error css i = Some cs -> nth_error css j = Some ds ->
       In c cs -> In d ds -> independent c d.
Proof. exact c45_safe_hyps. Qed.

(** Two threads that make the same operation.  If both need the vector, for the same chunk
    [h], then there is an interleaving in which the first thread combines its bitmap with the
    blocks of the second thread. *)
Theorem C45_race_intersection : forall tbl dbg sc mem l r out pos mem' l' r' out' pos' S T S' T' h e e',
  let c := CInter mem l r out pos in let c' := CInter mem' l' r' out' pos' in
  sized sc -> operands c S T -> operands c' S' T' -> has_place c -> has_place c' ->
  Forall (fun v => v / 65536 = h) (S ++ T ++ S' ++ T') ->
  as_bitmap S h = true -> as_blocks T h = true -> as_bitmap S' h = true -> as_blocks T' h = true ->
  enumerates (fun v => In v S /\ In v T') e -> enumerates (fun v => In v S' /\ In v T') e' ->
  can_answer tbl dbg sc c c' e e'.
Proof. exact c45_race_inter. Qed.
Print Assumptions C45_race_intersection.

Example C45_race_intersection_example : exists l r r',
  let c := CInter tmem l r (words 24) 0 in let c' := CInter tmem l r' (words 24) 0 in
  operands c dn [5] /\ operands c' dn [40000] /\ has_place c /\ has_place c'
  /\ Forall (fun v => v / 65536 = 0) (dn ++ [5] ++ dn ++ [40000])
  /\ as_bitmap dn 0 = true /\ as_blocks [5] 0 = true /\ as_bitmap dn 0 = true /\ as_blocks [40000] 0 = true
  /\ enumerates (fun v => In v dn /\ In v [40000]) [].
Proof. exact c45_inter_hyps. Qed.

Theorem C45_race_union : forall tbl dbg sc mem l r out pos mem' l' r' out' pos' S T S' T' h e e',
  let c := CUnion mem l r out pos in let c' := CUnion mem' l' r' out' pos' in
  sized sc -> operands c S T -> operands c' S' T' -> has_place c -> has_place c' ->
  Forall (fun v => v / 65536 = h) (S ++ T ++ S' ++ T') ->
  as_bitmap S h = true -> as_blocks T h = true -> as_bitmap S' h = true -> as_blocks T' h = true ->
  enumerates (fun v => In v S \/ In v T') e -> enumerates (fun v => In v S' \/ In v T') e' ->
  can_answer tbl dbg sc c c' e e'.
Proof. exact c45_race_union. Qed.
Print Assumptions C45_race_union.

Example C45_race_union_example : exists l r r',
  let c := CUnion tmem l r (words 32768) 0 in let c' := CUnion tmem l r' (words 32769) 0 in
  operands c dn [5] /\ operands c' dn [40000] /\ has_place c /\ has_place c'
  /\ Forall (fun v => v / 65536 = 0) (dn ++ [5] ++ dn ++ [40000])
  /\ as_bitmap dn 0 = true /\ as_blocks [5] 0 = true /\ as_bitmap dn 0 = true /\ as_blocks [40000] 0 = true
  /\ enumerates (fun v => In v dn \/ In v [40000]) (dn ++ [40000]).
Proof. exact c45_union_hyps. Qed.

(** The operations on several sequences: the first thread can return all of the result of
    the second one, instead of its own. *)
Theorem C45_race_union_many : forall tbl dbg sc mem seqs out pos mem' seqs' out' pos' Ss Ss' h e',
  let c := CUnionMany mem seqs out pos in let c' := CUnionMany mem' seqs' out' pos' in
  sized sc -> many_operands c Ss -> many_operands c' Ss' -> has_place c -> has_place c' ->
  (forall S, In S (Ss ++ Ss') -> Forall (fun v => v / 65536 = h) S) ->
  enumerates (fun v => exists S, In S Ss' /\ In v S) e' ->
  can_answer tbl dbg sc c c' e' e'.
Proof. exact c45_race_union_many. Qed.
Print Assumptions C45_race_union_many.

Theorem C45_race_intersection_many :
  forall tbl dbg sc mem seqs out pos mem' seqs' out' pos' Ss Ss' h e e',
  let c := CInterMany mem seqs out pos in let c' := CInterMany mem' seqs' out' pos' in
  sized sc -> many_operands c Ss -> many_operands c' Ss' -> has_place c -> has_place c' ->
  (forall S, In S (Ss ++ Ss') -> Forall (fun v => v / 65536 = h) S) ->
  enumerates (fun v => forall S, In S Ss -> In v S) e -> e <> [] ->
  enumerates (fun v => forall S, In S Ss' -> In v S) e' -> e' <> [] ->
  can_answer tbl dbg sc c c' e' e'.
Proof. exact c45_race_intersection_many. Qed.
Print Assumptions C45_race_intersection_many.

Example C45_race_many_example : exists r r',
  many_operands (CUnionMany tmem [r] (words 1) 0) [[5]]
  /\ many_operands (CUnionMany tmem [r'] (words 1) 0) [[40000]]
  /\ many_operands (CInterMany tmem [r] (words 1) 0) [[5]]
  /\ many_operands (CInterMany tmem [r'] (words 1) 0) [[40000]]
  /\ has_place (CUnionMany tmem [r] (words 1) 0)
  /\ (forall S, In S ([[5]] ++ [[40000]]) -> Forall (fun v => v / 65536 = 0) S)
  /\ enumerates (fun v => exists S, In S [[40000]] /\ In v S) [40000]
  /\ enumerates (fun v => forall S, In S [[5]] -> In v S) [5]
  /\ enumerates (fun v => forall S, In S [[40000]] -> In v S) [40000].
Proof. exact c45_many_hyps. Qed.

(** So, whatever the buffers contain: the answer of a thread can contain a value that is in
    none of its own sequences, ... *)
Theorem C45_union_refuted : forall tbl dbg sc, sized sc ->
  exists mem l r out c' S T S' T' sched x' out1 n a',
    operands (CUnion mem l r out 0) S T /\ operands c' S' T'
    /\ interleave (flat sc) [calls_c tbl dbg [CUnion mem l r out 0]; calls_c tbl dbg [c']] sched
       = (x', [Ret (Ok [(out1, n)]); Ret (Ok [a'])])
    /\ exists i v, 0 <= i < n /\ znth out1 i = Some v /\ ~ In v S /\ ~ In v T.
Proof. exact c45_union_refuted. Qed.
Print Assumptions C45_union_refuted.

Theorem C45_union_many_refuted : forall tbl dbg sc, sized sc ->
  exists mem seqs out c' Ss Ss' sched x' out1 n a',
    many_operands (CUnionMany mem seqs out 0) Ss /\ many_operands c' Ss'
    /\ interleave (flat sc) [calls_c tbl dbg [CUnionMany mem seqs out 0]; calls_c tbl dbg [c']] sched
       = (x', [Ret (Ok [(out1, n)]); Ret (Ok [a'])])
    /\ exists i v, 0 <= i < n /\ znth out1 i = Some v /\ forall S, In S Ss -> ~ In v S.
Proof. exact c45_union_many_refuted. Qed.
Print Assumptions C45_union_many_refuted.

Theorem C45_intersection_many_refuted : forall tbl dbg sc, sized sc ->
  exists mem seqs out c' Ss Ss' sched x' out1 n a',
    many_operands (CInterMany mem seqs out 0) Ss /\ many_operands c' Ss'
    /\ interleave (flat sc) [calls_c tbl dbg [CInterMany mem seqs out 0]; calls_c tbl dbg [c']] sched
       = (x', [Ret (Ok [(out1, n)]); Ret (Ok [a'])])
    /\ exists i v, 0 <= i < n /\ znth out1 i = Some v /\ forall S, In S Ss -> ~ In v S.
Proof. exact c45_intersection_many_refuted. Qed.
Print Assumptions C45_intersection_many_refuted.

(** ... and a thread can write past the end of its output buffer, though both calls, each on
    its own, stay within theirs *)
Theorem C45_overflow_refuted : forall tbl dbg sc, sized sc ->
  exists c c' S T S' T' a b sched x' r',
    operands c S T /\ operands c' S' T' /\ isolated tbl dbg c = Ok a /\ isolated tbl dbg c' = Ok b
    /\ interleave (flat sc) [calls_c tbl dbg [c]; calls_c tbl dbg [c']] sched
       = (x', [Ret UB; Ret (Ok [r'])]).
Proof. exact c45_union_overflow_refuted. Qed.
Print Assumptions C45_overflow_refuted.
