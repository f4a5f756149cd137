(** Where the results of operations on damaged sequences lie: C60. *)
From Verif Require Import Base Spec Outcome Format Damage Astray M_Seq M_Decode M_Intersect M_Union M_Many P_Ex P_Damage2 P_Spoil2
  P_Astray P_Astray2 P_Astray3 P_AstrayEx.
From Coq Require Import Sorted.

(** C60: The heads are intact, and the data of the chunks with [ok h]; the other bytes are arbitrary.  If decode ends, it
    delivers only values of chunks of the sequence, chunk after chunk, of the intact chunks exactly the right ones; it
    changes nothing before [pos]. *)
Theorem C60_decode : forall dbg mem a S ok s out pos out' n,
  valid S -> Forall is_byte mem -> intact 0 ok mem a S -> seq_at mem a = Ok s -> 0 <= pos <= zlen out ->
  decode dbg mem s out pos = Ok (out', n) ->
  exists e, delivered out pos out' n e /\ agrees_on (has_chunk S) ok S e.
Proof. exact c60_decode. Qed.
Print Assumptions C60_decode.

(** So does the intersection: values of common chunks only. *)
Theorem C60_intersection : forall tbl dbg mem a b S T ok s t x out pos x' out' n I,
  shuffle_table_ok tbl -> valid S -> valid T -> Forall is_byte mem -> intact 0 ok mem a S -> intact 0 ok mem b T ->
  seq_at mem a = Ok s -> seq_at mem b = Ok t -> zlen x = 1024 -> 0 <= pos <= zlen out ->
  pairwise_intersection tbl dbg mem s t x out pos = Ok (x', out', n) ->
  enumerates (fun v => In v S /\ In v T) I ->
  exists e, delivered out pos out' n e /\ agrees_on (fun h => has_chunk S h /\ has_chunk T h) ok I e.
Proof. exact c60_intersection. Qed.
Print Assumptions C60_intersection.

(** So does the union: values of chunks of either operand. *)
Theorem C60_union : forall dbg mem a b S T ok s t x y out pos x' y' out' n I,
  valid S -> valid T -> Forall is_byte mem -> intact 0 ok mem a S -> intact 0 ok mem b T ->
  apart a S b T -> (a = b -> S = T) -> seq_at mem a = Ok s -> seq_at mem b = Ok t ->
  zlen x = 4 -> Forall is_word x -> zlen y = 1024 -> 0 <= pos <= zlen out ->
  pairwise_union dbg mem s t x y out pos = Ok (x', y', out', n) ->
  enumerates (fun v => In v S \/ In v T) I ->
  exists e, delivered out pos out' n e /\ agrees_on (fun h => has_chunk S h \/ has_chunk T h) ok I e.
Proof. exact c60_union. Qed.
Print Assumptions C60_union.

(** So do the operations on many sequences; the intersection in any order the std::sort by cardinality may choose. *)
Theorem C60_intersection_many : forall dbg mem addrs Ss ok seqs seqs' headers tmp bitmap out pos headers' tmp' bitmap' out' n I,
  Ss <> [] -> Forall valid Ss -> Forall is_byte mem -> Forall2 (intact 0 ok mem) addrs Ss ->
  Forall2 (fun a s => seq_at mem a = Ok s) addrs seqs -> sort_outcome mem seqs seqs' ->
  zlen headers = 65536 -> zlen tmp = 1024 -> Forall is_word tmp -> zlen bitmap = 1024 -> Forall is_word bitmap ->
  0 <= pos <= zlen out ->
  intersection_sorted dbg mem seqs' headers tmp bitmap out pos = Ok (headers', tmp', bitmap', out', n) ->
  enumerates (fun v => forall S, In S Ss -> In v S) I ->
  exists e, delivered out pos out' n e /\ agrees_on (fun h => forall S, In S Ss -> has_chunk S h) ok I e.
Proof. exact c60_intersection_many. Qed.
Print Assumptions C60_intersection_many.

Theorem C60_union_many : forall dbg mem addrs Ss ok seqs tmp bitmap out pos tmp' bitmap' out' n I,
  Ss <> [] -> Forall valid Ss -> Forall is_byte mem -> Forall2 (intact 0 ok mem) addrs Ss ->
  Forall2 (fun a s => seq_at mem a = Ok s) addrs seqs ->
  zlen tmp = 1024 -> Forall is_word tmp -> zlen bitmap = 1024 -> Forall is_word bitmap -> 0 <= pos <= zlen out ->
  union_many dbg mem seqs tmp bitmap out pos = Ok (tmp', bitmap', out', n) ->
  enumerates (fun v => exists S, In S Ss /\ In v S) I ->
  exists e, delivered out pos out' n e /\ agrees_on (fun h => exists S, In S Ss /\ has_chunk S h) ok I e.
Proof. exact c60_union_many. Qed.
Print Assumptions C60_union_many.

(** Inside a damaged chunk nothing more holds: a union of two sequences, only one chunk of one of them damaged, holds
    values of neither and holds values twice; debug mode does not notice. *)
Theorem C60_union_refuted : exists mem a b S T s t x y out,
  valid S /\ valid T /\ Forall is_byte mem /\ intact 0 (fun h => h <> 0) mem a S /\ intact 0 (fun _ => True) mem b T
  /\ apart a S b T /\ a <> b /\ seq_at mem a = Ok s /\ seq_at mem b = Ok t /\ zlen x = 4 /\ Forall is_word x /\ zlen y = 1024
  /\ forall dbg, exists x' y' out' n i j v, pairwise_union dbg mem s t x y out 0 = Ok (x', y', out', n)
       /\ 0 <= i < j /\ j < n /\ znth out' i = Some v /\ znth out' j = Some v /\ ~ In v S /\ ~ In v T.
Proof. exact c60_union_refuted. Qed.
Print Assumptions C60_union_refuted.

(** [exA] with its chunk 0 overwritten, alone, beside itself and beside [exB] *)
Example C60_example :
  valid exA /\ valid exB /\ Forall is_byte mem_first /\ intact 0 (fun h => h <> 0) mem_first ex_a exA
  /\ intact 0 (fun h => h <> 0) mem_first ex_b exB /\ apart ex_a exA ex_b exB
  /\ (let! s := seq_at mem_first ex_a in let! p := decode true mem_first s (repeat 0 400) 0 in
      let '(out, n) := p in Ok (znth out 0, znth out 376, n)) = Ok (Some 65280, Some 196608, 377)
  /\ (let! s := seq_at mem_first ex_a in
      let! p := pairwise_intersection ex_tbl true mem_first s s (repeat 0 (Z.to_nat 1024)) (repeat 0 400) 0 in
      let '(_, out, n) := p in Ok (n - zlen (of_chunk 0 (firstn (Z.to_nat n) out)), of_chunk 2 (firstn (Z.to_nat n) out),
        of_chunk 3 (firstn (Z.to_nat n) out))) = Ok (2, [131081], [196608])
  /\ (let! s := seq_at mem_first ex_a in let! t := seq_at mem_first ex_b in
      let! p := pairwise_union true mem_first s t (repeat 0 4) (repeat 0 (Z.to_nat 1024)) (repeat 0 800) 0 in
      let '(_, _, out, n) := p in Ok (znth out 0, znth out 4, znth out 440, n)) = Ok (Some 7, Some 65280, Some 196608, 441)
  /\ (let! s := seq_at mem_first ex_a in let! t := seq_at mem_first ex_b in
      let! p := union_many true mem_first [s; t] (repeat 0 (Z.to_nat 1024)) (repeat 0 (Z.to_nat 1024)) (repeat 0 400) 0 in
      let '(_, _, out, n) := p in Ok (znth out 0, znth out 4, znth out 138, n)) = Ok (Some 7, Some 65280, Some 196608, 139).
Proof.
  split; [exact valid_A|]. split; [exact valid_B|]. split; [exact bytes_first|].
  split; [eapply intact_weaken; [exact intact_first|discriminate]|]. split; [apply intact_first_B|]. split; [exact apart_AB|].
  repeat match goal with |- _ /\ _ => split end; vm_compute; reflexivity.
Qed.
