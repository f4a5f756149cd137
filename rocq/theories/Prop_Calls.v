(** C21: the static scratch buffers carry nothing from one call to the next. *)
From Verif Require Import Base Spec M_Seq M_Calls P_Ex P_Scratch.

(** Any sequence of calls, on arbitrary memory, valid or not, starting with arbitrary
    content in the buffers, has the outcomes that each call has on its own. *)
Theorem C21_history : forall tbl dbg cs sc, sized sc ->
  run_calls tbl dbg sc cs = in_order (map (isolated tbl dbg) cs).
Proof. exact c21_history. Qed.
Print Assumptions C21_history.

(** one call: same outcome for every content of the buffers, which keep their sizes *)
Theorem C21_call : forall tbl dbg sc c, sized sc ->
  match run_call tbl dbg sc c with
  | Ok (sc', r) => sized sc' /\ isolated tbl dbg c = Ok r
  | Throw => isolated tbl dbg c = Throw
  | Abort => isolated tbl dbg c = Abort
  | UB => isolated tbl dbg c = UB
  | Fuel => isolated tbl dbg c = Fuel
  end.
Proof. exact c21_call. Qed.
Print Assumptions C21_call.

(** buffers full of ones; four different calls, the first one again at the end *)
Definition dirty : scratch :=
  mkScratch (repeat 1 (Z.to_nat 1024)) (repeat 1 4) (repeat 1 (Z.to_nat 1024))
    (repeat 1 (Z.to_nat 1024)) (repeat 1 (Z.to_nat 1024)) (repeat 1 (Z.to_nat 65536))
    (repeat 1 (Z.to_nat 1024)) (repeat 1 (Z.to_nat 1024)).
Definition ex_calls : res (list call) :=
  let! s := seq_at ex_mem ex_a in
  let! t := seq_at ex_mem ex_b in
  Ok [CUnion ex_mem s t (repeat 0 140) 1; CInter ex_mem s t (repeat 0 40) 1;
      CInterMany ex_mem [s; t] (repeat 0 40) 1; CUnionMany ex_mem [t; s] (repeat 0 140) 1;
      CUnion ex_mem s t (repeat 0 140) 1].
Example C21_example :
  sized dirty
  /\ (let! cs := ex_calls in let! rs := run_calls ex_tbl true dirty cs in
      Ok (map (fun r => (firstn 3 (skipn 1 (fst r)), snd r)) rs))
     = Ok [([5; 7; 20], 106); ([7; 513; 520], 3); ([7; 513; 520], 3);
           ([5; 7; 20], 106); ([5; 7; 20], 106)].
Proof.
  split; [|vm_compute; reflexivity].
  unfold sized, dirty. cbn [sc_inter sc_block sc_union sc_and sc_or sc_headers sc_ibitmap sc_ubitmap].
  split; [vm_compute; reflexivity|]. split; [vm_compute; reflexivity|]. split; [vm_compute; reflexivity|].
  split; [vm_compute; reflexivity|]. split; [vm_compute; reflexivity|]. split; [vm_compute; reflexivity|].
  split; vm_compute; reflexivity.
Qed.
