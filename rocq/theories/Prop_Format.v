(** The bytes on disk and their number: C25, C29.  The format is defined in Format.v. *)
From Verif Require Import Base Spec Format M_Util M_Build M_Index P_Ex P_Format.

(** C29: the builder writes the format of Format.v, byte for byte, in either build mode *)
Theorem C29_sequence_format : forall dbg out S, valid S ->
  exists stats, builder_build dbg out S = (Ok stats, out ++ f_sequence S).
Proof. exact c25_format. Qed.
Print Assumptions C29_sequence_format.

Theorem C29_sequence_file : forall dbg S, valid S ->
  exists stats enc, builder_build dbg [] S = (Ok stats, enc)
    /\ sequence_file enc = f_sequence_file S.
Proof. exact c29_sequence. Qed.
Print Assumptions C29_sequence_file.

Theorem C29_index_file : forall dbg params u Ls,
  let kept := filter (fun L => pass params (zlen L) (last L 0)) Ls in
  Forall valid kept -> Forall short Ls ->
  exists stats offsets sequences,
    index_build dbg params (collection u Ls) = Ok (stats, offsets, sequences)
    /\ index_file offsets sequences = f_index u kept.
Proof. exact c29_index. Qed.
Print Assumptions C29_index_file.

Example C29_example :
  valid exA /\ valid exB
  /\ f_sequence [5; 7; 300; 65536]
     = [1; 0] ++ [0; 0; 2; 0; 1; 1; 7; 0] ++ [1; 0; 0; 0; 1; 0; 3; 0] ++ [0; 1; 1; 0; 5; 7; 44] ++ [0; 0; 0]
  /\ f_index 9 [[3]; [4]]
     = [3; 0; 0; 0; 0; 0; 0; 0] ++ [9; 0; 0; 0; 0; 0; 0; 0] ++ [0; 0; 0; 0; 0; 0; 0; 0] ++ [13; 0; 0; 0; 0; 0; 0; 0]
       ++ [26; 0; 0; 0; 0; 0; 0; 0] ++ f_sequence [3] ++ f_sequence [4]
  /\ pass default_params 1 3 = true.
Proof.
  split; [exact valid_A|]. split; [exact valid_B|]. split; [vm_compute; reflexivity|].
  split; vm_compute; reflexivity.
Qed.

(** C25: the exact number of bytes, from the cardinalities of chunks and blocks; [c] is the
    number of non-empty chunks *)
Theorem C25_size : forall dbg S enc, valid S -> encoding dbg S enc ->
  let c := zlen (ids 65536 (Z.to_nat 65536) S) in
  zlen enc = 2 + 8 * (c / 32) + 8 * c + total (chunk_cost S) (zrange 0 (Z.to_nat 65536))
  /\ (forall h, 0 <= chunk_cost S h <= 8192)
  /\ zlen enc <= 2 + 8 * (c / 32) + 8 * c + 8192 * c
  /\ zlen enc <= 2 + 8 * (c / 32) + 8 * c + 3 * zlen S.
Proof. exact c25_size. Qed.
Print Assumptions C25_size.

Example C25_example :
  valid exB /\ encoding true exB encB /\ zlen encB = 60
  /\ map (chunk_cost exB) [0; 1; 2; 3] = [8; 0; 34; 0]
  /\ chunk_cost (zrange 0 (Z.to_nat 65536)) 0 = 0.
Proof.
  split; [exact valid_B|]. split; [apply encoding_ok; exact valid_B|].
  split; [vm_compute; reflexivity|]. split; [vm_compute; reflexivity|]. vm_compute. reflexivity.
Qed.

(** the builder does not always choose the smallest representation: a chunk of 128 complete
    blocks takes 8192 bytes, as blocks it would take 4352 *)
Theorem C25_smallest_refuted :
  exists S enc, valid S /\ Forall (fun v => v < 65536) S /\ encoding false S enc
    /\ zlen enc = 10 + 8192 /\ blocks_cost S 0 = 4352.
Proof. exact c25_smallest_refuted. Qed.
Print Assumptions C25_smallest_refuted.
