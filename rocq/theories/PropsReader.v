(** C14: a fragmented wire reads like the joined buffer
    (pkg/encoding/readers.go).  Statements only. *)
From Verif Require Import Base PrimModel ReaderModel ReaderSpec ReaderScript PropsReaderProofs.

(** Both readers give exactly the results of the abstract cursor, for every
    fragmentation and every script of calls within the contract. *)
Theorem C14_scripts_agree_partial : forall (w : wire) (ops : list rop) (seen : list robs),
  Forall (fun b => b <> []) w -> (zlen (concat w) < mem_limit)%Z ->
  spec_run ops [([], concat w)] = Some seen ->
  impl_run ops [(new_wire_reader w, 0%Z)] = seen /\
  impl_run ops [(new_buffer_reader (concat w), 0%Z)] = seen.
Proof. exact c14_scripts. Qed.
Print Assumptions C14_scripts_agree_partial.

Example C14_example :
  let ops := [OReadByte; ODelegate 4; OReadBuf 3; OPos; OUnreadByte; OReadWire 2; OReturn; OPos; OReadFull 2; OReadByte; OReadByte] in
  let seen := [SByte 1; SDone; SBytes [2;3;4]; SNum 3; SDone; SBytes [4;5]; SDone; SNum 5; SBytes [6;7]; SByte 8; SError]%N%Z in
  spec_run ops [([], [1;2;3;4;5;6;7;8]%N)] = Some seen /\
  impl_run ops [(new_wire_reader [[1;2];[3];[4;5;6];[7;8]]%N, 0%Z)] = seen.
Proof. split; vm_compute; reflexivity. Qed.

(** Range: always right on a buffer reader ... *)
Theorem C14_range_buffer : forall before m after pos,
  r_range (zlen before) (zlen before + zlen m) (RBuf (before ++ m ++ after) pos) = Ok (Some [m]).
Proof. exact c14_range_buffer. Qed.
Print Assumptions C14_range_buffer.

(** ... and on a wire reader when the range is not empty and either begins in
    the first buffer or ends at most one buffer further. *)
Theorem C14_range_wire_partial : forall (w : wire) seg pos first last inner out,
  (* the range starts after [first] and ends before [last] *)
  concat w = first ++ inner ++ last -> inner <> [] ->
  (exists b w', w = b :: w' /\ (zlen first < zlen b)%Z) \/
  (exists w1 b1 b2 w2, w = w1 ++ b1 :: b2 :: w2 /\ (zlen (concat w1) <= zlen first < zlen (concat w1) + zlen b1)%Z
     /\ (zlen first + zlen inner <= zlen (concat w1) + zlen b1 + zlen b2)%Z) ->
  r_range (zlen first) (zlen first + zlen inner) (RWire w seg pos (acc_from 0 w)) = out ->
  exists parts, out = Ok (Some parts) /\ concat parts = inner.
Proof. exact c14_range_wire. Qed.
Print Assumptions C14_range_wire_partial.

Example C14_range_example :
  r_range 1 5 (new_wire_reader [[1;2];[3];[4;5;6];[7;8]]%N) = Ok (Some [[2];[3];[4;5]]%N).
Proof. vm_compute. reflexivity. Qed.

(** The full statement is false.  Range over three buffers beginning in the
    second one returns bytes in the wrong slots (readers.go 255-257) ... *)
Theorem C14_range_refuted : exists (w : wire) (first inner last : buf),
  concat w = first ++ inner ++ last /\ inner <> [] /\ Forall (fun b => b <> []) w /\
  exists parts, r_range (zlen first) (zlen first + zlen inner) (new_wire_reader w) = Ok (Some parts) /\
  concat parts <> inner.
Proof. exact c14_range_refuted. Qed.
Print Assumptions C14_range_refuted.

(** ... a zero-length ReadBuf at the end panics ... *)
Theorem C14_readbuf_at_end_refuted : exists w : wire, Forall (fun b => b <> []) w /\
  impl_run [OSkip 3; OReadBuf 0] [(new_wire_reader w, 0%Z)] = [SDone; SCrash] /\
  impl_run [OSkip 3; OReadBuf 0] [(new_buffer_reader (concat w), 0%Z)] = [SDone; SBytes []].
Proof. exact c14_readbuf_refuted. Qed.
Print Assumptions C14_readbuf_at_end_refuted.

(** ... an empty buffer inside the wire makes ReadByte panic ... *)
Theorem C14_empty_buffer_refuted : exists w : wire,
  impl_run [OReadByte; OReadByte] [(new_wire_reader w, 0%Z)] = [SByte 1%N; SCrash] /\
  impl_run [OReadByte; OReadByte] [(new_buffer_reader (concat w), 0%Z)] = [SByte 1%N; SByte 2%N].
Proof. exact c14_empty_refuted. Qed.
Print Assumptions C14_empty_buffer_refuted.

(** ... and delegating more than is left leaves a buffer reader where it was
    but moves a wire reader to its end. *)
Theorem C14_delegate_too_long_refuted : exists w : wire, Forall (fun b => b <> []) w /\
  impl_run [ODelegate 9; OReturn; OReadByte] [(new_wire_reader w, 0%Z)] = [SDone; SDone; SError] /\
  impl_run [ODelegate 9; OReturn; OReadByte] [(new_buffer_reader (concat w), 0%Z)] = [SDone; SDone; SByte 1%N].
Proof. exact c14_delegate_refuted. Qed.
Print Assumptions C14_delegate_too_long_refuted.
