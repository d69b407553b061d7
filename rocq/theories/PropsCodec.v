(** Codecs generated by pkg/encoding/codegen. *)
From Verif Require Import Base PrimModel ReaderModel NameModel CodecModel CodecSpec CodecLib CodecEnc5.

(** Every structure of the library is one the theorems below speak of. *)
Theorem library_wf : forallb wf_model library = true.
Proof. vm_compute. reflexivity. Qed.

(** C15.  For every model and value with anything to encode: Encode succeeds, and so does
    EncodeInto on any buffers of the planned sizes, with the same result; the result is
    the TLV encoding of the value (of which the signature is left out); the length computed
    beforehand is that of the encoding with the estimated signature; and every planned buffer
    is filled by as many bytes as planned, or is replaced by one of the caller's buffers. *)
Theorem C15_encode_exact : forall p m vs w0, wf_model m = true -> fs_shape (m_fields m) vs -> planned p m vs w0 ->
  (m_nocopy m = true -> fs_len p (m_fields m) vs <> 0%N) ->
  exists w ys ys', m_encode p m vs = Ok (w, ys) /\ m_encode_into p m vs w0 = Ok (w, ys')
    /\ concat w = fs_bytes p [] (m_fields m) vs
    /\ fs_len p (m_fields m) vs = nlen (fs_bytes p (full_hole p) (m_fields m) vs)
    /\ Forall2 (fun n b => n = 0%N \/ n = nlen b) (if m_nocopy m then m_plan p m vs else [fs_len p (m_fields m) vs]) w.
Proof. exact encode_exact. Qed.
Print Assumptions C15_encode_exact.

(** a Data packet with content in two buffers and a signature of estimated length 4:
    the second buffer, [9;8], is the caller's *)
Definition data1 : list value :=
  [ VNone
  ; VStruct [VNone; VNone; VName [mkComp 8 [65%N]]; VStruct [VNone; VTime 5000000; VNone]; VWire [[1; 2; 3]; [9; 8]]%N;
             VStruct [VNat 0; VNone; VNone; VNone; VNone; VNone; VNone]; VNone]
  ; VNone ].
Example C15_ok : wf_model spec_Packet = true /\ fs_shape (m_fields spec_Packet) data1
  /\ fs_len (mkEP 4 false) (m_fields spec_Packet) data1 <> 0%N
  /\ exists ys, m_encode (mkEP 4 false) spec_Packet data1
     = Ok ([[6; 28; 7; 3; 8; 1; 65; 20; 3; 25; 1; 5; 21; 5]; [1; 2; 3]; [9; 8]; [22; 3; 27; 1; 0; 23; 4]; []]%N, ys).
Proof.
  split; [vm_compute; reflexivity|]. split; [|split; [vm_compute; discriminate|eexists; vm_compute; reflexivity]].
  unfold fs_shape, data1. cbn [m_fields spec_Packet].
  repeat (match goal with |- Forall2 _ _ _ => constructor end); cbn; auto 20.
Qed.

(** a nocopy model with nothing set panics *)
Theorem C15_empty_refuted : exists m vs, In m library /\ fs_shape (m_fields m) vs /\ m_encode (mkEP 0 false) m vs = Panic.
Proof.
  exists spec_Packet, [VNone; VNone; VNone]. split; [vm_compute; auto 20|]. split; [|vm_compute; reflexivity].
  unfold fs_shape. cbn [m_fields spec_Packet]. repeat (match goal with |- Forall2 _ _ _ => constructor end); exact I.
Qed.
Print Assumptions C15_empty_refuted.
