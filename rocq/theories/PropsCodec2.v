(** Parsers generated by pkg/encoding/codegen. *)
From Verif Require Import Base PrimModel ReaderModel ReaderSpec ReaderProofs NameModel NameProofs CodecModel CodecSpec CodecSpec2 CodecLib CodecEnc5 CodecPar CodecPar4 PropsCodec.

(** Every structure of the library, except for the two with a field that has no type
    number, is one the theorems below speak of. *)
Theorem library_parsable : forall m, In m library -> m <> ndncert_ProbeRes -> m <> ndncert_ProbeResContent -> parsable m = true.
Proof.
  intros m H N1 N2. unfold library in H. cbn [In] in H.
  repeat (destruct H as [<-|H]; [first [reflexivity|congruence]|]). contradiction.
Qed.
Print Assumptions library_parsable.

(** C16.  What Encode returns for a value (without a place for a signature) is parsed by a
    parser of the same model, on a BufferReader, into the same value; with ignoreCritical
    or without.  [fs_back] truncates times to milliseconds and removes the digest component an
    Interest's name may end with; wires come back in other buffers.  8 TiB and more is too much. *)
Theorem C16_round_trip : forall p m vs, wf_model m = true -> parsable m = true ->
  fs_shape (m_fields m) vs -> fs_typed (m_fields m) vs -> ep_est p = 0%N ->
  (m_nocopy m = true -> fs_len p (m_fields m) vs <> 0%N) -> (Z.of_N (fs_len p (m_fields m) vs) < size_limit)%Z ->
  exists w ys, m_encode p m vs = Ok (w, ys) /\
  forall ic F, (length (concat w) < F)%nat ->
    exists vs' cx, m_parse F m ic (new_buffer_reader (concat w)) = Ok (vs', cx) /\ Forall2 same (fs_back p [] (m_fields m) vs) vs'.
Proof. exact round_trip. Qed.
Print Assumptions C16_round_trip.

(** The same on a WireReader over any division of the encoding into non-empty buffers, for
    values that a WireReader can be asked for. *)
Theorem C16_round_trip_wire : forall p m vs, wf_model m = true -> parsable m = true ->
  fs_shape (m_fields m) vs -> fs_typed (m_fields m) vs -> fs_wire_safe (m_fields m) vs -> ep_est p = 0%N ->
  (m_nocopy m = true -> fs_len p (m_fields m) vs <> 0%N) -> (Z.of_N (fs_len p (m_fields m) vs) < size_limit)%Z ->
  exists w ys, m_encode p m vs = Ok (w, ys) /\
  forall w', concat w' = concat w -> nonempty_segs w' -> forall ic F, (length (concat w) < F)%nat ->
    exists vs' cx, m_parse F m ic (new_wire_reader w') = Ok (vs', cx) /\ Forall2 same (fs_back p [] (m_fields m) vs) vs'.
Proof. exact round_trip_wire. Qed.
Print Assumptions C16_round_trip_wire.

Ltac forall2 := unfold fs_shape, fs_typed, fs_wire_safe; cbn [m_fields spec_Packet spec_KeyLocator ndncert_ProbeRes];
  repeat (match goal with |- Forall2 _ _ _ => constructor end).

(** the Data packet of PropsCodec, not signed; the freshness period of 5000001 ns comes back
    as 5 ms and the content in one buffer *)
Definition data2 : list value :=
  [ VNone
  ; VStruct [VNone; VNone; VName [mkComp 8 [65%N]; mkComp 8 []]; VStruct [VNone; VTime 5000001; VNone]; VWire [[1; 2; 3]; [9; 8]]%N;
             VStruct [VNat 0; VNone; VNone; VNone; VNone; VNone; VNone]; VNone]
  ; VNone ].
Example C16_ok : wf_model spec_Packet = true /\ parsable spec_Packet = true /\ fs_shape (m_fields spec_Packet) data2
  /\ fs_typed (m_fields spec_Packet) data2 /\ fs_len (mkEP 0 false) (m_fields spec_Packet) data2 = 26%N
  /\ exists w ys cx, m_encode (mkEP 0 false) spec_Packet data2 = Ok (w, ys)
    /\ m_parse 28 spec_Packet false (new_buffer_reader (concat w)) = Ok (
  [ VNone
  ; VStruct [VNone; VNone; VName [mkComp 8 [65%N]; mkComp 8 []]; VStruct [VNone; VTime 5000000; VNone]; VWire [[1; 2; 3; 9; 8]]%N;
             VStruct [VNat 0; VNone; VNone; VNone; VNone; VNone; VNone]; VNone]
  ; VNone ], cx).
Proof.
  split; [vm_compute; reflexivity|]. split; [vm_compute; reflexivity|]. split; [forall2; cbn; auto 20|]. split.
  { forall2; cbn; repeat split; auto; try lia; unfold name_typed, comp_ok, comp_short, bytes_ok, u64_ok, Ztwo63, two64;
      repeat constructor; cbn; try lia. }
  split; [vm_compute; reflexivity|]. eexists _, _, _. split; [vm_compute; reflexivity|]. vm_compute. reflexivity.
Qed.

(** ndncert's ProbeRes cannot be parsed back: its parser has no case for MaxSuffixLength *)
Theorem C16_probe_refuted : exists vs w ys, fs_shape (m_fields ndncert_ProbeRes) vs /\ fs_typed (m_fields ndncert_ProbeRes) vs
  /\ In ndncert_ProbeRes library /\ m_encode (mkEP 0 false) ndncert_ProbeRes vs = Ok (w, ys)
  /\ forall F, m_parse (100 + F) ndncert_ProbeRes false (new_buffer_reader (concat w)) = Err (EUnrecognized 0).
Proof.
  exists [VName [mkComp 8 [65%N]]; VNat 1]. eexists _, _. split; [forall2; exact I|]. split.
  { forall2; cbn; unfold name_typed, comp_ok, comp_short, bytes_ok, u64_ok, two64; repeat constructor; cbn; lia. }
  split; [unfold library; repeat (first [left; reflexivity|right])|]. split; [vm_compute; reflexivity|]. intros F. vm_compute. reflexivity.
Qed.
Print Assumptions C16_probe_refuted.

(** a name whose last component is empty, at the end of a WireReader: panic *)
Theorem C16_wire_refuted : exists m vs w ys, In m library /\ parsable m = true /\ fs_shape (m_fields m) vs /\ fs_typed (m_fields m) vs
  /\ m_encode (mkEP 0 false) m vs = Ok (w, ys) /\ nonempty_segs w
  /\ forall F, m_parse (100 + F) m false (new_wire_reader w) = Panic.
Proof.
  exists spec_KeyLocator, [VName [mkComp 8 []]; VNone]. eexists _, _. split; [left; reflexivity|]. split; [reflexivity|].
  split; [forall2; exact I|]. split.
  { forall2; cbn; auto; unfold name_typed, comp_ok, comp_short, bytes_ok, u64_ok, two64; repeat constructor; cbn; lia. }
  split; [vm_compute; reflexivity|]. split.
  { unfold nonempty_segs. repeat constructor; discriminate. }
  intros F. vm_compute. reflexivity.
Qed.
Print Assumptions C16_wire_refuted.
