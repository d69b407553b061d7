(** Unknown elements in the input of generated parsers. *)
From Verif Require Import Base PrimModel ReaderModel ReaderSpec ReaderProofs NameModel NameProofs CodecModel CodecSpec CodecSpec2 CodecLib CodecPar CodecSpec3 CodecNoise CodecNoise2.

(** Encode writes the elements, one after the other. *)
Theorem C17_elements : forall p m vs, wf_model m = true -> fs_shape (m_fields m) vs -> ep_est p = 0%N ->
  (m_nocopy m = true -> fs_len p (m_fields m) vs <> 0%N) ->
  exists w ys, m_encode p m vs = Ok (w, ys) /\ concat w = concat (all_elements p [] m vs).
Proof. exact elements_encode. Qed.
Print Assumptions C17_elements.

(** C17, first part.  An element of a type the model does not have, which is even and above
    31 (or of any type, with ignoreCritical), inserted at any position, changes nothing. *)
Theorem C17_skip : forall p m vs k t v ic F, m_ordered m = false -> wf_model m = true -> parsable m = true ->
  fs_shape (m_fields m) vs -> fs_typed (m_fields m) vs -> ep_est p = 0%N ->
  (t < two64)%N -> ~ In t (elem_types (m_fields m)) -> may_ignore ic t ->
  (zlen (insert k (tlv t v) (all_elements p [] m vs)) < size_limit)%Z -> (length (insert k (tlv t v) (all_elements p [] m vs)) < F)%nat ->
  exists vs' cx, m_parse F m ic (new_buffer_reader (insert k (tlv t v) (all_elements p [] m vs))) = Ok (vs', cx)
    /\ Forall2 same (fs_back p [] (m_fields m) vs) vs'.
Proof. exact insert_ok. Qed.
Print Assumptions C17_skip.

(** Any number of such elements, in structures within structures too, and with the elements of
    different fields in any order. *)
Theorem C17_mixed : forall p hole, nlen hole = ep_est p -> forall ic m vs b F, m_ordered m = false -> wf_model m = true -> parsable m = true ->
  fs_shape (m_fields m) vs -> fs_typed (m_fields m) vs -> mixed p hole ic (m_fields m) vs b ->
  (zlen b < size_limit)%Z -> (length b < F)%nat ->
  exists vs' cx, m_parse F m ic (new_buffer_reader b) = Ok (vs', cx) /\ Forall2 same (fs_back p hole (m_fields m) vs) vs'.
Proof. exact parse_mixed_ok. Qed.
Print Assumptions C17_mixed.

(** C17, second part: an element of any other type the model does not have is an error. *)
Theorem C17_critical : forall p m vs k t v F, m_ordered m = false -> wf_model m = true -> parsable m = true ->
  fs_shape (m_fields m) vs -> fs_typed (m_fields m) vs -> ep_est p = 0%N ->
  (t < two64)%N -> ~ In t (elem_types (m_fields m)) -> ~ may_ignore false t ->
  (zlen (insert k (tlv t v) (all_elements p [] m vs)) < size_limit)%Z -> (length (insert k (tlv t v) (all_elements p [] m vs)) < F)%nat ->
  m_parse F m false (new_buffer_reader (insert k (tlv t v) (all_elements p [] m vs))) = Err (EUnrecognized t).
Proof. exact insert_critical. Qed.
Print Assumptions C17_critical.

Ltac forall2 := unfold fs_shape, fs_typed; cbn [m_fields spec_MetaInfo spec_Data];
  repeat (match goal with |- Forall2 _ _ _ => constructor end).

(** ContentType 1, an element of type 200, FreshnessPeriod 4000 ms *)
Example C17_ok : let vs := [VNat 1; VTime 4000000000; VNone] in
  fs_shape (m_fields spec_MetaInfo) vs /\ fs_typed (m_fields spec_MetaInfo) vs
  /\ insert 1 (tlv 200 [1; 2]%N) (all_elements (mkEP 0 false) [] spec_MetaInfo vs) = [24; 1; 1; 200; 2; 1; 2; 25; 2; 15; 160]%N
  /\ m_parse 12 spec_MetaInfo false (new_buffer_reader [24; 1; 1; 200; 2; 1; 2; 25; 2; 15; 160]%N) = Ok (vs, [XNone; XNone; XNone])
  /\ m_parse 12 spec_MetaInfo false (new_buffer_reader [24; 1; 1; 201; 2; 1; 2; 25; 2; 15; 160]%N) = Err (EUnrecognized 201)
  /\ m_parse 12 spec_MetaInfo true (new_buffer_reader [24; 1; 1; 201; 2; 1; 2; 25; 2; 15; 160]%N) = Ok (vs, [XNone; XNone; XNone]).
Proof.
  cbv zeta. split; [forall2; cbn; auto|]. split; [forall2; cbn; unfold Ztwo63, two64; auto; lia|]. repeat split; vm_compute; reflexivity.
Qed.

(** Ordered models.  In a Data packet, an element to be ignored after the name makes
    the parser drop the MetaInfo. *)
Theorem C17_ordered_refuted : exists vs k t v vs' cx, fs_shape (m_fields spec_Data) vs /\ fs_typed (m_fields spec_Data) vs
  /\ ~ In t (elem_types (m_fields spec_Data)) /\ may_ignore false t
  /\ m_parse 100 spec_Data false (new_buffer_reader (insert k (tlv t v) (all_elements (mkEP 0 false) [] spec_Data vs))) = Ok (vs', cx)
  /\ ~ Forall2 same (fs_back (mkEP 0 false) [] (m_fields spec_Data) vs) vs'.
Proof.
  exists [VNone; VNone; VName [mkComp 8 [65%N]]; VStruct [VNone; VNone; VNone]; VNone; VNone; VNone], 1%nat, 200%N, [].
  eexists _, _. split; [forall2; cbn; auto|]. split.
  { forall2; cbn; auto. unfold name_typed, comp_ok, comp_short, bytes_ok, u64_ok, two64; repeat constructor; cbn; lia. }
  split; [cbn; intros H; repeat (destruct H as [H|H]; [discriminate|]); auto|]. split; [right; split; [lia|reflexivity]|].
  split; [vm_compute; reflexivity|]. intros H. cbn in H. do 3 (inversion H; subst; clear H; match goal with X : Forall2 _ _ _ |- _ => rename X into H end).
  inversion H; subst. match goal with X : same _ VNone |- _ => inversion X end.
Qed.
Print Assumptions C17_ordered_refuted.

(** After one element that is ignored, at the end of a signed Data packet, a critical one
    is ignored too. *)
Theorem C17_ordered_critical_refuted : exists b t v vs cx,
  m_parse 100 spec_Data false (new_buffer_reader b) = Ok (vs, cx)
  /\ ~ In t (elem_types (m_fields spec_Data)) /\ ~ may_ignore false t
  /\ m_parse 100 spec_Data false (new_buffer_reader (b ++ tlv t v)) = Ok (vs, cx).
Proof.
  exists [7; 3; 8; 1; 65; 22; 3; 27; 1; 0; 23; 1; 9; 200; 0]%N, 201%N, []. eexists _, _. split; [vm_compute; reflexivity|].
  split; [cbn; intros H; repeat (destruct H as [H|H]; [discriminate|]); auto|]. split; [intros [H|[_ H]]; discriminate|].
  vm_compute. reflexivity.
Qed.
Print Assumptions C17_ordered_critical_refuted.
