(** What the signature of a packet covers is what is delivered. *)
From Verif Require Import Base PrimModel ReaderModel NameModel CodecModel CodecSpec CodecSpec2 CodecLib SpecModel SpecSpec SpecMore AuthProofs AuthInt2 RecvModel.

(** C84.  Whatever bytes arrive as one Data element (any [body], with whatever unknown, repeated,
    misplaced or overlong elements in it): if ReadData accepts it and the covered bytes it reports, which is what
    a validator checks the signature against, are the signed portion of some Data packet ([data_part] of a name, a
    configuration, a content and a signature configuration), then the Data delivered has that name, that
    content type, freshness period and final block, that content and that signature type, key and validity, and has a
    signature.  So a signature made for one Data packet cannot be presented with other fields.
    Missing: packets of more than one element, where it is false, of 4 TiB and more, and signed portions that
    MakeData does not make (no MetaInfo, components of more than 252 bytes). *)
Theorem C84_one_element_partial : forall F body n c content osc d cov, name_typed n -> data_config_ok c -> all_of data_sig_ok osc ->
  (length body < F)%nat -> (nlen body < packet_limit)%N ->
  read_data F (new_buffer_reader (tlv 6 body)) = Ok (d, cov) -> concat cov = data_part n c content osc ->
  data_reads n c content osc (d_sig_value d) d /\ d_sig_value d <> None.
Proof. exact data_genuine. Qed.
Print Assumptions C84_one_element_partial.

(** Two packets of one element with the same covered bytes, of which one is made by MakeData, agree. *)
Theorem C84_same_covered_partial : forall F body body' n c content osc d d' cov cov', name_typed n -> data_config_ok c -> all_of data_sig_ok osc ->
  (length body < F)%nat -> (nlen body < packet_limit)%N -> (length body' < F)%nat -> (nlen body' < packet_limit)%N ->
  read_data F (new_buffer_reader (tlv 6 body)) = Ok (d, cov) -> read_data F (new_buffer_reader (tlv 6 body')) = Ok (d', cov') ->
  concat cov = data_part n c content osc -> concat cov' = concat cov ->
  d_name d' = d_name d /\ option_map (@concat N) (d_content d') = option_map (@concat N) (d_content d) /\ d_content_type d' = d_content_type d
  /\ d_freshness d' = d_freshness d /\ d_final_block d' = d_final_block d /\ d_sig_type d' = d_sig_type d /\ d_key_name d' = d_key_name d /\ d_validity d' = d_validity d.
Proof.
  intros F body body' n c content osc d d' cov cov' Hn CO SO L1 S1 L2 S2 R1 R2 E1 E2. rewrite E1 in E2.
  destruct (data_genuine F body n c content osc d cov) as ((A1 & A2 & A3 & A4 & A5 & A6 & A7 & A8 & _) & _); auto.
  destruct (data_genuine F body' n c content osc d' cov') as ((B1 & B2 & B3 & B4 & B5 & B6 & B7 & B8 & _) & _); auto.
  repeat split; congruence.
Qed.
Print Assumptions C84_same_covered_partial.

Definition g_name0 : name := [mkComp 8 [97]%N].
Definition g_config : data_config := mkDC None (Some 4000000000%Z) None.
Definition g_sig : sig_config := mkSC 1 (Some g_name0) None None None None None.
Definition g_content : option wire := Some [[104; 105]%N].
Definition g_part : buf := data_part g_name0 g_config g_content (Some g_sig).

(** Its hypotheses are met by the packet itself, and by packets with a trailer after the signature, an unknown element
    before the name, or non-minimal numbers. *)
Example C84_ok : name_typed g_name0 /\ data_config_ok g_config /\ data_sig_ok g_sig
  /\ (exists d cov, read_data 200 (new_buffer_reader (tlv 6 (g_part ++ tlv 23 [1; 2; 3]%N))) = Ok (d, cov) /\ concat cov = g_part)
  /\ (exists d cov, read_data 200 (new_buffer_reader (tlv 6 (tlv 32 [7; 0]%N ++ g_part ++ [253; 0; 23; 3; 1; 2; 3; 36; 1; 0]%N))) = Ok (d, cov) /\ concat cov = g_part
       /\ d_name d = Some g_name0 /\ d_sig_value d = Some [1; 2; 3]%N).
Proof.
  split; [split; repeat constructor; discriminate|]. split; [split; [exact I|split; [split; [discriminate|reflexivity]|exact I]]|].
  split; [split; [split; [discriminate|reflexivity]|]; split; [split; repeat constructor; discriminate|]; repeat split; reflexivity|].
  split; eexists _, _; (split; [vm_compute; reflexivity|]); [reflexivity|split; [reflexivity|split; reflexivity]].
Qed.

(** With two Data elements in a packet it is false: the parser keeps the start of the signed portion of the first one
    when the second one starts with two unknown elements.  Whoever has seen a Data packet can present its signature with
    another name ... *)
Definition g_name_elem : buf := tlv 7 (name_enc g_name0).
Definition g_meta_elem : buf := skipn (length g_name_elem) (data_part g_name0 g_config None None).
Definition g_after : buf := skipn (length (g_name_elem ++ g_meta_elem)) g_part.
Definition forged : buf :=
  tlv 6 (tlv 32 (repeat 0%N 9) ++ tlv 7 [])
  ++ tlv 6 (tlv 32 [] ++ tlv 32 [] ++ tlv 7 (name_enc [mkComp 8 [120]%N]) ++ tlv 32 (g_name_elem ++ g_meta_elem) ++ g_after ++ tlv 23 [1; 2; 3]%N).
Theorem C84_two_data_refuted : exists F b n c content sc sig d cov, name_typed n /\ data_config_ok c /\ data_sig_ok sc
  /\ read_data F (new_buffer_reader b) = Ok (d, cov) /\ concat cov = data_part n c content (Some sc) /\ d_sig_value d = Some sig
  /\ d_content d = content /\ d_key_name d = sc_key sc /\ d_name d = Some [mkComp 8 [120]%N] /\ d_name d <> Some n.
Proof.
  exists 200%nat, forged, g_name0, g_config, g_content, g_sig, [1; 2; 3]%N. eexists _, _.
  split; [apply C84_ok|]. split; [apply C84_ok|]. split; [apply C84_ok|]. split; [vm_compute; reflexivity|]. split; [vm_compute; reflexivity|].
  split; [reflexivity|]. split; [reflexivity|]. split; [reflexivity|]. split; [reflexivity|]. discriminate.
Qed.
Print Assumptions C84_two_data_refuted.

(** ... and the engine takes such a packet out of a link-layer packet and gives it to the Interests pending under
    the other name, with the signed portion of the genuine one. *)
Theorem C84_engine_refuted : exists F b n c content sc d cov raw, name_typed n /\ data_config_ok c /\ data_sig_ok sc
  /\ on_packet (fun _ => repeat 0%N 32) F (new_buffer_reader b) = Ok (EvData d cov raw None)
  /\ concat cov = data_part n c content (Some sc) /\ d_name d = Some [mkComp 8 [120]%N] /\ d_name d <> Some n.
Proof.
  exists 300%nat, (tlv 100 (tlv 80 forged)), g_name0, g_config, g_content, g_sig. eexists _, _, _.
  split; [apply C84_ok|]. split; [apply C84_ok|]. split; [apply C84_ok|]. split; [vm_compute; reflexivity|]. split; [vm_compute; reflexivity|].
  split; [reflexivity|]. discriminate.
Qed.
Print Assumptions C84_engine_refuted.

(** C85.  Whatever bytes arrive as one Interest element: if ReadInterest accepts it with a SignatureInfo and a
    SignatureValue and the covered bytes it reports are those of a signed Interest that somebody made (the name [n]
    without its digest, parameters [a], signature configuration [sc]), then the Interest delivered has that name followed
    by a digest of parameters, those parameters, and that signature type, key, nonce, time and sequence number.
    Nothing is said about CanBePrefix, MustBeFresh, hint, nonce, lifetime and hop limit: NDN does not sign them.
    Missing: packets of more than one element, where it is false, of 4 TiB and more, names with a component of type 7 or
    of more than 252 bytes. *)
Theorem C85_one_element_partial : forall sha F body n a sc i cov, name_typed n -> (forall c, In c n -> ctyp c <> 7%N) -> interest_sig_ok sc ->
  (length body < F)%nat -> (nlen body < packet_limit)%N ->
  read_interest sha F (new_buffer_reader (tlv 5 body)) = Ok (i, cov) -> i_sig_type i <> SigNone -> i_sig_value i <> [] ->
  concat cov = name_enc n ++ signed_params (Some a) (Some sc) ->
  (exists d, ctyp d = TypeParametersSha256Digest /\ i_name i = Some (n ++ [d])) /\ option_map (@concat N) (i_app_param i) = Some (concat a)
  /\ i_sig_type i = sc_type sc /\ i_key_name i = interest_key sc /\ i_sig_nonce i = sc_nonce sc /\ i_sig_time i = sc_time sc /\ i_sig_seq i = sc_seq sc.
Proof. exact interest_genuine. Qed.
Print Assumptions C85_one_element_partial.

(** Two signed Interests of one element each with the same covered bytes, of which one is made by MakeInterest, ask for
    the same: up to the digest they have the same name, and the same parameters and signature information. *)
Theorem C85_same_covered_partial : forall sha F body body' n a sc i i' cov cov', name_typed n -> (forall c, In c n -> ctyp c <> 7%N) -> interest_sig_ok sc ->
  (length body < F)%nat -> (nlen body < packet_limit)%N -> (length body' < F)%nat -> (nlen body' < packet_limit)%N ->
  read_interest sha F (new_buffer_reader (tlv 5 body)) = Ok (i, cov) -> i_sig_type i <> SigNone -> i_sig_value i <> [] ->
  read_interest sha F (new_buffer_reader (tlv 5 body')) = Ok (i', cov') -> i_sig_type i' <> SigNone -> i_sig_value i' <> [] ->
  concat cov = name_enc n ++ signed_params (Some a) (Some sc) -> concat cov' = concat cov ->
  (exists m d d', i_name i = Some (m ++ [d]) /\ i_name i' = Some (m ++ [d']) /\ ctyp d = TypeParametersSha256Digest /\ ctyp d' = TypeParametersSha256Digest)
  /\ option_map (@concat N) (i_app_param i') = option_map (@concat N) (i_app_param i) /\ i_sig_type i' = i_sig_type i /\ i_key_name i' = i_key_name i
  /\ i_sig_nonce i' = i_sig_nonce i /\ i_sig_time i' = i_sig_time i /\ i_sig_seq i' = i_sig_seq i.
Proof.
  intros sha F body body' n a sc i i' cov cov' Hn N7 SO L1 S1 L2 S2 R1 T1 V1 R2 T2 V2 E1 E2. rewrite E1 in E2.
  destruct (interest_genuine sha F body n a sc i cov) as ((d & D1 & D2) & A2 & A3 & A4 & A5 & A6 & A7); auto.
  destruct (interest_genuine sha F body' n a sc i' cov') as ((d' & D3 & D4) & B2 & B3 & B4 & B5 & B6 & B7); auto.
  split; [exists n, d, d'; auto|]. repeat split; congruence.
Qed.
Print Assumptions C85_same_covered_partial.

Definition gi_sha (b : buf) : buf := repeat 9%N 32.
Definition gi_name : name := [mkComp 8 [97]%N; mkComp 8 [98]%N].
Definition gi_sig : sig_config := mkSC 3 (Some g_name0) (Some [1; 2]%N) (Some 1000%Z) (Some 5%N) None None.
Definition gi_app : wire := [[104]%N; [105]%N].
Definition gi_config : interest_config := mkIC false true None (Some 7%N) None None.
Definition gi_digest : comp := digest_comp (gi_sha []).
Definition gi_cov : buf := name_enc gi_name ++ signed_params (Some gi_app) (Some gi_sig).

(** Its hypotheses are met by the packet itself, and by one with an unknown element before the name and one after the
    signature. *)
Example C85_ok : name_typed gi_name /\ (forall c, In c gi_name -> ctyp c <> 7%N) /\ interest_sig_ok gi_sig
  /\ (exists i cov, read_interest gi_sha 300 (new_buffer_reader (interest_packet (gi_name ++ [gi_digest]) gi_config (Some gi_app) (Some gi_sig) (Some [1; 2; 3]%N))) = Ok (i, cov)
       /\ concat cov = gi_cov /\ i_sig_type i <> SigNone /\ i_sig_value i <> [])
  /\ (exists i cov, read_interest gi_sha 300 (new_buffer_reader (tlv 5 (tlv 32 [7; 0]%N ++ tlv 7 (name_enc (gi_name ++ [gi_digest])) ++ signed_params (Some gi_app) (Some gi_sig) ++ tlv 46 [3]%N ++ tlv 200 [1]%N))) = Ok (i, cov)
       /\ concat cov = gi_cov /\ i_sig_type i = 3%Z /\ i_sig_value i = [3]%N).
Proof.
  split; [split; repeat constructor; discriminate|]. split; [intros c [<-|[<-|[]]]; discriminate|].
  split; [split; [split; [discriminate|reflexivity]|]; split; [split; repeat constructor; discriminate|]; split; [intros _; discriminate|]; split; [split; [discriminate|reflexivity]|]; repeat split; reflexivity|].
  split; eexists _, _; (split; [vm_compute; reflexivity|]); (split; [vm_compute; reflexivity|]); split; vm_compute; first [reflexivity|discriminate].
Qed.

(** A packet of two Interest elements, the second one with the digest [d] at the end of its name. *)
Definition fi_body (d : buf) : buf := 
  tlv 5 (tlv 7 (name_enc [mkComp 8 [97]%N])) ++ interest_packet [mkComp 8 [98]%N; digest_comp d] gi_config (Some gi_app) (Some gi_sig) (Some [1; 2; 3]%N).
Lemma forged_int : forall d, length d = 32%nat -> exists vs cx i, m_parse 300 spec_Packet false (new_buffer_reader (fi_body d)) = Ok (vs, cx)
  /\ nth 0 vs VNone = VStruct i /\ nth 1 vs VNone = VNone /\ nth 2 vs VNone = VNone /\ nth 2 i VNone = VName ([mkComp 8 [98]%N] ++ [digest_comp d]) /\ nth 11 i VNone = VWire [concat gi_app]
  /\ concat (x_cov (nth 1 (x_sub (nth 0 cx XNone)) XNone)) = params_part (Some gi_app) (Some gi_sig) (Some [1; 2; 3]%N)
  /\ concat (x_cov (nth 0 (x_sub (nth 0 cx XNone)) XNone)) = gi_cov
  /\ i_sig_type i = sc_type gi_sig /\ i_key_name i = sc_key gi_sig /\ i_sig_value i = [1; 2; 3]%N.
Proof.
  intros d L. destruct (list32 d L) as (?&?&?&?&?&?&?&?&?&?&?&?&?&?&?&?&?&?&?&?&?&?&?&?&?&?&?&?&?&?&?&?&->). clear L.
  eexists _, _, _. split; [vm_compute; reflexivity|]. repeat (split; [reflexivity|]). reflexivity.
Qed.
Lemma forged_lp : forall d, length d = 32%nat -> exists vs cx l, m_parse 300 spec_Packet false (new_buffer_reader (tlv 100 (tlv 80 (fi_body d)))) = Ok (vs, cx)
  /\ nth 0 vs VNone = VNone /\ nth 1 vs VNone = VNone /\ nth 2 vs VNone = VStruct l /\ nth 13 l VNone = VWire [fi_body d]
  /\ nth 1 l VNone = VNone /\ nth 2 l VNone = VNone /\ nth 3 l VNone = VNone /\ nth 4 l VNone = VNone /\ nth 5 l VNone = VNone.
Proof.
  intros d L. destruct (list32 d L) as (?&?&?&?&?&?&?&?&?&?&?&?&?&?&?&?&?&?&?&?&?&?&?&?&?&?&?&?&?&?&?&?&->). clear L.
  eexists _, _, _. split; [vm_compute; reflexivity|]. repeat (split; [reflexivity|]). reflexivity.
Qed.

(** With two Interest elements in a packet it is false: the covered bytes of the second are appended to those of the
    first.  Whatever the hash function, whoever has seen a signed Interest for /a/b can present it as one for /b ... *)
Definition gi_params : buf := params_part (Some gi_app) (Some gi_sig) (Some [1; 2; 3]%N).
Definition gi_forged (sha : buf -> buf) : buf := fi_body (sha gi_params).
Theorem C85_two_interests_refuted : forall sha, (forall b, length (sha b) = 32%nat) -> exists F b n a sc i cov, name_typed n /\ interest_sig_ok sc
  /\ read_interest sha F (new_buffer_reader b) = Ok (i, cov) /\ concat cov = name_enc n ++ signed_params (Some a) (Some sc)
  /\ i_sig_type i = sc_type sc /\ i_key_name i = sc_key sc /\ i_sig_value i = [1; 2; 3]%N
  /\ exists d, i_name i = Some [mkComp 8 [98]%N; d] /\ forall d', i_name i <> Some (n ++ [d']).
Proof.
  intros sha S. destruct (forged_int (sha gi_params) (S _)) as (vs & cx & i & P & V0 & V1 & V2 & I2 & I11 & C1 & C0 & T1 & T2 & T3).
  exists 300%nat, (gi_forged sha), gi_name, gi_app, gi_sig, i, (x_cov (nth 0 (x_sub (nth 0 cx XNone)) XNone)).
  split; [apply C85_ok|]. split; [apply C85_ok|]. split; [|split; [exact C0|split; [exact T1|split; [exact T2|split; [exact T3|]]]]].
  - unfold read_interest, gi_forged. rewrite P. cbn [bind]. rewrite V0. rewrite (check_app sha i _ [mkComp 8 [98]%N] [concat gi_app] _ I2 I11 C1). reflexivity.
  - eexists. unfold i_name. rewrite I2. split; [reflexivity|]. intros d'. discriminate.
Qed.
Print Assumptions C85_two_interests_refuted.

(** ... and the engine takes such a packet out of a link-layer packet and calls the handler of the other name. *)
Theorem C85_engine_refuted : forall sha, (forall b, length (sha b) = 32%nat) -> exists F b n a sc i raw cov, name_typed n /\ interest_sig_ok sc
  /\ on_packet sha F (new_buffer_reader b) = Ok (EvInterest i raw cov None None) /\ concat cov = name_enc n ++ signed_params (Some a) (Some sc)
  /\ i_sig_value i = [1; 2; 3]%N /\ exists d, i_name i = Some [mkComp 8 [98]%N; d] /\ forall d', i_name i <> Some (n ++ [d']).
Proof.
  intros sha S. destruct (forged_int (sha gi_params) (S _)) as (vs & cx & i & P & V0 & V1 & V2 & I2 & I11 & C1 & C0 & T1 & T2 & T3).
  destruct (forged_lp (sha gi_params) (S _)) as (vl & cl & l & PL & L0 & L1 & L2 & L13 & A1 & A2 & A3 & A4 & A5).
  exists 300%nat, (tlv 100 (tlv 80 (gi_forged sha))), gi_name, gi_app, gi_sig, i, [gi_forged sha], (x_cov (nth 0 (x_sub (nth 0 cx XNone)) XNone)).
  split; [apply C85_ok|]. split; [apply C85_ok|]. split; [|split; [exact C0|split; [exact T3|]]].
  - assert (R1 : read_packet sha 300 (new_buffer_reader (gi_forged sha)) = Ok (vs, cx)).
    { unfold read_packet, gi_forged. rewrite P. cbn [bind]. rewrite V0, V1. rewrite (check_app sha i _ [mkComp 8 [98]%N] [concat gi_app] _ I2 I11 C1). reflexivity. }
    assert (R2 : read_packet sha 300 (new_buffer_reader (tlv 100 (tlv 80 (gi_forged sha)))) = Ok (vl, cl)).
    { unfold read_packet, gi_forged. rewrite PL. cbn [bind]. rewrite L0, L1, L2, L13. reflexivity. }
    unfold on_packet. rewrite R2, L2, A1, A2, A3, A4, A5, L13. cbn [g_nat g_fld g_bytes inner_reader]. fold (gi_forged sha). rewrite R1. unfold dispatch. rewrite V0, V1. reflexivity.
  - eexists. unfold i_name. rewrite I2. split; [reflexivity|]. intros d'. discriminate.
Qed.
Print Assumptions C85_engine_refuted.
