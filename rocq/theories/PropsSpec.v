(** MakeData, ReadData, MakeInterest, ReadInterest and ReadPacket. *)
From Verif Require Import Base PrimModel ReaderModel NameModel NameProofs CodecModel CodecSpec CodecSpec2 CodecLib SpecModel SpecSpec SpecData SpecInt SpecMore.

(** C19, signed Data.  Whatever the name (components of at most 252 bytes, see C05), the
    configuration and the content, in one or more buffers, and whatever signer that signs in at
    most the estimated number of bytes: MakeData succeeds, its wire is the Data packet of the NDN
    format with exactly the given fields, the signer is called on its signed portion, and ReadData
    of those bytes gives the fields and the signature back, and the same signed portion (C20).
    Missing: estimates of 253 and more with a length that does not fit ([fits]), where it is
    false, long components, and packets of more than 4 TiB. *)
Theorem C19_signed_partial : forall n c content s sc sig F, name_typed n -> data_config_ok c -> data_sig_ok sc ->
  sg_info s = Ok (Some sc) -> (forall cov, concat cov = data_part n c content (Some sc) -> sg_sign s cov = Ok sig) ->
  fits (sg_est s) (nlen sig) -> (data_size n c content + sig_size sc + sg_est s < packet_limit)%N ->
  (length (data_packet n c content (Some sc) (Some sig)) < F)%nat ->
  exists w cov d cov', make_data (Some n) (Some c) content (Some s) = Ok (w, Some cov)
    /\ concat w = data_packet n c content (Some sc) (Some sig)
    /\ read_data F (new_buffer_reader (concat w)) = Ok (d, cov')
    /\ data_reads n c content (Some sc) (Some sig) d
    /\ concat cov = data_part n c content (Some sc) /\ concat cov' = concat cov.
Proof. exact data_round_trip. Qed.
Print Assumptions C19_signed_partial.

(** ... without a signature: no signer, a signer without configuration, with SignatureNone, or
    with an estimate of 0. *)
Theorem C19_unsigned_partial : forall n c content sg osc F, name_typed n -> data_config_ok c -> unsigned sg osc ->
  (data_size n c content + olen sig_size osc < packet_limit)%N -> (length (data_packet n c content osc None) < F)%nat ->
  exists w d cov', make_data (Some n) (Some c) content sg = Ok (w, None)
    /\ concat w = data_packet n c content osc None
    /\ read_data F (new_buffer_reader (concat w)) = Ok (d, cov') /\ data_reads n c content osc None d /\ concat cov' = [].
Proof. exact data_round_trip_unsigned. Qed.
Print Assumptions C19_unsigned_partial.

(** ... a signer that fails, or returns more bytes than it announced, makes MakeData fail:
    no packet with a broken signature leaves it. *)
Theorem C19_errors : forall n c content s sc, data_config_ok c -> data_sig_ok sc -> sg_info s = Ok (Some sc) -> (0 < sg_est s)%N ->
  (data_size n c content + sig_size sc + sg_est s < packet_limit)%N ->
  exists cov, concat cov = data_part n c content (Some sc)
    /\ (forall e, sg_sign s cov = Err e -> make_data (Some n) (Some c) content (Some s) = Err e)
    /\ (forall sig, sg_sign s cov = Ok sig -> (sg_est s < nlen sig)%N -> make_data (Some n) (Some c) content (Some s) = Err EOther).
Proof. intros. destruct (make_data_signed n c content s sc) as (cov & X1 & X2 & X3 & _); eauto. Qed.
Print Assumptions C19_errors.

(** What ReadData does with every packet of the Data format, by whomever it was made: the fields
    of the packet, and the bytes from the name to the signature info as the signed portion. *)
Theorem C19_read : forall n c content osc osig F, name_typed n -> data_config_ok c -> all_of data_sig_ok osc -> all_of (fun s => (0 < nlen s)%N) osig ->
  (data_size n c content + olen sig_size osc + olen (@nlen N) osig < packet_limit)%N -> (length (data_packet n c content osc osig) < F)%nat ->
  exists d cov, read_data F (new_buffer_reader (data_packet n c content osc osig)) = Ok (d, cov)
    /\ data_reads n c content osc osig d /\ concat cov = match osig with Some _ => data_part n c content osc | None => [] end.
Proof. exact read_data_ok. Qed.
Print Assumptions C19_read.

(** The same from a WireReader, in whatever buffers the packet is: if none of them is empty, the
    names have no empty component and the first buffer goes beyond the type and the length of the
    packet. *)
Theorem C19_read_wire : forall n c content osc osig F w, name_typed n -> data_config_ok c -> all_of data_sig_ok osc -> all_of (fun s => (0 < nlen s)%N) osig ->
  (data_size n c content + olen sig_size osc + olen (@nlen N) osig < packet_limit)%N -> (length (data_packet n c content osc osig) < F)%nat ->
  full_names n osc -> full_wire w -> concat w = data_packet n c content osc osig -> beyond_header w (data_part n c content osc ++ opt_tlv 23 osig) ->
  exists d cov, read_data F (new_wire_reader w) = Ok (d, cov)
    /\ data_reads n c content osc osig d /\ concat cov = match osig with Some _ => data_part n c content osc | None => [] end.
Proof. exact read_data_wire. Qed.
Print Assumptions C19_read_wire.
(** MakeData's own wire is such a one, unless the content has empty buffers: it can be read as it is. *)
Theorem C19_signed_wire_partial : forall n c content s sc sig F, name_typed n -> data_config_ok c -> data_sig_ok sc ->
  sg_info s = Ok (Some sc) -> (forall cov, concat cov = data_part n c content (Some sc) -> sg_sign s cov = Ok sig) ->
  fits (sg_est s) (nlen sig) -> (data_size n c content + sig_size sc + sg_est s < packet_limit)%N ->
  (length (data_packet n c content (Some sc) (Some sig)) < F)%nat -> full_names n (Some sc) -> full_content content ->
  exists w cov d cov', make_data (Some n) (Some c) content (Some s) = Ok (w, Some cov)
    /\ concat w = data_packet n c content (Some sc) (Some sig)
    /\ read_data F (new_wire_reader w) = Ok (d, cov')
    /\ data_reads n c content (Some sc) (Some sig) d
    /\ concat cov = data_part n c content (Some sc) /\ concat cov' = concat cov.
Proof. exact data_round_trip_wire. Qed.
Print Assumptions C19_signed_wire_partial.
Theorem C19_unsigned_wire_partial : forall n c content sg osc F, name_typed n -> data_config_ok c -> unsigned sg osc ->
  (data_size n c content + olen sig_size osc < packet_limit)%N -> (length (data_packet n c content osc None) < F)%nat -> full_names n osc -> full_content content ->
  exists w d cov', make_data (Some n) (Some c) content sg = Ok (w, None)
    /\ concat w = data_packet n c content osc None
    /\ read_data F (new_wire_reader w) = Ok (d, cov') /\ data_reads n c content osc None d /\ concat cov' = [].
Proof. exact data_round_trip_unsigned_wire. Qed.
Print Assumptions C19_unsigned_wire_partial.

(** With empty buffers this is false: here the reader crashes on the wire that MakeData made. *)
Theorem C19_wire_refuted : exists n c content s w cov, name_typed n /\ data_config_ok c /\ full_name n
  /\ make_data (Some n) (Some c) content (Some s) = Ok (w, Some cov)
  /\ (exists d cov', read_data 100 (new_buffer_reader (concat w)) = Ok (d, cov')) /\ read_data 100 (new_wire_reader w) = Panic.
Proof.
  exists [mkComp 8 [65%N]], (mkDC None None None), (Some [[1]; []; []]%N), (mkSigner (Ok (Some (mkSC 3 None None None None None None))) 70 (fun _ => Ok [5; 5; 5]%N)).
  eexists _, _. split; [split; repeat constructor; discriminate|]. split; [repeat split|]. split; [repeat constructor; discriminate|].
  split; [vm_compute; reflexivity|]. split; [eexists _, _; vm_compute; reflexivity|vm_compute; reflexivity].
Qed.
Print Assumptions C19_wire_refuted.

(** Other fragmentations are read with a wrong signed portion, although all fields are right: here
    the header is alone in the first buffer, and the byte in the third one is not covered. *)
Theorem C20_fragments_refuted : exists n c content sc sig w d cov,
  name_typed n /\ data_config_ok c /\ data_sig_ok sc /\ full_names n (Some sc) /\ full_wire w
  /\ concat w = data_packet n c content (Some sc) (Some sig)
  /\ read_data 100 (new_wire_reader w) = Ok (d, cov) /\ data_reads n c content (Some sc) (Some sig) d
  /\ nlen (concat cov) = (nlen (data_part n c content (Some sc)) - 1)%N.
Proof.
  exists [mkComp 8 [65%N]], (mkDC None None None), (Some [[1; 2]%N]), (mkSC 3 None None None None None None), [7; 7]%N.
  exists [[6; 20]; [7]; [3]; [8; 1; 65; 20; 0; 21; 2; 1; 2; 22; 3; 27; 1; 3; 23; 2; 7; 7]]%N. eexists _, _.
  split; [split; repeat constructor; discriminate|]. split; [repeat split|]. split; [repeat split; auto; discriminate|].
  split; [split; [repeat constructor; discriminate|exact I]|]. split; [repeat constructor; discriminate|].
  split; [vm_compute; reflexivity|]. split; [vm_compute; reflexivity|]. split; [repeat split|vm_compute; reflexivity].
Qed.
Print Assumptions C20_fragments_refuted.

(** a Data packet with everything, an estimate of 70 bytes and a signature of 64; one with an
    estimate of 300 and a signature of 256 *)
Definition ex_name : name := [mkComp 8 [104; 105]%N; mkComp 54 [7]%N].
Definition ex_config : data_config := mkDC (Some 0%N) (Some 10000000000%Z) (Some (mkComp 50 [9%N])).
Definition ex_sig : sig_config := mkSC 3 (Some [mkComp 8 [75; 69; 89]%N]) None None None (Some [49]%N) (Some [50]%N).
Example C19_signed_ok : forall len est, (len = 64 /\ est = 70 \/ len = 256 /\ est = 300)%N ->
  name_typed ex_name /\ data_config_ok ex_config /\ data_sig_ok ex_sig
  /\ fits est (nlen (repeat 1%N (N.to_nat len)))
  /\ (data_size ex_name ex_config (Some [[1; 2]; []; [3]]%N) + sig_size ex_sig + est < packet_limit)%N
  /\ forall w, concat w = data_part ex_name ex_config (Some [[1; 2]; []; [3]]%N) (Some ex_sig) -> sg_sign (mkSigner (Ok (Some ex_sig)) est (fun _ => Ok (repeat 1%N (N.to_nat len)))) w = Ok (repeat 1%N (N.to_nat len)).
Proof.
  intros len est H. split; [|split; [|split; [|split; [|split]]]].
  - split; repeat constructor; discriminate.
  - split; [reflexivity|]. split; [split; [discriminate|reflexivity]|]. split; [split; [reflexivity|repeat constructor]|discriminate].
  - split; [split; [discriminate|reflexivity]|]. split; [split; repeat constructor; discriminate|]. repeat split; intros; discriminate.
  - unfold nlen. rewrite repeat_length, N2Nat.id. destruct H as [[-> ->]|[-> ->]].
    + split; [lia|left; lia].
    + split; [lia|right; split; [lia|split; [lia|reflexivity]]].
  - destruct H as [[-> ->]|[-> ->]]; reflexivity.
  - reflexivity.
Qed.

(** the wire of such a packet, in five buffers, and the premises of the theorems on wires *)
Example C19_wire_ok : exists w cov d cov', make_data (Some ex_name) (Some ex_config) (Some [[1; 2]; [3]]%N) (Some (mkSigner (Ok (Some ex_sig)) 70 (fun _ => Ok (repeat 1%N 64)))) = Ok (w, Some cov)
  /\ full_names ex_name (Some ex_sig) /\ full_content (Some [[1; 2]; [3]]%N) /\ length w = 5%nat
  /\ beyond_header w (data_part ex_name ex_config (Some [[1; 2]; [3]]%N) (Some ex_sig) ++ opt_tlv 23 (Some (repeat 1%N 64)))
  /\ read_data 200 (new_wire_reader w) = Ok (d, cov') /\ concat cov' = concat cov.
Proof.
  eexists _, _, _, _. split; [vm_compute; reflexivity|]. split; [split; repeat constructor; discriminate|]. split; [repeat constructor; discriminate|].
  split; [reflexivity|]. split; [vm_compute; reflexivity|]. split; [vm_compute; reflexivity|vm_compute; reflexivity].
Qed.

(** C19 is false of all estimates: a signer that announces 300 bytes and signs with 64 (as for
    instance a DER-encoded signature may be shorter than the estimate) makes MakeData return a
    wire whose signature length says 64 + 256: ReadData of it fails. *)
Theorem C19_refuted : exists n c content s sc sig w cov, name_typed n /\ data_config_ok c /\ data_sig_ok sc
  /\ sg_info s = Ok (Some sc) /\ (forall x, sg_sign s x = Ok sig) /\ (0 < nlen sig <= sg_est s)%N
  /\ make_data (Some n) (Some c) content (Some s) = Ok (w, cov)
  /\ concat w <> data_packet n c content (Some sc) (Some sig)
  /\ forall F, (length (concat w) < F)%nat -> exists e, read_data F (new_buffer_reader (concat w)) = Err e.
Proof. exact data_refuted. Qed.
Print Assumptions C19_refuted.

(** C20 for Interests and C21, with a signature: the same for every name, configuration,
    application parameters and signer (of at most 252 bytes of signature; MakeInterest refuses
    larger estimates).  The final name is the given name, without a digest component it may have
    had, plus the SHA-256 of everything from ApplicationParameters on. *)
Theorem C21_signed_partial : forall sha n c a s sc sig F, (forall b, length (sha b) = 32%nat /\ bytes_ok (sha b)) ->
  name_typed n -> interest_config_ok c -> interest_sig_ok sc ->
  sg_info s = Ok (Some sc) -> (forall cov, concat cov = name_enc (base_name n) ++ signed_params (Some a) (Some sc) -> sg_sign s cov = Ok sig) ->
  (0 < nlen sig <= sg_est s)%N -> (sg_est s < 253)%N -> (interest_size n c (Some a) + sig_size sc + 1000 < packet_limit)%N ->
  let fn := final_interest sha n a (Some sc) (Some sig) in
  (length (interest_packet fn c (Some a) (Some sc) (Some sig)) < F)%nat ->
  exists w cov i cov', make_interest sha (Some n) (Some c) (Some a) (Some s) = Ok (w, Some cov, fn)
    /\ concat w = interest_packet fn c (Some a) (Some sc) (Some sig)
    /\ read_interest sha F (new_buffer_reader (concat w)) = Ok (i, cov')
    /\ interest_reads fn c (Some a) (Some sc) (Some sig) i
    /\ concat cov = name_enc (base_name n) ++ signed_params (Some a) (Some sc) /\ concat cov' = concat cov.
Proof. exact interest_round_trip. Qed.
Print Assumptions C21_signed_partial.

(** ... with parameters and without signature, *)
Theorem C21_params_partial : forall sha n c a sg osc F, (forall b, length (sha b) = 32%nat /\ bytes_ok (sha b)) ->
  name_typed n -> interest_config_ok c -> int_unsigned true sg osc -> (interest_size n c (Some a) + olen sig_size osc + 1000 < packet_limit)%N ->
  let fn := final_interest sha n a osc None in
  (length (interest_packet fn c (Some a) osc None) < F)%nat ->
  exists w i cov', make_interest sha (Some n) (Some c) (Some a) sg = Ok (w, None, fn)
    /\ concat w = interest_packet fn c (Some a) osc None
    /\ read_interest sha F (new_buffer_reader (concat w)) = Ok (i, cov') /\ interest_reads fn c (Some a) osc None i.
Proof. exact interest_round_trip_params. Qed.
Print Assumptions C21_params_partial.

(** ... and without parameters.  Without parameters MakeInterest drops a digest component at the
    end of the given name ([base_name]): the Interest is for another name than asked for. *)
Theorem C21_plain_partial : forall sha n c sg F, name_typed n -> interest_config_ok c -> int_unsigned false sg None ->
  (interest_size n c None + 1000 < packet_limit)%N -> (length (interest_packet (base_name n) c None None None) < F)%nat ->
  exists w i cov', make_interest sha (Some n) (Some c) None sg = Ok (w, None, base_name n)
    /\ concat w = interest_packet (base_name n) c None None None
    /\ read_interest sha F (new_buffer_reader (concat w)) = Ok (i, cov') /\ interest_reads (base_name n) c None None None i.
Proof. exact interest_round_trip_plain. Qed.
Print Assumptions C21_plain_partial.

(** For a name that does not end with a digest component, that is the given name. *)
Theorem C21_base : forall n, (forall m c, n = m ++ [c] -> ctyp c <> TypeParametersSha256Digest) -> base_name n = n.
Proof. exact base_same. Qed.
Print Assumptions C21_base.

(** MakeInterest refuses a signature without parameters, with a validity period, without a key
    locator, and estimates of 253 bytes and more. *)
Theorem C21_refuses : forall sha n c app s sc, sg_info s = Ok (Some sc) -> sc_type sc <> SigNone ->
  app = None \/ sc_not_before sc <> None \/ sc_not_after sc <> None \/ (sc_type sc <> SigSha256 /\ sc_key sc = None) \/ (253 <= sg_est s < 2 ^ 63)%N ->
  make_interest sha (Some n) (Some c) app (Some s) = Err EOther.
Proof.
  intros sha n c app s sc I NN H. unfold make_interest, sig_part. rewrite I. cbn [bind]. apply Z.eqb_neq in NN. rewrite NN.
  assert (Q : (exists v, interest_sig_info (match app with Some _ => true | None => false end) sc = Ok v) \/ interest_sig_info (match app with Some _ => true | None => false end) sc = Err EOther).
  { unfold interest_sig_info. destruct app; cbn [negb]; [|auto]. destruct (sc_not_before sc), (sc_not_after sc); auto. destruct (sc_type sc =? SigSha256)%Z; [cbn [bind]; eauto|]. destruct (sc_key sc); cbn [bind]; eauto. }
  destruct Q as [[v Q]|Q]; rewrite Q; cbn [bind]; [|reflexivity].
  assert (X : (253 <= sg_est s < 2 ^ 63)%N).
  { destruct H as [->|[H|[H|[[H1 H2]|H]]]]; [discriminate Q| | | |auto]; exfalso; unfold interest_sig_info in Q; destruct app; cbn [negb] in Q; try discriminate Q;
      destruct (sc_not_before sc), (sc_not_after sc); try discriminate Q; try congruence. apply Z.eqb_neq in H1. rewrite H1, H2 in Q. discriminate Q. }
  unfold to_int. replace (sg_est s <? two63)%N with true by (symmetry; apply N.ltb_lt; change two63 with (2 ^ 63)%N; lia). replace (253 <=? Z.of_N (sg_est s))%Z with true by (symmetry; apply Z.leb_le; lia). reflexivity.
Qed.
Print Assumptions C21_refuses.

(** ... and otherwise it is not: "the final name is the given name" is false. *)
Theorem C21_refuted : exists sha n c w fn, (forall b, length (sha b) = 32%nat /\ bytes_ok (sha b)) /\ name_typed n /\ interest_config_ok c
  /\ make_interest sha (Some n) (Some c) None None = Ok (w, None, fn) /\ fn <> n.
Proof.
  exists (fun _ => repeat 1%N 32), [mkComp 8 [65%N]; mkComp 2 (repeat 2%N 32)], (mkIC false false None None None None).
  eexists _, _. split; [intros b; split; [reflexivity|repeat constructor]|]. split; [split; repeat constructor; discriminate|].
  split; [repeat split|]. split; [vm_compute; reflexivity|]. discriminate.
Qed.
Print Assumptions C21_refuted.

(** a signer that fails or signs with more bytes than announced *)
Theorem C21_errors : forall sha n c a s sc, (forall b, length (sha b) = 32%nat /\ bytes_ok (sha b)) -> interest_config_ok c -> interest_sig_ok sc ->
  sg_info s = Ok (Some sc) -> (0 < sg_est s < 253)%N -> (interest_size n c (Some a) + sig_size sc < packet_limit)%N ->
  exists cov, concat cov = name_enc (base_name n) ++ signed_params (Some a) (Some sc)
    /\ (forall e, sg_sign s cov = Err e -> make_interest sha (Some n) (Some c) (Some a) (Some s) = Err e)
    /\ (forall sig, sg_sign s cov = Ok sig -> (sg_est s < nlen sig)%N -> make_interest sha (Some n) (Some c) (Some a) (Some s) = Err EOther).
Proof. intros sha n c a s sc H. intros. destruct (make_interest_signed sha H n c a s sc) as (cov & X1 & X2 & X3 & _); eauto. Qed.
Print Assumptions C21_errors.

(** C20: whatever packet in the Interest format is read, the signed portion handed to the
    validator is the name before its first digest component, and everything from
    ApplicationParameters up to the signature value. *)
Theorem C20_read : forall sha fn c ap osc osig F, name_typed fn -> interest_config_ok c -> all_of interest_sig_ok osc -> all_of (fun s => (0 < nlen s)%N) osig ->
  (interest_size fn c ap + olen sig_size osc + olen (@nlen N) osig < packet_limit)%N -> (length (interest_packet fn c ap osc osig) < F)%nat ->
  forall i cov, read_interest sha F (new_buffer_reader (interest_packet fn c ap osc osig)) = Ok (i, cov) ->
  concat cov = name_enc (before_digest fn) ++ (match osig with Some _ => signed_params ap osc | None => [] end)
  /\ interest_reads fn c ap osc osig i.
Proof. exact interest_read_covered. Qed.
Print Assumptions C20_read.

(** C20: what was signed is what the reader reports as signed, for Data and for Interests.
    The restrictions are those of C19 and C21. *)
Theorem C20_data_partial : forall n c content s sc sig F, name_typed n -> data_config_ok c -> data_sig_ok sc ->
  sg_info s = Ok (Some sc) -> (forall cov, concat cov = data_part n c content (Some sc) -> sg_sign s cov = Ok sig) ->
  fits (sg_est s) (nlen sig) -> (data_size n c content + sig_size sc + sg_est s < packet_limit)%N ->
  forall w cov, make_data (Some n) (Some c) content (Some s) = Ok (w, cov) -> (length (concat w) < F)%nat ->
  exists signed d cov', cov = Some signed /\ sg_sign s signed = Ok sig
    /\ read_data F (new_buffer_reader (concat w)) = Ok (d, cov') /\ concat cov' = concat signed /\ d_sig_value d = Some sig.
Proof. exact data_same_covered. Qed.
Print Assumptions C20_data_partial.
Theorem C20_interest_partial : forall sha n c a s sc sig F, (forall b, length (sha b) = 32%nat /\ bytes_ok (sha b)) ->
  name_typed n -> interest_config_ok c -> interest_sig_ok sc ->
  sg_info s = Ok (Some sc) -> (forall cov, concat cov = name_enc (base_name n) ++ signed_params (Some a) (Some sc) -> sg_sign s cov = Ok sig) ->
  (0 < nlen sig <= sg_est s)%N -> (sg_est s < 253)%N -> (interest_size n c (Some a) + sig_size sc + 1000 < packet_limit)%N ->
  forall w cov fn, make_interest sha (Some n) (Some c) (Some a) (Some s) = Ok (w, cov, fn) -> (length (concat w) < F)%nat ->
  exists signed i cov', cov = Some signed /\ sg_sign s signed = Ok sig
    /\ read_interest sha F (new_buffer_reader (concat w)) = Ok (i, cov') /\ concat cov' = concat signed /\ i_sig_value i = sig.
Proof. exact interest_same_covered. Qed.
Print Assumptions C20_interest_partial.

(** C47: the format ([data_packet], [interest_packet] of SpecSpec) is spelled out above in
    C19_signed_partial, C21_signed_partial and their variants; a name in it is the sequence of
    its components, each a TLV block.  *)
Theorem C47_data_partial : forall n c content s sc sig, Forall comp_short n -> data_config_ok c -> data_sig_ok sc ->
  sg_info s = Ok (Some sc) -> (forall cov, concat cov = data_part n c content (Some sc) -> sg_sign s cov = Ok sig) ->
  fits (sg_est s) (nlen sig) -> (data_size n c content + sig_size sc + sg_est s < packet_limit)%N ->
  exists w cov, make_data (Some n) (Some c) content (Some s) = Ok (w, cov)
    /\ concat w = data_packet n c content (Some sc) (Some sig) /\ name_enc n = concat (map (fun c => tlv (ctyp c) (cval c)) n).
Proof. exact data_format. Qed.
Print Assumptions C47_data_partial.
Theorem C47_interest_partial : forall sha n c a s sc sig, (forall b, length (sha b) = 32%nat /\ bytes_ok (sha b)) ->
  Forall comp_short n -> interest_config_ok c -> interest_sig_ok sc ->
  sg_info s = Ok (Some sc) -> (forall cov, concat cov = name_enc (base_name n) ++ signed_params (Some a) (Some sc) -> sg_sign s cov = Ok sig) ->
  (0 < nlen sig <= sg_est s)%N -> (sg_est s < 253)%N -> (interest_size n c (Some a) + sig_size sc < packet_limit)%N ->
  exists w cov fn, make_interest sha (Some n) (Some c) (Some a) (Some s) = Ok (w, cov, fn)
    /\ concat w = interest_packet fn c (Some a) (Some sc) (Some sig) /\ name_enc fn = concat (map (fun c => tlv (ctyp c) (cval c)) fn).
Proof. exact interest_format. Qed.
Print Assumptions C47_interest_partial.

(** It is false of names with a component of 253 bytes, whose length is written as the one byte 253. *)
Theorem C47_refuted : exists n c w, make_data (Some n) (Some c) None None = Ok (w, None)
  /\ name_enc n <> concat (map (fun c => tlv (ctyp c) (cval c)) n)
  /\ concat w = data_packet n c None None None.
Proof.
  exists [mkComp 8 (repeat 1%N 253)], (mkDC None None None). eexists. split; [vm_compute; reflexivity|].
  split; [intros E; apply (f_equal (@length N)) in E; vm_compute in E; discriminate E|vm_compute; reflexivity].
Qed.
Print Assumptions C47_refuted.

Definition ex_interest : interest_config := mkIC true true (Some [ex_name; []]) (Some 77%N) (Some 4000000000%Z) (Some 5%N).
Definition ex_isig : sig_config := mkSC 4 (Some ex_name) (Some [1; 2]%N) (Some 1700000000000%Z) (Some 8%N) None None.
Example C21_ok : (forall b : buf, length (repeat 9%N 32) = 32%nat /\ bytes_ok (repeat 9%N 32)) /\ name_typed ex_name /\ interest_config_ok ex_interest /\ interest_sig_ok ex_isig
  /\ (interest_size ex_name ex_interest (Some [[1; 2]; []; [3]]%N) + sig_size ex_isig + 1000 < packet_limit)%N
  /\ int_unsigned true None None /\ int_unsigned true (Some (mkSigner (Ok (Some ex_isig)) 0 (fun _ => Err EOther))) (Some ex_isig).
Proof.
  split; [intros; split; [reflexivity|repeat constructor]|]. split; [split; repeat constructor; discriminate|].
  split; [split; [repeat constructor; discriminate|repeat split; discriminate]|].
  assert (SO : interest_sig_ok ex_isig).
  { split; [split; [discriminate|reflexivity]|]. split; [split; repeat constructor; discriminate|]. repeat split; discriminate. }
  split; [exact SO|]. split; [reflexivity|]. split; [reflexivity|]. right. right. exists ex_isig. repeat split; auto; apply SO.
Qed.

(** C22 for every packet in the Interest format, whatever its fields and its name: with parameters
    it is accepted exactly if the name ends with the digest component of everything from
    ApplicationParameters on; without parameters it is accepted, unless it has a signature value.
    Missing: byte strings in which elements are unknown, repeated or out of order; there it is
    false (below). *)
Theorem C22_partial : forall sha fn c ap osc osig F, name_typed fn -> interest_config_ok c -> all_of interest_sig_ok osc -> all_of (fun s => (0 < nlen s)%N) osig ->
  (interest_size fn c ap + olen sig_size osc + olen (@nlen N) osig < packet_limit)%N -> (length (interest_packet fn c ap osc osig) < F)%nat ->
  ((exists x, read_interest sha F (new_buffer_reader (interest_packet fn c ap osc osig)) = Ok x)
     <-> match ap with
         | Some _ => exists pre, fn = pre ++ [digest_comp (sha (params_part ap osc osig))]
         | None => osig = None
         end)
  /\ ((exists x, read_packet sha F (new_buffer_reader (interest_packet fn c ap osc osig)) = Ok x)
     <-> exists x, read_interest sha F (new_buffer_reader (interest_packet fn c ap osc osig)) = Ok x).
Proof. exact interest_accepted. Qed.
Print Assumptions C22_partial.

(** So, of two packets with the same name, one accepted: the other, with other parameters,
    another signature info or another signature, is rejected unless SHA-256 collides. *)
Theorem C22_change_partial : forall sha fn c ap osc osig c' a' osc' osig' F, name_typed fn ->
  interest_config_ok c -> all_of interest_sig_ok osc -> all_of (fun s => (0 < nlen s)%N) osig ->
  interest_config_ok c' -> all_of interest_sig_ok osc' -> all_of (fun s => (0 < nlen s)%N) osig' ->
  (interest_size fn c (Some ap) + olen sig_size osc + olen (@nlen N) osig < packet_limit)%N -> (length (interest_packet fn c (Some ap) osc osig) < F)%nat ->
  (interest_size fn c' (Some a') + olen sig_size osc' + olen (@nlen N) osig' < packet_limit)%N -> (length (interest_packet fn c' (Some a') osc' osig') < F)%nat ->
  sha (params_part (Some ap) osc osig) <> sha (params_part (Some a') osc' osig') ->
  forall x y, read_interest sha F (new_buffer_reader (interest_packet fn c (Some ap) osc osig)) = Ok x ->
              read_interest sha F (new_buffer_reader (interest_packet fn c' (Some a') osc' osig')) = Ok y -> False.
Proof. exact interest_changed. Qed.
Print Assumptions C22_change_partial.

(** C22 is false of all byte strings.  With eight unknown non-critical elements between the name
    and the parameters, the digest is taken of no bytes at all: an Interest whose name ends with
    the SHA-256 of the empty string is accepted with any parameters (here of one byte). *)
Theorem C22_refuted : forall sha, (forall b, length (sha b) = 32%nat /\ bytes_ok (sha b)) -> forall x, (x < 256)%N ->
  let b := tlv 5 (tlv 7 (name_enc [mkComp 8 [65%N]; digest_comp (sha [])]) ++ concat (repeat (tlv 200 []) 8) ++ tlv 36 [x]) in
  forall F, (200 < F)%nat -> exists i cov, read_interest sha F (new_buffer_reader b) = Ok (i, cov)
    /\ option_map (@concat N) (i_app_param i) = Some [x].
Proof. exact interest_digest_bypass. Qed.
Print Assumptions C22_refuted.

(** ... and bytes after the end of the digest: an out-of-order element (here a flag) closes the covered range,
    what follows is ignored: the last two bytes can be changed and both Interests are accepted
    with the same name. *)
Theorem C22_tail_refuted : forall sha, (forall b, length (sha b) = 32%nat /\ bytes_ok (sha b)) -> forall x, (x = 200 \/ x = 202)%N ->
  let b := tlv 5 (tlv 7 (name_enc [mkComp 8 [65%N]; digest_comp (sha (tlv 36 [1%N]))]) ++ tlv 36 [1%N] ++ tlv 33 [] ++ tlv x []) in
  forall F, (200 < F)%nat -> exists i cov, read_interest sha F (new_buffer_reader b) = Ok (i, cov).
Proof. exact interest_digest_tail. Qed.
Print Assumptions C22_tail_refuted.

(** What does hold of every byte string and reader: an Interest with parameters is accepted by
    ReadInterest only with a last name component of the digest type. *)
Theorem C22_type : forall sha F r i cov, read_interest sha F r = Ok (i, cov) -> i_app_param i <> None ->
  exists n c, i_name i = Some (n ++ [c]) /\ ctyp c = TypeParametersSha256Digest /\ exists b, cval c = sha b.
Proof. exact interest_type. Qed.
Print Assumptions C22_type.
