(** Management commands. *)
From Coq Require Import String Ascii.
From Verif Require Import Base PrimModel ReaderModel ReaderSpec NameModel NameProofs CodecModel CodecSpec CodecSpec2 CodecLib CodecPar CodecSpec4 CodecExact.
From Verif Require Import SpecModel SpecSpec EngineModel EngineSpec MgmtModel MgmtSpec MgmtProofs PropsSpec.

(** C16, for models without times and wires: what comes back is the value, exactly. *)
Theorem C16_exact : forall p m vs, wf_model m = true -> parsable m = true -> m_plain m = true ->
  fs_shape (m_fields m) vs -> fs_typed (m_fields m) vs -> ep_est p = 0%N ->
  (m_nocopy m = true -> fs_len p (m_fields m) vs <> 0%N) -> (Z.of_N (fs_len p (m_fields m) vs) < size_limit)%Z ->
  exists w ys, m_encode p m vs = Ok (w, ys) /\ forall ic F, (length (concat w) < F)%nat ->
    exists cx, m_parse F m ic (new_buffer_reader (concat w)) = Ok (vs, cx).
Proof. exact exact_buffer. Qed.
Print Assumptions C16_exact.
(** ... and over any division into non-empty buffers *)
Theorem C16_exact_wire : forall p m vs, wf_model m = true -> parsable m = true -> m_plain m = true ->
  fs_shape (m_fields m) vs -> fs_typed (m_fields m) vs -> fs_wire_safe (m_fields m) vs -> ep_est p = 0%N ->
  (m_nocopy m = true -> fs_len p (m_fields m) vs <> 0%N) -> (Z.of_N (fs_len p (m_fields m) vs) < size_limit)%Z ->
  exists w ys, m_encode p m vs = Ok (w, ys) /\ forall w', concat w' = concat w -> nonempty_segs w' -> forall ic F, (length (concat w) < F)%nat ->
    exists cx, m_parse F m ic (new_wire_reader w') = Ok (vs, cx).
Proof. exact exact_wire. Qed.
Print Assumptions C16_exact_wire.
Example C16_exact_ok : m_plain mgmt_ControlParameters = true /\ m_plain mgmt_RibStatus = true /\ m_plain mgmt_ControlResponse = true /\ m_plain spec_Data = false.
Proof. repeat split. Qed.

(** C66.  For every module and command, every arguments and every signer: the command is an
    Interest that every reader accepts, for the name /localhost/nfd (or /localhop/nfd), module,
    command, parameters and the digest of the rest; the parameters are read back as exactly the
    arguments; the signature is over the name and the SignatureInfo; the nonce is that of the
    timer (of which the last four bytes are kept), the lifetime one second.
    Missing: module, command and parameters of more than 252 bytes, where it is false (below), and
    signers that announce more than 252 bytes, which are refused. *)
Theorem C66_command_partial : forall sha local module cmd args b nonce s sc sig, (forall b, length (sha b) = 32%nat /\ bytes_ok (sha b)) ->
  args_ok args -> cmd_params args = Ok b -> bytes_ok module -> bytes_ok cmd -> bytes_ok b -> (nlen module <= 252)%N -> (nlen cmd <= 252)%N -> (nlen b <= 252)%N ->
  interest_sig_ok sc -> sg_info s = Ok (Some sc) -> (0 < nlen sig <= sg_est s)%N -> (sg_est s < 253)%N -> (sig_size sc + 10000 < packet_limit)%N ->
  (forall cov, concat cov = name_enc (cmd_name local module cmd b) ++ signed_params (Some []) (Some sc) -> sg_sign s cov = Ok sig) ->
  let c := mkIC false false None (Some (convert_nonce nonce mod 4294967296)%N) (Some 1000000000%Z) None in
  let fn := [mkComp 8 (if local then s_localhost else s_localhop); mkComp 8 s_nfd; mkComp 8 module; mkComp 8 cmd; mkComp 8 b;
             mkComp 2 (sha (params_part (Some []) (Some sc) (Some sig)))] in
  exists w cov, exec_interest sha local module cmd args nonce s = Ok (w, Some cov, fn)
    /\ concat w = interest_packet fn c (Some []) (Some sc) (Some sig)
    /\ concat cov = name_enc (cmd_name local module cmd b) ++ signed_params (Some []) (Some sc)
    /\ (forall F, (length (concat w) < F)%nat -> exists i cov', read_interest sha F (new_buffer_reader (concat w)) = Ok (i, cov')
         /\ interest_reads fn c (Some []) (Some sc) (Some sig) i /\ concat cov' = concat cov)
    /\ (forall ic F, (length b < F)%nat -> exists cx, m_parse F mgmt_ControlParameters ic (new_buffer_reader b) = Ok ([VStruct args], cx)).
Proof. exact command. Qed.
Print Assumptions C66_command_partial.

(** every well-formed arguments have parameters *)
Theorem C66_params : forall args, args_ok args -> exists b, cmd_params args = Ok b.
Proof. exact params_exists. Qed.
Print Assumptions C66_params.

(** RegisterRoute and UnregisterRoute: for a prefix of at most 248 bytes the hypotheses are met,
    and the parameters are ControlParameters (104) with a Name (7). *)
Theorem C66_route : forall prefix, name_typed prefix -> (nlen (name_enc prefix) <= 248)%N ->
  args_ok (route_args prefix) /\ exists b, cmd_params (route_args prefix) = Ok b /\ b = tlv 104 (tlv 7 (name_enc prefix)) /\ bytes_ok b /\ (nlen b <= 252)%N.
Proof.
  intros prefix T L. split; [apply route_ok; auto|]. exists (tlv 104 (tlv 7 (name_enc prefix))). split; [apply route_params|]. split; [auto|]. apply route_bytes; auto.
Qed.
Print Assumptions C66_route.

(** the bytes of a text *)
Definition ascii_bytes (s : String.string) : buf := map Ascii.N_of_ascii (String.list_ascii_of_string s).
(** ... and what is sent is the Interest for rib/register or rib/unregister with them, for one second *)
Theorem C66_route_sent : forall sha (local register : bool) prefix nonce s sc sig, (forall b, length (sha b) = 32%nat /\ bytes_ok (sha b)) ->
  name_typed prefix -> (nlen (name_enc prefix) <= 248)%N ->
  interest_sig_ok sc -> sg_info s = Ok (Some sc) -> (0 < nlen sig <= sg_est s)%N -> (sg_est s < 253)%N -> (sig_size sc + 10000 < packet_limit)%N ->
  (forall cov, sg_sign s cov = Ok sig) ->
  let c := mkIC false false None (Some (convert_nonce nonce mod 4294967296)%N) (Some 1000000000%Z) None in
  let fn := [mkComp 8 (ascii_bytes (if local then "localhost"%string else "localhop"%string)); mkComp 8 (ascii_bytes "nfd"%string); mkComp 8 (ascii_bytes "rib"%string);
             mkComp 8 (ascii_bytes (if register then "register"%string else "unregister"%string)); mkComp 8 (tlv 104 (tlv 7 (name_enc prefix)));
             mkComp 2 (sha (params_part (Some []) (Some sc) (Some sig)))] in
  exists w cov, route_interest sha local register prefix nonce s = Ok (w, Some cov, fn)
    /\ concat w = interest_packet fn c (Some []) (Some sc) (Some sig)
    /\ (forall F, (length (concat w) < F)%nat -> exists i cov', read_interest sha F (new_buffer_reader (concat w)) = Ok (i, cov')
         /\ interest_reads fn c (Some []) (Some sc) (Some sig) i /\ concat cov' = concat cov).
Proof.
  intros sha local register prefix nonce s sc sig SH T L IS SI L1 L2 L3 SG.
  destruct (C66_route prefix T L) as (A & b & P & E & B & LB). subst b.
  assert (W : bytes_ok (if register then s_register else s_unregister) /\ (nlen (if register then s_register else s_unregister) <= 252)%N)
    by (destruct register; split; try (repeat constructor; fail); vm_compute; discriminate).
  destruct (C66_command_partial sha local s_rib (if register then s_register else s_unregister) (route_args prefix) _ nonce s sc sig SH A P
    ltac:(repeat constructor) (proj1 W) B ltac:(vm_compute; discriminate) (proj2 W) LB IS SI L1 L2 L3 (fun cov _ => SG cov)) as (w & cov & E1 & E2 & _ & E4 & _).
  exists w, cov. destruct local, register; (split; [exact E1|]; split; [exact E2|exact E4]).
Qed.
Print Assumptions C66_route_sent.

(** an RSA signer (256 bytes) cannot sign commands *)
Theorem C66_large_signer : forall sha local module cmd args nonce s sc, args_ok args -> sg_info s = Ok (Some sc) -> sc_type sc <> SigNone -> (253 <= sg_est s < 2 ^ 63)%N ->
  exec_interest sha local module cmd args nonce s = Err EOther.
Proof.
  intros sha local module cmd args nonce s sc A I N E. unfold exec_interest, make_cmd. destruct (params_exists args A) as [b B]. rewrite B. cbn [bind].
  eapply C21_refuses; eauto 10.
Qed.
Print Assumptions C66_large_signer.

Definition cmd_sig : sig_config := mkSC 1 (Some [mkComp 8 [75%N]]) None None None None None.
Definition cmd_signer : signer := mkSigner (Ok (Some cmd_sig)) 64 (fun _ => Ok (repeat 7%N 64)).

(** RegisterRoute of a prefix of 250 bytes sends an Interest that cannot be read: the length of the
    name component with the parameters takes three bytes but is written in two. *)
Theorem C66_long_refuted : exists prefix w cov fn, name_typed prefix /\ args_ok (route_args prefix)
  /\ exec_interest (fun _ => repeat 9%N 32) true s_rib s_register (route_args prefix) [1; 2; 3; 4]%N cmd_signer = Ok (w, cov, fn)
  /\ forall F, exists e, read_interest (fun _ => repeat 9%N 32) (1000 + F) (new_buffer_reader (concat w)) = Err e.
Proof.
  exists [mkComp 8 (repeat 65%N 247)]. eexists _, _, _.
  assert (T : name_typed [mkComp 8 (repeat 65%N 247)]) by (split; (constructor; [|constructor]); [split; [reflexivity|unfold bytes_ok; apply Forall_forall; intros x H; apply repeat_spec in H; subst; reflexivity]|vm_compute; discriminate]).
  split; [exact T|]. split; [apply route_ok; exact T|]. split; [vm_compute; reflexivity|].
  intros F. eexists. vm_compute. reflexivity.
Qed.
Print Assumptions C66_long_refuted.

(** registration of /A with a nonce of eight bytes *)
Example C66_ok : let prefix := [mkComp 8 [65%N]] in
  args_ok (route_args prefix) /\ cmd_params (route_args prefix) = Ok [104; 5; 7; 3; 8; 1; 65]%N
  /\ interest_sig_ok cmd_sig /\ (sig_size cmd_sig + 10000 < packet_limit)%N
  /\ exists w cov fn i cov', exec_interest (fun _ => repeat 9%N 32) true s_rib s_register (route_args prefix) [1; 2; 3; 4; 5; 6; 7; 8]%N cmd_signer = Ok (w, cov, fn)
    /\ read_interest (fun _ => repeat 9%N 32) 300 (new_buffer_reader (concat w)) = Ok (i, cov')
    /\ i_name i = Some [mkComp 8 s_localhost; mkComp 8 s_nfd; mkComp 8 s_rib; mkComp 8 s_register; mkComp 8 [104; 5; 7; 3; 8; 1; 65]%N; mkComp 2 (repeat 9%N 32)]
    /\ i_nonce i = Some 84281096%N /\ i_lifetime i = Some 1000000000%Z.
Proof.
  cbv zeta. split; [apply route_ok; split; repeat constructor; discriminate|]. split; [vm_compute; reflexivity|].
  split; [unfold interest_sig_ok, cmd_sig; cbn; repeat split; auto; try lia; try discriminate; repeat constructor; discriminate|]. split; [reflexivity|].
  do 5 eexists. split; [vm_compute; reflexivity|]. split; [vm_compute; reflexivity|]. repeat split; vm_compute; reflexivity.
Qed.

(** C67.  A ControlResponse of any code, text and parameters, in a Data packet that the checker
    accepts, in any number of non-empty buffers: the command succeeds if the code is 200, and otherwise
    returns an error with the code and the text. *)
Theorem C67_response : forall code text params w ys, response_ok code params ->
  m_encode (mkEP 0 false) mgmt_ControlResponse (response code text params) = Ok (w, ys) -> (zlen (concat w) < size_limit)%Z ->
  forall w' F, concat w' = concat w -> nonempty_segs w' -> (length (concat w) < F)%nat ->
  exec_result F (AData true (Some w')) = Ok (if (code =? 200)%N then MDone else MFailed code text).
Proof. exact response_read. Qed.
Print Assumptions C67_response.

(** Success is never reported for a Nack, a timeout, a Data packet that the checker rejects, or one
    without content. *)
Theorem C67_no_success : forall F a, a = ATimeout \/ (exists r, a = ANack r) \/ (exists w, a = AData false w) \/ (a = AData true None /\ (0 < F)%nat) ->
  exists r, exec_result F a = Ok r /\ r <> MDone.
Proof.
  intros F a [->|[[r ->]|[[w ->]|[-> L]]]]; try (eexists; split; [reflexivity|discriminate]).
  destruct F as [|F]; [lia|]. exists MImproper. split; [vm_compute; reflexivity|discriminate].
Qed.
Print Assumptions C67_no_success.

(** Whatever the content of the Data (one buffer, without a nine-byte number of 2^40 or more), the
    callback makes a result of it.
    Missing: such numbers, and several buffers, where the parser can panic (C18). *)
Theorem C67_any_content_partial : forall F valid b, bytes_ok b -> no_huge_number b -> (zlen b < mem_limit)%Z -> (length b < F)%nat ->
  exists r, exec_result F (AData valid (Some [b])) = Ok r.
Proof. exact answer_safe. Qed.
Print Assumptions C67_any_content_partial.

(** In every history of the engine without a Nack for the name of the command, the channel is used
    at most once: it gets what the callback made of the one result of the Interest.
    Missing: such Nacks, and Interests that could not be sent, where it is false (below). *)
Theorem C67_channel_partial : forall os g i ans, ~ nacked os i -> e_run eng_new os = Ok g ->
  exists x, exec_calls (exec_start true) (results_for ans g i) = Ok x /\ (forall r, x_result x = Some r <-> results_for ans g i = [r]).
Proof. exact channel_safe. Qed.
Print Assumptions C67_channel_partial.

(** ... and the command returns, with a result, when its Interest's lifetime and the margin of 10 ms
    are over and its timer runs. *)
Theorem C67_returns_partial : forall os i x ans, ~ nacked os i -> nth_error (expressed 0 os) i = Some x -> (x_deadline x + 10000000 <= elapsed os)%Z ->
  exists g y r, e_run eng_new (os ++ [EFire i; ERun i]) = Ok g /\ exec_calls (exec_start true) (results_for ans g i) = Ok y /\ x_result y = Some r.
Proof. exact channel_returns. Qed.
Print Assumptions C67_returns_partial.

Definition cmd1 : name := [mkComp 8 s_localhost; mkComp 8 s_nfd; mkComp 8 s_rib; mkComp 8 s_register; mkComp 8 [104; 5; 7; 3; 8; 1; 65]%N; mkComp 2 (repeat 9%N 32)].

(** A Nack arrives when the timer of the command has fired and waits for the lock: the callback runs
    twice, the second time with a closed channel. *)
Theorem C67_nack_refuted : exists os g, e_run eng_new os = Ok g /\ length (expressed 0 os) = 1%nat
  /\ forall ans, exec_calls (exec_start true) (results_for ans g 0) = Panic.
Proof.
  exists [EExpress cmd1 false (Some 1000000000%Z); ETick 1010000000; EFire 0; ENack cmd1 150; ERun 0]. eexists. split; [vm_compute; reflexivity|].
  split; [vm_compute; reflexivity|]. intros ans. vm_compute. reflexivity.
Qed.
Print Assumptions C67_nack_refuted.

(** The face refuses the Interest: the command returns the error, but the Interest stays pending, and
    when it times out the callback waits for a receiver for ever, with the lock of the engine. *)
Theorem C67_unsent_refuted : exists os g, no_nack os /\ e_run eng_new os = Ok g /\ length (expressed 0 os) = 1%nat
  /\ forall ans, exec_calls (exec_start false) (results_for ans g 0) = Hang.
Proof.
  exists [EExpress cmd1 false (Some 1000000000%Z); ETick 1010000000; EFire 0; ERun 0]. eexists.
  split; [intros nm r H; cbn in H; repeat (destruct H as [H|H]; [discriminate|]); contradiction|]. split; [vm_compute; reflexivity|].
  split; [vm_compute; reflexivity|]. intros ans. vm_compute. reflexivity.
Qed.
Print Assumptions C67_unsent_refuted.

(** a content of fourteen bytes (a name that claims 2^60 bytes) on which the callback panics *)
Theorem C67_content_refuted : exists b, bytes_ok b /\ forall F, exec_result (20 + F) (AData true (Some [b])) = Panic.
Proof.
  exists [101; 12; 104; 10; 7; 255; 16; 0; 0; 0; 0; 0; 0; 0]%N. split; [repeat constructor|]. intros F. vm_compute. reflexivity.
Qed.
Print Assumptions C67_content_refuted.

(** "No such face", code 404, in three buffers; and a success *)
Example C67_ok : response_ok 404 (VStruct (route_args [mkComp 8 [65%N]]))
  /\ (exists w ys, m_encode (mkEP 0 false) mgmt_ControlResponse (response 404 [110; 111]%N (VStruct (route_args [mkComp 8 [65%N]]))) = Ok (w, ys)
       /\ concat w = concat [[101; 15]; [102; 2; 1; 148; 103; 2; 110]; [111; 104; 5; 7; 3; 8; 1; 65]]%N)
  /\ exec_result 30 (AData true (Some [[101; 15]; [102; 2; 1; 148; 103; 2; 110]; [111; 104; 5; 7; 3; 8; 1; 65]]%N)) = Ok (MFailed 404 [110; 111]%N)
  /\ exec_result 30 (AData true (Some [[101; 6; 102; 1; 200; 103; 1; 75]]%N)) = Ok MDone
  /\ (exists g, e_run eng_new [EExpress cmd1 false (Some 1000000000%Z); ETick 5; EData cmd1 []] = Ok g /\ callbacks g = [(0%nat, RData)]).
Proof.
  split.
  { split; [reflexivity|]. right. eexists. split; [reflexivity|]. split; [apply route_ok; split; repeat constructor; discriminate|].
    unfold fs_wire_safe, mgmt_ControlArgs, route_args. cbn [m_fields repeat]. repeat (match goal with |- Forall2 _ _ _ => constructor end); cbn; auto. repeat constructor; discriminate. }
  split; [do 2 eexists; split; [vm_compute; reflexivity|reflexivity]|]. split; [vm_compute; reflexivity|]. split; [vm_compute; reflexivity|]. eexists. split; vm_compute; reflexivity.
Qed.
