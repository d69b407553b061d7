(** Receiving packets and replying. *)
From Verif Require Import Base PrimModel ReaderModel ReaderSpec ReaderProofs NameModel NameProofs TrieModel TrieSpec EngineModel EngineSpec FibModel FibSpec CodecModel CodecSpec CodecSpec2 CodecSpec4 CodecLib SpecModel SpecSpec RecvModel RecvSpec RecvProofs RecvProofs2.

(** C28.  Reply after the deadline or without a face sends nothing and fails; otherwise it sends
    the given Data, in a link-layer packet with the PIT token, and no other header, iff the
    Interest came with one. *)
Theorem C28_late : forall a now running data, (ia_deadline a < now)%Z -> reply a now running data = Ok RDeadline.
Proof. exact reply_late. Qed.
Print Assumptions C28_late.

Theorem C28_down : forall a now data, (now <= ia_deadline a)%Z -> reply a now false data = Ok RFaceDown.
Proof. exact reply_down. Qed.
Print Assumptions C28_down.

Theorem C28_bare : forall a now data, (now <= ia_deadline a)%Z -> ia_token a = None -> reply a now true (Some data) = Ok (RSent data).
Proof. exact reply_bare. Qed.
Print Assumptions C28_bare.

Theorem C28_token : forall a now (data : option wire) t, (now <= ia_deadline a)%Z -> ia_token a = Some t ->
  exists w, reply a now true data = Ok (RSent w) /\ concat w = lp_packet (token_only t) (option_map (@concat N) data).
Proof. exact reply_token. Qed.
Print Assumptions C28_token.

(** ... where the deadline and the token are those of the Interest: any Interest packet in the NDN
    format, bare or in a link-layer packet, goes to the handler that [FInterest] selects (C27), with
    its fields, its bytes, its signed portion, its token, its incoming face and the time of receipt
    plus its lifetime, 4 s by default, as deadline; one with a wrong parameters digest is dropped.
    [g] and [fb] are any states of the pending Interests and of the handlers. *)
Theorem C28_received : forall H sha (fb : store (option H)) fos rs g f fn c ap osc osig F, f_run fib_new fos = Ok (fb, rs) -> no_nil_handler fos -> framing_ok f -> plain f ->
  name_typed fn -> interest_config_ok c -> all_of interest_sig_ok osc -> all_of (fun s => (0 < nlen s)%N) osig ->
  (framing_size f + interest_size fn c ap + olen sig_size osc + olen (@nlen N) osig < packet_limit)%N ->
  (length (frame f (interest_packet fn c ap osc osig)) < F)%nat ->
  exists o a, f_step fb (FInterest fn) = Ok (fb, o) /\ args_ok f fn c ap osc osig (g_now g) a
    /\ (int_accepted sha fn ap osc osig -> node_recv sha F (mkNode g fb) (frame f (interest_packet fn c ap osc osig)) = Ok (mkNode g fb, match o with FDeliver h => Some (h, a) | _ => None end))
    /\ (~ int_accepted sha fn ap osc osig -> node_recv sha F (mkNode g fb) (frame f (interest_packet fn c ap osc osig)) = Ok (mkNode g fb, None)).
Proof. exact node_interest. Qed.
Print Assumptions C28_received.

(** C48, Data: a Data packet in the NDN format, bare or in a link-layer packet that is not a
    fragment, satisfies exactly pending Interests it matches, and all of those that are filed.
    The digest is the one of the Data packet, not of the link-layer packet. *)
Theorem C48_data : forall H sha (fb : store (option H)) os g f n c content osc osig F, e_run eng_new os = Ok g -> framing_ok f -> plain f ->
  name_typed n -> data_config_ok c -> all_of data_sig_ok osc -> all_of (fun s => (0 < nlen s)%N) osig ->
  (framing_size f + data_size n c content + olen sig_size osc + olen (@nlen N) osig < packet_limit)%N ->
  (length (frame f (data_packet n c content osc osig)) < F)%nat ->
  let digest := sha (data_packet n c content osc osig) in
  exists g' new, node_recv sha F (mkNode g fb) (frame f (data_packet n c content osc osig)) = Ok (mkNode g' fb, None)
    /\ callbacks g' = callbacks g ++ map (fun i => (i, RData)) new
    /\ (forall i, In i new -> exists x, nth_error (expressed 0 os) i = Some x /\ matches (x_cbp x) n digest (x_name x))
    /\ (forall i x p, nth_error (expressed 0 os) i = Some x -> filed g i p -> matches (x_cbp x) n digest (x_name x) -> In i new).
Proof. exact node_data. Qed.
Print Assumptions C48_data.

(** what the callback of such an Interest gets: the fields, the Data packet itself and its signed portion *)
Theorem C48_data_fields : forall sha f n c content osc osig F, framing_ok f -> plain f ->
  name_typed n -> data_config_ok c -> all_of data_sig_ok osc -> all_of (fun s => (0 < nlen s)%N) osig ->
  (framing_size f + data_size n c content + olen sig_size osc + olen (@nlen N) osig < packet_limit)%N ->
  (length (frame f (data_packet n c content osc osig)) < F)%nat ->
  exists d cov, on_packet sha F (new_buffer_reader (frame f (data_packet n c content osc osig))) = Ok (EvData d cov [data_packet n c content osc osig] (token_of f))
    /\ data_reads n c content osc osig d /\ concat cov = match osig with Some _ => data_part n c content osc | None => [] end.
Proof. exact recv_data. Qed.
Print Assumptions C48_data_fields.

(** A Nack, with a reason other than 0, reports to the Interests filed under the name. *)
Theorem C48_nack : forall H sha (fb : store (option H)) os g l reason fn c ap osc osig F, e_run eng_new os = Ok g ->
  lp_ok l -> fragmented l = false -> l_nack l = Some reason -> reason <> 0%N ->
  name_typed fn -> interest_config_ok c -> all_of interest_sig_ok osc -> all_of (fun s => (0 < nlen s)%N) osig ->
  (lp_size l + interest_size fn c ap + olen sig_size osc + olen (@nlen N) osig < packet_limit)%N ->
  (length (lp_packet l (Some (interest_packet fn c ap osc osig))) < F)%nat -> int_accepted sha fn ap osc osig ->
  exists g' new, node_recv sha F (mkNode g fb) (lp_packet l (Some (interest_packet fn c ap osc osig))) = Ok (mkNode g' fb, None)
    /\ callbacks g' = callbacks g ++ map (fun i => (i, RNack reason)) new /\ (forall i, In i new <-> filed g i (keys fn)).
Proof. exact node_nack. Qed.
Print Assumptions C48_nack.

(** Dropped without effect: fragments, Nacks of Data, and link-layer packets in link-layer packets. *)
Theorem C48_fragment : forall H sha (nd : node H) l b F, lp_ok l -> fragmented l = true -> (lp_size l + nlen b + 1000 < 2 * packet_limit)%N ->
  (length (lp_packet l (Some b)) < F)%nat -> node_recv sha F nd (lp_packet l (Some b)) = Ok (nd, None).
Proof. intros H sha nd l b F LO FR SZ FU. unfold node_recv. rewrite on_lp, FR by auto. reflexivity. Qed.
Print Assumptions C48_fragment.

Theorem C48_nack_data : forall H sha (nd : node H) l reason n c content osc osig F, lp_ok l -> l_nack l = Some reason -> reason <> 0%N ->
  name_typed n -> data_config_ok c -> all_of data_sig_ok osc -> all_of (fun s => (0 < nlen s)%N) osig ->
  (lp_size l + data_size n c content + olen sig_size osc + olen (@nlen N) osig < packet_limit)%N ->
  (length (lp_packet l (Some (data_packet n c content osc osig))) < F)%nat ->
  node_recv sha F nd (lp_packet l (Some (data_packet n c content osc osig))) = Ok (nd, None).
Proof. intros. unfold node_recv. rewrite (recv_nack_data sha l reason) by auto. reflexivity. Qed.
Print Assumptions C48_nack_data.

Theorem C48_nested : forall H sha (nd : node H) l m pl F, lp_ok l -> lp_ok m -> (lp_size l + lp_size m + olen (@nlen N) pl < packet_limit)%N ->
  (length (lp_packet l (Some (lp_packet m pl))) < F)%nat -> node_recv sha F nd (lp_packet l (Some (lp_packet m pl))) = Ok (nd, None).
Proof. intros. unfold node_recv. rewrite recv_nested by auto. reflexivity. Qed.
Print Assumptions C48_nested.

(** False: with a Data element before the Interest element, the Interest goes to its handler
    although the digest in its name is not checked: whatever the parameter [x] and the hash. *)
Theorem C48_refuted : forall sha x F, (200 < F)%nat ->
  let b := tlv 6 (tlv 7 (name_enc [mkComp 8 [66%N]])) ++ tlv 5 (tlv 7 (name_enc [mkComp 8 [65%N]; digest_comp (repeat 0%N 32)]) ++ tlv 36 [x]) in
  exists i raw cov, on_packet sha F (new_buffer_reader b) = Ok (EvInterest i raw cov None None)
    /\ option_map (@concat N) (i_app_param i) = Some [x].
Proof.
  intros sha x F HF b. assert (E : exists G, F = (200 + G)%nat) by (exists (F - 200)%nat; lia). destruct E as [G ->].
  eexists _, _, _. split; [vm_compute; reflexivity|]. vm_compute. reflexivity.
Qed.
Print Assumptions C48_refuted.

(** False: a Nack with reason 0 ("None", which the encoder can produce) is handled as an Interest,
    and one without a reason (NDNLPv2 allows it) is dropped: neither is reported. *)
Theorem C48_nack_refuted : forall sha F, (200 < F)%nat ->
  let i := interest_packet [mkComp 8 [65%N]] (mkIC false false None None None None) None None None in
  (exists vs raw cov, on_packet sha F (new_buffer_reader (tlv 100 (tlv 800 (tlv 801 [0%N]) ++ tlv 80 i))) = Ok (EvInterest vs raw cov None None))
  /\ on_packet sha F (new_buffer_reader (tlv 100 (tlv 800 [] ++ tlv 80 i))) = Ok EvDrop.
Proof.
  intros sha F HF. assert (E : exists G, F = (200 + G)%nat) by (exists (F - 200)%nat; lia). destruct E as [G ->].
  split; [eexists _, _, _; vm_compute; reflexivity|vm_compute; reflexivity].
Qed.
Print Assumptions C48_nack_refuted.

(** C49.  Whatever the engine did before, receiving any bytes without a number of 9 bytes (see
    C18) neither crashes nor hangs it. *)
Theorem C49_partial : forall H sha (fb : store (option H)) os g fos rs b F, e_run eng_new os = Ok g -> f_run fib_new fos = Ok (fb, rs) -> no_nil_handler fos ->
  bytes_ok b -> no_huge_number b -> (zlen b < mem_limit)%Z -> (length b < F)%nat -> exists nd out, node_recv sha F (mkNode g fb) b = Ok (nd, out).
Proof. exact node_safe. Qed.
Print Assumptions C49_partial.

(** False in general: a packet of twelve bytes ends the process, in any state. *)
Theorem C49_refuted : exists b, bytes_ok b /\ length b = 12%nat /\
  forall H sha (nd : node H) F, (20 < F)%nat -> node_recv sha F nd b = Panic.
Proof.
  exists [5; 10; 7; 255; 16; 0; 0; 0; 0; 0; 0; 0]%N. split; [repeat constructor|]. split; [reflexivity|].
  intros H sha nd F HF. assert (E : exists G, F = (20 + G)%nat) by (exists (F - 20)%nat; lia). destruct E as [G ->]. vm_compute. reflexivity.
Qed.
Print Assumptions C49_refuted.

(** C50.  One engine has Interest [i] pending, another one receives any Interest packet for which it
    has a handler.  If the handler replies in time with a Data packet that matches Interest [i], what
    it sends, with or without link-layer token, satisfies Interest [i] at the first. *)
Theorem C50_exchange : forall H1 H2 sha (fb1 : store (option H1)) (fb2 : store (option H2)) os1 g1 g2 fos rs f fn c ap osc osig h F
  (i : nat) x p now2 n dc content dsc dsig dw,
  e_run eng_new os1 = Ok g1 -> nth_error (expressed 0 os1) i = Some x -> filed g1 i p ->
  f_run fib_new fos = Ok (fb2, rs) -> no_nil_handler fos -> f_step fb2 (FInterest fn) = Ok (fb2, FDeliver h) ->
  framing_ok f -> plain f -> name_typed fn -> interest_config_ok c -> all_of interest_sig_ok osc -> all_of (fun s => (0 < nlen s)%N) osig ->
  (framing_size f + interest_size fn c ap + olen sig_size osc + olen (@nlen N) osig < packet_limit)%N ->
  (length (frame f (interest_packet fn c ap osc osig)) < F)%nat -> int_accepted sha fn ap osc osig ->
  name_typed n -> data_config_ok dc -> all_of data_sig_ok dsc -> all_of (fun s => (0 < nlen s)%N) dsig ->
  (olen (@nlen N) (token_of f) + data_size n dc content + olen sig_size dsc + olen (@nlen N) dsig < packet_limit)%N ->
  concat dw = data_packet n dc content dsc dsig -> (length (concat dw) + 1000 + length (match token_of f with Some t => t | None => [] end) < F)%nat ->
  matches (x_cbp x) n (sha (concat dw)) (x_name x) ->
  (now2 <= g_now g2 + match ic_life c with Some t => ms_floor t | None => 4000000000 end)%Z ->
  exists a w g1', node_recv sha F (mkNode g2 fb2) (frame f (interest_packet fn c ap osc osig)) = Ok (mkNode g2 fb2, Some (h, a))
    /\ reply a now2 true (Some dw) = Ok (RSent w)
    /\ node_recv sha F (mkNode g1 fb1) (concat w) = Ok (mkNode g1' fb1, None)
    /\ In (i, RData) (callbacks g1').
Proof. exact exchange. Qed.
Print Assumptions C50_exchange.

(** ** Examples: an Interest for /A (any prefix match) with parameters and a token, answered with /A/B. *)
Definition rx_sha : buf -> buf := fun _ => repeat 5%N 32.
Definition rx_config : interest_config := mkIC true false None (Some 9%N) (Some 2000000000%Z) None.
Definition rx_name : name := [mkComp 8 [65%N]; digest_comp (repeat 5%N 32)].
Definition rx_lp : lp_headers := mkLp (Some 3%N) None None (Some [1; 2]%N) None (Some 257%N) None None None None None true None.
Definition rx_data : buf := data_packet [mkComp 8 [65%N]; mkComp 8 [66%N]] (mkDC None None None) (Some [[7%N]]) None None.

Example rx_interest_ok : name_typed rx_name /\ interest_config_ok rx_config /\ lp_ok rx_lp /\ plain (Lp rx_lp)
  /\ int_accepted rx_sha rx_name (Some [[1%N]]) None None
  /\ (framing_size (Lp rx_lp) + interest_size rx_name rx_config (Some [[1%N]]) < packet_limit)%N.
Proof.
  split; [split; repeat constructor; discriminate|]. split; [repeat split; discriminate|]. split; [repeat constructor|]. split; [split; reflexivity|].
  split; [exists [mkComp 8 [65%N]]; reflexivity|reflexivity].
Qed.

Example rx_delivered : exists fb rs i raw cov,
  f_run (H := nat) fib_new [FAttach [mkComp 8 [65%N]] (Some 4%nat)] = Ok (fb, rs)
  /\ node_recv rx_sha 500 (mkNode eng_new fb) (frame (Lp rx_lp) (interest_packet rx_name rx_config (Some [[1%N]]) None None))
     = Ok (mkNode eng_new fb, Some (4%nat, mkArgs i raw cov (Some [1; 2]%N) (Some 257%N) 2000000000)).
Proof. eexists _, _, _, _, _. split; [vm_compute; reflexivity|]. vm_compute. reflexivity. Qed.

Example rx_answered : exists g g' fb w,
  e_run eng_new [EExpress [mkComp 8 [65%N]] true (Some 2000000000%Z)] = Ok g
  /\ f_run (H := nat) fib_new [] = Ok (fb, [])
  /\ reply (mkArgs [] [] [] (Some [1; 2]%N) None 10) 10 true (Some [rx_data]) = Ok (RSent w)
  /\ concat w = lp_packet (token_only [1; 2]%N) (Some rx_data)
  /\ node_recv rx_sha 500 (mkNode g fb) (concat w) = Ok (mkNode g' fb, None) /\ callbacks g' = [(0%nat, RData)].
Proof. eexists _, _, _, _. split; [vm_compute; reflexivity|]. split; [vm_compute; reflexivity|]. split; [vm_compute; reflexivity|].
  split; [vm_compute; reflexivity|]. split; [vm_compute; reflexivity|]. reflexivity. Qed.

Example rx_nacked : exists g g' fb,
  e_run eng_new [EExpress [mkComp 8 [65%N]] true (Some 2000000000%Z)] = Ok g /\ f_run (H := nat) fib_new [] = Ok (fb, [])
  /\ node_recv rx_sha 500 (mkNode g fb) (lp_packet (mkLp None None None None (Some 150%N) None None None None None None false None)
       (Some (interest_packet [mkComp 8 [65%N]] rx_config None None None))) = Ok (mkNode g' fb, None) /\ callbacks g' = [(0%nat, RNack 150)].
Proof. eexists _, _, _. split; [vm_compute; reflexivity|]. split; [vm_compute; reflexivity|]. split; [vm_compute; reflexivity|]. reflexivity. Qed.

(** bytes that meet the hypotheses of [C49_partial] though they are no packet *)
Example rx_noise : exists fb, f_run (H := nat) fib_new [] = Ok (fb, []) /\ node_recv rx_sha 500 (mkNode eng_new fb) [100; 9; 80; 3; 5; 200; 1; 98; 0; 1; 2]%N = Ok (mkNode eng_new fb, None).
Proof. eexists. split; vm_compute; reflexivity. Qed.
