(** Proofs about receiving packets: effects, replies and totality. *)
From Verif Require Import Base BaseProofs PrimModel PrimProofs ReaderModel ReaderSpec ReaderProofs NameModel NameProofs TrieModel TrieSpec TrieProofs EngineModel EngineSpec EngineProofs EngineProofs2 FibModel FibSpec FibProofs CodecModel CodecSpec CodecSpec2 CodecSpec4 CodecProofs CodecEnc CodecEnc5 CodecPar4 CodecTotal CodecLib CodecOne SpecModel SpecSpec SpecProofs SpecData SpecInt SpecMore RecvModel RecvSpec RecvProofs.

(** ** Reply *)
Lemma reply_late : forall a now running data, (ia_deadline a < now)%Z -> reply a now running data = Ok RDeadline.
Proof. intros a now running data H. unfold reply. destruct (Z.ltb_spec (ia_deadline a) now); [reflexivity|lia]. Qed.
Lemma reply_down : forall a now data, (now <= ia_deadline a)%Z -> reply a now false data = Ok RFaceDown.
Proof. intros a now data H. unfold reply. destruct (Z.ltb_spec (ia_deadline a) now); [lia|reflexivity]. Qed.
Lemma reply_bare : forall a now data, (now <= ia_deadline a)%Z -> ia_token a = None -> reply a now true (Some data) = Ok (RSent data).
Proof. intros a now data H T. unfold reply. destruct (Z.ltb_spec (ia_deadline a) now); [lia|]. rewrite T. reflexivity. Qed.
Lemma reply_token : forall a now (data : option wire) t, (now <= ia_deadline a)%Z -> ia_token a = Some t ->
  exists w, reply a now true data = Ok (RSent w) /\ concat w = lp_packet (token_only t) (option_map (@concat N) data).
Proof.
  intros a now data t H T. unfold reply. destruct (Z.ltb_spec (ia_deadline a) now); [lia|]. rewrite T. cbn [negb].
  set (vs := [VNone; VNone; VNone; VBytes t; VNone; VNone; VNone; VNone; VNone; VNone; VNone; VBool false; VNone; v_wire data]).
  change vs with (lp_vals (token_only t) data). clear vs.
  destruct (encode_parts (mkEP 0 false) spec_Packet [VNone; VNone; VStruct (lp_vals (token_only t) data)] eq_refl (packet_lp_shape _ (lp_shape _ _))) as (w & ys & E & C & _).
  - intros _. rewrite (fs_len_ok _ _ true) by (apply (wf_fields_all true); reflexivity). rewrite packet_lp_bytes, nlen_app. change (nlen (tl_enc 100)) with 1%N. lia.
  - rewrite E. cbn [bind fst]. exists w. split; [reflexivity|]. rewrite C. apply packet_lp_eq.
Qed.

(** ** Effects *)
Lemma nack_step : forall os g nm reason, e_run eng_new os = Ok g -> exists g' new, e_nack g nm reason = Ok g' /\
  callbacks g' = callbacks g ++ map (fun i => (i, RNack reason)) new /\ (forall i, In i new <-> filed g i (keys nm)).
Proof.
  intros os g nm reason R. destruct (reach_inv os g R) as [EI _]. destruct (nack_ok _ g nm reason EI) as (g' & E & _). exists g'.
  pose proof E as E'. unfold e_nack in E'. fold (keys nm) in E'. destruct (t_exact (g_pit g) (keys nm)) as [[n|]| | |] eqn:T; cbn [bind] in E'; try discriminate.
  - destruct (TrieModel.value (g_pit g) n) as [l| | |] eqn:V; cbn [bind] in E'; try discriminate. destruct (t_delete (g_pit g) n); cbn [bind] in E'; try discriminate. inversion E'; subst.
    exists (map pe_id l). split; [exact E|]. split; [reflexivity|]. intros i. split.
    + intros IN. apply in_map_iff in IN. destruct IN as (e & <- & IN). exists n, l, e. auto.
    + intros (n' & l' & e & T' & V' & IN & <-). rewrite T in T'. inversion T'; subst. rewrite V in V'. inversion V'; subst. apply in_map. auto.
  - inversion E'; subst. exists []. split; [exact E|]. split; [rewrite app_nil_r; reflexivity|]. intros i. split; [intros []|]. intros (n' & l' & e & T' & _). congruence.
Qed.

Lemma node_nack : forall H sha (fb : store (option H)) os g l reason fn c ap osc osig F, e_run eng_new os = Ok g ->
  lp_ok l -> fragmented l = false -> l_nack l = Some reason -> reason <> 0%N ->
  name_typed fn -> interest_config_ok c -> all_of interest_sig_ok osc -> all_of (fun s => (0 < nlen s)%N) osig ->
  (lp_size l + interest_size fn c ap + olen sig_size osc + olen (@nlen N) osig < packet_limit)%N ->
  (length (lp_packet l (Some (interest_packet fn c ap osc osig))) < F)%nat -> int_accepted sha fn ap osc osig ->
  exists g' new, node_recv sha F (mkNode g fb) (lp_packet l (Some (interest_packet fn c ap osc osig))) = Ok (mkNode g' fb, None)
    /\ callbacks g' = callbacks g ++ map (fun i => (i, RNack reason)) new /\ (forall i, In i new <-> filed g i (keys fn)).
Proof.
  intros H sha fb os g l reason fn c ap osc osig F R; intros. destruct (nack_step os g fn reason R) as (g' & new & E & X). exists g', new. split; [|exact X].
  unfold node_recv. rewrite (recv_nack sha l reason) by auto. cbn [bind node_event the_name n_eng n_fib]. rewrite E. reflexivity.
Qed.

Lemma node_data : forall H sha (fb : store (option H)) os g f n c content osc osig F, e_run eng_new os = Ok g -> framing_ok f -> plain f ->
  name_typed n -> data_config_ok c -> all_of data_sig_ok osc -> all_of (fun s => (0 < nlen s)%N) osig ->
  (framing_size f + data_size n c content + olen sig_size osc + olen (@nlen N) osig < packet_limit)%N ->
  (length (frame f (data_packet n c content osc osig)) < F)%nat ->
  let digest := sha (data_packet n c content osc osig) in
  exists g' new, node_recv sha F (mkNode g fb) (frame f (data_packet n c content osc osig)) = Ok (mkNode g' fb, None)
    /\ callbacks g' = callbacks g ++ map (fun i => (i, RData)) new
    /\ (forall i, In i new -> exists x, nth_error (expressed 0 os) i = Some x /\ matches (x_cbp x) n digest (x_name x))
    /\ (forall i x p, nth_error (expressed 0 os) i = Some x -> filed g i p -> matches (x_cbp x) n digest (x_name x) -> In i new).
Proof.
  intros H sha fb os g f n c content osc osig F R; intros. destruct (recv_data sha f n c content osc osig F) as (d & cov & E & DR & _); auto.
  destruct (data_step os g n digest R) as (g' & new & ED & C & M1 & M2 & _). exists g', new. split; [|auto].
  unfold node_recv. rewrite E. cbn [bind node_event n_eng n_fib]. destruct DR as [DN _]. rewrite DN. cbn [the_name concat]. rewrite app_nil_r. fold digest. rewrite ED. reflexivity.
Qed.

Lemma node_interest : forall H sha (fb : store (option H)) fos rs g f fn c ap osc osig F, f_run fib_new fos = Ok (fb, rs) -> no_nil_handler fos -> framing_ok f -> plain f ->
  name_typed fn -> interest_config_ok c -> all_of interest_sig_ok osc -> all_of (fun s => (0 < nlen s)%N) osig ->
  (framing_size f + interest_size fn c ap + olen sig_size osc + olen (@nlen N) osig < packet_limit)%N ->
  (length (frame f (interest_packet fn c ap osc osig)) < F)%nat ->
  exists o a, f_step fb (FInterest fn) = Ok (fb, o) /\ args_ok f fn c ap osc osig (g_now g) a
    /\ (int_accepted sha fn ap osc osig -> node_recv sha F (mkNode g fb) (frame f (interest_packet fn c ap osc osig)) = Ok (mkNode g fb, match o with FDeliver h => Some (h, a) | _ => None end))
    /\ (~ int_accepted sha fn ap osc osig -> node_recv sha F (mkNode g fb) (frame f (interest_packet fn c ap osc osig)) = Ok (mkNode g fb, None)).
Proof.
  intros H sha fb fos rs g f fn c ap osc osig F R NN; intros. destruct (fib_run_ok H fos fib_new (fib_new_inv H) NN) as (fb' & rs' & E & FI & _).
  rewrite R in E. inversion E; subst fb' rs'. clear E.
  destruct (match_ok H fb fn FI) as (v & EM & _). destruct (recv_interest sha f fn c ap osc osig F) as (i & cov & IR & CV & A1 & A2); auto.
  exists (match v with Some h => FDeliver h | None => FDrop end), (mkArgs i [interest_packet fn c ap osc osig] cov (token_of f) (face_of f) (deadline_of (g_now g) i)).
  split; [cbn [f_step]; rewrite EM; reflexivity|]. split.
  - unfold args_ok. cbn [ia_int ia_raw ia_cov ia_token ia_face ia_deadline concat]. rewrite app_nil_r. split; [auto|]. split; [auto|]. split; [auto|]. split; [auto|]. split; [auto|].
    unfold deadline_of. destruct IR as (_ & _ & _ & _ & _ & EL & _). rewrite EL. destruct (ic_life c); reflexivity.
  - split; intros AC.
    + unfold node_recv. rewrite (A1 AC). cbn [bind node_event n_eng n_fib]. destruct IR as (EN & _). rewrite EN. cbn [the_name]. rewrite EM. cbn [bind]. destruct v; reflexivity.
    + unfold node_recv. rewrite (A2 AC). reflexivity.
Qed.

(** ** An exchange: an Interest arrives at one engine, and the reply of its handler, with any
    Data, at another. *)
Lemma exchange : forall H1 H2 sha (fb1 : store (option H1)) (fb2 : store (option H2)) os1 g1 g2 fos rs f fn c ap osc osig h F
  (i : nat) x p now2 n dc content dsc dsig dw,
  e_run eng_new os1 = Ok g1 -> nth_error (expressed 0 os1) i = Some x -> filed g1 i p ->
  f_run fib_new fos = Ok (fb2, rs) -> no_nil_handler fos -> f_step fb2 (FInterest fn) = Ok (fb2, FDeliver h) ->
  framing_ok f -> plain f -> name_typed fn -> interest_config_ok c -> all_of interest_sig_ok osc -> all_of (fun s => (0 < nlen s)%N) osig ->
  (framing_size f + interest_size fn c ap + olen sig_size osc + olen (@nlen N) osig < packet_limit)%N ->
  (length (frame f (interest_packet fn c ap osc osig)) < F)%nat -> int_accepted sha fn ap osc osig ->
  name_typed n -> data_config_ok dc -> all_of data_sig_ok dsc -> all_of (fun s => (0 < nlen s)%N) dsig ->
  (olen (@nlen N) (token_of f) + data_size n dc content + olen sig_size dsc + olen (@nlen N) dsig < packet_limit)%N ->
  concat dw = data_packet n dc content dsc dsig -> (length (concat dw) + 1000 + length (match token_of f with Some t => t | None => [] end) < F)%nat ->
  matches (x_cbp x) n (sha (concat dw)) (x_name x) ->
  (now2 <= g_now g2 + match ic_life c with Some t => ms_floor t | None => 4000000000 end)%Z ->
  exists a w g1', node_recv sha F (mkNode g2 fb2) (frame f (interest_packet fn c ap osc osig)) = Ok (mkNode g2 fb2, Some (h, a))
    /\ reply a now2 true (Some dw) = Ok (RSent w)
    /\ node_recv sha F (mkNode g1 fb1) (concat w) = Ok (mkNode g1' fb1, None)
    /\ In (i, RData) (callbacks g1').
Proof.
  intros H1 H2 sha fb1 fb2 os1 g1 g2 fos rs f fn c ap osc osig h F i x p now2 n dc content dsc dsig dw R1 X1 FI1 R2 NN FD FO PL T1 T2 T3 T4 SZ FU AC D1 D2 D3 D4 DS ED FU2 MT TM.
  destruct (node_interest H2 sha fb2 fos rs g2 f fn c ap osc osig F R2 NN) as (o & a & EO & AO & NA & _); auto.
  rewrite FD in EO. inversion EO; subst o. specialize (NA AC). cbn in NA. destruct AO as (_ & _ & _ & AT & _ & AD). exists a.
  assert (TM' : (now2 <= ia_deadline a)%Z) by (rewrite AD; exact TM).
  assert (W : exists w f', reply a now2 true (Some dw) = Ok (RSent w) /\ concat w = frame f' (concat dw) /\ framing_ok f' /\ plain f' /\ framing_size f' = olen (@nlen N) (token_of f)).
  { destruct (token_of f) as [t|] eqn:ET.
    - destruct (reply_token a now2 (Some dw) t TM' ltac:(congruence)) as (w & E & C). exists w, (Lp (token_only t)). cbn [frame framing_ok plain framing_size]. split; [auto|]. split; [auto|].
      split; [unfold lp_ok, token_only; cbn; repeat constructor|]. split; [split; reflexivity|]. unfold lp_size, token_only. cbn. lia.
    - exists dw, Bare. rewrite reply_bare by (auto; congruence). cbn. auto. }
  destruct W as (w & f' & EW & CW & FO' & PL' & FS'). exists w. rewrite ED in *.
  destruct (node_data H1 sha fb1 os1 g1 f' n dc content dsc dsig F R1 FO' PL' D1 D2 D3 D4) as (g1' & new & E & CB & _ & M2).
  - rewrite FS'. exact DS.
  - destruct f' as [|l]; cbn [frame]; [rewrite <- ED in *; lia|]. 
    assert (LL : (length (lp_packet l (Some (data_packet n dc content dsc dsig))) <= 1000 + length (data_packet n dc content dsc dsig) + N.to_nat (lp_size l))%nat).
    { unfold lp_packet. pose proof (tlv_le 100 (lp_part l ++ opt_tlv 80 (Some (data_packet n dc content dsc dsig)))) as Q. rewrite nlen_app in Q. pose proof (opt_tlv_le 80 (Some (data_packet n dc content dsc dsig))) as Q2. cbn [olen] in Q2. pose proof (lp_part_le l). unfold nlen in *. lia. }
    cbn [framing_size] in FS'. rewrite FS' in LL. destruct (token_of f); cbn [olen] in LL; unfold nlen in LL; cbn [length] in FU2; lia.
  - exists g1'. rewrite CW. split; [exact NA|]. split; [exact EW|]. split; [exact E|]. rewrite CB. apply in_app_iff. right. apply in_map_iff. exists i. split; [reflexivity|]. eapply M2; eauto.
Qed.

(** ** Totality *)
Lemma check_safe : forall sha i cx, check_interest sha i cx = Ok tt \/ exists e, check_interest sha i cx = Err e.
Proof.
  intros sha i cx. unfold check_interest. destruct (nth 2 i VNone); eauto. destruct (nth 11 i VNone); destruct (nth 13 i VNone); eauto;
    (destruct (rev n); [eauto|]; destruct (_ && _); eauto).
Qed.
Lemma read_packet_safe : forall sha b F, bytes_ok b -> no_huge_number b -> (zlen b < mem_limit)%Z -> (length b < F)%nat ->
  (exists vs cx, read_packet sha F (new_buffer_reader b) = Ok (vs, cx)
     /\ (is_struct (nth 0 vs VNone) || is_struct (nth 1 vs VNone) || is_struct (nth 2 vs VNone) = true)
     /\ ones b vs) \/ (exists e, read_packet sha F (new_buffer_reader b) = Err e).
Proof.
  intros sha b F B1 B2 B3 B4. unfold read_packet. destruct (parse_safe spec_Packet false b F B1 B2 B3 B4) as [[[vs cx] E]|[e E]]; rewrite E; cbn [bind]; [|right; eauto].
  pose proof (parse_one _ _ _ _ _ _ E) as O.
  destruct (nth 1 vs VNone) as [| | | | | | |d| |] eqn:E1.
  8: { destruct (nth 2 d VNone) eqn:E2; try (right; eauto; fail). left. exists vs, cx. rewrite E1. cbn [is_struct]. rewrite orb_true_r. auto. }
  all: destruct (nth 0 vs VNone) as [| | | | | | |i| |] eqn:E0;
    match goal with
    | _ : nth 0 _ VNone = VStruct _ |- _ =>
        destruct (check_safe sha i (x_sub (nth 0 cx XNone))) as [EC|[e EC]]; rewrite EC; cbn [bind];
        [left; exists vs, cx; rewrite E0; cbn [is_struct orb]; auto|right; eauto]
    | _ =>
        destruct (nth 2 vs VNone) as [| | | | | | |lq| |] eqn:E2; try (right; eauto; fail);
        destruct (nth 13 lq VNone) eqn:E13; try (right; eauto; fail); left; exists vs, cx; rewrite E2; cbn [is_struct]; rewrite orb_true_r; auto
    end.
Qed.

Lemma dispatch_safe : forall vs cx nack tok face raw, is_struct (nth 0 vs VNone) || is_struct (nth 1 vs VNone) = true -> exists ev, dispatch vs cx nack tok face raw = Ok ev.
Proof.
  intros vs cx nack tok face raw H. unfold dispatch. destruct (negb (nack =? nack_none)%N); [destruct (nth 0 vs VNone); eauto|].
  destruct (nth 0 vs VNone); destruct (nth 1 vs VNone); try discriminate H; eauto.
Qed.

Lemma empty_wire_packet : forall sha F, (0 < F)%nat -> exists e, read_packet sha F (new_wire_reader []) = Err e.
Proof. intros sha [|F] H; [lia|]. eexists. vm_compute. reflexivity. Qed.

Lemma sub_facts : forall c b, sub c b -> bytes_ok b -> no_huge_number b -> (zlen b < mem_limit)%Z -> bytes_ok c /\ no_huge_number c /\ (zlen c < mem_limit)%Z /\ (length c <= length b)%nat.
Proof.
  intros c b (x & y & ->) H1 H2 H3. split; [apply Forall_app in H1; destruct H1 as [_ H1]; apply Forall_app in H1; tauto|]. split; [eapply no_huge_sub; eauto|].
  unfold zlen in *. rewrite !app_length in *. split; lia.
Qed.

Lemma on_packet_safe : forall sha b F, bytes_ok b -> no_huge_number b -> (zlen b < mem_limit)%Z -> (length b < F)%nat -> exists ev, on_packet sha F (new_buffer_reader b) = Ok ev.
Proof.
  intros sha b F B1 B2 B3 B4. destruct (read_packet_safe sha b F B1 B2 B3 B4) as [(vs & cx & E & S1 & O1)|[e E]]; [|unfold on_packet; rewrite E; eauto].
  destruct (nth 2 vs VNone) as [| | | | | | |l| |] eqn:E2.
  8: { unfold on_packet. rewrite E, E2. destruct (g_nat (nth 1 l VNone)), (g_nat (nth 2 l VNone)); eauto.
    assert (RR : (exists vs' cx', read_packet sha F (inner_reader (match nth 13 l VNone with VWire w => w | _ => [] end)) = Ok (vs', cx')) \/ (exists e, read_packet sha F (inner_reader (match nth 13 l VNone with VWire w => w | _ => [] end)) = Err e)).
    { pose proof (nth_one _ vs 2 O1) as O2. rewrite E2 in O2. pose proof (nth_one _ l 13 O2) as O3.
      destruct (nth 13 l VNone); try (right; apply (empty_wire_packet sha F); lia). destruct O3 as (c & -> & SB). cbn [inner_reader].
      destruct (sub_facts c b SB B1 B2 B3) as (C1 & C2 & C3 & C4). destruct (read_packet_safe sha c F C1 C2 C3 ltac:(lia)) as [(vs' & cx' & E' & _)|[e E']]; eauto. }
    destruct RR as [(vs' & cx' & E')|[e E']]; rewrite E'; [|eauto].
    destruct (is_struct (nth 1 vs' VNone)) eqn:I1, (is_struct (nth 0 vs' VNone)) eqn:I0; cbn [eqb]; try (eexists; reflexivity); apply dispatch_safe; rewrite I0, I1; reflexivity. }
  all: unfold on_packet; rewrite E, E2; unfold new_buffer_reader; cbn [r_length bind r_range]; 
    assert (C : ((0 <? 0) || (zlen b <? zlen b) || (zlen b <? 0))%Z = false) by (unfold zlen; rewrite !orb_false_iff; lia); rewrite C, slice_ok by (unfold zlen; lia); cbn [bind];
    apply dispatch_safe; cbn [is_struct] in S1; rewrite orb_false_r in S1; exact S1.
Qed.

Lemma node_safe : forall H sha (fb : store (option H)) os g fos rs b F, e_run eng_new os = Ok g -> f_run fib_new fos = Ok (fb, rs) -> no_nil_handler fos ->
  bytes_ok b -> no_huge_number b -> (zlen b < mem_limit)%Z -> (length b < F)%nat -> exists nd out, node_recv sha F (mkNode g fb) b = Ok (nd, out).
Proof.
  intros H sha fb os g fos rs b F R1 R2 NN B1 B2 B3 B4. destruct (on_packet_safe sha b F B1 B2 B3 B4) as [ev E]. unfold node_recv. rewrite E. cbn [bind].
  destruct (fib_run_ok H fos fib_new (fib_new_inv H) NN) as (fb' & rs' & E' & FI & _). rewrite R2 in E'. inversion E'; subst fb' rs'.
  destruct ev as [|n r|i raw cov tok face|d cov raw tok]; cbn [node_event n_eng n_fib].
  - eauto.
  - destruct (nack_step os g (the_name n) r R1) as (g' & _ & -> & _). cbn [bind]. eauto.
  - destruct (match_ok H fb (the_name (i_name i)) FI) as (v & -> & _). cbn [bind]. eauto.
  - destruct (data_step os g (the_name (d_name d)) (sha (concat raw)) R1) as (g' & _ & -> & _). cbn [bind]. eauto.
Qed.
