(** C38, C42, C56, C57: the nodes of a schema that express Interests and provide Data
    (pkg/schema/expressing_point.go, leaf_node.go). *)
From Coq Require Import Permutation.
From Verif Require Import Base BaseProofs NameModel TextModel TrieModel TrieSpec PrimModel ReaderModel CodecModel CodecSpec CodecSpec2 CodecLib SpecModel SpecSpec EngineModel EngineSpec SchemaModel StoreModel StoreSpec NeedModel NeedSpec NeedProofs PropsSpec PropsEngine.

(** ** C38: validation *)

(** Which validators are asked, and what they say, is determined. *)
Theorem C38_asked : forall D (vs : list (event D -> verdict)) e, exists l, asked vs e l /\ forall l', asked vs e l' -> l' = l.
Proof. intros D vs e. destruct (asked_dec vs e) as (l & H). exists l. split; [exact H|]. intros l' H'. exact (asked_unique _ _ _ H' _ H). Qed.
Print Assumptions C38_asked.

(** A Data that arrives is shown to the validators.  If the last one asked passes it, it is saved
    and then delivered with its content; otherwise it is delivered as unverified, without content,
    and not saved. *)
Theorem C38_data : forall D (p : point D) x dl d raw cov, exists e0 l acts,
  ev_data e0 = Some d /\ ev_raw e0 = Some raw /\ ev_cov e0 = Some cov /\ ev_content e0 = d_content d /\ ev_valid e0 = Some 0%Z
  /\ asked (p_valid_data p) e0 l /\ need_result p x dl (XData d raw cov) = Ok acts
  /\ (accepted l -> exists e, acts = [ASave e; ACall e] /\ ev_status e = Some SData /\ ev_content e = d_content d /\ ev_data e = Some d
        /\ ev_raw e = Some raw /\ ev_dur e = d_freshness d)
  /\ (~ accepted l -> exists e, acts = [ACall e] /\ ev_status e = Some SUnverified /\ ev_content e = None).
Proof.
  intros D p x dl d raw cov. destruct (data_result p x dl d raw cov) as (e0 & l & acts & H1 & H2 & H3 & H4 & H5 & _ & H6 & H7 & H8 & H9).
  exists e0, l, acts. repeat (split; [assumption|]). split; [|exact H9]. intros A. destruct (H8 A) as (e & K1 & K2 & K3 & K4 & K5 & K6 & _). exists e. auto 10.
Qed.
Print Assumptions C38_data.

(** What is accepted satisfies the documented rule: some validator passes it and none fails it. *)
Theorem C38_sound : forall D (vs : list (event D -> verdict)) e l, asked vs e l -> accepted l -> valid_by_rule l.
Proof. intros D. exact asked_sound. Qed.
Print Assumptions C38_sound.

(** The converse is false: a validator that has no opinion, after one that passes, makes the Data
    unverified. *)
Theorem C38_rule_refuted : exists (p : point unit) x d raw cov l acts, (forall e, asked (p_valid_data p) e l) /\ valid_by_rule l
  /\ need_result p x None (XData d raw cov) = Ok acts /\ forall e, In (ACall e) acts -> ev_status e = Some SUnverified.
Proof.
  exists (mkPoint [] [fun _ => Verdict 1; fun _ => Verdict 0] [] [] false false 0 false), (mkM [] (SNode tt []) [] []), [], [], [], [Verdict 1; Verdict 0].
  eexists. split; [|split; [|split; [vm_compute; reflexivity|]]].
  - intros e. cbn [p_valid_data].
    apply (AskNext _ (fun _ => Verdict 1) _ _ 1); [reflexivity|intros H; inversion H; lia|].
    apply (AskNext _ (fun _ => Verdict 0) _ _ 0); [reflexivity|intros H; inversion H; lia|constructor].
  - split; [exists 1%Z; split; [left; reflexivity|lia]|]. intros v [<-|[<-|[]]]; eexists; (split; [reflexivity|lia]).
  - intros e [H|[]]. injection H as <-. reflexivity.
Qed.
Print Assumptions C38_rule_refuted.

(** the possible verdicts: the validators before the last one asked have no opinion or pass *)
Example C38_example : forall D (e : event D),
  (exists l, asked [fun _ => Verdict 0; fun _ => Verdict 1; fun _ => Verdict 2; fun _ => Verdict (-2)] e l /\ accepted l)
  /\ (exists l, asked [fun _ => Verdict 1; fun _ => Verdict (-2); fun _ => Verdict 2] e l /\ ~ accepted l)
  /\ (exists l, asked [] e l /\ ~ accepted l).
Proof.
  intros D e. split; [|split].
  - exists [Verdict 0; Verdict 1; Verdict 2]. split.
    + apply (AskNext _ (fun _ => Verdict 0) _ _ 0); [reflexivity|intros H; inversion H; lia|].
      apply (AskNext _ (fun _ => Verdict 1) _ _ 1); [reflexivity|intros H; inversion H; lia|].
      apply (AskStop _ (fun _ => Verdict 2)). constructor 3. lia.
    + exists [Verdict 0; Verdict 1], 2%Z. split; [reflexivity|lia].
  - exists [Verdict 1; Verdict (-2)]. split.
    + apply (AskNext _ (fun _ => Verdict 1) _ _ 1); [reflexivity|intros H; inversion H; lia|].
      apply (AskStop _ (fun _ => Verdict (-2))). constructor 2. lia.
    + intros (l & z & E & Z). destruct l as [|? [|? [|]]]; try discriminate. injection E as _ <-. lia.
  - exists []. split; [constructor|]. intros (l & z & E & _). destruct l; discriminate.
Qed.

(** ** C42: Need calls back *)

(** NeedCallback itself calls back exactly once or expresses exactly one Interest ... *)
Theorem C42_start : forall D sha F (p : point D) x app cfg sup nonce acts ok, need sha F p x app cfg sup nonce = Ok (acts, ok) ->
  (calls acts = 1%nat /\ expressed_in acts = 0%nat) \/ (exists w fn c, acts = [AExpress w fn c] /\ ok = true).
Proof. intros D. exact need_start. Qed.
Print Assumptions C42_start.

(** ... every result of the Interest makes exactly one call ... *)
Theorem C42_result : forall D (p : point D) x dl a, exists acts, need_result p x dl a = Ok acts /\ calls acts = 1%nat /\ expressed_in acts = 0%nat.
Proof. intros D. exact need_result_one. Qed.
Print Assumptions C42_result.

(** ... and the Interest, if it could be sent, has exactly one result, at the latest when its
    lifetime and 10 ms are over and its timer ran: whatever else the engine does before, in between
    and after.  Missing: histories with a Nack for that name (C42_nack_refuted). *)
Theorem C42_once_partial : forall D sha F (p : point D) x app cfg sup nonce w fn c, need sha F p x app cfg sup nonce = Ok ([AExpress w fn c], true) ->
  fn <> [] -> forall before after later, let i := length (expressed 0 before) in
  let os := before ++ EExpress fn (ic_prefix c) (ic_life c) :: after in
  ~ nacked (os ++ later) i -> (elapsed before + match ic_life c with Some l => l | None => 4000000000 end + 10000000 <= elapsed os)%Z ->
  exists g, e_run eng_new (os ++ EFire i :: ERun i :: later) = Ok g /\ count_occ Nat.eq_dec (called g) i = 1%nat.
Proof. intros D sha F p x app cfg sup nonce w fn c _. exact (need_once fn c). Qed.
Print Assumptions C42_once_partial.

(** Starting: for every name and every configuration within the formats, when there is no signer, no
    parameters and nothing in the storages, the Interest is made and expressed. *)
Theorem C42_expressed : forall D sha F (p : point D) x cfg sup nonce, p_signers p = [] -> name_typed (m_name x) -> interest_config_ok (int_config p cfg nonce) ->
  (interest_size (m_name x) (int_config p cfg nonce) None + 1000 < packet_limit)%N ->
  (forall f e, In f (p_search p) -> ev_target e = Some x -> f e = None) ->
  exists acts, need sha F p x None cfg sup nonce = Ok (acts, true) /\
    (p_supress p = false -> sup = false -> exists w, acts = [AExpress w (base_name (m_name x)) (int_config p cfg nonce)]
       /\ concat w = interest_packet (base_name (m_name x)) (int_config p cfg nonce) None None None).
Proof. exact need_plain. Qed.
Print Assumptions C42_expressed.

(** If the Interest has an empty name, Express fails, and the one call is the one made then. *)
Theorem C42_empty_name : forall D g cbp life, e_express g [] cbp life = Ok None /\ calls (@express_failed D) = 1%nat.
Proof. intros. split; reflexivity. Qed.
Print Assumptions C42_empty_name.

(** False: if sending fails, Express returns an error, on which Need calls back; the Interest is
    still pending, and when it times out Need calls back again. *)
Theorem C42_send_failure_refuted : exists D sha F (p : point D) x w fn c os g, need sha F p x None None false 0 = Ok ([AExpress w fn c], true)
  /\ os = [EExpress fn (ic_prefix c) (ic_life c); ETick 1010000000; EFire 0; ERun 0] /\ e_run eng_new os = Ok g
  /\ (calls (@express_failed D) + count_occ Nat.eq_dec (called g) 0 = 2)%nat.
Proof.
  exists unit, (fun b => b), 100%nat, (mkPoint [] [] [] [] false false 1000000000 false), (mkM [] (SNode tt []) [] [mkComp 8 [97%N]]).
  do 5 eexists. split; [vm_compute; reflexivity|]. split; [reflexivity|]. split; [vm_compute; reflexivity|]. vm_compute. reflexivity.
Qed.
Print Assumptions C42_send_failure_refuted.

(** ... and with Nacks a single Interest can have two results (C25_at_most_once_refuted). *)
Theorem C42_nack_refuted : exists os g, e_run eng_new os = Ok g /\ count_occ Nat.eq_dec (called g) 2%nat = 2%nat.
Proof. exists double_history. eexists. split; [vm_compute; reflexivity|]. vm_compute. reflexivity. Qed.
Print Assumptions C42_nack_refuted.

(** NeedChan delivers the first call; a second one crashes the program. *)
Theorem C42_chan : forall D (e e' : event D), ev_status e <> None -> ev_status e' <> None ->
  exists ch, chan_callback new_chan e = Ok ch /\ c_buf ch = [e] /\ c_closed ch = true /\ chan_callback ch e' = Panic.
Proof.
  intros D e e' H H'. unfold chan_callback, new_chan. cbn [c_closed c_buf]. destruct (ev_status e) eqn:E; [|congruence].
  eexists. split; [reflexivity|]. split; [reflexivity|]. split; [reflexivity|]. destruct (ev_status e'); [reflexivity|congruence].
Qed.
Print Assumptions C42_chan.

(** ** C56: incoming Interests *)

(** An Interest that arrives at a node is answered from the storages if they have something for its
    name (an implicit digest at the end aside).  Otherwise, if it is signed or has parameters, the
    application sees it exactly if the last validator asked passes it; without signature and
    parameters the application sees it unvalidated. *)
Theorem C56_interest : forall D (p : point D) path nd m i raw cov dl n b, i_name i = Some n -> bare n b -> exists e0 acts,
  ev_int e0 = Some i /\ ev_raw e0 = Some raw /\ ev_cov e0 = Some cov /\ ev_content e0 = i_app_param i /\ ev_deadline e0 = Some dl
  /\ ev_target e0 = Some (mkM path nd m b)
  /\ on_interest p path nd m i raw cov dl = Ok acts
  /\ let query := with_int_cfg (Some (mkIC (i_can_be_prefix i) (i_must_be_fresh i) None None None None)) e0 in
     (forall w, finds query (p_search p) w -> acts = [AReply w])
     /\ ((forall f, In f (p_search p) -> ~ has_something (f query)) ->
         exists l, asked (p_valid_int p) (with_valid 0 e0) l
           /\ ((i_sig_type i <> SigNone \/ i_app_param i <> None) -> accepted l -> exists e, acts = [AHandle e] /\ ev_int e = Some i /\ ev_content e = i_app_param i)
           /\ ((i_sig_type i <> SigNone \/ i_app_param i <> None) -> ~ accepted l -> acts = [])
           /\ (i_sig_type i = SigNone -> i_app_param i = None -> acts = [AHandle e0])).
Proof. exact interest_at_node. Qed.
Print Assumptions C56_interest.

(** one of the two cases applies *)
Theorem C56_cases : forall E (e : E) ls, (exists w, finds e ls w) \/ (forall f, In f ls -> ~ has_something (f e)).
Proof. exact finds_cases. Qed.
Print Assumptions C56_cases.

(** False for the empty name, which crashes the node. *)
Theorem C56_empty_name_refuted : exists (p : point unit) nd i, i_name i = Some [] /\ on_interest p [] nd [] i [] [] 0 = Panic.
Proof.
  exists (mkPoint [] [] [] [] false false 0 false), (SNode tt []), [VNone; VNone; VName []]. split; reflexivity.
Qed.
Print Assumptions C56_empty_name_refuted.

(** the Interest of a packet: signed with parameters, a validator that looks at the signature type *)
Example C56_example : exists i, i_name i = Some [mkComp 8 [97%N]; mkComp 1 [5%N]] /\ bare [mkComp 8 [97%N]; mkComp 1 [5%N]] [mkComp 8 [97%N]] /\ i_app_param i = Some [[7%N]]
  /\ (let node z := mkPoint [fun _ => Verdict z] [] [] [] false false 0%Z false in
      match on_interest (node 1%Z) [] (SNode tt []) [] i [[1%N]] [] 9, on_interest (node (-2)%Z) [] (SNode tt []) [] i [[1%N]] [] 9 with
      | Ok [AHandle e], Ok [] => ev_content e = Some [[7%N]]
      | _, _ => False
      end).
Proof.
  exists [VNone; VNone; VName [mkComp 8 [97%N]; mkComp 1 [5%N]]; VNone; VNone; VNone; VNone; VNone; VNone; VNone; VNone; VWire [[7%N]]; VNone; VNone; VNone; VNone].
  split; [reflexivity|]. split; [apply (BDigest [mkComp 8 [97%N]] (mkComp 1 [5%N])); reflexivity|]. split; [reflexivity|]. vm_compute. reflexivity.
Qed.

(** ** C57: what is provided or fetched is served from the memory storage *)

(** Providing, with a signer or without: the Data has the name, configuration and content asked
    for ... *)
Theorem C57_provide : forall D (l : leaf D) x content cfg now, l_signers l = [] -> let c := match cfg with Some c => c | None => mkDC (Some (l_type l)) (Some (l_fresh l)) None end in
  name_typed (m_name x) -> data_config_ok c -> (data_size (m_name x) c content < packet_limit)%N ->
  exists acts w, provide l x content cfg now = Ok (acts, Some w) /\ concat w = data_packet (m_name x) c content None None.
Proof. exact provide_unsigned. Qed.
Print Assumptions C57_provide.

Theorem C57_provide_signed : forall D (l : leaf D) x content cfg now s ls sc sig, l_signers l = (fun _ => Some s) :: ls -> let c := match cfg with Some c => c | None => mkDC (Some (l_type l)) (Some (l_fresh l)) None end in
  name_typed (m_name x) -> data_config_ok c -> data_sig_ok sc -> sg_info s = Ok (Some sc) ->
  (forall cov, concat cov = data_part (m_name x) c content (Some sc) -> sg_sign s cov = Ok sig) ->
  fits (sg_est s) (nlen sig) -> (data_size (m_name x) c content + sig_size sc + sg_est s < packet_limit)%N ->
  exists acts w, provide l x content cfg now = Ok (acts, Some w) /\ concat w = data_packet (m_name x) c content (Some sc) (Some sig).
Proof. exact provide_signed. Qed.
Print Assumptions C57_provide_signed.

(** ... it is saved, and whatever is put into the storage under other names afterwards, an Interest
    for that name is answered with it, if it does not ask for fresh Data after the time of validity. *)
Theorem C57_provided : forall D (l : leaf D) x content cfg now acts w puts h, provide l x content cfg now = Ok (acts, Some w) -> concat w <> [] -> s_puts s_new puts = Ok h ->
  exists e h', acts = [ASave e] /\ mem_save h now e = Ok h'
    /\ forall more h2, (forall q, In q more -> ~ same_name (fst (fst q)) (m_name x)) -> s_puts h' more = Ok h2 ->
       forall (p : point D) ord now' rest path nd m i raw cov dl nm, (forall k a, Permutation a (ord k a)) -> p_search p = mem_search ord h2 now' :: rest ->
       i_name i = Some nm -> bare nm (m_name x) -> (i_must_be_fresh i = true -> (now' < now + l_valid l)%Z) ->
       on_interest p path nd m i raw cov dl = Ok [AReply w].
Proof.
  intros D l x content cfg now acts w puts h H NE E. destruct (provide_saves D l x content cfg now acts w puts h H E) as (e & h' & A & S1 & S2).
  exists e, h'. split; [exact A|]. split; [exact S1|]. intros more h2 OT E2 p ord now' rest path nd m i raw cov dl nm O P N B FR.
  apply (reply_latest D p ord (puts ++ (m_name x, w, now + l_valid l)%Z :: more) h2 now' (m_name x) w (now + l_valid l)%Z rest path nd m i raw cov dl nm (m_name x)); auto.
  - rewrite (app_cons_assoc puts), puts_app, S2. exact E2.
  - apply latest_other. exact OT.
  - intros ->. apply NE. reflexivity.
  - reflexivity.
Qed.
Print Assumptions C57_provided.

(** The same for Data that was fetched and accepted and has a FreshnessPeriod, if its name has a
    node in the schema. *)
Theorem C57_fetched : forall D (p : point D) x dl d raw cov acts e n t f now puts h, need_result p x dl (XData d raw cov) = Ok acts -> In (ASave e) acts ->
  d_name d = Some n -> refine x n = Ok (Some t) -> d_freshness d = Some f -> raw <> [] -> s_puts s_new puts = Ok h ->
  exists h', mem_save h now e = Ok h'
    /\ forall more h2, (forall q, In q more -> ~ same_name (fst (fst q)) n) -> s_puts h' more = Ok h2 ->
       forall (p' : point D) ord now' rest path nd m i raw' cov' dl' nm, (forall k a, Permutation a (ord k a)) -> p_search p' = mem_search ord h2 now' :: rest ->
       i_name i = Some nm -> bare nm n -> (i_must_be_fresh i = true -> (now' < now + f)%Z) ->
       on_interest p' path nd m i raw' cov' dl' = Ok [AReply raw].
Proof.
  intros D p x dl d raw cov acts e n t f now puts h H IN DN RF FR NE E.
  destruct (data_result p x dl d raw cov) as (e0 & l & acts' & _ & _ & _ & _ & _ & (t' & RT & T0) & A & Q & ACC & NACC).
  assert (acts' = acts) by congruence. subst acts'. rewrite DN in RT. cbn [the_name] in RT. assert (T1 : ev_target e0 = Some t) by congruence.
  pose proof (refine_name _ _ _ _ RF) as TN.
  assert (AC : accepted l).
  { destruct (accepted_dec l) as [AC|AC]; auto. destruct (NACC AC) as (e1 & -> & _). destruct IN as [IN|[]]. discriminate. }
  destruct (ACC AC) as (e1 & -> & _ & _ & _ & RA & DU & TA). destruct IN as [IN|[IN|[]]]; [injection IN as <-|discriminate].
  rewrite T1 in TA. rewrite FR in DU. destruct (saved puts h now e1 t f raw E TA DU RA) as (h' & S1 & S2). exists h'. split; [exact S1|].
  intros more h2 OT E2 p' ord now' rest path nd m i raw' cov' dl' nm O P N B FF. rewrite TN in S2.
  apply (reply_latest D p' ord (puts ++ (n, raw, now + f)%Z :: more) h2 now' n raw (now + f)%Z rest path nd m i raw' cov' dl' nm n); auto.
  - rewrite (app_cons_assoc puts), puts_app, S2. exact E2.
  - apply latest_other. exact OT.
  - reflexivity.
Qed.
Print Assumptions C57_fetched.

(** The same for Need in place of an Interest from outside: without sending anything, the callback
    gets the packet, if it names no empty component and its content has no empty buffer. *)
Theorem C57_need_partial : forall D (l : leaf D) x content cfg now puts h, l_signers l = [] -> let c := match cfg with Some c => c | None => mkDC (Some (l_type l)) (Some (l_fresh l)) None end in
  name_typed (m_name x) -> data_config_ok c -> (data_size (m_name x) c content < packet_limit)%N -> full_name (m_name x) -> full_content content -> s_puts s_new puts = Ok h ->
  exists w e h', provide l x content cfg now = Ok ([ASave e], Some w) /\ mem_save h now e = Ok h'
    /\ forall more h2, (forall q, In q more -> ~ same_name (fst (fst q)) (m_name x)) -> s_puts h' more = Ok h2 ->
       forall sha F (p : point D) ord now' rest x' cfg' sup nonce, (forall k a, Permutation a (ord k a)) -> p_search p = mem_search ord h2 now' :: rest ->
       (forall f e, In f (p_signers p) -> f e = None) -> m_name x' = m_name x -> (ic_fresh (int_config p cfg' nonce) = true -> (now' < now + l_valid l)%Z) ->
       (length (concat w) < F)%nat ->
       exists ev, need sha F p x' None cfg' sup nonce = Ok ([ACall ev], true) /\ answered_with ev x' w (m_name x) c content None None.
Proof.
  intros D l x content cfg now puts h SG c NT DC SZ FN FC E.
  destruct (C19_unsigned_wire_partial (m_name x) c content None None (S (length (data_packet (m_name x) c content None None))) NT DC eq_refl) as (w & _ & _ & M & CW & _ & _ & _); [cbn [olen]; lia|lia|split; [exact FN|exact I]|exact FC|].
  assert (P : exists acts, provide l x content cfg now = Ok (acts, Some w)) by (unfold provide; fold c; rewrite SG; unfold get_signer; cbn [dispatch_until fst]; rewrite M; eauto).
  destruct P as (acts & P). destruct (provide_saves D l x content cfg now acts w puts h P E) as (e & h' & -> & S1 & S2). exists w, e, h'. split; [exact P|]. split; [exact S1|].
  intros more h2 OT E2 sha F p ord now' rest x' cfg' sup nonce O PS NS XN FR LF.
  rewrite <- XN in *. apply (need_stored D sha F p ord (puts ++ (m_name x', w, now + l_valid l)%Z :: more) h2 now' w (now + l_valid l)%Z rest x' cfg' sup nonce c content None None); auto.
  - rewrite (app_cons_assoc puts), puts_app, S2. exact E2.
  - apply latest_other. exact OT.
  - destruct (C19_unsigned_wire_partial (m_name x') c content None None F NT DC eq_refl) as (w2 & d & cv & M2 & _ & R & DR & _); [cbn [olen]; lia|rewrite <- CW; exact LF|split; [exact FN|exact I]|exact FC|].
    assert (w2 = w) by congruence. subst w2. eauto.
  - intros ->. cbn in CW. revert CW. apply not_eq_sym. unfold data_packet. apply tlv_nonempty.
Qed.
Print Assumptions C57_need_partial.

Theorem C57_need_signed_partial : forall D (l : leaf D) x content cfg now puts h s ls sc sig, l_signers l = (fun _ => Some s) :: ls -> let c := match cfg with Some c => c | None => mkDC (Some (l_type l)) (Some (l_fresh l)) None end in
  name_typed (m_name x) -> data_config_ok c -> data_sig_ok sc -> sg_info s = Ok (Some sc) ->
  (forall cov, concat cov = data_part (m_name x) c content (Some sc) -> sg_sign s cov = Ok sig) ->
  fits (sg_est s) (nlen sig) -> (data_size (m_name x) c content + sig_size sc + sg_est s < packet_limit)%N ->
  full_names (m_name x) (Some sc) -> full_content content -> s_puts s_new puts = Ok h ->
  exists w e h', provide l x content cfg now = Ok ([ASave e], Some w) /\ mem_save h now e = Ok h'
    /\ forall more h2, (forall q, In q more -> ~ same_name (fst (fst q)) (m_name x)) -> s_puts h' more = Ok h2 ->
       forall sha F (p : point D) ord now' rest x' cfg' sup nonce, (forall k a, Permutation a (ord k a)) -> p_search p = mem_search ord h2 now' :: rest ->
       (forall f e, In f (p_signers p) -> f e = None) -> m_name x' = m_name x -> (ic_fresh (int_config p cfg' nonce) = true -> (now' < now + l_valid l)%Z) ->
       (length (concat w) < F)%nat ->
       exists ev, need sha F p x' None cfg' sup nonce = Ok ([ACall ev], true) /\ answered_with ev x' w (m_name x) c content (Some sc) (Some sig).
Proof.
  intros D l x content cfg now puts h s ls sc sig SG c NT DC DS SI SS FI SZ FN FC E.
  destruct (C19_signed_wire_partial (m_name x) c content s sc sig (S (length (data_packet (m_name x) c content (Some sc) (Some sig)))) NT DC DS SI SS FI SZ (Nat.lt_succ_diag_r _) FN FC) as (w & cv & _ & _ & M & CW & _ & _ & _ & _).
  assert (P : exists acts, provide l x content cfg now = Ok (acts, Some w)) by (unfold provide; fold c; rewrite SG; unfold get_signer; cbn [dispatch_until fst]; rewrite M; eauto).
  destruct P as (acts & P). destruct (provide_saves D l x content cfg now acts w puts h P E) as (e & h' & -> & S1 & S2). exists w, e, h'. split; [exact P|]. split; [exact S1|].
  intros more h2 OT E2 sha F p ord now' rest x' cfg' sup nonce O PS NS XN FR LF.
  rewrite <- XN in *. apply (need_stored D sha F p ord (puts ++ (m_name x', w, now + l_valid l)%Z :: more) h2 now' w (now + l_valid l)%Z rest x' cfg' sup nonce c content (Some sc) (Some sig)); auto.
  - rewrite (app_cons_assoc puts), puts_app, S2. exact E2.
  - apply latest_other. exact OT.
  - rewrite CW in LF. destruct (C19_signed_wire_partial (m_name x') c content s sc sig F NT DC DS SI SS FI SZ LF FN FC) as (w2 & cv2 & d & cv3 & M2 & _ & R & DR & _ & _).
    assert (w2 = w) by congruence. subst w2. eauto.
  - intros ->. cbn in CW. revert CW. apply not_eq_sym. unfold data_packet. apply tlv_nonempty.
Qed.
Print Assumptions C57_need_signed_partial.

(** With empty buffers it is false: a content of three buffers, two of them empty, is provided and
    signed, and Need of the same name crashes on what the storage has. *)
Theorem C57_need_refuted : exists (l : leaf unit) x content w e h', provide l x content None 5 = Ok ([ASave e], Some w) /\ full_name (m_name x) /\ mem_save s_new 5 e = Ok h'
  /\ (exists d cov, read_data 100 (new_buffer_reader (concat w)) = Ok (d, cov) /\ d_content d = Some [[1%N]])
  /\ need (fun _ => []) 200 (mkPoint [] [] [mem_search (fun _ a => a) h' 6] [] false true 0 false) x None None false 7 = Panic.
Proof.
  exists (mkLeaf [fun _ => Some (mkSigner (Ok (Some (mkSC 3 None None None None None None))) 70 (fun _ => Ok [5; 5; 5]%N))] 0%N 60000000000%Z 1000%Z),
    (mkM [] (SNode tt []) [] [mkComp 8 [97%N]]), (Some [[1]; []; []]%N).
  do 3 eexists. split; [vm_compute; reflexivity|]. split; [repeat constructor; discriminate|]. split; [vm_compute; reflexivity|].
  split; [do 2 eexists; split; [vm_compute; reflexivity|reflexivity]|]. vm_compute. reflexivity.
Qed.
Print Assumptions C57_need_refuted.

(** Data that was fetched is in one buffer, whatever its sender did. *)
Theorem C57_need_fetched : forall D n c content osc osig puts h now v more h2, name_typed n -> data_config_ok c -> all_of data_sig_ok osc -> all_of (fun s => (0 < nlen s)%N) osig ->
  (data_size n c content + olen sig_size osc + olen (@nlen N) osig < packet_limit)%N -> full_names n osc -> s_puts s_new puts = Ok h ->
  let w := [data_packet n c content osc osig] in
  s_puts h ((n, w, v) :: more) = Ok h2 -> (forall q, In q more -> ~ same_name (fst (fst q)) n) ->
  forall sha F (p : point D) ord rest x cfg sup nonce, (forall k a, Permutation a (ord k a)) -> p_search p = mem_search ord h2 now :: rest ->
  (forall f e, In f (p_signers p) -> f e = None) -> m_name x = n -> (ic_fresh (int_config p cfg nonce) = true -> (now < v)%Z) -> (length (concat w) < F)%nat ->
  exists ev, need sha F p x None cfg sup nonce = Ok ([ACall ev], true) /\ answered_with ev x w n c content osc osig.
Proof.
  intros D n c content osc osig puts h now v more h2 NT DC DS OS SZ FN E w E2 OT sha F p ord rest x cfg sup nonce O PS NS XN FR LF. subst n.
  apply (need_stored D sha F p ord (puts ++ (m_name x, w, v) :: more) h2 now w v rest x cfg sup nonce c content osc osig); auto.
  - rewrite puts_app, E. exact E2.
  - apply latest_other. exact OT.
  - unfold w in LF. cbn [concat] in LF. rewrite app_nil_r in LF.
    destruct (C19_read_wire (m_name x) c content osc osig F w NT DC DS OS SZ LF FN) as (d & cov & R & DR & _); [| | |eauto].
    + constructor; [apply tlv_nonempty|constructor].
    + unfold w. cbn [concat]. apply app_nil_r.
    + unfold beyond_header, w. cbn [concat hd]. rewrite app_nil_r. assert (0 < zlen (data_part (m_name x) c content osc ++ opt_tlv 23 osig))%Z; [|lia].
      rewrite zlen_app. unfold data_part. rewrite zlen_app. pose proof (zlen_nonneg (opt_tlv 23 osig)).
      match goal with |- (0 < zlen ?a + zlen ?b + _)%Z => pose proof (zlen_nonneg b); assert (0 < zlen a)%Z; [|lia] end.
      unfold zlen. pose proof (tlv_nonempty 7 (name_enc (m_name x))). destruct (tlv 7 (name_enc (m_name x))); [congruence|]. cbn [length]. lia.
  - discriminate.
Qed.
Print Assumptions C57_need_fetched.

(** False without a FreshnessPeriod, or if the name of the Data has no node: the storage crashes. *)
Theorem C57_freshness_refuted : exists (p : point unit) x d raw acts e, need_result p x None (XData d raw []) = Ok acts /\ In (ASave e) acts
  /\ d_name d = Some (m_name x) /\ d_freshness d = None /\ mem_save s_new 0 e = Panic.
Proof.
  exists (mkPoint [] [fun _ => Verdict 1] [] [] false false 0 false), (mkM [] (SNode tt []) [] [mkComp 8 [97%N]]),
    [VNone; VNone; VName [mkComp 8 [97%N]]], [[6%N]].
  do 2 eexists. split; [vm_compute; reflexivity|]. split; [left; reflexivity|]. repeat split.
Qed.
Print Assumptions C57_freshness_refuted.

Theorem C57_node_refuted : exists (p : point unit) x d raw acts e n, need_result p x None (XData d raw []) = Ok acts /\ In (ASave e) acts
  /\ d_name d = Some n /\ is_prefix (m_name x) n = true /\ d_freshness d <> None /\ mem_save s_new 0 e = Panic.
Proof.
  exists (mkPoint [] [fun _ => Verdict 1] [] [] true false 0 false), (mkM [] (SNode tt []) [] [mkComp 8 [97%N]]),
    [VNone; VNone; VName [mkComp 8 [97%N]; mkComp 8 [98%N]]; VStruct [VNone; VTime 10000000; VNone]], [[6%N]].
  do 3 eexists. split; [vm_compute; reflexivity|]. split; [left; reflexivity|]. split; [reflexivity|]. split; [reflexivity|]. split; [discriminate|]. reflexivity.
Qed.
Print Assumptions C57_node_refuted.

(** a provided packet, then another put, then an Interest for it *)
Example C57_example : let l := mkLeaf [] 0%N 60000000000%Z 1000%Z in let x := mkM [] (SNode tt []) [] [mkComp 8 [97%N]] in
  exists acts w e h' h2, provide l x (Some [[1%N]; [2%N]]) None 5 = Ok (acts, Some w) /\ concat w <> [] /\ acts = [ASave e] /\ mem_save s_new 5 e = Ok h'
  /\ s_puts h' [([mkComp 8 [98%N]], [[9%N]], 7%Z)] = Ok h2
  /\ on_interest (mkPoint [] [] [mem_search (fun _ a => a) h2 1004] [] false false 0 false) [] (SNode tt []) []
       [VNone; VNone; VName [mkComp 8 [97%N]]; VNone; VBool true; VNone; VNone; VNone; VNone; VNone; VNone; VNone; VNone; VNone; VNone] [] [] 0 = Ok [AReply w].
Proof.
  do 5 eexists. split; [vm_compute; reflexivity|]. split; [discriminate|]. split; [reflexivity|]. split; [vm_compute; reflexivity|]. split; [vm_compute; reflexivity|]. vm_compute. reflexivity.
Qed.

(** providing with a signer, then Need of the same name *)
Example C57_need_example : let sg := mkSigner (Ok (Some (mkSC 3 (Some [mkComp 8 [75%N]]) None None None None None))) 70 (fun _ => Ok [5; 5; 5]%N) in
  let l := mkLeaf [fun _ : event unit => Some sg] 0%N 60000000000%Z 1000%Z in let x := mkM [] (SNode tt []) [] [mkComp 8 [97%N]] in
  exists w e h' ev, provide l x (Some [[1%N]; [2%N]]) None 5 = Ok ([ASave e], Some w) /\ (length w = 5)%nat /\ mem_save s_new 5 e = Ok h'
  /\ full_content (Some [[1%N]; [2%N]]) /\ full_names (m_name x) (Some (mkSC 3 (Some [mkComp 8 [75%N]]) None None None None None))
  /\ need (fun _ => []) 200 (mkPoint [] [] [mem_search (fun _ a => a) h' 1004] [] false true 0 false) x None None false 7 = Ok ([ACall ev], true)
  /\ option_map (@concat N) (ev_content ev) = Some [1; 2]%N.
Proof.
  do 4 eexists. split; [vm_compute; reflexivity|]. split; [reflexivity|]. split; [vm_compute; reflexivity|]. split; [repeat constructor; discriminate|].
  split; [split; repeat constructor; discriminate|]. split; [vm_compute; reflexivity|]. vm_compute. reflexivity.
Qed.
