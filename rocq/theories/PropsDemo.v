(** C61: the trust schema of SignedByPolicy.  C62: the key store (pkg/schema/demosec). *)
From Verif Require Import Base BaseProofs PrimModel NameModel ReaderModel CodecModel CodecSpec CodecSpec2 SpecModel SpecSpec PropsSpec SchemaModel SchemaSpec SchemaProofs PropsSchema NeedModel NeedSpec NeedProofs SecModel SecSpec SecProofs DemoModel DemoSpec DemoProofs.
From Verif Require Import NameProofs OrderProofs PatternProofs.

(** ** C61 *)
(** The name of the key: the pattern of the key node with the values of the Data's name, those in the mapping
    replaced.  There is one unless a variable of the key's pattern does not occur in the Data's. *)
Theorem C61_key_name : forall p m, strings_for (b_map p) m ->
  exists o, convert_name p m = Ok o /\ (forall n, o = Some n -> key_for p m n) /\ (o = None <-> exists ty tag, In (PVar ty tag) (b_path p) /\ mget m tag = None).
Proof. intros p m H. destruct (convert_name_total p m H) as (o & E & I). exists o. split; [exact E|]. split; [|exact I]. intros n ->. apply convert_name_ok. exact E. Qed.
Print Assumptions C61_key_name.

(** A Data is signed with the key of that name, if it is in the store. *)
Theorem C61_signs : forall D hmac p st (l : leaf D) x content cfg now kn k, (forall k b, length (hmac k b) = 32%nat) ->
  l_signers l = [by_signer_l hmac p st] -> convert_name p (m_match x) = Ok (Some kn) -> get_key st kn = Some k ->
  let c := match cfg with Some c => c | None => mkDC (Some (l_type l)) (Some (l_fresh l)) None end in
  name_typed (m_name x) -> name_typed kn -> data_config_ok c -> (data_size (m_name x) c content + nlen (name_enc kn) + 32 < packet_limit)%N ->
  exists acts w, provide l x content cfg now = Ok (acts, Some w)
    /\ forall F, (length (concat w) < F)%nat -> exists d cov, read_data F (new_buffer_reader (concat w)) = Ok (d, cov) /\ cov <> []
       /\ d_name d = Some (m_name x) /\ joined (d_content d) = joined content /\ d_sig_type d = 4%Z /\ d_key_name d = Some kn
       /\ sig_bytes d = hmac (k_bits k) (concat cov).
Proof. exact by_provides. Qed.
Print Assumptions C61_signs.

(** A Data that arrives is accepted exactly if it has an HMAC, the key of that name can be fetched, and the
    HMAC is right. *)
Theorem C61_accepts : forall D hmac p need (q : point D) y dl d raw cov x kn, p_valid_data q = [by_valid_l hmac p need] ->
  refine y (the_name (d_name d)) = Ok (Some x) -> convert_name p (m_match x) = Ok (Some kn) ->
  let good := cov <> [] /\ d_sig_type d = 4%Z /\ fst (need kn) = SData /\ sig_bytes d = hmac (joined (snd (need kn))) (concat cov) in
  (good -> exists e, need_result q y dl (XData d raw cov) = Ok [ASave e; ACall e] /\ ev_status e = Some SData /\ ev_content e = d_content d)
  /\ (~ good -> exists e, need_result q y dl (XData d raw cov) = Ok [ACall e] /\ ev_status e = Some SUnverified /\ ev_content e = None).
Proof. exact by_result. Qed.
Print Assumptions C61_accepts.

(** So what a producer with the key provides is accepted by a consumer that asks for it, by a prefix or its
    name, and can fetch the key. *)
Theorem C61_end_to_end : forall D hmac p st need prefix (t : stree D) a b x y (l : leaf D) (q : point D) content cfg now kn k,
  (forall k b, length (hmac k b) = 32%nat) ->
  match_name prefix t (prefix ++ a) = Some y -> (a = [] \/ plain (last a (mkComp 0 []))) -> match_name prefix t (prefix ++ a ++ b) = Some x ->
  l_signers l = [by_signer_l hmac p st] -> p_valid_data q = [by_valid_l hmac p need] ->
  convert_name p (m_match x) = Ok (Some kn) -> get_key st kn = Some k -> fst (need kn) = SData -> joined (snd (need kn)) = k_bits k ->
  let c := match cfg with Some c => c | None => mkDC (Some (l_type l)) (Some (l_fresh l)) None end in
  name_typed (prefix ++ a ++ b) -> name_typed kn -> data_config_ok c -> (data_size (prefix ++ a ++ b) c content + nlen (name_enc kn) + 32 < packet_limit)%N ->
  exists acts w, provide l x content cfg now = Ok (acts, Some w)
    /\ forall F dl raw, (length (concat w) < F)%nat -> exists d cov, read_data F (new_buffer_reader (concat w)) = Ok (d, cov)
       /\ exists e, need_result q y dl (XData d raw cov) = Ok [ASave e; ACall e] /\ ev_status e = Some SData /\ joined (ev_content e) = joined content.
Proof.
  intros D hmac p st need prefix t a b x y l q content cfg now kn k HL MY PA MX LS PV CN GK N1 N2 c NT KT DC LIM.
  assert (NX : m_name x = prefix ++ a ++ b). { unfold match_name in MX. destruct (negb _); [discriminate|]. destruct (continue_match _ _ _) as [[[? ?] ?]|]; [|discriminate]. injection MX as <-. reflexivity. }
  rewrite <- NX in NT, LIM. destruct (by_provides D hmac p st l x content cfg now kn k HL LS CN GK NT KT DC LIM) as (acts & w & P & R).
  exists acts, w. split; [exact P|]. intros F dl raw LF. destruct (R F LF) as (d & cov & R1 & R2 & R3 & R4 & R5 & R6 & R7). exists d, cov. split; [exact R1|].
  destruct (by_result D hmac p need q y dl d raw cov x kn PV) as (A & _); [|exact CN|].
  - rewrite R3, NX. cbn [the_name]. rewrite (refine_match D prefix t a b y MY PA), MX. reflexivity.
  - destruct A as (e & A1 & A2 & A3); [|exists e; split; [exact A1|]; split; [exact A2|]; rewrite A3; exact R4].
    split; [exact R2|]. split; [exact R5|]. split; [exact N1|]. rewrite N2. exact R7.
Qed.
Print Assumptions C61_end_to_end.

(** False: that the packet must name its key.  A Data whose key locator names any other key is accepted, if it
    was made with the right one. *)
Theorem C61_locator_refuted : forall D hmac p need (q : point D) x kn key other c content, (forall k b, length (hmac k b) = 32%nat) ->
  p_valid_data q = [by_valid_l hmac p need] -> refine x (m_name x) = Ok (Some x) -> convert_name p (m_match x) = Ok (Some kn) -> fst (need kn) = SData -> joined (snd (need kn)) = key ->
  name_typed (m_name x) -> name_typed other -> data_config_ok c -> (data_size (m_name x) c content + nlen (name_enc other) + 32 < packet_limit)%N ->
  exists w cov, make_data (Some (m_name x)) (Some c) content (Some (hmac_signer hmac (Some other) key false no_moment)) = Ok (w, Some cov)
    /\ forall F dl raw, (length (concat w) < F)%nat -> exists d cov', read_data F (new_buffer_reader (concat w)) = Ok (d, cov') /\ d_key_name d = Some other
       /\ exists e, need_result q x dl (XData d raw cov') = Ok [ASave e; ACall e] /\ ev_status e = Some SData.
Proof.
  intros D hmac p need q x kn key other c content HL PV RF CN N1 N2 NT OT DC LIM. destruct (signed_hmac hmac (m_name x) c content other key HL NT DC OT LIM) as (w & cov & A1 & A2).
  exists w, cov. split; [exact A1|]. intros F dl raw LF. destruct (A2 F LF) as (d & cov' & R1 & R2 & R3 & R4 & R5 & R6 & _ & R7). exists d, cov'. split; [exact R1|]. split; [exact R6|].
  destruct (by_result D hmac p need q x dl d raw cov' x kn PV) as (A & _); [rewrite R3; exact RF|exact CN|]. destruct A as (e & B1 & B2 & _); [|exists e; auto].
  split; [exact R2|]. split; [exact R5|]. split; [exact N1|]. rewrite N2. exact R7.
Qed.
Print Assumptions C61_locator_refuted.

(** False: a variable of the key's pattern that is in the mapping but not in the Data's pattern has no value: the
    Data is left unsigned, and a received HMAC signed Data crashes the program. *)
Theorem C61_mapping_refuted : forall D hmac p st need x ty tag s, entry (b_map p) tag = Some (Some s) -> In (PVar ty tag) (b_path p) -> mget (m_match x) tag = None -> strings_for (b_map p) (m_match x) ->
  (forall e : event D, ev_target e = Some x -> by_signer hmac p st e = Ok None)
  /\ (forall (e : event D) b cov d, ev_target e = Some x -> ev_cov e = Some (b :: cov) -> ev_data e = Some d -> d_sig_type d = 4%Z -> by_valid hmac p need e = Panic).
Proof.
  intros D hmac p st need x ty tag s MP I G SF. destruct (convert_name_total p (m_match x) SF) as (o & E & W). assert (o = None) by (apply W; eauto). subst o. split.
  - intros e T. unfold by_signer. rewrite T, E. reflexivity.
  - intros e b cov d T C DD TY. unfold by_valid. rewrite T, C, DD, TY. cbn [Z.eqb Pos.eqb SigHmac negb]. rewrite E. reflexivity.
Qed.
Print Assumptions C61_mapping_refuted.

(** False: a Data with a name below the Interest's that is at no node of the tree crashes the program ... *)
Theorem C61_unmatched_refuted : (forall D hmac p need (e : event D), ev_target e = None -> by_valid hmac p need e = Panic)
  /\ exists (t : stree nat) y n r, match_name [] t n = Some y /\ refine y (n ++ r) = Ok None.
Proof.
  split; [intros D hmac p need e T; unfold by_valid; rewrite T; reflexivity|].
  exists (SNode 0%nat [(PComp ca, SNode 1%nat [])]). eexists. exists [ca], [cb]. split; vm_compute; reflexivity.
Qed.
Print Assumptions C61_unmatched_refuted.

(** False: if a consumer asks for a Data with its implicit digest, the digest becomes a part of the name of the key. *)
Theorem C61_digest_refuted : forall D p prefix (t : stree D) r dg y kn, Forall plain r -> match_name prefix t (prefix ++ r ++ digests None (Some dg)) = Some y ->
  entry (b_map p) tag_digest = None -> 
  exists x, refine y (prefix ++ r) = Ok (Some x) /\ (convert_name p (m_match x) = Ok (Some kn) -> exists kn', kn = kn' ++ [mkComp TypeImplicitSha256Digest dg]).
Proof.
  intros D p prefix t r dg y kn PL MY MP. exists (mkM (m_path y) (m_node y) (m_match y) (prefix ++ r)). split.
  - apply (refine_digest D prefix t (prefix ++ r) dg). rewrite <- app_assoc. exact MY.
  - cbn [m_match]. intros H. apply convert_name_ok in H. destruct H as (r' & -> & _). apply match_iff in MY; [|exact PL]. destruct MY as (_ & MM & _).
    assert (K : key_value (b_map p) (m_match y) tag_digest = Some dg). { unfold key_value. rewrite MM, tail_get, beq_refl, MP. reflexivity. }
    rewrite K. unfold digests. rewrite !app_assoc. eexists. reflexivity.
Qed.
Print Assumptions C61_digest_refuted.

(** ** C62 *)
(** Enrolling a key makes a certificate signed with the signing key, and stores both under a name that is not
    in use; other keys stay. *)
Theorem C62_enroll : forall hmac st n bits sn k, (forall k b, length (hmac k b) = 32%nat) -> get_key st sn = Some k -> name_typed n ->
  (2 * nlen (name_enc n) + nlen bits + 32 < packet_limit)%N ->
  exists st', enroll_key hmac st n bits sn = Ok (st', true)
    /\ (forall n', n' <> n -> get_key st' n' = get_key st n')
    /\ (get_key st n = None -> exists new, get_key st' n = Some new /\ k_name new = n /\ k_bits new = bits
         /\ forall F, (length (k_cert new) < F)%nat -> exists d cov, read_data F (new_buffer_reader (k_cert new)) = Ok (d, cov)
            /\ d_name d = Some n /\ joined (d_content d) = bits /\ d_content_type d = Some 2%N
            /\ hmac_validate hmac cov (d_sig_type d) (sig_bytes d) (k_bits k) = true).
Proof.
  intros hmac st n bits sn k HL GK NT LIM.
  destruct (signed_hmac hmac n cert_config (Some [bits]) n (k_bits k) HL NT cert_config_ok NT) as (w & cov & A1 & A2).
  { unfold data_size. cbn [cert_config dc_final olen concat]. rewrite app_nil_r. lia. }
  exists (save_key st n bits (concat w)). split; [unfold enroll_key; rewrite GK, A1; reflexivity|]. split.
  - intros n' NE. rewrite get_save. destruct (get_key st n'); [reflexivity|]. destruct (name_equal n' n) eqn:E; [apply name_equal_iff in E; congruence|reflexivity].
  - intros GN. exists (mkKey n bits (concat w)). split; [rewrite get_save, GN, (proj2 (name_equal_iff n n) eq_refl); reflexivity|]. split; [reflexivity|]. split; [reflexivity|]. cbn [k_cert].
    intros F LF. destruct (A2 F LF) as (d & cov' & R1 & R2 & R3 & R4 & R5 & R6 & R8 & R7). exists d, cov'. split; [exact R1|]. split; [exact R3|]. split; [rewrite R4; cbn; apply app_nil_r|]. split; [exact R8|].
    unfold hmac_validate, check_hmac. rewrite R5, R7. apply beq_refl.
Qed.
Print Assumptions C62_enroll.

(** False: that the certificate names the key it was signed with.  It names itself. *)
Theorem C62_locator_refuted : forall hmac st n bits sn k, (forall k b, length (hmac k b) = 32%nat) -> get_key st sn = Some k -> get_key st n = None -> name_typed n ->
  (2 * nlen (name_enc n) + nlen bits + 32 < packet_limit)%N ->
  exists st' new, enroll_key hmac st n bits sn = Ok (st', true) /\ get_key st' n = Some new
    /\ forall F, (length (k_cert new) < F)%nat -> exists d cov, read_data F (new_buffer_reader (k_cert new)) = Ok (d, cov) /\ d_key_name d = Some n.
Proof.
  intros hmac st n bits sn k HL GK GN NT LIM.
  destruct (signed_hmac hmac n cert_config (Some [bits]) n (k_bits k) HL NT cert_config_ok NT) as (w & cov & A1 & A2).
  { unfold data_size. cbn [cert_config dc_final olen concat]. rewrite app_nil_r. lia. }
  exists (save_key st n bits (concat w)), (mkKey n bits (concat w)). split; [unfold enroll_key; rewrite GK, A1; reflexivity|].
  split; [rewrite get_save, GN, (proj2 (name_equal_iff n n) eq_refl); reflexivity|]. intros F LF. destruct (A2 F LF) as (d & cov' & R1 & _ & _ & _ & _ & R6 & _). eauto.
Qed.
Print Assumptions C62_locator_refuted.

(** Whatever is done to a store afterwards, a key stays what it is (and so does a key that is not there: nothing
    but the first key saved under its name) ... *)
Theorem C62_history : forall hmac F st os st' n, k_run hmac F st os = Ok st' ->
  (forall k, get_key st n = Some k -> k_name k = n /\ get_key st' n = Some k) /\ (exists more, st' = st ++ more).
Proof.
  intros hmac F st os st' n H. destruct (run_grows _ _ _ _ _ H) as (more & ->). split; [|eauto]. intros k G. split; [apply (get_name _ _ _ G)|]. rewrite get_app, G. reflexivity.
Qed.
Print Assumptions C62_history.

(** ... so keys cannot be renewed: a key enrolled, saved or trusted under a name in use is reported stored, but
    is never used. *)
Theorem C62_renew_refuted : forall hmac st n bits sn k k0 cert, (forall k b, length (hmac k b) = 32%nat) -> get_key st sn = Some k -> get_key st n = Some k0 -> name_typed n ->
  (2 * nlen (name_enc n) + nlen bits + 32 < packet_limit)%N ->
  (exists st', enroll_key hmac st n bits sn = Ok (st', true) /\ get_key st' n = Some k0) /\ get_key (save_key st n bits cert) n = Some k0.
Proof.
  intros hmac st n bits sn k k0 cert HL GK G0 NT LIM. split; [|rewrite get_save, G0; reflexivity]. 
  destruct (signed_hmac hmac n cert_config (Some [bits]) n (k_bits k) HL NT cert_config_ok NT) as (w & cov & A1 & A2).
  { unfold data_size. cbn [cert_config dc_final olen concat]. rewrite app_nil_r. lia. }
  exists (save_key st n bits (concat w)). split; [unfold enroll_key; rewrite GK, A1; reflexivity|]. rewrite get_save, G0. reflexivity.
Qed.
Print Assumptions C62_renew_refuted.

(** A trust anchor is taken exactly if it is a Data packet whose signature is the HMAC with its own content. *)
Theorem C62_anchor : forall hmac F st cert,
  (forall d cov, read_data F (new_buffer_reader cert) = Ok (d, cov) -> sig_bytes d = hmac (joined (d_content d)) (concat cov) ->
     exists n, d_name d = Some n /\ add_anchor hmac F st cert = Ok (st ++ [mkKey n (joined (d_content d)) cert], true))
  /\ (forall d cov, read_data F (new_buffer_reader cert) = Ok (d, cov) -> sig_bytes d <> hmac (joined (d_content d)) (concat cov) -> add_anchor hmac F st cert = Ok (st, false))
  /\ (forall e, read_data F (new_buffer_reader cert) = Err e -> add_anchor hmac F st cert = Ok (st, false)).
Proof.
  intros hmac F st cert. unfold add_anchor. split; [|split].
  - intros d cov R S. rewrite R. cbv zeta. unfold check_hmac. rewrite <- S, beq_refl.
    assert (N : exists n, d_name d = Some n).
    { unfold read_data in R. destruct (m_parse _ _ _ _) as [(vs, cx)| | |]; cbn [bind] in R; try discriminate. destruct (nth 1 vs VNone) eqn:E1; try discriminate.
      match type of R with context [nth 2 ?l VNone] => destruct (nth 2 l VNone) eqn:E; try discriminate end. injection R as <- _. unfold d_name. rewrite E. cbn. eauto. }
    destruct N as (n & N). exists n. rewrite N. split; reflexivity.
  - intros d cov R S. rewrite R. cbv zeta. unfold check_hmac. destruct (bytes_eqb _ _) eqn:B; [apply beq_iff in B; congruence|reflexivity].
  - intros e R. rewrite R. reflexivity.
Qed.
Print Assumptions C62_anchor.

(** ... in particular a self-signed certificate is. *)
Theorem C62_self_signed : forall hmac st n bits, (forall k b, length (hmac k b) = 32%nat) -> name_typed n -> (2 * nlen (name_enc n) + nlen bits + 32 < packet_limit)%N ->
  exists w cov, make_data (Some n) (Some cert_config) (Some [bits]) (Some (hmac_signer hmac (Some n) bits false no_moment)) = Ok (w, Some cov)
    /\ forall F, (length (concat w) < F)%nat -> add_anchor hmac F st (concat w) = Ok (st ++ [mkKey n bits (concat w)], true).
Proof.
  intros hmac st n bits HL NT LIM. destruct (signed_hmac hmac n cert_config (Some [bits]) n bits HL NT cert_config_ok NT) as (w & cov & A1 & A2).
  { unfold data_size. cbn [cert_config dc_final olen concat]. rewrite app_nil_r. lia. }
  exists w, cov. split; [exact A1|]. intros F LF. destruct (A2 F LF) as (d & cov' & R1 & R2 & R3 & R4 & R5 & R6 & R8 & R7). cbn [joined concat] in R4. rewrite app_nil_r in R4.
  destruct (C62_anchor hmac F st (concat w)) as (A & _). destruct (A d cov' R1) as (n' & N & E); [rewrite R4; exact R7|]. rewrite E, R4. congruence.
Qed.
Print Assumptions C62_self_signed.

(** KeyStoragePolicy: what is saved for a node is the answer to an Interest for it, unless CanBePrefix is set, or
    something was saved before. *)
Theorem C62_serves : forall D st st' (e : event D) x more, ks_save st e = Ok st' -> ev_target e = Some x ->
  (get_key st (m_name x) = None -> forall q, ev_target q = Some x -> forall c, ev_int_cfg q = Some c ->
     ks_search (st' ++ more) q = Ok (if ic_prefix c then None else Some [joined (ev_raw e)]))
  /\ (forall n, n <> m_name x -> get_key st' n = get_key st n).
Proof.
  intros D st st' e x more H T. unfold ks_save in H. rewrite T in H. injection H as <-. split.
  - intros G q TQ c C. unfold ks_search. rewrite TQ, C. destruct (ic_prefix c); [reflexivity|]. rewrite get_app, get_save, G, (proj2 (name_equal_iff _ _) eq_refl). reflexivity.
  - intros n NE. rewrite get_save. destruct (get_key st n); [reflexivity|]. destruct (name_equal n (m_name x)) eqn:E; [apply name_equal_iff in E; congruence|reflexivity].
Qed.
Print Assumptions C62_serves.

(** ** Cases *)
Definition ex_sum (b : buf) : N := (fold_right N.add 0 b mod 256)%N.
Definition ex_hmac (k b : buf) : buf := repeat (ex_sum (k ++ b)) 32.
(** /a/<v> is signed by /b/<v> *)
Definition ex_tree : stree nat := SNode 0%nat [(PComp ca, SNode 1%nat [(va, SNode 2%nat [])]); (PComp cb, SNode 3%nat [(va, SNode 4%nat [])])].
Definition ex_by : signedby := mkBy [([120%N], Some [1%N])] [] [PComp cb; va].
Definition ex_x : mnode nat := Eval vm_compute in match match_name [] ex_tree [ca; mkComp 8 [7%N]] with Some x => x | None => mkM [] ex_tree [] [] end.
Definition ex_root : buf := Eval vm_compute in
  match make_data (Some [cb]) (Some cert_config) (Some [[9%N; 9%N]]) (Some (hmac_signer ex_hmac (Some [cb]) [9%N; 9%N] false no_moment)) with Ok (w, _) => concat w | _ => [] end.
Definition ex_st : keystore := Eval vm_compute in
  match k_run ex_hmac 1000 [] [KAnchor ex_root; KEnroll [cb; mkComp 8 [7%N]] [1%N; 2%N; 3%N] [cb]; KEnroll [cb; mkComp 8 [8%N]] [4%N] [ca]] with Ok st => st | _ => [] end.
Example C62_example : map (fun k => (k_name k, k_bits k)) ex_st = [([cb], [9; 9]%N); ([cb; mkComp 8 [7%N]], [1; 2; 3]%N)] /\ add_anchor ex_hmac 1000 [] (ex_root ++ [0%N]) <> Ok ([], true).
Proof. split; [vm_compute; reflexivity|]. vm_compute. discriminate. Qed.
Example C61_example : exists e acts w d cov acts' e', convert_name ex_by (m_match ex_x) = Ok (Some [cb; mkComp 8 [7%N]]) /\
  let l := mkLeaf [by_signer_l ex_hmac ex_by ex_st] 0 1000000 1000000 in
  let q need := mkPoint [] [by_valid_l ex_hmac ex_by need] [] [] false false 0 false in
  provide l ex_x (Some [[5%N]]) None 0 = Ok (acts, Some w) /\ read_data 1000 (new_buffer_reader (concat w)) = Ok (d, cov)
  /\ need_result (q (fun n => if name_equal n [cb; mkComp 8 [7%N]] then (SData, Some [[1%N]; [2%N; 3%N]]) else (STimeout, None))) ex_x None (XData d w cov) = Ok [ASave e; ACall e]
  /\ need_result (q (fun n => (SData, Some [[4%N]]))) ex_x None (XData d w cov) = Ok acts' /\ acts' = [ACall e'] /\ ev_status e' = Some SUnverified.
Proof. do 7 eexists. split; [vm_compute; reflexivity|]. cbv zeta. split; [vm_compute; reflexivity|]. split; [vm_compute; reflexivity|]. split; [vm_compute; reflexivity|]. split; [vm_compute; reflexivity|]. split; reflexivity. Qed.
(** False: a trust anchor that announces another kind of signature is taken. *)
Theorem C62_anchor_type_refuted : exists hmac F cert st, (forall k b, length (hmac k b) = 32%nat) /\ add_anchor hmac F [] cert = Ok (st, true)
  /\ exists d cov, read_data F (new_buffer_reader cert) = Ok (d, cov) /\ d_sig_type d = 0%Z.
Proof.
  exists ex_hmac, 1000%nat.
  exists (match make_data (Some [cb]) (Some cert_config) (Some [[9%N]]) (Some (sha256_signer (ex_hmac [9%N]))) with Ok (w, _) => concat w | _ => [] end). eexists.
  split; [intros; apply repeat_length|]. split; [vm_compute; reflexivity|]. do 2 eexists. split; [vm_compute; reflexivity|vm_compute; reflexivity].
Qed.
Print Assumptions C62_anchor_type_refuted.
