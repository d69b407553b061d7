(** Proofs about the key store and the policies of demosec. *)
From Verif Require Import Base BaseProofs PrimModel NameModel ReaderModel CodecModel CodecSpec CodecSpec2 SpecModel SpecSpec PropsSpec SchemaModel SchemaSpec SchemaProofs PropsSchema NeedModel NeedSpec NeedProofs SecModel SecSpec SecProofs DemoModel DemoSpec.
From Verif Require Import NameProofs OrderProofs PatternProofs.

(** ** Names of keys *)
Lemma beq_sym : forall a b, bytes_eqb a b = bytes_eqb b a.
Proof. intros a b. destruct (bytes_eqb a b) eqn:E; [apply beq_iff in E; subst; symmetry; apply beq_refl|]. destruct (bytes_eqb b a) eqn:E'; [|reflexivity]. apply beq_iff in E'. subst. rewrite beq_refl in E. discriminate. Qed.

Lemma get_entry : forall mp tag, map_get mp tag = entry mp tag.
Proof. unfold entry. induction mp as [|[t v] mp IH]; intros tag; cbn [map_get find fst option_map]; auto. destruct (bytes_eqb t tag); auto. Qed.

Lemma convert_get : forall mp m m', convert mp m = Ok m' -> forall tag, mget m' tag = key_value mp m tag.
Proof.
  intros mp. induction m as [|(k, v) m IH]; intros m' H tag; cbn [convert] in H; [injection H as <-; reflexivity|].
  destruct (map_get mp k) as [[s|]|] eqn:G; cbn [bind] in H; [| discriminate |]; destruct (convert mp m) as [r| | |] eqn:C; cbn [bind] in H; try discriminate; injection H as <-; unfold key_value; cbn [mget];
    (destruct (bytes_eqb k tag) eqn:B; [apply beq_iff in B; subst k; rewrite <- get_entry, G; reflexivity|apply IH; reflexivity]).
Qed.
Lemma convert_total : forall mp m, (forall tag, mget m tag <> None -> entry mp tag <> Some None) -> exists m', convert mp m = Ok m'.
Proof.
  intros mp. induction m as [|(k, v) m IH]; intros H; cbn [convert]; [eauto|].
  assert (K : map_get mp k <> Some None) by (rewrite get_entry; apply H; cbn [mget]; rewrite beq_refl; discriminate).
  assert (R : exists m', convert mp m = Ok m').
  { apply IH. intros tag X. apply H. cbn [mget]. destruct (bytes_eqb k tag); [discriminate|exact X]. }
  destruct R as (m' & ->). destruct (map_get mp k) as [[s|]|]; cbn [bind]; try congruence; eauto.
Qed.

Lemma convert_name_ok : forall p m n, convert_name p m = Ok (Some n) -> key_for p m n.
Proof.
  intros p m n H. unfold convert_name in H. destruct (convert (b_map p) m) as [m'| | |] eqn:C; cbn [bind] in H; try discriminate. injection H as H.
  destruct (C36_apply _ _ _ _ H) as (r & E & M & V). exists r. rewrite <- !(convert_get _ _ _ C). split; [exact E|]. split; [exact M|].
  intros i ty tag c I J. rewrite <- (convert_get _ _ _ C). eapply V; eauto.
Qed.
Lemma convert_name_total : forall p m, strings_for (b_map p) m ->
  exists o, convert_name p m = Ok o /\ (o = None <-> exists ty tag, In (PVar ty tag) (b_path p) /\ mget m tag = None).
Proof.
  intros p m H. destruct (convert_total _ _ H) as (m' & C). unfold convert_name. rewrite C. cbn [bind]. eexists. split; [reflexivity|].
  assert (G : forall tag, mget m' tag = None <-> mget m tag = None).
  { intros tag. rewrite (convert_get _ _ _ C). unfold key_value. destruct (mget m tag); [|tauto]. destruct (entry _ _) as [[|]|]; split; discriminate. }
  split.
  - intros A. assert (N : ~ forall ty tag, In (PVar ty tag) (b_path p) -> mget m' tag <> None).
    { intros X. apply (apply_iff (b_prefix p)) in X. destruct X as (n & X). congruence. }
    clear A C H. revert N. induction (b_path p) as [|e q IH]; intros N; [exfalso; apply N; intros ? ? []|].
    assert (D : (exists ty tag, e = PVar ty tag /\ mget m tag = None) \/ (forall ty tag, e = PVar ty tag -> mget m tag <> None)).
    { destruct e as [c|ty tag]; [right; intros; discriminate|]. destruct (mget m tag) eqn:E; [right|left; eauto]. intros ty' tag' X. injection X as <- <-. congruence. }
    destruct D as [(ty & tag & -> & X)|D]; [exists ty, tag; split; [left; reflexivity|exact X]|].
    destruct IH as (ty & tag & I & X); [|exists ty, tag; split; [right; exact I|exact X]].
    intros Y. apply N. intros ty tag [->|I]; [rewrite G; exact (D _ _ eq_refl)|exact (Y _ _ I)].
  - intros (ty & tag & I & X). destruct (apply_match (b_prefix p) (b_path p) m') eqn:A; [|reflexivity]. exfalso.
    assert (Y : exists n, apply_match (b_prefix p) (b_path p) m' = Some n) by eauto. rewrite apply_iff in Y. apply (Y _ _ I). apply G. exact X.
Qed.

(** ** The key store *)
Lemma get_app : forall st st' n, get_key (st ++ st') n = match get_key st n with Some k => Some k | None => get_key st' n end.
Proof. intros st st' n. unfold get_key. induction st as [|k st IH]; cbn [find app]; [reflexivity|]. destruct (name_equal n (k_name k)); [reflexivity|exact IH]. Qed.
Lemma get_name : forall st n k, get_key st n = Some k -> k_name k = n /\ In k st.
Proof. intros st n k H. unfold get_key in H. apply List.find_some in H. destruct H as (I & H). apply name_equal_iff in H. auto. Qed.
Lemma get_save : forall st n bits cert n', get_key (save_key st n bits cert) n' =
  match get_key st n' with Some k => Some k | None => if name_equal n' n then Some (mkKey n bits cert) else None end.
Proof. intros. unfold save_key. rewrite get_app. destruct (get_key st n'); [reflexivity|]. unfold get_key. cbn [find k_name]. destruct (name_equal n' n); reflexivity. Qed.

Lemma step_grows : forall hmac F st o st', k_step hmac F st o = Ok st' -> exists more, st' = st ++ more.
Proof.
  intros hmac F st o st' H. destruct o as [cert|n bits s|n bits cert]; cbn [k_step] in H.
  - unfold add_anchor in H. destruct (read_data F _) as [(d, cov)| | |]; cbn [bind fst] in H; try discriminate; [|injection H as <-; exists []; rewrite app_nil_r; reflexivity].
    cbv zeta in H. destruct (check_hmac _ _ _ _); cbn [bind fst] in H; injection H as <-; [eexists; reflexivity|exists []; rewrite app_nil_r; reflexivity].
  - unfold enroll_key in H. destruct (get_key st s); [|cbn [bind fst] in H; injection H as <-; exists []; rewrite app_nil_r; reflexivity].
    destruct (make_data _ _ _ _) as [(w, cov)| | |]; cbn [bind fst] in H; try discriminate; injection H as <-; [eexists; reflexivity|exists []; rewrite app_nil_r; reflexivity].
  - injection H as <-. eexists. reflexivity.
Qed.
Lemma run_grows : forall hmac F os st st', k_run hmac F st os = Ok st' -> exists more, st' = st ++ more.
Proof.
  intros hmac F. induction os as [|o os IH]; intros st st' H; cbn [k_run] in H; [injection H as <-; exists []; rewrite app_nil_r; reflexivity|].
  destruct (k_step hmac F st o) as [s1| | |] eqn:E; cbn [bind] in H; try discriminate. destruct (step_grows _ _ _ _ _ E) as (m1 & ->). destruct (IH _ _ H) as (m2 & ->). exists (m1 ++ m2). rewrite app_assoc. reflexivity.
Qed.

Lemma cert_config_ok : data_config_ok cert_config.
Proof. split; [reflexivity|]. split; [split; [discriminate|reflexivity]|exact I]. Qed.

Lemma signed_hmac : forall hmac n c content kn key, (forall k b, length (hmac k b) = 32%nat) -> name_typed n -> data_config_ok c -> name_typed kn ->
  (data_size n c content + nlen (name_enc kn) + 32 < packet_limit)%N ->
  exists w cov, make_data (Some n) (Some c) content (Some (hmac_signer hmac (Some kn) key false no_moment)) = Ok (w, Some cov)
    /\ forall F, (length (concat w) < F)%nat -> exists d cov', read_data F (new_buffer_reader (concat w)) = Ok (d, cov') /\ cov' <> []
       /\ d_name d = Some n /\ joined (d_content d) = joined content /\ d_sig_type d = SigHmac /\ d_key_name d = Some kn /\ d_content_type d = dc_type c
       /\ sig_bytes d = hmac key (concat cov').
Proof.
  intros hmac n c content kn key HL NT DC KN LIM. set (sc := mkSC SigHmac (Some kn) None None None None None).
  destruct (data_verified n c content (hmac_signer hmac (Some kn) key false no_moment) sc (hmac key (data_part n c content (Some sc))) NT DC) as (w & cov & A1 & A2 & A3 & A4).
  - split; [split; [discriminate|reflexivity]|]. split; [exact KN|]. do 3 (split; [reflexivity|]). cbn. tauto.
  - reflexivity.
  - intros x X. cbn [hmac_signer sg_sign]. rewrite X. reflexivity.
  - apply fits_small; cbn [hmac_signer sg_est]; [unfold nlen; rewrite HL|]; lia.
  - cbn [hmac_signer sg_est]. unfold sig_size. cbn [sc sc_key sc_nonce sc_not_before sc_not_after olen]. lia.
  - exists w, cov. split; [exact A1|]. intros F LF. destruct (A4 F LF) as (d & cov' & R & (D1 & D2 & _ & _ & D5 & T & K & _ & V) & CV). exists d, cov'. split; [exact R|].
    split; [intros ->; cbn in CV; symmetry in CV; exact (data_part_nonempty _ _ _ _ CV)|]. split; [exact D1|].
    split; [unfold joined; destruct (d_content d), content; cbn in D5; congruence|]. split; [exact T|]. split; [exact K|]. split; [exact D2|]. unfold sig_bytes. rewrite V, CV. reflexivity.
Qed.

(** ** SignedByPolicy at a node *)
Lemma by_result : forall D hmac p need (q : point D) y dl d raw cov x kn, p_valid_data q = [by_valid_l hmac p need] ->
  refine y (the_name (d_name d)) = Ok (Some x) -> convert_name p (m_match x) = Ok (Some kn) ->
  let good := cov <> [] /\ d_sig_type d = SigHmac /\ fst (need kn) = SData /\ sig_bytes d = hmac (joined (snd (need kn))) (concat cov) in
  (good -> exists e, need_result q y dl (XData d raw cov) = Ok [ASave e; ACall e] /\ ev_status e = Some SData /\ ev_content e = d_content d)
  /\ (~ good -> exists e, need_result q y dl (XData d raw cov) = Ok [ACall e] /\ ev_status e = Some SUnverified /\ ev_content e = None).
Proof.
  intros D hmac p need q y dl d raw cov x kn PV RF CN good. destruct (data_result q y dl d raw cov) as (e0 & l & acts & H1 & H2 & H3 & H4 & H5 & (t & RT & H0) & H6 & H7 & H8 & H9).
  rewrite RF in RT. injection RT as <-.
  assert (L : exists z, l = [Verdict z] /\ ((0 < z)%Z <-> good)).
  { assert (X : exists z, by_valid hmac p need e0 = Ok (Verdict z) /\ ((0 < z)%Z <-> good)).
    { unfold by_valid. rewrite H0, H3, H1. unfold good. destruct cov as [|b cov]; [exists 0%Z; split; [reflexivity|]; split; [lia|]; intros (X & _); congruence|].
      destruct (Z.eqb_spec (d_sig_type d) SigHmac) as [E|E]; cbn [negb]; [|exists 0%Z; split; [reflexivity|]; split; [lia|tauto]].
      rewrite CN. cbn [bind]. destruct (need kn) as [s content]. cbn [fst snd].
      destruct s; try (exists (-2)%Z; split; [reflexivity|]; split; [lia|]; intros (_ & _ & Y & _); discriminate Y).
      unfold check_hmac. destruct (bytes_eqb (hmac (joined content) (concat (b :: cov))) (sig_bytes d)) eqn:B.
      - apply beq_iff in B. exists 1%Z. split; [reflexivity|]. split; [|lia]. intros _. split; [discriminate|]. split; [exact E|]. split; [reflexivity|]. symmetry. exact B.
      - exists (-2)%Z. split; [reflexivity|]. split; [lia|]. intros (_ & _ & _ & Y). symmetry in Y. apply beq_iff in Y. congruence. }
    destruct X as (z & X1 & X2). exists z. split; [|exact X2].
    assert (V : by_valid_l hmac p need e0 = Verdict z) by (unfold by_valid_l; rewrite X1; reflexivity).
    rewrite PV in H6. inversion H6; subst; [congruence|]. match goal with H : asked [] _ _ |- _ => inversion H; subst end. congruence. }
  destruct L as (z & -> & L). split; intros H.
  - destruct H8 as (e & -> & E1 & E2 & _); [exists [], z; split; [reflexivity|]; apply L; exact H|]. exists e. auto.
  - destruct H9 as (e & -> & E1 & E2); [|exists e; auto]. intros (l' & z' & X & Z'). destruct l' as [|v [|]]; try discriminate X. injection X as ->. apply H, L. exact Z'.
Qed.

Lemma by_provides : forall D hmac p st (l : leaf D) x content cfg now kn k, (forall k b, length (hmac k b) = 32%nat) ->
  l_signers l = [by_signer_l hmac p st] -> convert_name p (m_match x) = Ok (Some kn) -> get_key st kn = Some k ->
  let c := match cfg with Some c => c | None => mkDC (Some (l_type l)) (Some (l_fresh l)) None end in
  name_typed (m_name x) -> name_typed kn -> data_config_ok c -> (data_size (m_name x) c content + nlen (name_enc kn) + 32 < packet_limit)%N ->
  exists acts w, provide l x content cfg now = Ok (acts, Some w)
    /\ forall F, (length (concat w) < F)%nat -> exists d cov, read_data F (new_buffer_reader (concat w)) = Ok (d, cov) /\ cov <> []
       /\ d_name d = Some (m_name x) /\ joined (d_content d) = joined content /\ d_sig_type d = SigHmac /\ d_key_name d = Some kn
       /\ sig_bytes d = hmac (k_bits k) (concat cov).
Proof.
  intros D hmac p st l x content cfg now kn k HL LS CN GK c NT KT DC LIM.
  destruct (signed_hmac hmac (m_name x) c content kn (k_bits k) HL NT DC KT LIM) as (w & cov & A1 & A2). do 2 eexists. split.
  - unfold provide. cbv zeta. fold c. rewrite LS. unfold get_signer. cbn [dispatch_until fst]. unfold by_signer_l, by_signer. cbn [ev_target]. rewrite CN. cbn [bind]. rewrite GK. cbn [calm]. cbn [fst]. rewrite A1. reflexivity.
  - intros F LF. destruct (A2 F LF) as (d & cov' & R1 & R2 & R3 & R4 & R5 & R6 & _ & R7). exists d, cov'. auto 10.
Qed.
