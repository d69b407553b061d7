(** C40, C41: signers and validators (pkg/security).  C60: sequence numbers of signed Interests. *)
From Verif Require Import Base BaseProofs PrimModel NameModel ReaderModel CodecModel CodecSpec CodecSpec2 SpecModel SpecSpec PropsSpec SchemaModel NeedModel NeedSpec SecModel SecSpec SecProofs.
From Verif Require Import NameProofs.

(** ** C40 *)
(** Data with a SHA-256 digest: what is received is accepted. *)
Theorem C40_sha256 : forall sha n c content, (forall b, length (sha b) = 32%nat) -> name_typed n -> data_config_ok c -> (data_size n c content + 32 < packet_limit)%N ->
  exists w cov, make_data (Some n) (Some c) content (Some (sha256_signer sha)) = Ok (w, Some cov)
    /\ forall F, (length (concat w) < F)%nat -> exists d cov', read_data F (new_buffer_reader (concat w)) = Ok (d, cov')
       /\ cov' <> [] /\ d_sig_type d = 0%Z /\ sha256_validate sha cov' (d_sig_type d) (sig_bytes d) = true.
Proof.
  intros sha n c content SH NT DC LIM. set (sc := mkSC SigSha256 None None None None None None).
  destruct (data_verified n c content (sha256_signer sha) sc (sha (data_part n c content (Some sc))) NT DC) as (w & cov & A1 & A2 & A3 & A4).
  - repeat split; cbn; auto; discriminate.
  - reflexivity.
  - intros x X. cbn [sha256_signer sg_sign]. rewrite X. reflexivity.
  - apply fits_small; cbn [sha256_signer sg_est]; [unfold nlen; rewrite SH|]; lia.
  - cbn [sha256_signer sg_est]. unfold sig_size. cbn [sc sc_key sc_nonce sc_not_before sc_not_after olen]. lia.
  - exists w, cov. split; [exact A1|]. intros F LF. destruct (A4 F LF) as (d & cov' & R & (_ & _ & _ & _ & _ & T & _ & _ & V) & CV). exists d, cov'. split; [exact R|]. cbn [sc sc_type] in T.
    split; [intros ->; cbn in CV; symmetry in CV; exact (data_part_nonempty _ _ _ _ CV)|]. split; [exact T|]. unfold sha256_validate, sig_bytes. rewrite T, V, CV. cbn. apply beq_refl.
Qed.
Print Assumptions C40_sha256.

(** ... with an HMAC: with the same key it is accepted, with another key only if the HMAC happens to be the same. *)
Theorem C40_hmac : forall hmac n c content kn key for_cert t, (forall k b, length (hmac k b) = 32%nat) -> name_typed n -> data_config_ok c -> all_of name_typed kn ->
  (data_size n c content + olen (fun k => nlen (name_enc k)) kn + nlen (mo_from t) + nlen (mo_until t) + 32 < packet_limit)%N ->
  exists w cov, make_data (Some n) (Some c) content (Some (hmac_signer hmac kn key for_cert t)) = Ok (w, Some cov)
    /\ forall F, (length (concat w) < F)%nat -> exists d cov', read_data F (new_buffer_reader (concat w)) = Ok (d, cov')
       /\ d_sig_type d = 4%Z /\ d_key_name d = kn /\ hmac_validate hmac cov' (d_sig_type d) (sig_bytes d) key = true
       /\ (forall key', hmac_validate hmac cov' (d_sig_type d) (sig_bytes d) key' = true <-> hmac key' (concat cov') = hmac key (concat cov')).
Proof.
  intros hmac n c content kn key for_cert t SH NT DC KN LIM. set (sc := mkSC SigHmac kn None None None (when for_cert (mo_from t)) (when for_cert (mo_until t))).
  destruct (data_verified n c content (hmac_signer hmac kn key for_cert t) sc (hmac key (data_part n c content (Some sc))) NT DC) as (w & cov & A1 & A2 & A3 & A4).
  - repeat split; cbn; auto; try discriminate; destruct for_cert; cbn; intuition discriminate.
  - reflexivity.
  - intros x X. cbn [hmac_signer sg_sign]. rewrite X. reflexivity.
  - apply fits_small; cbn [hmac_signer sg_est]; [unfold nlen; rewrite SH|]; lia.
  - cbn [hmac_signer sg_est]. unfold sig_size. cbn [sc sc_key sc_nonce sc_not_before sc_not_after]. destruct for_cert; cbn [when olen]; lia.
  - exists w, cov. split; [exact A1|]. intros F LF. destruct (A4 F LF) as (d & cov' & R & (_ & _ & _ & _ & _ & T & K & _ & V) & CV). exists d, cov'. split; [exact R|]. cbn [sc sc_type sc_key] in T, K.
    split; [exact T|]. split; [exact K|]. unfold hmac_validate, check_hmac, sig_bytes. rewrite T, V, CV. cbn [Z.eqb Pos.eqb SigHmac negb]. split; [apply beq_refl|]. intros key'. apply beq_iff.
Qed.
Print Assumptions C40_hmac.

(** ... with ECDSA, for every key pair of a curve for which the estimate suffices (below). *)
Theorem C40_ecdsa : forall sha esk epk sign verify bits (sk : esk) (pk : epk) n c content kn for_cert seq t rnd, ecdsa_pair sign verify bits sk pk -> (ecc_est bits <= 252)%N ->
  name_typed n -> data_config_ok c -> all_of name_typed kn ->
  (data_size n c content + olen (fun k => nlen (name_enc k)) kn + nlen (mo_from t) + nlen (mo_until t) + 300 < packet_limit)%N ->
  exists w cov, make_data (Some n) (Some c) content (Some (fst (ecc_signer sha esk sign kn sk bits for_cert false seq t rnd))) = Ok (w, Some cov)
    /\ forall F, (length (concat w) < F)%nat -> exists d cov', read_data F (new_buffer_reader (concat w)) = Ok (d, cov')
       /\ d_sig_type d = 3%Z /\ d_key_name d = kn /\ ecdsa_validate sha epk verify cov' (d_sig_type d) (sig_bytes d) pk = true.
Proof.
  intros sha esk epk sign verify bits sk pk n c content kn for_cert seq t rnd KP EB NT DC KN LIM. set (sc := key_info kn for_cert false seq t).
  destruct (KP rnd (sha (data_part n c content (Some sc)))) as (sig & S1 & S2 & S3).
  destruct (data_verified n c content (fst (ecc_signer sha esk sign kn sk bits for_cert false seq t rnd)) sc sig NT DC) as (w & cov & A1 & A2 & A3 & A4).
  - repeat split; cbn; auto; try discriminate; destruct for_cert; cbn; intuition discriminate.
  - reflexivity.
  - intros x X. cbn [ecc_signer fst sg_sign]. rewrite X. exact S1.
  - apply fits_small; assumption.
  - cbn [ecc_signer fst sg_est]. unfold sig_size. cbn [sc key_info sc_key sc_nonce sc_not_before sc_not_after when]. destruct for_cert; cbn [when olen]; lia.
  - exists w, cov. split; [exact A1|]. intros F LF. destruct (A4 F LF) as (d & cov' & R & (_ & _ & _ & _ & _ & T & K & _ & V) & CV). exists d, cov'. split; [exact R|]. cbn [sc key_info sc_type sc_key] in T, K.
    split; [exact T|]. split; [exact K|]. unfold ecdsa_validate, sig_bytes. rewrite T, V, CV. exact S2.
Qed.
Print Assumptions C40_ecdsa.

(** Signatures of all curves of crypto/elliptic (224, 256, 384, 521 bits) fit the estimate; those of 512 bits may not. *)
Theorem C40_estimate : forall bits r s, (bits <= 487 \/ (bits < 992 /\ bits mod 8 <> 0))%N -> (r < 2 ^ bits)%N -> (s < 2 ^ bits)%N -> (0 < der_sig r s <= ecc_est bits)%N.
Proof. exact der_bound. Qed.
Print Assumptions C40_estimate.
Theorem C40_estimate_refuted : exists bits r s, (r < 2 ^ bits)%N /\ (s < 2 ^ bits)%N /\ (ecc_est bits < der_sig r s)%N.
Proof. exists 512%N, (2 ^ 512 - 1)%N, (2 ^ 512 - 1)%N. split; [reflexivity|]. split; reflexivity. Qed.
Print Assumptions C40_estimate_refuted.

(** RSA: whatever the key, and however good the signature, no RSA validator accepts the packet (ECDSA is announced). *)
Theorem C40_rsa_refuted : forall sha rsk rpk sign verify (sk : rsk) (pk : rpk) size n c content kn for_cert seq t sig,
  (forall digest, sign sk digest = Ok (sig digest) /\ nlen (sig digest) = size) -> (0 < size <= 65535)%N ->
  name_typed n -> data_config_ok c -> all_of name_typed kn ->
  (data_size n c content + olen (fun k => nlen (name_enc k)) kn + nlen (mo_from t) + nlen (mo_until t) + size + 300 < packet_limit)%N ->
  exists w cov, make_data (Some n) (Some c) content (Some (fst (rsa_signer sha rsk sign kn sk size for_cert false seq t))) = Ok (w, Some cov)
    /\ forall F, (length (concat w) < F)%nat -> exists d cov', read_data F (new_buffer_reader (concat w)) = Ok (d, cov')
       /\ sig_bytes d = sig (sha (concat cov')) /\ d_sig_type d = 3%Z /\ rsa_validate sha rpk verify cov' (d_sig_type d) (sig_bytes d) pk = false.
Proof.
  intros sha rsk rpk sign verify sk pk size n c content kn for_cert seq t sig KP EB NT DC KN LIM. set (sc := key_info kn for_cert false seq t).
  destruct (KP (sha (data_part n c content (Some sc)))) as (S1 & S3).
  destruct (data_verified n c content (fst (rsa_signer sha rsk sign kn sk size for_cert false seq t)) sc (sig (sha (data_part n c content (Some sc)))) NT DC) as (w & cov & A1 & A2 & A3 & A4).
  - repeat split; cbn; auto; try discriminate; destruct for_cert; cbn; intuition discriminate.
  - reflexivity.
  - intros x X. cbn [rsa_signer fst sg_sign]. rewrite X. exact S1.
  - cbn [rsa_signer fst sg_est]. rewrite S3. split; [lia|]. destruct (N.leb_spec size 252); [left; assumption|right]. split; [lia|]. split; [lia|reflexivity].
  - cbn [rsa_signer fst sg_est]. unfold sig_size. cbn [sc key_info sc_key sc_nonce sc_not_before sc_not_after when]. destruct for_cert; cbn [when olen]; lia.
  - exists w, cov. split; [exact A1|]. intros F LF. destruct (A4 F LF) as (d & cov' & R & (_ & _ & _ & _ & _ & T & K & _ & V) & CV). exists d, cov'. split; [exact R|]. cbn [sc key_info sc_type sc_key] in T, K.
    split; [unfold sig_bytes; rewrite V, CV; reflexivity|]. split; [exact T|]. rewrite T. reflexivity.
Qed.
Print Assumptions C40_rsa_refuted.

(** A validator accepts only the signature type it is for, and only if the signature is right. *)
Theorem C40_only : forall sha hmac epk everify rpk rverify edpk edverify cov typ val,
  (sha256_validate sha cov typ val = true <-> typ = 0%Z /\ val = sha (concat cov))
  /\ (forall key, hmac_validate hmac cov typ val key = true <-> typ = 4%Z /\ val = hmac key (concat cov))
  /\ (forall pk, ecdsa_validate sha epk everify cov typ val pk = true <-> typ = 3%Z /\ everify pk (sha (concat cov)) val = true)
  /\ (forall pk, rsa_validate sha rpk rverify cov typ val pk = true <-> typ = 1%Z /\ rverify pk (sha (concat cov)) val = true)
  /\ (forall pk, eddsa_validate edpk edverify cov typ val pk = true <-> typ = 5%Z /\ edverify pk (concat cov) val = true).
Proof.
  intros. unfold sha256_validate, hmac_validate, check_hmac, ecdsa_validate, rsa_validate, eddsa_validate, SigSha256, SigHmac, SigEcdsa, SigRsa, SigEd25519.
  split; [destruct (Z.eqb_spec typ 0); cbn [negb]; [rewrite beq_iff|]; intuition congruence|].
  split; [intros key; destruct (Z.eqb_spec typ 4); cbn [negb]; [rewrite beq_iff|]; intuition congruence|].
  split; [intros pk; destruct (Z.eqb_spec typ 3); cbn [negb]; intuition congruence|].
  split; intros pk; [destruct (Z.eqb_spec typ 1)|destruct (Z.eqb_spec typ 5)]; cbn [negb]; intuition congruence.
Qed.
Print Assumptions C40_only.

(** The empty signer: the packet has no signature value, and no validator accepts it. *)
Theorem C40_empty : forall n c content, name_typed n -> data_config_ok c -> (data_size n c content < packet_limit)%N ->
  exists w, make_data (Some n) (Some c) content (Some empty_signer) = Ok (w, None)
    /\ forall F, (length (concat w) < F)%nat -> exists d cov', read_data F (new_buffer_reader (concat w)) = Ok (d, cov') /\ d_sig_type d = 200%Z /\ d_sig_value d = None
       /\ forall sha hmac key epk everify (ek : epk) rpk rverify (rk : rpk) edpk edverify (dk : edpk),
          sha256_validate sha cov' (d_sig_type d) (sig_bytes d) = false /\ hmac_validate hmac cov' (d_sig_type d) (sig_bytes d) key = false
          /\ ecdsa_validate sha epk everify cov' (d_sig_type d) (sig_bytes d) ek = false /\ rsa_validate sha rpk rverify cov' (d_sig_type d) (sig_bytes d) rk = false
          /\ eddsa_validate edpk edverify cov' (d_sig_type d) (sig_bytes d) dk = false.
Proof.
  intros n c content NT DC LIM. set (sc := mkSC SigEmptyTest None None None None None None).
  assert (U : unsigned (Some empty_signer) (Some sc)). { right. right. exists sc. repeat split; cbn; auto; discriminate. }
  assert (L : (data_size n c content + olen sig_size (Some sc) < packet_limit)%N) by (change (olen sig_size (Some sc)) with 0%N; lia).
  destruct (C19_unsigned_partial n c content (Some empty_signer) (Some sc) (S (length (data_packet n c content (Some sc) None))) NT DC U L) as (w & _ & _ & A1 & A2 & _); [lia|].
  exists w. split; [exact A1|]. intros F LF. rewrite A2 in LF. destruct (C19_unsigned_partial n c content (Some empty_signer) (Some sc) F NT DC U L LF) as (w2 & d & cov' & B1 & B2 & R & (_ & _ & _ & _ & _ & T & K & _ & V) & _).
  assert (w2 = w) by congruence. subst w2. exists d, cov'. split; [exact R|]. cbn [sc sc_type] in T. split; [exact T|]. split; [exact V|]. intros. rewrite T. repeat split; reflexivity.
Qed.
Print Assumptions C40_empty.

(** Interests: with a digest, an HMAC, or ECDSA. *)
Theorem C40_int_sha256 : forall sha n c a seq t, (forall b, length (sha b) = 32%nat /\ bytes_ok (sha b)) -> name_typed n -> interest_config_ok c -> moment_ok t ->
  (interest_size n c (Some a) + nlen (mo_nonce t) + 1000 < packet_limit)%N ->
  exists w cov fn, make_interest sha (Some n) (Some c) (Some a) (Some (fst (sha256_int_signer sha seq t))) = Ok (w, Some cov, fn)
    /\ forall F, (length (concat w) < F)%nat -> exists i cov', read_interest sha F (new_buffer_reader (concat w)) = Ok (i, cov')
       /\ i_sig_type i = 0%Z /\ i_sig_seq i = Some (((seq + 1) mod two64)%N) /\ i_sig_nonce i = Some (mo_nonce t) /\ i_sig_time i = Some (mo_ms t)
       /\ sha256_validate sha cov' (i_sig_type i) (i_sig_value i) = true.
Proof.
  intros sha n c a seq t SH NT IC MO LIM. set (sc := mkSC SigSha256 None (Some (mo_nonce t)) (Some (mo_ms t)) (Some (((seq + 1) mod two64)%N)) None None).
  destruct (int_verified sha n c a (fst (sha256_int_signer sha seq t)) sc (sha (name_enc (base_name n) ++ signed_params (Some a) (Some sc))) SH NT IC) as (w & cov & A1 & A2 & A3 & A4).
  - split; [split; [discriminate|reflexivity]|]. split; [exact I|]. split; [intros X; exfalso; apply X; reflexivity|]. split; [exact MO|]. split; [cbn; apply N.mod_lt; discriminate|]. split; reflexivity.
  - reflexivity.
  - intros x X. cbn [sha256_int_signer fst sg_sign]. rewrite X. reflexivity.
  - cbn [sha256_int_signer fst sg_est]. unfold nlen. destruct (SH (name_enc (base_name n) ++ signed_params (Some a) (Some sc))) as (-> & _). lia.
  - reflexivity.
  - unfold sig_size. cbn [sc sc_key sc_nonce sc_not_before sc_not_after olen]. lia.
  - exists w, cov. eexists. split; [exact A1|]. intros F LF. destruct (A4 F LF) as (i & cov' & R & IR & CV). exists i, cov'. split; [exact R|].
    destruct IR as (_ & _ & _ & _ & _ & _ & _ & _ & T & _ & NO & TI & SQ & V). cbn [sc sc_type sc_nonce sc_time sc_seq] in *.
    split; [exact T|]. split; [exact SQ|]. split; [exact NO|]. split; [exact TI|]. unfold sha256_validate. rewrite T, V, CV, A3. cbn. apply beq_refl.
Qed.
Print Assumptions C40_int_sha256.

Theorem C40_int_hmac : forall sha hmac n c a key seq t, (forall b, length (sha b) = 32%nat /\ bytes_ok (sha b)) -> (forall k b, length (hmac k b) = 32%nat) ->
  name_typed n -> interest_config_ok c -> moment_ok t -> bytes_ok key -> (nlen key <= 252)%N -> (seq < two64)%N ->
  (interest_size n c (Some a) + nlen (mo_nonce t) + 2000 < packet_limit)%N ->
  exists w cov fn, make_interest sha (Some n) (Some c) (Some a) (Some (fst (hmac_int_signer hmac key seq t))) = Ok (w, Some cov, fn) /\ occurs key (concat w)
    /\ forall F, (length (concat w) < F)%nat -> exists i cov', read_interest sha F (new_buffer_reader (concat w)) = Ok (i, cov')
       /\ i_sig_type i = 4%Z /\ i_key_name i = Some [mkComp 8 key] /\ hmac_validate hmac cov' (i_sig_type i) (i_sig_value i) key = true.
Proof.
  intros sha hmac n c a key seq t SH HM NT IC MO BK LK LS LIM. set (sc := mkSC SigHmac (Some [mkComp TypeGeneric key]) (Some (mo_nonce t)) (Some (mo_ms t)) (Some seq) None None).
  destruct (int_verified sha n c a (fst (hmac_int_signer hmac key seq t)) sc (hmac key (name_enc (base_name n) ++ signed_params (Some a) (Some sc))) SH NT IC) as (w & cov & A1 & A2 & A3 & A4).
  - split; [split; [discriminate|reflexivity]|]. split; [split; constructor; auto; split; [reflexivity|exact BK]|]. split; [discriminate|]. split; [exact MO|]. split; [exact LS|]. split; reflexivity.
  - reflexivity.
  - intros x X. cbn [hmac_int_signer fst sg_sign]. rewrite X. reflexivity.
  - cbn [hmac_int_signer fst sg_est]. unfold nlen. rewrite HM. lia.
  - reflexivity.
  - unfold sig_size. cbn [sc sc_key sc_nonce sc_not_before sc_not_after olen]. cbn [name_enc map concat]. rewrite app_nil_r. rewrite comp_len_enc. assert (comp_len (mkComp TypeGeneric key) <= 20 + nlen key)%N by (unfold comp_len, nat_len, tl_len; cbn [ctyp cval]; repeat (destruct (_ <=? _)%N); lia). lia.
  - exists w, cov. eexists. split; [exact A1|]. split.
    + rewrite A2. apply occurs_key. reflexivity.
    + intros F LF. destruct (A4 F LF) as (i & cov' & R & IR & CV). exists i, cov'. split; [exact R|].
      destruct IR as (_ & _ & _ & _ & _ & _ & _ & _ & T & K & _ & _ & _ & V). cbn [sc sc_type] in *.
      split; [exact T|]. split; [exact K|]. unfold hmac_validate, check_hmac. rewrite T, V, CV, A3. cbn [Z.eqb Pos.eqb SigHmac negb]. apply beq_refl.
Qed.
Print Assumptions C40_int_hmac.

Theorem C40_int_ecdsa : forall sha esk epk sign verify bits (sk : esk) (pk : epk) n c a kn seq t rnd, (forall b, length (sha b) = 32%nat /\ bytes_ok (sha b)) ->
  ecdsa_pair sign verify bits sk pk -> (ecc_est bits <= 252)%N -> name_typed n -> interest_config_ok c -> moment_ok t -> name_typed kn ->
  (interest_size n c (Some a) + nlen (name_enc kn) + nlen (mo_nonce t) + 1000 < packet_limit)%N ->
  exists w cov fn, make_interest sha (Some n) (Some c) (Some a) (Some (fst (ecc_signer sha esk sign (Some kn) sk bits false true seq t rnd))) = Ok (w, Some cov, fn)
    /\ forall F, (length (concat w) < F)%nat -> exists i cov', read_interest sha F (new_buffer_reader (concat w)) = Ok (i, cov')
       /\ i_sig_type i = 3%Z /\ i_key_name i = Some kn /\ i_sig_seq i = Some (((seq + 1) mod two64)%N) /\ i_sig_nonce i = Some (mo_nonce t) /\ i_sig_time i = Some (mo_ms t)
       /\ ecdsa_validate sha epk verify cov' (i_sig_type i) (i_sig_value i) pk = true.
Proof.
  intros sha esk epk sign verify bits sk pk n c a kn seq t rnd SH KP EB NT IC MO KN LIM. set (sc := key_info (Some kn) false true ((seq + 1) mod two64)%N t).
  destruct (KP rnd (sha (name_enc (base_name n) ++ signed_params (Some a) (Some sc)))) as (sig & S1 & S2 & S3).
  destruct (int_verified sha n c a (fst (ecc_signer sha esk sign (Some kn) sk bits false true seq t rnd)) sc sig SH NT IC) as (w & cov & A1 & A2 & A3 & A4).
  - split; [split; [discriminate|reflexivity]|]. split; [exact KN|]. split; [discriminate|]. split; [exact MO|]. split; [cbn; apply N.mod_lt; discriminate|]. split; reflexivity.
  - reflexivity.
  - intros x X. cbn [ecc_signer fst sg_sign]. rewrite X. exact S1.
  - exact S3.
  - cbn [ecc_signer fst sg_est]. lia.
  - unfold sig_size. cbn [sc key_info when sc_key sc_nonce sc_not_before sc_not_after olen]. lia.
  - exists w, cov. eexists. split; [exact A1|]. intros F LF. destruct (A4 F LF) as (i & cov' & R & IR & CV). exists i, cov'. split; [exact R|].
    destruct IR as (_ & _ & _ & _ & _ & _ & _ & _ & T & K & NO & TI & SQ & V). cbn [sc key_info when sc_type sc_nonce sc_time sc_seq] in *.
    split; [exact T|]. split; [exact K|]. split; [exact SQ|]. split; [exact NO|]. split; [exact TI|]. unfold ecdsa_validate. rewrite T, V, CV, A3. exact S2.
Qed.
Print Assumptions C40_int_ecdsa.

(** Sha256SignerPolicy at a node accepts a Data exactly if it is signed with its digest ... *)
Theorem C40_policy : forall D sha (p : point D) y dl d raw cov, p_valid_data p = [sha256_policy_valid sha] ->
  (cov <> [] /\ d_sig_type d = 0%Z /\ sig_bytes d = sha (concat cov) ->
     exists e, need_result p y dl (XData d raw cov) = Ok [ASave e; ACall e] /\ ev_status e = Some SData /\ ev_content e = d_content d)
  /\ (~ (cov <> [] /\ d_sig_type d = 0%Z /\ sig_bytes d = sha (concat cov)) ->
     exists e, need_result p y dl (XData d raw cov) = Ok [ACall e] /\ ev_status e = Some SUnverified /\ ev_content e = None).
Proof. exact policy_iff. Qed.
Print Assumptions C40_policy.

(** ... so what a node with the policy provides is accepted where it is needed. *)
Theorem C40_policy_provide : forall D sha (l : leaf D) x content cfg now, (forall b, length (sha b) = 32%nat) ->
  l_signers l = [sha256_policy_signer sha] -> name_typed (m_name x) -> data_config_ok (match cfg with Some c => c | None => mkDC (Some (l_type l)) (Some (l_fresh l)) None end) ->
  (data_size (m_name x) (match cfg with Some c => c | None => mkDC (Some (l_type l)) (Some (l_fresh l)) None end) content + 32 < packet_limit)%N ->
  exists acts w, provide l x content cfg now = Ok (acts, Some w)
    /\ forall F, (length (concat w) < F)%nat -> exists d cov, read_data F (new_buffer_reader (concat w)) = Ok (d, cov)
       /\ forall (p : point D) y dl raw, p_valid_data p = [sha256_policy_valid sha] ->
          exists e, need_result p y dl (XData d raw cov) = Ok [ASave e; ACall e] /\ ev_status e = Some SData /\ ev_content e = d_content d.
Proof.
  intros D sha l x content cfg now SH LS NT DC LIM. set (c := match cfg with Some c => c | None => mkDC (Some (l_type l)) (Some (l_fresh l)) None end) in *.
  destruct (C40_sha256 sha (m_name x) c content SH NT DC LIM) as (w & cov & A1 & A2).
  do 2 eexists. split.
  - unfold provide. cbv zeta. fold c. rewrite LS. unfold get_signer. cbn [dispatch_until fst sha256_policy_signer]. unfold sha256_policy_signer. rewrite A1. reflexivity.
  - intros F LF. destruct (A2 F LF) as (d & cov' & R & CN & T & V). exists d, cov'. split; [exact R|]. intros p y dl raw PV.
    destruct (C40_policy D sha p y dl d raw cov' PV) as (P & _). apply P. split; [exact CN|]. split; [exact T|].
    unfold sha256_validate in V. rewrite T in V. apply beq_iff in V. congruence.
Qed.
Print Assumptions C40_policy_provide.

(** RSA signed Interests cannot even be made if the key has 2024 bits or more. *)
Theorem C40_rsa_interest_refuted : forall sha rsk sign (sk : rsk) size n c a kn for_cert seq t, (253 <= size < 2 ^ 63)%N ->
  make_interest sha (Some n) (Some c) (Some a) (Some (fst (rsa_signer sha rsk sign kn sk size for_cert true seq t))) = Err EOther.
Proof. intros sha rsk sign sk size n c a kn for_cert seq t H. eapply C21_refuses; [reflexivity|discriminate|]. right. right. right. right. exact H. Qed.
Print Assumptions C40_rsa_interest_refuted.

(** ** C41 *)
(** Data: the packet is a function of the key through the signature value alone. *)
Theorem C41_data : forall sha hmac esk esign rsk rsign n c content kn for_cert t, name_typed n -> data_config_ok c -> all_of name_typed kn ->
  (data_size n c content + olen (fun k => nlen (name_enc k)) kn + nlen (mo_from t) + nlen (mo_until t) + 65835 < packet_limit)%N ->
  (exists pre, forall key, length (hmac key pre) = 32%nat ->
     exists w cov, make_data (Some n) (Some c) content (Some (hmac_signer hmac kn key for_cert t)) = Ok (w, Some cov) /\ concat w = tlv 6 (pre ++ tlv 23 (hmac key pre)))
  /\ (exists pre, forall (key : esk) bits seq rnd sig, esign key rnd (sha pre) = Ok sig -> (0 < nlen sig <= ecc_est bits)%N -> (ecc_est bits <= 252)%N ->
     exists w cov, make_data (Some n) (Some c) content (Some (fst (ecc_signer sha esk esign kn key bits for_cert false seq t rnd))) = Ok (w, Some cov) /\ concat w = tlv 6 (pre ++ tlv 23 sig))
  /\ (exists pre, forall (key : rsk) seq sig, rsign key (sha pre) = Ok sig -> (0 < nlen sig <= 65535)%N ->
     exists w cov, make_data (Some n) (Some c) content (Some (fst (rsa_signer sha rsk rsign kn key (nlen sig) for_cert false seq t))) = Ok (w, Some cov) /\ concat w = tlv 6 (pre ++ tlv 23 sig)).
Proof. exact key_only_in_value. Qed.
Print Assumptions C41_data.

(** Data and Interests: the signature information does not depend on the key, nor on its size ... *)
Theorem C41_info : forall sha hmac esk esign rsk rsign kn for_cert for_int seq t,
  (forall k k', sg_info (hmac_signer hmac kn k for_cert t) = sg_info (hmac_signer hmac kn k' for_cert t))
  /\ (forall (k k' : esk) bits bits' rnd rnd', sg_info (fst (ecc_signer sha esk esign kn k bits for_cert for_int seq t rnd)) = sg_info (fst (ecc_signer sha esk esign kn k' bits' for_cert for_int seq t rnd')))
  /\ (forall (k k' : rsk) size size', sg_info (fst (rsa_signer sha rsk rsign kn k size for_cert for_int seq t)) = sg_info (fst (rsa_signer sha rsk rsign kn k' size' for_cert for_int seq t))).
Proof. intros. repeat split. Qed.
Print Assumptions C41_info.
(** ... while that of the HMAC signer for Interests determines it. *)
Theorem C41_info_refuted : forall hmac k k' seq t, sg_info (fst (hmac_int_signer hmac k seq t)) = sg_info (fst (hmac_int_signer hmac k' seq t)) -> k = k'.
Proof. intros hmac k k' seq t H. cbn [hmac_int_signer fst sg_info] in H. injection H as H. exact H. Qed.
Print Assumptions C41_info_refuted.

(** False of the HMAC signer for Interests: the key is in the packet, as the name of the key locator. *)
Theorem C41_hmac_int_refuted : forall sha hmac n c a key seq t, (forall b, length (sha b) = 32%nat /\ bytes_ok (sha b)) -> (forall k b, length (hmac k b) = 32%nat) ->
  name_typed n -> interest_config_ok c -> moment_ok t -> bytes_ok key -> (nlen key <= 252)%N -> (seq < two64)%N ->
  (interest_size n c (Some a) + nlen (mo_nonce t) + 2000 < packet_limit)%N ->
  exists w cov fn, make_interest sha (Some n) (Some c) (Some a) (Some (fst (hmac_int_signer hmac key seq t))) = Ok (w, Some cov, fn) /\ occurs key (concat w)
    /\ forall F, (length (concat w) < F)%nat -> exists i cov', read_interest sha F (new_buffer_reader (concat w)) = Ok (i, cov') /\ i_key_name i = Some [mkComp 8 key].
Proof.
  intros. destruct (C40_int_hmac sha hmac n c a key seq t) as (w & cov & fn & A1 & A2 & A3); try assumption. exists w, cov, fn. split; [exact A1|]. split; [exact A2|].
  intros F LF. destruct (A3 F LF) as (i & cov' & B1 & _ & B2 & _). eauto.
Qed.
Print Assumptions C41_hmac_int_refuted.

(** ** C60 *)
(** The numbers a signer for Interests announces are those after the last, one by one ... *)
Theorem C60_sequence : forall sha esk esign (ek : esk) bits rnd rsk rsign (rk : rsk) size kn for_cert ts seq i, (seq < two64)%N -> (i < length ts)%nat ->
  let next := Some (((seq + N.of_nat i + 1) mod two64)%N) in
  nth i (announced (sha256_int_signer sha) seq ts) None = next
  /\ nth i (announced (fun q t => ecc_signer sha esk esign kn ek bits for_cert true q t rnd) seq ts) None = next
  /\ nth i (announced (fun q t => rsa_signer sha rsk rsign kn rk size for_cert true q t) seq ts) None = next.
Proof. intros. repeat split; apply announced_next; try assumption; intros q t; eexists; (split; [reflexivity|]; split; reflexivity). Qed.
Print Assumptions C60_sequence.

(** ... hence all different and increasing until 2^64. *)
Theorem C60_increasing : forall sha esk esign (ek : esk) bits rnd rsk rsign (rk : rsk) size kn for_cert ts seq i j, (seq + N.of_nat (length ts) < two64)%N -> (i < j < length ts)%nat ->
  let grows l := exists a b, nth i l None = Some a /\ nth j l None = Some b /\ (a < b)%N in
  grows (announced (sha256_int_signer sha) seq ts)
  /\ grows (announced (fun q t => ecc_signer sha esk esign kn ek bits for_cert true q t rnd) seq ts)
  /\ grows (announced (fun q t => rsa_signer sha rsk rsign kn rk size for_cert true q t) seq ts).
Proof.
  intros sha esk esign ek bits rnd rsk rsign rk size kn for_cert ts seq i j LS LI grows.
  assert (A : exists x y, ((seq + N.of_nat i + 1) mod two64 = x)%N /\ ((seq + N.of_nat j + 1) mod two64 = y)%N /\ (x < y)%N).
  { do 2 eexists. split; [apply N.mod_small; lia|]. split; [apply N.mod_small; lia|]. lia. }
  destruct A as (x & y & X & Y & XY).
  destruct (C60_sequence sha esk esign ek bits rnd rsk rsign rk size kn for_cert ts seq i) as (P1 & P2 & P3); [lia|lia|].
  destruct (C60_sequence sha esk esign ek bits rnd rsk rsign rk size kn for_cert ts seq j) as (Q1 & Q2 & Q3); [lia|lia|].
  rewrite X in *. rewrite Y in *. unfold grows. split; [|split]; exists x, y; auto.
Qed.
Print Assumptions C60_increasing.

(** False of the HMAC signer: all numbers are the same. *)
Theorem C60_hmac_refuted : forall hmac key ts seq i, (i < length ts)%nat -> nth i (announced (hmac_int_signer hmac key) seq ts) None = Some seq.
Proof. intros. apply announced_same; [|assumption]. intros q t. eexists. split; [reflexivity|]. split; reflexivity. Qed.
Print Assumptions C60_hmac_refuted.

(** ** Cases.  A toy hash: 32 bytes, the sum of all bytes modulo 256. *)
Definition ex_sum (b : buf) : N := (fold_right N.add 0 b mod 256)%N.
Definition ex_hash (b : buf) : buf := repeat (ex_sum b) 32.
Definition ex_hmac (k b : buf) : buf := ex_hash (k ++ b).
Definition ex_esign (k : buf) (rnd digest : buf) : res buf := Ok (k ++ rnd ++ digest).
Definition ex_everify (k : buf) (digest sig : buf) : bool := bytes_eqb (firstn 1 sig) k && bytes_eqb (skipn (length sig - 32) sig) digest.
Definition ex_t : moment := mkMoment [1%N; 2%N] 1700000000000 [1%N] [2%N].
Definition ex_n : name := [mkComp 8 [97%N]; mkComp 50 [3%N]].
Definition ex_dc : data_config := mkDC (Some 0%N) (Some 1000000%Z) None.
Example C40_data_example :
  let try s check := match make_data (Some ex_n) (Some ex_dc) (Some [[5%N]]) (Some s) with
    | Ok (w, Some _) => match read_data 1000 (new_buffer_reader (concat w)) with Ok (d, cov) => Some (check cov (d_sig_type d) (sig_bytes d)) | _ => None end
    | _ => None end in
  try (sha256_signer ex_hash) (fun cov t v => sha256_validate ex_hash cov t v) = Some true
  /\ try (hmac_signer ex_hmac (Some ex_n) [7%N] true ex_t) (fun cov t v => hmac_validate ex_hmac cov t v [7%N]) = Some true
  /\ try (hmac_signer ex_hmac (Some ex_n) [7%N] true ex_t) (fun cov t v => hmac_validate ex_hmac cov t v [8%N]) = Some false
  /\ try (fst (ecc_signer ex_hash buf ex_esign (Some ex_n) [7%N] 256 false false 4 ex_t [1%N])) (fun cov t v => ecdsa_validate ex_hash buf ex_everify cov t v [7%N]) = Some true
  /\ try (fst (rsa_signer ex_hash buf (fun k b => Ok (k ++ b)) (Some ex_n) [7%N] 33 false false 4 ex_t)) (fun cov t v => rsa_validate ex_hash buf ex_everify cov t v [7%N]) = Some false
  /\ try (sha256_signer ex_hash) (fun cov t v => hmac_validate ex_hmac cov t v []) = Some false.
Proof. repeat split; vm_compute; reflexivity. Qed.
Definition ex_ic : interest_config := mkIC false true None (Some 5%N) (Some 4000000000%Z) None.
Example C40_int_example :
  let try s check := match make_interest ex_hash (Some ex_n) (Some ex_ic) (Some [[5%N]]) (Some s) with
    | Ok (w, Some _, _) => match read_interest ex_hash 1000 (new_buffer_reader (concat w)) with Ok (i, cov) => Some (i_sig_seq i, check cov (i_sig_type i) (i_sig_value i)) | _ => None end
    | _ => None end in
  try (fst (sha256_int_signer ex_hash 7 ex_t)) (fun cov t v => sha256_validate ex_hash cov t v) = Some (Some 8%N, true)
  /\ try (fst (hmac_int_signer ex_hmac [7%N] 7 ex_t)) (fun cov t v => hmac_validate ex_hmac cov t v [7%N]) = Some (Some 7%N, true)
  /\ try (fst (ecc_signer ex_hash buf ex_esign (Some ex_n) [7%N] 256 false true 4 ex_t [1%N])) (fun cov t v => ecdsa_validate ex_hash buf ex_everify cov t v [7%N]) = Some (Some 5%N, true)
  /\ try (fst (ecc_signer ex_hash buf ex_esign (Some ex_n) [7%N] 256 true true 4 ex_t [1%N])) (fun cov t v => true) = None.
Proof. repeat split; vm_compute; reflexivity. Qed.
(** Hypotheses of the ECDSA theorems: met by the toy scheme, for which the three sizes are 1, 1, 32. *)
Example C40_pair_example : ecdsa_pair (fun k rnd digest => ex_esign k (firstn 1 (rnd ++ [0%N])) (firstn 32 (digest ++ repeat 0%N 32)))
  (fun k digest sig => ex_everify k (firstn 32 (digest ++ repeat 0%N 32)) sig) 256 [7%N] [7%N] /\ (ecc_est 256 = 72)%N /\ (ecc_est 224 <= 252)%N /\ (ecc_est 384 <= 252)%N /\ (ecc_est 521 <= 252)%N.
Proof.
  split; [|repeat split; discriminate]. intros rnd digest. eexists. split; [reflexivity|].
  assert (LR : length (firstn 1 (rnd ++ [0%N])) = 1%nat) by (rewrite firstn_length, app_length; cbn [length]; lia).
  assert (LD : length (firstn 32 (digest ++ repeat 0%N 32)) = 32%nat) by (rewrite firstn_length, app_length, repeat_length; lia).
  set (r := firstn 1 (rnd ++ [0%N])) in *. set (d := firstn 32 (digest ++ repeat 0%N 32)) in *. split.
  - unfold ex_everify. apply andb_true_iff. split; [apply beq_refl|]. apply beq_iff. rewrite !app_length, LR, LD. change (length [7%N]) with 1%nat. replace (1 + (1 + 32) - 32)%nat with (length ([7%N] ++ r)) by (rewrite app_length, LR; reflexivity).
    rewrite app_assoc, skipn_app, skipn_all, Nat.sub_diag, skipn_O. reflexivity.
  - unfold nlen. rewrite !app_length, LR, LD. vm_compute. split; [reflexivity|discriminate].
Qed.
Example C60_example : announced (sha256_int_signer ex_hash) 7 [ex_t; ex_t; ex_t] = [Some 8%N; Some 9%N; Some 10%N] /\ announced (hmac_int_signer ex_hmac [7%N]) 7 [ex_t; ex_t] = [Some 7%N; Some 7%N].
Proof. split; vm_compute; reflexivity. Qed.
Example C40_policy_example : let x := mkM [] (SNode tt []) [] ex_n : mnode unit in
  let l := mkLeaf [sha256_policy_signer ex_hash] 0 1000000 1000000 in let p := mkPoint [] [sha256_policy_valid ex_hash] [] [] false false 0 false in
  exists acts w dat cov e, provide l x (Some [[5%N]]) None 0 = Ok (acts, Some w) /\ read_data 1000 (new_buffer_reader (concat w)) = Ok (dat, cov)
    /\ need_result p x None (XData dat w cov) = Ok [ASave e; ACall e] /\ ev_status e = Some SData /\ option_map (@concat N) (ev_content e) = Some [5%N].
Proof. do 5 eexists. split; [vm_compute; reflexivity|]. split; [vm_compute; reflexivity|]. split; [vm_compute; reflexivity|]. split; vm_compute; reflexivity. Qed.
