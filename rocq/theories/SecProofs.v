(** Proofs about signers and validators. *)
From Verif Require Import Base BaseProofs PrimModel NameModel NameProofs OrderProofs ReaderModel CodecModel CodecSpec CodecSpec2 SpecModel SpecSpec PropsSpec NeedModel NeedSpec NeedProofs SecModel SecSpec.

Lemma beq_refl : forall b, bytes_eqb b b = true.
Proof. intros b. unfold bytes_eqb. destruct (list_eq_dec N.eq_dec b b); congruence. Qed.
Lemma beq_iff : forall a b, bytes_eqb a b = true <-> a = b.
Proof. intros a b. unfold bytes_eqb. destruct (list_eq_dec N.eq_dec a b); split; congruence. Qed.

Lemma data_verified : forall n c content s sc sig, name_typed n -> data_config_ok c -> data_sig_ok sc ->
  sg_info s = Ok (Some sc) -> (forall cov, concat cov = data_part n c content (Some sc) -> sg_sign s cov = Ok sig) ->
  fits (sg_est s) (nlen sig) -> (data_size n c content + sig_size sc + sg_est s < packet_limit)%N ->
  exists w cov, make_data (Some n) (Some c) content (Some s) = Ok (w, Some cov) /\ concat w = data_packet n c content (Some sc) (Some sig) /\ concat cov = data_part n c content (Some sc)
    /\ forall F, (length (concat w) < F)%nat -> exists d cov', read_data F (new_buffer_reader (concat w)) = Ok (d, cov')
       /\ data_reads n c content (Some sc) (Some sig) d /\ concat cov' = data_part n c content (Some sc).
Proof.
  intros n c content s sc sig NT DC SC SI SS FI LIM.
  destruct (C19_signed_partial n c content s sc sig (S (length (data_packet n c content (Some sc) (Some sig)))) NT DC SC SI SS FI LIM) as (w & cov & d & cov' & A1 & A2 & _ & _ & A5 & _); [lia|].
  exists w, cov. split; [exact A1|]. split; [exact A2|]. split; [exact A5|]. intros F LF. rewrite A2 in *.
  destruct FI as ((F1 & F2) & _). apply (C19_read n c content (Some sc) (Some sig) F); auto; cbn [olen all_of]; lia.
Qed.

Lemma int_verified : forall sha n c a s sc sig, (forall b, length (sha b) = 32%nat /\ bytes_ok (sha b)) -> name_typed n -> interest_config_ok c -> interest_sig_ok sc ->
  sg_info s = Ok (Some sc) -> (forall cov, concat cov = name_enc (base_name n) ++ signed_params (Some a) (Some sc) -> sg_sign s cov = Ok sig) ->
  (0 < nlen sig <= sg_est s)%N -> (sg_est s < 253)%N -> (interest_size n c (Some a) + sig_size sc + 1000 < packet_limit)%N ->
  let fn := final_interest sha n a (Some sc) (Some sig) in
  exists w cov, make_interest sha (Some n) (Some c) (Some a) (Some s) = Ok (w, Some cov, fn) /\ concat w = interest_packet fn c (Some a) (Some sc) (Some sig)
    /\ concat cov = name_enc (base_name n) ++ signed_params (Some a) (Some sc)
    /\ forall F, (length (concat w) < F)%nat -> exists i cov', read_interest sha F (new_buffer_reader (concat w)) = Ok (i, cov')
       /\ interest_reads fn c (Some a) (Some sc) (Some sig) i /\ concat cov' = concat cov.
Proof.
  intros sha n c a s sc sig SH NT IC SC SI SS L1 L2 LIM fn.
  destruct (C21_signed_partial sha n c a s sc sig (S (length (interest_packet fn c (Some a) (Some sc) (Some sig)))) SH NT IC SC SI SS L1 L2 LIM) as (w & cov & i & cov' & A1 & A2 & _ & _ & A5 & _); [fold fn; lia|].
  fold fn in A1, A2. exists w, cov. split; [exact A1|]. split; [exact A2|]. split; [exact A5|]. intros F LF. rewrite A2 in LF.
  destruct (C21_signed_partial sha n c a s sc sig F SH NT IC SC SI SS L1 L2 LIM LF) as (w2 & cov2 & i2 & cov2' & B1 & B2 & B3 & B4 & B5 & B6). fold fn in B1, B2, B3, B4.
  exists i2, cov2'. rewrite A2, <- B2. split; [exact B3|]. split; [exact B4|]. congruence.
Qed.

Lemma fits_small : forall est len, (0 < len <= est)%N -> (est <= 252)%N -> fits est len.
Proof. intros. split; [assumption|left; assumption]. Qed.

(** the size of ECDSA signatures *)
Lemma size_bound : forall x bits, (x < 2 ^ bits)%N -> (N.size x <= bits)%N.
Proof. intros x bits H. destruct (N.eq_dec x 0) as [->|NZ]; [cbn; lia|]. rewrite N.size_log2 by exact NZ. assert (N.log2 x < bits)%N by (apply N.log2_lt_pow2; lia). lia. Qed.
Lemma der_bound : forall bits r s, (bits <= 487 \/ (bits < 992 /\ bits mod 8 <> 0))%N -> (r < 2 ^ bits)%N -> (s < 2 ^ bits)%N -> (0 < der_sig r s <= ecc_est bits)%N.
Proof.
  intros bits r s B R S. apply size_bound in R, S.
  assert (QR : (N.size r / 8 <= bits / 8)%N) by (apply N.div_le_mono; lia). assert (QS : (N.size s / 8 <= bits / 8)%N) by (apply N.div_le_mono; lia).
  pose proof (N.div_mod bits 8 ltac:(lia)) as DM. pose proof (N.mod_lt bits 8 ltac:(lia)) as ML. set (q := (bits / 8)%N) in *. set (m := (bits mod 8)%N) in *.
  assert (EST : ecc_est bits = let l := (2 * q + (2 * m + 7) / 8)%N in (l + (l mod 2 + 8))%N).
  { unfold ecc_est. replace ((bits * 2 + 7) / 8)%N with (2 * q + (2 * m + 7) / 8)%N; [reflexivity|]. rewrite DM. replace ((8 * q + m) * 2 + 7)%N with (2 * m + 7 + (2 * q) * 8)%N by lia. rewrite N.div_add by lia. lia. }
  unfold der_sig, der_int. set (a := (N.size r / 8)%N) in *. set (b := (N.size s / 8)%N) in *.
  assert (A : der_len (a + 1) = (a + 3)%N) by (unfold der_len; destruct (N.ltb_spec (a + 1) 128); lia). assert (Bb : der_len (b + 1) = (b + 3)%N) by (unfold der_len; destruct (N.ltb_spec (b + 1) 128); lia).
  rewrite A, Bb. set (l := (2 * q + (2 * m + 7) / 8)%N) in *. cbn zeta in EST. rewrite EST.
  assert (C : m = 0%N \/ (0 < m <= 4)%N \/ (4 < m < 8)%N) by lia.
  assert (L : (m = 0 -> l = 2 * q)%N /\ (0 < m <= 4 -> l = 2 * q + 1)%N /\ (4 < m < 8 -> l = 2 * q + 2)%N).
  { unfold l. repeat split; intros X.
    - rewrite X. change ((2 * 0 + 7) / 8)%N with 0%N. lia.
    - f_equal. symmetry. apply (N.div_unique (2 * m + 7) 8 1 (2 * m - 1)); lia.
    - f_equal. symmetry. apply (N.div_unique (2 * m + 7) 8 2 (2 * m - 9)); lia. }
  assert (P : (0 < m <= 4 -> l mod 2 = 1)%N).
  { intros X. destruct L as (_ & L & _). rewrite (L X). rewrite N.mul_comm, N.add_comm. rewrite N.mod_add by lia. reflexivity. }
  unfold der_len. pose proof (N.mod_lt l 2 ltac:(lia)). destruct L as (L0 & L1 & L2).
  destruct (N.ltb_spec (a + 3 + (b + 3)) 128); [|destruct (N.ltb_spec (a + 3 + (b + 3)) 256)]; destruct C as [C|[C|C]]; first [pose proof (L0 C)|pose proof (L1 C); pose proof (P C)|pose proof (L2 C)]; lia.
Qed.

Lemma occurs_refl : forall b, occurs b b.
Proof. intros b. exists [], []. rewrite app_nil_r. reflexivity. Qed.
Lemma occurs_l : forall b x y, occurs b x -> occurs b (x ++ y).
Proof. intros b x y (p & q & ->). exists p, (q ++ y). rewrite <- !app_assoc. reflexivity. Qed.
Lemma occurs_r : forall b x y, occurs b y -> occurs b (x ++ y).
Proof. intros b x y (p & q & ->). exists (x ++ p), q. rewrite <- !app_assoc. reflexivity. Qed.
Lemma occurs_tlv : forall b t v, occurs b v -> occurs b (tlv t v).
Proof. intros b t v H. unfold tlv. rewrite ?app_assoc. apply occurs_r. exact H. Qed.
Lemma occurs_comp : forall c, occurs (cval c) (comp_enc c).
Proof. intros c. unfold comp_enc. rewrite ?app_assoc. apply occurs_r, occurs_refl. Qed.

Lemma occurs_key : forall fn c a sc sig key, interest_key sc = Some [mkComp TypeGeneric key] -> occurs key (interest_packet fn c (Some a) (Some sc) (Some sig)).
Proof.
  intros fn c a sc sig key H. unfold interest_packet, params_part, signed_params. cbn [option_map]. unfold opt_tlv at 2. rewrite H. unfold sig_info_part. cbn [option_map]. unfold opt_tlv at 2.
  apply occurs_tlv, occurs_r, occurs_r, occurs_l, occurs_r, occurs_tlv, occurs_r, occurs_l, occurs_tlv, occurs_tlv. cbn [name_enc map concat]. apply occurs_l. exact (occurs_comp (mkComp TypeGeneric key)).
Qed.

Lemma announced_length : forall mk ts seq, length (announced mk seq ts) = length ts.
Proof. intros mk. induction ts as [|t ts IH]; intros seq; [reflexivity|]. cbn [announced]. destruct (mk seq t) as (s & q). cbn [length]. rewrite IH. reflexivity. Qed.
(** a signer that announces the next number *)
Lemma announced_next : forall mk, (forall seq t, exists sc, sg_info (fst (mk seq t)) = Ok (Some sc) /\ sc_seq sc = Some (((seq + 1) mod two64)%N) /\ snd (mk seq t) = ((seq + 1) mod two64)%N) ->
  forall ts seq i, (seq < two64)%N -> (i < length ts)%nat -> nth i (announced mk seq ts) None = Some (((seq + N.of_nat i + 1) mod two64)%N).
Proof.
  intros mk H. induction ts as [|t ts IH]; intros seq i LS LI; [cbn in LI; lia|]. cbn [announced]. destruct (H seq t) as (sc & H1 & H2 & H3). destruct (mk seq t) as (s & q). cbn [fst snd] in H1, H3. rewrite H1, H2, H3.
  destruct i as [|i]; cbn [nth]; [f_equal; f_equal; lia|]. cbn [length] in LI. rewrite IH; [|apply N.mod_lt; discriminate|lia]. f_equal.
  replace ((seq + 1) mod two64 + N.of_nat i + 1)%N with ((seq + 1) mod two64 + (N.of_nat i + 1))%N by lia.
  rewrite N.add_mod_idemp_l by discriminate. f_equal. lia.
Qed.
Lemma announced_same : forall mk, (forall seq t, exists sc, sg_info (fst (mk seq t)) = Ok (Some sc) /\ sc_seq sc = Some seq /\ snd (mk seq t) = seq) ->
  forall ts seq i, (i < length ts)%nat -> nth i (announced mk seq ts) None = Some seq.
Proof.
  intros mk H. induction ts as [|t ts IH]; intros seq i LI; [cbn in LI; lia|]. cbn [announced]. destruct (H seq t) as (sc & H1 & H2 & H3). destruct (mk seq t) as (s & q). cbn [fst snd] in H1, H3. rewrite H1, H2, H3.
  destruct i as [|i]; cbn [nth]; [reflexivity|]. cbn [length] in LI. apply IH. lia.
Qed.

Lemma data_part_nonempty : forall n c content osc, data_part n c content osc <> [].
Proof. intros n c content osc H. unfold data_part, tlv in H. destruct (name_enc n); discriminate H. Qed.

Lemma policy_iff : forall D sha (p : point D) y dl d raw cov, p_valid_data p = [sha256_policy_valid sha] ->
  (cov <> [] /\ d_sig_type d = 0%Z /\ sig_bytes d = sha (concat cov) ->
     exists e, need_result p y dl (XData d raw cov) = Ok [ASave e; ACall e] /\ ev_status e = Some SData /\ ev_content e = d_content d)
  /\ (~ (cov <> [] /\ d_sig_type d = 0%Z /\ sig_bytes d = sha (concat cov)) ->
     exists e, need_result p y dl (XData d raw cov) = Ok [ACall e] /\ ev_status e = Some SUnverified /\ ev_content e = None).
Proof.
  intros D sha p y dl d raw cov PV. destruct (data_result p y dl d raw cov) as (e0 & l & acts & H1 & H2 & H3 & H4 & H5 & _ & H6 & H7 & H8 & H9).
  assert (L : exists z, l = [Verdict z] /\ ((0 < z)%Z <-> (cov <> [] /\ d_sig_type d = 0%Z /\ sig_bytes d = sha (concat cov)))).
  { assert (S : exists z, sha256_policy_valid sha e0 = Verdict z /\ ((0 < z)%Z <-> (cov <> [] /\ d_sig_type d = 0%Z /\ sig_bytes d = sha (concat cov)))).
    { unfold sha256_policy_valid. rewrite H3, H1. destruct cov as [|b cov]; [exists 0%Z; split; [reflexivity|]; split; [lia|]; intros (X & _); congruence|].
      unfold SigSha256. destruct (Z.eqb_spec (d_sig_type d) 0) as [E|E]; cbn [negb]; [|exists 0%Z; split; [reflexivity|]; split; [lia|tauto]].
      destruct (bytes_eqb (sig_bytes d) (sha (concat (b :: cov)))) eqn:B.
      - apply beq_iff in B. exists 1%Z. split; [reflexivity|]. split; [|lia]. intros _. split; [discriminate|]. split; [exact E|congruence].
      - exists (-2)%Z. split; [reflexivity|]. split; [lia|]. intros (_ & _ & X). apply beq_iff in X. congruence. }
    destruct S as (z & S1 & S2). exists z. split; [|exact S2]. rewrite PV in H6. inversion H6; subst; [congruence|]. match goal with H : asked [] _ _ |- _ => inversion H; subst end. congruence. }
  destruct L as (z & -> & L). split; intros H.
  - destruct H8 as (e & -> & E1 & E2 & _); [exists [], z; split; [reflexivity|]; apply L; exact H|]. exists e. auto.
  - destruct H9 as (e & -> & E1 & E2); [|exists e; auto]. intros (l' & z' & X & Z'). destruct l' as [|v [|]]; try discriminate X. injection X as ->. apply H, L. exact Z'.
Qed.

Lemma key_only_in_value : forall sha hmac esk esign rsk rsign n c content kn for_cert t, name_typed n -> data_config_ok c -> all_of name_typed kn ->
  (data_size n c content + olen (fun k => nlen (name_enc k)) kn + nlen (mo_from t) + nlen (mo_until t) + 65835 < packet_limit)%N ->
  (exists pre, forall key, length (hmac key pre) = 32%nat ->
     exists w cov, make_data (Some n) (Some c) content (Some (hmac_signer hmac kn key for_cert t)) = Ok (w, Some cov) /\ concat w = tlv 6 (pre ++ tlv 23 (hmac key pre)))
  /\ (exists pre, forall (key : esk) bits seq rnd sig, esign key rnd (sha pre) = Ok sig -> (0 < nlen sig <= ecc_est bits)%N -> (ecc_est bits <= 252)%N ->
     exists w cov, make_data (Some n) (Some c) content (Some (fst (ecc_signer sha esk esign kn key bits for_cert false seq t rnd))) = Ok (w, Some cov) /\ concat w = tlv 6 (pre ++ tlv 23 sig))
  /\ (exists pre, forall (key : rsk) seq sig, rsign key (sha pre) = Ok sig -> (0 < nlen sig <= 65535)%N ->
     exists w cov, make_data (Some n) (Some c) content (Some (fst (rsa_signer sha rsk rsign kn key (nlen sig) for_cert false seq t))) = Ok (w, Some cov) /\ concat w = tlv 6 (pre ++ tlv 23 sig)).
Proof.
  intros sha hmac esk esign rsk rsign n c content kn for_cert t NT DC KN LIM.
  assert (SO : forall typ, (0 <= typ < 100)%Z -> data_sig_ok (mkSC typ kn None None None (when for_cert (mo_from t)) (when for_cert (mo_until t)))).
  { intros typ TY. unfold data_sig_ok. cbn [sc_type sc_key sc_nonce sc_time sc_seq sc_not_before sc_not_after]. split; [lia|]. do 4 (split; [auto|]). destruct for_cert; cbn; intuition discriminate. }
  assert (SS : forall typ, (sig_size (mkSC typ kn None None None (when for_cert (mo_from t)) (when for_cert (mo_until t))) <= olen (fun k => nlen (name_enc k)) kn + nlen (mo_from t) + nlen (mo_until t))%N).
  { intros typ. unfold sig_size. cbn [sc_key sc_nonce sc_not_before sc_not_after]. destruct for_cert; cbn [when olen]; lia. }
  split; [|split].
  - set (sc := mkSC SigHmac kn None None None (when for_cert (mo_from t)) (when for_cert (mo_until t))). exists (data_part n c content (Some sc)). intros key HL. pose proof (SS SigHmac) as SZ. fold sc in SZ.
    destruct (data_verified n c content (hmac_signer hmac kn key for_cert t) sc (hmac key (data_part n c content (Some sc))) NT DC) as (w & cov & A1 & A2 & _).
    + apply SO. unfold SigHmac. lia.
    + reflexivity.
    + intros x X. cbn [hmac_signer sg_sign]. rewrite X. reflexivity.
    + apply fits_small; cbn [hmac_signer sg_est]; [unfold nlen; rewrite HL|]; lia.
    + cbn [hmac_signer sg_est]. lia.
    + exists w, cov. split; [exact A1|exact A2].
  - set (sc := key_info kn for_cert false 0 t). exists (data_part n c content (Some sc)). intros key bits seq rnd sig HS HL HB. pose proof (SS SigEcdsa) as SZ. 
    destruct (data_verified n c content (fst (ecc_signer sha esk esign kn key bits for_cert false seq t rnd)) sc sig NT DC) as (w & cov & A1 & A2 & _).
    + apply (SO SigEcdsa). unfold SigEcdsa. lia.
    + reflexivity.
    + intros x X. cbn [ecc_signer fst sg_sign]. rewrite X. exact HS.
    + apply fits_small; assumption.
    + cbn [ecc_signer fst sg_est]. unfold sc, key_info. cbn [when]. lia.
    + exists w, cov. split; [exact A1|exact A2].
  - set (sc := key_info kn for_cert false 0 t). exists (data_part n c content (Some sc)). intros key seq sig HS HL. pose proof (SS SigEcdsa) as SZ. 
    destruct (data_verified n c content (fst (rsa_signer sha rsk rsign kn key (nlen sig) for_cert false seq t)) sc sig NT DC) as (w & cov & A1 & A2 & _).
    + apply (SO SigEcdsa). unfold SigEcdsa. lia.
    + reflexivity.
    + intros x X. cbn [rsa_signer fst sg_sign]. rewrite X. exact HS.
    + cbn [rsa_signer fst sg_est]. split; [lia|]. destruct (N.leb_spec (nlen sig) 252); [left; assumption|right]. split; [lia|]. split; [lia|reflexivity].
    + cbn [rsa_signer fst sg_est]. unfold sc, key_info. cbn [when]. lia.
    + exists w, cov. split; [exact A1|exact A2].
Qed.
