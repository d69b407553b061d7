(** C68: the key chain of an SQLite PIB and a file TPM (pkg/security/pib). *)
From Verif Require Import Base BaseProofs PrimModel NameModel NameProofs ReaderModel CodecModel CodecSpec CodecSpec2 SpecModel SpecSpec PropsSpec NeedModel SecModel SecSpec PropsSec PibModel PibSpec PibProofs.

(** ** Looking up by name: exactly the row with that name. *)
Theorem C68_identity_partial : forall p n, NoDup (map ir_name (pb_idents p)) -> short_name n ->
  (forall i, get_identity p n = Ok (Some i) <-> id_name i = n /\ In (mkIR (id_row i) (std_name n) (id_default i)) (pb_idents p))
  /\ (get_identity p n = Ok None <-> forall r, In r (pb_idents p) -> ir_name r <> std_name n).
Proof.
  intros p n ND S. rewrite (identity_eq p n S). split.
  - intros i. split.
    + intros H. destruct (find _ _) as [r|] eqn:F; [|discriminate]. apply find_eq in F. destruct F as [I E]. cbn [option_map] in H. injection H as <-.
      cbn [id_name id_row id_default]. split; [reflexivity|]. rewrite <- E. destruct r; exact I.
    + intros [E I]. rewrite (find_unique ir_name (std_name n) _ _ ND I eq_refl). cbn [option_map ir_id ir_default]. rewrite <- E. destruct i; reflexivity.
  - split.
    + intros H r I E. destruct (find _ _) as [x|] eqn:F; [discriminate|]. apply find_no in F. apply F. eauto.
    + intros H. replace (find _ _) with (@None ident_row); [reflexivity|]. symmetry. apply find_no. intros (r & I & E). exact (H r I E).
Qed.
Print Assumptions C68_identity_partial.

Theorem C68_key_partial : forall p n, NoDup (map kr_name (pb_keys p)) -> short_name n ->
  (forall k, pib_key p n = Ok (Some k) <-> pk_name k = n /\ exists i, In (mkKR (pk_row k) i (std_name n) (pk_bits k) (pk_default k)) (pb_keys p))
  /\ (pib_key p n = Ok None <-> forall r, In r (pb_keys p) -> kr_name r <> std_name n).
Proof.
  intros p n ND S. rewrite (key_eq p n S). split.
  - intros k. split.
    + intros H. destruct (find _ _) as [r|] eqn:F; [|discriminate]. apply find_eq in F. destruct F as [I E]. cbn [option_map] in H. injection H as <-.
      cbn [pk_name pk_row pk_bits pk_default]. split; [reflexivity|]. exists (kr_ident r). rewrite <- E. destruct r; exact I.
    + intros [E (i & I)]. rewrite (find_unique kr_name (std_name n) _ _ ND I eq_refl). cbn [option_map kr_id kr_bits kr_default]. rewrite <- E. destruct k; reflexivity.
  - split.
    + intros H r I E. destruct (find _ _) as [x|] eqn:F; [discriminate|]. apply find_no in F. apply F. eauto.
    + intros H. replace (find _ _) with (@None key_row); [reflexivity|]. symmetry. apply find_no. intros (r & I & E). exact (H r I E).
Qed.
Print Assumptions C68_key_partial.

(** A certificate has the key locator of the packet it holds; a packet that cannot be read is no certificate. *)
Theorem C68_cert_partial : forall p n, NoDup (map cr_name (pb_certs p)) -> short_name n ->
  (forall c, pib_cert p n = Ok (Some c) <-> ce_name c = n /\ locator_is (ce_data c) (ce_locator c)
     /\ exists k, In (mkCR (ce_row c) k (std_name n) (ce_data c) (ce_default c)) (pb_certs p))
  /\ ((forall r, In r (pb_certs p) -> cr_name r <> std_name n) -> pib_cert p n = Ok None).
Proof.
  intros p n ND S. split.
  - intros c. split.
    + intros H. destruct (cert_inv p n c S H) as (r & I & E & (A & _ & B & C & D) & N). split; [exact N|]. rewrite B. split; [exact D|].
      exists (cr_key r). rewrite A, C, <- E. destruct r; exact I.
    + intros (E & L & k & I). unfold pib_cert. rewrite (bytes_std n S). cbn [bind]. rewrite (find_unique cr_name (std_name n) _ _ ND I eq_refl). cbn [cr_data cr_id cr_default].
      rewrite (locator_ok _ _ L). cbn [bind]. rewrite <- E. destruct c; reflexivity.
  - intros H. unfold pib_cert. rewrite (bytes_std n S). cbn [bind]. replace (find _ _) with (@None cert_row); [reflexivity|]. symmetry. apply find_no. intros (r & I & E). exact (H r I E).
Qed.
Print Assumptions C68_cert_partial.

(** A longer name, up to 64767 bytes, is found in no PIB that stores names in the packet format, whatever is in it. *)
Theorem C68_long_refuted : forall p n, Forall comp_short n -> (252 < nlen (std_value n) < 64768)%N ->
  (forall r, In r (pb_idents p) -> exists m, ir_name r = std_name m) -> (forall r, In r (pb_keys p) -> exists m, kr_name r = std_name m) ->
  (forall r, In r (pb_certs p) -> exists m, cr_name r = std_name m) ->
  get_identity p n = Ok None /\ pib_key p n = Ok None /\ pib_cert p n = Ok None.
Proof.
  intros p n S L HI HK HC. destruct (long_bytes n S L) as (w & B & N). unfold get_identity, pib_key, pib_cert. rewrite B. cbn [bind].
  rewrite (find_std ir_name), (find_std kr_name), (find_std cr_name) by assumption. auto.
Qed.
Print Assumptions C68_long_refuted.

(** ** Searching *)
(** In any PIB: what FindCert of a key returns is the first certificate of the key that the function accepts. *)
Theorem C68_first : forall p k check, 
  (forall c, key_find_cert p k check = Ok (Some c) -> exists l r l', filter (fun r => (cr_key r =? pk_row k)%N) (pb_certs p) = l ++ r :: l'
     /\ holds r c /\ check c = true /\ forall r' c', In r' l -> holds r' c' -> check c' = false)
  /\ (key_find_cert p k check = Ok None -> forall r c, In r (pb_certs p) -> cr_key r = pk_row k -> holds r c -> check c = false).
Proof.
  intros p k check. split; [intros c; apply find_in_some|]. intros H r c I E. apply (find_in_none _ _ H r c). apply filter_In. split; [exact I|]. apply N.eqb_eq. exact E.
Qed.
Print Assumptions C68_first.

(** In any PIB, also with rows that cannot be read: what FindCert of an identity returns is an accepted certificate of
    one of its keys, and when it returns nil, no certificate of any of its keys that has a readable name is accepted. *)
Theorem C68_first_of_identity : forall p i check,
  (forall c, ident_find_cert p i check = Ok (Some c) -> exists k n r, In k (pb_keys p) /\ kr_ident k = id_row i /\ name_from_bytes (kr_name k) = Ok n
     /\ In r (pb_certs p) /\ cr_key r = kr_id k /\ holds r c /\ check c = true)
  /\ (ident_find_cert p i check = Ok None -> forall k n r c, In k (pb_keys p) -> kr_ident k = id_row i -> name_from_bytes (kr_name k) = Ok n ->
      In r (pb_certs p) -> cr_key r = kr_id k -> holds r c -> check c = false).
Proof.
  intros p i check. unfold ident_find_cert.
  assert (G : forall rows, (forall c, find_in_keys p check rows = Ok (Some c) -> exists k n r, In k rows /\ name_from_bytes (kr_name k) = Ok n /\ In r (pb_certs p) /\ cr_key r = kr_id k /\ holds r c /\ check c = true)
     /\ (find_in_keys p check rows = Ok None -> forall k n r c, In k rows -> name_from_bytes (kr_name k) = Ok n -> In r (pb_certs p) -> cr_key r = kr_id k -> holds r c -> check c = false)).
  { induction rows as [|k rows [IH1 IH2]]; [split; [discriminate|intros _ k n r c []]|]. cbn [find_in_keys]. destruct (name_from_bytes (kr_name k)) as [n|e| |] eqn:N.
    - set (K := mkPKey (kr_id k) n (kr_bits k) (kr_default k)). pose proof (C68_first p K check) as [F1 F2]. destruct (key_find_cert p K check) as [[c|]| | |]; cbn [bind].
      + split; [|discriminate]. intros c0 E. injection E as <-. destruct (F1 c eq_refl) as (l & r & l' & FE & H & C & _). exists k, n, r.
        assert (I : In r (filter (fun r => (cr_key r =? pk_row K)%N) (pb_certs p))) by (rewrite FE; apply in_elt). apply filter_In in I. destruct I as [I1 I2]. apply N.eqb_eq in I2.
        split; [left; auto|]. split; [exact N|]. split; [exact I1|]. split; [exact I2|]. split; auto.
      + split.
        * intros c E. destruct (IH1 c E) as (k0 & n0 & r & I & H). exists k0, n0, r. split; [right; exact I|exact H].
        * intros E k0 n0 r c [<-|I] N0 IR CK H; [|exact (IH2 E k0 n0 r c I N0 IR CK H)]. exact (F2 eq_refl r c IR CK H).
      + split; [discriminate|discriminate].
      + split; [discriminate|discriminate].
      + split; [discriminate|discriminate].
    - split.
      + intros c E. destruct (IH1 c E) as (k0 & n0 & r & I & H). exists k0, n0, r. split; [right; exact I|exact H].
      + intros E k0 n0 r c [<-|I] N0 IR CK H; [congruence|]. exact (IH2 E k0 n0 r c I N0 IR CK H).
    - split; [discriminate|discriminate].
    - split; [discriminate|discriminate]. }
  destruct (G (filter (fun r => (kr_ident r =? id_row i)%N) (pb_keys p))) as [G1 G2]. split.
  - intros c E. destruct (G1 c E) as (k & n & r & I & H). apply filter_In in I. destruct I as [I1 I2]. apply N.eqb_eq in I2. exists k, n, r. split; auto.
  - intros E k n r c I KI. apply (G2 E k n r c). apply filter_In. split; auto. apply N.eqb_eq. exact KI.
Qed.
Print Assumptions C68_first_of_identity.

(** A certificate that a key finds is accepted, is the one that its name looks up, is named after the key, and leads
    back to the key; when none is found, none of the certificates named after the key is accepted. *)
Theorem C68_key_find_partial : forall p n k check, pib_ok p -> short_name n -> pib_key p n = Ok (Some k) -> exists o, key_find_cert p k check = Ok o /\
  match o with
  | Some c => check c = true /\ (exists a b, ce_name c = n ++ [a; b] /\ short_name (n ++ [a; b])) /\ pib_cert p (ce_name c) = Ok (Some c) /\ cert_key p c = Ok (Some k)
  | None => forall c a b, short_name (n ++ [a; b]) -> pib_cert p (n ++ [a; b]) = Ok (Some c) -> check c = false
  end.
Proof. exact key_find. Qed.
Print Assumptions C68_key_find_partial.

Theorem C68_ident_find_partial : forall p n i check, pib_ok p -> short_name n -> get_identity p n = Ok (Some i) -> exists o, ident_find_cert p i check = Ok o /\
  match o with
  | Some c => check c = true /\ (exists a b x y, ce_name c = n ++ [a; b; x; y] /\ short_name (n ++ [a; b; x; y])) /\ pib_cert p (ce_name c) = Ok (Some c)
              /\ exists k, cert_key p c = Ok (Some k) /\ key_identity p k = Ok (Some i)
  | None => forall c a b x y, short_name (n ++ [a; b; x; y]) -> pib_cert p (n ++ [a; b; x; y]) = Ok (Some c) -> check c = false
  end.
Proof. exact ident_find. Qed.
Print Assumptions C68_ident_find_partial.

(** Every key leads to its identity. *)
Theorem C68_key_identity_partial : forall p n k, pib_ok p -> short_name n -> pib_key p n = Ok (Some k) ->
  exists m a b i, n = m ++ [a; b] /\ key_identity p k = Ok (Some i) /\ id_name i = m /\ get_identity p m = Ok (Some i).
Proof.
  intros p n k PO S K. destruct (key_inv p n k S K) as (r & I & E & ->). destruct (po_keys p PO r I) as (ir & II & _ & U).
  destruct (under_short _ _ U) as (m & a & b & S1 & S2 & E1 & E2). assert (n = m ++ [a; b]) by (apply std_inj; congruence). subst n.
  pose proof (ident_found p ir m PO II S1 E1) as F. exists m, a, b, (mkIdent (ir_id ir) m (ir_default ir)). split; [reflexivity|].
  unfold key_identity. cbn [pk_name]. rewrite drop2_app. auto.
Qed.
Print Assumptions C68_key_identity_partial.

(** SelfSignedCert: a certificate issued by "self", if the key has one. *)
Theorem C68_self_signed_partial : forall p n k, pib_ok p -> short_name n -> pib_key p n = Ok (Some k) -> exists o, self_signed_cert p k = Ok o /\
  match o with
  | Some c => exists v, ce_name c = n ++ [mkComp 8 [115; 101; 108; 102]; v] /\ pib_cert p (ce_name c) = Ok (Some c)
  | None => n <> [] -> forall c v, short_name (n ++ [mkComp 8 [115; 101; 108; 102]; v]) -> pib_cert p (n ++ [mkComp 8 [115; 101; 108; 102]; v]) <> Ok (Some c)
  end%N.
Proof.
  intros p n k PO S K. unfold self_signed_cert. destruct (key_find p n k is_self_signed PO S K) as (o & O & R). exists o. split; [exact O|].
  assert (NTH : forall a b, nth (length (n ++ [a; b]) - 2) (n ++ [a; b]) comp_self = a).
  { intros a b. rewrite app_length. cbn [length]. replace (length n + 2 - 2)%nat with (length n) by lia. rewrite app_nth2, Nat.sub_diag by lia. reflexivity. }
  destruct o as [c|].
  - destruct R as (CT & (a & b & CN & _) & PC & _). exists b. split; [|exact PC]. rewrite CN. unfold is_self_signed in CT. apply andb_true_iff in CT. destruct CT as [_ CT].
    rewrite CN, NTH in CT. unfold comp_equal in CT. destruct (_ || _)%bool eqn:X in CT; [discriminate|]. apply orb_false_iff in X. destruct X as [X _]. apply negb_false_iff, N.eqb_eq in X.
    apply beq_iff in CT. destruct a as [ty va]. unfold comp_self in *. cbn in X, CT. rewrite X, CT. reflexivity.
  - intros NE c v SV PC. pose proof (R c _ v SV PC) as CF. destruct (cert_inv p _ c SV PC) as (_ & _ & _ & _ & CN). unfold is_self_signed in CF. rewrite CN, NTH in CF.
    apply andb_false_iff in CF. destruct CF as [CF | CF].
    + apply Nat.ltb_ge in CF. rewrite app_length in CF. cbn [length] in CF. destruct n; [congruence|cbn [length] in CF; lia].
    + vm_compute in CF. discriminate.
Qed.
Print Assumptions C68_self_signed_partial.

(** ** Private keys *)
(** Two keys share a file exactly if the digests of their encoded names agree. *)
Theorem C68_files : forall sha n m, (forall b, bytes_ok (sha b)) -> short_name n -> short_name m ->
  (exists a b, name_bytes n = Ok a /\ name_bytes m = Ok b /\ (file_name sha a = file_name sha b <-> sha (std_name n) = sha (std_name m))).
Proof.
  intros sha n m SH SN SM. exists (std_name n), (std_name m). split; [apply bytes_std; assumption|]. split; [apply bytes_std; assumption|]. split.
  - unfold file_name. intros E. apply app_inv_tail in E. apply hex_inj in E; auto.
  - intros E. unfold file_name. rewrite E. reflexivity.
Qed.
Print Assumptions C68_files.

(** A signer is returned only for a key whose file exists. *)
Theorem C68_exists_partial : forall sha b64 esk rsk parse_ec parse_rsa esign rsign files k loc t rnd, short_name k ->
  (key_exist sha files k = Ok true <-> files (file_name sha (std_name k)) <> None)
  /\ (key_exist sha files k = Ok false -> tpm_signer sha b64 esk rsk parse_ec parse_rsa esign rsign files k loc t rnd = Ok None).
Proof.
  intros. unfold key_exist, tpm_signer. rewrite (bytes_std k H). cbn [bind]. destruct (files _); split; try discriminate; try reflexivity; split; congruence.
Qed.
Print Assumptions C68_exists_partial.

(** With the EC key of its key in the TPM, a certificate signs Data that the public key verifies, and whose key
    locator is the certificate. *)
Theorem C68_sign_partial : forall sha b64 esk epk rsk parse_ec parse_rsa esign everify rsign files (sk : esk) (pk : epk) bits k a b cert text block t rnd n c content,
  short_name (k ++ [a; b]) -> ce_name cert = k ++ [a; b] ->
  files (file_name sha (std_name k)) = Some text -> b64 text = Some block -> parse_ec block = Some (sk, bits) ->
  ecdsa_pair esign everify bits sk pk -> (ecc_est bits <= 252)%N ->
  name_typed n -> data_config_ok c -> (data_size n c content + nlen (mo_from t) + nlen (mo_until t) + 600 < packet_limit)%N ->
  exists sg w cov, cert_signer sha b64 esk rsk parse_ec parse_rsa esign rsign files cert t rnd = Ok (Some sg)
    /\ make_data (Some n) (Some c) content (Some sg) = Ok (w, Some cov)
    /\ forall F, (length (concat w) < F)%nat -> exists d cov', read_data F (new_buffer_reader (concat w)) = Ok (d, cov')
       /\ d_key_name d = Some (ce_name cert) /\ ecdsa_validate sha epk everify cov' (d_sig_type d) (sig_bytes d) pk = true.
Proof.
  intros sha b64 esk epk rsk parse_ec parse_rsa esign everify rsign files sk pk bits k a b cert text block t rnd n c content S CN FT BT PE PR EB NT DC LIM.
  destruct (short_facts _ S) as (KO & KS & KL & KE). pose proof (short_app _ _ S) as S1.
  destruct (C40_ecdsa sha esk epk esign everify bits sk pk n c content (Some (k ++ [a; b])) false 0 t rnd PR EB NT DC) as (w & cov & A & B).
  - split; assumption.
  - cbn [olen]. rewrite name_len_enc. lia.
  - eexists. exists w, cov. split; [|split; [exact A|]].
    + unfold cert_signer, signer_for_cert. rewrite CN, drop2_app. unfold tpm_signer. rewrite (bytes_std k S1). cbn [bind]. rewrite FT, BT, PE. reflexivity.
    + intros F LF. destruct (B F LF) as (d & cov' & R & _ & K & V). exists d, cov'. rewrite CN. auto.
Qed.
Print Assumptions C68_sign_partial.

(** With an RSA key it signs Data that nobody accepts. *)
Theorem C68_rsa_refuted : forall sha b64 esk rsk rpk parse_ec parse_rsa esign rsign rverify files (sk : rsk) (pk : rpk) size k a b cert text block t rnd n c content sig,
  short_name (k ++ [a; b]) -> ce_name cert = k ++ [a; b] ->
  files (file_name sha (std_name k)) = Some text -> b64 text = Some block -> parse_ec block = None -> parse_rsa block = Some (sk, size) ->
  (forall digest, rsign sk digest = Ok (sig digest) /\ nlen (sig digest) = size) -> (0 < size <= 65535)%N ->
  name_typed n -> data_config_ok c -> (data_size n c content + nlen (mo_from t) + nlen (mo_until t) + size + 600 < packet_limit)%N ->
  exists sg w cov, cert_signer sha b64 esk rsk parse_ec parse_rsa esign rsign files cert t rnd = Ok (Some sg)
    /\ make_data (Some n) (Some c) content (Some sg) = Ok (w, Some cov)
    /\ forall F, (length (concat w) < F)%nat -> exists d cov', read_data F (new_buffer_reader (concat w)) = Ok (d, cov')
       /\ rsa_validate sha rpk rverify cov' (d_sig_type d) (sig_bytes d) pk = false.
Proof.
  intros sha b64 esk rsk rpk parse_ec parse_rsa esign rsign rverify files sk pk size k a b cert text block t rnd n c content sig S CN FT BT PE PRS PR EB NT DC LIM.
  destruct (short_facts _ S) as (KO & KS & KL & KE). pose proof (short_app _ _ S) as S1.
  destruct (C40_rsa_refuted sha rsk rpk rsign rverify sk pk size n c content (Some (k ++ [a; b])) false 0 t sig PR EB NT DC) as (w & cov & A & B).
  - split; assumption.
  - cbn [olen]. rewrite name_len_enc. lia.
  - eexists. exists w, cov. split; [|split; [exact A|]].
    + unfold cert_signer, signer_for_cert. rewrite CN, drop2_app. unfold tpm_signer. rewrite (bytes_std k S1). cbn [bind]. rewrite FT, BT, PE, PRS. reflexivity.
    + intros F LF. destruct (B F LF) as (d & cov' & R & _ & _ & V). exists d, cov'. auto.
Qed.
Print Assumptions C68_rsa_refuted.

(** ** Examples *)
Definition ex_id (x : N) : name := [mkComp 8 [x]].
Definition ex_key (x y : N) : name := ex_id x ++ [mkComp 8 [75; 69; 89]; mkComp 8 [y]]%N.
Definition ex_cert (x y : N) (issuer : buf) (v : N) : name := ex_key x y ++ [mkComp 8 issuer; mkComp 54 [v]]%N.
(** Data named /a, key locator /k *)
Definition ex_packet : buf := [6; 20; 7; 3; 8; 1; 97; 22; 10; 27; 1; 3; 28; 5; 7; 3; 8; 1; 107; 23; 1; 0]%N.
Definition ex_pib : pib := (mkPib [mkIR 1 (std_name (ex_id 97)) true; mkIR 2 (std_name (ex_id 98)) false]
  [mkKR 1 1 (std_name (ex_key 97 1)) [10] true; mkKR 5 2 (std_name (ex_key 98 1)) [11] true; mkKR 3 1 (std_name (ex_key 97 2)) [12] false]
  [mkCR 1 3 (std_name (ex_cert 97 2 [115; 101; 108; 102] 1)) ex_packet true; mkCR 2 1 (std_name (ex_cert 97 1 [120] 1)) ex_packet true; mkCR 4 1 (std_name (ex_cert 97 1 [115; 101; 108; 102] 2)) ex_packet false])%N.

Example C68_pib_example : pib_ok ex_pib.
Proof.
  assert (SH : forall n, Forall comp_ok n -> (nlen (std_value n) <=? 252)%N = true -> short_name n) by (intros n A B; split; [exact A|apply N.leb_le; exact B]).
  assert (L : locator_is ex_packet (Some [mkComp 8 [107]]%N)) by (eexists _, _; split; vm_compute; reflexivity).
  split; [vm_compute; repeat constructor; cbn; intuition discriminate..| |].
  - intros k [<- | [<- | [<- | []]]]; cbn [kr_ident kr_name].
    + exists (mkIR 1 (std_name (ex_id 97)) true). split; [left; reflexivity|]. split; [reflexivity|]. exists (ex_id 97), (mkComp 8 [75; 69; 89])%N, (mkComp 8 [1])%N.
      split; [apply SH; [repeat constructor|reflexivity]|]. split; reflexivity.
    + exists (mkIR 2 (std_name (ex_id 98)) false). split; [right; left; reflexivity|]. split; [reflexivity|]. exists (ex_id 98), (mkComp 8 [75; 69; 89])%N, (mkComp 8 [1])%N.
      split; [apply SH; [repeat constructor|reflexivity]|]. split; reflexivity.
    + exists (mkIR 1 (std_name (ex_id 97)) true). split; [left; reflexivity|]. split; [reflexivity|]. exists (ex_id 97), (mkComp 8 [75; 69; 89])%N, (mkComp 8 [2])%N.
      split; [apply SH; [repeat constructor|reflexivity]|]. split; reflexivity.
  - intros c [<- | [<- | [<- | []]]]; cbn [cr_key cr_name cr_data]; (split; [|eexists; exact L]).
    + exists (mkKR 3 1 (std_name (ex_key 97 2)) [12%N] false). split; [right; right; left; reflexivity|]. split; [reflexivity|]. exists (ex_key 97 2), (mkComp 8 [115; 101; 108; 102])%N, (mkComp 54 [1])%N.
      split; [apply SH; [repeat constructor|reflexivity]|]. split; reflexivity.
    + exists (mkKR 1 1 (std_name (ex_key 97 1)) [10%N] true). split; [left; reflexivity|]. split; [reflexivity|]. exists (ex_key 97 1), (mkComp 8 [120])%N, (mkComp 54 [1])%N.
      split; [apply SH; [repeat constructor|reflexivity]|]. split; reflexivity.
    + exists (mkKR 1 1 (std_name (ex_key 97 1)) [10%N] true). split; [left; reflexivity|]. split; [reflexivity|]. exists (ex_key 97 1), (mkComp 8 [115; 101; 108; 102])%N, (mkComp 54 [2])%N.
      split; [apply SH; [repeat constructor|reflexivity]|]. split; reflexivity.
Qed.
Example C68_find_example : let k := mkPKey 1 (ex_key 97 1) [10%N] true in let loc := Some [mkComp 8 [107]]%N in
  let self := mkCert 4 (ex_cert 97 1 [115; 101; 108; 102]%N 2) ex_packet false loc in
  get_identity ex_pib (ex_id 97) = Ok (Some (mkIdent 1 (ex_id 97) true)) /\ get_identity ex_pib (ex_id 99) = Ok None
  /\ pib_key ex_pib (ex_key 97 1) = Ok (Some k) /\ self_signed_cert ex_pib k = Ok (Some self) /\ cert_key ex_pib self = Ok (Some k)
  /\ key_identity ex_pib k = Ok (Some (mkIdent 1 (ex_id 97) true)) /\ pib_cert ex_pib (ce_name self) = Ok (Some self)
  /\ ident_find_cert ex_pib (mkIdent 1 (ex_id 97) true) (fun c => negb (ce_default c)) = Ok (Some self)
  /\ ident_find_cert ex_pib (mkIdent 2 (ex_id 98) false) (fun _ => true) = Ok None
  /\ option_map ce_row (match ident_find_cert ex_pib (mkIdent 1 (ex_id 97) true) (fun _ => true) with Ok o => o | _ => None end) = Some 2%N.
Proof. repeat split; vm_compute; reflexivity. Qed.

(** GetKey of an identity returns keys of other identities, and GetCert of a key certificates of other keys. *)
Theorem C68_foreign_refuted : exists p i k kn, pib_ok p /\ get_identity p (ex_id 98) = Ok (Some i) /\ ident_get_key p i kn = Ok (Some k) /\ key_identity p k <> Ok (Some i)
  /\ exists k2 cn c, pib_key p (ex_key 98 1) = Ok (Some k2) /\ key_get_cert p k2 cn = Ok (Some c) /\ cert_key p c <> Ok (Some k2).
Proof.
  exists ex_pib, (mkIdent 2 (ex_id 98) false), (mkPKey 1 (ex_key 97 1) [10%N] true), (ex_key 97 1). split; [exact C68_pib_example|].
  split; [vm_compute; reflexivity|]. split; [vm_compute; reflexivity|]. split; [vm_compute; discriminate|].
  exists (mkPKey 5 (ex_key 98 1) [11%N] true), (ex_cert 97 1 [120%N] 1), (mkCert 2 (ex_cert 97 1 [120%N] 1) ex_packet true (Some [mkComp 8 [107]]%N)).
  split; [vm_compute; reflexivity|]. split; [vm_compute; reflexivity|]. vm_compute. discriminate.
Qed.
Print Assumptions C68_foreign_refuted.

(** A PIB with an identity whose name has 253 bytes. *)
Example C68_long_example : let n := [mkComp 8 (repeat 1%N 200); mkComp 8 (repeat 1%N 49)] in
  Forall comp_short n /\ (nlen (std_value n) = 253)%N /\ get_identity (mkPib [mkIR 1 (std_name n) true] [] []) n = Ok None.
Proof. split; [repeat constructor; vm_compute; discriminate|]. split; vm_compute; reflexivity. Qed.

Example C68_file_example : file_name (fun _ => [0; 171; 159]%N) [] = [48; 48; 97; 98; 57; 102; 46; 112; 114; 105; 118; 107; 101; 121]%N.
Proof. reflexivity. Qed.

(** Signing with a certificate of [ex_pib]; the key file of /a/KEY/1 holds the key [7]. *)
Example C68_sign_example :
  let sha := fun b => firstn 32 (b ++ repeat 0%N 32) in let files := fun f => if bytes_eqb f (file_name sha (std_name (ex_key 97 1))) then Some [7%N] else None in
  let signer := fun kn => signer_for_cert sha Some buf buf (fun b => Some (b, 256%N)) (fun _ => None) ex_esign (fun k b => Ok (k ++ b)) files kn ex_t [1%N] in
  key_exist sha files (ex_key 97 1) = Ok true /\ key_exist sha files (ex_key 97 2) = Ok false /\ signer (ex_cert 97 2 [120%N] 1) = Ok None
  /\ exists sg w cov d cov', signer (ex_cert 97 1 [120%N] 1) = Ok (Some sg) /\ make_data (Some (ex_id 99)) (Some ex_dc) (Some [[5%N]]) (Some sg) = Ok (w, Some cov)
     /\ read_data 1000 (new_buffer_reader (concat w)) = Ok (d, cov') /\ d_key_name d = Some (ex_cert 97 1 [120%N] 1)
     /\ ecdsa_validate sha buf ex_everify cov' (d_sig_type d) (sig_bytes d) [7%N] = true.
Proof.
  split; [vm_compute; reflexivity|]. split; [vm_compute; reflexivity|]. split; [vm_compute; reflexivity|]. do 5 eexists.
  split; [vm_compute; reflexivity|]. split; [vm_compute; reflexivity|]. split; [vm_compute; reflexivity|]. split; vm_compute; reflexivity.
Qed.
