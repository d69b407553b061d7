From Verif Require Import Base BaseProofs PrimModel PrimProofs NameModel NameProofs PropsNameProofs ReaderModel CodecModel CodecSpec2 SpecModel NeedModel SecModel PibModel PibSpec.

Lemma beq_iff : forall a b, bytes_eqb a b = true <-> a = b.
Proof. intros a b. unfold bytes_eqb. destruct (list_eq_dec N.eq_dec a b); split; congruence. Qed.

Lemma std_value_len : forall n, Forall comp_short n -> std_value n = name_enc n.
Proof.
  intros n H. unfold std_value, name_enc. induction H as [|c n HC HN IH]; [reflexivity|]. cbn [map concat]. rewrite IH. f_equal.
  unfold std_comp, comp_enc. rewrite nat_tl_short by exact HC. reflexivity.
Qed.
Lemma std_short : forall n, (nlen (std_value n) <= 252)%N -> Forall comp_short n.
Proof.
  induction n as [|c n IH]; intros H; constructor.
  - unfold std_value in H. cbn [map concat] in H. unfold std_comp in H. rewrite !nlen_app in H. unfold comp_short. lia.
  - apply IH. unfold std_value in *. cbn [map concat] in H. rewrite nlen_app in H. lia.
Qed.
Lemma short_facts : forall n, short_name n -> Forall comp_ok n /\ Forall comp_short n /\ (name_len n <= 252)%N /\ std_value n = name_enc n.
Proof.
  intros n [HO HL]. pose proof (std_short n HL) as HS. pose proof (std_value_len n HS) as E. split; [exact HO|]. split; [exact HS|]. split; [|exact E].
  rewrite E in HL. rewrite name_len_enc in HL. exact HL.
Qed.
Lemma bytes_std : forall n, short_name n -> name_bytes n = Ok (std_name n).
Proof.
  intros n H. destruct (short_facts n H) as (HO & HS & HL & E). rewrite name_bytes_ok. unfold std_name. rewrite E, name_len_enc, nat_tl_short by exact HL. reflexivity.
Qed.
Lemma from_std : forall n, short_name n -> name_from_bytes (std_name n) = Ok n.
Proof.
  intros n H. destruct (short_facts n H) as (HO & HS & HL & E). rewrite <- (name_from_bytes_ok n HO HS HL). f_equal.
  unfold std_name. rewrite E, name_len_enc, nat_tl_short by exact HL. reflexivity.
Qed.
Lemma std_inj : forall n m, short_name n -> short_name m -> std_name n = std_name m -> n = m.
Proof. intros n m HN HM E. pose proof (from_std n HN) as A. rewrite E, (from_std m HM) in A. congruence. Qed.
Lemma short_app : forall n m, short_name (n ++ m) -> short_name n.
Proof.
  intros n m [HO HL]. apply Forall_app in HO. split; [apply HO|]. unfold std_value in *. rewrite map_app, concat_app, nlen_app in HL. lia.
Qed.

(** unique rows *)
Lemma find_unique : forall {A} (f : A -> buf) (w : buf) (l : list A) r, NoDup (map f l) -> In r l -> f r = w -> find (fun x => bytes_eqb (f x) w) l = Some r.
Proof.
  intros A f w l r. induction l as [|x l IH]; intros ND I E; [destruct I|]. cbn [map] in ND. apply NoDup_cons_iff in ND. destruct ND as [NI ND]. cbn [find].
  destruct (bytes_eqb (f x) w) eqn:B.
  - apply beq_iff in B. destruct I as [-> | I]; [reflexivity|]. exfalso. apply NI. rewrite B, <- E. apply in_map. exact I.
  - destruct I as [-> | I]; [|apply IH; assumption]. exfalso. assert (bytes_eqb (f r) w = true) by (apply beq_iff; exact E). congruence.
Qed.
Lemma find_eq : forall {A} (f : A -> buf) (w : buf) (l : list A) r, find (fun x => bytes_eqb (f x) w) l = Some r -> In r l /\ f r = w.
Proof. intros A f w l r H. apply find_some in H. destruct H as [I B]. split; [exact I|]. apply beq_iff. exact B. Qed.
Lemma find_no : forall {A} (f : A -> buf) (w : buf) (l : list A), find (fun x => bytes_eqb (f x) w) l = None <-> ~ exists r, In r l /\ f r = w.
Proof.
  intros A f w l. split.
  - intros H (r & I & E). pose proof (find_none _ _ H r I) as B. cbn in B. assert (bytes_eqb (f r) w = true) by (apply beq_iff; exact E). congruence.
  - intros H. destruct (find _ l) eqn:F; [|reflexivity]. exfalso. apply H. apply find_eq in F. eauto.
Qed.
Lemma nodup_inj : forall {A B} (f : A -> B) (l : list A) a b, NoDup (map f l) -> In a l -> In b l -> f a = f b -> a = b.
Proof.
  intros A B f l a b. induction l as [|x l IH]; intros ND IA IB E; [destruct IA|]. cbn [map] in ND. apply NoDup_cons_iff in ND. destruct ND as [NI ND].
  destruct IA as [-> | IA], IB as [-> | IB]; auto; exfalso; apply NI; [rewrite E | rewrite <- E]; apply in_map; assumption.
Qed.

(** the three look-ups *)
Lemma identity_eq : forall p n, short_name n ->
  get_identity p n = Ok (option_map (fun r => mkIdent (ir_id r) n (ir_default r)) (find (fun r => bytes_eqb (ir_name r) (std_name n)) (pb_idents p))).
Proof. intros p n H. unfold get_identity. rewrite (bytes_std n H). cbn [bind]. destruct (find _ _); reflexivity. Qed.
Lemma key_eq : forall p n, short_name n ->
  pib_key p n = Ok (option_map (fun r => mkPKey (kr_id r) n (kr_bits r) (kr_default r)) (find (fun r => bytes_eqb (kr_name r) (std_name n)) (pb_keys p))).
Proof. intros p n H. unfold pib_key. rewrite (bytes_std n H). cbn [bind]. destruct (find _ _); reflexivity. Qed.

Lemma locator_ok : forall data loc, locator_is data loc -> read_locator data = Ok (Some loc).
Proof. intros data loc (d & cov & R & E). unfold read_locator. rewrite R, E. reflexivity. Qed.
Lemma locator_iff : forall data loc, read_locator data = Ok (Some loc) <-> locator_is data loc.
Proof.
  intros data loc. split; [|apply locator_ok]. unfold read_locator. destruct (read_data _ _) as [[d cov]|e| |] eqn:R; try discriminate.
  intros E. exists d, cov. split; [exact R|congruence].
Qed.

Lemma drop2_app : forall n a b, drop2 (n ++ [a; b]) = Some n.
Proof.
  intros n a b. unfold drop2. rewrite app_length. cbn [length]. destruct (Nat.ltb_spec (length n + 2) 2); [lia|].
  replace (length n + 2 - 2)%nat with (length n) by lia. rewrite firstn_app, firstn_all, Nat.sub_diag. cbn [firstn]. rewrite app_nil_r. reflexivity.
Qed.

(** cert_of_row and the loops *)
Lemma cert_of_iff : forall r c, cert_of_row r = Ok (Some c) <-> holds r c.
Proof.
  intros r c. unfold cert_of_row, holds. split.
  - destruct (name_from_bytes (cr_name r)) as [n|e| |] eqn:N; try discriminate. destruct (read_locator (cr_data r)) as [[loc|]|e| |] eqn:L; cbn [bind]; try discriminate.
    intros E. injection E as <-. cbn [ce_row ce_name ce_data ce_default ce_locator]. apply locator_iff in L. split; [reflexivity|]. split; [reflexivity|]. split; [reflexivity|]. split; [reflexivity|exact L].
  - intros (A & B & C & D & E). rewrite B, (locator_ok _ _ E). cbn [bind]. destruct c; cbn in *; subst. reflexivity.
Qed.

Lemma find_in_some : forall check rows c, find_in check rows = Ok (Some c) ->
  exists l r l', rows = l ++ r :: l' /\ holds r c /\ check c = true /\ forall r' c', In r' l -> holds r' c' -> check c' = false.
Proof.
  intros check rows c. induction rows as [|r rows IH]; intros H; [discriminate|]. cbn [find_in] in H.
  destruct (cert_of_row r) as [[x|]|e| |] eqn:C; cbn [bind] in H; try discriminate.
  - destruct (check x) eqn:K.
    + injection H as <-. exists [], r, rows. split; [reflexivity|]. split; [apply cert_of_iff; exact C|]. split; [exact K|]. intros r' c' [].
    + destruct (IH H) as (l & r0 & l' & -> & A & B & D). exists (r :: l), r0, l'. split; [reflexivity|]. split; [exact A|]. split; [exact B|].
      intros r' c' [-> | I] HC; [|eapply D; eassumption]. apply cert_of_iff in HC. congruence.
  - destruct (IH H) as (l & r0 & l' & -> & A & B & D). exists (r :: l), r0, l'. split; [reflexivity|]. split; [exact A|]. split; [exact B|].
    intros r' c' [-> | I] HC; [|eapply D; eassumption]. apply cert_of_iff in HC. congruence.
Qed.
Lemma find_in_none : forall check rows, find_in check rows = Ok None -> forall r c, In r rows -> holds r c -> check c = false.
Proof.
  intros check rows. induction rows as [|r rows IH]; intros H r0 c I HC; [destruct I|]. cbn [find_in] in H.
  destruct (cert_of_row r) as [[x|]|e| |] eqn:C; cbn [bind] in H; try discriminate.
  - destruct (check x) eqn:K; [discriminate|]. destruct I as [-> | I]; [|exact (IH H r0 c I HC)]. apply cert_of_iff in HC. congruence.
  - destruct I as [-> | I]; [|exact (IH H r0 c I HC)]. apply cert_of_iff in HC. congruence.
Qed.
Lemma find_in_total : forall check rows, (forall r, In r rows -> exists c, holds r c) -> exists o, find_in check rows = Ok o.
Proof.
  intros check rows. induction rows as [|r rows IH]; intros H; [exists None; reflexivity|]. cbn [find_in].
  destruct (H r (or_introl eq_refl)) as (c & HC). apply cert_of_iff in HC. rewrite HC. cbn [bind]. destruct (check c); [eauto|]. apply IH. intros r' I. apply H. right. exact I.
Qed.

(** rows of a well-kept PIB *)
Lemma under_short : forall a b, under a b -> exists n x y, short_name n /\ short_name (n ++ [x; y]) /\ a = std_name n /\ b = std_name (n ++ [x; y]).
Proof. intros a b (n & x & y & S & A & B). exists n, x, y. split; [exact (short_app _ _ S)|]. auto. Qed.

Lemma cert_row_holds : forall p r, pib_ok p -> In r (pb_certs p) -> exists k n x y c,
  In k (pb_keys p) /\ kr_id k = cr_key r /\ kr_name k = std_name n /\ short_name n /\ short_name (n ++ [x; y]) /\ cr_name r = std_name (n ++ [x; y])
  /\ holds r c /\ ce_name c = n ++ [x; y] /\ pib_cert p (n ++ [x; y]) = Ok (Some c).
Proof.
  intros p r PO I. destruct (po_certs p PO r I) as ((k & IK & EK & U) & (loc & L)). destruct (under_short _ _ U) as (n & x & y & S1 & S2 & E1 & E2).
  exists k, n, x, y, (mkCert (cr_id r) (n ++ [x; y]) (cr_data r) (cr_default r) loc).
  split; [exact IK|]. split; [exact EK|]. split; [exact E1|]. split; [exact S1|]. split; [exact S2|]. split; [exact E2|]. split; [|split; [reflexivity|]].
  - unfold holds. cbn [ce_row ce_name ce_data ce_default ce_locator]. rewrite E2, (from_std _ S2). split; [reflexivity|]. split; [reflexivity|]. split; [reflexivity|]. split; [reflexivity|exact L].
  - unfold pib_cert. rewrite (bytes_std _ S2). cbn [bind]. rewrite (find_unique cr_name _ _ r (po_cert_names p PO) I E2). rewrite (locator_ok _ _ L). reflexivity.
Qed.

Lemma holds_fun : forall r c c', holds r c -> holds r c' -> c = c'.
Proof. intros r c c' A B. apply cert_of_iff in A. apply cert_of_iff in B. congruence. Qed.

Lemma cert_inv : forall p n c, short_name n -> pib_cert p n = Ok (Some c) -> exists r, In r (pb_certs p) /\ cr_name r = std_name n /\ holds r c /\ ce_name c = n.
Proof.
  intros p n c S H. unfold pib_cert in H. rewrite (bytes_std n S) in H. cbn [bind] in H. destruct (find _ (pb_certs p)) as [r|] eqn:F; [|discriminate].
  apply find_eq in F. destruct F as [I E]. destruct (read_locator (cr_data r)) as [[loc|]|e| |] eqn:L; cbn [bind] in H; try discriminate. injection H as <-.
  exists r. split; [exact I|]. split; [exact E|]. split; [|reflexivity]. unfold holds. cbn [ce_row ce_name ce_data ce_default ce_locator]. rewrite E, (from_std n S).
  apply locator_iff in L. split; [reflexivity|]. split; [reflexivity|]. split; [reflexivity|]. split; [reflexivity|exact L].
Qed.
Lemma key_inv : forall p n k, short_name n -> pib_key p n = Ok (Some k) -> exists r, In r (pb_keys p) /\ kr_name r = std_name n /\ k = mkPKey (kr_id r) n (kr_bits r) (kr_default r).
Proof.
  intros p n k S H. rewrite (key_eq p n S) in H. destruct (find _ _) as [r|] eqn:F; [|discriminate]. apply find_eq in F. destruct F as [I E].
  cbn [option_map] in H. injection H as <-. exists r. auto.
Qed.
Lemma ident_inv : forall p n i, short_name n -> get_identity p n = Ok (Some i) -> exists r, In r (pb_idents p) /\ ir_name r = std_name n /\ i = mkIdent (ir_id r) n (ir_default r).
Proof.
  intros p n i S H. rewrite (identity_eq p n S) in H. destruct (find _ _) as [r|] eqn:F; [|discriminate]. apply find_eq in F. destruct F as [I E].
  cbn [option_map] in H. injection H as <-. exists r. auto.
Qed.
Lemma key_found : forall p r n, pib_ok p -> In r (pb_keys p) -> short_name n -> kr_name r = std_name n -> pib_key p n = Ok (Some (mkPKey (kr_id r) n (kr_bits r) (kr_default r))).
Proof. intros p r n PO I S E. rewrite (key_eq p n S), (find_unique kr_name _ _ r (po_key_names p PO) I E). reflexivity. Qed.
Lemma ident_found : forall p r n, pib_ok p -> In r (pb_idents p) -> short_name n -> ir_name r = std_name n -> get_identity p n = Ok (Some (mkIdent (ir_id r) n (ir_default r))).
Proof. intros p r n PO I S E. rewrite (identity_eq p n S), (find_unique ir_name _ _ r (po_ident_names p PO) I E). reflexivity. Qed.

Lemma app2_inj : forall {A} (n m : list A) a b c d, n ++ [a; b] = m ++ [c; d] -> n = m /\ a = c /\ b = d.
Proof.
  intros A n m a b c d H. change [a; b] with ([a] ++ [b]) in H. change [c; d] with ([c] ++ [d]) in H. rewrite !app_assoc in H.
  apply app_inj_tail in H. destruct H as [H ->]. apply app_inj_tail in H. destruct H as [-> ->]. auto.
Qed.

(** FindCert of a key *)
Lemma key_find : forall p n k check, pib_ok p -> short_name n -> pib_key p n = Ok (Some k) -> exists o, key_find_cert p k check = Ok o /\
  match o with
  | Some c => check c = true /\ (exists a b, ce_name c = n ++ [a; b] /\ short_name (n ++ [a; b])) /\ pib_cert p (ce_name c) = Ok (Some c) /\ cert_key p c = Ok (Some k)
  | None => forall c a b, short_name (n ++ [a; b]) -> pib_cert p (n ++ [a; b]) = Ok (Some c) -> check c = false
  end.
Proof.
  intros p n k check PO S HK. destruct (key_inv p n k S HK) as (kr & IK & EK & ->). unfold key_find_cert. cbn [pk_row].
  set (rows := filter _ (pb_certs p)).
  assert (RI : forall r, In r rows <-> In r (pb_certs p) /\ cr_key r = kr_id kr) by (intros r; unfold rows; rewrite filter_In, N.eqb_eq; reflexivity).
  destruct (find_in_total check rows) as (o & O).
  { intros r I. apply RI in I. destruct (cert_row_holds p r PO (proj1 I)) as (_ & _ & _ & _ & c & _ & _ & _ & _ & _ & _ & H & _). exists c. exact H. }
  exists o. split; [exact O|]. destruct o as [c|].
  - destruct (find_in_some _ _ _ O) as (l & r & l' & E & H & K & _). split; [exact K|].
    assert (I : In r rows) by (rewrite E; apply in_or_app; right; left; reflexivity). apply RI in I. destruct I as [I EI].
    destruct (cert_row_holds p r PO I) as (k2 & n2 & a & b & c2 & I2 & E2 & N2 & S2 & S3 & _ & H2 & CN & PC). rewrite (holds_fun _ _ _ H H2).
    assert (EE : k2 = kr) by (apply (nodup_inj kr_id (pb_keys p)); [exact (po_key_ids p PO)|assumption..|congruence]). subst k2.
    assert (EN : n2 = n) by (apply std_inj; congruence). subst n2. rewrite CN.
    split; [exists a, b; split; [reflexivity|exact S3]|]. split; [exact PC|]. unfold cert_key. rewrite CN, drop2_app. exact HK.
  - intros c a b S2 PC. destruct (cert_inv p _ c S2 PC) as (r & I & E & H & CN). apply (find_in_none _ _ O r c); [|exact H]. apply RI. split; [exact I|].
    destruct (cert_row_holds p r PO I) as (k2 & n2 & a2 & b2 & _ & I2 & E2 & N2 & S3 & S4 & E4 & _). rewrite <- E2. f_equal.
    apply (nodup_inj kr_name (pb_keys p)); [exact (po_key_names p PO)|assumption..|]. rewrite N2, EK. f_equal.
    assert (X : n2 ++ [a2; b2] = n ++ [a; b]) by (apply std_inj; [assumption..|congruence]). apply app2_inj in X. apply X.
Qed.

(** FindCert of an identity *)
Lemma find_keys : forall p check rows, pib_ok p -> (forall r, In r rows -> In r (pb_keys p)) -> exists o, find_in_keys p check rows = Ok o /\
  match o with
  | Some c => exists r n k, In r rows /\ short_name n /\ kr_name r = std_name n /\ pib_key p n = Ok (Some k) /\ key_find_cert p k check = Ok (Some c)
  | None => forall r n k, In r rows -> short_name n -> kr_name r = std_name n -> pib_key p n = Ok (Some k) -> key_find_cert p k check = Ok None
  end.
Proof.
  intros p check rows PO. induction rows as [|r rows IH]; intros IN; [exists None; split; [reflexivity|intros ? ? ? []]|].
  destruct IH as (o & O & IH); [intros r' I'; apply IN; right; exact I'|].
  assert (IR : In r (pb_keys p)) by (apply IN; left; reflexivity).
  destruct (po_keys p PO r IR) as (i & _ & _ & U). destruct (under_short _ _ U) as (n0 & x & y & _ & S & _ & E). set (n := n0 ++ [x; y]) in *.
  pose proof (key_found p r n PO IR S E) as KF. destruct (key_find p n _ check PO S KF) as (o1 & O1 & _).
  cbn [find_in_keys]. rewrite E, (from_std n S), O1. cbn [bind]. destruct o1 as [c|].
  - exists (Some c). split; [reflexivity|]. exists r, n, (mkPKey (kr_id r) n (kr_bits r) (kr_default r)). split; [left; reflexivity|]. auto.
  - exists o. split; [exact O|]. destruct o as [c|].
    + destruct IH as (r2 & n2 & k2 & I2 & R). exists r2, n2, k2. split; [right; exact I2|exact R].
    + intros r2 n2 k2 [<- | I2] S2 E2 K2; [|eapply IH; eassumption]. assert (n2 = n) by (apply std_inj; congruence). subst n2. congruence.
Qed.

Lemma ident_find : forall p n i check, pib_ok p -> short_name n -> get_identity p n = Ok (Some i) -> exists o, ident_find_cert p i check = Ok o /\
  match o with
  | Some c => check c = true /\ (exists a b x y, ce_name c = n ++ [a; b; x; y] /\ short_name (n ++ [a; b; x; y])) /\ pib_cert p (ce_name c) = Ok (Some c)
              /\ exists k, cert_key p c = Ok (Some k) /\ key_identity p k = Ok (Some i)
  | None => forall c a b x y, short_name (n ++ [a; b; x; y]) -> pib_cert p (n ++ [a; b; x; y]) = Ok (Some c) -> check c = false
  end.
Proof.
  intros p n i check PO S HI. destruct (ident_inv p n i S HI) as (ir & II & EI & ->). unfold ident_find_cert. cbn [id_row].
  set (rows := filter _ (pb_keys p)).
  assert (RI : forall r, In r rows <-> In r (pb_keys p) /\ kr_ident r = ir_id ir) by (intros r; unfold rows; rewrite filter_In, N.eqb_eq; reflexivity).
  destruct (find_keys p check rows PO) as (o & O & F); [intros r I; apply RI in I; apply I|]. exists o. split; [exact O|]. destruct o as [c|].
  - destruct F as (r & m & k & I & S2 & E & K & FC). apply RI in I. destruct I as [I EI2].
    destruct (po_keys p PO r I) as (ir2 & I2 & E2 & U). destruct (under_short _ _ U) as (n0 & a & b & S3 & S4 & E3 & E4).
    assert (X : ir2 = ir) by (apply (nodup_inj ir_id (pb_idents p)); [exact (po_ident_ids p PO)|assumption..|congruence]). subst ir2.
    assert (X : n0 = n) by (apply std_inj; congruence). subst n0. assert (X : m = n ++ [a; b]) by (apply std_inj; congruence). subst m.
    destruct (key_find p _ k check PO S2 K) as (o1 & O1 & R). rewrite FC in O1. injection O1 as <-. destruct R as (CT & (x & y & CN & S5) & PC & CK).
    split; [exact CT|]. rewrite <- app_assoc in CN, S5. cbn [app] in CN, S5. split; [exists a, b, x, y; split; assumption|]. split; [exact PC|]. exists k. split; [exact CK|].
    destruct (key_inv p _ k S2 K) as (kr & _ & _ & ->). unfold key_identity. cbn [pk_name]. rewrite drop2_app. exact HI.
  - intros c a b x y S2 PC. change [a; b; x; y] with ([a; b] ++ [x; y]) in S2, PC. rewrite app_assoc in S2, PC.
    destruct (cert_inv p _ c S2 PC) as (r & I & E & H & CN). destruct (cert_row_holds p r PO I) as (k2 & n2 & a2 & b2 & _ & I2 & E2 & N2 & S3 & S4 & E4 & _).
    assert (X : n2 ++ [a2; b2] = (n ++ [a; b]) ++ [x; y]) by (apply std_inj; [assumption..|congruence]). apply app2_inj in X. destruct X as (-> & -> & ->).
    pose proof (key_found p k2 _ PO I2 S3 N2) as KF. destruct (key_find p _ _ check PO S3 KF) as (o1 & O1 & R).
    assert (IN : In k2 rows).
    { apply RI. split; [exact I2|]. destruct (po_keys p PO k2 I2) as (ir2 & I3 & E3 & U). destruct (under_short _ _ U) as (n0 & a0 & b0 & T3 & T4 & F3 & F4).
      assert (X : n0 ++ [a0; b0] = n ++ [a; b]) by (apply std_inj; [assumption..|congruence]). apply app2_inj in X. destruct X as (-> & -> & ->).
      rewrite <- E3. f_equal. apply (nodup_inj ir_name (pb_idents p)); [exact (po_ident_names p PO)|assumption..|congruence]. }
    rewrite (F k2 _ _ IN S3 N2 KF) in O1. injection O1 as <-. exact (R c x y S2 PC).
Qed.

(** hexadecimal *)
Lemma hex_digit_inj : forall a b, (a < 16)%N -> (b < 16)%N -> hex_digit a = hex_digit b -> a = b.
Proof. intros a b A B. unfold hex_digit. destruct (N.ltb_spec a 10), (N.ltb_spec b 10); lia. Qed.
Lemma hex_inj : forall a b, bytes_ok a -> bytes_ok b -> hex a = hex b -> a = b.
Proof.
  induction a as [|x a IH]; intros [|y b] A B E; [reflexivity|discriminate..|]. unfold hex in E. cbn [flat_map app] in E. injection E as E1 E2 E3.
  inversion A as [|? ? AX AA]; subst. inversion B as [|? ? BX BB]; subst. unfold byte_ok in *.
  apply hex_digit_inj in E1; [|apply N.div_lt_upper_bound; lia..]. apply hex_digit_inj in E2; [|apply N.mod_lt; lia..].
  rewrite (N.div_mod' x 16), (N.div_mod' y 16), E1, E2. f_equal. exact (IH b AA BB E3).
Qed.

(** a long name is not encoded as in the packet format, nor as any other name *)
Lemma nlen_cons : forall {A} (x : A) l, (nlen (x :: l) = 1 + nlen l)%N.
Proof. intros A x l. change (x :: l) with ([x] ++ l). rewrite nlen_app. reflexivity. Qed.
Lemma nlen_be : forall k v, nlen (be k v) = N.of_nat k.
Proof. intros k v. unfold nlen. rewrite be_length. reflexivity. Qed.
Lemma long_not : forall L M (a b : buf), (252 < L < 64768)%N -> nlen a = L -> nlen b = M -> nat_enc L ++ a <> tl_enc M ++ b.
Proof.
  intros L M a b HL LA LB E. assert (EL : nlen (nat_enc L ++ a) = nlen (tl_enc M ++ b)) by (rewrite E; reflexivity). rewrite !nlen_app, LA, LB in EL.
  unfold nat_enc, tl_enc in *. destruct (N.leb_spec L 255).
  - rewrite N.mod_small in * by lia. change (nlen [L]) with 1%N in EL.
    destruct (N.leb_spec M 252); [cbn [app] in E; injection E as E _; rewrite N.mod_small in E by lia; lia|].
    destruct (N.leb_spec M 65535); [|destruct (N.leb_spec M 4294967295)]; rewrite nlen_cons, nlen_be in EL; cbn [app] in E; injection E as E _; lia.
  - destruct (N.leb_spec L 65535); [|lia]. rewrite nlen_be in EL.
    destruct (N.leb_spec M 252); [change (nlen [M mod 256])%N with 1%N in EL; lia|].
    destruct (N.leb_spec M 65535); [|destruct (N.leb_spec M 4294967295)]; rewrite nlen_cons, nlen_be in EL; try lia.
    cbn [be app] in E. injection E as E _. rewrite N.mod_small in E by (apply N.div_lt_upper_bound; lia).
    assert (L / 256 < 253)%N by (apply N.div_lt_upper_bound; lia). lia.
Qed.
Lemma long_bytes : forall n, Forall comp_short n -> (252 < nlen (std_value n) < 64768)%N -> exists w, name_bytes n = Ok w /\ forall m, w <> std_name m.
Proof.
  intros n HS HL. rewrite (std_value_len n HS) in HL. exists (tl_enc TypeName ++ nat_enc (name_len n) ++ name_enc n). split; [apply name_bytes_ok|].
  intros m. unfold std_name. change TypeName with 7%N. intros E. apply app_inv_head in E. revert E. apply long_not; [rewrite <- name_len_enc; exact HL|apply name_len_enc|reflexivity].
Qed.
Lemma find_std : forall {A} (f : A -> buf) (w : buf) (l : list A), (forall r, In r l -> exists m, f r = std_name m) -> (forall m, w <> std_name m) -> find (fun x => bytes_eqb (f x) w) l = None.
Proof.
  intros A f w l H N. apply find_no. intros (r & I & E). destruct (H r I) as (m & EM). apply (N m). congruence.
Qed.
