(** A signed Interest element whose covered bytes are those of a signed request says what that request says. *)
From Verif Require Import Base BaseProofs PrimModel PrimProofs ReaderModel ReaderSpec ReaderProofs ReaderProofs2 ReaderProofs3 ReaderProofs4 NameModel NameProofs CodecModel CodecSpec CodecProofs CodecEnc CodecEnc2 CodecEnc3 CodecEnc4 CodecEnc5 CodecSpec2 CodecPar CodecPar2 CodecKeep CodecPar3 CodecPar4 CodecLib SpecModel SpecSpec SpecProofs SpecData SpecInt SpecMore AuthProofs AuthInt.

Notation ebytes l := (concat (map fst l)).
Notation comps l := (map (fun x => mkComp (fst (snd x)) (snd (snd x))) l).

(** ** The elements read at the two positions *)
Lemma el36_elem : forall F ic b p v rd, (zlen b < mem_limit)%Z -> el36 F ic b p v rd ->
  exists pre e rest t, b = pre ++ e ++ rest /\ zlen pre = p /\ rd = RBuf b (zlen (pre ++ e)) /\ elem e 36 t /\ v = VWire [t].
Proof.
  intros F ic b p v rd ML (r1 & l & r2 & old & cx & cx' & T1 & T2 & R2 & K). destruct (buf_reader _ _ R2) as (pos & ->). cbn [k_read r_read_wire] in K.
  destruct (_ && _); [discriminate|]. destruct (_ <? _)%Z; [discriminate|]. destruct (slice b pos _) as [t| | |] eqn:S; try discriminate. cbn [soft] in K. injection K as <- <- <-.
  apply slice_inv in S; auto. destruct S as (pre & rest & E & Z1 & Z2 & Z3). rewrite Z3.
  destruct (elem_inv b p 36 r1 l (RBuf b pos) t (zlen (pre ++ t)) T1 T2) as (q & e & s & E0 & Z0 & Q0 & EL); [exists pos, pre, rest; auto|].
  exists q, e, s, t. rewrite Q0. auto.
Qed.

Lemma no_info : forall F ic cx vs c, run_parse F false ic (fs_handlers F 0 (m_fields spec_SignatureInfo)) cx (RBuf [] 0) = Ok (vs, c) -> False.
Proof.
  intros F ic cx vs c H. unfold run_parse in H. destruct F as [|F]; [discriminate|]. cbn [parse_loop p_rd r_pos r_length bind] in H. change (zlen [] <=? 0)%Z with true in H. cbv iota in H. cbn [bind p_rd r_pos] in H.
  cbn [fs_handlers m_fields spec_SignatureInfo skip_rest fh_typ fh_kind fst snd p_done map nth k_skip bind] in H. discriminate.
Qed.

Lemma el44_elem : forall F ic b rd0 v s, (zlen b < mem_limit)%Z -> el44 F ic b rd0 v (RBuf b s) ->
  exists pre e rest t, b = pre ++ e ++ rest /\ rd0 = RBuf b (zlen pre) /\ s = zlen (pre ++ e) /\ elem e 44 t.
Proof.
  intros F ic b rd0 v s ML (p & r1 & l & r2 & old & cx & cx' & -> & T1 & T2 & R2 & _ & _ & K). destruct (buf_reader _ _ R2) as (pos & ->).
  change spec_SignatureInfo with (Model (m_nocopy spec_SignatureInfo) false (m_fields spec_SignatureInfo)) in K. cbn [k_read] in K. rewrite handlers_eq in K. cbn [r_delegate] in K.
  destruct (_ || _) eqn:C.
  { exfalso. cbn [bind fst snd] in K. destruct (run_parse _ _ _ _ _ _) as [[vs c]| | |] eqn:RP; try discriminate. exact (no_info _ _ _ _ _ RP). }
  destruct (slice b pos _) as [t| | |] eqn:S; try discriminate. cbn [bind fst snd] in K.
  destruct (run_parse _ _ _ _ _ _) as [[vs c]| | |]; try discriminate. injection K as <- <- <-.
  apply slice_inv in S; auto. destruct S as (pre & rest & E & Z1 & Z2 & Z3). rewrite Z3.
  destruct (elem_inv b p 44 r1 l (RBuf b pos) t (zlen (pre ++ t)) T1 T2) as (q & e & s & E0 & Z0 & Q0 & EL); [exists pos, pre, rest; auto|].
  exists q, e, s, t. subst p. auto.
Qed.

(** ** A name that was passed over stays absent *)
Section NoName.
  Context (F : nat) (ic : bool).
  Notation hs := (fs_handlers F 0 ifs).

  Lemma stay_elem : forall b st pos typ l r1 r2 st', inv F ic b st -> (2 <= p_prog st)%Z -> nth 2 (p_vals st) VNone = VNone ->
    p_rd st = RBuf b pos -> read_tl (RBuf b pos) = (Ok typ, r1) -> read_tl r1 = (Ok l, r2) -> reader_buf r2 = Some b ->
    do_elem true ic typ l pos hs (mkPS (p_vals st) (p_cx st) r2 (p_prog st) (p_done st)) = Ok st' -> (2 <= p_prog st')%Z /\ nth 2 (p_vals st') VNone = VNone.
  Proof.
    intros b st pos typ l r1 r2 st' HI P2 V2 RP T1 T2 R2 H. unfold do_elem in H. set (n := Z.to_nat _) in *. clearbody n.
    pose proof HI as (_ & LV & LC & PG & _). assert (K2 : key 2) by (unfold key; auto).
    destruct (find_field typ 0 hs) as [[i h]|] eqn:FF.
    - pose proof (find_int _ _ _ _ FF) as (Hi & TY & ->). apply (ord_int F ic _ _ _ _ _ _ i FF Hi) in H; auto. cbn [p_prog] in H.
      destruct H as [(stp & st1 & PA & PP & RD & ->)|[PA PP]]; pose proof PA as (Q1 & Q2 & Q3 & Q4 & Q5 & _); cbn [p_prog p_vals] in *.
      + unfold do_read in RD. destruct (fh_read _ ic pos l _ _ _) as [[[[e v] cx] r]| | |] eqn:KR; try discriminate. cbn [bind] in RD. destruct e; [discriminate|]. injection RD as <-.
        unfold p_next. cbn [p_prog p_vals fh_kind].
        assert (KB : k_back (kind_at ifs i) = 0%Z) by (clear -Hi; unfold known in Hi; do 14 (destruct i as [|i]; [try lia; reflexivity|]); lia).
        rewrite KB. split; [lia|]. rewrite upd_nth_other by lia. destruct (Q5 _ K2) as [-> | ->]; auto.
      + split; [lia|]. destruct (Q5 _ K2) as [-> | ->]; auto.
    - destruct n as [|m]; cbn [ordered_loop] in H; [injection H as <-; auto|]. rewrite FF in H. unfold do_default in H. destruct (negb ic && is_critical typ); [discriminate|]. cbn [p_rd] in H.
      destruct (r_skip (to_int l) r2) as [[x|e| |] r3]; cbn [soft bind] in H; try discriminate. injection H as <-. unfold p_next. cbn [p_prog p_vals]. split; [lia|auto].
  Qed.
  Lemma stay : forall f b st st', inv F ic b st -> (2 <= p_prog st)%Z -> nth 2 (p_vals st) VNone = VNone -> parse_loop f true ic hs st = Ok st' -> nth 2 (p_vals st') VNone = VNone.
  Proof.
    induction f as [|f IH]; intros b st st' HI P2 V2 H; [discriminate|]. pose proof HI as (RB & _). apply (loop_inv ic f true hs st b st' RB) in H.
    destruct H as (pos & RP & [[_ ->]|(_ & typ & l & r1 & r2 & st1 & T1 & T2 & R2 & DE & H)]); [auto|].
    destruct (stay_elem b st pos typ l r1 r2 st1 HI P2 V2 RP T1 T2 R2 DE) as [A B]. apply (IH b st1); auto. eapply inv_elem; eauto.
  Qed.

  (** the first elements are not names, and one of them is known *)
  Lemma no_name : forall K f pre rest st st', (zlen (pre ++ ebytes K ++ rest) < mem_limit)%Z -> elems K -> Forall (fun x => fst (snd x) <> 7%N) K -> Exists (fun x => find_field (fst (snd x)) 0 hs <> None) K ->
    inv F ic (pre ++ ebytes K ++ rest) st -> (p_prog st < 2)%Z -> p_rd st = RBuf (pre ++ ebytes K ++ rest) (zlen pre) ->
    parse_loop f true ic hs st = Ok st' -> nth 2 (p_vals st') VNone = VNone.
  Proof.
    induction K as [|[e [t v]] K IH]; intros f pre rest st st' ML EL N7 EX HI PG RD H; [inversion EX|].
    inversion EL as [|? ? EL1 EL2]; subst. inversion N7 as [|? ? N71 N72]; subst. cbn [fst snd map concat] in *. rewrite <- !app_assoc in *.
    set (b := pre ++ e ++ ebytes K ++ rest) in *. destruct f as [|f]; [discriminate|].
    pose proof HI as (RB & LV & LC & PG1 & I5 & _). destruct (I5 PG) as [_ V2]. apply (loop_inv ic f true hs st b st' RB) in H.
    destruct H as (pos & RP & [[_ ->]|(_ & typ & l & r1 & r2 & st1 & T1 & T2 & R2 & DE & H)]); [auto|].
    assert (pos = zlen pre) by congruence. subst pos.
    destruct EL1 as (e1 & e2 & l0 & -> & N1 & N2 & LL).
    assert (EB1 : b = pre ++ e1 ++ (e2 ++ v ++ ebytes K ++ rest)) by (unfold b; rewrite <- !app_assoc; reflexivity).
    assert (EB2 : b = (pre ++ e1) ++ e2 ++ (v ++ ebytes K ++ rest)) by (unfold b; rewrite <- !app_assoc; reflexivity).
    assert (EB3 : b = ((pre ++ e1 ++ e2) ++ v) ++ ebytes K ++ rest) by (unfold b; rewrite <- !app_assoc; reflexivity).
    pose proof T1 as T1'. rewrite EB1, N1 in T1. injection T1 as <- <-. rewrite <- EB1 in *. pose proof T2 as T2'. rewrite EB2, N2 in T2. injection T2 as <- <-. rewrite <- EB2 in *.
    pose proof (inv_elem F ic b st _ _ _ _ _ st1 HI RP T1' T2' R2 DE) as HI1.
    unfold do_elem in DE. cbn [p_prog] in DE. change (zlen hs) with 15%Z in DE. 
    destruct (find_field t 0 hs) as [[i h]|] eqn:FF.
    - pose proof (find_int _ _ _ _ FF) as (Hi & TY & ->). assert (I2 : i <> 2%nat) by (intros ->; apply N71; exact TY).
      apply (ord_int F ic _ _ _ _ _ _ i FF Hi) in DE; auto. cbn [p_prog] in DE. assert (K2 : key 2) by (unfold key; auto).
      destruct DE as [(stp & stq & PA & PP & RR & ->)|[PA PP]]; pose proof PA as (Q1 & Q2 & Q3 & Q4 & Q5 & _); cbn [p_prog p_vals] in *.
      + unfold do_read in RR. destruct (fh_read _ ic _ _ _ _ _) as [[[[e v'] cx] r]| | |] eqn:KR; try discriminate. cbn [bind] in RR. destruct e; [discriminate|]. injection RR as <-.
        assert (KB : k_back (kind_at ifs i) = 0%Z) by (clear -Hi; unfold known in Hi; do 14 (destruct i as [|i]; [try lia; reflexivity|]); lia).
        apply (stay f b _ st' HI1) in H; [exact H| |]; unfold p_next; cbn [p_prog p_vals fh_kind]; [rewrite KB; unfold known in Hi; lia|].
        rewrite upd_nth_other by lia. destruct (Q5 _ K2) as [-> | ->]; auto.
      + apply (stay f b _ st' HI1) in H; [exact H|lia|]. destruct (Q5 _ K2) as [-> | ->]; auto.
    - assert (EN : Z.to_nat (15 - p_prog st) = S (Z.to_nat (14 - p_prog st))) by lia. rewrite EN in DE. cbn [ordered_loop] in DE. rewrite FF in DE. unfold do_default in DE. destruct (negb ic && is_critical t); [discriminate|]. cbn [p_rd] in DE.
      assert (W : wrap64 (zlen ((pre ++ e1) ++ e2) + to_int l0) = zlen ((pre ++ e1 ++ e2) ++ v)).
      { rewrite <- app_assoc. rewrite (zlen_app (pre ++ e1 ++ e2) v), <- LL. unfold wrap64. pose proof (Z.div_mod (to_int l0) Ztwo64 ltac:(discriminate)) as D.
        replace (zlen (pre ++ e1 ++ e2) + to_int l0 + Ztwo63)%Z with (zlen (pre ++ e1 ++ e2) + (to_int l0 mod Ztwo64) + Ztwo63 + (to_int l0 / Ztwo64) * Ztwo64)%Z by lia.
        rewrite Z.mod_add by discriminate. rewrite LL. rewrite EB3, !zlen_app in ML. rewrite !zlen_app. rewrite Z.mod_small; [lia|]. unfold zlen, mem_limit, Ztwo63, Ztwo64 in *. lia. }
      assert (SK : r_skip (to_int l0) (RBuf b (zlen ((pre ++ e1) ++ e2))) = (Ok tt, RBuf b (zlen ((pre ++ e1 ++ e2) ++ v)))).
      { cbn [r_skip]. rewrite W. destruct (Z.ltb_spec (zlen ((pre ++ e1 ++ e2) ++ v)) 0); [unfold zlen in *; lia|].
        destruct (Z.ltb_spec (zlen b) (zlen ((pre ++ e1 ++ e2) ++ v))); [rewrite EB3, zlen_app in *; unfold zlen in *; lia|reflexivity]. }
      rewrite SK in DE. cbn [soft bind] in DE. injection DE as <-. unfold p_next in *. cbn [p_prog p_vals p_cx p_done p_rd] in *.
      destruct (Z_lt_le_dec (p_prog st + 1) 2) as [L|L].
      + rewrite EB3 in *. apply (IH f ((pre ++ e1 ++ e2) ++ v) rest _ st' ML EL2 N72) in H; auto.
        inversion EX as [? ? X|]; subst; [|assumption]. cbn [fst snd] in X. congruence.
      + apply (stay f b _ st' HI1) in H; [exact H|exact L|exact V2].
  Qed.
End NoName.

(** ** The elements of the signed bytes *)
Definition g_elems (n : name) (a si : buf) : list (buf * (N * buf)) :=
  map (fun c => (tlv (ctyp c) (cval c), (ctyp c, cval c))) n ++ [(tlv 36 a, (36%N, a)); (tlv 44 si, (44%N, si))].

Lemma g_bytes_ok : forall n a si, Forall comp_short n -> ebytes (g_elems n a si) = name_enc n ++ tlv 36 a ++ tlv 44 si.
Proof.
  intros n a si H. unfold g_elems. rewrite ebytes_app, map_map. cbn [fst]. rewrite <- name_format by auto. cbn [map concat fst]. rewrite app_nil_r. reflexivity.
Qed.
Lemma g_elems_ok : forall n a si, name_typed n -> (zlen a < Ztwo63)%Z -> (zlen si < Ztwo63)%Z -> elems (g_elems n a si).
Proof.
  intros n a si [N1 N2] LA LS. unfold g_elems, elems. apply Forall_app. split.
  - apply Forall_map, Forall_forall. intros c IC. cbn [fst snd]. rewrite Forall_forall in N1, N2. specialize (N1 c IC). specialize (N2 c IC). apply elem_tlv.
    + destruct N1 as [N1 _]. unfold u64_ok, two64 in *. lia.
    + unfold comp_short, nlen in N2. unfold zlen, Ztwo63. lia.
  - constructor; [apply elem_tlv; auto; reflexivity|]. constructor; [apply elem_tlv; auto; reflexivity|constructor].
Qed.
Lemma comps_g : forall n : name, comps (map (fun c => (tlv (ctyp c) (cval c), (ctyp c, cval c))) n) = n.
Proof. intros n. rewrite map_map. cbn [fst snd]. rewrite <- (map_id n) at 2. apply map_ext. intros []; reflexivity. Qed.

Lemma range_buf : forall x y z g, r_range (zlen x) (zlen (x ++ y)) (RBuf (x ++ y ++ z) 0) = Ok g -> concat (opt_wire g) = y.
Proof.
  intros x y z g H. cbn [r_range] in H.
  match type of H with (if ?c then _ else _) = _ => assert (C : c = false) by (rewrite !zlen_app; unfold zlen; lia); rewrite C in H end.
  rewrite zlen_app, slice_app in H. cbn [bind] in H. injection H as <-. cbn [opt_wire concat]. apply app_nil_r.
Qed.

Lemma range_le : forall b i j r g, reader_buf r = Some b -> r_range i j r = Ok g -> (zlen (concat (opt_wire g)) <= zlen b)%Z.
Proof.
  intros b i j r g R H. destruct (buf_reader _ _ R) as (q & ->). cbn [r_range] in H. destruct (_ || _ || _); [injection H as <-; unfold zlen; cbn [opt_wire concat length]; lia|].
  destruct (slice b i j) as [t| | |] eqn:S; try discriminate. cbn [bind] in H. injection H as <-. apply slice_split in S. destruct S as (x & y & -> & _). cbn [opt_wire concat]. rewrite app_nil_r, !zlen_app. unfold zlen. lia.
Qed.

(** ** The value of the SignatureInfo *)
Notation p0 := (mkEP 0 false).
Definition iinfo_part (sc : sig_config) : buf := sig_info_part (sc_type sc) (interest_key sc) (sc_nonce sc) (sc_time sc) (sc_seq sc) None.
Lemma iinfo_body : forall sc, interest_sig_ok sc -> k_body p0 [] (KStruct spec_SignatureInfo false) (iinfo_value sc) = Some (iinfo_part sc).
Proof.
  intros sc (H & _ & _ & T & _). unfold iinfo_value, spec_SignatureInfo, iinfo_part. cbn [k_body]. f_equal. unfold sig_info_part.
  cbn [fs_bytes fst snd]. rewrite v_bytes_bytes, v_nat_bytes. rewrite to_u64_small by lia.
  assert (ET : k_bytes p0 [] 40 (KTime true) (match sc_time sc with Some ms => VTime (wrap64 (ms * 1000000)) | None => VNone end) = opt_tlv 40 (option_map (fun ms => nat_enc (Z.to_N ms)) (sc_time sc))).
  { destruct (sc_time sc) as [ms|]; [|reflexivity]. cbn in T |- *. rewrite wrap_ms by auto. rewrite ms_of_ok by (unfold time_ok; lia). rewrite Z.div_mul by lia. reflexivity. }
  rewrite ET. change (opt_tlv 253 (option_map (fun ab => tlv 254 (fst ab) ++ tlv 255 (snd ab)) None)) with (@nil N).
  destruct (interest_key sc) as [k|]; cbn [option_map opt_tlv]; unfold spec_KeyLocator; rewrite ?struct_bytes by reflexivity; cbn [fs_bytes fst snd k_bytes app]; rewrite ?app_nil_r; reflexivity.
Qed.

Lemma el44_value : forall F ic pre sc rest v rd, interest_sig_ok sc -> (length (pre ++ tlv 44 (iinfo_part sc) ++ rest) < F)%nat -> (zlen (pre ++ tlv 44 (iinfo_part sc) ++ rest) < size_limit)%Z ->
  el44 F ic (pre ++ tlv 44 (iinfo_part sc) ++ rest) (RBuf (pre ++ tlv 44 (iinfo_part sc) ++ rest) (zlen pre)) v rd ->
  same (back p0 [] (KStruct spec_SignatureInfo false) (iinfo_value sc)) v.
Proof.
  intros F ic pre sc rest v rd SO FU SZ (p & r1 & l & r2 & old & cx & cx' & RP & T1 & T2 & R2 & LC & C12 & K). injection RP as <-.
  set (si := iinfo_part sc) in *. set (b := pre ++ tlv 44 si ++ rest) in *.
  assert (A0 : At (RBuf b (zlen pre)) pre (tl_enc 44 ++ tl_enc (nlen si) ++ si ++ rest)).
  { split; [|split; [unfold b, tlv; rewrite <- !app_assoc; reflexivity|reflexivity]]. assert (E : b = pre ++ tl_enc 44 ++ tl_enc (nlen si) ++ si ++ rest) by (unfold b, tlv; rewrite <- !app_assoc; reflexivity). rewrite <- E. unfold size_limit, mem_limit in *. lia. }
  assert (LB : (length si <= length b)%nat) by (unfold b, tlv; rewrite !app_length; lia).
  destruct (at_read_tl 44 _ _ _ eq_refl A0) as (q1 & Q1 & A1 & K1). destruct (at_read_tl (nlen si) _ _ _ ltac:(unfold u64_ok, two64, nlen, zlen, size_limit in *; lia) A1) as (q2 & Q2 & A2 & K2).
  rewrite Q1 in T1. injection T1 as <-. rewrite Q2 in T2. injection T2 as <- <-.
  assert (B2 : is_buf_reader q2) by (apply K2, K1; exact I).
  assert (RKI : RK p0 [] (KStruct spec_SignatureInfo false)) by exact (rks_all p0 [] eq_refl (KStruct spec_SignatureInfo false)).
  pose proof (int_shape [] (mkIC false false None None None None) None (Some sc)) as SH. pose proof (int_typed [] (mkIC false false None None None None) None (Some sc)) as TY.
  assert (SH12 : shape (KStruct spec_SignatureInfo false) (iinfo_value sc)) by exact (F2_at shape ifs _ SH 12 ltac:(cbn; lia)).
  assert (TY12 : typed (KStruct spec_SignatureInfo false) (iinfo_value sc)).
  { refine (F2_at typed ifs _ (TY _ _ SO) 12 ltac:(cbn; lia)); [split; constructor|]. repeat split; exact I. }
  destruct (RKI F false 44%N 12%nat ic (zlen pre) old cx q2 ((pre ++ tl_enc 44) ++ tl_enc (nlen si)) si rest (iinfo_value sc)) as (v' & x & r' & E & SM & _); auto.
  - left. exact B2.
  - apply iinfo_body. exact SO.
  - lia.
  - unfold zlen in *. lia.
  - lia.
  - rewrite C12. exact (k_ctx_ok (KStruct spec_SignatureInfo false)).
  - rewrite E in K. injection K as <- _ _. exact SM.
Qed.

(** ** One Interest element *)
Lemma split_app : forall A (x y u w : list A), x ++ y = u ++ w -> (length x <= length u)%nat -> exists z, u = x ++ z /\ y = z ++ w.
Proof.
  induction x as [|a x IH]; intros y u w H L; [exists u; auto|]. destruct u as [|b u]; [cbn in L; lia|]. injection H as -> H. cbn [length] in L. destruct (IH y u w H) as (z & -> & ->); [lia|]. exists z. auto.
Qed.

Lemma run_int_genuine : forall F ic b n a sc i cx, name_typed n -> (forall c, In c n -> ctyp c <> 7%N) -> interest_sig_ok sc -> (length b < F)%nat -> (zlen b < size_limit)%Z ->
  run_parse F true ic (fs_handlers F 0 ifs) (m_ctx (Model true true ifs)) (RBuf b 0) = Ok (i, cx) ->
  (exists m d, nth 2 i VNone = VName (m ++ [d]) /\ ctyp d = TypeParametersSha256Digest) -> nth 11 i VNone <> VNone -> nth 12 i VNone <> VNone -> nth 13 i VNone <> VNone ->
  concat (x_cov (nth 0 cx XNone)) = name_enc n ++ tlv 36 a ++ tlv 44 (iinfo_part sc) ->
  (exists d, ctyp d = TypeParametersSha256Digest /\ nth 2 i VNone = VName (n ++ [d])) /\ nth 11 i VNone = VWire [a]
  /\ same (back p0 [] (KStruct spec_SignatureInfo false) (iinfo_value sc)) (nth 12 i VNone).
Proof.
  intros F ic b n a sc i cx Hn N7 SO FU SZ H (m & d & V2 & TD) V11 V12 V13 CV. assert (V2' : nth 2 i VNone <> VNone) by (rewrite V2; discriminate).
  pose proof H as H'. apply (int_run F ic b i cx) in H; auto. destruct H as (st & -> & -> & n0 & C & p & rd & a0 & s & g & E2 & NA & E36 & E44 & OA & RG & CS).
  assert (ML : (zlen b < mem_limit)%Z) by (unfold size_limit, mem_limit in *; lia).
  rewrite V2 in E2. injection E2 as <-.
  destruct NA as (l & pos & start & c & r' & g0 & P0 & RN & RG0 & ->).
  destruct (name_field_inv F l b pos (m ++ [d]) start c r' g0 ML RN RG0 (ex_intro _ m (ex_intro _ d (conj eq_refl TD))) P0) as (e & d' & EL & EN & TD' & CC).
  apply app_inj_tail in EN. destruct EN as [-> <-].
  destruct (el36_elem F ic b p _ rd ML E36) as (x & e36 & s36 & t36 & B36 & ZX & -> & L36 & W36).
  destruct (el44_elem F ic b _ _ s ML E44) as (y & e44 & s44 & t44 & B44 & RY & ZS & L44).
  assert (XY : y = x ++ e36 /\ e44 ++ s44 = s36). { injection RY as RY. apply app_zat; [rewrite <- B44, B36, app_assoc; reflexivity|auto]. } destruct XY as [-> <-]. clear RY.
  rewrite CS, concat_app, CC in CV.
  assert (LG : (zlen a < Ztwo63)%Z /\ (zlen (iinfo_part sc) < Ztwo63)%Z).
  { apply kr_name in RN. pose proof (range_le b start c r' g0 RN RG0) as L1. pose proof (range_le b a0 s (RBuf b 0) g eq_refl RG) as L2. rewrite CC in L1.
    assert (LL : (zlen (ebytes e ++ concat (opt_wire g)) <= zlen b + zlen b)%Z) by (rewrite zlen_app; lia).
    rewrite CV in LL. unfold tlv in LL. rewrite !zlen_app in LL. unfold zlen, size_limit, Ztwo63 in *. lia. }
  destruct LG as [LA LS]. pose proof (g_elems_ok n a (iinfo_part sc) Hn LA LS) as EG.
  rewrite <- (g_bytes_ok n a (iinfo_part sc)) in CV by apply Hn.
  destruct OA as [-> | ->].
  - (* the parameters start at the first byte *)
    exfalso. assert (EB : b = [] ++ (x ++ e36 ++ e44) ++ s44) by (rewrite B36, <- !app_assoc; reflexivity).
    assert (RG1 : r_range (zlen (@nil N)) (zlen ([] ++ (x ++ e36 ++ e44))) (RBuf ([] ++ (x ++ e36 ++ e44) ++ s44) 0) = Ok g) by (rewrite <- EB; cbn [app]; rewrite ZS, <- app_assoc in RG; exact RG).
    apply range_buf in RG1. rewrite RG1 in *. symmetry in CV. destruct (elems_unique _ _ _ EG EL CV) as (K & EK & BK).
    assert (KN : K <> []) by (intros ->; cbn [map concat] in BK; apply elem_pos in L36; destruct x; [destruct e36; [congruence|discriminate]|discriminate]).
    assert (N7K : Forall (fun x => fst (snd x) <> 7%N) K).
    { assert (G7 : Forall (fun x : buf * (N * buf) => fst (snd x) <> 7%N) (g_elems n a (iinfo_part sc))).
      { unfold g_elems. apply Forall_app. split; [apply Forall_map, Forall_forall; intros c0 IC; cbn [fst snd]; apply N7; exact IC|]. repeat constructor; cbn [fst snd]; discriminate. }
      rewrite EK in G7. apply Forall_app in G7. apply G7. }
    assert (EX : Exists (fun x : buf * (N * buf) => find_field (fst (snd x)) 0 (fs_handlers F 0 ifs) <> None) K).
    { destruct K as [|z K] using rev_ind; [congruence|]. apply Exists_app. right. constructor. unfold g_elems in EK. rewrite (app_assoc e) in EK.
      match type of EK with ?u ++ [?v; ?w] = _ => change (u ++ [v; w]) with (u ++ ([v] ++ [w])) in EK; rewrite app_assoc in EK end. apply app_inj_tail in EK. destruct EK as [_ <-]. cbn [fst snd]. discriminate. }
    assert (ELK : elems K) by (rewrite EK in EG; apply Forall_app in EG; apply EG).
    apply run_states in H'. destruct H' as (stE & sp & stF & PL & SR & EV & EC). pose proof (inv_start F ic b 0) as HI. rewrite <- BK in EB.
    pose proof (inv_loop F ic F b _ _ HI PL) as (_ & LV & LC & _). apply rest_int0 in SR; auto. destruct SR as [_ SR].
    assert (VE : nth 2 (p_vals stE) VNone = VNone).
    { rewrite EB in HI, PL, ML. change 0%Z with (zlen (@nil N)) in HI, PL. eapply (no_name F ic K F [] s44 _ stE ML ELK N7K EX HI); [|reflexivity|exact PL]. cbn [p_prog]. lia. }
    apply V2'. rewrite EV. destruct (SR 2%nat) as [-> | ->]; [left; reflexivity|exact VE|reflexivity].
  - assert (EB : b = x ++ (e36 ++ e44) ++ s44) by (rewrite B36, <- !app_assoc; reflexivity).
    assert (RG1 : r_range (zlen x) (zlen (x ++ (e36 ++ e44))) (RBuf (x ++ (e36 ++ e44) ++ s44) 0) = Ok g) by (rewrite <- EB, ZX; rewrite ZS, <- app_assoc in RG; exact RG).
    apply range_buf in RG1. rewrite RG1 in *.
    assert (EQ : e ++ [(e36, (36%N, t36)); (e44, (44%N, t44))] = g_elems n a (iinfo_part sc)).
    { apply elems_same; auto.
      - apply Forall_app. split; [exact EL|]. repeat constructor; assumption.
      - rewrite ebytes_app. cbn [map concat fst]. rewrite app_nil_r. exact CV. }
    unfold g_elems in EQ.
    assert (LE : length e = length (map (fun c => (tlv (ctyp c) (cval c), (ctyp c, cval c))) n)) by (apply (f_equal (@length _)) in EQ; rewrite !app_length in EQ; cbn [length] in EQ; lia).
    apply app_at in EQ; auto. destruct EQ as [-> EQ]. injection EQ as -> -> -> ->. rewrite comps_g in *.
    split; [exists d; auto|]. split; [exact W36|].
    rewrite app_assoc in B36.
    apply (el44_value F ic (x ++ tlv 36 a) sc s44 (nth 12 (p_vals st) VNone) (RBuf b s) SO); rewrite <- B36; auto.
Qed.

(** ** A packet that is one Interest element *)
Lemma read_interest_one : forall sha F body i cov, (nlen body < packet_limit)%N -> read_interest sha F (new_buffer_reader (tlv 5 body)) = Ok (i, cov) ->
  exists cx, run_parse F true false (fs_handlers F 0 ifs) (m_ctx (Model true true ifs)) (RBuf body 0) = Ok (i, cx) /\ cov = x_cov (nth 0 cx XNone) /\ check_interest sha i cx = Ok tt.
Proof.
  intros sha F body d cov SZ H. unfold read_interest in H. destruct (m_parse _ _ _ _) as [[vs cx]| | |] eqn:MP; try discriminate. cbn [bind] in H.
  unfold m_parse, m_parse_ctx, run_parse in MP. change (m_ordered spec_Packet) with false in MP. set (hp := fs_handlers F 0 (m_fields spec_Packet)) in MP. set (st0 := mkPS _ _ _ _ _) in MP.
  destruct (parse_loop F false false hp st0) as [stE| | |] eqn:PL; try discriminate. cbn [bind] in MP. destruct (r_pos (p_rd stE)) as [sp| | |]; try discriminate. cbn [bind] in MP.
  destruct (skip_rest 0 sp hp stE) as [stF| | |] eqn:SR; try discriminate. cbn [bind] in MP. injection MP as <- <-.
  assert (U : (nlen body < two64)%N) by (unfold packet_limit, two64 in *; lia).
  assert (A0 : At (RBuf (tlv 5 body) 0) [] (tl_enc 5 ++ tl_enc (nlen body) ++ body)).
  { split; [|split; reflexivity]. cbn [app]. change (tl_enc 5 ++ tl_enc (nlen body) ++ body) with (tlv 5 body). pose proof (tlv_le 5 body). unfold packet_limit, mem_limit, zlen, nlen in *. lia. }
  destruct (at_read_tl 5 _ _ _ eq_refl A0) as (r1 & T1 & A1 & K1). destruct (at_read_tl (nlen body) _ _ _ U A1) as (r2 & T2 & A2 & K2).
  assert (B2 : is_buf_reader r2) by (apply K2, K1; exact I). pose proof (at_buf r2 _ _ A2 B2) as E2. cbn [app] in E2.
  set (hd6 := tl_enc 5 ++ tl_enc (nlen body)) in *.
  destruct F as [|F]; [discriminate|]. apply (loop_inv false F false hp st0 (tlv 5 body)) in PL; [|reflexivity]. destruct PL as (pos & RP & PL). assert (pos = 0%Z) by (change (p_rd st0) with (RBuf (tlv 5 body) 0) in RP; congruence). subst pos.
  destruct PL as [[L _]|(_ & typ & l & q1 & q2 & st1 & Q1 & Q2 & _ & DE & H1)].
  { exfalso. unfold tlv in L. rewrite !zlen_app in L. pose proof (tl_enc_pos 5). unfold zlen, nlen in *. lia. }
  rewrite T1 in Q1. injection Q1 as <- <-. rewrite T2 in Q2. injection Q2 as <- <-.
  unfold do_elem in DE. change (find_field 5 0 hp) with (Some (0%nat, mkFH 5 (KStruct spec_Interest true) (k_read (S F) 5 0 (KStruct spec_Interest true)))) in DE.
  unfold do_read in DE. cbn [fh_read fh_kind p_vals p_cx p_rd p_prog p_done] in DE. change spec_Interest with (Model true true ifs) in DE. cbn [k_read] in DE.
  assert (RD : r_delegate (to_int (nlen body)) r2 = Ok (RBuf body 0, RBuf (tlv 5 body) (zlen (tlv 5 body)))).
  { rewrite E2. rewrite to_int_len by (unfold packet_limit, Ztwo63, nlen, zlen in *; lia). change (tlv 5 body) with (tl_enc 5 ++ tl_enc (nlen body) ++ body). rewrite (app_assoc (tl_enc 5)). fold hd6.
    assert (W : wrap64 (zlen hd6 + zlen body) = zlen (hd6 ++ body)).
    { rewrite zlen_app. apply wrap64_id. destruct A2 as [A2 _]. cbn [app] in A2. fold hd6 in A2. rewrite zlen_app in A2. unfold mem_limit, Ztwo63, zlen in *. lia. }
    cbn [r_delegate]. rewrite W.
    match goal with |- (if ?c then _ else _) = _ => assert (C : c = false) by (unfold zlen; lia) end. rewrite C.
    rewrite slice_tail. cbn [bind]. reflexivity. }
  rewrite RD in DE. cbn [bind fst snd] in DE. rewrite handlers_eq in DE.
  change (x_sub (nth 0 (p_cx st0) XNone)) with (m_ctx (Model true true ifs)) in DE.
  destruct (run_parse (S F) true false (fs_handlers (S F) 0 ifs) (m_ctx (Model true true ifs)) (RBuf body 0)) as [[vd cd]|e| |] eqn:RPD; try discriminate. cbn [bind] in DE. injection DE as <-.
  destruct F as [|F]; [discriminate|]. cbn [parse_loop p_rd r_pos r_length bind] in H1. rewrite Z.leb_refl in H1. injection H1 as <-.
  cbn [p_rd] in SR.
  cbn in SR. injection SR as <-. cbn [p_vals p_cx] in H. cbn [nth x_sub] in H.
  destruct (check_interest sha vd cd) as [[]| | |] eqn:CK; try discriminate. injection H as <- <-. exists cd. split; [reflexivity|]. split; [reflexivity|exact CK].
Qed.

Theorem interest_genuine : forall sha F body n a sc i cov, name_typed n -> (forall c, In c n -> ctyp c <> 7%N) -> interest_sig_ok sc ->
  (length body < F)%nat -> (nlen body < packet_limit)%N ->
  read_interest sha F (new_buffer_reader (tlv 5 body)) = Ok (i, cov) -> i_sig_type i <> SigNone -> i_sig_value i <> [] ->
  concat cov = name_enc n ++ signed_params (Some a) (Some sc) ->
  (exists d, ctyp d = TypeParametersSha256Digest /\ i_name i = Some (n ++ [d])) /\ option_map (@concat N) (i_app_param i) = Some (concat a)
  /\ i_sig_type i = sc_type sc /\ i_key_name i = interest_key sc /\ i_sig_nonce i = sc_nonce sc /\ i_sig_time i = sc_time sc /\ i_sig_seq i = sc_seq sc.
Proof.
  intros sha F body n a sc i cov Hn N7 SO FU SZ H ST SV CV. destruct (read_interest_one sha F body i cov SZ H) as (cx & R & -> & CK).
  assert (V13 : nth 13 i VNone <> VNone) by (intros E; apply SV; unfold i_sig_value; rewrite E; reflexivity).
  assert (V12 : nth 12 i VNone <> VNone) by (intros E; apply ST; unfold i_sig_type; rewrite E; reflexivity).
  assert (VN : exists nm, nth 2 i VNone = VName nm) by (unfold check_interest in CK; destruct (nth 2 i VNone); try discriminate; eexists; reflexivity). destruct VN as (nm & V2).
  unfold check_interest in CK. rewrite V2 in CK.
  assert (V11 : nth 11 i VNone <> VNone) by (intros E; rewrite E in CK; destruct (nth 13 i VNone); try congruence; discriminate).
  assert (D : exists m d, nth 2 i VNone = VName (m ++ [d]) /\ ctyp d = TypeParametersSha256Digest).
  { assert (CK' : match rev nm with last :: _ => if (ctyp last =? TypeParametersSha256Digest)%N && bytes_eqb (cval last) (sha (concat (x_cov (nth 1 cx XNone)))) then Ok tt else Err EDigest | [] => Err EDigest end = Ok tt)
      by (destruct (nth 11 i VNone); try congruence; destruct (nth 13 i VNone); exact CK).
    destruct (rev nm) as [|la re] eqn:ER; [discriminate|]. destruct (N.eqb_spec (ctyp la) TypeParametersSha256Digest) as [T|T]; [|discriminate].
    exists (rev re), la. split; [|exact T]. rewrite V2. f_equal. rewrite <- (rev_involutive nm), ER. reflexivity. }
  cbn [signed_params] in CV. unfold signed_params in CV. cbn [option_map opt_tlv] in CV. fold (iinfo_part sc) in CV.
  destruct (run_int_genuine F false body n (concat a) sc i cx) as ((d & TD & E2) & E11 & SM); auto.
  { unfold size_limit, packet_limit, zlen, nlen in *. lia. }
  split; [exists d; split; [exact TD|unfold i_name; rewrite E2; reflexivity]|]. split; [unfold i_app_param; rewrite E11; cbn [g_wire option_map concat]; rewrite app_nil_r; reflexivity|].
  destruct SO as (T & _ & _ & TT & _).
  split; [unfold i_sig_type; rewrite <- (same_sig_type _ _ SM); cbn; rewrite to_u64_small by lia; rewrite to_int_small by (unfold two63; lia); lia|].
  split; [unfold i_key_name; rewrite <- (same_key_name _ _ SM); cbn; destruct (interest_key sc); reflexivity|].
  split; [unfold i_sig_nonce; rewrite <- (same_bytes _ _ (same_fld _ _ 2 SM)); cbn; destruct (sc_nonce sc); reflexivity|].
  split; [|unfold i_sig_seq; rewrite <- (same_nat _ _ (same_fld _ _ 4 SM)); cbn; destruct (sc_seq sc); reflexivity].
  unfold i_sig_time. rewrite <- (same_time _ _ (same_fld _ _ 3 SM)). cbn. destruct (sc_time sc) as [ms|]; [|reflexivity].
  cbn [all_of] in TT. cbn [g_time]. rewrite wrap_ms by auto. rewrite Z.div_mul by lia. rewrite Z.quot_mul by lia. reflexivity.
Qed.
