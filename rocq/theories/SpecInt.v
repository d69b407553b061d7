(** MakeInterest and ReadInterest. *)
From Verif Require Import Base BaseProofs PrimModel PrimProofs ReaderModel ReaderSpec ReaderProofs NameModel NameProofs CodecModel CodecSpec CodecProofs CodecEnc CodecEnc2 CodecEnc3 CodecEnc5 CodecSpec2 CodecPar CodecPar2 CodecPar4 CodecLib SpecModel SpecSpec SpecProofs SpecData.

Definition ifs : list (N * kind) := m_fields spec_Interest.

(** ** Values *)
Definition iinfo_value (sc : sig_config) : value :=
  VStruct [VNat (to_u64 (sc_type sc)); match interest_key sc with Some k => VStruct [VName k; VNone] | None => VNone end; v_bytes (sc_nonce sc);
           match sc_time sc with Some ms => VTime (wrap64 (ms * 1000000)) | None => VNone end; v_nat (sc_seq sc); VNone; VNone].
Definition oiinfo_value (o : option sig_config) : value := match o with Some sc => iinfo_value sc | None => VNone end.

Lemma interest_sig_info_ok : forall sc, interest_sig_ok sc -> interest_sig_info true sc = Ok (iinfo_value sc).
Proof.
  intros sc (_ & _ & K & _ & _ & E1 & E2). unfold interest_sig_info, iinfo_value, interest_key. rewrite E1, E2. cbn [negb].
  destruct (Z.eqb_spec (sc_type sc) SigSha256); [reflexivity|]. destruct (sc_key sc); [reflexivity|]. exfalso. apply K; auto.
Qed.

Definition int_vals (n : name) (c : interest_config) (ap : option wire) (osc : option sig_config) : list value :=
  interest_values n c ap (oiinfo_value osc).

Lemma final_base : forall p n, final_name p n = base_name n ++ (if ep_digest p then [digest_comp (clip (ep_fill p))] else []).
Proof. intros. unfold final_name, base_name. destruct (ep_digest p); [reflexivity|]. rewrite app_nil_r. reflexivity. Qed.

(** ** Bytes *)
Lemma fixed_bytes : forall p h t w o k, (0 < 256 ^ N.of_nat w)%N -> (k = 256 ^ N.of_nat w)%N -> all_of (fun x => x < k)%N o ->
  k_bytes p h t (KFixed w true) (match o with Some x => VNat (x mod k) | None => VNone end) = opt_tlv t (option_map (be w) o).
Proof. intros p h t w [x|] k H0 E H; [|reflexivity]. cbn in *. rewrite N.mod_small by lia. reflexivity. Qed.

Lemma wrap_ms : forall ms, (0 <= ms < 9223372036854)%Z -> wrap64 (ms * 1000000) = (ms * 1000000)%Z.
Proof. intros ms H. unfold wrap64, Ztwo63, Ztwo64. rewrite Z.mod_small by lia. lia. Qed.

Lemma iinfo_bytes : forall p h sc, interest_sig_ok sc ->
  k_bytes p h 44 (KStruct spec_SignatureInfo false) (iinfo_value sc)
  = tlv 44 (sig_info_part (sc_type sc) (interest_key sc) (sc_nonce sc) (sc_time sc) (sc_seq sc) None).
Proof.
  intros p h sc (H & _ & _ & T & _). unfold iinfo_value, spec_SignatureInfo. rewrite struct_bytes by reflexivity. f_equal. unfold sig_info_part.
  cbn [fs_bytes fst snd]. rewrite v_bytes_bytes, v_nat_bytes. rewrite to_u64_small by lia.
  assert (ET : k_bytes p h 40 (KTime true) (match sc_time sc with Some ms => VTime (wrap64 (ms * 1000000)) | None => VNone end) = opt_tlv 40 (option_map (fun ms => nat_enc (Z.to_N ms)) (sc_time sc))).
  { destruct (sc_time sc) as [ms|]; [|reflexivity]. cbn in T |- *. rewrite wrap_ms by auto. rewrite ms_of_ok by (unfold time_ok; lia). rewrite Z.div_mul by lia. reflexivity. }
  rewrite ET. change (opt_tlv 253 (option_map (fun ab => tlv 254 (fst ab) ++ tlv 255 (snd ab)) None)) with (@nil N).
  destruct (interest_key sc) as [k|]; cbn [option_map opt_tlv]; unfold spec_KeyLocator; rewrite ?struct_bytes by reflexivity; cbn [fs_bytes fst snd k_bytes app]; rewrite ?app_nil_r; reflexivity.
Qed.

Lemma hint_bytes : forall p h o, k_bytes p h 30 (KStruct spec_Links false) (match o with Some l => VStruct [VSeq (map VName l)] | None => VNone end)
  = opt_tlv 30 (option_map (fun l => concat (map (fun n => tlv 7 (name_enc n)) l)) o).
Proof.
  intros p h [l|]; [|reflexivity]. unfold spec_Links. rewrite struct_bytes by reflexivity. cbn [fs_bytes fst snd k_bytes option_map opt_tlv]. rewrite app_nil_r, map_map. reflexivity.
Qed.

(** the fields between the name and the parameters, and those before the signature *)
Definition mid_fs : list (N * kind) := skipn 3 (firstn 11 ifs).
Lemma mid_bytes : forall p h n c ap osc, interest_config_ok c -> fs_bytes p h mid_fs (skipn 3 (firstn 11 (int_vals n c ap osc))) = interest_middle c.
Proof.
  intros p h n c ap osc (H1 & H2 & H3 & H4). change mid_fs with [(33%N, KBool); (18%N, KBool); (30%N, KStruct spec_Links false); (10%N, KFixed 4 true); (12%N, KTime true); (34%N, KFixed 1 true); (0%N, KOffset); (0%N, KOffset)].
  unfold int_vals, interest_values. cbn [firstn skipn fs_bytes fst snd]. rewrite hint_bytes, (fixed_bytes p h 10 4), v_time_bytes, (fixed_bytes p h 34 1) by (auto; reflexivity).
  unfold interest_middle. assert (B : forall t b, k_bytes p h t KBool (VBool b) = flag t b) by (intros t []; reflexivity). rewrite !B. cbn [k_bytes]. rewrite !app_nil_r. reflexivity.
Qed.

Lemma params_bytes : forall p h n c ap osc, all_of interest_sig_ok osc ->
  fs_bytes p h (skipn 11 (firstn 13 ifs)) (skipn 11 (firstn 13 (int_vals n c ap osc))) = signed_params ap osc.
Proof.
  intros p h n c ap osc H. change (skipn 11 (firstn 13 ifs)) with [(36%N, KWire); (44%N, KStruct spec_SignatureInfo false)].
  unfold int_vals, interest_values, signed_params. cbn [firstn skipn fs_bytes fst snd]. rewrite v_wire_bytes, app_nil_r. f_equal.
  destruct osc as [sc|]; [|reflexivity]. apply iinfo_bytes. exact H.
Qed.

Lemma int_bytes : forall p h n c ap osc, interest_config_ok c -> all_of interest_sig_ok osc ->
  fs_bytes p h ifs (int_vals n c ap osc)
  = tlv 7 (name_enc (final_name p n)) ++ interest_middle c ++ signed_params ap osc ++ (if (0 <? ep_est p)%N then tl_enc 46 ++ tl_enc (ep_est p) ++ h else []).
Proof.
  intros p h n c ap osc H1 H2.
  change ifs with ([(0%N, KArg); (0%N, KArg); (7%N, KIName 0)] ++ mid_fs ++ skipn 11 (firstn 13 ifs) ++ [(46%N, KSig 9 0); (0%N, KRange 10 1)]).
  change (int_vals n c ap osc) with ([VNone; VNone; VName n] ++ skipn 3 (firstn 11 (int_vals n c ap osc)) ++ skipn 11 (firstn 13 (int_vals n c ap osc)) ++ [VNone; VNone]).
  rewrite !fs_bytes_app by reflexivity. rewrite mid_bytes, params_bytes by auto. cbn [fs_bytes k_bytes fst snd app]. rewrite !app_nil_r. reflexivity.
Qed.

(** ** Packets *)
Lemma packet_int_toks : forall p ivs, fs_toks p true (m_fields spec_Packet) [VStruct ivs; VNone; VNone] = toks p true 5 (KStruct spec_Interest true) (VStruct ivs).
Proof. intros. cbn [fs_toks m_fields spec_Packet fst snd]. rewrite app_nil_r. reflexivity. Qed.
Lemma packet_int_bytes : forall p h ivs, fs_bytes p h (m_fields spec_Packet) [VStruct ivs; VNone; VNone]
  = tl_enc 5 ++ tl_enc (nlen (fs_bytes p (full_hole p) ifs ivs)) ++ fs_bytes p h ifs ivs.
Proof.
  intros. assert (E : forall (x : buf), x ++ [] = x) by apply app_nil_r.
  cbn [fs_bytes m_fields spec_Packet fst snd]. change (k_bytes p h 6 (KStruct spec_Data true) VNone) with (@nil N).
  change (k_bytes p h 100 (KStruct spec_LpPacket true) VNone) with (@nil N). cbn [app]. rewrite !E. apply (k_bytes_struct p h 5 true true ifs true).
Qed.
Lemma packet_int_len : forall p ivs, (0 < fs_len p (m_fields spec_Packet) [VStruct ivs; VNone; VNone])%N.
Proof.
  intros. rewrite (fs_len_ok _ p true) by (apply (wf_fields_all true); reflexivity). rewrite packet_int_bytes. rewrite nlen_app.
  change (nlen (tl_enc 5)) with 1%N. lia.
Qed.
Lemma packet_int_shape : forall ivs, fs_shape ifs ivs -> fs_shape (m_fields spec_Packet) [VStruct ivs; VNone; VNone].
Proof. intros ivs H. cbn [m_fields spec_Packet]. f2; try exact I. cbn [snd]. change spec_Interest with (Model true true ifs). apply shape_struct. exact H. Qed.
Lemma packet_int_typed : forall ivs, fs_typed ifs ivs -> fs_typed (m_fields spec_Packet) [VStruct ivs; VNone; VNone].
Proof. intros ivs H. cbn [m_fields spec_Packet]. f2; try exact I. cbn [snd]. change spec_Interest with (Model true true ifs). apply typed_struct_back. exact H. Qed.

Lemma int_shape : forall n c ap osc, fs_shape ifs (int_vals n c ap osc).
Proof.
  intros n c ap osc. unfold int_vals, interest_values, ifs. cbn [m_fields spec_Interest]. f2; cbn [snd]; try exact I.
  - destruct (ic_hint c) as [l|]; [|exact I]. unfold spec_Links. apply shape_struct. f2. cbn [snd shape]. apply Forall_map, Forall_forall. intros; exact I.
  - destruct (ic_nonce c); [exact I|reflexivity].
  - destruct (ic_life c); [exact I|reflexivity].
  - destruct (ic_hops c); [exact I|reflexivity].
  - destruct ap; exact I.
  - destruct osc as [sc|]; [|exact I]. cbn [oiinfo_value]. unfold iinfo_value, spec_SignatureInfo. apply shape_struct. f2; cbn [snd]; try exact I.
    + destruct (interest_key sc); [|exact I]. unfold spec_KeyLocator. apply shape_struct. f2; exact I.
    + destruct (sc_nonce sc); exact I.
    + destruct (sc_time sc); [exact I|reflexivity].
    + destruct (sc_seq sc); [exact I|reflexivity].
Qed.

Lemma int_typed : forall n c ap osc, name_typed n -> interest_config_ok c -> all_of interest_sig_ok osc -> fs_typed ifs (int_vals n c ap osc).
Proof.
  intros n c ap osc Hn (H1 & H2 & H3 & H4) HS. unfold int_vals, interest_values, ifs. cbn [m_fields spec_Interest]. f2; cbn [snd]; try exact I; auto.
  - destruct (ic_hint c) as [l|]; [|exact I]. apply (typed_struct_back false false). f2. cbn [snd typed]. apply Forall_map. cbn [all_of] in H1.
    eapply Forall_impl; [|exact H1]. intros a Ha. split; [exact I|exact Ha].
  - destruct (ic_nonce c); [|exact I]. cbn [typed]. apply N.mod_lt. discriminate.
  - destruct (ic_life c); [|exact I]. exact H3.
  - destruct (ic_hops c); [|exact I]. cbn [typed]. apply N.mod_lt. discriminate.
  - destruct osc as [sc|]; [|exact I]. cbn [oiinfo_value]. unfold iinfo_value. apply (typed_struct_back false false). destruct HS as (T & K & K' & TT & SQ & _). f2; cbn [snd]; try exact I.
    + cbn. rewrite to_u64_small by lia. unfold two64. lia.
    + unfold interest_key. destruct (sc_type sc =? SigSha256)%Z; [exact I|]. destruct (sc_key sc); [|exact I]. apply (typed_struct_back false false). f2; [exact K|exact I].
    + destruct (sc_time sc) as [ms|]; [|exact I]. cbn [all_of] in TT. cbn [typed]. rewrite wrap_ms by auto. unfold Ztwo63. lia.
    + destruct (sc_seq sc); [|exact I]. exact SQ.
Qed.

(** ** Wires of Interests with parameters *)
Definition is_tb (x : tok) : Prop := match x with TB _ => True | TW _ => False end.
Lemma tsplit_tbs : forall ts S c, Forall is_tb ts -> tsplit (S, c) ts = (S, c ++ tbytes ts).
Proof.
  induction ts as [|[b|w] ts IH]; intros S c H; [rewrite app_nil_r; reflexivity| |inversion H; contradiction]. inversion H; subst.
  cbn [tsplit fold_left tstep fst snd]. change (tsplit (S, c ++ b) ts = (S, c ++ tbytes (TB b :: ts))). rewrite IH by auto. unfold tbytes. cbn [map concat tok_bytes]. rewrite app_assoc. reflexivity.
Qed.
Lemma leaf_tb : forall b, Forall is_tb (leaf_tok b).
Proof. intros []; repeat constructor. Qed.

Definition pre_fs : list (N * kind) := firstn 11 ifs.
Definition pre_vs (n : name) (c : interest_config) : list value := firstn 11 (int_vals n c None None).

Lemma pre_tb : forall p n c, Forall is_tb (fs_toks p true pre_fs (pre_vs n c)).
Proof.
  intros p n c. change pre_fs with [(0%N, KArg); (0%N, KArg); (7%N, KIName 0); (33%N, KBool); (18%N, KBool); (30%N, KStruct spec_Links false); (10%N, KFixed 4 true); (12%N, KTime true); (34%N, KFixed 1 true); (0%N, KOffset); (0%N, KOffset)].
  unfold pre_vs, int_vals, interest_values. cbn [firstn fs_toks fst snd].
  destruct (ic_hint c), (ic_nonce c), (ic_life c), (ic_hops c); repeat (apply Forall_app; split); apply leaf_tb || constructor.
Qed.
Lemma pre_bytes : forall p n c, interest_config_ok c -> tbytes (fs_toks p true pre_fs (pre_vs n c)) = tlv 7 (name_enc (final_name p n)) ++ interest_middle c.
Proof.
  intros p n c H. rewrite fs_toks_bytes. 2:{ apply Forall_forall. intros f Hf. cbn in Hf. repeat (destruct Hf as [<-|Hf]; [reflexivity|]). contradiction. }
  change pre_fs with ([(0%N, KArg); (0%N, KArg); (7%N, KIName 0)] ++ mid_fs).
  change (pre_vs n c) with ([VNone; VNone; VName n] ++ skipn 3 (firstn 11 (int_vals n c None None))). rewrite fs_bytes_app by reflexivity. rewrite mid_bytes by auto. cbn [fs_bytes k_bytes fst snd app]. rewrite app_nil_r. reflexivity.
Qed.

Definition info_part (osc : option sig_config) : buf :=
  opt_tlv 44 (option_map (fun sc => sig_info_part (sc_type sc) (interest_key sc) (sc_nonce sc) (sc_time sc) (sc_seq sc) None) osc).

(** tokens of the fields before the signature *)
Lemma int_toks13 : forall p n c a osc, all_of interest_sig_ok osc ->
  fs_toks p true (firstn 13 ifs) (firstn 13 (int_vals n c (Some a) osc))
  = fs_toks p true pre_fs (pre_vs n c) ++ [TB (tl_enc 36 ++ tl_enc (nlen (concat a))); TW a] ++ leaf_tok (info_part osc).
Proof.
  intros p n c a osc H. change (firstn 13 ifs) with (pre_fs ++ [(36%N, KWire); (44%N, KStruct spec_SignatureInfo false)]).
  change (firstn 13 (int_vals n c (Some a) osc)) with (pre_vs n c ++ [VWire a; oiinfo_value osc]). rewrite fs_toks_app by reflexivity. f_equal. cbn [fs_toks toks fst snd app]. do 2 f_equal. rewrite app_nil_r.
  destruct osc as [sc|]; [|reflexivity]. unfold info_part. cbn [oiinfo_value option_map opt_tlv]. rewrite <- (iinfo_bytes p []) by exact H.
  unfold iinfo_value, spec_SignatureInfo. reflexivity.
Qed.

Lemma int_split13 : forall p n c a osc hdr, all_of interest_sig_ok osc -> interest_config_ok c ->
  tsplit ([], hdr) (fs_toks p true (firstn 13 ifs) (firstn 13 (int_vals n c (Some a) osc)))
  = ((hdr ++ (tlv 7 (name_enc (final_name p n)) ++ interest_middle c) ++ tl_enc 36 ++ tl_enc (nlen (concat a))) :: a, info_part osc).
Proof.
  intros p n c a osc hdr H1 H2. rewrite int_toks13 by auto. rewrite tsplit_app, tsplit_tbs by apply pre_tb. rewrite pre_bytes by auto.
  rewrite (tsplit_app [_; _]). cbn [tsplit fold_left tstep fst snd app]. change (fold_left tstep (leaf_tok (info_part osc))) with (fun st => tsplit st (leaf_tok (info_part osc))). cbv beta.
  rewrite tsplit_tbs by apply leaf_tb. rewrite leaf_tok_bytes. cbn [app]. rewrite <- !app_assoc. reflexivity.
Qed.

Lemma int_toks_all : forall p n c ap osc, fs_toks p true ifs (int_vals n c ap osc)
  = fs_toks p true (firstn 13 ifs) (firstn 13 (int_vals n c ap osc)) ++ (if (0 <? ep_est p)%N then [TB (tl_enc 46 ++ tl_enc (ep_est p)); TW [[]]] else []).
Proof.
  intros. change ifs with (firstn 13 ifs ++ [(46%N, KSig 9 0); (0%N, KRange 10 1)]) at 1.
  change (int_vals n c ap osc) with (firstn 13 (int_vals n c ap osc) ++ [VNone; VNone]) at 1. rewrite fs_toks_app by reflexivity. f_equal.
  cbn [fs_toks toks fst snd]. destruct (0 <? ep_est p)%N; reflexivity.
Qed.

Definition int_len (p : eparams) (n : name) (c : interest_config) (ap : option wire) (osc : option sig_config) : N :=
  (nlen (tlv 7 (name_enc (final_name p n)) ++ interest_middle c ++ signed_params ap osc)
   + (if (0 <? ep_est p)%N then 1 + tl_len (ep_est p) + ep_est p else 0))%N.
Lemma int_len_ok : forall p n c ap osc, interest_config_ok c -> all_of interest_sig_ok osc -> fs_len p ifs (int_vals n c ap osc) = int_len p n c ap osc.
Proof.
  intros. rewrite (fs_len_ok _ p true) by (apply (wf_fields_all true); reflexivity). rewrite int_bytes by auto. unfold int_len. rewrite !nlen_app.
  destruct (0 <? ep_est p)%N; [rewrite !nlen_app, full_hole_len, !tl_len_enc; change (tl_len 46) with 1%N|change (nlen []) with 0%N]; lia.
Qed.
Lemma int_len_pos : forall p n c ap osc, (0 < int_len p n c ap osc)%N.
Proof. intros. unfold int_len. rewrite nlen_app. unfold tlv. rewrite !nlen_app. change (nlen (tl_enc 7)) with 1%N. lia. Qed.

Lemma int_encode : forall est n c a osc, interest_config_ok c -> all_of interest_sig_ok osc ->
  let p := mkEP est true in
  let b0 := (tl_enc 5 ++ tl_enc (int_len p n c (Some a) osc)) ++ (tlv 7 (name_enc (final_name p n)) ++ interest_middle c) ++ tl_enc 36 ++ tl_enc (nlen (concat a)) in
  exists w ys, m_encode p spec_Packet [VStruct (int_vals n c (Some a) osc); VNone; VNone] = Ok (w, ys)
    /\ y_pos (nth 2 (y_sub (nth 0 ys YNone)) YNone) = (zlen (tl_enc 7 ++ tl_enc (nlen (name_enc (final_name p n))) ++ name_enc (base_name n)) + 2)%Z
    /\ (if (0 <? est)%N
        then concat (y_cov (nth 0 (y_sub (nth 0 ys YNone)) YNone)) = name_enc (base_name n) ++ signed_params (Some a) osc
             /\ y_sig (nth 13 (y_sub (nth 0 ys YNone)) YNone) = S (length (b0 :: a))
             /\ w = (b0 :: a) ++ [info_part osc ++ tl_enc 46 ++ tl_enc est; []]
        else exists w', w = b0 :: w' /\ concat w' = concat a ++ info_part osc).
Proof.
  intros est n c a osc CO SO p b0. set (ivs := int_vals n c (Some a) osc).
  destruct (encode_ok p spec_Packet [VStruct ivs; VNone; VNone] eq_refl (packet_int_shape _ (int_shape n c (Some a) osc)) (fun _ => packet_int_len p ivs)) as (w & ys & E & _ & EW & _ & _ & YFm).
  specialize (EW eq_refl). exists w, ys. split; [exact E|].
  assert (LV : length ivs = length ifs) by reflexivity.
  assert (LEN : fs_len p ifs ivs = int_len p n c (Some a) osc) by (apply int_len_ok; auto).
  assert (LP : (0 < fs_len p ifs ivs)%N) by (rewrite LEN; apply int_len_pos).
  pose proof (YFm 0%nat ltac:(cbn; lia)) as Y.
  change (kind_at (m_fields spec_Packet) 0) with (KStruct (Model true true ifs) true) in Y. change (val_at [VStruct ivs; VNone; VNone] 0) with (VStruct ivs) in Y.
  destruct (yfin_struct_inv _ _ _ _ _ _ _ Y LP LV) as (yi & EY & (LY & MK & CV) & _). rewrite EY. cbn [y_sub].
  assert (FN : final_name p n = base_name n ++ [digest_comp (repeat 0%N 32)]) by (rewrite final_base; reflexivity).
  split.
  - pose proof (MK 2%nat ltac:(cbn; lia)) as M2. unfold mark_ok in M2. change (kind_at ifs 2) with (KIName 0) in M2. change (val_at ivs 2) with (VName n) in M2.
    change (typ_at ifs 2) with 7%N in M2. change (fs_bytes p [] (firstn 2 ifs) (firstn 2 ivs)) with (@nil N) in M2. cbn [app] in M2.
    rewrite M2 by (rewrite FN; destruct (base_name n); discriminate). cbn [y_pos]. rewrite name_len_enc. rewrite FN at 2. rewrite removelast_snoc. reflexivity.
  - destruct (N.ltb_spec 0 est) as [EP|EP].
    + split; [|split].
      * rewrite (CV 0%nat eq_refl). unfold cov_upto.
        assert (EC : forall i, (i < length ifs)%nat -> contrib p ifs ivs 0 i = if (i =? 2)%nat then name_enc (base_name n) else if (i =? 13)%nat then signed_params (Some a) osc else []).
        { intros i Hi. destruct (Nat.eqb_spec i 2) as [->|N2]; [|destruct (Nat.eqb_spec i 13) as [->|N13]].
          - unfold contrib. change (kind_at ifs 2) with (KIName 0). change (val_at ivs 2) with (VName n). cbn [Nat.eqb]. unfold cov_name. change (ep_digest p) with true. cbv iota. rewrite FN, removelast_snoc. reflexivity.
          - unfold contrib. change (kind_at ifs 13) with (KSig 9 0). cbn [Nat.eqb andb ep_est p mkEP]. destruct (N.ltb_spec 0 est); [|lia].
            change (skipn 9 (firstn 13 ifs)) with ([(0%N, KOffset); (0%N, KOffset)] ++ skipn 11 (firstn 13 ifs)). change (skipn 9 (firstn 13 ivs)) with ([VNone; VNone] ++ skipn 11 (firstn 13 ivs)).
            rewrite fs_bytes_app by reflexivity. unfold ivs. rewrite params_bytes by auto. reflexivity.
          - unfold ifs in Hi. cbn [length m_fields spec_Interest] in Hi. do 15 (destruct i as [|i]; [try reflexivity; congruence|]). lia. }
        rewrite (map_ext_in _ (fun i => if (i =? 2)%nat then name_enc (base_name n) else if (i =? 13)%nat then signed_params (Some a) osc else [])) by (intros i Hi; apply in_seq in Hi; apply EC; lia).
        cbn [length ifs m_fields spec_Interest seq map Nat.eqb concat app]. rewrite app_nil_r. reflexivity.
      * pose proof (MK 13%nat ltac:(cbn; lia)) as M. unfold mark_ok in M. change (kind_at ifs 13) with (KSig 9 0) in M. specialize (M EP). rewrite M. cbn [y_sig]. f_equal.
        unfold toks_before, ivs. rewrite int_split13 by auto. reflexivity.
      * rewrite EW, packet_int_toks. change spec_Interest with (Model true true ifs). rewrite toks_struct. destruct (N.ltb_spec 0 (fs_len p ifs ivs)); [|lia].
        unfold ivs at 2. rewrite int_toks_all. change (ep_est p) with est. destruct (N.ltb_spec 0 est); [|lia]. rewrite strip_tb, !strip_snoc by discriminate.
        change (strip [TB (tl_enc 46 ++ tl_enc est); TW [[]]]) with [TB (tl_enc 46 ++ tl_enc est); TW [[]]].
        destruct (signed_wire p 5 46 (fs_toks p true (firstn 13 ifs) (firstn 13 ivs)) (fs_len p ifs ivs)) as (S0 & c0 & ES & EW' & _). 
        rewrite LEN in *. unfold ivs in ES. rewrite int_split13 in ES by auto. fold b0 in ES. pose proof (f_equal fst ES) as ES1. pose proof (f_equal snd ES) as ES2. cbn [fst snd] in ES1, ES2. subst S0 c0. exact EW'.
    + assert (est = 0%N) by lia. subst est. rewrite EW, packet_int_toks. change spec_Interest with (Model true true ifs). rewrite toks_struct. destruct (N.ltb_spec 0 (fs_len p ifs ivs)); [|lia].
      unfold ivs at 2. rewrite int_toks_all. change (ep_est p) with 0%N. cbn [N.ltb N.compare]. rewrite app_nil_r, LEN.
      pose proof (int_split13 p n c a osc (tl_enc 5 ++ tl_enc (int_len p n c (Some a) osc)) SO CO) as SP. fold b0 in SP.
      set (T := fs_toks p true (firstn 13 ifs) (firstn 13 (int_vals n c (Some a) osc))) in *. rewrite strip_tb.
      assert (ST : exists S1 c1, tsplit ([], tl_enc 5 ++ tl_enc (int_len p n c (Some a) osc)) (strip (strip T)) = (S1, c1) /\ exists w', fin_wire (S1, c1) [] = b0 :: w' /\ concat w' = concat a ++ info_part osc).
      { destruct (strip_cases T) as [(T1 & E1 & E2)|(E1 & NW)].
        - assert (X : T1 = fs_toks p true pre_fs (pre_vs n c) ++ [TB (tl_enc 36 ++ tl_enc (nlen (concat a)))] /\ a = [] /\ info_part osc = []).
          { unfold T in E1. rewrite int_toks13 in E1 by auto. destruct (info_part osc) as [|x l]; cbn [leaf_tok app] in E1.
            - change (fs_toks p true pre_fs (pre_vs n c) ++ [TB (tl_enc 36 ++ tl_enc (nlen (concat a))); TW a]) with (fs_toks p true pre_fs (pre_vs n c) ++ [TB (tl_enc 36 ++ tl_enc (nlen (concat a)))] ++ [TW a]) in E1.
              rewrite app_assoc in E1. apply app_inj_tail in E1. destruct E1 as [E1 E3]. injection E3 as ->. auto.
            - change (fs_toks p true pre_fs (pre_vs n c) ++ [TB (tl_enc 36 ++ tl_enc (nlen (concat a))); TW a; TB (x :: l)]) with (fs_toks p true pre_fs (pre_vs n c) ++ [TB (tl_enc 36 ++ tl_enc (nlen (concat a))); TW a] ++ [TB (x :: l)]) in E1.
              rewrite app_assoc in E1. apply app_inj_tail in E1. destruct E1 as [_ E3]. discriminate. }
          destruct X as (X1 & -> & X3). rewrite E2. assert (E4 : strip T1 = T1). { rewrite X1. rewrite strip_snoc by discriminate. reflexivity. }
          rewrite E4. rewrite E1 in SP. rewrite tsplit_app in SP. destruct (tsplit ([], tl_enc 5 ++ tl_enc (int_len p n c (Some []) osc)) T1) as [S1 c1] eqn:ES. exists S1, c1. split; [reflexivity|].
          cbn [tsplit fold_left tstep fst snd] in SP. rewrite X3 in SP |- *. cbn [app] in SP. pose proof (f_equal fst SP) as SP1. cbn [fst] in SP1. clear SP. rename SP1 into SP. rewrite ?app_nil_r in SP.
          destruct S1 as [|s S1]; [|exfalso; apply (f_equal (@length buf)) in SP; cbn [app length] in SP; rewrite app_length in SP; cbn [length] in SP; lia]. cbn [app] in SP. assert (c1 = b0) by congruence. subst c1. exists []. split; [|reflexivity]. unfold fin_wire. cbn [fst snd app].
          destruct b0 eqn:EB; [|rewrite app_nil_r; reflexivity]. exfalso. unfold b0 in EB. change (tl_enc 5) with [5%N] in EB. discriminate EB.
        - rewrite E1, E1, SP. eexists _, _. split; [reflexivity|]. unfold fin_wire. cbn [fst snd]. destruct (info_part osc) as [|x l] eqn:EI.
          + exists a. rewrite !app_nil_r. auto.
          + exists (a ++ [x :: l]). split; [rewrite app_nil_r; reflexivity|]. rewrite concat_app. cbn [concat]. rewrite !app_nil_r. reflexivity. }
      destruct ST as (S1 & c1 & E1 & w' & E2 & E3). exists w'. split; [|exact E3].
      change (fin_wire (tsplit ([], tl_enc 5 ++ tl_enc (int_len p n c (Some a) osc)) (strip (strip T))) [] = b0 :: w'). rewrite E1. exact E2.
Qed.

(** ** The digest *)
Lemma name_enc_digest : forall bn d, length d = 32%nat -> name_enc (bn ++ [digest_comp d]) = name_enc bn ++ [2%N; 32%N] ++ d.
Proof. intros bn d L. unfold name_enc. rewrite map_app, concat_app. cbn [map concat]. rewrite app_nil_r. unfold comp_enc, digest_comp. cbn [ctyp cval]. unfold nlen. rewrite L. reflexivity. Qed.

Lemma put_digest_ok : forall sha bn L mid m w', u64_ok L -> let z := repeat 0%N 32 in
  let b0 := fun d => (tl_enc 5 ++ tl_enc L) ++ (tlv 7 (name_enc (bn ++ [digest_comp d])) ++ mid) ++ tl_enc 36 ++ tl_enc m in
  let d := sha (tl_enc 36 ++ tl_enc m ++ concat w') in length d = 32%nat ->
  put_digest sha (b0 z :: w') (zlen (tl_enc 7 ++ tl_enc (nlen (name_enc (bn ++ [digest_comp z]))) ++ name_enc bn) + 2) m (bn ++ [digest_comp z])
  = Ok (b0 d :: w', bn ++ [digest_comp d]).
Proof.
  intros sha bn L mid m w' UL z b0 d LD.
  set (pre := (tl_enc 5 ++ tl_enc L) ++ tl_enc 7 ++ tl_enc (nlen (name_enc (bn ++ [digest_comp z]))) ++ name_enc bn ++ [2%N; 32%N]).
  set (post := mid ++ tl_enc 36 ++ tl_enc m).
  assert (EB : forall e, length e = 32%nat -> b0 e = pre ++ e ++ post).
  { intros e Le. unfold b0, pre, post, tlv. assert (EN : nlen (name_enc (bn ++ [digest_comp e])) = nlen (name_enc (bn ++ [digest_comp z]))).
    { rewrite !name_enc_digest by auto. rewrite !nlen_app. unfold nlen at 3 6. rewrite Le. reflexivity. }
    rewrite EN, (name_enc_digest bn e) by auto. rewrite <- !app_assoc. reflexivity. }
  assert (Lz : length z = 32%nat) by reflexivity.
  assert (P1 : parse_tl (b0 z) = Ok (5%N, 1%Z)) by (unfold b0; rewrite <- !app_assoc; apply parse_tl_enc; reflexivity).
  assert (SL : slice (b0 z) 1 (zlen (b0 z)) = Ok (tl_enc L ++ (tlv 7 (name_enc (bn ++ [digest_comp z])) ++ mid) ++ tl_enc 36 ++ tl_enc m)).
  { unfold b0. rewrite <- (app_assoc (tl_enc 5)). apply slice_tail'. reflexivity. }
  unfold put_digest. rewrite P1. cbn [bind fst snd]. rewrite SL. cbn [bind]. rewrite parse_tl_enc by exact UL. cbn [bind fst snd].
  assert (EP : (zlen (tl_enc 7 ++ tl_enc (nlen (name_enc (bn ++ [digest_comp z]))) ++ name_enc bn) + 2 + 1 + Z.of_N (tl_len L))%Z = zlen pre).
  { unfold pre. rewrite !zlen_app. rewrite <- (tl_len_enc L). change (zlen [2%N; 32%N]) with 2%Z. change (zlen (tl_enc 5)) with 1%Z. unfold zlen, nlen. lia. }
  rewrite EP.
  assert (S2 : slice (b0 z) (zlen pre) (zlen pre + 32) = Ok z) by (rewrite EB by auto; apply (slice_app pre z post)). rewrite S2. cbn [bind].
  assert (S3 : slice (b0 z) (zlen (b0 z) - Z.of_N (tl_len m) - 1) (zlen (b0 z)) = Ok (tl_enc 36 ++ tl_enc m)).
  { unfold b0. rewrite !app_assoc. rewrite <- (app_assoc _ (tl_enc 36)). apply slice_tail'. rewrite zlen_app, (zlen_app (tl_enc 36)). rewrite <- (tl_len_enc m). change (zlen (tl_enc 36)) with 1%Z. unfold zlen, nlen. lia. }
  rewrite S3. cbn [bind]. rewrite rev_app_distr. cbn [rev app]. rewrite <- app_assoc. fold d. rewrite firstn_all2 by lia.
  rewrite EB by auto. rewrite write_at_app by lia. cbn [bind].
  replace (zlen pre + 32)%Z with (zlen pre + zlen d)%Z by (unfold zlen; lia). rewrite slice_app. cbn [bind]. rewrite rev_involutive, <- EB by auto. reflexivity.
Qed.

(** ** Sizes *)
Lemma flag_le : forall t b, (nlen (flag t b) <= 18)%N.
Proof. intros t []; cbn [flag]; [pose proof (tlv_le t []); cbn in *; lia|cbn; lia]. Qed.
Lemma middle_le : forall c, (nlen (interest_middle c) <= 200 + olen names_size (ic_hint c))%N.
Proof.
  intros c. unfold interest_middle. rewrite !nlen_app. pose proof (flag_le 33 (ic_prefix c)). pose proof (flag_le 18 (ic_fresh c)).
  match goal with |- context [opt_tlv 30 ?x] => pose proof (opt_tlv_le 30 x) as H1 end. rewrite olen_map in H1.
  assert (H2 : (olen (fun l => nlen (concat (map (fun n => tlv 7 (name_enc n)) l))) (ic_hint c) <= olen names_size (ic_hint c))%N).
  { clear H1. destruct (ic_hint c) as [l|]; cbn [olen]; [|lia]. induction l as [|n l IH]; [cbn; lia|]. unfold names_size in *. cbn [map concat fold_right]. rewrite nlen_app. pose proof (tlv_le 7 (name_enc n)) as TL. lia. }
  pose proof (opt_tlv_le 10 (option_map (be 4) (ic_nonce c))) as H3. pose proof (opt_tlv_le 34 (option_map (be 1) (ic_hops c))) as H4. pose proof (opt_tlv_le 12 (option_map ms_enc (ic_life c))) as H5.
  pose proof (onat_le (fun t => Z.to_N (t / 1000000)) (ic_life c) : (olen (@nlen N) (option_map ms_enc (ic_life c)) <= 8)%N).
  assert (HB : forall w o, (olen (@nlen N) (option_map (be w) o) <= N.of_nat w)%N) by (intros w [x|]; cbn [option_map olen]; [unfold nlen; rewrite be_length|]; lia).
  pose proof (HB 4%nat (ic_nonce c)). pose proof (HB 1%nat (ic_hops c)). cbv beta in *. lia.
Qed.
Lemma signed_params_le : forall ap osc, (nlen (signed_params ap osc) <= 400 + olen (fun w => nlen (concat w)) ap + olen sig_size osc)%N.
Proof.
  intros ap osc. unfold signed_params. rewrite nlen_app. pose proof (opt_tlv_le 36 (option_map (@concat N) ap)) as H1. rewrite olen_map in H1.
  match goal with |- context [opt_tlv 44 ?x] => pose proof (opt_tlv_le 44 x) as H2 end. rewrite olen_map in H2.
  assert (H3 : (olen (fun sc => nlen (sig_info_part (sc_type sc) (interest_key sc) (sc_nonce sc) (sc_time sc) (sc_seq sc) None)) osc <= 300 + olen sig_size osc)%N).
  { destruct osc as [sc|]; cbn [olen]; [|lia]. unfold sig_size.
    pose proof (sig_info_part_le (mkSC 0 None None None None None None) (sc_type sc) (interest_key sc) (sc_nonce sc) (sc_time sc) (sc_seq sc)) as X. cbn [sc_not_before sc_not_after olen validity] in X.
    assert (olen (fun k => nlen (name_enc k)) (interest_key sc) <= olen (fun k => nlen (name_enc k)) (sc_key sc))%N by (unfold interest_key; destruct (sc_type sc =? SigSha256)%Z; cbn [olen]; lia).
    change (validity (mkSC 0 None None None None None None)) with (@None (buf * buf)) in X. lia. }
  cbv beta in *. lia.
Qed.
Lemma base_le : forall n, (nlen (name_enc (base_name n)) <= nlen (name_enc n))%N.
Proof.
  intros n. unfold base_name. destruct (rev n) as [|c r] eqn:E; [lia|]. destruct (ctyp c =? TypeParametersSha256Digest)%N; [|lia].
  assert (EN : n = rev r ++ [c]) by (rewrite <- (rev_involutive n), E; reflexivity). rewrite EN. unfold name_enc. rewrite map_app, concat_app, nlen_app. lia.
Qed.
Lemma clip_le : forall b, (nlen (clip b) <= 252)%N.
Proof. intros. unfold clip, nlen. rewrite map_length, firstn_length. lia. Qed.
Lemma final_le : forall p n, (nlen (name_enc (final_name p n)) <= nlen (name_enc n) + 300)%N.
Proof.
  intros p n. rewrite final_base. unfold name_enc at 1. rewrite map_app, concat_app, nlen_app. change (concat (map comp_enc (base_name n))) with (name_enc (base_name n)). pose proof (base_le n).
  destruct (ep_digest p); cbn [map concat]; rewrite ?app_nil_r; [|cbn; lia]. unfold comp_enc, digest_comp. cbn [ctyp cval]. rewrite !nlen_app. pose proof (clip_le (ep_fill p)). pose proof (nat_enc_le (nlen (clip (ep_fill p)))). change (nlen (tl_enc TypeParametersSha256Digest)) with 1%N. lia.
Qed.

(** ** MakeInterest *)
Lemma clip_id : forall b, bytes_ok b -> (length b <= 252)%nat -> clip b = b.
Proof.
  intros b H L. unfold clip. rewrite firstn_all2 by lia. clear L. induction H as [|x l Hx _ IH]; [reflexivity|]. cbn [map]. rewrite IH, N.mod_small by exact Hx. reflexivity.
Qed.

Lemma interest_packet_eq : forall p n c ap osc sig, interest_config_ok c -> all_of interest_sig_ok osc -> nlen sig = ep_est p ->
  fs_bytes p sig (m_fields spec_Packet) [VStruct (int_vals n c ap osc); VNone; VNone]
  = interest_packet (final_name p n) c ap osc (if (0 <? ep_est p)%N then Some sig else None).
Proof.
  intros p n c ap osc sig H1 H2 H3. rewrite packet_int_bytes, !int_bytes by auto. unfold interest_packet, params_part.
  set (Z := tlv 7 (name_enc (final_name p n)) ++ interest_middle c ++ signed_params ap osc ++ opt_tlv 46 (if (0 <? ep_est p)%N then Some sig else None)).
  change (tlv 5 Z) with (tl_enc 5 ++ tl_enc (nlen Z) ++ Z).
  assert (E1 : tlv 7 (name_enc (final_name p n)) ++ interest_middle c ++ signed_params ap osc ++ (if (0 <? ep_est p)%N then tl_enc 46 ++ tl_enc (ep_est p) ++ sig else []) = Z).
  { unfold Z. destruct (0 <? ep_est p)%N; cbn [opt_tlv]; [|reflexivity]. change (tlv 46 sig) with (tl_enc 46 ++ tl_enc (nlen sig) ++ sig). rewrite H3. reflexivity. }
  rewrite E1. do 3 f_equal. unfold Z. rewrite !nlen_app. do 3 f_equal. destruct (0 <? ep_est p)%N; [|reflexivity]. cbn [opt_tlv]. unfold tlv. rewrite !nlen_app, full_hole_len, H3. reflexivity.
Qed.

Section Make.
  Context (sha : buf -> buf) (SHA : forall b, length (sha b) = 32%nat /\ bytes_ok (sha b)).

  Lemma to_u64_0 : to_u64 0 = 0%N. Proof. reflexivity. Qed.

  Lemma make_interest_signed : forall n c a s sc, interest_config_ok c -> interest_sig_ok sc -> sg_info s = Ok (Some sc) ->
    (0 < sg_est s < 253)%N -> (interest_size n c (Some a) + sig_size sc < packet_limit)%N ->
    exists cov, concat cov = name_enc (base_name n) ++ signed_params (Some a) (Some sc)
      /\ (forall e, sg_sign s cov = Err e -> make_interest sha (Some n) (Some c) (Some a) (Some s) = Err e)
      /\ (forall sig, sg_sign s cov = Ok sig -> (sg_est s < nlen sig)%N -> make_interest sha (Some n) (Some c) (Some a) (Some s) = Err EOther)
      /\ (forall sig, sg_sign s cov = Ok sig -> (0 < nlen sig <= sg_est s)%N ->
          exists w, make_interest sha (Some n) (Some c) (Some a) (Some s) = Ok (w, Some cov, final_interest sha n a (Some sc) (Some sig))
            /\ concat w = interest_packet (final_interest sha n a (Some sc) (Some sig)) c (Some a) (Some sc) (Some sig)).
  Proof.
    intros n c a s sc CO SO SI [EP E253] SZ. unfold packet_limit in SZ.
    destruct (int_encode (sg_est s) n c a (Some sc) CO SO) as (w & ys & E & YP & Y). destruct (N.ltb_spec 0 (sg_est s)); [|lia]. destruct Y as (YC & YS & EW).
    set (p := mkEP (sg_est s) true) in *. set (cov := y_cov (nth 0 (y_sub (nth 0 ys YNone)) YNone)) in *.
    exists cov. split; [exact YC|].
    unfold make_interest. cbn [sig_part]. rewrite SI. cbn [bind]. destruct (Z.eqb_spec (sc_type sc) SigNone) as [X|_]; [destruct SO as [SO _]; unfold SigNone in X; lia|].
    rewrite interest_sig_info_ok by auto. cbn [bind]. rewrite to_int_small by lia. destruct (Z.leb_spec 253 (Z.of_N (sg_est s))); [lia|].
    rewrite to_u64_of_N by lia. fold p. change (iinfo_value sc) with (oiinfo_value (Some sc)). fold (int_vals n c (Some a) (Some sc)). rewrite E. cbn [bind].
    destruct (Z.ltb_spec 0 (Z.of_N (sg_est s))); [|lia]. fold cov.
    assert (ZS : forall b : buf, zlen b = Z.of_N (nlen b)) by (intros; unfold zlen, nlen; lia).
    split; [|split].
    - intros e ->. reflexivity.
    - intros sig -> L. cbn [bind]. rewrite ZS. destruct (Z.ltb_spec (Z.of_N (sg_est s)) (Z.of_N (nlen sig))); [reflexivity|lia].
    - intros sig -> [F1 F2]. cbn [bind]. destruct (Z.ltb_spec (Z.of_N (sg_est s)) (zlen sig)); [rewrite ZS in *; lia|].
      assert (FT : fits (sg_est s) (nlen sig)) by (split; [lia|left; lia]).
      rewrite EW, YS. rewrite put_sig_ok by exact FT. cbn [bind].
      assert (FN : final_name p n = base_name n ++ [digest_comp (repeat 0%N 32)]) by (rewrite final_base; reflexivity).
      rewrite YP, FN. set (L := int_len p n c (Some a) (Some sc)).
      assert (LB : (L < 8796093022208)%N).
      { unfold L, int_len. rewrite !nlen_app. pose proof (middle_le c). pose proof (signed_params_le (Some a) (Some sc)) as LE. cbn [olen] in LE. pose proof (final_le p n). pose proof (tlv_le 7 (name_enc (final_name p n))).
        unfold interest_size in SZ. cbn [olen] in SZ. change (ep_est p) with (sg_est s). destruct (0 <? sg_est s)%N; [|lia]. unfold tl_len. destruct (sg_est s <=? 252)%N eqn:E2; [lia|]. apply N.leb_gt in E2. lia. }
      assert (PP : tl_enc 36 ++ tl_enc (nlen (concat a)) ++ concat (a ++ [info_part (Some sc) ++ tl_enc 46 ++ tl_enc (nlen sig); sig]) = params_part (Some a) (Some sc) (Some sig)).
      { unfold params_part, signed_params. fold (info_part (Some sc)). cbn [option_map opt_tlv]. rewrite concat_app. cbn [concat]. unfold tlv. rewrite app_nil_r, <- !app_assoc. reflexivity. }
      pose proof (put_digest_ok sha (base_name n) L (interest_middle c) (nlen (concat a)) (a ++ [info_part (Some sc) ++ tl_enc 46 ++ tl_enc (nlen sig); sig]) ltac:(unfold u64_ok, two64; lia)) as PD.
      cbv zeta in PD. rewrite PP in PD. specialize (PD (proj1 (SHA _))). cbn [app]. rewrite PD. cbn [bind].
      set (fn := final_interest sha n a (Some sc) (Some sig)). change (base_name n ++ [digest_comp (sha (params_part (Some a) (Some sc) (Some sig)))]) with fn.
      set (p' := mkEPF (nlen sig) true (sha (params_part (Some a) (Some sc) (Some sig)))).
      assert (FN' : final_name p' n = fn) by (rewrite final_base; cbn [p' ep_digest ep_fill]; rewrite clip_id; [reflexivity|apply SHA|rewrite (proj1 (SHA _)); lia]).
      assert (LL : (L - Z.to_N (Z.of_N (sg_est s) - zlen sig))%N = nlen (tlv 7 (name_enc fn) ++ interest_middle c ++ params_part (Some a) (Some sc) (Some sig))).
      { unfold L, int_len, params_part. change (ep_est p) with (sg_est s). destruct (N.ltb_spec 0 (sg_est s)); [|lia]. rewrite FN. rewrite ZS. unfold opt_tlv at 1. unfold fn, final_interest.
        assert (T1 : nlen (tlv 7 (name_enc (base_name n ++ [digest_comp (repeat 0%N 32)]))) = nlen (tlv 7 (name_enc (base_name n ++ [digest_comp (sha (params_part (Some a) (Some sc) (Some sig)))])))).
        { unfold tlv. rewrite !name_enc_digest by (auto; apply SHA). assert (X : nlen (name_enc (base_name n) ++ [2%N; 32%N] ++ repeat 0%N 32) = nlen (name_enc (base_name n) ++ [2%N; 32%N] ++ sha (params_part (Some a) (Some sc) (Some sig)))).
          { rewrite !nlen_app. f_equal. f_equal. unfold nlen. rewrite (proj1 (SHA _)). reflexivity. } rewrite X, !nlen_app. f_equal. f_equal. rewrite <- !nlen_app. exact X. }
        rewrite !nlen_app, T1. unfold tlv at 3. rewrite !nlen_app, !tl_len_enc. change (tl_len 46) with 1%N.
        assert (T2 : tl_len (sg_est s) = tl_len (nlen sig)) by (unfold tl_len; destruct (N.leb_spec (sg_est s) 252), (N.leb_spec (nlen sig) 252); lia). rewrite T2. lia. }
      assert (FIN : concat ((((tl_enc 5 ++ tl_enc (nlen (tlv 7 (name_enc fn) ++ interest_middle c ++ params_part (Some a) (Some sc) (Some sig)))) ++ (tlv 7 (name_enc fn) ++ interest_middle c) ++ tl_enc 36 ++ tl_enc (nlen (concat a)))
         :: a ++ [info_part (Some sc) ++ tl_enc 46 ++ tl_enc (nlen sig); sig])) = interest_packet fn c (Some a) (Some sc) (Some sig)).
      { set (Z := tlv 7 (name_enc fn) ++ interest_middle c ++ params_part (Some a) (Some sc) (Some sig)). cbn [concat].
        change (interest_packet fn c (Some a) (Some sc) (Some sig)) with (tl_enc 5 ++ tl_enc (nlen Z) ++ Z). generalize (nlen Z). intros l. unfold Z. rewrite <- PP, <- !app_assoc. reflexivity. }
      destruct (Z.ltb_spec 0 (Z.of_N (sg_est s) - zlen sig)) as [SH|SH].
      + assert (LE : (sg_est s <= L)%N) by (unfold L, int_len; change (ep_est p) with (sg_est s); destruct (N.ltb_spec 0 (sg_est s)); lia).
        assert (ZP : (0 <= zlen sig)%Z) by (rewrite ZS; lia). rewrite shrink_wire_ok; [|reflexivity|unfold u64_ok, two64; lia|lia]. cbn [bind]. rewrite LL. eexists. split; [reflexivity|exact FIN].
      + destruct (Z.ltb_spec (Z.of_N (sg_est s) - zlen sig) 0); [lia|]. eexists. split; [reflexivity|]. rewrite <- FIN, <- LL. replace (Z.of_N (sg_est s) - zlen sig)%Z with 0%Z by lia. rewrite N.sub_0_r. reflexivity.
  Qed.
End Make.

(** ** MakeInterest without a signature *)
Lemma int_unsigned_part : forall need sg osc, int_unsigned need sg osc ->
  sig_part (interest_sig_info need) sg = Ok (oiinfo_value osc, 0%Z) /\ all_of interest_sig_ok osc.
Proof.
  intros need sg osc U. destruct sg as [s|]; cbn [int_unsigned sig_part] in *; [|subst; split; [reflexivity|exact I]].
  destruct U as [(E & ->)|[(sc & E & E1 & ->)|(sc & -> & E & E1 & E2 & ->)]]; rewrite E; cbn [bind].
  - split; [reflexivity|exact I].
  - rewrite E1, Z.eqb_refl. split; [reflexivity|exact I].
  - destruct (Z.eqb_spec (sc_type sc) SigNone) as [X|_]; [destruct E1 as [E1 _]; unfold SigNone in X; lia|]. rewrite interest_sig_info_ok, E2 by auto. split; [reflexivity|exact E1].
Qed.

Section Make2.
  Context (sha : buf -> buf) (SHA : forall b, length (sha b) = 32%nat /\ bytes_ok (sha b)).

  Lemma make_interest_params : forall n c a sg osc, interest_config_ok c -> int_unsigned true sg osc ->
    (interest_size n c (Some a) + olen sig_size osc < packet_limit)%N ->
    exists w, make_interest sha (Some n) (Some c) (Some a) sg = Ok (w, None, final_interest sha n a osc None)
      /\ concat w = interest_packet (final_interest sha n a osc None) c (Some a) osc None.
  Proof.
    intros n c a sg osc CO U SZ. unfold packet_limit in SZ. destruct (int_unsigned_part _ _ _ U) as [SP SO].
    destruct (int_encode 0 n c a osc CO SO) as (w & ys & E & YP & Y). cbn [N.ltb N.compare] in Y. destruct Y as (w' & EW & EC).
    set (p := mkEP 0 true) in *.
    unfold make_interest. rewrite SP. cbn [bind]. cbn [Z.leb Z.compare]. rewrite to_u64_0. fold p. fold (int_vals n c (Some a) osc). rewrite E. cbn [bind].
    assert (ES : forall A (f : signer -> A) y, (forall s, f s = y) -> match sg with Some s => f s | None => y end = y) by (intros; destruct sg; auto).
    rewrite ES by (intros; reflexivity). clear ES. cbn [bind].
    assert (FN : final_name p n = base_name n ++ [digest_comp (repeat 0%N 32)]) by (rewrite final_base; reflexivity).
    rewrite YP, FN, EW. set (L := int_len p n c (Some a) osc).
    assert (LB : (L < 8796093022208)%N).
    { unfold L, int_len. rewrite !nlen_app. pose proof (middle_le c). pose proof (signed_params_le (Some a) osc) as LE. cbn [olen] in LE. pose proof (final_le p n). pose proof (tlv_le 7 (name_enc (final_name p n))).
      unfold interest_size in SZ. cbn [olen] in SZ. change (ep_est p) with 0%N. change (0 <? 0)%N with false. cbv iota. lia. }
    assert (PP : tl_enc 36 ++ tl_enc (nlen (concat a)) ++ concat w' = params_part (Some a) osc None).
    { unfold params_part, signed_params. fold (info_part osc). cbn [option_map opt_tlv]. rewrite EC. unfold tlv. rewrite app_nil_r, <- !app_assoc. reflexivity. }
    pose proof (put_digest_ok sha (base_name n) L (interest_middle c) (nlen (concat a)) w' ltac:(unfold u64_ok, two64; lia)) as PD.
    cbv zeta in PD. rewrite PP in PD. specialize (PD (proj1 (SHA _))). rewrite FN, PD. cbn [bind].
    set (fn := final_interest sha n a osc None). change (base_name n ++ [digest_comp (sha (params_part (Some a) osc None))]) with fn.
    cbn [Z.ltb Z.sub Z.compare]. eexists. split; [reflexivity|].
    set (Z := tlv 7 (name_enc fn) ++ interest_middle c ++ params_part (Some a) osc None). cbn [concat].
    change (interest_packet fn c (Some a) osc None) with (tl_enc 5 ++ tl_enc (nlen Z) ++ Z).
    assert (LL : L = nlen Z).
    { unfold L, int_len, Z, params_part. change (ep_est p) with 0%N. change (0 <? 0)%N with false. cbn [opt_tlv]. rewrite app_nil_r, N.add_0_r. rewrite !nlen_app, FN. f_equal. unfold fn, final_interest, tlv.
      assert (X : nlen (name_enc (base_name n ++ [digest_comp (repeat 0%N 32)])) = nlen (name_enc (base_name n ++ [digest_comp (sha (params_part (Some a) osc None))]))).
      { rewrite !name_enc_digest by (auto; apply SHA). rewrite !nlen_app. f_equal. f_equal. unfold nlen. rewrite (proj1 (SHA _)). reflexivity. }
      rewrite !nlen_app, X. reflexivity. }
    rewrite LL. generalize (nlen Z). intros l. unfold Z. rewrite <- PP, <- !app_assoc. reflexivity.
  Qed.

  Lemma make_interest_plain : forall n c sg, interest_config_ok c -> int_unsigned false sg None ->
    exists w, make_interest sha (Some n) (Some c) None sg = Ok (w, None, base_name n) /\ concat w = interest_packet (base_name n) c None None None.
  Proof.
    intros n c sg CO U. destruct (int_unsigned_part _ _ _ U) as [SP SO]. set (p := mkEP 0 false).
    assert (FN : final_name p n = base_name n) by (rewrite final_base; cbn [p mkEP ep_digest]; apply app_nil_r).
    destruct (encode_ok p spec_Packet _ eq_refl (packet_int_shape _ (int_shape n c None None)) (fun _ => packet_int_len _ _)) as (w & ys & E & C & _).
    exists w. split.
    - unfold make_interest. rewrite SP. cbn [bind]. cbn [Z.leb Z.compare]. rewrite to_u64_0. fold p. fold (int_vals n c None None). rewrite E. cbn [bind]. destruct sg; cbn [bind Z.ltb Z.sub Z.compare]; rewrite FN; reflexivity.
    - rewrite C, interest_packet_eq by auto. rewrite FN. reflexivity.
  Qed.
End Make2.

(** ** ReadInterest *)
Lemma base_digest : forall n d, base_name (n ++ [digest_comp d]) = n.
Proof. intros. unfold base_name. rewrite rev_app_distr. cbn [rev app digest_comp ctyp]. rewrite N.eqb_refl, rev_involutive. reflexivity. Qed.
Lemma has_digest_app : forall a b, has_digest (a ++ b) = has_digest a || has_digest b.
Proof. induction a as [|c a IH]; intros b; cbn [app has_digest]; [reflexivity|]. rewrite IH, orb_assoc. reflexivity. Qed.
Lemma before_digest_app : forall n d, before_digest (n ++ [digest_comp d]) = n.
Proof. induction n as [|c n IH]; intros d; [reflexivity|]. cbn [app before_digest]. rewrite has_digest_app. cbn [has_digest digest_comp ctyp]. rewrite N.eqb_refl, !orb_true_r. rewrite IH. reflexivity. Qed.

(** every name is what the encoder makes of some name *)
Lemma any_name : forall fn, name_typed fn -> exists n dg fill, name_typed n /\ forall est, final_name (mkEPF est dg fill) n = fn.
Proof.
  intros fn [T1 T2]. destruct (rev fn) as [|c r] eqn:E.
  - exists [], false, []. split; [split; constructor|]. intros est. assert (fn = []) by (rewrite <- (rev_involutive fn), E; reflexivity). subst. reflexivity.
  - assert (EN : fn = rev r ++ [c]) by (rewrite <- (rev_involutive fn), E; reflexivity).
    destruct (N.eqb_spec (ctyp c) TypeParametersSha256Digest) as [ET|NT].
    + exists (rev r ++ [digest_comp []]), true, (cval c). rewrite EN in T1, T2. apply Forall_app in T1, T2. destruct T1 as [T1 T1'], T2 as [T2 T2']. inversion T1' as [|? ? [_ B] _]; subst. inversion T2' as [|? ? B2 _]; subst.
      split.
      * split; apply Forall_app; split; auto; constructor; auto; [split; [reflexivity|constructor]|unfold comp_short; cbn; lia].
      * intros est. rewrite final_base, base_digest. cbn [ep_digest ep_fill]. rewrite clip_id; [|exact B|unfold comp_short, nlen in B2; lia]. do 2 f_equal. destruct c as [t v]. cbn in *. subst t. reflexivity.
    + exists fn, false, []. split; [split; auto|]. intros est. unfold final_name. cbn [ep_digest]. rewrite E. destruct (N.eqb_spec (ctyp c) TypeParametersSha256Digest); [contradiction|reflexivity].
Qed.

(** what checkInterest demands *)
Lemma same_not_none : forall a b, same a b -> a <> VNone -> b <> VNone.
Proof. intros a b H N. destruct H; auto; discriminate. Qed.

Lemma names_back : forall p h l, map (fun v => back p h KName v) (map VName l) = map VName l.
Proof. intros. rewrite map_map. apply map_ext. reflexivity. Qed.
Lemma same_names : forall l l', Forall2 same (map VName l) l' -> l' = map VName l.
Proof. induction l as [|n l IH]; intros l' H; inversion H; subst; [reflexivity|]. cbn [map]. rewrite (same_name_inv _ _ H2), (IH _ H4). reflexivity. Qed.

Lemma same_hint : forall l v, same (VStruct [VSeq (map VName l)]) v -> exists t, v = VStruct (VSeq (map VName l) :: t).
Proof.
  intros l v H. destruct (same_struct_inv _ _ H) as (l5 & -> & F5). inversion F5 as [|? v5 ? l5' H5 F5']; subst.
  inversion H5 as [| | |? l6 F6|]; subst; [|apply same_names in F6; subst]; eauto.
Qed.

Lemma read_interest_ok : forall sha fn c ap osc osig F, name_typed fn -> interest_config_ok c -> all_of interest_sig_ok osc -> all_of (fun s => (0 < nlen s)%N) osig ->
  (interest_size fn c ap + olen sig_size osc + olen (@nlen N) osig < packet_limit)%N -> (length (interest_packet fn c ap osc osig) < F)%nat ->
  exists i cov, interest_reads fn c ap osc osig i
    /\ concat cov = name_enc (before_digest fn) ++ (match osig with Some _ => signed_params ap osc | None => [] end)
    /\ read_interest sha F (new_buffer_reader (interest_packet fn c ap osc osig))
       = match ap, osig with
         | None, None => Ok (i, cov)
         | None, Some _ => Err EDigest
         | Some _, _ => if digest_right sha fn (params_part ap osc osig) then Ok (i, cov) else Err EDigest
         end.
Proof.
  intros sha fn c ap osc osig F Hn CO SO OS SZ FU. unfold packet_limit in SZ.
  destruct (any_name fn Hn) as (n & dg & fill & Tn & FNe).
  set (sig := match osig with Some s => s | None => [] end). set (p := mkEPF (nlen sig) dg fill). specialize (FNe (nlen sig)). fold p in FNe.
  assert (EQ : (if (0 <? ep_est p)%N then Some sig else None) = osig).
  { cbn [p ep_est]. destruct osig as [s|]; subst sig; [|reflexivity]. cbn in OS. destruct (N.ltb_spec 0 (nlen s)); [reflexivity|lia]. }
  assert (EB : fs_bytes p sig (m_fields spec_Packet) [VStruct (int_vals n c ap osc); VNone; VNone] = interest_packet fn c ap osc osig).
  { rewrite interest_packet_eq by (auto; reflexivity). rewrite FNe, EQ. reflexivity. }
  assert (LP : (nlen (interest_packet fn c ap osc osig) < 8796093022208)%N).
  { unfold interest_packet. match goal with |- context [tlv 5 ?x] => pose proof (tlv_le 5 x) as X end. unfold params_part in *. rewrite !nlen_app in X. pose proof (opt_tlv_le 46 osig). pose proof (middle_le c). pose proof (signed_params_le ap osc). pose proof (tlv_le 7 (name_enc fn)).
    unfold interest_size in SZ. lia. }
  assert (ZS : zlen (interest_packet fn c ap osc osig) = Z.of_N (nlen (interest_packet fn c ap osc osig))) by (unfold zlen, nlen; lia).
  destruct (parse_ok p sig eq_refl spec_Packet false _ F (new_buffer_reader (interest_packet fn c ap osc osig)) [] eq_refl eq_refl
     (packet_int_shape _ (int_shape n c ap osc)) (packet_int_typed _ (int_typed n c ap osc Tn CO SO))) as (vals & cx & E & SM & LC & _ & CF).
  - rewrite EB. apply at_new_buf. unfold mem_limit. lia.
  - left. exact I.
  - rewrite EB, ZS. unfold size_limit. lia.
  - rewrite EB. exact FU.
  - unfold read_interest. rewrite E. cbn [bind].
    pose proof (same_nth _ _ 0 SM) as S1. cbn [fs_back m_fields spec_Packet nth fst snd] in S1.
    set (hint := match ic_hint c with Some l => VStruct [VSeq (map (fun v => back p sig KName v) (map VName l))] | None => VNone end).
    set (non := match ic_nonce c with Some x => VNat (x mod 4294967296) | None => VNone end). set (hop := match ic_hops c with Some x => VNat (x mod 256) | None => VNone end).
    assert (EBK : back p sig (KStruct spec_Interest true) (VStruct (int_vals n c ap osc)) = VStruct [VNone; VNone; VName fn; VBool (ic_prefix c); VBool (ic_fresh c); hint; non;
        v_time (option_map ms_floor (ic_life c)); hop; VNone; VNone; v_wire ap; back p sig (KStruct spec_SignatureInfo false) (oiinfo_value osc); back p sig (KSig 9 0) VNone; VNone]).
    { rewrite <- FNe. unfold int_vals, interest_values, hint, non, hop. destruct (ic_hint c), (ic_life c), (ic_nonce c), (ic_hops c), ap; reflexivity. }
    rewrite EBK in S1. clear EBK. destruct (same_struct_inv _ _ S1) as (i & -> & SD). clear S1.
    pose proof (same_nth _ _ 2 SD) as S2. cbn [nth] in S2. apply same_name_inv in S2.
    specialize (CF 0%nat ltac:(cbn; lia)). change (kind_at (m_fields spec_Packet) 0) with (KStruct (Model true true ifs) true) in CF. cbn [nth] in CF.
    destruct (cx_fin_struct_inv p sig true true ifs true (int_vals n c ap osc) _ eq_refl CF) as (ci & EC & CV & _). rewrite EC. cbn [x_sub].
    pose proof (same_nth _ _ 3 SD) as S3. pose proof (same_nth _ _ 4 SD) as S4. pose proof (same_nth _ _ 5 SD) as S5. pose proof (same_nth _ _ 6 SD) as S6. pose proof (same_nth _ _ 7 SD) as S7.
    pose proof (same_nth _ _ 8 SD) as S8. pose proof (same_nth _ _ 11 SD) as S11. pose proof (same_nth _ _ 12 SD) as S12. pose proof (same_nth _ _ 13 SD) as S13. cbn [nth] in S3, S4, S5, S6, S7, S8, S11, S12, S13.
    assert (CV0 : concat (x_cov (nth 0 ci XNone)) = name_enc (before_digest fn) ++ (match osig with Some _ => signed_params ap osc | None => [] end)).
    { rewrite (CV 0%nat eq_refl). unfold covered. change (seq 0 (length ifs)) with [0; 1; 2; 3; 4; 5; 6; 7; 8; 9; 10; 11; 12; 13; 14]%nat. cbn [fold_left].
      set (cs := cover_step p sig ifs (int_vals n c ap osc) 0).
      assert (EI : forall acc j, (j < 15)%nat -> j <> 2%nat -> j <> 13%nat -> cs acc j = acc) by (intros acc j Hj N2 N13; do 15 (destruct j as [|j]; [try reflexivity; congruence|]); lia).
      assert (E2 : forall acc, cs acc 2%nat = acc ++ name_enc (before_digest fn)) by (intros acc; unfold cs, cover_step; change (kind_at ifs 2) with (KIName 0); cbn [nth int_vals interest_values Nat.eqb]; rewrite FNe; reflexivity).
      assert (E13 : forall acc, cs acc 13%nat = acc ++ (match osig with Some _ => signed_params ap osc | None => [] end)).
      { intros acc. unfold cs, cover_step. change (kind_at ifs 13) with (KSig 9 0). cbn [Nat.eqb andb]. assert (BB : bytes_between p sig ifs (int_vals n c ap osc) 9 13 = signed_params ap osc).
        { unfold bytes_between. change (skipn 9 (firstn 13 ifs)) with ([(0%N, KOffset); (0%N, KOffset)] ++ skipn 11 (firstn 13 ifs)). change (skipn 9 (firstn 13 (int_vals n c ap osc))) with ([VNone; VNone] ++ skipn 11 (firstn 13 (int_vals n c ap osc))).
          rewrite fs_bytes_app by reflexivity. rewrite params_bytes by auto. reflexivity. }
        rewrite BB. destruct (0 <? ep_est p)%N; destruct osig; try discriminate EQ; [reflexivity|rewrite app_nil_r; reflexivity]. }
      rewrite (EI _ 14%nat), E13, (EI _ 12%nat), (EI _ 11%nat), (EI _ 10%nat), (EI _ 9%nat), (EI _ 8%nat), (EI _ 7%nat), (EI _ 6%nat), (EI _ 5%nat), (EI _ 4%nat), (EI _ 3%nat), E2, (EI _ 1%nat), (EI _ 0%nat) by lia. reflexivity. }
    assert (CV1 : concat (x_cov (nth 1 ci XNone)) = params_part ap osc osig).
    { rewrite (CV 1%nat eq_refl). unfold covered. change (seq 0 (length ifs)) with (seq 0 14 ++ [14%nat]). rewrite fold_left_app. cbn [fold_left]. unfold cover_step at 1. change (kind_at ifs 14) with (KRange 10 1). cbn [Nat.eqb].
      unfold bytes_between. change (skipn 10 (firstn 14 ifs)) with ([(0%N, KOffset)] ++ skipn 11 (firstn 13 ifs) ++ [(46%N, KSig 9 0)]). change (skipn 10 (firstn 14 (int_vals n c ap osc))) with ([VNone] ++ skipn 11 (firstn 13 (int_vals n c ap osc)) ++ [VNone]).
      rewrite !fs_bytes_app by reflexivity. rewrite params_bytes by auto. unfold params_part. cbn [fs_bytes k_bytes fst snd app]. f_equal. rewrite app_nil_r, <- EQ. destruct (0 <? ep_est p)%N; reflexivity. }
    exists i, (x_cov (nth 0 ci XNone)). split; [|split; [exact CV0|]].
    + destruct CO as (C1 & C2 & C3 & C4). unfold interest_reads.
      split; [unfold i_name; rewrite S2; reflexivity|].
      split; [unfold i_can_be_prefix; rewrite <- (same_bool _ _ S3); reflexivity|]. split; [unfold i_must_be_fresh; rewrite <- (same_bool _ _ S4); reflexivity|].
      split.
      { unfold i_hint. unfold hint in S5. destruct (ic_hint c) as [l|]; [|rewrite (same_none_inv _ S5); reflexivity].
        rewrite names_back in S5. destruct (same_hint _ _ S5) as (t5 & ->). rewrite map_map. reflexivity. }
      split; [unfold i_nonce; rewrite <- (same_nat _ _ S6); unfold non; destruct (ic_nonce c); [cbn in *; rewrite N.mod_small by lia|]; reflexivity|].
      split; [unfold i_lifetime; rewrite <- (same_time _ _ S7); destruct (ic_life c); reflexivity|].
      split; [unfold i_hop_limit; rewrite <- (same_nat _ _ S8); unfold hop; destruct (ic_hops c); [cbn in *; rewrite N.mod_small by lia|]; reflexivity|].
      split; [unfold i_app_param; rewrite <- (same_wire_eq _ _ S11); destruct ap; reflexivity|].
      split; [unfold i_sig_type; rewrite <- (same_sig_type _ _ S12); destruct osc as [sc|]; [|reflexivity]; destruct SO as [T _]; cbn; rewrite to_u64_small by lia; rewrite to_int_small by lia; lia|].
      split; [unfold i_key_name; rewrite <- (same_key_name _ _ S12); destruct osc as [sc|]; [|reflexivity]; cbn; destruct (interest_key sc); reflexivity|].
      split; [unfold i_sig_nonce; rewrite <- (same_bytes _ _ (same_fld _ _ 2 S12)); destruct osc as [sc|]; [|reflexivity]; cbn; destruct (sc_nonce sc); reflexivity|].
      split.
      { unfold i_sig_time. rewrite <- (same_time _ _ (same_fld _ _ 3 S12)). destruct osc as [sc|]; [|reflexivity]. destruct SO as (_ & _ & _ & TT & _). cbn. destruct (sc_time sc) as [ms|]; [|reflexivity].
        cbn [all_of] in TT. cbn [g_time]. rewrite wrap_ms by auto. rewrite Z.div_mul by lia. rewrite Z.quot_mul by lia. reflexivity. }
      split; [unfold i_sig_seq; rewrite <- (same_nat _ _ (same_fld _ _ 4 S12)); destruct osc as [sc|]; [|reflexivity]; cbn; destruct (sc_seq sc); reflexivity|].
      unfold i_sig_value. pose proof (same_wire_eq _ _ S13) as SW. cbn [back] in SW.
      destruct (g_wire (nth 13 i VNone)) as [w6|]; cbn [option_map] in SW; destruct (0 <? ep_est p)%N; destruct osig; try discriminate EQ; try discriminate SW; cbn in SW.
      * rewrite app_nil_r in SW. unfold sig in SW. congruence.
      * reflexivity.
    + unfold check_interest. rewrite S2.
      assert (E11 : match ap with Some _ => nth 11 i VNone <> VNone | None => nth 11 i VNone = VNone end) by (destruct ap; [apply (same_not_none _ _ S11); discriminate|apply same_none_inv; exact S11]).
      assert (E13 : match osig with Some _ => nth 13 i VNone <> VNone | None => nth 13 i VNone = VNone end).
      { rewrite <- EQ. cbn [back] in S13. destruct (0 <? ep_est p)%N; [apply (same_not_none _ _ S13); discriminate|apply same_none_inv; exact S13]. }
      assert (DR : (match rev fn with last :: _ => if (ctyp last =? TypeParametersSha256Digest)%N && bytes_eqb (cval last) (sha (concat (x_cov (nth 1 ci XNone)))) then Ok tt else Err EDigest | [] => Err EDigest end)
                   = if digest_right sha fn (params_part ap osc osig) then Ok tt else Err EDigest) by (rewrite CV1; unfold digest_right; destruct (rev fn); reflexivity).
      destruct ap as [a|].
      * destruct (nth 11 i VNone); try congruence; destruct (nth 13 i VNone); rewrite DR; destruct (digest_right sha fn (params_part (Some a) osc osig)); reflexivity.
      * rewrite E11. clearbody p sig. destruct osig; [|rewrite E13; reflexivity]. destruct (nth 13 i VNone); try congruence; reflexivity.
Qed.
