(** MakeData and ReadData. *)
From Verif Require Import Base BaseProofs PrimModel PrimProofs ReaderModel ReaderSpec ReaderProofs NameModel NameProofs CodecModel CodecSpec CodecProofs CodecEnc CodecEnc2 CodecEnc3 CodecEnc5 CodecSpec2 CodecPar CodecPar2 CodecPar4 CodecLib SpecModel SpecSpec SpecProofs.

(** ** Equality up to fragmentation, seen through accessors *)
Lemma same_refl_all : forall l, Forall2 same l l.
Proof. induction l; constructor; auto. constructor. Qed.

Lemma same_nth : forall l l' i, Forall2 same l l' -> same (nth i l VNone) (nth i l' VNone).
Proof. intros l l' i H. revert i. induction H; intros [|i]; cbn [nth]; auto; constructor. Qed.

Lemma same_fld : forall a b i, same a b -> same (g_fld a i) (g_fld b i).
Proof. intros a b i H. destruct H; cbn [g_fld]; try constructor. apply same_nth. auto. Qed.

Lemma same_nat : forall a b, same a b -> g_nat a = g_nat b.
Proof. intros a b H. destruct H; auto. Qed.
Lemma same_time : forall a b, same a b -> g_time a = g_time b.
Proof. intros a b H. destruct H; auto. Qed.
Lemma same_bytes : forall a b, same a b -> g_bytes a = g_bytes b.
Proof. intros a b H. destruct H; auto. Qed.
Lemma same_name : forall a b, same a b -> g_name a = g_name b.
Proof. intros a b H. destruct H; auto. Qed.
Lemma same_bool : forall a b, same a b -> g_bool a = g_bool b.
Proof. intros a b H. destruct H; auto. Qed.
Lemma same_wire_eq : forall a b, same a b -> option_map (@concat N) (g_wire a) = option_map (@concat N) (g_wire b).
Proof. intros a b H. destruct H; auto. cbn. f_equal. auto. Qed.

Lemma same_struct_inv : forall l v, same (VStruct l) v -> exists l', v = VStruct l' /\ Forall2 same l l'.
Proof. intros l v H. inversion H; subst; eauto using same_refl_all. Qed.
Lemma same_none_inv : forall v, same VNone v -> v = VNone.
Proof. intros v H. inversion H; auto. Qed.
Lemma same_name_inv : forall n v, same (VName n) v -> v = VName n.
Proof. intros n v H. inversion H; auto. Qed.

Lemma same_sig_type : forall a b, same a b -> sig_type_of a = sig_type_of b.
Proof. intros a b H. destruct H; auto. cbn [sig_type_of]. pose proof (same_nth _ _ 0 H) as X. destruct X; auto. Qed.
Lemma same_key_name : forall a b, same a b -> key_name_of a = key_name_of b.
Proof. intros. apply same_name, same_fld, same_fld. auto. Qed.

(** ** Encoding *)
Definition dfs : list (N * kind) := m_fields spec_Data.

Lemma packet_data_toks : forall p dvs, fs_toks p true (m_fields spec_Packet) [VNone; VStruct dvs; VNone]
  = toks p true 6 (KStruct spec_Data true) (VStruct dvs).
Proof. intros. cbn [fs_toks m_fields spec_Packet fst snd]. rewrite app_nil_r. reflexivity. Qed.
Lemma packet_data_bytes : forall p h dvs, fs_bytes p h (m_fields spec_Packet) [VNone; VStruct dvs; VNone]
  = tl_enc 6 ++ tl_enc (nlen (fs_bytes p (full_hole p) dfs dvs)) ++ fs_bytes p h dfs dvs.
Proof.
  intros. assert (E : forall (x : buf), x ++ [] = x) by apply app_nil_r.
  cbn [fs_bytes m_fields spec_Packet fst snd]. change (k_bytes p h 5 (KStruct spec_Interest true) VNone) with (@nil N).
  change (k_bytes p h 100 (KStruct spec_LpPacket true) VNone) with (@nil N). rewrite !E. cbn [app]. apply (k_bytes_struct p h 6 true true dfs true).
Qed.
Lemma packet_data_len : forall p dvs, (0 < fs_len p (m_fields spec_Packet) [VNone; VStruct dvs; VNone])%N.
Proof.
  intros. rewrite (fs_len_ok _ p true) by (apply (wf_fields_all true); reflexivity). rewrite packet_data_bytes. rewrite nlen_app.
  change (nlen (tl_enc 6)) with 1%N. lia.
Qed.
Lemma packet_shape : forall dvs, fs_shape dfs dvs -> fs_shape (m_fields spec_Packet) [VNone; VStruct dvs; VNone].
Proof.
  intros dvs H. constructor; [exact I || reflexivity|]. constructor; [|constructor; [exact I || reflexivity|constructor]].
  cbn [snd]. change spec_Data with (Model true true dfs). apply shape_struct. auto.
Qed.
Lemma typed_struct_back : forall nc o fs b vs, fs_typed fs vs -> typed (KStruct (Model nc o fs) b) (VStruct vs).
Proof. intros nc o fs b vs H. cbn [typed]. induction H; auto. Qed.
Lemma packet_typed : forall dvs, fs_typed dfs dvs -> fs_typed (m_fields spec_Packet) [VNone; VStruct dvs; VNone].
Proof.
  intros dvs H. constructor; [exact I || reflexivity|]. constructor; [|constructor; [exact I || reflexivity|constructor]].
  cbn [snd]. change spec_Data with (Model true true dfs). apply typed_struct_back. auto.
Qed.

(** the part before the signature *)
Definition dbody (dvs : list value) : buf := fs_bytes (mkEP 0 false) [] (firstn 6 dfs) (firstn 6 dvs).

Lemma firstn_snoc6 : forall d6 : list value, length d6 = 6%nat -> firstn 6 (d6 ++ [VNone]) = d6.
Proof. intros d6 L. rewrite <- L at 1. rewrite firstn_app, Nat.sub_diag, firstn_all. apply app_nil_r. Qed.

Lemma skipn_snoc6 : forall d6 : list value, length d6 = 6%nat -> skipn 6 (d6 ++ [VNone]) = [VNone].
Proof. intros d6 L. rewrite <- L at 1. rewrite skipn_app, Nat.sub_diag, skipn_all. reflexivity. Qed.

Lemma data_bytes_sig : forall p h d6, length d6 = 6%nat -> (0 < ep_est p)%N ->
  fs_bytes p h dfs (d6 ++ [VNone]) = dbody (d6 ++ [VNone]) ++ tl_enc 23 ++ tl_enc (ep_est p) ++ h.
Proof.
  intros p h d6 L E. rewrite <- (firstn_skipn 6 dfs) at 1. rewrite fs_bytes_app by (rewrite L; reflexivity).
  rewrite (fs_bytes_free (firstn 6 dfs) eq_refl p h (mkEP 0 false) []). unfold dbody. rewrite (firstn_snoc6 d6 L).
  f_equal. change (skipn 6 dfs) with [(23%N, KSig 1 0)]. cbn [fs_bytes k_bytes fst snd]. destruct (N.ltb_spec 0 (ep_est p)); [|lia]. rewrite app_nil_r. reflexivity.
Qed.
Lemma data_bytes_nosig : forall p h d6, length d6 = 6%nat -> ep_est p = 0%N -> fs_bytes p h dfs (d6 ++ [VNone]) = dbody (d6 ++ [VNone]).
Proof.
  intros p h d6 L E. rewrite <- (firstn_skipn 6 dfs) at 1. rewrite fs_bytes_app by (rewrite L; reflexivity).
  rewrite (fs_bytes_free (firstn 6 dfs) eq_refl p h (mkEP 0 false) []). unfold dbody. rewrite (firstn_snoc6 d6 L).
  change (skipn 6 dfs) with [(23%N, KSig 1 0)]. cbn [fs_bytes k_bytes fst snd]. rewrite E. cbn. rewrite app_nil_r. reflexivity.
Qed.

Lemma full_hole_len : forall p, nlen (full_hole p) = ep_est p.
Proof. intros. unfold full_hole, nlen. rewrite repeat_length. lia. Qed.

Lemma tl_enc_len_pos : forall x, (0 < nlen (tl_enc x))%N.
Proof. intros x. rewrite tl_len_enc. unfold tl_len. destruct (x <=? 252)%N, (x <=? 65535)%N, (x <=? 4294967295)%N; lia. Qed.

Lemma signed_head : forall S0 c hdr a r B X (sig : buf), S0 ++ [c] = (hdr ++ a) :: r -> concat S0 ++ c = hdr ++ B ->
  exists a' r', S0 ++ [c ++ X; sig] = (hdr ++ a') :: r' /\ a' ++ concat r' = B ++ X ++ sig.
Proof.
  intros S0 c hdr a r B X sig HD CB. destruct S0 as [|x S0]; cbn [app concat] in *.
  - injection HD as -> <-. exists (a ++ X), [sig]. rewrite app_assoc. split; [reflexivity|]. apply app_inv_head in CB. subst. cbn [concat]. rewrite app_nil_r, <- app_assoc. reflexivity.
  - injection HD as -> <-. exists a, (S0 ++ [c ++ X; sig]). split; [reflexivity|]. rewrite <- !app_assoc in CB. apply app_inv_head in CB. subst.
    rewrite concat_app. cbn [concat]. rewrite app_nil_r, <- !app_assoc. reflexivity.
Qed.

Lemma data_signed : forall est d6, length d6 = 6%nat -> fs_shape dfs (d6 ++ [VNone]) -> (0 < est)%N ->
  exists w ys, m_encode (mkEP est false) spec_Packet [VNone; VStruct (d6 ++ [VNone]); VNone] = Ok (w, ys)
    /\ concat (y_cov (nth 0 (y_sub (nth 1 ys YNone)) YNone)) = dbody (d6 ++ [VNone])
    /\ forall sig, fits est (nlen sig) -> (nlen (dbody (d6 ++ [VNone])) + est + 19 < two64)%N ->
       exists w1 w2, put_sig w (y_sig (nth 6 (y_sub (nth 1 ys YNone)) YNone)) sig = Ok w1
         /\ shrink_wire w1 (Z.of_N est - zlen sig) = Ok w2
         /\ concat w2 = fs_bytes (mkEP (nlen sig) false) sig (m_fields spec_Packet) [VNone; VStruct (d6 ++ [VNone]); VNone]
         /\ (tw_full (fs_toks (mkEP est false) true (firstn 6 dfs) (firstn 6 (d6 ++ [VNone]))) -> (0 < nlen sig)%N -> full_wire w2)
         /\ forall n, nth 2 d6 VNone = VName n ->
              exists a r, w2 = ((tl_enc 6 ++ tl_enc (nlen (dbody (d6 ++ [VNone]) ++ tl_enc 23 ++ tl_enc (nlen sig) ++ full_hole (mkEP (nlen sig) false)))) ++ a) :: r /\ a <> [].
Proof.
  intros est d6 L Sh EST. set (p := mkEP est false). set (dvs := d6 ++ [VNone]) in *.
  destruct (encode_ok p spec_Packet [VNone; VStruct dvs; VNone] eq_refl (packet_shape _ Sh) (fun _ => packet_data_len p dvs)) as (w & ys & E & _ & EW & _ & _ & YFm).
  specialize (EW eq_refl). exists w, ys. split; [exact E|].
  assert (LV : length dvs = length dfs) by (unfold dvs; rewrite app_length, L; reflexivity).
  assert (WA : Forall (fun f => wf_kind true (snd f) = true) dfs) by (apply (wf_fields_all true); reflexivity).
  assert (LEN : fs_len p dfs dvs = (nlen (dbody dvs) + nlen (tl_enc 23) + nlen (tl_enc est) + est)%N).
  { rewrite (fs_len_ok _ p true) by auto. unfold dvs. rewrite data_bytes_sig by auto. rewrite !nlen_app, full_hole_len. cbn [ep_est p mkEP]. lia. }
  pose proof (tl_enc_len_pos est) as P1. assert (LP : (0 < fs_len p dfs dvs)%N) by lia.
  pose proof (YFm 1%nat ltac:(cbn; lia)) as Y. 
  change (kind_at (m_fields spec_Packet) 1) with (KStruct (Model true true dfs) true) in Y. change (val_at [VNone; VStruct dvs; VNone] 1) with (VStruct dvs) in Y.
  destruct (yfin_struct_inv _ _ _ _ _ _ _ Y LP LV) as (yd & EY & (LY & MK & CV) & _). rewrite EY. cbn [y_sub].
  set (T0 := fs_toks p true (firstn 6 dfs) (firstn 6 dvs)).
  assert (TK : fs_toks p true dfs dvs = T0 ++ [TB (tl_enc 23 ++ tl_enc est); TW [[]]]).
  { rewrite <- (firstn_skipn 6 dfs) at 1. rewrite <- (firstn_skipn 6 dvs) at 1. rewrite fs_toks_app by (rewrite !firstn_length, LV; auto). fold T0. f_equal.
    unfold dvs. rewrite (skipn_snoc6 d6 L). change (skipn 6 dfs) with [(23%N, KSig 1 0)]. cbn [app Nat.sub skipn fs_toks toks fst snd ep_est p mkEP].
    destruct (N.ltb_spec 0 est); [|lia]. reflexivity. }
  assert (TB0 : tbytes T0 = dbody dvs).
  { unfold T0. rewrite fs_toks_bytes. 2:{ repeat constructor. } apply (fs_bytes_free (firstn 6 dfs) eq_refl). }
  split.
  - rewrite (CV 0%nat eq_refl). unfold cov_upto. cbn [length dfs m_fields spec_Data seq map concat]. unfold contrib, kind_at. cbn [nth map dfs m_fields spec_Data snd].
    destruct (N.ltb_spec 0 (ep_est p)); [|cbn in *; lia]. cbn [andb Nat.eqb app]. rewrite app_nil_r.
    unfold dbody. change (firstn 6 [(0%N, KArg); (0%N, KOffset); (7%N, KName); (20%N, KStruct spec_MetaInfo false); (21%N, KWire); (22%N, KStruct spec_SignatureInfo false); (23%N, KSig 1 0)]) with (firstn 6 dfs).
    rewrite (fs_bytes_free (skipn 1 (firstn 6 dfs)) eq_refl p [] (mkEP 0 false) []).
    destruct (firstn 6 dvs) as [|v0 d5] eqn:E6; [apply (f_equal (@length value)) in E6; rewrite firstn_length, LV in E6; discriminate|].
    change (firstn 6 dfs) with ((0%N, KArg) :: skipn 1 (firstn 6 dfs)). cbn [fs_bytes skipn k_bytes fst snd]. reflexivity.
  - intros sig FT BD. 
    pose proof (MK 6%nat ltac:(cbn; lia)) as M6. unfold mark_ok in M6. change (kind_at dfs 6) with (KSig 1 0) in M6. specialize (M6 ltac:(cbn; lia)).
    unfold toks_before in M6. fold T0 in M6. rewrite M6. cbn [y_sig].
    destruct (signed_wire p 6 23 T0 (fs_len p dfs dvs) ) as (S0 & c & ES & EW' & LS & CB & a & r & HD).
    assert (WE : w = S0 ++ [c ++ tl_enc 23 ++ tl_enc est; []]).
    { rewrite EW, packet_data_toks. change spec_Data with (Model true true dfs). rewrite toks_struct. destruct (N.ltb_spec 0 (fs_len p dfs dvs)); [|lia].
      rewrite TK. rewrite strip_tb, strip_snoc by discriminate. change (strip [TB (tl_enc 23 ++ tl_enc est); TW [[]]]) with [TB (tl_enc 23 ++ tl_enc est); TW [[]]].
      rewrite strip_snoc by discriminate. exact EW'. }
    rewrite WE, <- LS, put_sig_ok by auto. eexists. 
    destruct FT as [[F1 F2] F3].
    assert (TL : nlen (tl_enc est) = nlen (tl_enc (nlen sig))).
    { destruct (fix_length est (nlen sig) (conj (conj F1 F2) F3)) as (b & x & X1 & X2). rewrite X1, X2, !nlen_app. reflexivity. }
    assert (T23 : nlen (tl_enc 23) = 1%N) by reflexivity.
    assert (TE : (nlen (tl_enc est) <= 9)%N). { rewrite tl_len_enc. unfold tl_len. destruct (est <=? 252)%N, (est <=? 65535)%N, (est <=? 4294967295)%N; lia. }
    destruct (signed_head S0 c _ a r _ (tl_enc 23 ++ tl_enc (nlen sig)) sig HD CB) as (a' & r' & HW1 & HW2).
    exists (((tl_enc 6 ++ tl_enc (fs_len p dfs dvs - Z.to_N (Z.of_N est - zlen sig))) ++ a') :: r'). split; [reflexivity|].
    assert (ZS : zlen sig = Z.of_N (nlen sig)) by (unfold zlen, nlen; lia).
    split; [rewrite HW1; apply shrink_wire_ok; [reflexivity|unfold u64_ok; lia|lia]|].
    assert (EN : (fs_len p dfs dvs - Z.to_N (Z.of_N est - zlen sig))%N = nlen (dbody dvs ++ tl_enc 23 ++ tl_enc (nlen sig) ++ full_hole (mkEP (nlen sig) false))).
    { rewrite LEN, ZS, !nlen_app. assert (LF : nlen (full_hole (mkEP (nlen sig) false)) = nlen sig) by apply full_hole_len. lia. }
    rewrite EN. split; [|split].
    + cbn [concat]. rewrite <- !app_assoc, HW2, TB0, packet_data_bytes, <- !app_assoc. unfold dvs at 3 4. rewrite !data_bytes_sig by (auto; cbn; lia). cbn [ep_est mkEP]. fold dvs. reflexivity.
    + intros FT PS. fold p dvs in FT. fold T0 in FT.
      assert (FS : full_wire (S0 ++ [c ++ tl_enc 23 ++ tl_enc (nlen sig); sig])).
      { apply Forall_app. split.
        - pose proof (tsplit_full T0 [] (tl_enc 6 ++ tl_enc (fs_len p dfs dvs)) true (good_weaken _ (fs_toks_good _ _ _ _) true) FT ltac:(intros _; apply tl_app_nonnil) ltac:(constructor)) as X.
          rewrite ES in X. exact X.
        - constructor; [|constructor; [destruct sig; [discriminate PS|discriminate]|constructor]]. intros E0. apply app_eq_nil in E0. destruct E0 as [_ E0]. revert E0. apply tl_app_nonnil. }
      rewrite HW1 in FS. inversion FS; subst. constructor; [|assumption]. rewrite <- !app_assoc. apply tl_app_nonnil.
    + intros n En. exists a', r'. split; [reflexivity|].
      assert (EL : exists x ts, T0 = TB x :: ts /\ x <> []).
      { unfold T0. unfold dvs. destruct d6 as [|v0 [|v1 [|v2 d]]]; try discriminate L. cbn [nth] in En. subst v2. cbn [firstn app dfs m_fields spec_Data fs_toks fst snd toks k_bytes leaf_tok].
        eexists _, _. split; [reflexivity|]. apply tl_app_nonnil. }
      destruct EL as (x & ts & EL & NX). rewrite EL in ES. cbn [tsplit fold_left tstep fst snd] in ES. fold (tsplit ([], (tl_enc 6 ++ tl_enc (fs_len p dfs dvs)) ++ x) ts) in ES.
      destruct (head_wire ts ((tl_enc 6 ++ tl_enc (fs_len p dfs dvs)) ++ x)) as (a2 & r2 & X). rewrite ES in X.
      intros ->. rewrite app_nil_r in HW1. destruct r2 as [|y r2]; injection X as -> ->; cbn [app] in HW1; injection HW1 as HW1 _; rewrite <- !app_assoc in HW1.
      * apply (f_equal (@length N)) in HW1. rewrite !app_length in HW1. destruct x; [congruence|]. cbn [length] in HW1. lia.
      * apply (f_equal (@length N)) in HW1. rewrite !app_length in HW1. destruct x; [congruence|]. cbn [length] in HW1. lia.
Qed.

(** ** The bytes *)
Ltac f2 := unfold fs_shape, fs_typed; repeat (apply Forall2_cons; [|]); try apply Forall2_nil.
Definition info_value (sc : sig_config) : value :=
  VStruct [VNat (to_u64 (sc_type sc)); match sc_key sc with Some k => VStruct [VName k; VNone] | None => VNone end; VNone; VNone; VNone;
           match validity sc with Some ab => VStruct [VBytes (fst ab); VBytes (snd ab)] | None => VNone end; VNone].
Definition oinfo_value (o : option sig_config) : value := match o with Some sc => info_value sc | None => VNone end.

Lemma data_sig_info_ok : forall sc, data_sig_ok sc -> data_sig_info sc = Ok (info_value sc).
Proof.
  intros sc (_ & _ & E1 & E2 & E3 & [V1 V2]). unfold data_sig_info, info_value, validity. rewrite E1, E2, E3.
  destruct (sc_not_before sc), (sc_not_after sc); cbn [bind]; try reflexivity; [specialize (V2 eq_refl)|specialize (V1 eq_refl)]; discriminate.
Qed.

Definition data_vals (n : name) (c : data_config) (content : option wire) (osc : option sig_config) : list value :=
  [ VNone; VNone; VName n; VStruct [v_nat (dc_type c); v_time (dc_fresh c); v_bytes (option_map comp_enc (dc_final c))]; v_wire content; oinfo_value osc ].

Lemma to_u64_small : forall z, (0 <= z < 18446744073709551616)%Z -> to_u64 z = Z.to_N z.
Proof. intros z H. unfold to_u64, Ztwo64. rewrite Z.mod_small by lia. reflexivity. Qed.
Lemma ms_of_ok : forall t, time_ok t -> ms_of t = Z.to_N (t / 1000000).
Proof.
  intros t H. unfold time_ok in H. unfold ms_of. rewrite Z.quot_div_nonneg by lia. apply to_u64_small.
  pose proof (Z.div_pos t 1000000 ltac:(lia) ltac:(lia)). pose proof (Z.div_le_upper_bound t 1000000 t ltac:(lia) ltac:(lia)). lia.
Qed.

Lemma struct_bytes : forall p h t nc o fs b vs, forallb (fun f => free_kind (snd f)) fs = true ->
  k_bytes p h t (KStruct (Model nc o fs) b) (VStruct vs) = tlv t (fs_bytes p h fs vs).
Proof. intros. rewrite k_bytes_struct, (fs_bytes_free fs H p (full_hole p) p h). reflexivity. Qed.

Lemma v_nat_bytes : forall p h t b o, k_bytes p h t (KNat b) (v_nat o) = opt_tlv t (option_map nat_enc o).
Proof. intros. destruct o; reflexivity. Qed.
Lemma v_time_bytes : forall p h t b o, all_of time_ok o -> k_bytes p h t (KTime b) (v_time o) = opt_tlv t (option_map ms_enc o).
Proof. intros p h t b [x|] H; [|reflexivity]. cbn. rewrite ms_of_ok by auto. reflexivity. Qed.
Lemma v_bytes_bytes : forall p h t o, k_bytes p h t KBin (v_bytes o) = opt_tlv t o.
Proof. intros. destruct o; reflexivity. Qed.
Lemma v_wire_bytes : forall p h t o, k_bytes p h t KWire (v_wire o) = opt_tlv t (option_map (@concat N) o).
Proof. intros. destruct o; reflexivity. Qed.

Lemma info_bytes : forall p h sc, (0 <= sc_type sc < 9223372036854775808)%Z ->
  k_bytes p h 22 (KStruct spec_SignatureInfo false) (info_value sc) = tlv 22 (sig_info_part (sc_type sc) (sc_key sc) None None None (validity sc)).
Proof.
  intros p h sc H. unfold info_value, spec_SignatureInfo. rewrite struct_bytes by reflexivity. f_equal. unfold sig_info_part.
  cbn [fs_bytes fst snd]. rewrite to_u64_small by lia. cbn [option_map opt_tlv app].
  destruct (sc_key sc) as [k|], (validity sc) as [[a b]|]; cbn [option_map opt_tlv app fst snd]; unfold spec_KeyLocator, spec_ValidityPeriod; rewrite ?struct_bytes by reflexivity; cbn [fs_bytes fst snd k_bytes app]; rewrite ?app_nil_r; reflexivity.
Qed.

Lemma dbody_eq : forall n c content osc, data_config_ok c -> all_of data_sig_ok osc ->
  dbody (data_vals n c content osc ++ [VNone]) = data_part n c content osc.
Proof.
  intros n c content osc (C1 & C2 & C3) HS. unfold dbody. rewrite firstn_snoc6 by reflexivity. change (firstn 6 dfs) with [(0%N, KArg); (0%N, KOffset); (7%N, KName); (20%N, KStruct spec_MetaInfo false); (21%N, KWire); (22%N, KStruct spec_SignatureInfo false)].
  unfold data_vals, data_part, spec_MetaInfo. cbn [fs_bytes fst snd]. rewrite struct_bytes by reflexivity. cbn [fs_bytes fst snd].
  rewrite v_nat_bytes, v_time_bytes, v_bytes_bytes, v_wire_bytes by auto. rewrite !app_nil_r. cbn [k_bytes app]. do 4 f_equal.
  destruct osc as [sc|]; [|reflexivity]. apply info_bytes. apply HS.
Qed.

Lemma data_shape : forall n c content osc, fs_shape dfs (data_vals n c content osc ++ [VNone]).
Proof.
  intros n c content osc. unfold data_vals, dfs. cbn [app]. f2; cbn [snd]; try exact I.
  - unfold spec_MetaInfo. apply shape_struct. f2; cbn [snd]; [destruct (dc_type c)|destruct (dc_fresh c)|destruct (dc_final c)]; cbn; auto.
  - destruct content; exact I.
  - destruct osc as [sc|]; [|exact I]. cbn [oinfo_value]. unfold info_value, spec_SignatureInfo. apply shape_struct.
    f2; cbn [snd]; try (exact I || reflexivity); [destruct (sc_key sc)|destruct (validity sc)]; try exact I; unfold spec_KeyLocator, spec_ValidityPeriod; apply shape_struct; f2; exact I.
Qed.

Lemma data_typed : forall n c content osc, name_typed n -> data_config_ok c -> all_of data_sig_ok osc -> fs_typed dfs (data_vals n c content osc ++ [VNone]).
Proof.
  intros n c content osc Hn (C1 & C2 & C3) HS. unfold data_vals, dfs. cbn [app]. f2; cbn [snd]; try exact I; auto.
  - apply (typed_struct_back false false). f2; cbn [snd]; [destruct (dc_type c)|destruct (dc_fresh c)|destruct (dc_final c)]; cbn in *; auto.
  - destruct osc as [sc|]; [|exact I]. cbn [oinfo_value]. unfold info_value. apply (typed_struct_back false false). destruct HS as (T & K & _).
    f2; cbn [snd]; try (exact I || reflexivity).
    + cbn. rewrite to_u64_small by lia. unfold two64. lia.
    + destruct (sc_key sc); [|exact I]. apply (typed_struct_back false false). f2; [exact K|exact I].
    + destruct (validity sc); [|exact I]. apply (typed_struct_back false false). f2; exact I.
Qed.

(** ** Sizes *)
Lemma tlv_le : forall t b, (nlen (tlv t b) <= 18 + nlen b)%N.
Proof.
  intros. unfold tlv. rewrite !nlen_app, !tl_len_enc.
  assert (H : forall x, (tl_len x <= 9)%N) by (intros x; unfold tl_len; destruct (x <=? 252)%N, (x <=? 65535)%N, (x <=? 4294967295)%N; lia).
  pose proof (H t). pose proof (H (nlen b)). lia.
Qed.
Lemma opt_tlv_le : forall t o, (nlen (opt_tlv t o) <= 18 + olen (@nlen N) o)%N.
Proof. intros t [b|]; cbn [opt_tlv olen]; [apply tlv_le|cbn; lia]. Qed.
Lemma nat_enc_le : forall n, (nlen (nat_enc n) <= 8)%N.
Proof. intros. rewrite nat_len_enc. unfold nat_len. destruct (n <=? 255)%N, (n <=? 65535)%N, (n <=? 4294967295)%N; lia. Qed.
Lemma onat_le : forall {A} (f : A -> N) o, (olen (@nlen N) (option_map (fun x => nat_enc (f x)) o) <= 8)%N.
Proof. intros A f [x|]; cbn; [apply nat_enc_le|lia]. Qed.
Lemma olen_map : forall {A} (f : A -> buf) o, olen (@nlen N) (option_map f o) = olen (fun x => nlen (f x)) o.
Proof. intros A f [x|]; reflexivity. Qed.

Lemma sig_info_part_le : forall sc t k no ti se, (nlen (sig_info_part t k no ti se (validity sc)) <= 300 + olen (fun k => nlen (name_enc k)) k + olen (@nlen N) no
   + olen (@nlen N) (sc_not_before sc) + olen (@nlen N) (sc_not_after sc))%N.
Proof.
  intros. unfold sig_info_part. rewrite !nlen_app.
  pose proof (tlv_le 27 (nat_enc (Z.to_N t))). pose proof (nat_enc_le (Z.to_N t)).
  pose proof (opt_tlv_le 28 (option_map (fun k => tlv 7 (name_enc k)) k)). pose proof (opt_tlv_le 38 no).
  pose proof (opt_tlv_le 40 (option_map (fun ms => nat_enc (Z.to_N ms)) ti)). pose proof (onat_le Z.to_N ti).
  pose proof (opt_tlv_le 42 (option_map nat_enc se)). pose proof (onat_le (fun x => x) se : (olen (@nlen N) (option_map nat_enc se) <= 8)%N).
  pose proof (opt_tlv_le 253 (option_map (fun ab => tlv 254 (fst ab) ++ tlv 255 (snd ab)) (validity sc))).
  assert (olen (@nlen N) (option_map (fun k => tlv 7 (name_enc k)) k) <= 18 + olen (fun k => nlen (name_enc k)) k)%N by (destruct k as [k|]; cbn [option_map olen]; [apply tlv_le|lia]).
  assert (olen (@nlen N) (option_map (fun ab => tlv 254 (fst ab) ++ tlv 255 (snd ab)) (validity sc)) <= 36 + olen (@nlen N) (sc_not_before sc) + olen (@nlen N) (sc_not_after sc))%N.
  { unfold validity. destruct (sc_not_before sc) as [a|], (sc_not_after sc) as [b|]; cbn [option_map olen fst snd]; try lia.
    rewrite nlen_app. pose proof (tlv_le 254 a). pose proof (tlv_le 255 b). lia. }
  lia.
Qed.

Lemma data_part_le : forall n c content osc, (nlen (data_part n c content osc) <= 600 + data_size n c content + olen sig_size osc)%N.
Proof.
  intros. unfold data_part, data_size. rewrite !nlen_app.
  pose proof (tlv_le 7 (name_enc n)).
  match goal with |- context [tlv 20 ?x] => pose proof (tlv_le 20 x) as H1; rewrite !nlen_app in H1 end.
  pose proof (opt_tlv_le 24 (option_map nat_enc (dc_type c))). pose proof (onat_le (fun x => x) (dc_type c) : (olen (@nlen N) (option_map nat_enc (dc_type c)) <= 8)%N).
  pose proof (opt_tlv_le 25 (option_map ms_enc (dc_fresh c))). pose proof (onat_le (fun t => Z.to_N (t / 1000000)) (dc_fresh c) : (olen (@nlen N) (option_map ms_enc (dc_fresh c)) <= 8)%N).
  pose proof (opt_tlv_le 26 (option_map comp_enc (dc_final c))) as H6. rewrite olen_map in H6.
  pose proof (opt_tlv_le 21 (option_map (@concat N) content)) as H7. rewrite olen_map in H7.
  match goal with |- context [opt_tlv 22 ?x] => pose proof (opt_tlv_le 22 x) as H8 end. rewrite olen_map in H8.
  assert (H9 : (olen (fun sc => nlen (sig_info_part (sc_type sc) (sc_key sc) None None None (validity sc))) osc <= 300 + olen sig_size osc)%N).
  { destruct osc as [sc|]; cbn [olen]; [|lia]. unfold sig_size. pose proof (sig_info_part_le sc (sc_type sc) (sc_key sc) None None None). cbn [olen] in *. lia. }
  cbv beta in *. lia.
Qed.

(** ** MakeData *)
Lemma to_int_small : forall x, (x < 9223372036854775808)%N -> to_int x = Z.of_N x.
Proof. intros x H. unfold to_int, two63. destruct (N.ltb_spec x 9223372036854775808); [reflexivity|lia]. Qed.
Lemma to_u64_of_N : forall x, (x < 9223372036854775808)%N -> to_u64 (Z.of_N x) = x.
Proof. intros. rewrite to_u64_small by lia. apply N2Z.id. Qed.

Lemma data_values_eq : forall n c content osc, data_values n c (option_map comp_enc (dc_final c)) content (oinfo_value osc) = data_vals n c content osc ++ [VNone].
Proof. reflexivity. Qed.
Lemma final_ok : forall c, (match dc_final c with Some fc => do b <- comp_bytes fc; Ok (Some b) | None => Ok None end) = Ok (option_map comp_enc (dc_final c)).
Proof. intros c. destruct (dc_final c); [rewrite comp_bytes_ok|]; reflexivity. Qed.

Lemma data_packet_eq : forall n c content osc sig, data_config_ok c -> all_of data_sig_ok osc -> (0 < nlen sig)%N ->
  fs_bytes (mkEP (nlen sig) false) sig (m_fields spec_Packet) [VNone; VStruct (data_vals n c content osc ++ [VNone]); VNone] = data_packet n c content osc (Some sig).
Proof.
  intros n c content osc sig H1 H2 H3. rewrite packet_data_bytes. rewrite !data_bytes_sig by (auto; reflexivity). rewrite dbody_eq by auto. unfold data_packet, opt_tlv, tlv at 1. cbn [ep_est mkEP].
  assert (EL : nlen (data_part n c content osc ++ tl_enc 23 ++ tl_enc (nlen sig) ++ full_hole (mkEP (nlen sig) false)) = nlen (data_part n c content osc ++ tlv 23 sig)).
  { unfold tlv. rewrite !nlen_app, full_hole_len. reflexivity. }
  rewrite EL. reflexivity.
Qed.
Lemma data_packet_eq0 : forall n c content osc p h, data_config_ok c -> all_of data_sig_ok osc -> ep_est p = 0%N ->
  fs_bytes p h (m_fields spec_Packet) [VNone; VStruct (data_vals n c content osc ++ [VNone]); VNone] = data_packet n c content osc None.
Proof.
  intros n c content osc p h H1 H2 H3. rewrite packet_data_bytes. rewrite !data_bytes_nosig by (auto; reflexivity). rewrite dbody_eq by auto. unfold data_packet, opt_tlv, tlv. rewrite app_nil_r. reflexivity.
Qed.

(** the first buffer goes beyond the header of the packet; no buffer is empty if the content has none *)
Definition packed (n : name) (c : data_config) (content : option wire) (osc : option sig_config) (osig : option buf) (w : wire) : Prop :=
  (exists a r, w = ((tl_enc 6 ++ tl_enc (nlen (data_part n c content osc ++ opt_tlv 23 osig))) ++ a) :: r /\ a <> [])
  /\ (full_content content -> full_wire w).
Lemma data_tw_full : forall p n c content osc, full_content content -> tw_full (fs_toks p true (firstn 6 dfs) (firstn 6 (data_vals n c content osc ++ [VNone]))).
Proof.
  intros p n c content osc H. cbn [firstn app dfs m_fields spec_Data data_vals fs_toks fst snd].
  assert (LT : forall b, tw_full (leaf_tok b)) by (intros [|x b]; repeat constructor).
  repeat apply tw_full_app; try (apply LT); try (constructor; fail).
  - destruct content as [w|]; [|apply LT]. cbn [v_wire toks]. constructor; [exact I|]. constructor; [exact H|constructor].
  - destruct osc as [sc|]; apply LT.
Qed.

Lemma make_data_signed : forall n c content s sc, data_config_ok c -> data_sig_ok sc -> sg_info s = Ok (Some sc) ->
  (0 < sg_est s)%N -> (data_size n c content + sig_size sc + sg_est s < packet_limit)%N ->
  exists cov, concat cov = data_part n c content (Some sc)
    /\ (forall e, sg_sign s cov = Err e -> make_data (Some n) (Some c) content (Some s) = Err e)
    /\ (forall sig, sg_sign s cov = Ok sig -> (sg_est s < nlen sig)%N -> make_data (Some n) (Some c) content (Some s) = Err EOther)
    /\ (forall sig, sg_sign s cov = Ok sig -> fits (sg_est s) (nlen sig) ->
        exists w, make_data (Some n) (Some c) content (Some s) = Ok (w, Some cov) /\ concat w = data_packet n c content (Some sc) (Some sig) /\ packed n c content (Some sc) (Some sig) w).
Proof.
  intros n c content s sc CO SO SI EP SZ. unfold packet_limit in SZ.
  destruct (data_signed (sg_est s) (data_vals n c content (Some sc)) eq_refl (data_shape n c content (Some sc)) EP) as (w & ys & E & CV & PS).
  rewrite dbody_eq in CV, PS by auto. exists (y_cov (nth 0 (y_sub (nth 1 ys YNone)) YNone)). split; [exact CV|].
  unfold make_data. rewrite final_ok. cbn [bind sig_part]. rewrite SI. cbn [bind]. destruct (Z.eqb_spec (sc_type sc) SigNone) as [X|_]; [destruct SO as [SO _]; unfold SigNone in X; lia|].
  rewrite data_sig_info_ok by auto. cbn [bind]. rewrite to_int_small by lia. rewrite to_u64_of_N by lia. change (info_value sc) with (oinfo_value (Some sc)). rewrite data_values_eq, E. cbn [bind].
  destruct (Z.ltb_spec 0 (Z.of_N (sg_est s))); [|lia].
  assert (ZS : forall b : buf, zlen b = Z.of_N (nlen b)) by (intros; unfold zlen, nlen; lia).
  split; [|split].
  - intros e ->. reflexivity.
  - intros sig -> L. cbn [bind]. rewrite ZS. destruct (Z.ltb_spec (Z.of_N (sg_est s)) (Z.of_N (nlen sig))); [reflexivity|lia].
  - intros sig -> FT. cbn [bind]. pose proof (data_part_le n c content (Some sc)) as LE. cbn [olen] in LE.
    destruct (PS sig FT ltac:(unfold two64; lia)) as (w1 & w2 & E1 & E2 & E3 & E4 & E5). destruct FT as [[F1 F2] _].
    destruct (Z.ltb_spec (Z.of_N (sg_est s)) (zlen sig)); [rewrite ZS in *; lia|]. rewrite E1. cbn [bind]. rewrite E2. cbn [bind]. exists w2. split; [reflexivity|].
    split; [rewrite E3; apply data_packet_eq; auto|]. split.
    + destruct (E5 n eq_refl) as (a & r & E6 & NA). exists a, r. split; [|exact NA]. rewrite E6. cbn [opt_tlv].
      match goal with |- ((_ ++ tl_enc ?x) ++ _) :: _ = ((_ ++ tl_enc ?y) ++ _) :: _ => replace x with y; [reflexivity|] end.
      unfold tlv. rewrite !nlen_app, full_hole_len. reflexivity.
    + intros FC. apply E4; [apply data_tw_full; exact FC|lia].
Qed.

Lemma encode_unsigned : forall n c content osc, data_config_ok c -> all_of data_sig_ok osc ->
  exists w ys, m_encode (mkEP 0 false) spec_Packet [VNone; VStruct (data_vals n c content osc ++ [VNone]); VNone] = Ok (w, ys) /\ concat w = data_packet n c content osc None
    /\ packed n c content osc None w.
Proof.
  intros n c content osc CO SO.
  destruct (encode_ok (mkEP 0 false) spec_Packet _ eq_refl (packet_shape _ (data_shape n c content osc)) (fun _ => packet_data_len _ _)) as (w & ys & E & C & EW & _).
  specialize (EW eq_refl). exists w, ys. split; [exact E|]. split; [rewrite C; apply data_packet_eq0; auto|].
  set (p := mkEP 0 false) in *. set (dvs := data_vals n c content osc ++ [VNone]) in *.
  assert (WA : Forall (fun f => wf_kind true (snd f) = true) dfs) by (apply (wf_fields_all true); reflexivity).
  assert (LEN : fs_len p dfs dvs = nlen (data_part n c content osc ++ opt_tlv 23 None)).
  { rewrite (fs_len_ok _ p true) by (auto; apply data_shape). unfold dvs. rewrite data_bytes_nosig by reflexivity. rewrite dbody_eq by auto. cbn [opt_tlv]. rewrite app_nil_r. reflexivity. }
  assert (TK : fs_toks p true dfs dvs = fs_toks p true (firstn 6 dfs) (firstn 6 dvs)) by (cbn [firstn app dfs dvs data_vals m_fields spec_Data fs_toks fst snd toks]; rewrite !app_nil_r; reflexivity).
  assert (EL : exists x ts, strip (fs_toks p true dfs dvs) = TB x :: ts /\ x <> []).
  { cbn [firstn app dfs dvs data_vals m_fields spec_Data fs_toks fst snd toks k_bytes leaf_tok]. 
    eexists _, _. split; [apply strip_tb|]. apply tl_app_nonnil. }
  rewrite packet_data_toks in EW. change spec_Data with (Model true true dfs) in EW. rewrite toks_struct in EW. rewrite LEN in EW.
  destruct EL as (x & ts & EL & NX).
  destruct (N.ltb_spec 0 (nlen (data_part n c content osc ++ opt_tlv 23 None))) as [LP|LP].
  2:{ exfalso. assert (0 < nlen (data_part n c content osc ++ opt_tlv 23 None))%N; [|lia]. unfold data_part. rewrite !nlen_app. pose proof (tl_enc_len_pos 7). unfold tlv at 1. rewrite !nlen_app. lia. }
  rewrite strip_tb in EW. rewrite (strip_strip _ false) in EW by (apply fs_toks_good). split.
  - rewrite EL in EW. unfold tsplit in EW. cbn [fold_left tstep fst snd app] in EW. fold (tsplit ([], (tl_enc 6 ++ tl_enc (nlen (data_part n c content osc ++ opt_tlv 23 None))) ++ x) ts) in EW.
    destruct (head_wire ts ((tl_enc 6 ++ tl_enc (nlen (data_part n c content osc ++ opt_tlv 23 None))) ++ x)) as (a2 & r2 & X). rewrite X in EW. unfold fin_wire in EW. cbn [fst snd] in EW.
    destruct r2 as [|y r2]; cbn [app] in EW.
    + destruct (((tl_enc 6 ++ tl_enc (nlen (data_part n c content osc ++ opt_tlv 23 None))) ++ x) ++ a2) eqn:EQ; [exfalso; apply app_eq_nil in EQ; destruct EQ as [EQ _]; apply app_eq_nil in EQ; tauto|].
      cbn [app] in EW. rewrite app_nil_r, <- EQ in EW. exists (x ++ a2), []. split; [rewrite EW, <- !app_assoc; reflexivity|]. intros E0. apply app_eq_nil in E0. tauto.
    + exists (x ++ a2). eexists. split; [rewrite EW, <- !app_assoc; reflexivity|]. intros E0. apply app_eq_nil in E0. tauto.
  - intros FC. rewrite EW. apply fin_full. apply (tsplit_full _ [] [] false); [|constructor; [exact I|]|discriminate|constructor].
    + cbn [good]. split; [apply tl_app_nonnil|]. apply good_weaken, good_strip, fs_toks_good.
    + rewrite TK. pose proof (data_tw_full p n c content osc FC) as TW. fold dvs in TW. destruct (strip_cases (fs_toks p true (firstn 6 dfs) (firstn 6 dvs))) as [(t0 & E0 & ->)|(-> & _)]; [|exact TW].
      rewrite E0 in TW. apply Forall_app in TW. tauto.
Qed.

Lemma make_data_unsigned : forall n c content sg osc, data_config_ok c -> unsigned sg osc ->
  exists w, make_data (Some n) (Some c) content sg = Ok (w, None) /\ concat w = data_packet n c content osc None /\ packed n c content osc None w.
Proof.
  intros n c content sg osc CO U.
  assert (H : sig_part data_sig_info sg = Ok (oinfo_value osc, 0%Z) /\ all_of data_sig_ok osc).
  { destruct sg as [s|]; cbn [unsigned sig_part] in *; [|subst; split; [reflexivity|exact I]].
    destruct U as [(E & ->)|[(sc & E & E1 & ->)|(sc & E & E1 & E2 & ->)]]; rewrite E; cbn [bind].
    - split; [reflexivity|exact I].
    - rewrite E1, Z.eqb_refl. split; [reflexivity|exact I].
    - destruct (Z.eqb_spec (sc_type sc) SigNone) as [X|_]; [destruct E1 as [E1 _]; unfold SigNone in X; lia|]. rewrite data_sig_info_ok, E2 by auto. split; [reflexivity|exact E1]. }
  destruct H as [H SO]. destruct (encode_unsigned n c content osc CO SO) as (w & ys & E & C & PK). exists w. split; [|split; [exact C|exact PK]].
  unfold make_data. rewrite final_ok. cbn [bind]. rewrite H. cbn [bind]. rewrite data_values_eq. change (to_u64 0) with 0%N. rewrite E. cbn [bind]. destruct sg; reflexivity.
Qed.

(** ** ReadData *)
(** a wire reader must hold the header of the packet, and the byte after it, in its first buffer *)
Definition data_reader (n : name) (c : data_config) (content : option wire) (osc : option sig_config) (osig : option buf) (r : reader) : Prop :=
  is_buf_reader r \/ full_names n osc
    /\ in_first (zlen (tl_enc 6) + zlen (tl_enc (nlen (data_part n c content osc ++ opt_tlv 23 osig))) + 1) r [].

Lemma first_none : forall p h room t m b, first_safe p h room t (KStruct m b) VNone.
Proof. intros p h room t [nc o fs] b. apply first_wire. exact I. Qed.
Lemma data_first : forall n c content osc osig, data_config_ok c -> all_of data_sig_ok osc -> all_of (fun s => (0 < nlen s)%N) osig ->
  full_names n osc ->
  let sig := match osig with Some s => s | None => [] end in
  fs_first (mkEP (nlen sig) false) sig (zlen (tl_enc 6) + zlen (tl_enc (nlen (data_part n c content osc ++ opt_tlv 23 osig))) + 1)
    (m_fields spec_Packet) [VNone; VStruct (data_vals n c content osc ++ [VNone]); VNone].
Proof.
  intros n c content osc osig CO SO OS [FN FK] sig.
  assert (NL : nlen (fs_bytes (mkEP (nlen sig) false) sig dfs (data_vals n c content osc ++ [VNone])) = nlen (data_part n c content osc ++ opt_tlv 23 osig)).
  { unfold sig. destruct osig as [s|]; cbn [opt_tlv].
    - rewrite data_bytes_sig by (auto; reflexivity). rewrite dbody_eq by auto. unfold tlv. reflexivity.
    - rewrite data_bytes_nosig by reflexivity. rewrite dbody_eq, app_nil_r by auto. reflexivity. }
  intros j Hj. cbn [m_fields spec_Packet length] in Hj. destruct j as [|[|[|j]]]; [right; apply first_none| |right; apply first_none|lia].
  right. apply first_struct. intros j Hj' before room'. cbn [length] in Hj'.
  assert (R1 : room' = 1%Z).
  { unfold room'. match goal with |- (_ - zlen (tl_enc (nlen ?x)))%Z = _ => change x with (fs_bytes (mkEP (nlen sig) false) sig dfs (data_vals n c content osc ++ [VNone])) end.
    rewrite NL. match goal with |- (_ - zlen ?x - _ - _)%Z = _ => change x with (@nil N) end. cbn [nth map m_fields spec_Packet fst]. rewrite zlen_nil. lia. }
  destruct j as [|[|[|[|[|[|[|j]]]]]]]; [..|lia].
  - right. apply first_arg.
  - right. apply first_offset.
  - right. apply first_wire. exact FN.
  - right. apply first_wire. cbn. destruct (dc_type c), (dc_fresh c), (dc_final c); cbn; auto.
  - right. apply first_wire. destruct content; exact I.
  - right. apply first_wire. destruct osc as [sc|]; [|exact I]. cbn in FK |- *. destruct (sc_key sc), (validity sc); cbn in FK |- *; repeat split; auto; discriminate.
  - left. exists 1%nat, 0%nat. split; [reflexivity|]. rewrite R1. reflexivity.
Qed.

Lemma read_data_at : forall n c content osc osig F r, name_typed n -> data_config_ok c -> all_of data_sig_ok osc -> all_of (fun s => (0 < nlen s)%N) osig ->
  (data_size n c content + olen sig_size osc + olen (@nlen N) osig < packet_limit)%N -> (length (data_packet n c content osc osig) < F)%nat ->
  At r [] (data_packet n c content osc osig) -> data_reader n c content osc osig r ->
  exists d cov, read_data F r = Ok (d, cov)
    /\ data_reads n c content osc osig d /\ concat cov = match osig with Some _ => data_part n c content osc | None => [] end.
Proof.
  intros n c content osc osig F r Hn CO SO OS SZ FU AT RD. unfold packet_limit in SZ.
  set (sig := match osig with Some s => s | None => [] end). set (p := mkEP (nlen sig) false).
  assert (EB : fs_bytes p sig (m_fields spec_Packet) [VNone; VStruct (data_vals n c content osc ++ [VNone]); VNone] = data_packet n c content osc osig).
  { destruct osig as [s|]; [apply data_packet_eq; auto|apply data_packet_eq0; auto]. }
  pose proof (data_part_le n c content osc) as LE.
  assert (LP : (nlen (data_packet n c content osc osig) < 8796093022208)%N).
  { unfold data_packet. pose proof (tlv_le 6 (data_part n c content osc ++ opt_tlv 23 osig)) as X. rewrite nlen_app in X. pose proof (opt_tlv_le 23 osig). lia. }
  assert (ZS : zlen (data_packet n c content osc osig) = Z.of_N (nlen (data_packet n c content osc osig))) by (unfold zlen, nlen; lia).
  destruct (parse_ok_first p sig eq_refl spec_Packet false _ F r [] eq_refl eq_refl
     (packet_shape _ (data_shape n c content osc)) (packet_typed _ (data_typed n c content osc Hn CO SO))) as (vals & cx & E & SM & LC & _ & CF).
  - rewrite EB. exact AT.
  - destruct RD as [RD|(FN & FI)]; [left; exact RD|right]. eexists. split; [|exact FI]. apply data_first; auto.
  - rewrite EB, ZS. unfold size_limit. lia.
  - rewrite EB. exact FU.
  - unfold read_data. rewrite E. cbn [bind].
    pose proof (same_nth _ _ 1 SM) as S1. cbn [fs_back m_fields spec_Packet nth fst snd] in S1.
    change (back p sig (KStruct spec_Data true) (VStruct (data_vals n c content osc ++ [VNone]))) with
      (VStruct [VNone; VNone; VName n; back p sig (KStruct spec_MetaInfo false) (VStruct [v_nat (dc_type c); v_time (dc_fresh c); v_bytes (option_map comp_enc (dc_final c))]);
                v_wire content; back p sig (KStruct spec_SignatureInfo false) (oinfo_value osc); back p sig (KSig 1 0) VNone]) in S1.
    destruct (same_struct_inv _ _ S1) as (d & -> & SD). clear S1.
    pose proof (same_nth _ _ 2 SD) as S2. cbn [nth] in S2. rewrite (same_name_inv _ _ S2).
    specialize (CF 1%nat ltac:(cbn; lia)). change (kind_at (m_fields spec_Packet) 1) with (KStruct (Model true true dfs) true) in CF. cbn [nth] in CF.
    destruct (cx_fin_struct_inv p sig true true dfs true (data_vals n c content osc ++ [VNone]) _ eq_refl CF) as (cd & EC & CV & _). rewrite EC. cbn [x_sub].
    eexists _, _. split; [reflexivity|]. split.
    + unfold data_reads. split; [unfold d_name; rewrite (same_name_inv _ _ S2); reflexivity|].
      pose proof (same_nth _ _ 3 SD) as S3. pose proof (same_nth _ _ 4 SD) as S4. pose proof (same_nth _ _ 5 SD) as S5. pose proof (same_nth _ _ 6 SD) as S6. cbn [nth] in S3, S4, S5, S6.
      destruct CO as (C1 & C2 & C3).
      split; [unfold d_content_type; rewrite <- (same_nat _ _ (same_fld _ _ 0 S3)); destruct (dc_type c); reflexivity|].
      split; [unfold d_freshness; rewrite <- (same_time _ _ (same_fld _ _ 1 S3)); destruct (dc_fresh c); reflexivity|].
      split.
      { unfold d_final_block. rewrite <- (same_bytes _ _ (same_fld _ _ 2 S3)). destruct (dc_final c) as [fc|] eqn:EF; [|reflexivity]. cbn [option_map v_bytes back spec_MetaInfo g_fld nth g_bytes snd fst].
        rewrite <- (app_nil_r (comp_enc fc)). destruct C3 as [C3 C4]. rewrite comp_from_bytes_ok; auto. rewrite app_nil_r. unfold data_size in SZ. rewrite EF in SZ. cbn [olen] in SZ. unfold mem_limit, zlen, nlen in *. lia. }
      split; [unfold d_content; rewrite <- (same_wire_eq _ _ S4); destruct content; reflexivity|].
      split; [unfold d_sig_type; rewrite <- (same_sig_type _ _ S5); destruct osc as [sc|]; [|reflexivity]; destruct SO as [T _]; cbn; rewrite to_u64_small by lia; rewrite to_int_small by lia; lia|].
      split; [unfold d_key_name; rewrite <- (same_key_name _ _ S5); destruct osc as [sc|]; [|reflexivity]; cbn; destruct (sc_key sc); reflexivity|].
      split.
      { unfold d_validity. pose proof (same_fld _ _ 5 S5) as SV. destruct osc as [sc|]; [|cbn in SV; rewrite (same_none_inv _ SV); reflexivity].
        cbn in SV. destruct (validity sc) as [[a b]|]; cbn in SV; [|rewrite (same_none_inv _ SV); reflexivity].
        destruct (same_struct_inv _ _ SV) as (l & -> & SL). inversion SL as [|? a' ? l1 A1 A2]; subst. inversion A2 as [|? b' ? l2 B1 B2]; subst. inversion B2; subst.
        rewrite <- (same_bytes _ _ A1), <- (same_bytes _ _ B1). reflexivity. }
      unfold d_sig_value. pose proof (same_wire_eq _ _ S6) as SW. destruct (g_wire (nth 6 d VNone)) as [w6|] eqn:E6; cbn [option_map] in SW.
      * destruct osig as [s|]; subst sig; cbn [back p ep_est mkEP] in SW; [|discriminate]. destruct (N.ltb_spec 0 (nlen s)) as [|X]; [|cbn in OS; lia]. cbn in SW. rewrite app_nil_r in SW. congruence.
      * destruct osig as [s|]; subst sig; cbn [back p ep_est mkEP] in SW; [|reflexivity]. destruct (N.ltb_spec 0 (nlen s)) as [|X]; [|cbn in OS; lia]. discriminate.
    + rewrite (CV 0%nat eq_refl). unfold covered. change (seq 0 (length dfs)) with [0; 1; 2; 3; 4; 5; 6]%nat. cbn [fold_left].
      set (cs := cover_step p sig dfs (data_vals n c content osc ++ [VNone]) 0).
      assert (EI : forall acc i, (i < 6)%nat -> cs acc i = acc) by (intros acc i Hi; do 6 (destruct i as [|i]; [reflexivity|]); lia).
      rewrite (EI _ 5%nat), (EI _ 4%nat), (EI _ 3%nat), (EI _ 2%nat), (EI _ 1%nat), (EI _ 0%nat) by lia.
      unfold cs, cover_step. change (kind_at dfs 6) with (KSig 1 0). cbn [Nat.eqb andb ep_est p mkEP app].
      subst sig. destruct osig as [s|]; [|reflexivity]. destruct (N.ltb_spec 0 (nlen s)) as [|X]; [|cbn in OS; lia].
      unfold bytes_between.
      rewrite <- dbody_eq by auto. unfold dbody. rewrite (fs_bytes_free (skipn 1 (firstn 6 dfs)) eq_refl p s (mkEP 0 false) []). reflexivity.
Qed.
Lemma data_wire_reader : forall n c content osc osig w, (zlen (concat w) < mem_limit)%Z -> concat w = data_packet n c content osc osig -> full_names n osc -> full_wire w ->
  beyond_header w (data_part n c content osc ++ opt_tlv 23 osig) ->
  At (new_wire_reader w) [] (data_packet n c content osc osig) /\ data_reader n c content osc osig (new_wire_reader w).
Proof.
  intros n c content osc osig w SZ E FN FW BH. split.
  - rewrite <- E. apply at_new_wire; [|exact SZ]. unfold nonempty_segs. destruct FW; [constructor|assumption].
  - right. split; [exact FN|]. unfold beyond_header in BH. rewrite E in BH. unfold data_packet, tlv in BH. rewrite !zlen_app in BH. unfold in_first, new_wire_reader. rewrite zlen_nil. lia.
Qed.

Lemma data_packet_small : forall n c content osc osig, (data_size n c content + olen sig_size osc + olen (@nlen N) osig < packet_limit)%N ->
  (zlen (data_packet n c content osc osig) < 8796093022208)%Z.
Proof.
  intros n c content osc osig SZ. pose proof (data_part_le n c content osc) as LE. unfold packet_limit in SZ.
  unfold data_packet. pose proof (tlv_le 6 (data_part n c content osc ++ opt_tlv 23 osig)) as X. rewrite nlen_app in X. pose proof (opt_tlv_le 23 osig). unfold zlen, nlen in *. lia.
Qed.
Lemma read_data_wire : forall n c content osc osig F w, name_typed n -> data_config_ok c -> all_of data_sig_ok osc -> all_of (fun s => (0 < nlen s)%N) osig ->
  (data_size n c content + olen sig_size osc + olen (@nlen N) osig < packet_limit)%N -> (length (data_packet n c content osc osig) < F)%nat ->
  full_names n osc -> full_wire w -> concat w = data_packet n c content osc osig -> beyond_header w (data_part n c content osc ++ opt_tlv 23 osig) ->
  exists d cov, read_data F (new_wire_reader w) = Ok (d, cov)
    /\ data_reads n c content osc osig d /\ concat cov = match osig with Some _ => data_part n c content osc | None => [] end.
Proof.
  intros n c content osc osig F w Hn CO SO OS SZ FU FN FW E BH. pose proof (data_packet_small _ _ _ _ _ SZ) as SM.
  destruct (data_wire_reader n c content osc osig w) as [A R]; auto; [rewrite E; unfold mem_limit; lia|]. apply read_data_at; auto.
Qed.
Lemma packed_reads : forall n c content osc osig w, packed n c content osc osig w -> concat w = data_packet n c content osc osig -> full_content content ->
  full_wire w /\ beyond_header w (data_part n c content osc ++ opt_tlv 23 osig).
Proof.
  intros n c content osc osig w [(a & r & E & NA) FW] EC FC. split; [auto|]. unfold beyond_header. rewrite EC. unfold data_packet, tlv. rewrite E. cbn [hd].
  rewrite !zlen_app. destruct a; [congruence|]. unfold zlen. cbn [length]. lia.
Qed.

Lemma read_data_ok : forall n c content osc osig F, name_typed n -> data_config_ok c -> all_of data_sig_ok osc -> all_of (fun s => (0 < nlen s)%N) osig ->
  (data_size n c content + olen sig_size osc + olen (@nlen N) osig < packet_limit)%N -> (length (data_packet n c content osc osig) < F)%nat ->
  exists d cov, read_data F (new_buffer_reader (data_packet n c content osc osig)) = Ok (d, cov)
    /\ data_reads n c content osc osig d /\ concat cov = match osig with Some _ => data_part n c content osc | None => [] end.
Proof.
  intros n c content osc osig F Hn CO SO OS SZ FU. apply read_data_at; auto; [|left; exact I].
  apply at_new_buf. pose proof (data_packet_small _ _ _ _ _ SZ). unfold mem_limit. lia.
Qed.
