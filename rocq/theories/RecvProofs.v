(** Proofs about receiving packets. *)
From Verif Require Import Base BaseProofs PrimModel PrimProofs ReaderModel ReaderSpec ReaderProofs ReaderProofs2 NameModel NameProofs TrieModel EngineModel FibModel CodecModel CodecSpec CodecProofs CodecEnc CodecEnc2 CodecEnc3 CodecEnc4 CodecEnc5 CodecSpec2 CodecPar CodecPar2 CodecPar3 CodecPar4 CodecLib CodecOne SpecModel SpecSpec SpecProofs SpecData SpecInt SpecMore RecvModel RecvSpec.

Definition lfs : list (N * kind) := m_fields spec_LpPacket.

Definition v_fixed (o : option N) : value := v_nat o.
Definition lp_vals (h : lp_headers) (payload : option wire) : list value :=
  [ v_nat (l_seq h); v_nat (l_frag_index h); v_nat (l_frag_count h); v_bytes (l_token h);
    match l_nack h with Some r => VStruct [VNat r] | None => VNone end; v_nat (l_face h); v_nat (l_next_hop h);
    match l_cache h with Some r => VStruct [VNat r] | None => VNone end; v_nat (l_mark h); v_nat (l_ack h); v_nat (l_tx h);
    VBool (l_non_discovery h); v_wire (option_map (fun b => [b]) (l_announce h)); v_wire payload ].

Lemma v_fixed_bytes : forall p h t w o, k_bytes p h t (KFixed w true) (v_nat o) = opt_tlv t (option_map (be w) o).
Proof. intros. destruct o; reflexivity. Qed.

Lemma lp_bytes : forall p h l pl, fs_bytes p h lfs (lp_vals l pl) = lp_part l ++ opt_tlv 80 (option_map (@concat N) pl).
Proof.
  intros p h l pl. unfold lfs, lp_vals, lp_part. cbn [m_fields spec_LpPacket fs_bytes fst snd].
  rewrite !v_fixed_bytes, !v_nat_bytes, !v_bytes_bytes, !v_wire_bytes. rewrite <- !app_assoc.
  assert (N1 : k_bytes p h 800 (KStruct spec_NetworkNack false) (match l_nack l with Some r => VStruct [VNat r] | None => VNone end) = opt_tlv 800 (option_map (fun r => tlv 801 (nat_enc r)) (l_nack l))).
  { destruct (l_nack l); [|reflexivity]. unfold spec_NetworkNack. rewrite struct_bytes by reflexivity. cbn [fs_bytes fst snd k_bytes option_map opt_tlv]. rewrite app_nil_r. reflexivity. }
  assert (N2 : k_bytes p h 820 (KStruct spec_CachePolicy false) (match l_cache l with Some r => VStruct [VNat r] | None => VNone end) = opt_tlv 820 (option_map (fun r => tlv 821 (nat_enc r)) (l_cache l))).
  { destruct (l_cache l); [|reflexivity]. unfold spec_CachePolicy. rewrite struct_bytes by reflexivity. cbn [fs_bytes fst snd k_bytes option_map opt_tlv]. rewrite app_nil_r. reflexivity. }
  assert (N3 : k_bytes p h 844 KBool (VBool (l_non_discovery l)) = flag 844 (l_non_discovery l)) by (destruct (l_non_discovery l); reflexivity).
  assert (N4 : option_map (@concat N) (option_map (fun b => [b]) (l_announce l)) = l_announce l) by (destruct (l_announce l) as [b|]; [cbn [option_map concat]; rewrite app_nil_r|]; reflexivity).
  rewrite N1, N2, N3, N4, app_nil_r. reflexivity.
Qed.

Lemma packet_lp_bytes : forall p h lvs, fs_bytes p h (m_fields spec_Packet) [VNone; VNone; VStruct lvs]
  = tl_enc 100 ++ tl_enc (nlen (fs_bytes p (full_hole p) lfs lvs)) ++ fs_bytes p h lfs lvs.
Proof.
  intros. cbn [fs_bytes m_fields spec_Packet fst snd]. change (k_bytes p h 5 (KStruct spec_Interest true) VNone) with (@nil N).
  change (k_bytes p h 6 (KStruct spec_Data true) VNone) with (@nil N). rewrite !app_nil_r. cbn [app]. apply (k_bytes_struct p h 100 true false lfs true).
Qed.
Lemma packet_lp_eq : forall p h l pl, fs_bytes p h (m_fields spec_Packet) [VNone; VNone; VStruct (lp_vals l pl)] = lp_packet l (option_map (@concat N) pl).
Proof. intros. rewrite packet_lp_bytes, !lp_bytes. reflexivity. Qed.
Lemma packet_lp_shape : forall lvs, fs_shape lfs lvs -> fs_shape (m_fields spec_Packet) [VNone; VNone; VStruct lvs].
Proof.
  intros lvs H. constructor; [exact I || reflexivity|]. constructor; [exact I || reflexivity|]. constructor; [|constructor].
  cbn [snd]. change spec_LpPacket with (Model true false lfs). apply shape_struct. auto.
Qed.
Lemma packet_lp_typed : forall lvs, fs_typed lfs lvs -> fs_typed (m_fields spec_Packet) [VNone; VNone; VStruct lvs].
Proof.
  intros lvs H. constructor; [exact I || reflexivity|]. constructor; [exact I || reflexivity|]. constructor; [|constructor].
  cbn [snd]. change spec_LpPacket with (Model true false lfs). apply typed_struct_back. auto.
Qed.
Lemma lp_shape : forall l pl, fs_shape lfs (lp_vals l pl).
Proof.
  intros l pl. unfold lp_vals, lfs. cbn [m_fields spec_LpPacket]. f2; cbn [snd].
  all: try match goal with |- context [v_nat ?o] => destruct o; exact I || reflexivity end.
  all: try match goal with |- context [v_bytes ?o] => destruct o; exact I || reflexivity end.
  all: try match goal with |- context [v_wire ?o] => destruct o; exact I || reflexivity end.
  - destruct (l_nack l); [|exact I]. unfold spec_NetworkNack. apply shape_struct. f2; exact I.
  - destruct (l_cache l); [|exact I]. unfold spec_CachePolicy. apply shape_struct. f2; exact I.
  - exact I.
Qed.
Lemma lp_typed : forall l pl, lp_ok l -> fs_typed lfs (lp_vals l pl).
Proof.
  intros l pl H. unfold lp_ok in H. repeat match type of H with Forall _ (_ :: _) => let X := fresh "X" in inversion H as [|? ? X H']; subst; clear H; rename H' into H end. clear H.
  unfold lp_vals, lfs. cbn [m_fields spec_LpPacket]. f2; cbn [snd].
  all: try match goal with |- context [v_nat ?o] => destruct o; [assumption|exact I] end.
  all: try match goal with |- context [v_bytes ?o] => destruct o; exact I end.
  all: try match goal with |- context [v_wire ?o] => destruct o; exact I end.
  - destruct (l_nack l); [|exact I]. apply (typed_struct_back false false). f2. assumption.
  - destruct (l_cache l); [|exact I]. apply (typed_struct_back false false). f2. assumption.
  - exact I.
Qed.
Lemma fixed_enc_le : forall o, (olen (@nlen N) (option_map (be 8) o) <= 8)%N.
Proof. intros [x|]; [|cbn; lia]. cbn [option_map olen]. unfold nlen. rewrite be_length. cbn. lia. Qed.
Lemma lp_part_le : forall l, (nlen (lp_part l) <= 600 + lp_size l)%N.
Proof.
  intros l. unfold lp_part. rewrite !nlen_app.
  repeat match goal with |- context [opt_tlv ?t ?o] => let X := fresh in pose proof (opt_tlv_le t o) as X; revert X; generalize (nlen (opt_tlv t o)); intros ? X end.
  pose proof (flag_le 844 (l_non_discovery l)).
  pose proof (fixed_enc_le (l_seq l)). pose proof (fixed_enc_le (l_ack l)). pose proof (fixed_enc_le (l_tx l)).
  pose proof (onat_le (fun x => x) (l_frag_index l)). pose proof (onat_le (fun x => x) (l_frag_count l)). pose proof (onat_le (fun x => x) (l_face l)). pose proof (onat_le (fun x => x) (l_next_hop l)). pose proof (onat_le (fun x => x) (l_mark l)).
  assert (A : forall t o, (olen (@nlen N) (option_map (fun r => tlv t (nat_enc r)) o) <= 26)%N). { intros t [x|]; [|cbn; lia]. cbn [option_map olen]. pose proof (tlv_le t (nat_enc x)). pose proof (nat_enc_le x). lia. }
  pose proof (A 801%N (l_nack l)). pose proof (A 821%N (l_cache l)). unfold lp_size. 
  assert (B : forall o, option_map (fun x => nat_enc x) o = option_map nat_enc o) by (intros []; reflexivity). rewrite ?B in *. lia.
Qed.

(** ReadPacket of a link-layer packet *)
Lemma packet_lp : forall sha l pl F, lp_ok l -> (lp_size l + olen (@nlen N) pl + 1000 < 2 * packet_limit)%N -> (length (lp_packet l pl) < F)%nat ->
  exists vs cx lv, read_packet sha F (new_buffer_reader (lp_packet l pl)) = match pl with Some _ => Ok (vs, cx) | None => Err EOther end
    /\ nth 0 vs VNone = VNone /\ nth 1 vs VNone = VNone /\ nth 2 vs VNone = VStruct lv /\ Forall2 same (lp_vals l (option_map (fun b => [b]) pl)) lv
    /\ nth 13 lv VNone = v_wire (option_map (fun b => [b]) pl).
Proof.
  intros sha l pl F LO SZ FU. unfold packet_limit in SZ. set (p := mkEP 0 false).
  assert (C1 : option_map (@concat N) (option_map (fun b => [b]) pl) = pl) by (destruct pl as [b|]; [cbn [option_map concat]; rewrite app_nil_r|]; reflexivity).
  assert (EB : fs_bytes p [] (m_fields spec_Packet) [VNone; VNone; VStruct (lp_vals l (option_map (fun b => [b]) pl))] = lp_packet l pl) by (rewrite packet_lp_eq, C1; reflexivity).
  assert (LP : (nlen (lp_packet l pl) < 8796093022208)%N).
  { unfold lp_packet. match goal with |- context [tlv 100 ?x] => pose proof (tlv_le 100 x) as X end. rewrite !nlen_app in X. pose proof (opt_tlv_le 80 pl). pose proof (lp_part_le l). lia. }
  assert (ZS : zlen (lp_packet l pl) = Z.of_N (nlen (lp_packet l pl))) by (unfold zlen, nlen; lia).
  destruct (parse_ok p [] eq_refl spec_Packet false _ F (new_buffer_reader (lp_packet l pl)) [] eq_refl eq_refl
     (packet_lp_shape _ (lp_shape l (option_map (fun b => [b]) pl))) (packet_lp_typed _ (lp_typed l _ LO))) as (vals & cx & E & SM & _).
  - rewrite EB. apply at_new_buf. unfold mem_limit. lia.
  - left. exact I.
  - rewrite EB, ZS. unfold size_limit. lia.
  - rewrite EB. exact FU.
  - pose proof (parse_one _ _ _ _ _ _ E) as O1. unfold read_packet. rewrite E. cbn [bind].
    pose proof (same_nth _ _ 0 SM) as S0. pose proof (same_nth _ _ 1 SM) as S1. pose proof (same_nth _ _ 2 SM) as S2. cbn [fs_back m_fields spec_Packet nth fst snd] in S0, S1, S2.
    apply same_none_inv in S0. apply same_none_inv in S1.
    assert (EBK : back p [] (KStruct spec_LpPacket true) (VStruct (lp_vals l (option_map (fun b => [b]) pl))) = VStruct (lp_vals l (option_map (fun b => [b]) pl))).
    { unfold lp_vals. destruct (l_nack l), (l_cache l); reflexivity. }
    rewrite EBK in S2. destruct (same_struct_inv _ _ S2) as (lv & E2 & SL). exists vals, cx, lv. rewrite S0, S1, E2.
    pose proof (same_nth _ _ 13 SL) as S13. cbn [nth lp_vals] in S13.
    assert (W : nth 13 lv VNone = v_wire (option_map (fun b => [b]) pl)).
    { destruct pl as [b|]; [|apply same_none_inv in S13; exact S13]. cbn [option_map v_wire] in *.
      pose proof (nth_one _ _ 2 O1) as O2. rewrite E2 in O2. pose proof (nth_one _ lv 13 O2) as O3. inversion S13 as [x|w w' CC| | |]; subst; [congruence|].
      destruct (nth 13 lv VNone); try discriminate. cbn [one] in O3. destruct O3 as (c & -> & _). match goal with K : VWire _ = VWire _ |- _ => inversion K; subst end.
      cbn [concat] in CC. rewrite !app_nil_r in CC. subst. reflexivity. }
    rewrite W. split; [destruct pl; reflexivity|]. auto 10.
Qed.

(** ReadPacket of Data and of Interest packets *)
Lemma packet_data : forall sha n c content osc osig F, name_typed n -> data_config_ok c -> all_of data_sig_ok osc -> all_of (fun s => (0 < nlen s)%N) osig ->
  (data_size n c content + olen sig_size osc + olen (@nlen N) osig < packet_limit)%N -> (length (data_packet n c content osc osig) < F)%nat ->
  exists vs cx d, read_packet sha F (new_buffer_reader (data_packet n c content osc osig)) = Ok (vs, cx)
    /\ nth 0 vs VNone = VNone /\ nth 1 vs VNone = VStruct d /\ nth 2 vs VNone = VNone
    /\ data_reads n c content osc osig d
    /\ concat (x_cov (nth 0 (x_sub (nth 1 cx XNone)) XNone)) = match osig with Some _ => data_part n c content osc | None => [] end.
Proof.
  intros sha n c content osc osig F Hn CO SO OS SZ FU. destruct (read_data_ok n c content osc osig F Hn CO SO OS SZ FU) as (d & cov & RD & DR & CV).
  unfold packet_limit in SZ.
  set (sig := match osig with Some s => s | None => [] end). set (p := mkEP (nlen sig) false).
  assert (EB : fs_bytes p sig (m_fields spec_Packet) [VNone; VStruct (data_vals n c content osc ++ [VNone]); VNone] = data_packet n c content osc osig).
  { destruct osig as [s|]; [apply data_packet_eq; auto|apply data_packet_eq0; auto]. }
  pose proof (data_part_le n c content osc) as LE.
  assert (LP : (nlen (data_packet n c content osc osig) < 8796093022208)%N).
  { unfold data_packet. pose proof (tlv_le 6 (data_part n c content osc ++ opt_tlv 23 osig)) as X. rewrite nlen_app in X. pose proof (opt_tlv_le 23 osig). lia. }
  assert (ZS : zlen (data_packet n c content osc osig) = Z.of_N (nlen (data_packet n c content osc osig))) by (unfold zlen, nlen; lia).
  destruct (parse_ok p sig eq_refl spec_Packet false _ F (new_buffer_reader (data_packet n c content osc osig)) [] eq_refl eq_refl
     (packet_shape _ (data_shape n c content osc)) (packet_typed _ (data_typed n c content osc Hn CO SO))) as (vals & cx & E & SM & LC & _ & CF).
  - rewrite EB. apply at_new_buf. unfold mem_limit. lia.
  - left. exact I.
  - rewrite EB, ZS. unfold size_limit. lia.
  - rewrite EB. exact FU.
  - pose proof (same_nth _ _ 0 SM) as S0. pose proof (same_nth _ _ 2 SM) as S2. cbn [fs_back m_fields spec_Packet nth fst snd] in S0, S2. apply same_none_inv in S0. apply same_none_inv in S2.
    unfold read_data in RD. unfold read_packet. rewrite E in *. cbn [bind] in *. exists vals, cx, d.
    destruct (nth 1 vals VNone); try discriminate. match type of RD with context [nth 2 ?l VNone] => destruct (nth 2 l VNone) eqn:EN; try discriminate end. inversion RD; subst. repeat (split; [auto; fail|]). auto.
Qed.

Lemma packet_int : forall sha fn c ap osc osig F, name_typed fn -> interest_config_ok c -> all_of interest_sig_ok osc -> all_of (fun s => (0 < nlen s)%N) osig ->
  (interest_size fn c ap + olen sig_size osc + olen (@nlen N) osig < packet_limit)%N -> (length (interest_packet fn c ap osc osig) < F)%nat ->
  exists vs cx i, read_packet sha F (new_buffer_reader (interest_packet fn c ap osc osig))
      = match ap, osig with
        | None, None => Ok (vs, cx)
        | None, Some _ => Err EDigest
        | Some _, _ => if digest_right sha fn (params_part ap osc osig) then Ok (vs, cx) else Err EDigest
        end
    /\ nth 0 vs VNone = VStruct i /\ nth 1 vs VNone = VNone /\ nth 2 vs VNone = VNone
    /\ interest_reads fn c ap osc osig i
    /\ concat (x_cov (nth 0 (x_sub (nth 0 cx XNone)) XNone)) = name_enc (before_digest fn) ++ (match osig with Some _ => signed_params ap osc | None => [] end).
Proof.
  intros sha fn c ap osc osig F Hn CO SO OS SZ FU.
  set (okb := match ap, osig with None, None => true | None, Some _ => false | Some _, _ => digest_right sha fn (params_part ap osc osig) end).
  assert (EOK : forall A (x : A), (match ap, osig with None, None => Ok x | None, Some _ => Err EDigest | Some _, _ => if digest_right sha fn (params_part ap osc osig) then Ok x else Err EDigest end) = if okb then Ok x else Err EDigest).
  { intros A x. unfold okb. destruct ap, osig; try destruct (digest_right _ _ _); reflexivity. }
  destruct (read_interest_ok sha fn c ap osc osig F Hn CO SO OS SZ FU) as (i & cov & IR & CV & RI). rewrite EOK in RI.
  unfold packet_limit in SZ. destruct (any_name fn Hn) as (n & dg & fill & Tn & FNe).
  set (sig := match osig with Some s => s | None => [] end). set (p := mkEPF (nlen sig) dg fill). specialize (FNe (nlen sig)). fold p in FNe.
  assert (EQ : (if (0 <? ep_est p)%N then Some sig else None) = osig).
  { cbn [p ep_est]. destruct osig as [s|]; subst sig; [|reflexivity]. cbn in OS. destruct (N.ltb_spec 0 (nlen s)); [reflexivity|lia]. }
  assert (EB : fs_bytes p sig (m_fields spec_Packet) [VStruct (int_vals n c ap osc); VNone; VNone] = interest_packet fn c ap osc osig).
  { rewrite interest_packet_eq by (auto; reflexivity). rewrite FNe, EQ. reflexivity. }
  assert (LP : (nlen (interest_packet fn c ap osc osig) < 8796093022208)%N).
  { unfold interest_packet. match goal with |- context [tlv 5 ?x] => pose proof (tlv_le 5 x) as X end. unfold params_part in *. rewrite !nlen_app in X. pose proof (opt_tlv_le 46 osig). pose proof (middle_le c). pose proof (signed_params_le ap osc). pose proof (tlv_le 7 (name_enc fn)).
    unfold interest_size in SZ. lia. }
  assert (ZS : zlen (interest_packet fn c ap osc osig) = Z.of_N (nlen (interest_packet fn c ap osc osig))) by (unfold zlen, nlen; lia).
  destruct (parse_ok p sig eq_refl spec_Packet false _ F (new_buffer_reader (interest_packet fn c ap osc osig)) [] eq_refl eq_refl
     (packet_int_shape _ (int_shape n c ap osc)) (packet_int_typed _ (int_typed n c ap osc Tn CO SO))) as (vals & cx & E & SM & LC & _ & CF).
  - rewrite EB. apply at_new_buf. unfold mem_limit. lia.
  - left. exact I.
  - rewrite EB, ZS. unfold size_limit. lia.
  - rewrite EB. exact FU.
  - pose proof (same_nth _ _ 0 SM) as S0. pose proof (same_nth _ _ 1 SM) as S1. pose proof (same_nth _ _ 2 SM) as S2. cbn [fs_back m_fields spec_Packet nth fst snd] in S0, S1, S2. apply same_none_inv in S1. apply same_none_inv in S2.
    destruct (same_struct_inv _ _ S0) as (i0 & E0 & _).
    unfold read_interest in RI. unfold read_packet. rewrite E in *. cbn [bind] in *. rewrite E0 in RI. rewrite S1, E0.
    destruct okb.
    + exists vals, cx, i. rewrite EOK. destruct (check_interest sha i0 (x_sub (nth 0 cx XNone))) as [[]| | |]; try discriminate. cbn [bind] in *. injection RI as R1 R2. rewrite E0, R1, R2. repeat (split; [auto; fail|]). auto.
    + destruct (check_interest sha i0 (x_sub (nth 0 cx XNone))) as [[]| | |]; try discriminate. cbn [bind] in *. injection RI as ->.
      exists [VStruct i; VNone; VNone], [XSub [XCov cov]], i. rewrite EOK. cbn [nth x_sub x_cov]. repeat (split; [auto; fail|]). auto.
Qed.

(** ** onPacket *)
Lemma on_bare : forall sha F b vs cx, read_packet sha F (new_buffer_reader b) = Ok (vs, cx) -> nth 2 vs VNone = VNone ->
  on_packet sha F (new_buffer_reader b) = dispatch vs cx nack_none None None [b].
Proof.
  intros sha F b vs cx E E2. unfold on_packet. rewrite E, E2. unfold new_buffer_reader. cbn [r_length bind r_range].
  assert (C : ((0 <? 0) || (zlen b <? zlen b) || (zlen b <? 0))%Z = false) by (unfold zlen; rewrite !orb_false_iff; lia). rewrite C.
  rewrite slice_ok by (unfold zlen; lia). rewrite Z.sub_0_r. unfold zlen. rewrite Nat2Z.id. cbn [Z.to_nat skipn]. rewrite firstn_all. reflexivity.
Qed.

Lemma on_lp : forall sha F l b, lp_ok l -> (lp_size l + nlen b + 1000 < 2 * packet_limit)%N -> (length (lp_packet l (Some b)) < F)%nat ->
  on_packet sha F (new_buffer_reader (lp_packet l (Some b))) =
  if fragmented l then Ok EvDrop else
  match read_packet sha F (new_buffer_reader b) with
  | Ok (vs, cx) => if eqb (is_struct (nth 1 vs VNone)) (is_struct (nth 0 vs VNone)) then Ok EvDrop
                   else dispatch vs cx (match l_nack l with Some r => r | None => nack_none end) (l_token l) (l_face l) [b]
  | Err _ => Ok EvDrop
  | Panic => Panic
  | Hang => Hang
  end.
Proof.
  intros sha F l b LO SZ FU. destruct (packet_lp sha l (Some b) F LO SZ FU) as (vs & cx & lv & E & _ & _ & E2 & SL & W).
  unfold on_packet at 1. rewrite E, E2.
  pose proof (same_nth _ _ 1 SL) as S1. pose proof (same_nth _ _ 2 SL) as S2. pose proof (same_nth _ _ 3 SL) as S3. pose proof (same_nth _ _ 4 SL) as S4. pose proof (same_nth _ _ 5 SL) as S5. cbn [nth lp_vals] in S1, S2, S3, S4, S5.
  apply same_nat in S1. apply same_nat in S2. apply same_bytes in S3. apply same_fld with (i := 0%nat) in S4. apply same_nat in S4. apply same_nat in S5.
  rewrite <- S1, <- S2, <- S3, <- S4, <- S5, W. unfold fragmented. cbn [option_map v_wire inner_reader].
  assert (A : forall o, g_nat (v_nat o) = o) by (intros []; reflexivity). rewrite !A.
  assert (B : g_bytes (v_bytes (l_token l)) = l_token l) by (destruct (l_token l); reflexivity). rewrite B.
  assert (C : match g_nat (g_fld (match l_nack l with Some r => VStruct [VNat r] | None => VNone end) 0) with Some x => x | None => nack_none end = match l_nack l with Some r => r | None => nack_none end) by (destruct (l_nack l); reflexivity). rewrite C.
  destruct (l_frag_index l), (l_frag_count l); reflexivity.
Qed.

Lemma frame_len : forall f b, (length b <= length (frame f b))%nat.
Proof. intros [|h] b; cbn [frame]; [lia|]. unfold lp_packet, tlv, opt_tlv, tlv. rewrite !app_length. lia. Qed.

Lemma plain_nack : forall l, nacked l = false -> (match l_nack l with Some r => r | None => nack_none end =? nack_none)%N = true.
Proof. intros l H. unfold nacked in H. destruct (l_nack l); [|reflexivity]. destruct (n =? 0)%N eqn:E; [exact E|discriminate]. Qed.

Lemma recv_data : forall sha f n c content osc osig F, framing_ok f -> plain f ->
  name_typed n -> data_config_ok c -> all_of data_sig_ok osc -> all_of (fun s => (0 < nlen s)%N) osig ->
  (framing_size f + data_size n c content + olen sig_size osc + olen (@nlen N) osig < packet_limit)%N ->
  (length (frame f (data_packet n c content osc osig)) < F)%nat ->
  exists d cov, on_packet sha F (new_buffer_reader (frame f (data_packet n c content osc osig))) = Ok (EvData d cov [data_packet n c content osc osig] (token_of f))
    /\ data_reads n c content osc osig d /\ concat cov = match osig with Some _ => data_part n c content osc | None => [] end.
Proof.
  intros sha f n c content osc osig F FO PL Hn CO SO OS SZ FU. pose proof (frame_len f (data_packet n c content osc osig)) as FL.
  assert (LE : (nlen (data_packet n c content osc osig) + framing_size f + 1000 < 2 * packet_limit)%N).
  { unfold packet_limit in *. unfold data_packet. pose proof (tlv_le 6 (data_part n c content osc ++ opt_tlv 23 osig)) as X. rewrite nlen_app in X. pose proof (opt_tlv_le 23 osig). pose proof (data_part_le n c content osc). lia. }
  destruct (packet_data sha n c content osc osig F) as (vs & cx & d & E & E0 & E1 & E2 & DR & CV); auto; try lia.
  exists d, (x_cov (nth 0 (x_sub (nth 1 cx XNone)) XNone)). split; [|auto].
  destruct f as [|l]; cbn [frame token_of].
  - rewrite (on_bare _ _ _ _ _ E E2). unfold dispatch. rewrite E0, E1. reflexivity.
  - destruct PL as [P1 P2]. cbn [framing_size framing_ok frame] in *. rewrite on_lp by (auto; lia). rewrite P1, E, E0, E1. cbn [is_struct eqb].
    unfold dispatch. rewrite plain_nack by auto. cbn [negb]. rewrite E0, E1. reflexivity.
Qed.

Lemma int_packet_le : forall fn c ap osc osig, (nlen (interest_packet fn c ap osc osig) <= 1000 + interest_size fn c ap + olen sig_size osc + olen (@nlen N) osig)%N.
Proof.
  intros. unfold interest_packet. match goal with |- context [tlv 5 ?x] => pose proof (tlv_le 5 x) as X end. unfold params_part in *. rewrite !nlen_app in X. pose proof (opt_tlv_le 46 osig). pose proof (middle_le c). pose proof (signed_params_le ap osc). pose proof (tlv_le 7 (name_enc fn)).
  unfold interest_size. lia.
Qed.

Lemma recv_interest : forall sha f fn c ap osc osig F, framing_ok f -> plain f ->
  name_typed fn -> interest_config_ok c -> all_of interest_sig_ok osc -> all_of (fun s => (0 < nlen s)%N) osig ->
  (framing_size f + interest_size fn c ap + olen sig_size osc + olen (@nlen N) osig < packet_limit)%N ->
  (length (frame f (interest_packet fn c ap osc osig)) < F)%nat ->
  exists i cov, interest_reads fn c ap osc osig i
    /\ concat cov = name_enc (before_digest fn) ++ (match osig with Some _ => signed_params ap osc | None => [] end)
    /\ (int_accepted sha fn ap osc osig -> on_packet sha F (new_buffer_reader (frame f (interest_packet fn c ap osc osig)))
          = Ok (EvInterest i [interest_packet fn c ap osc osig] cov (token_of f) (face_of f)))
    /\ (~ int_accepted sha fn ap osc osig -> on_packet sha F (new_buffer_reader (frame f (interest_packet fn c ap osc osig))) = Ok EvDrop).
Proof.
  intros sha f fn c ap osc osig F FO PL Hn CO SO OS SZ FU. pose proof (frame_len f (interest_packet fn c ap osc osig)) as FL.
  pose proof (int_packet_le fn c ap osc osig) as LE.
  destruct (packet_int sha fn c ap osc osig F) as (vs & cx & i & E & E0 & E1 & E2 & DR & CV); auto; try lia.
  set (okb := match ap, osig with None, None => true | None, Some _ => false | Some _, _ => digest_right sha fn (params_part ap osc osig) end).
  assert (EOK : forall A (x : A), (match ap, osig with None, None => Ok x | None, Some _ => Err EDigest | Some _, _ => if digest_right sha fn (params_part ap osc osig) then Ok x else Err EDigest end) = if okb then Ok x else Err EDigest).
  { intros A x. unfold okb. destruct ap, osig; try destruct (digest_right _ _ _); reflexivity. }
  assert (IFF : int_accepted sha fn ap osc osig <-> okb = true).
  { unfold int_accepted, okb. destruct ap as [a|]; [rewrite digest_right_iff; reflexivity|]. destruct osig; split; intros; congruence. }
  rewrite EOK in E. exists i, (x_cov (nth 0 (x_sub (nth 0 cx XNone)) XNone)). split; [auto|]. split; [auto|]. rewrite IFF. clear IFF EOK.
  split; intros OB.
  - rewrite OB in E. destruct f as [|l]; cbn [frame token_of face_of].
    + rewrite (on_bare _ _ _ _ _ E E2). unfold dispatch. rewrite E0. reflexivity.
    + destruct PL as [P1 P2]. cbn [framing_size framing_ok frame] in *. rewrite on_lp by (auto; unfold packet_limit in *; lia). rewrite P1, E, E0, E1. cbn [is_struct eqb].
      unfold dispatch. rewrite plain_nack by auto. cbn [negb]. rewrite E0. reflexivity.
  - destruct okb; [congruence|]. destruct f as [|l]; cbn [frame].
    + unfold on_packet. rewrite E. reflexivity.
    + destruct PL as [P1 P2]. cbn [framing_size framing_ok frame] in *. rewrite on_lp by (auto; unfold packet_limit in *; lia). rewrite P1, E. reflexivity.
Qed.

Lemma recv_nack : forall sha l reason fn c ap osc osig F, lp_ok l -> fragmented l = false -> l_nack l = Some reason -> reason <> 0%N ->
  name_typed fn -> interest_config_ok c -> all_of interest_sig_ok osc -> all_of (fun s => (0 < nlen s)%N) osig ->
  (lp_size l + interest_size fn c ap + olen sig_size osc + olen (@nlen N) osig < packet_limit)%N ->
  (length (lp_packet l (Some (interest_packet fn c ap osc osig))) < F)%nat -> int_accepted sha fn ap osc osig ->
  on_packet sha F (new_buffer_reader (lp_packet l (Some (interest_packet fn c ap osc osig)))) = Ok (EvNack (Some fn) reason).
Proof.
  intros sha l reason fn c ap osc osig F LO FR EN NZ Hn CO SO OS SZ FU AC. pose proof (frame_len (Lp l) (interest_packet fn c ap osc osig)) as FL. cbn [frame] in FL.
  pose proof (int_packet_le fn c ap osc osig) as LE.
  destruct (packet_int sha fn c ap osc osig F) as (vs & cx & i & E & E0 & E1 & E2 & DR & CV); auto; try lia.
  assert (EA : read_packet sha F (new_buffer_reader (interest_packet fn c ap osc osig)) = Ok (vs, cx)).
  { rewrite E. unfold int_accepted in AC. destruct ap as [a|]; [rewrite <- digest_right_iff in AC; rewrite AC|rewrite AC]; reflexivity. }
  rewrite on_lp by (auto; unfold packet_limit in *; lia). rewrite FR, EA, E0, E1. cbn [is_struct eqb]. rewrite EN. unfold dispatch.
  destruct (N.eqb_spec reason nack_none) as [|]; [contradiction|]. cbn [negb]. rewrite E0. destruct DR as [DN _]. rewrite DN. reflexivity.
Qed.

(** a Nack of Data, fragments and nested link-layer packets are dropped *)
Lemma recv_nack_data : forall sha l reason n c content osc osig F, lp_ok l -> l_nack l = Some reason -> reason <> 0%N ->
  name_typed n -> data_config_ok c -> all_of data_sig_ok osc -> all_of (fun s => (0 < nlen s)%N) osig ->
  (lp_size l + data_size n c content + olen sig_size osc + olen (@nlen N) osig < packet_limit)%N ->
  (length (lp_packet l (Some (data_packet n c content osc osig))) < F)%nat ->
  on_packet sha F (new_buffer_reader (lp_packet l (Some (data_packet n c content osc osig)))) = Ok EvDrop.
Proof.
  intros sha l reason n c content osc osig F LO EN NZ Hn CO SO OS SZ FU. pose proof (frame_len (Lp l) (data_packet n c content osc osig)) as FL. cbn [frame] in FL.
  assert (LE : (nlen (data_packet n c content osc osig) + lp_size l + 1000 < 2 * packet_limit)%N).
  { unfold packet_limit in *. unfold data_packet. pose proof (tlv_le 6 (data_part n c content osc ++ opt_tlv 23 osig)) as X. rewrite nlen_app in X. pose proof (opt_tlv_le 23 osig). pose proof (data_part_le n c content osc). lia. }
  destruct (packet_data sha n c content osc osig F) as (vs & cx & d & E & E0 & E1 & E2 & DR & CV); auto; try lia.
  rewrite on_lp by (auto; lia). rewrite E, E0, E1. cbn [is_struct eqb]. destruct (fragmented l); [reflexivity|]. rewrite EN. unfold dispatch.
  destruct (N.eqb_spec reason nack_none) as [|]; [contradiction|]. cbn [negb]. rewrite E0. reflexivity.
Qed.
Lemma recv_nested : forall sha l m pl F, lp_ok l -> lp_ok m -> (lp_size l + lp_size m + olen (@nlen N) pl < packet_limit)%N ->
  (length (lp_packet l (Some (lp_packet m pl))) < F)%nat ->
  on_packet sha F (new_buffer_reader (lp_packet l (Some (lp_packet m pl)))) = Ok EvDrop.
Proof.
  intros sha l m pl F LO MO SZ FU. pose proof (frame_len (Lp l) (lp_packet m pl)) as FL. cbn [frame] in FL.
  assert (LE : (nlen (lp_packet m pl) + lp_size l + 1000 < 2 * packet_limit)%N).
  { unfold packet_limit in *. unfold lp_packet. pose proof (tlv_le 100 (lp_part m ++ opt_tlv 80 pl)) as X. rewrite nlen_app in X. pose proof (opt_tlv_le 80 pl). pose proof (lp_part_le m). lia. }
  destruct (packet_lp sha m pl F MO) as (vs & cx & lv & E & E0 & E1 & _); try lia; [unfold packet_limit in *; lia|].
  rewrite on_lp by (auto; lia). destruct (fragmented l); [reflexivity|]. rewrite E. destruct pl as [b|]; [|reflexivity].
  rewrite E0, E1. reflexivity.
Qed.
