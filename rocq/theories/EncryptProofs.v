(** Proofs about encrypted content. *)
From Verif Require Import Base BaseProofs PrimModel PrimProofs NameModel NameProofs OrderProofs TextModel TextProofs TextProofs2 TrieModel TrieSpec ReaderModel CodecModel CodecSpec CodecProofs CodecSpec2 CodecLib CodecPar CodecPar4 CodecEnc CodecEnc2 CodecEnc5 SpecModel SpecSpec SpecData SchemaModel StoreModel StoreSpec EngineSpec NeedModel NeedSpec NeedProofs SegModel SegSpec SegProofs SegProofs2 PropsSpec PropsSeg PropsCodec2 RdrSpec RdrProofs ReaderSpec EncryptModel EncryptSpec.
From Verif Require Import NameProofs.

(** ** blocks *)
Lemma xor_length : forall a b, length a = length b -> length (xor_block a b) = length b.
Proof. induction a as [|x a IH]; intros [|y b] H; try discriminate; [reflexivity|]. cbn in *. f_equal. apply IH. lia. Qed.
Lemma xor_back : forall a b, length a = length b -> xor_block a (xor_block a b) = b.
Proof.
  induction a as [|x a IH]; intros [|y b] H; try discriminate; [reflexivity|]. cbn [xor_block]. f_equal; [|apply IH; cbn in H; lia].
  rewrite <- N.lxor_assoc, N.lxor_nilpotent. apply N.lxor_0_l.
Qed.
Lemma lxor_byte : forall x y, byte_ok x -> byte_ok y -> byte_ok (N.lxor x y).
Proof.
  intros x y X Y. unfold byte_ok in *. destruct (N.eq_dec (N.lxor x y) 0) as [->|NZ]; [reflexivity|].
  change 256%N with (2 ^ 8)%N. apply N.log2_lt_pow2; [lia|]. eapply N.le_lt_trans; [apply N.log2_lxor|]. apply N.max_lub_lt.
  - destruct (N.eq_dec x 0) as [->|]; [reflexivity|]. apply N.log2_lt_pow2; lia.
  - destruct (N.eq_dec y 0) as [->|]; [reflexivity|]. apply N.log2_lt_pow2; lia.
Qed.
Lemma xor_bytes : forall a b, bytes_ok a -> bytes_ok b -> bytes_ok (xor_block a b).
Proof.
  induction a as [|x a IH]; intros [|y b] A B; try constructor; inversion A; inversion B; subst.
  - apply lxor_byte; assumption.
  - apply IH; assumption.
Qed.

Section Cipher.
  Variables (E D : buf -> buf -> buf).
  Hypothesis BC : block_cipher E D.

  Lemma cbc_length : forall k n prev b, length k = 32%nat -> length prev = 16%nat -> bytes_ok prev -> length b = (16 * n)%nat -> bytes_ok b -> length (cbc_enc E k prev n b) = (16 * n)%nat.
  Proof.
    intros k. induction n as [|n IH]; intros prev b K P BP B BB; [reflexivity|]. cbn [cbc_enc]. rewrite app_length.
    assert (FL : length (firstn 16 b) = 16%nat) by (rewrite firstn_length; lia). assert (FB : bytes_ok (firstn 16 b)) by (apply bytes_ok_firstn; exact BB).
    destruct (BC k (xor_block prev (firstn 16 b)) K) as (L1 & L2 & _); [rewrite xor_length; lia|apply xor_bytes; assumption|].
    rewrite L1, IH; auto; [lia|rewrite skipn_length; lia|apply bytes_ok_skipn; exact BB].
  Qed.

  Lemma cbc_back : forall k n prev b, length k = 32%nat -> length prev = 16%nat -> bytes_ok prev -> length b = (16 * n)%nat -> bytes_ok b -> cbc_dec D k prev n (cbc_enc E k prev n b) = b.
  Proof.
    intros k. induction n as [|n IH]; intros prev b K P BP B BB; [destruct b; [reflexivity|cbn in B; lia]|]. cbn [cbc_enc cbc_dec].
    assert (FL : length (firstn 16 b) = 16%nat) by (rewrite firstn_length; lia). assert (FB : bytes_ok (firstn 16 b)) by (apply bytes_ok_firstn; exact BB).
    destruct (BC k (xor_block prev (firstn 16 b)) K) as (L1 & L2 & L3); [rewrite xor_length; lia|apply xor_bytes; assumption|].
    set (c := E k (xor_block prev (firstn 16 b))) in *. rewrite firstn_app, L1, Nat.sub_diag, skipn_app, L1, Nat.sub_diag. rewrite (firstn_all2 c) by lia. rewrite (skipn_all2 c) by lia. rewrite firstn_O, skipn_O, app_nil_r, app_nil_l.
    rewrite L3, xor_back by lia. 
    assert (SL : length (skipn 16 b) = (16 * n)%nat) by (rewrite skipn_length; lia). rewrite IH; [apply firstn_skipn|exact K|exact L1|exact L2|exact SL|apply bytes_ok_skipn; exact BB].
  Qed.
End Cipher.

Lemma same_wire_inv : forall w v, same (VWire w) v -> exists w', v = VWire w' /\ concat w' = concat w.
Proof. intros w v H. inversion H; subst; eauto. Qed.

Definition enc_bytes (ckid iv : buf) (l : N) (out : buf) : buf := tlv 130 ckid ++ tlv 132 iv ++ tlv 134 (nat_enc l) ++ tlv 136 out.

Lemma enc_encode : forall ckid iv l out, (l < two64)%N -> (nlen ckid + nlen iv + nlen out + 100 < packet_limit)%N ->
  exists ew ys, m_encode (mkEP 0 false) demosec_EncryptedContent [VBytes ckid; VBytes iv; VNat l; VWire [out]] = Ok (ew, ys) /\ concat ew = enc_bytes ckid iv l out
    /\ forall w F, concat w = concat ew -> nonempty_segs w -> (length (concat ew) < F)%nat ->
       exists vs cx w', m_parse F demosec_EncryptedContent true (new_wire_reader w) = Ok (vs, cx)
         /\ nth 0 vs VNone = VBytes ckid /\ nth 1 vs VNone = VBytes iv /\ nth 2 vs VNone = VNat l /\ nth 3 vs VNone = VWire w' /\ concat w' = out.
Proof.
  intros ckid iv l out L LIM. set (vs := [VBytes ckid; VBytes iv; VNat l; VWire [out]]).
  assert (SH : fs_shape (m_fields demosec_EncryptedContent) vs) by (unfold fs_shape, vs; cbn [m_fields demosec_EncryptedContent]; repeat (constructor; [cbn; auto|]); constructor).
  assert (TY : fs_typed (m_fields demosec_EncryptedContent) vs) by (unfold fs_typed, vs; cbn [m_fields demosec_EncryptedContent]; repeat (constructor; [cbn [typed snd]; auto|]); constructor).
  assert (WS : fs_wire_safe (m_fields demosec_EncryptedContent) vs) by (unfold fs_wire_safe, vs; cbn [m_fields demosec_EncryptedContent]; repeat (constructor; [exact I|]); constructor).
  assert (NZ : m_nocopy demosec_EncryptedContent = true -> fs_len (mkEP 0 false) (m_fields demosec_EncryptedContent) vs <> 0%N).
  { intros _. unfold vs. cbn [fs_len m_fields demosec_EncryptedContent fst snd k_len]. unfold elem_len. pose proof (tl_len_range 130). lia. }
  destruct (encode_parts (mkEP 0 false) demosec_EncryptedContent vs eq_refl SH NZ) as (w & ys & EN & C & LN).
  assert (FB : fs_bytes (mkEP 0 false) [] (m_fields demosec_EncryptedContent) vs = enc_bytes ckid iv l out).
  { unfold vs, enc_bytes. cbn [m_fields demosec_EncryptedContent fs_bytes fst snd k_bytes concat]. rewrite !app_nil_r. reflexivity. }
  change (full_hole (mkEP 0 false)) with (@nil N) in LN. rewrite FB in LN.
  destruct (C16_round_trip_wire (mkEP 0 false) demosec_EncryptedContent vs eq_refl eq_refl SH TY WS eq_refl NZ) as (w2 & ys2 & E2 & RT).
  { rewrite LN. unfold enc_bytes. rewrite !nlen_app. pose proof (tlv_le 130 ckid). pose proof (tlv_le 132 iv). pose proof (tlv_le 134 (nat_enc l)). pose proof (tlv_le 136 out). pose proof (nat_enc_len l).
    unfold size_limit, packet_limit in *. lia. }
  assert (w2 = w) by congruence. subst w2. exists w, ys. split; [exact EN|]. split; [rewrite C; exact FB|].
  intros w' F CW NS LF. destruct (RT w' CW NS true F LF) as (vs' & cx & P & SM).
  pose proof (same_nth _ _ 0 SM) as S0. pose proof (same_nth _ _ 1 SM) as S1. pose proof (same_nth _ _ 2 SM) as S2. pose proof (same_nth _ _ 3 SM) as S3.
  unfold vs in S0, S1, S2, S3. cbn [fs_back m_fields demosec_EncryptedContent nth snd back] in S0, S1, S2, S3.
  destruct (same_wire_inv _ _ S3) as (w3 & W3 & C3). exists vs', cx, w3. split; [exact P|].
  split; [inversion S0; reflexivity|]. split; [inversion S1; reflexivity|]. split; [inversion S2; reflexivity|]. split; [exact W3|]. rewrite C3. cbn [concat]. apply app_nil_r.
Qed.

Lemma xor_nth : forall a b j, length a = length b -> (j < length a)%nat -> nth j (xor_block a b) 0%N = N.lxor (nth j a 0%N) (nth j b 0%N).
Proof. induction a as [|x a IH]; intros [|y b] j L J; try discriminate; cbn [length] in *; [lia|]. destruct j as [|j]; [reflexivity|]. cbn [xor_block nth]. apply IH; lia. Qed.

Lemma cbc_dec_length : forall D, (forall k b, length (D k b) = 16%nat) -> forall k n prev b, length prev = 16%nat -> length b = (16 * n)%nat -> length (cbc_dec D k prev n b) = (16 * n)%nat.
Proof.
  intros D DL k. induction n as [|n IH]; intros prev b P B; [reflexivity|]. cbn [cbc_dec]. cbn zeta. rewrite app_length, xor_length, DL by (rewrite DL; exact P).
  rewrite IH; [lia| |]; rewrite ?firstn_length, ?skipn_length; lia.
Qed.

Section Chain.
  Variables (E D : buf -> buf -> buf).
  Hypothesis BC : block_cipher E D.

  Lemma cbc_chained : forall k n prev b, length k = 32%nat -> length prev = 16%nat -> bytes_ok prev -> length b = (16 * n)%nat -> bytes_ok b ->
    chained E k prev b (cbc_enc E k prev n b).
  Proof.
    intros k. induction n as [|n IH]; intros prev b K P BP B BB.
    { split; [cbn; lia|]. intros i I. lia. }
    split; [rewrite (cbc_length E D BC) by assumption; lia|]. intros i I.
    assert (FL : length (firstn 16 b) = 16%nat) by (rewrite firstn_length; lia). assert (FB : bytes_ok (firstn 16 b)) by (apply bytes_ok_firstn; exact BB).
    assert (XL : length (xor_block prev (firstn 16 b)) = 16%nat) by (rewrite xor_length; congruence).
    assert (XB : bytes_ok (xor_block prev (firstn 16 b))) by (apply xor_bytes; assumption).
    destruct (BC k _ K XL XB) as (CL & CB & _). cbn [cbc_enc]. cbn zeta. set (c := E k (xor_block prev (firstn 16 b))) in *.
    assert (SK : forall m, block (S m) (c ++ cbc_enc E k c n (skipn 16 b)) = block m (cbc_enc E k c n (skipn 16 b))).
    { intros m. unfold block. f_equal. replace (16 * S m)%nat with (length c + 16 * m)%nat by lia. rewrite skipn_app. rewrite skipn_all2 by lia. cbn [app]. f_equal. lia. }
    assert (S0 : block 0 (c ++ cbc_enc E k c n (skipn 16 b)) = c).
    { unfold block. rewrite Nat.mul_0_r, skipn_O, firstn_app, CL, Nat.sub_diag, firstn_O, app_nil_r. apply firstn_all2. lia. }
    destruct i as [|i].
    - exists (xor_block prev (firstn 16 b)). rewrite S0. split; [reflexivity|]. split; [exact XL|]. intros j J. unfold block. rewrite Nat.mul_0_r, skipn_O. apply xor_nth; lia.
    - destruct (IH c (skipn 16 b) K CL CB) as (_ & X); [rewrite skipn_length; lia|apply bytes_ok_skipn; exact BB|].
      destruct (X i) as (c' & A1 & A2 & A3); [rewrite skipn_length; lia|]. exists c'. rewrite SK. split; [exact A1|]. split; [exact A2|]. intros j J. rewrite A3 by exact J. f_equal.
      + destruct i as [|i]; [rewrite S0; reflexivity|rewrite SK; reflexivity].
      + unfold block. do 2 f_equal. rewrite skipn_skipn'. f_equal. lia.
  Qed.
End Chain.

(** the buffers: the header, and the ciphertext *)
Lemma enc_shape : forall ckid iv l out ew ys,
  m_encode (mkEP 0 false) demosec_EncryptedContent [VBytes ckid; VBytes iv; VNat l; VWire [out]] = Ok (ew, ys) -> exists hdr, ew = [hdr; out].
Proof.
  intros ckid iv l out ew ys EN. set (vs := [VBytes ckid; VBytes iv; VNat l; VWire [out]]) in *.
  assert (SH : fs_shape (m_fields demosec_EncryptedContent) vs) by (unfold fs_shape, vs; cbn [m_fields demosec_EncryptedContent]; repeat (constructor; [cbn; auto|]); constructor).
  destruct (encode_ok (mkEP 0 false) demosec_EncryptedContent vs eq_refl SH) as (w & ys' & EN' & _ & X & _).
  { intros _. unfold vs. cbn [fs_len m_fields demosec_EncryptedContent fst snd k_len]. unfold elem_len. pose proof (tl_len_range 130). lia. }
  assert (w = ew) by congruence. subst w. rewrite (X eq_refl). unfold vs. cbn [m_fields demosec_EncryptedContent fs_toks fst snd toks app]. 
  generalize (k_bytes (mkEP 0 false) [] 130 KBin (VBytes ckid)) (k_bytes (mkEP 0 false) [] 132 KBin (VBytes iv)) (k_bytes (mkEP 0 false) [] 134 (KNat false) (VNat l)) (tl_enc 136 ++ tl_enc (nlen (concat [out]))).
  intros a b c d. exists (a ++ b ++ c ++ d). destruct a, b, c; cbn [leaf_tok app]; unfold strip; cbn [rev app]; unfold tsplit; cbn [fold_left tstep fst snd app]; unfold CodecEnc2.fin_wire; cbn [fst snd app]; rewrite <- ?app_assoc; cbn [app]; rewrite ?app_nil_r, <- ?app_assoc; reflexivity.
Qed.

(** an empty ciphertext: the second buffer is empty *)
Lemma enc_empty : forall ckid iv hdr F, length ckid = 8%nat -> length iv = 16%nat -> hdr = enc_bytes ckid iv 0 [] -> (length hdr < F)%nat ->
  exists cx, m_parse F demosec_EncryptedContent true (new_wire_reader [hdr; []]) = Ok ([VBytes ckid; VBytes iv; VNat 0; VWire []], cx).
Proof.
  intros ckid iv hdr F LC LI -> LF.
  assert (E : enc_bytes ckid iv 0 [] = [130; 8]%N ++ ckid ++ [132; 16]%N ++ iv ++ [134; 1; 0; 136; 0]%N).
  { unfold enc_bytes, tlv, nlen. rewrite LC, LI. cbn [app]. rewrite <- !app_assoc. reflexivity. }
  rewrite E in LF. rewrite !app_length, LC, LI in LF. cbn [length] in LF. rewrite E.
  do 8 (destruct ckid as [|? ckid]; [discriminate LC|]). destruct ckid; [|discriminate LC].
  do 16 (destruct iv as [|? iv]; [discriminate LI|]). destruct iv; [|discriminate LI]. cbn [app].
  assert (X : exists k, F = (34 + k)%nat) by (exists (F - 34)%nat; lia). destruct X as (k & ->). cbn [Nat.add].
  eexists. vm_compute. reflexivity.
Qed.

Lemma firstn_rep : forall {A} (a : A) i n, (i <= n)%nat -> firstn i (repeat a n) = repeat a i.
Proof. intros A a i. induction i as [|i IH]; intros n H; [reflexivity|]. destruct n as [|n]; [lia|]. cbn [repeat firstn]. f_equal. apply IH. lia. Qed.

Section Enc.
  Variables (E D : buf -> buf -> buf).
  Hypothesis BC : block_cipher E D.

  Lemma encrypt_ok : forall ckid keybits iv content, length ckid = 8%nat -> length keybits = 32%nat -> length iv = 16%nat -> bytes_ok iv -> bytes_ok (concat content) ->
    (nlen (concat content) + 200 < packet_limit)%N ->
    exists ew n inbuf, encrypt E ckid keybits iv content = Ok (Some ew) /\ padded (concat content) inbuf /\ length inbuf = (16 * n)%nat /\ bytes_ok inbuf
      /\ concat ew = enc_bytes ckid iv (nlen (concat content)) (cbc_enc E keybits iv n inbuf) /\ chained E keybits iv inbuf (cbc_enc E keybits iv n inbuf)
      /\ forall w F, concat w = concat ew -> nonempty_segs w \/ w = ew -> (length (concat ew) < F)%nat ->
         exists vs cx w', m_parse F demosec_EncryptedContent true (new_wire_reader w) = Ok (vs, cx)
           /\ nth 0 vs VNone = VBytes ckid /\ nth 1 vs VNone = VBytes iv /\ nth 2 vs VNone = VNat (nlen (concat content)) /\ nth 3 vs VNone = VWire w' /\ concat w' = cbc_enc E keybits iv n inbuf.
  Proof.
    intros ckid keybits iv content LC LK LI BI BB LIM. unfold encrypt, aes_key. rewrite LC, LK. cbn [Nat.eqb negb orb].
    assert (L63 : (nlen (concat content) < two63)%N) by (unfold packet_limit, two63 in *; lia). assert (L64 : (nlen (concat content) < two64)%N) by (unfold two63, two64 in *; lia).
    rewrite wire_length_ok by exact L64. rewrite BaseProofs.to_int_small by exact L63. set (L := nlen (concat content)) in *. cbn zeta.
    set (n := N.to_nat ((L + 15) / 16)). assert (Q : Z.quot (Z.of_N L + 16 - 1) 16 = Z.of_nat n).
    { rewrite Z.quot_div_nonneg by lia. unfold n. rewrite N_nat_Z, N2Z.inj_div. f_equal. lia. }
    rewrite Q. destruct (Z.ltb_spec (Z.of_nat n * 16) 0); [lia|]. replace (Z.to_nat (Z.of_nat n * 16)) with (16 * n)%nat by lia. rewrite Nat2Z.id.
    assert (LL : length (concat content) = N.to_nat L) by (unfold L, nlen; lia).
    assert (NB : (N.to_nat L <= 16 * n < N.to_nat L + 16)%nat).
    { unfold n. pose proof (N.div_mod (L + 15) 16 ltac:(lia)). pose proof (N.mod_lt (L + 15) 16 ltac:(lia)). lia. }
    set (inbuf := firstn (16 * n) (join content ++ repeat 0%N (16 * n))).
    assert (IB : inbuf = concat content ++ repeat 0%N (16 * n - N.to_nat L)).
    { unfold inbuf, join. rewrite firstn_app, LL. rewrite firstn_all2 by lia. f_equal. apply firstn_rep. lia. }
    assert (IL : length inbuf = (16 * n)%nat) by (rewrite IB, app_length, repeat_length; lia).
    assert (IO : bytes_ok inbuf) by (rewrite IB; apply bytes_ok_app; split; [exact BB|apply Forall_forall; intros x X; apply repeat_spec in X; subst; reflexivity]).
    destruct (enc_encode ckid iv L (cbc_enc E keybits iv n inbuf) L64) as (ew & ys & EN & C & RT).
    { unfold nlen. rewrite LC, LI, (cbc_length E D BC) by assumption. lia. }
    rewrite EN. cbn [bind fst]. exists ew, n, inbuf. split; [reflexivity|]. split.
    { exists (16 * n - N.to_nat L)%nat. split; [lia|]. split; [exact IB|]. rewrite IL, Nat.mul_comm. apply Nat.mod_mul. lia. }
    split; [exact IL|]. split; [exact IO|]. split; [exact C|]. split; [apply (cbc_chained E D BC); assumption|]. intros w F CW [NS| ->] LF; [apply RT; assumption|].
    destruct (enc_shape _ _ _ _ _ _ EN) as (hdr & SH).
    destruct (cbc_enc E keybits iv n inbuf) as [|c0 cs] eqn:CE; [|apply RT; auto; rewrite SH; constructor; [discriminate|constructor]].
    assert (N0 : n = 0%nat) by (assert (A := cbc_length E D BC keybits n iv inbuf LK LI BI IL IO); rewrite CE in A; cbn [length] in A; lia).
    assert (L0 : L = 0%N) by lia. assert (HD : hdr = enc_bytes ckid iv 0 []).
    { rewrite SH, L0 in C. cbn [concat app] in C. rewrite app_nil_r in C. exact C. }
    destruct (enc_empty ckid iv hdr F LC LI HD) as (cx & P).
    { rewrite SH in LF. cbn [concat app] in LF. rewrite app_nil_r in LF. exact LF. }
    rewrite SH. exists [VBytes ckid; VBytes iv; VNat 0; VWire []], cx, []. rewrite L0. split; [exact P|]. repeat split.
  Qed.

  Lemma refine_key : forall {T} (leaf_of : T -> option (leaf T)) (x : mnode T) l id, has_keys leaf_of x l ->
    exists y, refine x (m_name x ++ [mkComp TypeGeneric id]) = Ok (Some y) /\ m_name y = m_name x ++ [mkComp TypeGeneric id] /\ leaf_of (s_desc (m_node y)) = Some l.
  Proof.
    intros T leaf_of x l id (d & tag & dl & N & L). unfold refine. rewrite is_prefix_app, skipn_len_app, N. eexists. split; [reflexivity|]. split; [reflexivity|exact L].
  Qed.

  Lemma decrypt_ok : forall {T} (leaf_of : T -> option (leaf T)) (x : mnode T) l ckid keybits iv content ew n inbuf need slack w F, has_keys leaf_of x l ->
    length keybits = 32%nat -> length iv = 16%nat -> bytes_ok iv -> padded (concat content) inbuf -> length inbuf = (16 * n)%nat -> bytes_ok inbuf ->
    (exists vs cx w', m_parse F demosec_EncryptedContent true (new_wire_reader w) = Ok (vs, cx)
       /\ nth 0 vs VNone = VBytes ckid /\ nth 1 vs VNone = VBytes iv /\ nth 2 vs VNone = VNat (nlen (concat content)) /\ nth 3 vs VNone = VWire w' /\ concat w' = cbc_enc E keybits iv n inbuf
       /\ ew = w') ->
    r_status (need (m_name x ++ [mkComp TypeGeneric ckid])) = SData -> concat (content_of (need (m_name x ++ [mkComp TypeGeneric ckid]))) = keybits ->
    decrypt D F x need slack w = Ok (Some [concat content], match ew with [_] => Some inbuf | _ => None end).
  Proof.
    intros T leaf_of x l ckid keybits iv content ew n inbuf need slack w F HK LK LI BI (k & K1 & IB & _) IL IO (vs & cx & w' & P & V0 & V1 & V2 & V3 & CW & ->) ST KB.
    unfold decrypt. rewrite P, V0, V1, V2, V3. cbn [g_bin g_num g_wire]. cbn zeta. destruct (refine_key leaf_of x l ckid HK) as (y & R & _). rewrite R. cbn [bind]. rewrite ST. fold (content_of (need (m_name x ++ [mkComp TypeGeneric ckid]))).
    unfold join. rewrite KB. unfold aes_key. rewrite LK, LI. cbn [Nat.eqb orb negb]. rewrite CW.
    assert (CL : length (cbc_enc E keybits iv n inbuf) = (16 * n)%nat) by (apply (cbc_length E D BC); assumption). rewrite CL.
    replace ((16 * n) mod 16)%nat with 0%nat by (rewrite Nat.mul_comm, Nat.mod_mul; lia). cbn [Nat.eqb negb].
    replace (16 * n / 16)%nat with n by (rewrite Nat.mul_comm, Nat.div_mul; lia). rewrite (cbc_back E D BC) by assumption.
    assert (FI : forall s, firstn (N.to_nat (nlen (concat content))) (inbuf ++ s) = concat content).
    { intros s. rewrite IB, <- !app_assoc. unfold nlen. rewrite Nat2N.id, firstn_app, Nat.sub_diag, firstn_all. cbn [firstn]. apply app_nil_r. }
    assert (LE : forall s, (nlen (concat content) <=? nlen (inbuf ++ s))%N = true) by (intros s; apply N.leb_le; rewrite IB, !nlen_app; lia).
    pose proof (LE []) as LE0. pose proof (FI []) as FI0. rewrite app_nil_r in LE0, FI0.
    destruct w' as [|b [|b' w']]; rewrite ?LE, ?FI, ?LE0, ?FI0; reflexivity.
  Qed.
End Enc.
