(** Making and reading packets, composed. *)
From Verif Require Import Base BaseProofs PrimModel PrimProofs ReaderModel ReaderSpec ReaderProofs NameModel NameProofs CodecModel CodecSpec CodecProofs CodecEnc CodecEnc2 CodecEnc3 CodecEnc5 CodecSpec2 CodecPar CodecPar2 CodecPar4 CodecLib SpecModel SpecSpec SpecProofs SpecData OrderProofs SpecInt.

Lemma data_round_trip : forall n c content s sc sig F, name_typed n -> data_config_ok c -> data_sig_ok sc ->
  sg_info s = Ok (Some sc) -> (forall cov, concat cov = data_part n c content (Some sc) -> sg_sign s cov = Ok sig) ->
  fits (sg_est s) (nlen sig) -> (data_size n c content + sig_size sc + sg_est s < packet_limit)%N ->
  (length (data_packet n c content (Some sc) (Some sig)) < F)%nat ->
  exists w cov d cov', make_data (Some n) (Some c) content (Some s) = Ok (w, Some cov)
    /\ concat w = data_packet n c content (Some sc) (Some sig)
    /\ read_data F (new_buffer_reader (concat w)) = Ok (d, cov')
    /\ data_reads n c content (Some sc) (Some sig) d
    /\ concat cov = data_part n c content (Some sc) /\ concat cov' = concat cov.
Proof.
  intros n c content s sc sig F N C S I SG FT SZ LF.
  destruct (make_data_signed n c content s sc C S I) as (cov & E & _ & _ & K); [destruct FT; lia|exact SZ|].
  destruct (K sig (SG _ E) FT) as (w & M & W & PK).
  destruct (read_data_ok n c content (Some sc) (Some sig) F) as (d & cov' & R & D & CV); auto.
  - cbn [all_of]. destruct FT. lia.
  - cbn [olen]. destruct FT. lia.
  - exists w, cov, d, cov'. rewrite W, E. auto 10.
Qed.

Lemma data_round_trip_unsigned : forall n c content sg osc F, name_typed n -> data_config_ok c -> unsigned sg osc ->
  (data_size n c content + olen sig_size osc < packet_limit)%N -> (length (data_packet n c content osc None) < F)%nat ->
  exists w d cov', make_data (Some n) (Some c) content sg = Ok (w, None)
    /\ concat w = data_packet n c content osc None
    /\ read_data F (new_buffer_reader (concat w)) = Ok (d, cov') /\ data_reads n c content osc None d /\ concat cov' = [].
Proof.
  intros n c content sg osc F N C U SZ LF. destruct (make_data_unsigned n c content sg osc C U) as (w & M & W & PK).
  assert (SO : all_of data_sig_ok osc).
  { destruct sg as [s|]; cbn [unsigned] in U; [|subst; exact I]. destruct U as [(_ & ->)|[(sc & _ & _ & ->)|(sc & _ & S & _ & ->)]]; try exact I. exact S. }
  destruct (read_data_ok n c content osc None F) as (d & cov' & R & D & CV); auto; [exact I|cbn [olen]; lia|].
  exists w, d, cov'. rewrite W. auto 10.
Qed.

Lemma data_round_trip_wire : forall n c content s sc sig F, name_typed n -> data_config_ok c -> data_sig_ok sc ->
  sg_info s = Ok (Some sc) -> (forall cov, concat cov = data_part n c content (Some sc) -> sg_sign s cov = Ok sig) ->
  fits (sg_est s) (nlen sig) -> (data_size n c content + sig_size sc + sg_est s < packet_limit)%N ->
  (length (data_packet n c content (Some sc) (Some sig)) < F)%nat -> full_names n (Some sc) -> full_content content ->
  exists w cov d cov', make_data (Some n) (Some c) content (Some s) = Ok (w, Some cov)
    /\ concat w = data_packet n c content (Some sc) (Some sig)
    /\ read_data F (new_wire_reader w) = Ok (d, cov')
    /\ data_reads n c content (Some sc) (Some sig) d
    /\ concat cov = data_part n c content (Some sc) /\ concat cov' = concat cov.
Proof.
  intros n c content s sc sig F N C S I SG FT SZ LF FN FC.
  destruct (make_data_signed n c content s sc C S I) as (cov & E & _ & _ & K); [destruct FT; lia|exact SZ|].
  destruct (K sig (SG _ E) FT) as (w & M & W & PK). destruct (packed_reads _ _ _ _ _ _ PK W FC) as [FW BH].
  destruct (read_data_wire n c content (Some sc) (Some sig) F w) as (d & cov' & R & D & CV); auto.
  - cbn [all_of]. destruct FT. lia.
  - cbn [olen]. destruct FT. lia.
  - exists w, cov, d, cov'. rewrite E. auto 10.
Qed.
Lemma data_round_trip_unsigned_wire : forall n c content sg osc F, name_typed n -> data_config_ok c -> unsigned sg osc ->
  (data_size n c content + olen sig_size osc < packet_limit)%N -> (length (data_packet n c content osc None) < F)%nat -> full_names n osc -> full_content content ->
  exists w d cov', make_data (Some n) (Some c) content sg = Ok (w, None)
    /\ concat w = data_packet n c content osc None
    /\ read_data F (new_wire_reader w) = Ok (d, cov') /\ data_reads n c content osc None d /\ concat cov' = [].
Proof.
  intros n c content sg osc F N C U SZ LF FN FC. destruct (make_data_unsigned n c content sg osc C U) as (w & M & W & PK).
  assert (SO : all_of data_sig_ok osc).
  { destruct sg as [s|]; cbn [unsigned] in U; [|subst; exact I]. destruct U as [(_ & ->)|[(sc & _ & _ & ->)|(sc & _ & S & _ & ->)]]; try exact I. exact S. }
  destruct (packed_reads _ _ _ _ _ _ PK W FC) as [FW BH].
  destruct (read_data_wire n c content osc None F w) as (d & cov' & R & D & CV); auto; [exact I|cbn [olen]; lia|].
  exists w, d, cov'. auto 10.
Qed.

Definition short_signer : signer := mkSigner (Ok (Some (mkSC 3 None None None None None None))) 300 (fun _ => Ok (repeat 1%N 64)).
Lemma data_refuted : exists n c content s sc sig w cov, name_typed n /\ data_config_ok c /\ data_sig_ok sc
  /\ sg_info s = Ok (Some sc) /\ (forall x, sg_sign s x = Ok sig) /\ (0 < nlen sig <= sg_est s)%N
  /\ make_data (Some n) (Some c) content (Some s) = Ok (w, cov)
  /\ concat w <> data_packet n c content (Some sc) (Some sig)
  /\ forall F, (length (concat w) < F)%nat -> exists e, read_data F (new_buffer_reader (concat w)) = Err e.
Proof.
  exists [mkComp 8 [65%N]], (mkDC None None None), None, short_signer, (mkSC 3 None None None None None None), (repeat 1%N 64).
  eexists _, _. split; [split; repeat constructor; discriminate|]. split; [repeat split|]. split; [repeat split; auto; discriminate|].
  split; [reflexivity|]. split; [reflexivity|]. split; [split; [reflexivity|discriminate]|]. split; [vm_compute; reflexivity|].
  split; [intros E; apply (f_equal (@length N)) in E; vm_compute in E; discriminate E|].
  intros F LF. assert (EF : exists G, F = (50 + G)%nat) by (exists (F - 50)%nat; cbn [concat length app] in LF; lia). destruct EF as (G & ->). clear LF.
  eexists. vm_compute. reflexivity.
Qed.

(** ** Interests *)
Lemma digest_right_iff : forall sha fn b, digest_right sha fn b = true <-> exists pre, fn = pre ++ [digest_comp (sha b)].
Proof.
  intros sha fn b. unfold digest_right. split.
  - destruct (rev fn) as [|l r] eqn:E; [discriminate|]. rewrite andb_true_iff. intros [H1 H2]. apply N.eqb_eq in H1. apply bytes_eqb_eq in H2.
    exists (rev r). rewrite <- (rev_involutive fn), E. cbn [rev]. f_equal. f_equal. destruct l as [t v]. cbn in *. subst. reflexivity.
  - intros (pre & ->). rewrite rev_app_distr. cbn [rev app digest_comp ctyp cval]. rewrite N.eqb_refl. cbn [andb]. apply bytes_eqb_eq. reflexivity.
Qed.

Lemma typed_base : forall n, name_typed n -> name_typed (base_name n).
Proof.
  intros n H. unfold base_name. destruct (rev n) as [|c r] eqn:E; [exact H|]. destruct (ctyp c =? TypeParametersSha256Digest)%N; [|exact H].
  assert (EN : n = rev r ++ [c]) by (rewrite <- (rev_involutive n), E; reflexivity). rewrite EN in H. destruct H as [H1 H2]. apply Forall_app in H1, H2. split; tauto.
Qed.
Lemma typed_final : forall sha n a osc osig, (forall b, length (sha b) = 32%nat /\ bytes_ok (sha b)) -> name_typed n -> name_typed (final_interest sha n a osc osig).
Proof.
  intros sha n a osc osig S H. destruct (typed_base n H) as [H1 H2]. set (d := sha (params_part (Some a) osc osig)). destruct (S (params_part (Some a) osc osig)) as [S1 S2].
  split; apply Forall_app; split; auto; constructor; auto; [split; [reflexivity|exact S2]|]. unfold comp_short, nlen, digest_comp. cbn [cval]. rewrite S1. discriminate.
Qed.
Lemma final_int_le : forall sha n a osc osig, (forall b, length (sha b) = 32%nat /\ bytes_ok (sha b)) ->
  (nlen (name_enc (final_interest sha n a osc osig)) <= nlen (name_enc n) + 34)%N.
Proof.
  intros sha n a osc osig S. unfold final_interest. rewrite name_enc_digest by apply S. rewrite !nlen_app. pose proof (base_le n).
  assert (E : nlen (sha (params_part (Some a) osc osig)) = 32%N) by (unfold nlen; rewrite (proj1 (S _)); reflexivity). rewrite E. change (nlen [2%N; 32%N]) with 2%N. lia.
Qed.

Lemma interest_round_trip : forall sha n c a s sc sig F, (forall b, length (sha b) = 32%nat /\ bytes_ok (sha b)) ->
  name_typed n -> interest_config_ok c -> interest_sig_ok sc ->
  sg_info s = Ok (Some sc) -> (forall cov, concat cov = name_enc (base_name n) ++ signed_params (Some a) (Some sc) -> sg_sign s cov = Ok sig) ->
  (0 < nlen sig <= sg_est s)%N -> (sg_est s < 253)%N -> (interest_size n c (Some a) + sig_size sc + 1000 < packet_limit)%N ->
  let fn := final_interest sha n a (Some sc) (Some sig) in
  (length (interest_packet fn c (Some a) (Some sc) (Some sig)) < F)%nat ->
  exists w cov i cov', make_interest sha (Some n) (Some c) (Some a) (Some s) = Ok (w, Some cov, fn)
    /\ concat w = interest_packet fn c (Some a) (Some sc) (Some sig)
    /\ read_interest sha F (new_buffer_reader (concat w)) = Ok (i, cov')
    /\ interest_reads fn c (Some a) (Some sc) (Some sig) i
    /\ concat cov = name_enc (base_name n) ++ signed_params (Some a) (Some sc) /\ concat cov' = concat cov.
Proof.
  intros sha n c a s sc sig F SHA N C S I SG L1 L2 SZ fn LF.
  destruct (make_interest_signed sha SHA n c a s sc C S I) as (cov & E & _ & _ & K); [lia|lia|].
  destruct (K sig (SG _ E) L1) as (w & M & W).
  pose proof (final_int_le sha n a (Some sc) (Some sig) SHA) as LE. fold fn in LE, M, W.
  destruct (read_interest_ok sha fn c (Some a) (Some sc) (Some sig) F) as (i & cov' & D & CV & R); auto.
  - apply typed_final; auto.
  - cbn [all_of]. lia.
  - unfold interest_size in *. cbn [olen] in *. lia.
  - assert (DR : digest_right sha fn (params_part (Some a) (Some sc) (Some sig)) = true) by (apply digest_right_iff; eexists; reflexivity).
    rewrite DR in R. exists w, cov, i, cov'. rewrite W, E. assert (EC : concat cov' = name_enc (base_name n) ++ signed_params (Some a) (Some sc)) by (rewrite CV; unfold fn, final_interest; rewrite before_digest_app; reflexivity). auto 10.
Qed.

Lemma interest_round_trip_params : forall sha n c a sg osc F, (forall b, length (sha b) = 32%nat /\ bytes_ok (sha b)) ->
  name_typed n -> interest_config_ok c -> int_unsigned true sg osc -> (interest_size n c (Some a) + olen sig_size osc + 1000 < packet_limit)%N ->
  let fn := final_interest sha n a osc None in
  (length (interest_packet fn c (Some a) osc None) < F)%nat ->
  exists w i cov', make_interest sha (Some n) (Some c) (Some a) sg = Ok (w, None, fn)
    /\ concat w = interest_packet fn c (Some a) osc None
    /\ read_interest sha F (new_buffer_reader (concat w)) = Ok (i, cov') /\ interest_reads fn c (Some a) osc None i.
Proof.
  intros sha n c a sg osc F SHA N C U SZ fn LF. destruct (make_interest_params sha SHA n c a sg osc C U) as (w & M & W); [lia|].
  destruct (int_unsigned_part _ _ _ U) as [_ SO]. pose proof (final_int_le sha n a osc None SHA) as LE. fold fn in LE, M, W.
  destruct (read_interest_ok sha fn c (Some a) osc None F) as (i & cov' & D & CV & R); auto.
  - apply typed_final; auto.
  - exact I.
  - unfold interest_size in *. cbn [olen] in *. lia.
  - assert (DR : digest_right sha fn (params_part (Some a) osc None) = true) by (apply digest_right_iff; eexists; reflexivity).
    rewrite DR in R. exists w, i, cov'. rewrite W. auto 10.
Qed.

Lemma interest_round_trip_plain : forall sha n c sg F, name_typed n -> interest_config_ok c -> int_unsigned false sg None ->
  (interest_size n c None + 1000 < packet_limit)%N -> (length (interest_packet (base_name n) c None None None) < F)%nat ->
  exists w i cov', make_interest sha (Some n) (Some c) None sg = Ok (w, None, base_name n)
    /\ concat w = interest_packet (base_name n) c None None None
    /\ read_interest sha F (new_buffer_reader (concat w)) = Ok (i, cov') /\ interest_reads (base_name n) c None None None i.
Proof.
  intros sha n c sg F N C U SZ LF. destruct (make_interest_plain sha n c sg C U) as (w & M & W). pose proof (base_le n).
  destruct (read_interest_ok sha (base_name n) c None None None F) as (i & cov' & D & CV & R); auto.
  - apply typed_base; auto.
  - exact I.
  - exact I.
  - unfold interest_size in *. cbn [olen] in *. lia.
  - exists w, i, cov'. rewrite W. auto 10.
Qed.

Lemma base_same : forall n, (forall m c, n = m ++ [c] -> ctyp c <> TypeParametersSha256Digest) -> base_name n = n.
Proof.
  intros n H. unfold base_name. destruct (rev n) as [|c r] eqn:E; [reflexivity|]. destruct (N.eqb_spec (ctyp c) TypeParametersSha256Digest) as [X|]; [|reflexivity].
  exfalso. apply (H (rev r) c); auto. rewrite <- (rev_involutive n), E. reflexivity.
Qed.

Lemma interest_read_covered : forall sha fn c ap osc osig F, name_typed fn -> interest_config_ok c -> all_of interest_sig_ok osc -> all_of (fun s => (0 < nlen s)%N) osig ->
  (interest_size fn c ap + olen sig_size osc + olen (@nlen N) osig < packet_limit)%N -> (length (interest_packet fn c ap osc osig) < F)%nat ->
  forall i cov, read_interest sha F (new_buffer_reader (interest_packet fn c ap osc osig)) = Ok (i, cov) ->
  concat cov = name_enc (before_digest fn) ++ (match osig with Some _ => signed_params ap osc | None => [] end)
  /\ interest_reads fn c ap osc osig i.
Proof.
  intros sha fn c ap osc osig F H1 H2 H3 H4 H5 H6 i cov R. destruct (read_interest_ok sha fn c ap osc osig F) as (i' & cov' & D & CV & R'); auto.
  rewrite R in R'. assert (E : Ok (i, cov) = Ok (i', cov')).
  { destruct ap; [destruct (digest_right sha fn _); [exact R'|discriminate]|]. destruct osig; [discriminate|exact R']. }
  inversion E; subst. auto.
Qed.

Lemma interest_accepted1 : forall sha fn c ap osc osig F, name_typed fn -> interest_config_ok c -> all_of interest_sig_ok osc -> all_of (fun s => (0 < nlen s)%N) osig ->
  (interest_size fn c ap + olen sig_size osc + olen (@nlen N) osig < packet_limit)%N -> (length (interest_packet fn c ap osc osig) < F)%nat ->
  ((exists x, read_interest sha F (new_buffer_reader (interest_packet fn c ap osc osig)) = Ok x)
     <-> match ap with
         | Some _ => exists pre, fn = pre ++ [digest_comp (sha (params_part ap osc osig))]
         | None => osig = None
         end).
Proof.
  intros sha fn c ap osc osig F H1 H2 H3 H4 H5 H6. destruct (read_interest_ok sha fn c ap osc osig F) as (i' & cov' & D & CV & R'); auto.
  rewrite R'. destruct ap as [a|].
  - rewrite <- digest_right_iff. destruct (digest_right sha fn _); split; intros X; eauto; [destruct X|]; discriminate.
  - destruct osig; split; intros X; eauto; [destruct X|]; discriminate.
Qed.
(** ReadPacket of an Interest *)
Lemma packet_interest : forall sha fn c ap osc osig F, name_typed fn -> interest_config_ok c -> all_of interest_sig_ok osc -> all_of (fun s => (0 < nlen s)%N) osig ->
  (interest_size fn c ap + olen sig_size osc + olen (@nlen N) osig < packet_limit)%N -> (length (interest_packet fn c ap osc osig) < F)%nat ->
  exists i vs cx, nth 0 vs VNone = VStruct i
    /\ read_packet sha F (new_buffer_reader (interest_packet fn c ap osc osig)) = (do _ <- check_interest sha i (x_sub (nth 0 cx XNone)); Ok (vs, cx))
    /\ read_interest sha F (new_buffer_reader (interest_packet fn c ap osc osig)) = (do _ <- check_interest sha i (x_sub (nth 0 cx XNone)); Ok (i, x_cov (nth 0 (x_sub (nth 0 cx XNone)) XNone))).
Proof.
  intros sha fn c ap osc osig F Hn CO SO OS SZ FU. unfold packet_limit in SZ.
  destruct (any_name fn Hn) as (n & dg & fill & Tn & FNe).
  set (sig := match osig with Some s => s | None => [] end). set (p := mkEPF (nlen sig) dg fill). specialize (FNe (nlen sig)). fold p in FNe.
  assert (EQ : (if (0 <? ep_est p)%N then Some sig else None) = osig).
  { cbn [p ep_est]. destruct osig as [s|]; subst sig; [|reflexivity]. cbn in OS. destruct (N.ltb_spec 0 (nlen s)); [reflexivity|lia]. }
  assert (EB : fs_bytes p sig (m_fields spec_Packet) [VStruct (int_vals n c ap osc); VNone; VNone] = interest_packet fn c ap osc osig).
  { rewrite interest_packet_eq by (auto; reflexivity). rewrite FNe, EQ. reflexivity. }
  assert (LP : (nlen (interest_packet fn c ap osc osig) < 8796093022208)%N).
  { unfold interest_packet. match goal with |- context [tlv 5 ?x] => pose proof (tlv_le 5 x) as X end. unfold params_part in *. rewrite !nlen_app in X. pose proof (opt_tlv_le 46 osig). pose proof (middle_le c). pose proof (signed_params_le ap osc). pose proof (tlv_le 7 (name_enc fn)).
    unfold interest_size in SZ. lia. }
  assert (ZS : zlen (interest_packet fn c ap osc osig) = Z.of_N (nlen (interest_packet fn c ap osc osig))) by (unfold zlen, nlen; lia).
  destruct (parse_ok p sig eq_refl spec_Packet false _ F (new_buffer_reader (interest_packet fn c ap osc osig)) [] eq_refl eq_refl
     (packet_int_shape _ (int_shape n c ap osc)) (packet_int_typed _ (int_typed n c ap osc Tn CO SO))) as (vals & cx & E & SM & LC & _ & CF).
  - rewrite EB. apply at_new_buf. unfold mem_limit. lia.
  - left. exact I.
  - rewrite EB, ZS. unfold size_limit. lia.
  - rewrite EB. exact FU.
  - unfold read_interest, read_packet. rewrite E. cbn [bind].
    pose proof (same_nth _ _ 0 SM) as S0. pose proof (same_nth _ _ 1 SM) as S1. cbn [fs_back m_fields spec_Packet nth fst snd] in S0, S1.
    apply same_none_inv in S1. destruct (same_struct_inv _ _ S0) as (i & E0 & _). exists i, vals, cx. rewrite E0, S1. auto.
Qed.

Lemma interest_accepted : forall sha fn c ap osc osig F, name_typed fn -> interest_config_ok c -> all_of interest_sig_ok osc -> all_of (fun s => (0 < nlen s)%N) osig ->
  (interest_size fn c ap + olen sig_size osc + olen (@nlen N) osig < packet_limit)%N -> (length (interest_packet fn c ap osc osig) < F)%nat ->
  ((exists x, read_interest sha F (new_buffer_reader (interest_packet fn c ap osc osig)) = Ok x)
     <-> match ap with
         | Some _ => exists pre, fn = pre ++ [digest_comp (sha (params_part ap osc osig))]
         | None => osig = None
         end)
  /\ ((exists x, read_packet sha F (new_buffer_reader (interest_packet fn c ap osc osig)) = Ok x)
     <-> exists x, read_interest sha F (new_buffer_reader (interest_packet fn c ap osc osig)) = Ok x).
Proof.
  intros. split; [apply interest_accepted1; auto|].
  destruct (packet_interest sha fn c ap osc osig F) as (i & vs & cx & _ & -> & ->); auto.
  destruct (check_interest sha i (x_sub (nth 0 cx XNone))); cbn [bind]; split; intros [x X]; eauto; discriminate.
Qed.

Lemma interest_changed : forall sha fn c ap osc osig c' a' osc' osig' F, name_typed fn ->
  interest_config_ok c -> all_of interest_sig_ok osc -> all_of (fun s => (0 < nlen s)%N) osig ->
  interest_config_ok c' -> all_of interest_sig_ok osc' -> all_of (fun s => (0 < nlen s)%N) osig' ->
  (interest_size fn c (Some ap) + olen sig_size osc + olen (@nlen N) osig < packet_limit)%N -> (length (interest_packet fn c (Some ap) osc osig) < F)%nat ->
  (interest_size fn c' (Some a') + olen sig_size osc' + olen (@nlen N) osig' < packet_limit)%N -> (length (interest_packet fn c' (Some a') osc' osig') < F)%nat ->
  sha (params_part (Some ap) osc osig) <> sha (params_part (Some a') osc' osig') ->
  forall x y, read_interest sha F (new_buffer_reader (interest_packet fn c (Some ap) osc osig)) = Ok x ->
              read_interest sha F (new_buffer_reader (interest_packet fn c' (Some a') osc' osig')) = Ok y -> False.
Proof.
  intros sha fn c ap osc osig c' a' osc' osig' F T C1 S1 G1 C2 S2 G2 Z1 L1 Z2 L2 NE x y R1 R2.
  destruct (proj1 (interest_accepted1 sha fn c (Some ap) osc osig F T C1 S1 G1 Z1 L1) (ex_intro _ _ R1)) as (p1 & E1).
  destruct (proj1 (interest_accepted1 sha fn c' (Some a') osc' osig' F T C2 S2 G2 Z2 L2) (ex_intro _ _ R2)) as (p2 & E2).
  rewrite E1 in E2. apply app_inj_tail in E2. destruct E2 as [_ E2]. inversion E2. contradiction.
Qed.

Lemma interest_type : forall sha F r i cov, read_interest sha F r = Ok (i, cov) -> i_app_param i <> None ->
  exists n c, i_name i = Some (n ++ [c]) /\ ctyp c = TypeParametersSha256Digest /\ exists b, cval c = sha b.
Proof.
  intros sha F r i cov R A. unfold read_interest in R. destruct (m_parse F spec_Packet false r) as [[vs cx]|e| |]; try discriminate. cbn [bind] in R.
  destruct (nth 0 vs VNone); try discriminate. match type of R with context [check_interest sha ?l ?c] => destruct (check_interest sha l c) eqn:E; try discriminate end. cbn [bind] in R. inversion R; subst. clear R.
  unfold check_interest in E. unfold i_app_param in A. unfold i_name. destruct (nth 2 i VNone); try discriminate. cbn [g_name].
  destruct (nth 11 i VNone); cbn [g_wire] in A; try contradiction. destruct (rev n) as [|c r'] eqn:EN; [discriminate|].
  destruct ((ctyp c =? TypeParametersSha256Digest)%N && _) eqn:ED; [|discriminate]. apply andb_true_iff in ED. destruct ED as [E1 E2]. apply N.eqb_eq in E1. apply bytes_eqb_eq in E2.
  exists (rev r'), c. split; [rewrite <- (rev_involutive n), EN; reflexivity|eauto].
Qed.

(** ** Elements out of place *)
Lemma list32 : forall l : buf, length l = 32%nat -> exists a b c d e f g h a1 b1 c1 d1 e1 f1 g1 h1 a2 b2 c2 d2 e2 f2 g2 h2 a3 b3 c3 d3 e3 f3 g3 h3,
  l = [a; b; c; d; e; f; g; h; a1; b1; c1; d1; e1; f1; g1; h1; a2; b2; c2; d2; e2; f2; g2; h2; a3; b3; c3; d3; e3; f3; g3; h3].
Proof. intros l H. do 32 (destruct l as [|? l]; [discriminate|]). destruct l; [|discriminate]. repeat eexists. Qed.

Lemma check_app : forall sha i cx n w d, nth 2 i VNone = VName (n ++ [digest_comp (sha d)]) -> nth 11 i VNone = VWire w -> concat (x_cov (nth 1 cx XNone)) = d -> check_interest sha i cx = Ok tt.
Proof.
  intros sha i cx n w d E1 E2 E3. unfold check_interest. rewrite E1, E2, E3, rev_app_distr. cbn [rev app digest_comp ctyp cval]. rewrite N.eqb_refl, bytes_eqb_refl. reflexivity.
Qed.

Lemma bypass_parse : forall d x G, length d = 32%nat ->
  exists vs cx i w, m_parse (200 + G) spec_Packet false (new_buffer_reader (tlv 5 (tlv 7 (name_enc [mkComp 8 [65%N]; digest_comp d]) ++ concat (repeat (tlv 200 []) 8) ++ tlv 36 [x]))) = Ok (vs, cx)
    /\ nth 0 vs VNone = VStruct i /\ nth 2 i VNone = VName ([mkComp 8 [65%N]] ++ [digest_comp d]) /\ nth 11 i VNone = VWire w /\ concat w = [x]
    /\ concat (x_cov (nth 1 (x_sub (nth 0 cx XNone)) XNone)) = [].
Proof.
  intros d x G L. destruct (list32 d L) as (?&?&?&?&?&?&?&?&?&?&?&?&?&?&?&?&?&?&?&?&?&?&?&?&?&?&?&?&?&?&?&?&->). clear L.
  eexists _, _, _, _. split; [vm_compute; reflexivity|]. split; [reflexivity|]. split; [reflexivity|]. split; [reflexivity|]. split; reflexivity.
Qed.
Lemma interest_digest_bypass : forall sha, (forall b, length (sha b) = 32%nat /\ bytes_ok (sha b)) -> forall x, (x < 256)%N ->
  let b := tlv 5 (tlv 7 (name_enc [mkComp 8 [65%N]; digest_comp (sha [])]) ++ concat (repeat (tlv 200 []) 8) ++ tlv 36 [x]) in
  forall F, (200 < F)%nat -> exists i cov, read_interest sha F (new_buffer_reader b) = Ok (i, cov)
    /\ option_map (@concat N) (i_app_param i) = Some [x].
Proof.
  intros sha S x Hx b F HF. replace F with (200 + (F - 200))%nat by lia. destruct (bypass_parse (sha []) x (F - 200) (proj1 (S []))) as (vs & cx & i & w & E & E0 & E1 & E2 & EW & E3).
  exists i, (x_cov (nth 0 (x_sub (nth 0 cx XNone)) XNone)). split.
  - unfold read_interest, b. rewrite E. cbn [bind]. rewrite E0. rewrite (check_app sha i _ _ w [] E1 E2 E3). reflexivity.
  - unfold i_app_param. rewrite E2. cbn. rewrite EW. reflexivity.
Qed.

Lemma tail_parse : forall d x G, length d = 32%nat -> (x = 200 \/ x = 202)%N ->
  exists vs cx i w, m_parse (200 + G) spec_Packet false (new_buffer_reader (tlv 5 (tlv 7 (name_enc [mkComp 8 [65%N]; digest_comp d]) ++ tlv 36 [1%N] ++ tlv 33 [] ++ tlv x []))) = Ok (vs, cx)
    /\ nth 0 vs VNone = VStruct i /\ nth 2 i VNone = VName ([mkComp 8 [65%N]] ++ [digest_comp d]) /\ nth 11 i VNone = VWire w
    /\ concat (x_cov (nth 1 (x_sub (nth 0 cx XNone)) XNone)) = tlv 36 [1%N].
Proof.
  intros d x G L Hx. destruct (list32 d L) as (?&?&?&?&?&?&?&?&?&?&?&?&?&?&?&?&?&?&?&?&?&?&?&?&?&?&?&?&?&?&?&?&->). clear L.
  destruct Hx as [-> | ->]; (eexists _, _, _, _; split; [vm_compute; reflexivity|split; [reflexivity|split; [reflexivity|split; reflexivity]]]).
Qed.
Lemma interest_digest_tail : forall sha, (forall b, length (sha b) = 32%nat /\ bytes_ok (sha b)) -> forall x, (x = 200 \/ x = 202)%N ->
  let b := tlv 5 (tlv 7 (name_enc [mkComp 8 [65%N]; digest_comp (sha (tlv 36 [1%N]))]) ++ tlv 36 [1%N] ++ tlv 33 [] ++ tlv x []) in
  forall F, (200 < F)%nat -> exists i cov, read_interest sha F (new_buffer_reader b) = Ok (i, cov).
Proof.
  intros sha S x Hx b F HF. replace F with (200 + (F - 200))%nat by lia. destruct (tail_parse (sha (tlv 36 [1%N])) x (F - 200) (proj1 (S _)) Hx) as (vs & cx & i & w & E & E0 & E1 & E2 & E3).
  exists i, (x_cov (nth 0 (x_sub (nth 0 cx XNone)) XNone)).
  unfold read_interest, b. rewrite E. cbn [bind]. rewrite E0. rewrite (check_app sha i _ _ w _ E1 E2 E3). reflexivity.
Qed.

(** ** The format *)
Lemma name_format : forall n, Forall comp_short n -> name_enc n = concat (map (fun c => tlv (ctyp c) (cval c)) n).
Proof.
  intros n H. unfold name_enc. induction H as [|c n Hc _ IH]; [reflexivity|]. cbn [map concat]. rewrite IH. f_equal. unfold comp_enc, tlv. do 2 f_equal.
  unfold comp_short in Hc. unfold nat_enc, tl_enc. destruct (N.leb_spec (nlen (cval c)) 252), (N.leb_spec (nlen (cval c)) 255); auto; lia.
Qed.

Lemma data_format : forall n c content s sc sig, Forall comp_short n -> data_config_ok c -> data_sig_ok sc ->
  sg_info s = Ok (Some sc) -> (forall cov, concat cov = data_part n c content (Some sc) -> sg_sign s cov = Ok sig) ->
  fits (sg_est s) (nlen sig) -> (data_size n c content + sig_size sc + sg_est s < packet_limit)%N ->
  exists w cov, make_data (Some n) (Some c) content (Some s) = Ok (w, cov)
    /\ concat w = data_packet n c content (Some sc) (Some sig) /\ name_enc n = concat (map (fun c => tlv (ctyp c) (cval c)) n).
Proof.
  intros n c content s sc sig N C S I SG FT SZ.
  destruct (make_data_signed n c content s sc C S I) as (cov & E & _ & _ & K); [destruct FT; lia|exact SZ|].
  destruct (K sig (SG _ E) FT) as (w & M & W & PK). exists w, (Some cov). split; [exact M|]. split; [exact W|]. apply name_format. exact N.
Qed.

Lemma short_base : forall n, Forall comp_short n -> Forall comp_short (base_name n).
Proof.
  intros n H. unfold base_name. destruct (rev n) as [|c r] eqn:E; [exact H|]. destruct (ctyp c =? TypeParametersSha256Digest)%N; [|exact H].
  assert (EN : n = rev r ++ [c]) by (rewrite <- (rev_involutive n), E; reflexivity). rewrite EN in H. apply Forall_app in H. tauto.
Qed.
Lemma interest_format : forall sha n c a s sc sig, (forall b, length (sha b) = 32%nat /\ bytes_ok (sha b)) ->
  Forall comp_short n -> interest_config_ok c -> interest_sig_ok sc ->
  sg_info s = Ok (Some sc) -> (forall cov, concat cov = name_enc (base_name n) ++ signed_params (Some a) (Some sc) -> sg_sign s cov = Ok sig) ->
  (0 < nlen sig <= sg_est s)%N -> (sg_est s < 253)%N -> (interest_size n c (Some a) + sig_size sc < packet_limit)%N ->
  exists w cov fn, make_interest sha (Some n) (Some c) (Some a) (Some s) = Ok (w, cov, fn)
    /\ concat w = interest_packet fn c (Some a) (Some sc) (Some sig) /\ name_enc fn = concat (map (fun c => tlv (ctyp c) (cval c)) fn).
Proof.
  intros sha n c a s sc sig SHA N C S I SG L1 L2 SZ.
  destruct (make_interest_signed sha SHA n c a s sc C S I) as (cov & E & _ & _ & K); [lia|exact SZ|].
  destruct (K sig (SG _ E) L1) as (w & M & W). eexists _, _, _. split; [exact M|]. split; [exact W|]. apply name_format.
  apply Forall_app. split; [apply short_base; exact N|]. constructor; [|constructor]. unfold comp_short, nlen, digest_comp. cbn [cval]. rewrite (proj1 (SHA _)). discriminate.
Qed.

Lemma data_same_covered : forall n c content s sc sig F, name_typed n -> data_config_ok c -> data_sig_ok sc ->
  sg_info s = Ok (Some sc) -> (forall cov, concat cov = data_part n c content (Some sc) -> sg_sign s cov = Ok sig) ->
  fits (sg_est s) (nlen sig) -> (data_size n c content + sig_size sc + sg_est s < packet_limit)%N ->
  forall w cov, make_data (Some n) (Some c) content (Some s) = Ok (w, cov) -> (length (concat w) < F)%nat ->
  exists signed d cov', cov = Some signed /\ sg_sign s signed = Ok sig
    /\ read_data F (new_buffer_reader (concat w)) = Ok (d, cov') /\ concat cov' = concat signed /\ d_sig_value d = Some sig.
Proof.
  intros n c content s sc sig F N C S I SG FT SZ w cov M LF.
  destruct (data_format n c content s sc sig (proj2 N) C S I SG FT SZ) as (w0 & cov0 & M0 & W0 & _). rewrite M in M0. inversion M0; subst w0 cov0. clear M0. rewrite W0 in LF.
  destruct (data_round_trip n c content s sc sig F N C S I SG FT SZ LF) as (w1 & cov1 & d & cov' & M1 & _ & R & D & E1 & E2). rewrite M in M1. inversion M1; subst w1 cov. clear M1.
  exists cov1, d, cov'. split; [reflexivity|]. split; [apply SG; exact E1|]. split; [exact R|]. split; [exact E2|]. apply D.
Qed.
Lemma interest_same_covered : forall sha n c a s sc sig F, (forall b, length (sha b) = 32%nat /\ bytes_ok (sha b)) ->
  name_typed n -> interest_config_ok c -> interest_sig_ok sc ->
  sg_info s = Ok (Some sc) -> (forall cov, concat cov = name_enc (base_name n) ++ signed_params (Some a) (Some sc) -> sg_sign s cov = Ok sig) ->
  (0 < nlen sig <= sg_est s)%N -> (sg_est s < 253)%N -> (interest_size n c (Some a) + sig_size sc + 1000 < packet_limit)%N ->
  forall w cov fn, make_interest sha (Some n) (Some c) (Some a) (Some s) = Ok (w, cov, fn) -> (length (concat w) < F)%nat ->
  exists signed i cov', cov = Some signed /\ sg_sign s signed = Ok sig
    /\ read_interest sha F (new_buffer_reader (concat w)) = Ok (i, cov') /\ concat cov' = concat signed /\ i_sig_value i = sig.
Proof.
  intros sha n c a s sc sig F SHA N C S I SG L1 L2 SZ w cov fn M LF.
  destruct (make_interest_signed sha SHA n c a s sc C S I) as (cov0 & E & _ & _ & K); [lia|lia|].
  destruct (K sig (SG _ E) L1) as (w0 & M0 & W0). rewrite M in M0. inversion M0; subst w0 cov fn. clear M0. rewrite W0 in LF.
  destruct (interest_round_trip sha n c a s sc sig F SHA N C S I SG L1 L2 SZ LF) as (w1 & cov1 & i & cov' & M1 & _ & R & D & E1 & E2). rewrite M in M1. inversion M1; subst w1 cov0. clear M1.
  exists cov1, i, cov'. split; [reflexivity|]. split; [apply SG; exact E1|]. split; [exact R|]. split; [exact E2|]. apply D.
Qed.
