(** Proofs about versioned objects and objects with a manifest. *)
From Coq Require Import Permutation.
From Verif Require Import Base BaseProofs PrimModel PrimProofs NameModel NameProofs OrderProofs TextModel TextProofs TextProofs2 TrieModel TrieSpec ReaderModel CodecModel CodecSpec CodecProofs CodecSpec2 CodecLib CodecPar CodecPar4 SpecModel SpecSpec SpecData SchemaModel StoreModel StoreSpec EngineSpec NeedModel NeedSpec NeedProofs SegModel SegSpec SegProofs SegProofs2 PropsSpec PropsSeg PropsCodec2 RdrSpec ReaderSpec.
From Verif Require Import PropsStore NameProofs.

Lemma reads_content : forall D (l : leaf D) osc f extra n c p r, signs l osc f extra -> name_typed n -> data_config_ok c -> (data_size n c (Some p) + extra < packet_limit)%N ->
  reads_as (packet_of n c p osc f) r -> concat (content_of r) = concat p.
Proof.
  intros D l osc f extra n c p r SG NT DC LIM (F & d & cov & LF & R & RD & RC). unfold packet_of in *.
  set (sg := f (data_part n c (Some p) osc)) in *.
  destruct (signs_len D l osc f extra (data_part n c (Some p) osc) SG) as (A1 & A2 & A3). fold sg in A2, A3.
  destruct (C19_read n c (Some p) osc sg F) as (d' & cov' & R' & DR & _); auto; [lia|].
  assert (d' = d) by congruence. subst d'. destruct DR as (_ & _ & _ & _ & CO & _). unfold content_of. rewrite RC.
  destruct (d_content d); cbn [option_map] in CO; [injection CO as CO; exact CO|discriminate].
Qed.

Lemma readable : forall D (l : leaf D) osc f extra n c p, signs l osc f extra -> name_typed n -> data_config_ok c -> (data_size n c (Some p) + extra < packet_limit)%N ->
  exists r, r_status r = SData /\ reads_as (packet_of n c p osc f) r.
Proof.
  intros D l osc f extra n c p SG NT DC LIM. unfold packet_of. set (sg := f (data_part n c (Some p) osc)).
  destruct (signs_len D l osc f extra (data_part n c (Some p) osc) SG) as (A1 & A2 & A3). fold sg in A2, A3.
  destruct (C19_read n c (Some p) osc sg (S (length (data_packet n c (Some p) osc sg)))) as (d & cov & R & _); auto; [lia|].
  exists (mkRes SData (d_content d) (Some d) None None). split; [reflexivity|]. eexists _, d, cov. split; [|split; [exact R|split; reflexivity]]. lia.
Qed.

(** ** metadata *)
Lemma ver_typed : forall n v, name_typed n -> name_typed (n ++ [ver_comp v]).
Proof. intros n v H. apply name_typed_app; [exact H|]. destruct (num_comp_ok TypeVersion v ltac:(reflexivity)). split; constructor; auto. Qed.
Lemma num_comp_nonempty : forall t v, cval (number_comp t v) <> [].
Proof. intros t v H. cbn [number_comp cval] in H. pose proof (nat_enc_len v) as L. rewrite H in L. cbn in L. lia. Qed.
Lemma comp_enc_num : forall t i, (t < 253)%N -> (nlen (comp_enc (number_comp t i)) <= 10)%N.
Proof.
  intros t i T. unfold comp_enc, number_comp. cbn [ctyp cval]. unfold nlen. rewrite !app_length. replace (length (tl_enc t)) with 1%nat.
  2: { unfold tl_enc. destruct (N.leb_spec t 252); [reflexivity|lia]. }
  pose proof (nat_enc_len i) as H. unfold nlen in H. unfold nat_enc at 1.
  destruct (N.leb_spec (N.of_nat (length (nat_enc i))) 255) as [L|L]; [|lia]. cbn [length]. lia.
Qed.

Lemma meta_size : forall n cnt len, (nlen (meta_bytes n cnt len) <= nlen (name_enc n) + 72)%N.
Proof.
  intros n cnt len. unfold meta_bytes. rewrite !nlen_app. pose proof (tlv_le 7 (name_enc n)). pose proof (tlv_le 26 (comp_enc (seg_comp (cnt - 1)))).
  pose proof (tlv_le 62722 (nat_enc len)). pose proof (comp_enc_seg (cnt - 1)). pose proof (nat_enc_len len). lia.
Qed.

Lemma metadata_ok : forall n cnt content, name_typed n -> no_empty_comp n -> (0 < cnt <= two64)%N -> (nlen (concat content) < two64)%N -> (nlen (name_enc n) + 100 < packet_limit)%N ->
  exists mw, metadata n cnt content = Ok mw /\ concat mw = meta_bytes n cnt (nlen (concat content))
    /\ forall w F, concat w = concat mw -> nonempty_segs w -> (length (concat mw) < F)%nat ->
       exists vs cx, m_parse F rdr_MetaData true (new_wire_reader w) = Ok (vs, cx) /\ nth 0 vs VNone = VName n.
Proof.
  intros n cnt content NT NE C1 LEN LIM. unfold metadata. replace ((cnt + two64 - 1) mod two64)%N with (cnt - 1)%N.
  2: { replace (cnt + two64 - 1)%N with (cnt - 1 + 1 * two64)%N by lia. rewrite N.mod_add by discriminate. symmetry. apply N.mod_small. lia. }
  rewrite comp_bytes_ok. cbn [bind]. rewrite wire_length_ok by exact LEN.
  set (vs := [VName n; VBytes (comp_enc (seg_comp (cnt - 1))); VNone; VNat (nlen (concat content)); VNone; VNone; VNone; VNone; VNone; VNone]).
  assert (SH : fs_shape (m_fields rdr_MetaData) vs) by (unfold fs_shape, vs; cbn [m_fields rdr_MetaData]; repeat constructor).
  assert (TY : fs_typed (m_fields rdr_MetaData) vs).
  { unfold fs_typed, vs. cbn [m_fields rdr_MetaData]. repeat (apply Forall2_cons; [cbn [typed snd]; auto|]). constructor. }
  assert (WS : fs_wire_safe (m_fields rdr_MetaData) vs).
  { unfold fs_wire_safe, vs. cbn [m_fields rdr_MetaData]. repeat (apply Forall2_cons; [cbn [wire_safe snd]; auto|]). constructor. }
  destruct (encode_parts (mkEP 0 false) rdr_MetaData vs eq_refl SH ltac:(discriminate)) as (w & ys & E & C & L).
  assert (FB : fs_bytes (mkEP 0 false) [] (m_fields rdr_MetaData) vs = meta_bytes n cnt (nlen (concat content))).
  { unfold vs, meta_bytes. cbn [m_fields rdr_MetaData fs_bytes k_bytes fst snd]. rewrite !app_nil_r. reflexivity. }
  change (full_hole (mkEP 0 false)) with (@nil N) in L. rewrite FB in L.
  destruct (C16_round_trip_wire (mkEP 0 false) rdr_MetaData vs eq_refl eq_refl SH TY WS eq_refl ltac:(discriminate)) as (w2 & ys2 & E2 & RT).
  { rewrite L. pose proof (meta_size n cnt (nlen (concat content))). unfold size_limit, packet_limit in *. lia. }
  assert (w2 = w) by congruence. subst w2. rewrite E. cbn [bind fst]. exists w. split; [reflexivity|]. split; [rewrite C; exact FB|].
  intros w' F CW NEW LF. destruct (RT w' CW NEW true F LF) as (vs' & cx & P & SM). exists vs', cx. split; [exact P|].
  pose proof (same_nth _ _ 0 SM) as S0. cbn [fs_back m_fields rdr_MetaData nth fst snd vs back] in S0. exact (same_name_inv _ _ S0).
Qed.

(** ** nodes *)
Section Nodes.
  Context {D : Type} (leaf_of : D -> option (leaf D)) (seg_of : D -> option segnode).
  Implicit Types (x t : mnode D) (l lm ln : leaf D).

  Lemma refine_version : forall x s l lm v, has_rdr leaf_of seg_of x s l lm -> exists y, refine x (m_name x ++ [ver_comp v]) = Ok (Some y) /\ m_name y = m_name x ++ [ver_comp v]
    /\ seg_of (s_desc (m_node y)) = Some s /\ has_segments leaf_of y l.
  Proof.
    intros x s l lm v (d & tv & ds & ts & dl & de & tm & dv & dm & N & S & L & M). unfold refine. rewrite is_prefix_app, skipn_len_app, N.
    cbn [negb continue_match ver_comp number_comp ctyp]. cbn [N.eqb TypeVersion TypeParametersSha256Digest TypeImplicitSha256Digest Pos.eqb into s_chd find_edge find fst pat_is_match ctyp continue_match].
    eexists. split; [reflexivity|]. split; [reflexivity|]. cbn [m_node s_desc]. split; [exact S|]. exists ds, ts, dl. auto.
  Qed.
  Lemma refine_meta : forall x s l lm v, has_rdr leaf_of seg_of x s l lm -> exists y, refine x (m_name x ++ [key_metadata; ver_comp v; seg_comp 0]) = Ok (Some y)
    /\ m_name y = m_name x ++ [key_metadata; ver_comp v; seg_comp 0] /\ leaf_of (s_desc (m_node y)) = Some lm.
  Proof.
    intros x s l lm v (d & tv & ds & ts & dl & de & tm & dv & dm & N & S & L & M). unfold refine. rewrite is_prefix_app, skipn_len_app, N. eexists. split.
    - cbn [negb continue_match key_metadata ver_comp number_comp ctyp].
      cbn [N.eqb TypeVersion TypeSegment TypeParametersSha256Digest TypeImplicitSha256Digest Pos.eqb into s_chd find_edge find fst pat_is_match ctyp continue_match seg_comp number_comp].
      reflexivity.
    - split; [reflexivity|exact M].
  Qed.
  Lemma refine_discover : forall x s l lm, has_rdr leaf_of seg_of x s l lm -> exists y, refine x (m_name x ++ [key_metadata]) = Ok (Some y).
  Proof.
    intros x s l lm (d & tv & ds & ts & dl & de & tm & dv & dm & N & S & L & M). unfold refine. rewrite is_prefix_app, skipn_len_app, N. eexists. reflexivity.
  Qed.

  Lemma refine_data : forall x s l lm ln, has_object leaf_of seg_of x s l lm ln -> exists y, refine x (m_name x ++ [key_data]) = Ok (Some y) /\ m_name y = m_name x ++ [key_data]
    /\ seg_of (s_desc (m_node y)) = Some s /\ has_segments leaf_of y l.
  Proof.
    intros x s l lm ln (d & ds & ts & dl & dm & dn & N & S & L & M & K). unfold refine. rewrite is_prefix_app, skipn_len_app, N. eexists. split; [reflexivity|].
    split; [reflexivity|]. split; [exact S|]. exists ds, ts, dl. auto.
  Qed.
  Lemma refine_ometa : forall x s l lm ln, has_object leaf_of seg_of x s l lm ln -> exists y, refine x (m_name x ++ [key_metadata]) = Ok (Some y) /\ m_name y = m_name x ++ [key_metadata]
    /\ leaf_of (s_desc (m_node y)) = Some lm.
  Proof.
    intros x s l lm ln (d & ds & ts & dl & dm & dn & N & S & L & M & K). unfold refine. rewrite is_prefix_app, skipn_len_app, N. eexists. split; [reflexivity|].
    split; [reflexivity|exact M].
  Qed.
  Lemma refine_manifest : forall x s l lm ln, has_object leaf_of seg_of x s l lm ln -> exists y, refine x (m_name x ++ [key_manifest]) = Ok (Some y) /\ m_name y = m_name x ++ [key_manifest]
    /\ leaf_of (s_desc (m_node y)) = Some ln.
  Proof.
    intros x s l lm ln (d & ds & ts & dl & dm & dn & N & S & L & M & K). unfold refine. rewrite is_prefix_app, skipn_len_app, N. eexists. split; [reflexivity|].
    split; [reflexivity|exact K].
  Qed.
End Nodes.

Lemma name_typed_inv : forall n m, name_typed (n ++ m) -> name_typed n.
Proof. intros n m [A B]. apply Forall_app in A, B. split; tauto. Qed.
Lemma key_typed : name_typed [key_metadata] /\ name_typed [key_manifest] /\ name_typed [key_data].
Proof. repeat split; repeat constructor; discriminate. Qed.

Section RdrProvide.
  Context {D : Type} (leaf_of : D -> option (leaf D)) (seg_of : D -> option segnode).
  Implicit Types (x t : mnode D) (l lm ln : leaf D).

  Lemma rdr_provide_ok : forall fresh x s l lm osc f extra osc' f' extra' content now clock later,
    has_rdr leaf_of seg_of x s l lm -> signs l osc f extra -> signs lm osc' f' extra' ->
    let v := timestamp now in
    publishable s (m_name x ++ [ver_comp v]) content extra -> concat content <> [] -> no_empty_comp (m_name x) -> time_ok fresh ->
    (2 * nlen (name_enc (m_name x)) + extra' + 200 < packet_limit)%N ->
    exists y acts ws cnt e mw wm t, rdr_provide leaf_of seg_of fresh x content now clock later = Ok (acts ++ [ASave e], v)
      /\ m_name y = m_name x ++ [ver_comp v] /\ has_segments leaf_of y l /\ seg_provide leaf_of s y content clock = Ok (acts, map Some ws, cnt)
      /\ concat mw = meta_bytes (m_name x ++ [ver_comp v]) cnt (nlen (concat content))
      /\ concat wm = packet_of (m_name x ++ [key_metadata; ver_comp v; seg_comp 0]) (meta_config fresh) mw osc' f'
      /\ ev_raw e = Some wm /\ ev_target e = Some t /\ m_name t = m_name x ++ [key_metadata; ver_comp v; seg_comp 0] /\ ev_dur e = Some (l_valid lm)
      /\ name_typed (m_name x ++ [key_metadata; ver_comp v; seg_comp 0]) /\ data_config_ok (meta_config fresh)
      /\ (data_size (m_name x ++ [key_metadata; ver_comp v; seg_comp 0]) (meta_config fresh) (Some mw) + extra' < packet_limit)%N
      /\ (length ws = N.to_nat cnt)
      /\ forall w F, concat w = concat mw -> nonempty_segs w -> (length (concat mw) < F)%nat ->
         exists vs cx, m_parse F rdr_MetaData true (new_wire_reader w) = Ok (vs, cx) /\ nth 0 vs VNone = VName (m_name x ++ [ver_comp v]).
  Proof.
    intros fresh x s l lm osc f extra osc' f' extra' content now clock later HR SG SG' v PB NE NC TF LIM. unfold rdr_provide. fold v.
    destruct (refine_meta leaf_of seg_of x s l lm v HR) as (tm & R1 & TN & TL). destruct (refine_version leaf_of seg_of x s l lm v HR) as (y & R2 & YN & YS & YH).
    rewrite R1, R2. cbn [bind call_seg_provide]. rewrite YS.
    destruct (seg_provide_ok leaf_of s y l content clock osc f extra YH SG ltac:(rewrite YN; exact PB) NE) as (cnt & es & ws & SP & CE & LE & LW & _).
    rewrite SP. cbn [bind]. pose proof PB as (S0 & _ & LEN & ST & SF & NT & _).
    assert (CB : (0 < cnt < two64)%N). { destruct CE as [CE1 CE]. destruct (concat content); [congruence|]. unfold nlen in *. cbn [length] in *. nia. }
    assert (NL : (nlen (name_enc (m_name x ++ [ver_comp v])) <= nlen (name_enc (m_name x)) + 10)%N).
    { rewrite name_enc_app, nlen_app. unfold name_enc at 2. cbn [map concat]. rewrite app_nil_r. pose proof (comp_enc_num TypeVersion v ltac:(reflexivity)). unfold ver_comp. lia. }
    destruct (metadata_ok (m_name x ++ [ver_comp v]) cnt content NT) as (mw & M1 & M2 & M3).
    { apply Forall_app. split; [exact NC|]. constructor; [apply num_comp_nonempty|constructor]. }
    { lia. } { lia. } { unfold packet_limit in *. lia. }
    rewrite M1. cbn [bind call_provide]. rewrite TL.
    assert (NT3 : name_typed (m_name x ++ [key_metadata; ver_comp v; seg_comp 0])).
    { apply name_typed_app; [apply (name_typed_inv _ [ver_comp v]); exact NT|]. destruct (num_comp_ok TypeVersion v ltac:(reflexivity)). destruct (num_comp_ok TypeSegment 0 ltac:(reflexivity)).
      destruct key_typed as ((K1 & K2) & _). inversion K1; inversion K2; subst. split; repeat (constructor; [assumption|]); constructor. }
    assert (DC : data_config_ok (meta_config fresh)) by (split; [reflexivity|]; split; [exact TF|]; apply num_comp_ok; reflexivity).
    assert (DS : (data_size (m_name x ++ [key_metadata; ver_comp v; seg_comp 0]) (meta_config fresh) (Some mw) + extra' < packet_limit)%N).
    { unfold data_size. cbn [meta_config dc_final olen]. rewrite M2. pose proof (meta_size (m_name x ++ [ver_comp v]) cnt (nlen (concat content))) as MS.
      rewrite name_enc_app, nlen_app. unfold name_enc at 2. cbn [map concat]. rewrite !nlen_app.
      pose proof (comp_enc_num TypeVersion v ltac:(reflexivity)). pose proof (comp_enc_seg 0). change (nlen (comp_enc key_metadata)) with 10%N. change (nlen (@nil N)) with 0%N.
      unfold ver_comp in *. lia. }
    destruct (provide_makes lm tm mw (meta_config fresh) later osc' f' extra' SG') as (wm & e & PM & CW & ET & ED & ER); auto.
    { rewrite TN. exact NT3. } { rewrite TN. exact DS. }
    unfold meta_config in PM. rewrite PM. cbn [bind fst].
    exists y, (map ASave es), ws, cnt, e, mw, wm, tm. rewrite TN in CW. split; [reflexivity|]. split; [exact YN|]. split; [exact YH|]. split; [exact SP|]. split; [exact M2|].
    split; [exact CW|]. split; [exact ER|]. split; [exact ET|]. split; [exact TN|]. split; [exact ED|]. split; [exact NT3|]. split; [exact DC|]. split; [exact DS|].
    split; [exact LW|]. exact M3.
  Qed.
End RdrProvide.

(** ** fetching with a manifest: all or nothing *)
Section FetchMan.
  Context {D : Type} (leaf_of : D -> option (leaf D)).
  Implicit Types (x t : mnode D) (l : leaf D).

  Lemma fetch_man_total : forall rest pre f x l k need frags last, has_segments leaf_of x l -> (0 < k)%nat -> (0 < length rest)%nat -> (N.of_nat (length (pre ++ rest)) < two64)%N ->
    (length rest <= f)%nat ->
    exists ok w r, fetch f x k (pre ++ rest) need (N.of_nat (length pre)) frags last = Ok (ok, frags ++ w, r)
      /\ (ok = true -> exists rs, length rs = length rest /\ w = concat (map content_of rs)
            /\ forall q d r, nth_error rest q = Some d -> nth_error rs q = Some r -> gets k (need (man_name x (N.of_nat (length pre + q)) d)) r)
      /\ (ok = false -> r_status r <> SData)
      /\ ((forall q d, nth_error rest q = Some d -> exists r, gets k (need (man_name x (N.of_nat (length pre + q)) d)) r) -> ok = true).
  Proof.
    induction rest as [|d rest IH]; intros pre f x l k need frags last HS K L0 LT LF; [cbn in L0; lia|].
    destruct f as [|f]; [cbn in LF; lia|].
    assert (NT : nth_error (pre ++ d :: rest) (N.to_nat (N.of_nat (length pre))) = Some d).
    { rewrite Nat2N.id, nth_error_app2 by lia. rewrite Nat.sub_diag. reflexivity. }
    assert (NN : pre ++ d :: rest <> []) by (destruct pre; discriminate).
    destruct (try (need (man_name x (N.of_nat (length pre)) d)) k 0 last) as [ok0 r0] eqn:T.
    rewrite (fetch_man leaf_of f x l k (pre ++ d :: rest) need _ frags last d ok0 r0 HS NN NT T). cbn zeta. destruct ok0; cbn [negb].
    2: { rewrite orb_true_r. exists false, [], r0. rewrite app_nil_r. split; [reflexivity|]. split; [discriminate|].
         pose proof T as G. apply (try_gets_none _ _ last _ K) in G. split; [intros _; destruct G as (_ & N & <-); apply N; lia|].
         intros H. exfalso. destruct (H 0%nat d eq_refl) as (r & GR). rewrite Nat.add_0_r in GR. exact (gets_not_none _ _ _ _ GR G). }
    rewrite orb_false_r. pose proof T as G. apply try_gets in G. rewrite app_length in *. cbn [length] in *. destruct rest as [|d' rest'].
    - cbn [length]. replace (Z.of_N (N.of_nat (length pre)) =? Z.of_nat (length pre + 1) - 1)%Z with true by (symmetry; apply Z.eqb_eq; lia).
      exists true, (content_of r0), r0. split; [reflexivity|]. split; [|split; [discriminate|reflexivity]].
      intros _. exists [r0]. split; [reflexivity|]. split; [cbn [map concat]; rewrite app_nil_r; reflexivity|].
      intros q d2 r2 Q1 Q2. destruct q as [|q]; [|destruct q; discriminate]. cbn [nth_error] in Q1, Q2. injection Q1 as <-. injection Q2 as <-. rewrite Nat.add_0_r. exact G.
    - replace (Z.of_N (N.of_nat (length pre)) =? Z.of_nat (length pre + S (length (d' :: rest'))) - 1)%Z with false by (symmetry; apply Z.eqb_neq; cbn [length]; lia).
      replace (pre ++ d :: d' :: rest') with ((pre ++ [d]) ++ d' :: rest') by (rewrite <- app_assoc; reflexivity).
      replace ((N.of_nat (length pre) + 1) mod two64)%N with (N.of_nat (length (pre ++ [d]))).
      2: { rewrite app_length. cbn [length]. rewrite N.mod_small; [lia|]. cbn [length] in LT. unfold two64 in *. lia. }
      destruct (IH (pre ++ [d]) f x l k need (frags ++ content_of r0) r0 HS K) as (ok & w & r & E & OK & FA & AL); try (cbn [length] in *; rewrite ?app_length in *; cbn [length] in *; lia).
      exists ok, (content_of r0 ++ w), r. rewrite E, <- app_assoc. split; [reflexivity|]. split; [|split; [exact FA|]].
      + intros O. destruct (OK O) as (rs & LR & -> & RS). exists (r0 :: rs). split; [cbn [length] in *; lia|]. split; [reflexivity|].
        intros q d2 r2 Q1 Q2. destruct q as [|q]; cbn [nth_error] in Q1, Q2.
        * injection Q1 as <-. injection Q2 as <-. rewrite Nat.add_0_r. exact G.
        * specialize (RS q d2 r2 Q1 Q2). rewrite app_length in RS. cbn [length] in RS. replace (length pre + S q)%nat with (length pre + 1 + q)%nat by lia. exact RS.
      + intros H. apply AL. intros q d2 Q. destruct (H (S q) d2 Q) as (r2 & GR). exists r2. rewrite app_length. cbn [length]. replace (length pre + 1 + q)%nat with (length pre + S q)%nat by lia. exact GR.
  Qed.

  Lemma pipeline_no_trial : forall F s x l need manifest, has_segments leaf_of x l -> trials (sn_retries s) = 0%nat -> (0 < F)%nat ->
    exists e, pipeline F s x manifest need = Ok e /\ ev_status e = Some SNone.
  Proof.
    intros F s x l need manifest HS K F0. unfold pipeline. rewrite K. destruct F as [|F]; [lia|]. cbn [fetch bind].
    destruct manifest as [|d manifest].
    - cbn [bind]. destruct (refine_seg leaf_of x l 0 HS) as (t & R & _). rewrite R. cbn [bind try negb orb]. destruct t; cbn [bind orb negb]; (eexists; split; reflexivity).
    - cbn [N.to_nat nth_error bind]. destruct (refine_seg_digest leaf_of x l 0 d HS) as (t & R). rewrite R. cbn [bind try negb orb]. rewrite orb_true_r.
      destruct t; cbn [bind]; (eexists; split; reflexivity).
  Qed.
End FetchMan.

(** ** manifests *)
Lemma same_entry : forall i d v, same (VStruct [VNat i; VBytes d]) v -> v = VStruct [VNat i; VBytes d].
Proof.
  intros i d v H. destruct (same_struct_inv _ _ H) as (l' & -> & F). inversion F as [|? a ? la A FA]; subst. inversion FA as [|? b ? lb B FB]; subst. inversion FB; subst.
  inversion A; subst. inversion B; subst. reflexivity.
Qed.
Lemma same_seq_inv : forall l v, same (VSeq l) v -> exists l', v = VSeq l' /\ Forall2 same l l'.
Proof. intros l v H. inversion H; subst; eauto using same_refl_all. Qed.

Lemma entries_bytes : forall digests i, concat (map (k_bytes (mkEP 0 false) [] 202 (KStruct rdr_ManifestDigest false)) (manifest_entries i digests)) = manifest_bytes i digests.
Proof.
  induction digests as [|d ds IH]; intros i; [reflexivity|]. cbn [manifest_entries map concat manifest_bytes]. rewrite IH. f_equal.
  cbn [k_bytes rdr_ManifestDigest fst snd N.to_nat repeat ep_est]. rewrite !app_nil_r. reflexivity.
Qed.

Lemma manifest_size : forall digests i, Forall (fun d => length d = 32%nat) digests -> (nlen (manifest_bytes i digests) <= 100 * N.of_nat (length digests))%N.
Proof.
  induction digests as [|d ds IH]; intros i H; [cbn; lia|]. inversion H as [|? ? H1 H2]; subst. cbn [manifest_bytes length]. rewrite nlen_app. specialize (IH (i + 1)%N H2).
  pose proof (tlv_le 202 (tlv 204 (nat_enc i) ++ tlv 206 d)). rewrite nlen_app in H0. pose proof (tlv_le 204 (nat_enc i)). pose proof (tlv_le 206 d). pose proof (nat_enc_len i).
  assert (nlen d = 32%N) by (unfold nlen; rewrite H1; reflexivity). lia.
Qed.

Lemma manifest_ok : forall digests, Forall (fun d => length d = 32%nat) digests -> (100 * N.of_nat (length digests) < packet_limit)%N ->
  exists nw, manifest_wire digests = Ok nw /\ concat nw = manifest_bytes 0 digests
    /\ forall w F, concat w = concat nw -> nonempty_segs w -> (length (concat nw) < F)%nat ->
       exists vs cx, m_parse F rdr_ManifestData true (new_wire_reader w) = Ok (vs, cx) /\ map entry_digest (g_entries (nth 0 vs VNone)) = digests.
Proof.
  intros digests DL LIM. unfold manifest_wire. set (vs := [VSeq (manifest_entries 0 digests)]).
  assert (SH : fs_shape (m_fields rdr_ManifestData) vs).
  { unfold fs_shape, vs. cbn [m_fields rdr_ManifestData]. constructor; [|constructor]. cbn [shape snd]. generalize 0%N. clear. induction digests; intros i; cbn [manifest_entries]; constructor; auto. cbn. auto. }
  assert (TY : fs_typed (m_fields rdr_ManifestData) vs).
  { unfold fs_typed, vs. cbn [m_fields rdr_ManifestData]. constructor; [|constructor]. cbn [typed snd].
    assert (X : forall ds i, (i + N.of_nat (length ds) < two64)%N -> Forall (fun v => present (KStruct rdr_ManifestDigest false) v /\ typed (KStruct rdr_ManifestDigest false) v) (manifest_entries i ds)).
    { clear. induction ds as [|d ds IH]; intros i L; cbn [manifest_entries]; constructor.
      - split; [cbn; auto; try discriminate|]. cbn [typed rdr_ManifestDigest snd]. cbn [length] in L. repeat split. lia.
      - apply IH. cbn [length] in L. lia. }
    apply X. unfold packet_limit, two64 in *. lia. }
  assert (WS : fs_wire_safe (m_fields rdr_ManifestData) vs).
  { unfold fs_wire_safe, vs. cbn [m_fields rdr_ManifestData]. constructor; [|constructor]. cbn [wire_safe snd]. generalize 0%N. clear. induction digests; intros i; cbn [manifest_entries]; constructor; auto. cbn. auto. }
  destruct (encode_parts (mkEP 0 false) rdr_ManifestData vs eq_refl SH ltac:(discriminate)) as (w & ys & E & C & L).
  assert (FB : fs_bytes (mkEP 0 false) [] (m_fields rdr_ManifestData) vs = manifest_bytes 0 digests).
  { unfold vs. cbn [m_fields rdr_ManifestData fs_bytes fst snd]. rewrite app_nil_r. exact (entries_bytes digests 0%N). }
  change (full_hole (mkEP 0 false)) with (@nil N) in L. rewrite FB in L.
  destruct (C16_round_trip_wire (mkEP 0 false) rdr_ManifestData vs eq_refl eq_refl SH TY WS eq_refl ltac:(discriminate)) as (w2 & ys2 & E2 & RT).
  { rewrite L. pose proof (manifest_size digests 0 DL). unfold size_limit, packet_limit in *. lia. }
  assert (w2 = w) by congruence. subst w2. rewrite E. cbn [bind fst]. exists w. split; [reflexivity|]. split; [rewrite C; exact FB|].
  intros w' F CW NEW LF. destruct (RT w' CW NEW true F LF) as (vs' & cx & P & SM). exists vs', cx. split; [exact P|].
  pose proof (same_nth _ _ 0 SM) as S0. unfold vs in S0. cbn [fs_back m_fields rdr_ManifestData nth snd] in S0. cbn [back] in S0.
  destruct (same_seq_inv _ _ S0) as (l' & -> & F2). cbn [g_entries]. revert F2. generalize 0%N. clear. intros i F2. revert i l' F2.
  induction digests as [|d ds IH]; intros i l' F2; cbn [manifest_entries map] in F2; inversion F2 as [|? v ? l2 A B]; subst; [reflexivity|].
  cbn [back rdr_ManifestDigest snd] in A. rewrite (same_entry _ _ _ A). cbn [map entry_digest]. f_equal. exact (IH _ _ B).
Qed.

Section ObjProvide.
  Context {D : Type} (leaf_of : D -> option (leaf D)) (seg_of : D -> option segnode) (sha : buf -> buf).
  Implicit Types (x t : mnode D) (l lm ln : leaf D).

  Lemma manifest_of_some : forall ws, manifest_of sha (map Some ws) = map (fun w => sha (concat w)) ws.
  Proof. intros ws. unfold manifest_of. rewrite map_map. reflexivity. Qed.

  Lemma gen_provide_ok : forall mfresh nfresh x s l lm ln osc f extra osc' f' extra' osc2 f2 extra2 content clock later1 later2,
    (forall b, length (sha b) = 32%nat) ->
    has_object leaf_of seg_of x s l lm ln -> signs l osc f extra -> signs lm osc' f' extra' -> signs ln osc2 f2 extra2 ->
    publishable s (m_name x ++ [key_data]) content extra -> concat content <> [] -> no_empty_comp (m_name x) -> time_ok mfresh -> time_ok nfresh ->
    (2 * nlen (name_enc (m_name x)) + extra' + 200 < packet_limit)%N ->
    (nlen (name_enc (m_name x)) + 100 * (nlen (concat content) / sn_size s) + extra2 + 200 < packet_limit)%N ->
    exists y acts ws cnt e e2 mw wm nw wn t, gen_provide leaf_of seg_of sha mfresh nfresh x content clock later1 later2 = Ok (acts ++ [ASave e] ++ [ASave e2], cnt)
      /\ m_name y = m_name x ++ [key_data] /\ has_segments leaf_of y l /\ seg_provide leaf_of s y content clock = Ok (acts, map Some ws, cnt) /\ length ws = N.to_nat cnt /\ (0 < cnt < two64)%N
      /\ concat mw = meta_bytes (m_name x ++ [key_data]) cnt (nlen (concat content))
      /\ concat wm = packet_of (m_name x ++ [key_metadata]) (plain_config mfresh) mw osc' f' /\ ev_raw e = Some wm
      /\ concat nw = manifest_bytes 0 (map (fun w => sha (concat w)) ws)
      /\ concat wn = packet_of (m_name x ++ [key_manifest]) (plain_config nfresh) nw osc2 f2 /\ ev_raw e2 = Some wn
      /\ ev_target e2 = Some t /\ m_name t = m_name x ++ [key_manifest] /\ ev_dur e2 = Some (l_valid ln)
      /\ name_typed (m_name x ++ [key_manifest]) /\ data_config_ok (plain_config nfresh)
      /\ (data_size (m_name x ++ [key_manifest]) (plain_config nfresh) (Some nw) + extra2 < packet_limit)%N
      /\ forall w F, concat w = concat nw -> nonempty_segs w -> (length (concat nw) < F)%nat ->
         exists vs cx, m_parse F rdr_ManifestData true (new_wire_reader w) = Ok (vs, cx) /\ map entry_digest (g_entries (nth 0 vs VNone)) = map (fun w => sha (concat w)) ws.
  Proof.
    intros mfresh nfresh x s l lm ln osc f extra osc' f' extra' osc2 f2 extra2 content clock later1 later2 SHA HO SG SG' SG2 PB NE NC TM TN LIM LIM2. unfold gen_provide.
    destruct (refine_data leaf_of seg_of x s l lm ln HO) as (y & R1 & YN & YS & YH). destruct (refine_ometa leaf_of seg_of x s l lm ln HO) as (tm & R2 & TMN & TML).
    destruct (refine_manifest leaf_of seg_of x s l lm ln HO) as (tn & R3 & TNN & TNL).
    rewrite R1. cbn [bind call_seg_provide]. rewrite YS.
    destruct (seg_provide_ok leaf_of s y l content clock osc f extra YH SG ltac:(rewrite YN; exact PB) NE) as (cnt & es & ws & SP & CE & LE & LW & _).
    rewrite SP. cbn [bind]. pose proof PB as (S0 & _ & LEN & ST & SF & NT & _).
    assert (CB : (0 < cnt < two64)%N). { destruct CE as [CE1 CE]. destruct (concat content); [congruence|]. unfold nlen in *. cbn [length] in *. nia. }
    assert (CD : (cnt <= nlen (concat content) / sn_size s + 1)%N).
    { destruct CE as [_ CE]. pose proof (N.div_mod (nlen (concat content)) (sn_size s) ltac:(lia)). pose proof (N.mod_lt (nlen (concat content)) (sn_size s) ltac:(lia)). nia. }
    assert (KL : forall k, In k [key_data; key_metadata; key_manifest] -> (nlen (name_enc (m_name x ++ [k])) <= nlen (name_enc (m_name x)) + 10)%N).
    { intros k K. rewrite name_enc_app, nlen_app. unfold name_enc at 2. cbn [map concat]. rewrite app_nil_r.
      assert (nlen (comp_enc k) <= 10)%N by (destruct K as [<-|[<-|[<-|[]]]]; vm_compute; discriminate). lia. }
    assert (NTX : name_typed (m_name x)) by (apply (name_typed_inv _ [key_data]); exact NT).
    destruct key_typed as (K1 & K2 & K3).
    rewrite R2. cbn [bind].
    destruct (metadata_ok (m_name x ++ [key_data]) cnt content NT) as (mw & M1 & M2 & M3).
    { apply Forall_app. split; [exact NC|]. constructor; [discriminate|constructor]. }
    { lia. } { lia. } { pose proof (KL key_data ltac:(left; reflexivity)). unfold packet_limit in *. lia. }
    rewrite M1. cbn [bind call_provide]. rewrite TML.
    assert (DC : forall z, time_ok z -> data_config_ok (plain_config z)) by (intros z Z; split; [reflexivity|]; split; [exact Z|exact I]).
    destruct (provide_makes lm tm mw (plain_config mfresh) later1 osc' f' extra' SG') as (wm & e & PM & CW & ET & ED & ER); auto.
    { rewrite TMN. apply name_typed_app; auto. }
    { rewrite TMN. unfold data_size. cbn [plain_config dc_final olen]. rewrite M2. pose proof (meta_size (m_name x ++ [key_data]) cnt (nlen (concat content))).
      pose proof (KL key_data ltac:(left; reflexivity)). pose proof (KL key_metadata ltac:(right; left; reflexivity)). lia. }
    unfold plain_config in PM. rewrite PM. cbn [bind fst]. rewrite R3. cbn [bind]. rewrite manifest_of_some.
    assert (DL : Forall (fun d => length d = 32%nat) (map (fun w => sha (concat w)) ws)) by (apply Forall_map, Forall_forall; intros; apply SHA).
    assert (ML : (100 * N.of_nat (length (map (fun w => sha (concat w)) ws)) <= 100 * (nlen (concat content) / sn_size s) + 100)%N) by (rewrite map_length, LW; lia).
    destruct (manifest_ok (map (fun w => sha (concat w)) ws) DL) as (nw & N1 & N2 & N3); [lia|].
    rewrite N1. cbn [bind call_provide]. rewrite TNL.
    assert (NT3 : name_typed (m_name x ++ [key_manifest])) by (apply name_typed_app; auto).
    assert (DS : (data_size (m_name x ++ [key_manifest]) (plain_config nfresh) (Some nw) + extra2 < packet_limit)%N).
    { unfold data_size. cbn [plain_config dc_final olen]. rewrite N2. pose proof (manifest_size (map (fun w => sha (concat w)) ws) 0 DL).
      pose proof (KL key_manifest ltac:(right; right; left; reflexivity)). lia. }
    destruct (provide_makes ln tn nw (plain_config nfresh) later2 osc2 f2 extra2 SG2) as (wn & e2 & PN & CN & ET2 & ED2 & ER2); auto.
    { rewrite TNN. exact NT3. } { rewrite TNN. exact DS. }
    unfold plain_config in PN. rewrite PN. cbn [bind fst].
    rewrite TMN in CW. rewrite TNN in CN.
    exists y, (map ASave es), ws, cnt, e, e2, mw, wm, nw, wn, tn. split; [reflexivity|]. split; [exact YN|]. split; [exact YH|]. split; [exact SP|]. split; [exact LW|]. split; [exact CB|].
    split; [exact M2|]. split; [exact CW|]. split; [exact ER|]. split; [exact N2|]. split; [exact CN|]. split; [exact ER2|]. split; [exact ET2|]. split; [exact TNN|]. split; [exact ED2|].
    split; [exact NT3|]. split; [apply DC; exact TN|]. split; [exact DS|]. exact N3.
  Qed.
End ObjProvide.

Lemma packet_content_len : forall n c p osc f, (nlen (concat p) <= nlen (packet_of n c p osc f))%N.
Proof.
  assert (T : forall t b, (nlen b <= nlen (tlv t b))%N) by (intros; unfold tlv; rewrite !nlen_app; lia).
  intros. unfold packet_of, data_packet. eapply N.le_trans; [|apply T]. unfold data_part. rewrite !nlen_app. cbn [option_map opt_tlv]. pose proof (T 21%N (concat p)). lia.
Qed.

(** ** discovery in a storage *)
Lemma reply_only : forall D (p : point D) ord puts h now n w v rest path nd m i raw cov dl nm b, (forall k l, Permutation l (ord k l)) -> s_puts s_new puts = Ok h ->
  latest puts (n, w, v) -> w <> [] -> at_or_below b n -> (forall q, In q puts -> at_or_below b (fst (fst q)) -> snd (fst q) = w) -> p_search p = mem_search ord h now :: rest ->
  i_name i = Some nm -> bare nm b -> (i_must_be_fresh i = true -> (now < v)%Z) ->
  on_interest p path nd m i raw cov dl = Ok [AReply w].
Proof.
  intros D p ord puts h now n w v rest path nd m i raw cov dl nm b O E L NE AB ONLY P N B F.
  destruct (interest_at_node D p path nd m i raw cov dl nm b N B) as (e0 & acts & _ & _ & _ & _ & _ & T & R & Q & _). rewrite R. f_equal. apply Q. rewrite P.
  assert (M : mem_search ord h now (with_int_cfg (Some (int_flags i)) e0) = Some w); [|destruct w as [|w0 w]; [congruence|]; apply FindHere; exact M].
  unfold mem_search. replace (ev_target (with_int_cfg (Some (int_flags i)) e0)) with (Some (mkM path nd m b)) by (symmetry; exact T).
  change (ev_int_cfg (with_int_cfg (Some (int_flags i)) e0)) with (Some (int_flags i)). cbn [m_name].
  destruct (C39_get puts) as (h' & E' & G). assert (h' = h) by congruence. subst h'. destruct (G ord now b (ic_prefix (int_flags i)) (ic_fresh (int_flags i)) O) as (r & RG & S1 & S2 & _).
  rewrite RG. destruct r as [w'|].
  - destruct (S1 w' eq_refl) as (m' & v' & A1 & (a & c & A2 & _) & _). f_equal. apply (ONLY (m', w', v')); [|exact A1]. rewrite A2. apply in_or_app. right. left. reflexivity.
  - exfalso. apply (S2 eq_refl (n, w, v) L AB). split; auto.
Qed.

Lemma save_all_app : forall D (a b : list (action D)) h clock k, save_all h clock k (a ++ b) = (do h' <- save_all h clock k a; save_all h' clock (k + length a) b).
Proof.
  intros D a b. induction a as [|c a IH]; intros h clock k; cbn [app save_all length].
  - rewrite Nat.add_0_r. reflexivity.
  - destruct c; rewrite ?IH, ?Nat.add_succ_r; try reflexivity.
    match goal with |- context [mem_save ?a ?b ?c] => destruct (mem_save a b c) as [h1| | |]; cbn [bind]; try reflexivity end. rewrite IH. reflexivity.
Qed.

Lemma save_events : forall D (es : list (event D)) puts h clock k, s_puts s_new puts = Ok h ->
  (forall j e, nth_error es j = Some e -> exists t v w, ev_target e = Some t /\ ev_dur e = Some v /\ ev_raw e = Some w) ->
  exists h' more, save_all h clock k (map ASave es) = Ok h' /\ s_puts s_new (puts ++ more) = Ok h'
    /\ forall q, In q more -> exists j e t, nth_error es j = Some e /\ ev_target e = Some t /\ fst (fst q) = m_name t.
Proof.
  intros D. induction es as [|e es IH]; intros puts h clock k E ALL; cbn [map save_all].
  - exists h, []. rewrite app_nil_r. split; [reflexivity|]. split; [exact E|]. intros q [].
  - destruct (ALL 0%nat e eq_refl) as (t & v & w & T & DU & RA). destruct (saved puts h (clock k) e t v w E T DU RA) as (h1 & S1 & S2). rewrite S1. cbn [bind].
    destruct (IH _ h1 clock (S k) S2) as (h' & more & A & B & C); [intros j e' J; apply (ALL (S j) e' J)|].
    exists h', ((m_name t, w, clock k + v)%Z :: more). split; [exact A|]. split; [rewrite <- app_assoc in B; exact B|].
    intros q [<-|Q]; [exists 0%nat, e, t; auto|]. destruct (C q Q) as (j & e' & t' & J & X). exists (S j), e', t'. auto.
Qed.

Lemma concat_map_concat : forall {A} (l : list (list (list A))), concat (concat l) = concat (map (@concat A) l).
Proof. intros A l. induction l as [|a l IH]; [reflexivity|]. cbn [concat map]. rewrite concat_app, IH. reflexivity. Qed.
Lemma nth_error_ext : forall {A} (a b : list A), (forall i, nth_error a i = nth_error b i) -> a = b.
Proof.
  intros A a. induction a as [|x a IH]; intros [|y b] H; try reflexivity; try (specialize (H 0%nat); discriminate).
  pose proof (H 0%nat) as H0. injection H0 as ->. f_equal. apply IH. intros i. exact (H (S i)).
Qed.
