(** Parsing back what was encoded: nested structures and whole models. *)
From Verif Require Import Base BaseProofs PrimModel PrimProofs ReaderModel ReaderSpec ReaderProofs ReaderProofs2 ReaderProofs3 ReaderProofs4 NameModel NameProofs CodecModel CodecSpec CodecProofs CodecEnc CodecEnc2 CodecEnc3 CodecEnc4 CodecEnc5 CodecSpec2 CodecPar CodecPar2 CodecKeep CodecPar3.

Lemma fs_shape_len : forall fs vs, fs_shape fs vs -> length vs = length fs.
Proof. intros fs vs H. induction H; cbn; auto. Qed.

Lemma fs_ctx_eq : forall nc o fs, m_ctx (Model nc o fs) = map (fun f => k_ctx (snd f)) fs.
Proof. reflexivity. Qed.

Lemma typed_struct : forall nc o fs b vs, length vs = length fs -> typed (KStruct (Model nc o fs) b) (VStruct vs) -> fs_typed fs vs.
Proof.
  intros nc o fs b vs L H. cbn [typed] in H. unfold fs_typed. revert vs L H. induction fs as [|f fs IH]; intros [|v vs] L H; try discriminate; constructor.
  - apply H.
  - apply IH; [cbn in L; lia|]. apply H.
Qed.

Lemma wire_safe_struct : forall nc o fs b vs, length vs = length fs -> wire_safe (KStruct (Model nc o fs) b) (VStruct vs) -> fs_wire_safe fs vs.
Proof.
  intros nc o fs b vs L H. cbn [wire_safe] in H. unfold fs_wire_safe. revert vs L H. induction fs as [|f fs IH]; intros [|v vs] L H; try discriminate; constructor.
  - apply H.
  - apply IH; [cbn in L; lia|]. apply H.
Qed.

Lemma back_struct : forall p hole nc o fs b vs, back p hole (KStruct (Model nc o fs) b) (VStruct vs) = VStruct (fs_back p hole fs vs).
Proof.
  intros. cbn [back]. f_equal. revert vs. induction fs as [|f fs IH]; intros [|v vs]; auto. cbn [fs_back]. rewrite IH. reflexivity.
Qed.

Lemma cx_fin_struct : forall p hole nc o fs b vs c, length vs = length fs -> length c = length fs -> covers p hole fs vs c ->
  (forall i, (i < length fs)%nat -> cx_fin p hole (kind_at fs i) (nth i vs VNone) (nth i c XNone)) ->
  cx_fin p hole (KStruct (Model nc o fs) b) (VStruct vs) (XSub c).
Proof.
  intros p hole nc o fs b vs c L1 L2 CV H. cbn [cx_fin]. exists c. split; [auto|]. split; [auto|]. clear CV. unfold kind_at in H.
  revert vs c L1 L2 H. induction fs as [|f fs IH]; intros [|v vs] [|x c] L1 L2 H; try discriminate; auto. split.
  - apply (H 0%nat). cbn. lia.
  - apply IH; try (cbn in *; lia). intros i Hi. apply (H (S i)). cbn. lia.
Qed.

Lemma cx_fin_struct_inv : forall p hole nc o fs b vs x, length vs = length fs -> cx_fin p hole (KStruct (Model nc o fs) b) (VStruct vs) x ->
  exists c, x = XSub c /\ covers p hole fs vs c /\ (forall i, (i < length fs)%nat -> (i < length c)%nat -> cx_fin p hole (kind_at fs i) (nth i vs VNone) (nth i c XNone)).
Proof.
  intros p hole nc o fs b vs x L1 H. cbn [cx_fin] in H. destruct H as (c & E & CV & H). exists c. split; [auto|]. split; [auto|]. clear E CV. unfold kind_at.
  revert vs c L1 H. induction fs as [|f fs IH]; intros [|v vs] [|y c] L1 H i Hi Hc; try discriminate; try (cbn in Hi, Hc; lia).
  destruct H as [H1 H2]. destruct i as [|i]; cbn [map nth]; auto. apply IH; auto; cbn in *; lia.
Qed.

Lemma handlers_eq : forall F fs i, (fix go (i : nat) (fs : list (N * kind)) : list fhandler :=
        match fs with [] => [] | f :: fs' => mkFH (fst f) (snd f) (k_read F (fst f) i (snd f)) :: go (S i) fs' end) i fs = fs_handlers F i fs.
Proof. intros F fs. induction fs as [|f fs IH]; intros i; auto. cbn [fs_handlers]. rewrite IH. reflexivity. Qed.

Lemma pk_struct : forall nc o fs b, pk_ok (KStruct (Model nc o fs) b) = fields_ok o fs.
Proof. reflexivity. Qed.

Section All.
  Context (p : eparams) (hole : buf) (HH : nlen hole = ep_est p).

  Lemma rk_leaf : forall k, leaf_kind k = true -> RK p hole k.
  Proof.
    intros k L F nc t i ic sp old cx r pre b rem v P W PK S T R B A LF LS Hi CO.
    assert (L1 : leaf_single k = true) by (destruct k; try discriminate; reflexivity).
    assert (R0 : is_buf_reader r \/ wire_safe k v).
    { destruct R as [R|(room & FS & _)]; [auto|right]. inversion FS; subst; try discriminate; auto. }
    destruct (read_leaf p hole F nc t i k ic sp old cx r pre b rem v L1 W T R0 B A LF LS) as (v' & r' & E & S' & A' & K').
    exists v', (nth i cx XNone), r'. rewrite upd_same by auto. split; [auto|]. split; [auto|]. split; [auto|]. split; [auto|]. split; [auto|].
    intros _. destruct k; try discriminate; exact I.
  Qed.

  Lemma rk_struct : forall nc' o fs bb, Forall (fun f => RKs p hole (snd f)) fs -> RK p hole (KStruct (Model nc' o fs) bb).
  Proof.
    intros nc' o fs bb IH F nc t i ic sp old cx r pre b rem v P W PK S T R B A LF LS Hi CO.
    destruct v as [| | | | | | |vs| |]; try discriminate. cbn [k_body] in B. injection B as <-.
    apply shape_struct in S. assert (Lv : length vs = length fs) by (apply fs_shape_len; auto).
    apply typed_struct in T; auto. apply wf_struct in W. destruct W as (_ & _ & W). rewrite pk_struct in PK.
    apply cx_ok_struct in CO. destruct CO as (l & EL & CO).
    pose proof CO as CO'. apply cxs_ok_nth in CO'. destruct CO' as [Ll _].
    cbn [k_read]. rewrite to_int_len by (unfold size_limit, Ztwo63 in *; lia).
    destruct (at_delegate_first r pre _ rem A) as (d & r' & p' & E & A1 & A2 & K1 & K2 & K3). rewrite E. cbn [bind fst snd]. rewrite handlers_eq, EL. cbn [x_sub].
    assert (RKf : forall a, (a < length fs)%nat -> RKs p hole (kind_at fs a)).
    { intros a Ha. destruct (at_f fs a Ha) as (f & E1 & E2 & _). rewrite E2. rewrite Forall_forall in IH. apply IH. eapply nth_error_In; eauto. }
    assert (RD : rd_ok p hole fs vs p' d).
    { destruct R as [R|(room & FS & I)]; [left; apply K2; auto|right]. eexists. split; [|apply K3; exact I].
      inversion FS as [room0 t0 k0 v0 WS| | |room0 t0 nc0 o0 fs0 b0 vs0 H]; subst; [|exact H].
      apply wire_safe_struct in WS; auto. intros j Hj. right. constructor. exact (F2_at wire_safe fs vs WS j Hj). }
    destruct (parse_fields p hole HH nc' o ic fs vs F p' l W PK Lv S Ll T RKf LS LF d A1 RD CO) as (vals & c & E3 & S3 & C3 & V3 & F3).
    rewrite E3. exists (VStruct vals), (XSub c), r'. split; [reflexivity|]. rewrite back_struct. split; [constructor; auto|]. split; [auto|]. split; [auto|].
    split; [apply cx_ok_struct; exists c; auto|]. intros EC. rewrite k_ctx_struct in EC. injection EC as EC.
    pose proof C3 as C3'. apply cxs_ok_nth in C3'. destruct C3' as [Lc3 _].
    assert (NC : forall a, (a < length fs)%nat -> nth a l XNone = k_ctx (kind_at fs a)).
    { intros a Ha. rewrite EC, fs_ctx_eq. clear -Ha. unfold kind_at. revert a Ha. induction fs as [|f fs IH]; intros [|a] Ha; cbn in *; try lia; auto. apply IH. lia. }
    apply cx_fin_struct; auto.
    - intros a Ea. rewrite V3 by auto. assert (La : (a < length fs)%nat) by (apply kind_at_lt; congruence). rewrite NC, Ea by auto. reflexivity.
  Qed.

  Lemma rks_all : forall k, RKs p hole k.
  Proof.
    intros k. induction k as [k L|nc o fs b IH|sub IH|key vt val IH1 IH2] using kind_ind2.
    - destruct k; try discriminate; apply rk_leaf; reflexivity.
    - apply rk_struct. exact IH.
    - cbn [RKs]. intros F nc t i ic sp old cx r pre b rem v P. revert F nc t i ic sp old cx r pre b rem v P.
      destruct sub; try exact IH; intros; discriminate.
    - cbn [RKs]. split.
      + destruct key; try exact IH1; intros F nc t i ic sp old cx r pre b rem v P; discriminate.
      + destruct val; try exact IH2; intros F nc t i ic sp old cx r pre b rem v P; discriminate.
  Qed.

  Theorem parse_ok_first : forall m ic vs F r pre,
    wf_model m = true -> parsable m = true -> fs_shape (m_fields m) vs -> fs_typed (m_fields m) vs ->
    At r pre (fs_bytes p hole (m_fields m) vs) -> (is_buf_reader r \/ exists room, fs_first p hole room (m_fields m) vs /\ in_first room r pre) ->
    (zlen (fs_bytes p hole (m_fields m) vs) < size_limit)%Z -> (length (fs_bytes p hole (m_fields m) vs) < F)%nat ->
    exists vals cx, m_parse F m ic r = Ok (vals, cx) /\ Forall2 same (fs_back p hole (m_fields m) vs) vals
      /\ length cx = length (m_fields m) /\ covers p hole (m_fields m) vs cx
      /\ (forall i, (i < length (m_fields m))%nat -> cx_fin p hole (kind_at (m_fields m) i) (nth i vs VNone) (nth i cx XNone)).
  Proof.
    intros [nc o fs] ic vs F r pre W PK S T A R SZ FU. cbn [m_fields] in *. unfold wf_model in W. cbn [m_nocopy m_fields] in W.
    unfold parsable in PK. cbn [m_nocopy] in PK. rewrite pk_struct in PK.
    assert (Lv : length vs = length fs) by (apply fs_shape_len; auto).
    pose proof (m_ctx_ok nc o fs) as CO. pose proof CO as CO'. apply cxs_ok_nth in CO'. destruct CO' as [Lc _].
    destruct (parse_fields p hole HH nc o ic fs vs F pre (m_ctx (Model nc o fs)) W PK Lv S Lc T (fun i _ => rks_all (kind_at fs i)) SZ FU r A R CO) as (vals & cx & E & S3 & C3 & V3 & F3).
    assert (NC : forall a, (a < length fs)%nat -> nth a (m_ctx (Model nc o fs)) XNone = k_ctx (kind_at fs a)).
    { intros a Ha. rewrite fs_ctx_eq. clear -Ha. unfold kind_at. revert a Ha. induction fs as [|f fs IH]; intros [|a] Ha; cbn in *; try lia; auto. apply IH. lia. }
    exists vals, cx. split; [exact E|]. split; [auto|]. apply cxs_ok_nth in C3. destruct C3 as [C3 _]. split; [auto|]. split; [|auto].
    intros a Ea. rewrite V3 by auto. assert (La : (a < length fs)%nat) by (apply kind_at_lt; congruence). rewrite NC, Ea by auto. reflexivity.
  Qed.

  Theorem parse_ok : forall m ic vs F r pre,
    wf_model m = true -> parsable m = true -> fs_shape (m_fields m) vs -> fs_typed (m_fields m) vs ->
    At r pre (fs_bytes p hole (m_fields m) vs) -> (is_buf_reader r \/ fs_wire_safe (m_fields m) vs) ->
    (zlen (fs_bytes p hole (m_fields m) vs) < size_limit)%Z -> (length (fs_bytes p hole (m_fields m) vs) < F)%nat ->
    exists vals cx, m_parse F m ic r = Ok (vals, cx) /\ Forall2 same (fs_back p hole (m_fields m) vs) vals
      /\ length cx = length (m_fields m) /\ covers p hole (m_fields m) vs cx
      /\ (forall i, (i < length (m_fields m))%nat -> cx_fin p hole (kind_at (m_fields m) i) (nth i vs VNone) (nth i cx XNone)).
  Proof.
    intros m ic vs F r pre W PK S T A R SZ FU. apply (parse_ok_first m ic vs F r pre); auto. destruct R as [R|R]; [auto|right].
    destruct (in_first_ex 0 r pre) as (n0 & I). exists (n0 - 0)%Z. split; [|exact I]. intros j Hj. right. constructor. exact (F2_at wire_safe (m_fields m) vs R j Hj).
  Qed.
End All.

Lemma encode_parts : forall p m vs, wf_model m = true -> fs_shape (m_fields m) vs ->
  (m_nocopy m = true -> fs_len p (m_fields m) vs <> 0%N) ->
  exists w ys, m_encode p m vs = Ok (w, ys) /\ concat w = fs_bytes p [] (m_fields m) vs /\ fs_len p (m_fields m) vs = nlen (fs_bytes p (full_hole p) (m_fields m) vs).
Proof.
  intros p m vs W S NE.
  destruct (encode_exact p m vs (if m_nocopy m then map (fun n => repeat 0%N (N.to_nat n)) (m_plan p m vs) else [repeat 0%N (N.to_nat (fs_len p (m_fields m) vs))]) W S) as (w & ys & ys' & E & _ & C & L & _); auto.
  - unfold planned. destruct (m_nocopy m).
    + rewrite map_map. rewrite <- (map_id (m_plan p m vs)) at 2. apply map_ext. intros a. unfold nlen. rewrite repeat_length. lia.
    + eexists. split; [reflexivity|]. unfold nlen. rewrite repeat_length. lia.
  - exists w, ys. auto.
Qed.

Lemma round_trip_at : forall p m vs, wf_model m = true -> parsable m = true ->
  fs_shape (m_fields m) vs -> fs_typed (m_fields m) vs -> ep_est p = 0%N ->
  (m_nocopy m = true -> fs_len p (m_fields m) vs <> 0%N) -> (Z.of_N (fs_len p (m_fields m) vs) < size_limit)%Z ->
  exists w ys, m_encode p m vs = Ok (w, ys) /\ (zlen (concat w) < size_limit)%Z /\
  forall ic F r, At r [] (concat w) -> is_buf_reader r \/ fs_wire_safe (m_fields m) vs -> (length (concat w) < F)%nat ->
    exists vs' cx, m_parse F m ic r = Ok (vs', cx) /\ Forall2 same (fs_back p [] (m_fields m) vs) vs'.
Proof.
  intros p m vs W PK S T E0 NE SZ. destruct (encode_parts p m vs W S NE) as (w & ys & E & C & L). exists w, ys. split; [auto|].
  assert (HH : nlen (@nil N) = ep_est p) by (rewrite E0; reflexivity).
  assert (EF : full_hole p = []) by (unfold full_hole; rewrite E0; reflexivity). rewrite EF, <- C in L.
  rewrite L, zlen_of_nlen in SZ. split; [auto|]. intros ic F r A R LF.
  rewrite C in *. destruct (parse_ok p [] HH m ic vs F r [] W PK S T A R SZ LF) as (vals & cx & E1 & S1 & _). exists vals, cx. auto.
Qed.

Lemma round_trip : forall p m vs, wf_model m = true -> parsable m = true ->
  fs_shape (m_fields m) vs -> fs_typed (m_fields m) vs -> ep_est p = 0%N ->
  (m_nocopy m = true -> fs_len p (m_fields m) vs <> 0%N) -> (Z.of_N (fs_len p (m_fields m) vs) < size_limit)%Z ->
  exists w ys, m_encode p m vs = Ok (w, ys) /\
  forall ic F, (length (concat w) < F)%nat ->
    exists vs' cx, m_parse F m ic (new_buffer_reader (concat w)) = Ok (vs', cx) /\ Forall2 same (fs_back p [] (m_fields m) vs) vs'.
Proof.
  intros p m vs W PK S T E0 NE SZ. destruct (round_trip_at p m vs W PK S T E0 NE SZ) as (w & ys & E & L & H). exists w, ys. split; [auto|].
  intros ic F LF. apply H; auto; [|left; exact I]. apply at_new_buf. unfold size_limit, mem_limit in *. lia.
Qed.

Lemma round_trip_wire : forall p m vs, wf_model m = true -> parsable m = true ->
  fs_shape (m_fields m) vs -> fs_typed (m_fields m) vs -> fs_wire_safe (m_fields m) vs -> ep_est p = 0%N ->
  (m_nocopy m = true -> fs_len p (m_fields m) vs <> 0%N) -> (Z.of_N (fs_len p (m_fields m) vs) < size_limit)%Z ->
  exists w ys, m_encode p m vs = Ok (w, ys) /\
  forall w', concat w' = concat w -> nonempty_segs w' -> forall ic F, (length (concat w) < F)%nat ->
    exists vs' cx, m_parse F m ic (new_wire_reader w') = Ok (vs', cx) /\ Forall2 same (fs_back p [] (m_fields m) vs) vs'.
Proof.
  intros p m vs W PK S T WS E0 NE SZ. destruct (round_trip_at p m vs W PK S T E0 NE SZ) as (w & ys & E & L & H). exists w, ys. split; [auto|].
  intros w' EC NS ic F LF. apply H; auto. rewrite <- EC. apply at_new_wire; auto. rewrite EC. unfold size_limit, mem_limit in *. lia.
Qed.
