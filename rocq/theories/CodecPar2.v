(** Parsing back what was encoded: passing over fields. *)
From Verif Require Import Base BaseProofs PrimModel PrimProofs ReaderModel ReaderSpec ReaderProofs ReaderProofs2 ReaderProofs3 ReaderProofs4 NameModel NameProofs CodecModel CodecSpec CodecProofs CodecEnc CodecEnc2 CodecEnc3 CodecEnc4 CodecSpec2 CodecPar.

(** ** The signature hole *)
Lemma bytes_hole_len : forall p hole, nlen hole = ep_est p -> forall k t v, nlen (k_bytes p hole t k v) = nlen (k_bytes p (full_hole p) t k v).
Proof.
  intros p hole HH k. induction k as [k L|nc o fs b IH|sub IH|key vt val IH1 IH2] using kind_ind2; intros t v.
  - destruct k; try discriminate; destruct v; cbn [k_bytes]; auto; destruct (0 <? ep_est p)%N; auto;
      rewrite !nlen_app; do 2 f_equal; unfold full_hole, nlen in *; rewrite repeat_length; lia.
  - destruct v; auto. rewrite !k_bytes_struct, !nlen_app. do 2 f_equal. clear t b.
    revert vs. induction IH as [|f fs Hf _ IHf]; intros [|v vs]; auto. cbn [fs_bytes]. rewrite !nlen_app, Hf, IHf. reflexivity.
  - destruct v; auto. cbn [k_bytes]. induction l as [|v l IHl]; auto. cbn [map concat]. rewrite !nlen_app, IHl, IH. reflexivity.
  - destruct v; auto. cbn [k_bytes]. induction l as [|v l IHl]; auto. cbn [map concat]. rewrite !nlen_app, IHl, IH1, IH2. reflexivity.
Qed.

Lemma fs_bytes_hole_len : forall p hole, nlen hole = ep_est p -> forall fs vs, nlen (fs_bytes p hole fs vs) = nlen (fs_bytes p (full_hole p) fs vs).
Proof.
  intros p hole HH. induction fs as [|f fs IH]; intros [|v vs]; auto. cbn [fs_bytes]. rewrite !nlen_app, IH, (bytes_hole_len p hole HH). reflexivity.
Qed.

Lemma k_bytes_body : forall p hole, nlen hole = ep_est p -> forall t k v, is_rep k = false ->
  k_bytes p hole t k v = match k_body p hole k v with Some b => tlv t b | None => [] end.
Proof.
  intros p hole HH t k v H. destruct k as [| | | | | | | |[nc o fs] b| | | | | | |]; try discriminate; destruct v; cbn [k_body]; try reflexivity;
    try (cbn [k_bytes]; destruct (0 <? ep_est p)%N; auto; unfold tlv; rewrite HH; reflexivity).
  - cbn [k_bytes]. destruct b; reflexivity.
  - rewrite k_bytes_struct. rewrite <- (fs_bytes_hole_len p hole HH). reflexivity.
Qed.

Definition fields_ok (o : bool) (fs : list (N * kind)) : bool :=
  forallb (fun f => pk_ok (snd f)) fs
  && distinct (elem_types fs)
  && forallb (fun f => if is_marker (snd f) then (fst f =? 0)%N else ((0 <? fst f) && (fst f <? two64))%N) fs
  && (o || forallb (fun f => negb (markful (snd f))) fs).

Lemma forallb_at : forall (P : N * kind -> bool) fs i, forallb P fs = true -> (i < length fs)%nat -> P (typ_at fs i, kind_at fs i) = true.
Proof.
  intros P. unfold typ_at, kind_at. induction fs as [|f fs IH]; intros i H L; [cbn in L; lia|]. cbn [forallb] in H. rewrite andb_true_iff in H.
  destruct H as [H1 H2]. destruct i as [|i]; cbn [map nth]; [destruct f; auto|]. apply IH; auto. cbn in L. lia.
Qed.

Lemma handlers_nth : forall F fs i i0, (i < length fs)%nat ->
  nth_error (fs_handlers F i0 fs) i = Some (mkFH (typ_at fs i) (kind_at fs i) (k_read F (typ_at fs i) (i0 + i) (kind_at fs i))).
Proof.
  intros F. unfold typ_at, kind_at. induction fs as [|f fs IH]; intros i i0 L; [cbn in L; lia|]. destruct i as [|i]; cbn [fs_handlers nth_error map nth].
  - rewrite Nat.add_0_r. reflexivity.
  - rewrite IH by (cbn in L; lia). rewrite <- Nat.add_succ_comm. reflexivity.
Qed.

Lemma handlers_len : forall F fs i0, length (fs_handlers F i0 fs) = length fs.
Proof. intros F. induction fs; intros; cbn; auto. Qed.

Lemma handlers_kinds : forall F fs i0, map (fun h => k_zero (fh_kind h)) (fs_handlers F i0 fs) = map (fun f => k_zero (snd f)) fs.
Proof. intros F. induction fs; intros; cbn; [auto|rewrite IHfs; auto]. Qed.

Lemma find_field_at : forall F fs i i0, distinct (elem_types fs) = true ->
  forallb (fun f => if is_marker (snd f) then (fst f =? 0)%N else ((0 <? fst f) && (fst f <? two64))%N) fs = true ->
  (i < length fs)%nat -> is_marker (kind_at fs i) = false ->
  find_field (typ_at fs i) i0 (fs_handlers F i0 fs) = Some (i0 + i, mkFH (typ_at fs i) (kind_at fs i) (k_read F (typ_at fs i) (i0 + i) (kind_at fs i))).
Proof.
  intros F. unfold typ_at, kind_at. induction fs as [|f fs IH]; intros i i0 D T L M; [cbn in L; lia|].
  cbn [forallb] in T. rewrite andb_true_iff in T. destruct T as [T1 T2].
  destruct i as [|i]; cbn [map nth fs_handlers find_field fh_typ] in *.
  - rewrite M in T1. rewrite N.eqb_refl. destruct (N.eqb_spec (fst f) 0); [lia|]. cbn [negb andb]. rewrite Nat.add_0_r. reflexivity.
  - assert (L' : (i < length fs)%nat) by (cbn in L; lia).
    assert (NE : (negb (fst f =? 0)%N && (fst f =? nth i (map fst fs) 0)%N) = false).
    { destruct (is_marker (snd f)) eqn:Mf; [rewrite T1; reflexivity|]. unfold elem_types in D. cbn [filter] in D. rewrite Mf in D. cbn [negb map distinct] in D.
      rewrite andb_true_iff in D. destruct D as [D _]. rewrite negb_true_iff in D. rewrite andb_false_iff. right.
      destruct (N.eqb_spec (fst f) (nth i (map fst fs) 0%N)) as [E|]; auto. exfalso. rewrite <- not_true_iff_false in D. apply D.
      apply existsb_exists. exists (nth i (map fst fs) 0%N). split; [|apply N.eqb_eq; auto]. clear -M L'. revert i M L'.
      induction fs as [|g fs IH]; intros i M L; [cbn in L; lia|]. destruct i as [|i]; cbn [map nth filter] in *.
      - rewrite M. left. reflexivity.
      - destruct (negb (is_marker (snd g))); [right|]; apply IH; auto; cbn in L; lia. }
    rewrite NE. rewrite <- Nat.add_succ_comm. apply IH; auto.
    unfold elem_types in *. cbn [filter] in D. destruct (negb (is_marker (snd f))); auto. cbn [map distinct] in D. rewrite andb_true_iff in D. tauto.
Qed.

Lemma nth_zero : forall fs i, (i < length fs)%nat -> nth i (map (fun f : N * kind => k_zero (snd f)) fs) VNone = k_zero (kind_at fs i).
Proof. unfold kind_at. induction fs as [|f fs IH]; intros [|i] L; cbn in *; try lia; auto. apply IH. lia. Qed.
Lemma nth_false : forall {A} (l : list A) i, nth i (map (fun _ => false) l) false = false.
Proof. induction l; intros [|i]; cbn; auto. Qed.

Lemma fs_split : forall p h fs vs i, length vs = length fs -> (i < length fs)%nat ->
  fs_bytes p h fs vs = fs_bytes p h (firstn i fs) (firstn i vs) ++ k_bytes p h (typ_at fs i) (kind_at fs i) (nth i vs VNone) ++ fs_bytes p h (skipn (S i) fs) (skipn (S i) vs).
Proof.
  intros p h. unfold typ_at, kind_at. induction fs as [|f fs IH]; intros [|v vs] i L Li; try discriminate; try (cbn in Li; lia).
  destruct i as [|i]; cbn [firstn skipn fs_bytes map nth app]; [reflexivity|]. rewrite (IH vs i) at 1 by (cbn in *; lia). rewrite <- app_assoc. reflexivity.
Qed.

Lemma fs_upto_S : forall p h fs vs i, length vs = length fs -> (i < length fs)%nat ->
  fs_bytes p h (firstn (S i) fs) (firstn (S i) vs) = fs_bytes p h (firstn i fs) (firstn i vs) ++ k_bytes p h (typ_at fs i) (kind_at fs i) (nth i vs VNone).
Proof.
  intros p h. unfold typ_at, kind_at. induction fs as [|f fs IH]; intros [|v vs] i L Li; try discriminate; try (cbn in Li; lia).
  destruct i as [|i]; [cbn [firstn fs_bytes map nth app]; rewrite app_nil_r; reflexivity|]. 
  change (firstn (S (S i)) (f :: fs)) with (f :: firstn (S i) fs). change (firstn (S (S i)) (v :: vs)) with (v :: firstn (S i) vs).
  change (firstn (S i) (f :: fs)) with (f :: firstn i fs). change (firstn (S i) (v :: vs)) with (v :: firstn i vs).
  cbn [fs_bytes map nth]. rewrite (IH vs i) by (cbn in *; lia). rewrite <- app_assoc. reflexivity.
Qed.

Lemma upto_between : forall p h fs vs a b, length vs = length fs -> (a <= b)%nat ->
  fs_bytes p h (firstn b fs) (firstn b vs) = fs_bytes p h (firstn a fs) (firstn a vs) ++ bytes_between p h fs vs a b.
Proof.
  intros p h fs vs a b L Lab. unfold bytes_between. rewrite <- fs_bytes_app.
  - assert (X : forall {A} (l : list A), firstn b l = firstn a l ++ skipn a (firstn b l)).
    { intros A l. rewrite <- (firstn_skipn a (firstn b l)) at 1. rewrite firstn_firstn, Nat.min_l by lia. reflexivity. }
    rewrite <- !X. reflexivity.
  - rewrite !firstn_length. lia.
Qed.

Lemma covered_S : forall p h fs vs a i acc, covered p h fs vs a (S i) acc = cover_step p h fs vs a (covered p h fs vs a i acc) i.
Proof. intros. unfold covered. rewrite seq_S, fold_left_app. reflexivity. Qed.

Lemma cxs_ok_nth : forall fs l, cxs_ok fs l <-> length l = length fs /\ forall i, (i < length fs)%nat -> cx_ok (kind_at fs i) (nth i l XNone).
Proof.
  unfold cxs_ok, kind_at. induction fs as [|f fs IH]; intros [|x l]; split; intros H.
  - split; auto. intros i Hi. cbn in Hi. lia.
  - constructor.
  - inversion H.
  - destruct H. discriminate.
  - inversion H.
  - destruct H. discriminate.
  - inversion H; subst. apply IH in H5. destruct H5 as [E1 E2]. split; [cbn; lia|]. intros [|i] Hi; cbn [map nth]; auto. apply E2. cbn in Hi. lia.
  - destruct H as [H1 H2]. constructor; [apply (H2 0); cbn; lia|]. apply IH. split; [cbn in H1; lia|]. intros i Hi. apply (H2 (S i)). cbn; lia.
Qed.

Lemma cx_ok_struct : forall nc o fs b x, cx_ok (KStruct (Model nc o fs) b) x <-> exists l, x = XSub l /\ cxs_ok fs l.
Proof.
  intros. cbn [cx_ok].
  assert (X : forall l, (fix go (fs : list (N * kind)) (l : list pcx) : Prop :=
         match fs, l with [], [] => True | f :: fs', x :: l' => cx_ok (snd f) x /\ go fs' l' | _, _ => False end) fs l <-> cxs_ok fs l).
  { unfold cxs_ok. induction fs as [|f fs IH]; intros [|y l]; split; intros H; auto; try contradiction; try (inversion H; fail).
    - destruct H. constructor; auto. apply IH; auto.
    - inversion H; subst. split; auto. apply IH; auto. }
  split; intros (l & E & H); exists l; (split; [auto|apply X; auto]).
Qed.

Lemma k_ctx_ok : forall k, cx_ok k (k_ctx k).
Proof.
  intros k. induction k as [k L|nc o fs b IH|sub IH|key vt val IH1 IH2] using kind_ind2; auto.
  - destruct k; try discriminate; cbn; auto.
  - cbn [cx_ok k_ctx]. eexists. split; [reflexivity|]. induction IH; auto.
Qed.

Lemma k_ctx_struct : forall nc o fs b, k_ctx (KStruct (Model nc o fs) b) = XSub (m_ctx (Model nc o fs)).
Proof. reflexivity. Qed.

Lemma m_ctx_ok : forall nc o fs, cxs_ok fs (m_ctx (Model nc o fs)).
Proof. intros. unfold cxs_ok, m_ctx. cbn [m_fields]. induction fs; constructor; auto. apply k_ctx_ok. Qed.

Lemma F2_at : forall (P : kind -> value -> Prop) fs vs, Forall2 (fun f v => P (snd f) v) fs vs ->
  forall i, (i < length fs)%nat -> P (kind_at fs i) (nth i vs VNone).
Proof.
  intros P fs vs H. unfold kind_at. induction H as [|f v fs0 vs0 H _ IH]; intros i Hi; [cbn in Hi; lia|].
  destruct i as [|i]; cbn [map nth]; auto. apply IH. cbn in Hi. lia.
Qed.

Lemma at_f : forall fs i, (i < length fs)%nat -> exists f, nth_error fs i = Some f /\ kind_at fs i = snd f /\ typ_at fs i = fst f.
Proof.
  intros fs i Hi. destruct (nth_error fs i) as [f|] eqn:E; [|apply nth_error_None in E; lia]. exists f. split; auto.
  split; [apply kind_at_eq; auto|apply typ_at_eq; auto].
Qed.

Section Pass.
  Context (p : eparams) (hole : buf) (HH : nlen hole = ep_est p).
  Context (nc o : bool) (fs : list (N * kind)) (vs : list value) (F : nat) (pre0 : buf) (cx0 : list pcx).
  Context (WF : wf_fields nc fs = true) (OK : fields_ok o fs = true) (Lv : length vs = length fs).
  Context (SH : fs_shape fs vs) (Lc : length cx0 = length fs).

  Local Notation upto i := (fs_bytes p hole (firstn i fs) (firstn i vs)).
  Local Notation V i := (nth i vs VNone).
  Local Notation K i := (kind_at fs i).
  Local Notation T i := (typ_at fs i).
  Local Notation kb i := (k_bytes p hole (T i) (K i) (V i)).

  Lemma shape_at : forall i, (i < length fs)%nat -> shape (K i) (V i).
  Proof. exact (F2_at shape fs vs SH). Qed.

  Definition skippable (i : nat) (v : value) : Prop :=
    (is_rep (K i) = true /\ same (back p hole (K i) (V i)) v)
    \/ (is_rep (K i) = false /\ k_body p hole (K i) (V i) = None /\ v = k_zero (K i)).

  Definition CXI (q j : nat) (cx : list pcx) : Prop :=
    length cx = length fs
    /\ (forall i, (i < q)%nat -> K i = KOffset -> x_off (nth i cx XNone) = zlen (pre0 ++ upto i))
    /\ (forall a, K a = KArg -> concat (x_cov (nth a cx XNone)) = covered p hole fs vs a q (concat (x_cov (nth a cx0 XNone))))
    /\ (forall i, (i < length fs)%nat -> cx_ok (K i) (nth i cx XNone))
    /\ (forall i s n, (j <= i)%nat -> K i = KStruct s n -> nth i cx XNone = nth i cx0 XNone)
    /\ (forall i, (i < j)%nat -> nth i cx0 XNone = k_ctx (K i) -> cx_fin p hole (K i) (V i) (nth i cx XNone)).

  (** the reader, when it is asked for ranges *)
  Definition RDB (i : nat) (r : reader) : Prop := match K i with KRange _ _ => is_buf_reader r | _ => True end /\ exists pr rm, At r pr rm /\ pr ++ rm = pre0 ++ fs_bytes p hole fs vs.

  Lemma pass_one : forall i j sp v cx r, (i < length fs)%nat -> CXI i j cx -> skippable i v ->
    (markful (K i) = true -> RDB i r /\ sp = zlen (pre0 ++ upto i)) ->
    exists v' cx', k_skip (T i) (K i) i sp v cx r = Ok (None, v', cx', r) /\ CXI (S i) j cx' /\ same (back p hole (K i) (V i)) v'.
  Proof.
    intros i j sp v cx r Hi HC SK HR. pose proof (shape_at i Hi) as Si.
    destruct (markful (K i)) eqn:MK.
    2:{ assert (C' : CXI (S i) j cx).
        { destruct HC as (H1 & H2 & H3 & H4 & H5 & H6). split; [auto|]. split; [|split; [|auto]].
          - intros a Ha E. destruct (Nat.eq_dec a i) as [->|]; [rewrite E in MK; discriminate|]. apply H2; auto. lia.
          - intros a E. rewrite covered_S, H3 by auto. unfold cover_step. destruct (K i); try discriminate; reflexivity. }
        destruct SK as [[R S]|(R & B & ->)].
        - exists v, cx. destruct (K i); try discriminate; cbn [k_skip]; auto.
        - destruct (K i) as [[]|w []|[]| |[]| | | |[snc so sfs] snn| | | | | | |]; try discriminate; destruct (V i) as [| | | | | |[]| | |]; cbn [k_body shape k_skip back k_zero] in *;
            try discriminate; try contradiction; try (eexists _, cx; split; [reflexivity|]; split; [exact C'|constructor]). }
    destruct (HR eq_refl) as [[RB (pr & rm & RA & RE)] ->]. clear HR.
    destruct SK as [[R _]|(R & B & ->)]; [destruct (K i); discriminate|].
    destruct HC as (H1 & H2 & H3 & H4 & H5 & H6).
    assert (Wm : wf_mark nc fs i (K i) = true).
    { destruct (at_f fs i Hi) as (f & E1 & E2 & _). rewrite E2. apply (wf_mark_at nc fs i f WF E1). }
    assert (NA : forall a cx', K a = KArg -> K i <> KArg -> nth a (upd cx i cx') XNone = nth a cx XNone).
    { intros a cx' E NE. apply upd_nth_other. congruence. }
    destruct (K i) eqn:EK; try discriminate; cbn [k_skip k_zero].
    - (* KArg *) exists VNone, cx. destruct (V i) eqn:EV; try contradiction. cbn [back]. split; [reflexivity|]. split; [|constructor].
      split; [auto|]. split; [|split; [|auto]].
      + intros a Ha E. destruct (Nat.eq_dec a i) as [->|]; [congruence|]. apply H2; auto. lia.
      + intros a E. rewrite covered_S, H3 by auto. unfold cover_step. rewrite EK. reflexivity.
    - (* KOffset *) eexists VNone, _. destruct (V i) eqn:EV; try contradiction. cbn [back]. split; [reflexivity|]. split; [|constructor].
      split; [rewrite upd_length; auto|]. split; [|split; [|split; [|split]]].
      + intros a Ha E. destruct (Nat.eq_dec a i) as [->|].
        * rewrite upd_nth by lia. reflexivity.
        * rewrite upd_nth_other by auto. apply H2; auto. lia.
      + intros a E. rewrite covered_S, NA, H3 by (auto; congruence). unfold cover_step. rewrite EK. reflexivity.
      + intros a Ha. destruct (Nat.eq_dec a i) as [->|]; [rewrite EK; cbn; auto|]. rewrite upd_nth_other by auto. auto.
      + intros a s n Ha E. rewrite upd_nth_other by congruence. eauto.
      + intros a Ha E. destruct (Nat.eq_dec a i) as [->|]; [rewrite EK; cbn; auto|]. rewrite upd_nth_other by auto. auto.
    - (* KRange *) cbn [wf_mark] in Wm. rewrite !andb_true_iff, Nat.ltb_lt in Wm. destruct Wm as ((W1 & W2) & W3).
      assert (E2 : K start = KOffset) by (destruct (K start); try discriminate; auto).
      assert (E3 : K covered = KArg) by (destruct (K covered); try discriminate; auto).
      assert (Lcv : (covered < length fs)%nat) by (apply kind_at_lt; congruence).
      rewrite upd_nth_other by lia. rewrite (H2 start W1 E2).
      assert (EU : upto i = upto start ++ bytes_between p hole fs vs start i) by (apply upto_between; lia).
      rewrite EU, app_assoc.
      rewrite (at_range r pr rm (pre0 ++ upto start) (bytes_between p hole fs vs start i) (kb i ++ fs_bytes p hole (skipn (Datatypes.S i) fs) (skipn (Datatypes.S i) vs))); auto.
      2:{ rewrite RE. rewrite (fs_split p hole fs vs i) by auto. rewrite EU. rewrite <- !app_assoc. reflexivity. }
      cbn [bind opt_wire]. eexists VNone, _. destruct (V i) eqn:EV; try contradiction. cbn [back]. split; [reflexivity|]. split; [|constructor].
      split; [rewrite !upd_length; auto|]. split; [|split; [|split; [|split]]].
      + intros a Ha E. destruct (Nat.eq_dec a i) as [->|]; [congruence|]. rewrite !upd_nth_other by congruence. apply H2; auto. lia.
      + intros a E. rewrite covered_S. unfold cover_step. rewrite EK. destruct (Nat.eqb_spec covered a) as [->|].
        * rewrite upd_nth by (rewrite upd_length; lia). cbn [x_cov concat]. rewrite app_nil_r. destruct (V i); reflexivity.
        * rewrite upd_nth_other by auto. rewrite NA, H3 by (auto; congruence). destruct (V i); reflexivity.
      + intros a Ha. destruct (Nat.eq_dec a i) as [->|]; [rewrite EK; cbn; auto|]. destruct (Nat.eq_dec covered a) as [<-|]; [rewrite E3; cbn; auto|].
        rewrite !upd_nth_other by auto. auto.
      + intros a s n Ha E. rewrite !upd_nth_other by congruence. eauto.
      + intros a Ha E. destruct (Nat.eq_dec a i) as [->|]; [rewrite EK; cbn; auto|]. destruct (Nat.eq_dec covered a) as [<-|]; [rewrite E3; cbn; auto|].
        rewrite !upd_nth_other by auto. auto.
    - (* KSig *) assert (E0 : (0 <? ep_est p)%N = false) by (cbn [k_body] in B; destruct (0 <? ep_est p)%N; [discriminate|auto]).
      exists VNone, cx. cbn [back]. rewrite E0. split; [reflexivity|]. split; [|constructor].
      split; [auto|]. split; [|split; [|auto]].
      + intros a Ha E. destruct (Nat.eq_dec a i) as [->|]; [congruence|]. apply H2; auto. lia.
      + intros a E. rewrite covered_S, H3 by auto. unfold cover_step. rewrite EK, E0, andb_false_r. reflexivity.
    - (* KIName *) exists VNone, cx. destruct (V i) eqn:EV; try contradiction; [|cbn in B; discriminate]. cbn [back]. split; [reflexivity|]. split; [|constructor].
      split; [auto|]. split; [|split; [|auto]].
      + intros a Ha E. destruct (Nat.eq_dec a i) as [->|]; [congruence|]. apply H2; auto. lia.
      + intros a E. rewrite covered_S, H3 by auto. unfold cover_step. rewrite EK, EV. reflexivity.
  Qed.
End Pass.
