(** Encoding: every field, every model; what the encoder records about marked places. *)
From Verif Require Import Base BaseProofs PrimModel PrimProofs ReaderModel ReaderProofs ReaderProofs2 NameModel NameProofs CodecModel CodecSpec CodecProofs CodecEnc CodecEnc2.

(** ** What is recorded *)
Definition val_at (vs : list value) (i : nat) : value := nth i vs VNone.
Definition typ_at (fs : list (N * kind)) (i : nat) : N := nth i (map fst fs) 0%N.
Definition toks_before p nc fs vs i := fs_toks p nc (firstn i fs) (firstn i vs).

Definition off_ok (p : eparams) (nc : bool) (fs : list (N * kind)) (vs : list value) (i : nat) (y : ecx) : Prop :=
  exists o ix ps, y = YOff o ix ps /\ o = fs_len p (firstn i fs) (firstn i vs)
    /\ (fs_toks p nc (skipn i fs) (skipn i vs) <> [] ->
        ix = length (fst (tsplit ([], []) (toks_before p nc fs vs i)))
        /\ ps = zlen (snd (tsplit ([], []) (toks_before p nc fs vs i)))).

(** the part of a name that is covered, and what precedes the value of its last component *)
Definition cov_name (p : eparams) (n : name) : buf :=
  if ep_digest p then name_enc (removelast (final_name p n)) else name_enc (final_name p n).

Definition mark_ok (p : eparams) (nc : bool) (fs : list (N * kind)) (vs : list value) (i : nat) (y : ecx) : Prop :=
  match kind_at fs i, val_at vs i with
  | KOffset, _ | KRange _ _, _ => off_ok p nc fs vs i y
  | KSig _ _, _ => (0 < ep_est p)%N -> y = YSig (S (length (fst (tsplit ([], []) (toks_before p nc fs vs i)))))
  | KIName _, VName n => final_name p n <> [] ->
      y = YName 0 (zlen (fs_bytes p [] (firstn i fs) (firstn i vs) ++ tl_enc (typ_at fs i)
                         ++ tl_enc (name_len (final_name p n)) ++ name_enc (removelast (final_name p n))) + 2)%Z
  | _, _ => True
  end.

(** what field [i] adds to the covered argument [a] *)
Definition contrib (p : eparams) (fs : list (N * kind)) (vs : list value) (a i : nat) : buf :=
  match kind_at fs i, val_at vs i with
  | KIName cv, VName n => if (cv =? a)%nat then cov_name p n else []
  | KSig st cv, _ => if (cv =? a)%nat && (0 <? ep_est p)%N then fs_bytes p [] (skipn st (firstn i fs)) (skipn st (firstn i vs)) else []
  | _, _ => []
  end.
Definition cov_upto (p : eparams) (fs : list (N * kind)) (vs : list value) (a j : nat) : buf :=
  concat (map (contrib p fs vs a) (seq 0 j)).

Definition MARKS (p : eparams) (nc : bool) (fs : list (N * kind)) (vs : list value) (j : nat) (ys : list ecx) : Prop :=
  length ys = length fs
  /\ (forall i, (i < j)%nat -> mark_ok p nc fs vs i (nth i ys YNone))
  /\ (forall a, kind_at fs a = KArg -> concat (y_cov (nth a ys YNone)) = cov_upto p fs vs a j).

Fixpoint yfin (p : eparams) (k : kind) (v : value) (y : ecx) {struct k} : Prop :=
  match k, v with
  | KStruct (Model nc' _ fs) _, VStruct vs =>
      (0 < fs_len p fs vs)%N -> exists ys, y = YSub ys /\ MARKS p nc' fs vs (length fs) ys
        /\ (fix go (fs : list (N * kind)) (vs : list value) (ys : list ecx) : Prop :=
              match fs, vs, ys with
              | f :: fs', v :: vs', y :: ys' => yfin p (snd f) v y /\ go fs' vs' ys'
              | _, _, _ => True
              end) fs vs ys
  | _, _ => True
  end.

Definition YF (p : eparams) (fs : list (N * kind)) (vs : list value) (j : nat) (ys : list ecx) : Prop :=
  forall i, (i < j)%nat -> yfin p (kind_at fs i) (val_at vs i) (nth i ys YNone).

Lemma yfin_struct : forall p nc' o fs b vs ys, MARKS p nc' fs vs (length fs) ys -> length vs = length fs -> YF p fs vs (length fs) ys ->
  yfin p (KStruct (Model nc' o fs) b) (VStruct vs) (YSub ys).
Proof.
  intros p nc' o fs b vs ys M Lv F. cbn [yfin]. intros _. exists ys. split; auto. split; auto.
  destruct M as (Ly & _). unfold YF, kind_at, val_at in F. clear -F Lv Ly.
  revert vs ys Lv Ly F. induction fs as [|f fs IH]; intros [|v vs] [|y ys] Lv Ly F; auto; try discriminate.
  split.
  - apply (F 0%nat). cbn. lia.
  - apply IH; try (cbn in *; lia). intros i Hi. apply (F (S i)). cbn. lia.
Qed.

Lemma yfin_struct_inv : forall p nc' o fs b vs y, yfin p (KStruct (Model nc' o fs) b) (VStruct vs) y -> (0 < fs_len p fs vs)%N ->
  length vs = length fs ->
  exists ys, y = YSub ys /\ MARKS p nc' fs vs (length fs) ys /\ YF p fs vs (length fs) ys.
Proof.
  intros p nc' o fs b vs y H L Lv. destruct (H L) as (ys & -> & M & G). exists ys. split; auto. split; auto.
  destruct M as (Ly & _). unfold YF, kind_at, val_at. clear -G Lv Ly.
  revert vs ys Lv Ly G. induction fs as [|f fs IH]; intros [|v vs] [|y ys] Lv Ly G i Hi; try discriminate; try (cbn in Hi; lia).
  destruct G as [G1 G2]. destruct i as [|i]; cbn; auto. apply IH; auto; cbn in *; lia.
Qed.

(** ** Lists of fields *)
Lemma fs_toks_app : forall a b p nc va vb, length a = length va ->
  fs_toks p nc (a ++ b) (va ++ vb) = fs_toks p nc a va ++ fs_toks p nc b vb.
Proof.
  induction a as [|f a IH]; intros b p nc [|v va] vb L; try discriminate; auto. cbn [app fs_toks]. rewrite IH by (cbn in L; lia).
  rewrite app_assoc. reflexivity.
Qed.
Lemma fs_bytes_app : forall a b p h va vb, length a = length va ->
  fs_bytes p h (a ++ b) (va ++ vb) = fs_bytes p h a va ++ fs_bytes p h b vb.
Proof.
  induction a as [|f a IH]; intros b p h [|v va] vb L; try discriminate; auto. cbn [app fs_bytes]. rewrite IH by (cbn in L; lia).
  rewrite app_assoc. reflexivity.
Qed.
Lemma fs_len_app : forall a b p va vb, length a = length va ->
  fs_len p (a ++ b) (va ++ vb) = (fs_len p a va + fs_len p b vb)%N.
Proof.
  induction a as [|f a IH]; intros b p [|v va] vb L; try discriminate; auto. cbn [app fs_len]. rewrite IH by (cbn in L; lia). lia.
Qed.

Lemma fs_toks_bytes : forall fs p nc vs, Forall (fun f => wf_kind nc (snd f) = true) fs ->
  tbytes (fs_toks p nc fs vs) = fs_bytes p [] fs vs.
Proof.
  induction fs as [|f fs IH]; intros p nc [|v vs] W; auto. inversion W; subst. cbn [fs_toks fs_bytes].
  rewrite tbytes_app, IH, toks_bytes; auto.
Qed.

(** ** Fields that never start a buffer *)
Lemma leaf_is_tb : forall b, Forall is_tb (leaf_tok b).
Proof. intros [|x b]; cbn; auto. repeat constructor. Qed.

Lemma flat_tb : forall k p nc t v, wf_kind nc k = true -> flat_kind nc k = true -> Forall is_tb (toks p nc t k v).
Proof.
  induction k as [k L|nc' o fs b IH|sk IH|k vt v IHk IHv] using kind_ind2; intros p nc t w W F.
  - destruct k; cbn [leaf_kind] in L; try discriminate; cbn [toks]; try (destruct w; apply leaf_is_tb).
    destruct w; try apply leaf_is_tb. cbn in F. destruct nc; [discriminate|]. apply leaf_is_tb.
  - cbn in F. destruct b; [discriminate|]. destruct w; apply leaf_is_tb.
  - destruct w; try apply leaf_is_tb. cbn [wf_kind] in W. rewrite andb_true_iff in W. destruct W as (_ & W). cbn [toks flat_kind] in *.
    apply Forall_concat. apply Forall_map. apply Forall_forall. intros; auto.
  - destruct w; try apply leaf_is_tb. cbn [wf_kind flat_kind] in *. rewrite !andb_true_iff in *. destruct W as ((W1 & W0) & W2). destruct F as [F1 F2].
    cbn [toks]. apply Forall_concat. apply Forall_map. apply Forall_forall. intros. apply Forall_app. split; auto.
    apply IHk; auto. destruct k; try discriminate; auto.
Qed.

Lemma flat_no_hole : forall k p nc h t v, wf_kind nc k = true -> flat_kind nc k = true -> k_bytes p h t k v = k_bytes p [] t k v.
Proof.
  induction k as [k L|nc' o fs b IH|sk IH|k vt v IHk IHv] using kind_ind2; intros p nc h t w W F.
  - destruct k; cbn [leaf_kind] in L; try discriminate; destruct w; reflexivity.
  - cbn in F. destruct b; [discriminate|]. destruct w; auto. apply struct_copy_wf in W. destruct W as (-> & W).
    rewrite !k_bytes_struct. rewrite (fs_no_hole fs p h) by auto. reflexivity.
  - destruct w; auto. cbn [wf_kind] in W. rewrite andb_true_iff in W. destruct W as (_ & W). cbn [k_bytes flat_kind] in *.
    f_equal. apply map_ext. intros. eapply IH; eauto.
  - destruct w; auto. cbn [wf_kind flat_kind] in *. rewrite !andb_true_iff in *. destruct W as ((W1 & W0) & W2). destruct F as [F1 F2].
    cbn [k_bytes]. f_equal. apply map_ext. intros. rewrite (IHk p nc), (IHv p nc); auto. destruct k; try discriminate; auto.
Qed.

Lemma fs_flat : forall fs p nc vs, Forall (fun f => wf_kind nc (snd f) = true) fs -> forallb (fun f => flat_kind nc (snd f)) fs = true ->
  Forall is_tb (fs_toks p nc fs vs) /\ fs_len p fs vs = nlen (fs_bytes p [] fs vs).
Proof.
  induction fs as [|f fs IH]; intros p nc [|v vs] W F; cbn [fs_toks fs_len fs_bytes]; auto.
  inversion W; subst. cbn [forallb] in F. rewrite andb_true_iff in F. destruct F as [F1 F2].
  destruct (IH p nc vs) as [I1 I2]; auto. split.
  - apply Forall_app. split; auto. apply flat_tb; auto.
  - rewrite nlen_app, I2, (k_len_ok _ p nc) by auto. rewrite (flat_no_hole _ p nc) by auto. reflexivity.
Qed.

Lemma copy_flat : forall k, wf_kind false k = true -> nosig k -> flat_kind false k = true.
Proof.
  induction k as [k L|nc' o fs b IH|sk IH|k vt v IHk IHv] using kind_ind2; intros W NS.
  - destruct k; cbn in *; auto; try contradiction; discriminate.
  - apply wf_struct in W. destruct W as (-> & W & _). cbn. destruct nc'; auto.
  - cbn [wf_kind flat_kind] in *. rewrite andb_true_iff in W. destruct W. apply IH; auto. apply plain_nosig; auto.
  - cbn [wf_kind flat_kind] in *. rewrite !andb_true_iff in W. destruct W as ((W1 & W0) & W2). rewrite IHv by (auto; apply plain_nosig; auto).
    destruct k; try discriminate; auto.
Qed.

Lemma copy_fields_flat : forall fs, wf_fields false fs = true -> forallb (fun f => flat_kind false (snd f)) fs = true.
Proof.
  intros fs W. pose proof (wf_fields_nosig _ _ W eq_refl) as N0. apply wf_fields_all in W.
  induction fs as [|f fs IH]; auto. inversion W; subst. inversion N0; subst. cbn [forallb]. rewrite IH by auto.
  rewrite copy_flat; auto.
Qed.

(** ** Fields *)
Definition is_mark (k : kind) : bool := match k with KSig _ _ | KIName _ | KOffset | KRange _ _ => true | _ => false end.

Definition Pk (k : kind) : Prop := forall p nc t v i e done R s off plan ys,
  wf_kind nc k = true -> is_mark k = false -> shape k v -> (i < length ys)%nat ->
  ST e done (toks p nc t k v ++ R) s ->
  exists s' ys', k_write p nc t i k v off plan s ys = Ok (s', ys') /\ ST e (done ++ toks p nc t k v) R s'
    /\ (toks p nc t k v = [] -> s' = s) /\ length ys' = length ys
    /\ (forall j, j <> i -> nth j ys' YNone = nth j ys YNone)
    /\ match k with KStruct _ _ => yfin p k v (nth i ys' YNone) | _ => ys' = ys end.

Lemma nat_enc_tlv : forall t n, tl_enc t ++ (nat_len n :: nat_enc n) = tlv t (nat_enc n).
Proof.
  intros. unfold tlv. f_equal. rewrite nat_len_enc. pose proof (nat_len_small n). unfold tl_enc.
  destruct (nat_len n <=? 252)%N eqn:E; [rewrite N.mod_small by lia; reflexivity|lia].
Qed.

Lemma be_tlv : forall t w n, (w = 1 \/ w = 2 \/ w = 4 \/ w = 8)%nat -> tl_enc t ++ (N.of_nat w :: be w n) = tlv t (be w n).
Proof.
  intros. unfold tlv. f_equal. unfold nlen. rewrite be_length. destruct H as [->|[->|[->| ->]]]; reflexivity.
Qed.

Lemma bool_tlv : forall t, tl_enc t ++ [0%N] = tlv t [].
Proof. intros. reflexivity. Qed.

Lemma tlv_nonnil : forall t b, tlv t b <> [].
Proof. intros. unfold tlv. apply tl_app_nonnil. Qed.

(** a field whose writer only writes bytes *)
Lemma plain_field : forall w b e done R s (ys : list ecx), b <> [] -> writes w b -> ST e done (leaf_tok b ++ R) s ->
  exists s' ys', (do s' <- w s; Ok (s', ys)) = Ok (s', ys') /\ ST e (done ++ leaf_tok b) R s'
    /\ (leaf_tok b = [] -> s' = s) /\ length ys' = length ys
    /\ (forall j i : nat, j <> i -> nth j ys' YNone = nth j ys YNone) /\ ys' = ys.
Proof.
  intros w b e done R s ys Nb Hw H. destruct (leaf_run_tok w b e done R s Nb Hw H) as (s' & E & I & Hs).
  exists s', ys. rewrite E. cbn [bind]. auto 10.
Qed.

Lemma writes_tlv : forall t b w, writes w b -> writes (fun s => do s1 <- w_tl t (nlen b) s; w s1) (tlv t b).
Proof.
  intros. unfold tlv. rewrite app_assoc. apply writes_seq; auto; [apply tl_app_nonnil|apply writes_tl].
Qed.

Lemma writes_name : forall t n, writes (fun s => do s1 <- w_tl t (name_len n) s; foldM w_comp n s1) (tlv t (name_enc n)).
Proof.
  intros. unfold tlv. rewrite name_len_enc, app_assoc. unfold name_enc. apply writes_then_fold; [apply tl_app_nonnil|apply writes_tl|apply comp_ok].
Qed.

Lemma writes_wire : forall t w, writes (fun s => do s1 <- w_tl t (nlen (concat w)) s; foldM w_copy w s1) (tlv t (concat w)).
Proof.
  intros. unfold tlv. rewrite app_assoc.
  pose proof (writes_then_fold (w_tl t (nlen (concat w))) (tl_enc t ++ tl_enc (nlen (concat w))) w_copy (fun x => x) w
    (tl_app_nonnil _ _) (writes_tl _ _) copy_ok) as H. rewrite map_id in H. exact H.
Qed.

Lemma leaf_field : forall k, leaf_kind k = true -> Pk k.
Proof.
  intros k L p nc t v i e done R s off plan ys W M Sh Hi H.
  destruct k; cbn [leaf_kind is_mark] in *; try discriminate; destruct v; cbn [shape] in Sh; try contradiction; cbn [toks k_write k_bytes leaf_tok app] in *; unfold w_plain;
    try (exists s, ys; rewrite app_nil_r; auto 10; fail).
  - rewrite <- nat_enc_tlv in *. destruct (plain_field (fun s => do s1 <- w_put (tl_enc t) s; w_put (nat_len n :: nat_enc n) s1) _ e done R s ys (tl_app_nonnil _ _)
      ltac:(apply writes_seq; [apply tl_enc_nonnil|apply put_ok|apply put_ok]) H) as (s' & ys' & A & B & C & D & E & F).
    exists s', ys'. split; [exact A|]. split; [exact B|]. split; [exact C|]. split; [exact D|]. split; [eauto|exact F].
  - apply wf_fixed in W. rewrite <- (be_tlv t w n W) in *. destruct (plain_field (fun s => do s1 <- w_put (tl_enc t) s; w_put (N.of_nat w :: be w n) s1) _ e done R s ys (tl_app_nonnil _ _)
      ltac:(apply writes_seq; [apply tl_enc_nonnil|apply put_ok|apply put_ok]) H) as (s' & ys' & A & B & C & D & E & F).
    exists s', ys'. split; [exact A|]. split; [exact B|]. split; [exact C|]. split; [exact D|]. split; [eauto|exact F].
  - rewrite <- nat_enc_tlv in *. destruct (plain_field (fun s => do s1 <- w_put (tl_enc t) s; w_put (nat_len (ms_of ns) :: nat_enc (ms_of ns)) s1) _ e done R s ys (tl_app_nonnil _ _)
      ltac:(apply writes_seq; [apply tl_enc_nonnil|apply put_ok|apply put_ok]) H) as (s' & ys' & A & B & C & D & E & F).
    exists s', ys'. split; [exact A|]. split; [exact B|]. split; [exact C|]. split; [exact D|]. split; [eauto|exact F].
  - destruct (plain_field _ _ e done R s ys (tlv_nonnil t b) (writes_tlv t b _ (copy_ok b)) H) as (s' & ys' & A & B & C & D & E & F).
    exists s', ys'. split; [exact A|]. split; [exact B|]. split; [exact C|]. split; [exact D|]. split; [eauto|exact F].
  - destruct (plain_field _ _ e done R s ys (tlv_nonnil t b) (writes_tlv t b _ (copy_ok b)) H) as (s' & ys' & A & B & C & D & E & F).
    exists s', ys'. split; [exact A|]. split; [exact B|]. split; [exact C|]. split; [exact D|]. split; [eauto|exact F].
  - destruct nc.
    + cbn [ST app] in H. destruct (tsplit ([], []) done) as [S c] eqn:E. cbn [fst snd] in H.
      set (hdr := tl_enc t ++ tl_enc (nlen (concat w))) in *.
      assert (Nh : hdr <> []) by apply tl_app_nonnil.
      rewrite <- (app_nil_r hdr) in H. destruct (writes_tl t (nlen (concat w)) e S c [] (TW w :: R) s (or_intror Nh) H) as (s1 & E1 & I1).
      fold hdr in I1. rewrite inv_tb0 in I1. rewrite E1. cbn [bind].
      destruct (wire_run w e (done ++ [TB hdr]) R s1 S (c ++ hdr)) as (s2 & E2 & I2); auto.
      * rewrite tsplit_snoc, E. reflexivity.
      * intros X. apply app_eq_nil in X. tauto.
      * apply strip_snoc_tb.
      * exists s2, ys. rewrite E2. cbn [bind]. rewrite <- app_assoc in I2. split; [reflexivity|]. split; [exact I2|]. split; [discriminate|]. auto.
    + destruct (plain_field _ _ e done R s ys (tlv_nonnil t _) (writes_wire t w) H) as (s' & ys' & A & B & C & D & E & F).
      exists s', ys'. split; [exact A|]. split; [exact B|]. split; [exact C|]. split; [exact D|]. split; [eauto|exact F].
  - destruct (plain_field _ _ e done R s ys (tlv_nonnil t _) (writes_name t n) H) as (s' & ys' & A & B & C & D & E & F).
    exists s', ys'. split; [exact A|]. split; [exact B|]. split; [exact C|]. split; [exact D|]. split; [eauto|exact F].
  - destruct b; [|exists s, ys; cbn [leaf_tok app] in *; rewrite app_nil_r; auto 10].
    rewrite <- bool_tlv in *. destruct (plain_field (fun s => do s1 <- w_put (tl_enc t) s; w_put [0%N] s1) _ e done R s ys (tl_app_nonnil _ _)
      ltac:(apply writes_seq; [apply tl_enc_nonnil|apply put_ok|apply put_ok]) H) as (s' & ys' & A & B & C & D & E & F).
    exists s', ys'. split; [exact A|]. split; [exact B|]. split; [exact C|]. split; [exact D|]. split; [eauto|exact F].
Qed.
