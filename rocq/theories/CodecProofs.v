(** Encoding: lengths, and the layout of a sequence of writes over buffers. *)
From Verif Require Import Base BaseProofs PrimModel PrimProofs ReaderModel NameModel NameProofs CodecModel CodecSpec.

Definition leaf_kind (k : kind) : bool :=
  match k with KStruct _ _ | KSeq _ | KMap _ _ _ => false | _ => true end.

Section KindInd.
  Variable P : kind -> Prop.
  Hypothesis Hl : forall k, leaf_kind k = true -> P k.
  Hypothesis Hs : forall nc o fs b, Forall (fun f => P (snd f)) fs -> P (KStruct (Model nc o fs) b).
  Hypothesis Hq : forall s, P s -> P (KSeq s).
  Hypothesis Hm : forall k vt v, P k -> P v -> P (KMap k vt v).

  Fixpoint kind_ind2 (k : kind) : P k :=
    match k as k return P k with
    | KStruct (Model nc o fs) b =>
        Hs nc o fs b ((fix go (fs : list (N * kind)) : Forall (fun f => P (snd f)) fs :=
          match fs as fs return Forall (fun f => P (snd f)) fs with
          | [] => Forall_nil _
          | f :: fs' => Forall_cons f (kind_ind2 (snd f)) (go fs')
          end) fs)
    | KSeq s => Hq s (kind_ind2 s)
    | KMap k vt v => Hm k vt v (kind_ind2 k) (kind_ind2 v)
    | KNat a => Hl (KNat a) eq_refl
    | KFixed a b => Hl (KFixed a b) eq_refl
    | KTime a => Hl (KTime a) eq_refl
    | KBin => Hl KBin eq_refl
    | KStr a => Hl (KStr a) eq_refl
    | KWire => Hl KWire eq_refl
    | KName => Hl KName eq_refl
    | KBool => Hl KBool eq_refl
    | KArg => Hl KArg eq_refl
    | KOffset => Hl KOffset eq_refl
    | KRange a b => Hl (KRange a b) eq_refl
    | KSig a b => Hl (KSig a b) eq_refl
    | KIName a => Hl (KIName a) eq_refl
    end.
End KindInd.

(** ** Unfolding of structures *)
Lemma k_len_struct : forall p t nc o fs b vs,
  k_len p t (KStruct (Model nc o fs) b) (VStruct vs) = elem_len t (fs_len p fs vs).
Proof.
  intros. cbn [k_len]. f_equal. revert vs. induction fs as [|f fs IH]; intros [|v vs]; auto.
  cbn [fs_len]. rewrite IH. reflexivity.
Qed.

Lemma k_bytes_struct : forall p h t nc o fs b vs,
  k_bytes p h t (KStruct (Model nc o fs) b) (VStruct vs)
  = tl_enc t ++ tl_enc (nlen (fs_bytes p (full_hole p) fs vs)) ++ fs_bytes p h fs vs.
Proof.
  intros. cbn [k_bytes].
  assert (E : forall h fs vs, (fix go (fs : list (N * kind)) (vs : list value) : buf :=
        match fs, vs with
        | f :: fs', v :: vs' => k_bytes p h (fst f) (snd f) v ++ go fs' vs'
        | _, _ => []
        end) fs vs = fs_bytes p h fs vs).
  { intros h0 fs0. induction fs0 as [|f fs0 IH]; intros [|v vs0]; auto. cbn [fs_bytes]. rewrite IH. reflexivity. }
  rewrite !E. reflexivity.
Qed.

Lemma shape_struct : forall nc o fs b vs, shape (KStruct (Model nc o fs) b) (VStruct vs) <-> fs_shape fs vs.
Proof.
  intros. cbn [shape]. unfold fs_shape. revert vs. induction fs as [|f fs IH]; intros [|v vs]; split; intros H; auto; try contradiction.
  - inversion H.
  - inversion H.
  - destruct H as [H1 H2]. constructor; auto. apply IH. auto.
  - inversion H; subst. split; auto. apply IH. auto.
Qed.

Lemma k_plan_struct : forall p nc t nc' o fs vs s,
  k_plan p nc t (KStruct (Model nc' o fs) true) (VStruct vs) s
  = let n := fs_len p fs vs in
    let s1 := plan_add (tl_len t + tl_len n)%N s in
    if (0 <? n)%N then plan_merge (plan_close (fs_plan p nc' fs vs ([], 0%N))) s1 else s1.
Proof.
  intros. cbn [k_plan].
  assert (E : forall fs vs s, (fix go (fs : list (N * kind)) (vs : list value) (s : wplan) : wplan :=
            match fs, vs with
            | f :: fs', v :: vs' => go fs' vs' (k_plan p nc' (fst f) (snd f) v s)
            | _, _ => s
            end) fs vs s = fs_plan p nc' fs vs s).
  { intros fs0. induction fs0 as [|f fs0 IH]; intros [|v vs0] s0; auto. cbn [fs_plan]. rewrite IH. reflexivity. }
  rewrite E. reflexivity.
Qed.

Lemma writers_eq : forall p nc fs vs i,
  (fix go (i : nat) (fs : list (N * kind)) (vs : list value) : list (N * (N * (wplan -> wplan) * fwriter)) :=
          match fs, vs with
          | f :: fs', v :: vs' =>
              (fst f, (k_len p (fst f) (snd f) v, k_plan p nc (fst f) (snd f) v, k_write p nc (fst f) i (snd f) v)) :: go (S i) fs' vs'
          | _, _ => []
          end) i fs vs = fs_writers p nc i fs vs.
Proof.
  intros p nc fs. induction fs as [|f fs IH]; intros [|v vs] i; auto. cbn [fs_writers]. rewrite IH. reflexivity.
Qed.

(** ** Lengths *)
Lemma sumN_cons : forall a l, sumN (a :: l) = (a + sumN l)%N.
Proof. reflexivity. Qed.

Lemma tlv_len : forall t b, nlen (tlv t b) = elem_len t (nlen b).
Proof. intros. unfold tlv, elem_len. rewrite !nlen_app, !tl_len_enc. lia. Qed.

Lemma tl_len_small : forall n, (n <= 252)%N -> tl_len n = 1%N.
Proof. intros. unfold tl_len. destruct (n <=? 252)%N eqn:E; lia. Qed.

Lemma nat_len_small : forall n, (nat_len n <= 8)%N.
Proof. intros. unfold nat_len. repeat destruct (_ <=? _)%N; lia. Qed.

Lemma wf_fixed : forall nc w o, wf_kind nc (KFixed w o) = true -> (w = 1 \/ w = 2 \/ w = 4 \/ w = 8)%nat.
Proof. intros nc w o H. cbn [wf_kind] in H. repeat rewrite orb_true_iff in H. rewrite !Nat.eqb_eq in H. tauto. Qed.

Lemma wf_struct : forall nc nc' o fs b, wf_kind nc (KStruct (Model nc' o fs) b) = true ->
  b = nc' /\ (b = true -> nc = true) /\ wf_fields nc' fs = true.
Proof.
  intros. cbn [wf_kind] in H. rewrite !andb_true_iff in H. destruct H as (((H1 & H2) & H3) & H4).
  apply eqb_prop in H1. split; [auto|]. split; [intros ->; exact H2|]. unfold wf_fields. rewrite andb_true_iff. split; auto.
Qed.

Lemma wf_fields_all : forall nc fs, wf_fields nc fs = true -> Forall (fun f => wf_kind nc (snd f) = true) fs.
Proof.
  intros. unfold wf_fields in H. rewrite andb_true_iff in H. destruct H as (H & _).
  rewrite forallb_forall in H. apply Forall_forall. auto.
Qed.

Lemma nlen_concat_map : forall {A} (f : A -> buf) (g : A -> N) l,
  Forall (fun x => g x = nlen (f x)) l -> sumN (map g l) = nlen (concat (map f l)).
Proof.
  intros. induction H; auto. cbn [map concat]. rewrite sumN_cons, nlen_app, IHForall. lia.
Qed.

Lemma k_len_ok : forall k p nc t v, wf_kind nc k = true -> k_len p t k v = nlen (k_bytes p (full_hole p) t k v).
Proof.
  induction k as [k L|nc' o fs b IH|s IH|k vt v IHk IHv] using kind_ind2; intros p nc t w W.
  - destruct k; cbn [leaf_kind] in L; try discriminate; destruct w; cbn [k_len k_bytes]; auto;
      rewrite ?tlv_len, ?nat_len_enc, ?name_len_enc; auto.
    + unfold elem_len. rewrite (tl_len_small (nat_len n)) by (pose proof (nat_len_small n); lia). lia.
    + apply wf_fixed in W. unfold elem_len. unfold nlen at 1 2. rewrite be_length.
      rewrite (tl_len_small (N.of_nat w0)) by lia. lia.
    + unfold elem_len. rewrite (tl_len_small (nat_len _)) by (pose proof (nat_len_small (ms_of ns)); lia). lia.
    + destruct b; auto. rewrite tlv_len. unfold elem_len. cbn. rewrite (tl_len_small 0) by lia. lia.
    + destruct (0 <? ep_est p)%N; auto. rewrite !nlen_app, !tl_len_enc. unfold elem_len, full_hole, nlen. rewrite repeat_length. lia.
    + destruct (0 <? ep_est p)%N; auto. rewrite !nlen_app, !tl_len_enc. unfold elem_len, full_hole, nlen. rewrite repeat_length. lia.
    + destruct (0 <? ep_est p)%N; auto. rewrite !nlen_app, !tl_len_enc. unfold elem_len, full_hole, nlen. rewrite repeat_length. lia.
    + destruct (0 <? ep_est p)%N; auto. rewrite !nlen_app, !tl_len_enc. unfold elem_len, full_hole, nlen. rewrite repeat_length. lia.
    + destruct (0 <? ep_est p)%N; auto. rewrite !nlen_app, !tl_len_enc. unfold elem_len, full_hole, nlen. rewrite repeat_length. lia.
    + destruct (0 <? ep_est p)%N; auto. rewrite !nlen_app, !tl_len_enc. unfold elem_len, full_hole, nlen. rewrite repeat_length. lia.
    + destruct (0 <? ep_est p)%N; auto. rewrite !nlen_app, !tl_len_enc. unfold elem_len, full_hole, nlen. rewrite repeat_length. lia.
    + destruct (0 <? ep_est p)%N; auto. rewrite !nlen_app, !tl_len_enc. unfold elem_len, full_hole, nlen. rewrite repeat_length. lia.
    + destruct (0 <? ep_est p)%N; auto. rewrite !nlen_app, !tl_len_enc. unfold elem_len, full_hole, nlen. rewrite repeat_length. lia.
    + destruct (0 <? ep_est p)%N; auto. rewrite !nlen_app, !tl_len_enc. unfold elem_len, full_hole, nlen. rewrite repeat_length. lia.
  - destruct w; auto. rewrite k_len_struct, k_bytes_struct. rewrite !nlen_app, !tl_len_enc.
    apply wf_struct in W. destruct W as (_ & _ & W). apply wf_fields_all in W.
    assert (E : fs_len p fs vs = nlen (fs_bytes p (full_hole p) fs vs)).
    { clear -IH W. revert vs. induction fs as [|f fs IHf]; intros [|v vs]; auto. inversion IH; subst. inversion W; subst.
      cbn [fs_len fs_bytes]. rewrite nlen_app, IHf by auto. rewrite (H1 p nc' (fst f) v) by auto. reflexivity. }
    rewrite E. unfold elem_len. lia.
  - destruct w; auto. cbn [wf_kind] in W. rewrite andb_true_iff in W. destruct W as (_ & W).
    cbn [k_len k_bytes]. apply nlen_concat_map. apply Forall_forall. intros x _. apply (IH p nc). auto.
  - destruct w; auto. cbn [wf_kind] in W. rewrite !andb_true_iff in W. destruct W as ((W1 & _) & W2).
    cbn [k_len k_bytes]. apply nlen_concat_map. apply Forall_forall. intros x _. rewrite nlen_app.
    rewrite (IHk p nc), (IHv p nc); auto. destruct k; try discriminate; auto.
Qed.

Lemma fs_len_ok : forall fs p nc vs, Forall (fun f => wf_kind nc (snd f) = true) fs ->
  fs_len p fs vs = nlen (fs_bytes p (full_hole p) fs vs).
Proof.
  induction fs as [|f fs IH]; intros p nc [|v vs] W; auto. inversion W; subst. cbn [fs_len fs_bytes].
  rewrite nlen_app, (IH p nc), (k_len_ok _ p nc); auto.
Qed.

(** ** Tokens: bytes written into the present buffer, and buffers of the caller *)
Inductive tok : Type := TB (b : buf) | TW (w : wire).

Definition tok_bytes (x : tok) : buf := match x with TB b => b | TW w => concat w end.
Definition tbytes (ts : list tok) : buf := concat (map tok_bytes ts).

Lemma tbytes_app : forall a b, tbytes (a ++ b) = tbytes a ++ tbytes b.
Proof. intros. unfold tbytes. rewrite map_app, concat_app. reflexivity. Qed.

(** a caller's empty wire at the very end does not start a buffer *)
Definition strip (ts : list tok) : list tok :=
  match rev ts with TW [] :: r => rev r | _ => ts end.

Lemma strip_cases : forall ts, (exists ts0, ts = ts0 ++ [TW []] /\ strip ts = ts0)
  \/ (strip ts = ts /\ forall ts0, ts <> ts0 ++ [TW []]).
Proof.
  intros. unfold strip. destruct ts as [|x ts] using rev_ind.
  - right. split; auto. intros ts0 E. destruct ts0; discriminate.
  - clear IHts. rewrite rev_app_distr. cbn [rev app]. destruct x as [b|[|a w]].
    + right. split; auto. intros ts0 E. apply app_inj_tail in E. destruct E. discriminate.
    + left. exists ts. rewrite rev_involutive. auto.
    + right. split; auto. intros ts0 E. apply app_inj_tail in E. destruct E. discriminate.
Qed.

Lemma tbytes_strip : forall ts, tbytes (strip ts) = tbytes ts.
Proof.
  intros. destruct (strip_cases ts) as [(ts0 & -> & ->)|(-> & _)]; auto.
  rewrite tbytes_app. cbn. rewrite app_nil_r. reflexivity.
Qed.

Definition leaf_tok (b : buf) : list tok := match b with [] => [] | _ => [TB b] end.

Fixpoint toks (p : eparams) (nc : bool) (t : N) (k : kind) (v : value) : list tok :=
  match k, v with
  | KWire, VWire w =>
      if nc then [TB (tl_enc t ++ tl_enc (nlen (concat w))); TW w] else leaf_tok (k_bytes p [] t k v)
  | KStruct (Model nc' _ fs) nocopy, VStruct vs =>
      if nocopy then
        TB (tl_enc t ++ tl_enc (fs_len p fs vs)) ::
        (if (0 <? fs_len p fs vs)%N then
           strip ((fix go (fs : list (N * kind)) (vs : list value) : list tok :=
             match fs, vs with
             | f :: fs', v :: vs' => toks p nc' (fst f) (snd f) v ++ go fs' vs'
             | _, _ => []
             end) fs vs)
         else [])
      else leaf_tok (k_bytes p [] t k v)
  | KSeq sub, VSeq l => concat (map (toks p nc t sub) l)
  | KMap key vt val, VMap l => concat (map (fun e => toks p nc t key (fst e) ++ toks p nc vt val (snd e)) l)
  | KSig _ _, _ => if (0 <? ep_est p)%N then [TB (tl_enc t ++ tl_enc (ep_est p)); TW [[]]] else []
  | _, _ => leaf_tok (k_bytes p [] t k v)
  end.

Fixpoint fs_toks (p : eparams) (nc : bool) (fs : list (N * kind)) (vs : list value) : list tok :=
  match fs, vs with
  | f :: fs', v :: vs' => toks p nc (fst f) (snd f) v ++ fs_toks p nc fs' vs'
  | _, _ => []
  end.

Lemma toks_struct : forall p nc t nc' o fs vs,
  toks p nc t (KStruct (Model nc' o fs) true) (VStruct vs)
  = TB (tl_enc t ++ tl_enc (fs_len p fs vs)) ::
    (if (0 <? fs_len p fs vs)%N then strip (fs_toks p nc' fs vs) else []).
Proof.
  intros. cbn [toks].
  assert (E : forall fs vs, (fix go (fs : list (N * kind)) (vs : list value) : list tok :=
             match fs, vs with
             | f :: fs', v :: vs' => toks p nc' (fst f) (snd f) v ++ go fs' vs'
             | _, _ => []
             end) fs vs = fs_toks p nc' fs vs).
  { intros fs0. induction fs0 as [|f fs0 IH]; intros [|v vs0]; auto. cbn [fs_toks]. rewrite IH. reflexivity. }
  rewrite E. reflexivity.
Qed.

Lemma leaf_tok_bytes : forall b, tbytes (leaf_tok b) = b.
Proof. intros [|x b]; auto. cbn. rewrite app_nil_r. reflexivity. Qed.

Lemma tl_enc_pos : forall t, (0 < nlen (tl_enc t))%N.
Proof. intros. rewrite tl_len_enc. pose proof (tl_len_range t). lia. Qed.

Lemma nlen_0 : forall {A} (l : list A), nlen l = 0%N -> l = [].
Proof. intros A [|x l] H; auto. unfold nlen in H. cbn in H. lia. Qed.

Lemma toks_bytes : forall k p nc t v, wf_kind nc k = true -> tbytes (toks p nc t k v) = k_bytes p [] t k v.
Proof.
  induction k as [k L|nc' o fs b IH|s IH|k vt v IHk IHv] using kind_ind2; intros p nc t w W.
  - destruct k; cbn [leaf_kind] in L; try discriminate; cbn [toks];
      try (destruct w; apply leaf_tok_bytes).
    + destruct w; try apply leaf_tok_bytes. destruct nc; [|apply leaf_tok_bytes].
      unfold tbytes, tlv. cbn [map concat tok_bytes k_bytes]. unfold tlv. rewrite app_nil_r, <- !app_assoc. reflexivity.
    + cbn [k_bytes]. destruct w; (destruct (0 <? ep_est p)%N; [|reflexivity]); cbn; rewrite ?app_nil_r; reflexivity.
  - destruct w; try apply leaf_tok_bytes. destruct b; [|apply leaf_tok_bytes].
    pose proof W as W0. apply wf_struct in W0. destruct W0 as (_ & _ & W0). apply wf_fields_all in W0.
    rewrite toks_struct, k_bytes_struct. rewrite (fs_len_ok fs p nc') by auto.
    unfold tbytes. cbn [map concat tok_bytes]. rewrite <- !app_assoc. f_equal. f_equal.
    assert (E : tbytes (fs_toks p nc' fs vs) = fs_bytes p [] fs vs).
    { clear -IH W0. revert vs. induction fs as [|f fs IHf]; intros [|v vs]; auto. inversion IH; subst. inversion W0; subst.
      cbn [fs_toks fs_bytes]. rewrite tbytes_app, IHf by auto. rewrite (H1 p nc' (fst f) v) by auto. reflexivity. }
    destruct (0 <? nlen (fs_bytes p (full_hole p) fs vs))%N eqn:En.
    + fold (tbytes (strip (fs_toks p nc' fs vs))). rewrite tbytes_strip. auto.
    + assert (Z0 : nlen (fs_bytes p (full_hole p) fs vs) = 0%N) by lia.
      cbn. clear -W0 Z0. revert vs Z0. induction fs as [|f fs IHf]; intros [|v vs] Z0; auto.
      inversion W0; subst. cbn [fs_bytes] in *. rewrite nlen_app in Z0.
      rewrite <- (IHf H2 vs) by lia. rewrite app_nil_r.
      clear IHf. assert (Z1 : nlen (k_bytes p (full_hole p) (fst f) (snd f) v) = 0%N) by lia. clear Z0.
      (* an element without bytes has none with an empty hole either *)
      revert Z1. generalize (fst f). destruct f as [t0 k]. cbn [snd fst] in *. clear -H1.
      revert v. induction k as [k L|nc2 o2 fs2 b2 IH2|s IH2|k vt v IHk IHv] using kind_ind2; intros w t1 Z1.
      * destruct k; cbn [leaf_kind] in L; try discriminate; destruct w; cbn [k_bytes] in *; auto; try (apply nlen_0 in Z1; auto; fail);
          destruct (0 <? ep_est p)%N; auto; rewrite nlen_app in Z1; pose proof (tl_enc_pos t1); lia.
      * destruct w; auto. rewrite k_bytes_struct in Z1. rewrite nlen_app in Z1. pose proof (tl_enc_pos t1); lia.
      * destruct w; auto. cbn [k_bytes wf_kind] in *. rewrite andb_true_iff in H1. destruct H1 as (_ & H1).
        induction l as [|x l IHl]; auto. cbn [map concat] in *. rewrite nlen_app in Z1.
        rewrite <- (IH2 H1 x t1), <- IHl by lia. reflexivity.
      * destruct w; auto. cbn [k_bytes wf_kind] in *. rewrite !andb_true_iff in H1. destruct H1 as ((H1 & _) & H2).
        induction l as [|x l IHl]; auto. cbn [map concat] in *. rewrite !nlen_app in Z1.
        rewrite <- IHl by lia. rewrite <- (IHv H2 (snd x) vt) by lia. rewrite <- (IHk ltac:(destruct k; try discriminate; auto) (fst x) t1) by lia. reflexivity.
  - destruct w; try apply leaf_tok_bytes. cbn [wf_kind] in W. rewrite andb_true_iff in W. destruct W as (_ & W).
    cbn [toks k_bytes]. induction l as [|x l IHl]; auto. cbn [map concat]. rewrite tbytes_app, IHl, (IH p nc) by auto. reflexivity.
  - destruct w; try apply leaf_tok_bytes. cbn [wf_kind] in W. rewrite !andb_true_iff in W. destruct W as ((W1 & _) & W2).
    cbn [toks k_bytes]. induction l as [|x l IHl]; auto. cbn [map concat].
    rewrite !tbytes_app, IHl, (IHk p nc), (IHv p nc); auto. destruct k; try discriminate; auto.
Qed.
