(** Encoding: all kinds, and Encode itself. *)
From Verif Require Import Base BaseProofs PrimModel PrimProofs ReaderModel ReaderProofs ReaderProofs2 NameModel NameProofs CodecModel CodecSpec CodecProofs CodecEnc CodecEnc2 CodecEnc3 CodecEnc4.

Lemma k_write_struct : forall p nc t i nc' o fs b vs off plan s ys,
  k_write p nc t i (KStruct (Model nc' o fs) b) (VStruct vs) off plan s ys
  = let n := fs_len p fs vs in
    do s1 <- w_tl t n s;
    if (0 <? n)%N then
      let run w := do s0 <- w_start w;
                   do r <- run_fields (fs_writers p nc' 0 fs vs) 0 ([], 0%N) s0 (map (fun _ => YNone) fs);
                   Ok (w_wire (fst r), snd r) in
      do r <- (if b then w_subwire (plan_close (fs_plan p nc' fs vs ([], 0%N))) run s1 else w_subbuf n run s1);
      Ok (fst r, upd ys i (YSub (snd r)))
    else Ok (s1, ys).
Proof. intros. cbn [k_write]. rewrite writers_eq. reflexivity. Qed.

Lemma fs_toks_len : forall fs p nc vs, Forall (fun f => wf_kind nc (snd f) = true) fs -> (0 < fs_len p fs vs)%N -> fs_toks p nc fs vs <> [].
Proof. intros fs p nc vs W L X. rewrite (fs_len_ok fs p nc) in L by auto. rewrite (fs_toks_nil fs p nc vs W X) in L. cbn in L. lia. Qed.

Lemma fs_len_0 : forall fs p nc vs, Forall (fun f => wf_kind nc (snd f) = true) fs -> fs_len p fs vs = 0%N -> fs_bytes p [] fs vs = [].
Proof.
  intros fs p nc vs W L. rewrite (fs_len_ok fs p nc) in L by auto. apply nlen_0 in L.
  destruct (fs_toks p nc fs vs) as [|x l] eqn:E; [eapply fs_toks_nil; eauto|].
  exfalso. pose proof (fs_toks_good fs p nc vs) as G. rewrite E in G. destruct x as [b|w]; [|destruct G; discriminate]. destruct G as [G _].
  assert (Q : fs_bytes p [] fs vs <> []).
  { rewrite <- (fs_toks_bytes fs p nc) by auto. rewrite E. unfold tbytes. cbn. intros X. apply app_eq_nil in X. tauto. }
  apply Q. clear Q G E b l.
  revert vs L. induction fs as [|f fs IH]; intros [|v vs] L; auto. inversion W; subst. cbn [fs_bytes] in *. apply app_eq_nil in L. destruct L as [L1 L2].
  rewrite IH, app_nil_r by auto.
  assert (T0 : nlen (k_bytes p (full_hole p) (fst f) (snd f) v) = 0%N) by (rewrite L1; reflexivity).
  assert (P0 : psplit ([], 0%N) (toks p nc (fst f) (snd f) v) = psplit ([], 0%N) []).
  2:{ (* no bytes planned, none written *)
      rewrite <- (toks_bytes (snd f) p nc) by auto.
      pose proof (toks_good (snd f) p nc (fst f) v) as G. destruct (toks p nc (fst f) (snd f) v) as [|[b|w] ts]; [reflexivity| |destruct G; discriminate].
      exfalso. destruct G as [G _]. change (psplit ([], 0%N) (TB b :: ts)) with (psp (0 + nlen b) ts) in P0. rewrite psp_gen in P0. unfold pjoin in P0.
      apply nlen_nonnil in G. destruct (psp 0 ts) as [[|a q] m]; cbn [fst snd psplit fold_left] in P0; [injection P0 as P0; lia|discriminate]. }
  assert (K : forall k t v, wf_kind nc k = true -> k_bytes p (full_hole p) t k v = [] -> toks p nc t k v = []).
  2:{ rewrite K; auto. }
  clear. induction k as [k L|nc' o fs b IH|sk IH|k vt v IHk IHv] using kind_ind2; intros t w W B.
  - destruct k; cbn [leaf_kind] in L; try discriminate; destruct w; cbn [toks k_bytes] in *; try reflexivity;
      try (exfalso; eapply tlv_nonnil; eassumption; fail);
      try (destruct (0 <? ep_est p)%N; [exfalso; eapply tl_app_nonnil; eassumption|reflexivity]).
    destruct b; [exfalso; eapply tlv_nonnil; eassumption|reflexivity].
  - destruct w; try reflexivity. rewrite k_bytes_struct in B. exfalso; eapply tl_app_nonnil; eassumption.
  - destruct w; try reflexivity. cbn [wf_kind] in W. rewrite andb_true_iff in W. destruct W as (_ & W). cbn [toks k_bytes] in *.
    induction l as [|x l IHl]; auto. cbn [map concat] in *. apply app_eq_nil in B. destruct B as [B1 B2]. rewrite IH, IHl; auto.
  - destruct w; try reflexivity. cbn [wf_kind] in W. rewrite !andb_true_iff in W. destruct W as ((W1 & W0) & W2). cbn [toks k_bytes] in *.
    induction l as [|x l IHl]; auto. cbn [map concat] in *. apply app_eq_nil in B. destruct B as [B1 B2]. apply app_eq_nil in B1. destruct B1 as [B1 B3].
    rewrite IHk, IHv, IHl; auto. destruct k; try discriminate; auto.
Qed.

Lemma inv_leaf_end : forall e done R s S c b, tsplit ([], []) done = (S, c) -> b <> [] -> INV e S (c ++ b) (TB [] :: R) s ->
  ST e (done ++ [TB b]) R s.
Proof.
  intros e done R s S c b E Nb I. assert (Nc : c ++ b <> []) by (intros X; apply app_eq_nil in X; tauto).
  destruct R as [|r R].
  - cbn [ST]. intros _. rewrite strip_snoc_tb, tsplit_snoc, E. destruct (inv_end _ _ _ _ I Nc) as (g & Lg & W).
    exists g. split; auto. rewrite W. unfold fin_wire. cbn [tstep fst snd]. destruct (c ++ b) eqn:X; [congruence|]. reflexivity.
  - cbn [ST]. rewrite tsplit_snoc, E. cbn [tstep fst snd]. apply inv_tb0. auto.
Qed.

Lemma struct_field : forall nc' o fs b, Forall (fun f => Pk (snd f)) fs -> Pk (KStruct (Model nc' o fs) b).
Proof.
  intros nc' o fs b IH p nc t v i e done R s off plan ys W Mk Sh Hi H.
  destruct v; cbn [shape] in Sh; try contradiction.
  { exists s, ys. cbn [toks k_write k_bytes leaf_tok app] in *. rewrite app_nil_r. unfold w_plain. cbn [bind]. cbn [yfin]. auto 10. }
  change (shape (KStruct (Model nc' o fs) b) (VStruct vs)) in Sh. rewrite shape_struct in Sh.
  pose proof (f2_length _ _ _ Sh) as LV.
  pose proof W as W0. apply wf_struct in W0. destruct W0 as (Eb & Wn & WF). pose proof (wf_fields_all _ _ WF) as WA.
  rewrite k_write_struct. cbv zeta. set (n := fs_len p fs vs).
  set (hdr := tl_enc t ++ tl_enc n). assert (Nh : hdr <> []) by apply tl_app_nonnil.
  set (run := fun w => do s0 <- w_start w;
                   do r <- run_fields (fs_writers p nc' 0 fs vs) 0 ([], 0%N) s0 (map (fun _ => YNone) fs);
                   Ok (w_wire (fst r), snd r)).
  set (Q := fun ys' => MARKS p nc' fs vs (length fs) ys' /\ YF p fs vs (length fs) ys').
  assert (RUN : (0 < n)%N -> forall e' w, w <> [] -> ST e' [] (fs_toks p nc' fs vs) (mkW w 0 0) -> exists w' x, run w = Ok (w', x) /\
      Q x /\ exists g, nlen g = e' /\ w' = fin_wire (tsplit ([], []) (strip (fs_toks p nc' fs vs))) g).
  { intros Hn e' w Nw HS. destruct (model_run p nc' fs vs e' w Nw WF IH Sh HS) as (w' & x & E & _ & G & M & Y).
    exists w', x. split; [exact E|]. split; [split; auto|]. apply G. apply fs_toks_len; auto. }
  assert (UPD : forall ys0, Q ys0 -> length (upd ys i (YSub ys0)) = length ys
    /\ (forall j, j <> i -> nth j (upd ys i (YSub ys0)) YNone = nth j ys YNone)
    /\ yfin p (KStruct (Model nc' o fs) b) (VStruct vs) (nth i (upd ys i (YSub ys0)) YNone)).
  { intros ys0 [HM HY]. split; [apply upd_length|]. split; [intros; apply upd_nth_other; auto|].
    rewrite upd_nth by auto. apply yfin_struct; auto. }
  destruct b.
  - rewrite toks_struct in *. fold n in H |- *. fold hdr in H |- *. cbn [app ST] in H.
    destruct (tsplit ([], []) done) as [S c] eqn:E. cbn [fst snd] in H.
    rewrite <- (app_nil_r hdr) in H.
    destruct (writes_tl t n e S c [] _ s (or_intror Nh) H) as (s1 & E1 & I1). fold hdr in I1. rewrite E1. cbn [bind].
    destruct (0 <? n)%N eqn:En.
    + assert (Hn : (0 < n)%N) by lia. rewrite inv_tb0 in I1.
      assert (Np : fs_toks p nc' fs vs <> []) by (apply fs_toks_len; auto).
      rewrite fs_plan_ok. 2:{ clear -WA. induction WA; constructor; auto. intros. apply k_plan_ok. auto. }
      rewrite plan_close_good by apply fs_toks_good.
      destruct (subwire_run run Q (fs_toks p nc' fs vs) e (done ++ [TB hdr]) R s1 S (c ++ hdr)) as (s2 & x & E2 & HQ & I2); auto.
      * apply fs_toks_good.
      * rewrite tsplit_snoc, E. reflexivity.
      * intros X. apply app_eq_nil in X. tauto.
      * apply strip_snoc_tb.
      * rewrite E2. cbn [bind fst snd]. destruct (UPD x HQ) as (U1 & U2 & U3). eexists. eexists. split; [reflexivity|].
        rewrite <- app_assoc in I2. split; [exact I2|]. split; [discriminate|]. auto.
    + exists s1, ys. split; [reflexivity|]. cbn [app] in I1. split; [eapply inv_leaf_end; eauto|]. split; [discriminate|].
      split; [auto|]. split; [auto|]. cbn [yfin]. fold n. intros. lia.
  - assert (nc' = false) by congruence. subst nc'.
    assert (EBY : k_bytes p [] t (KStruct (Model false o fs) false) (VStruct vs) = hdr ++ fs_bytes p [] fs vs).
    { rewrite k_bytes_struct. rewrite <- (fs_len_ok fs p false) by auto. fold n. unfold hdr. rewrite <- app_assoc. reflexivity. }
    assert (LN : n = nlen (fs_bytes p [] fs vs)) by (unfold n; rewrite (fs_len_ok fs p false) by auto; rewrite fs_no_hole by auto; reflexivity).
    assert (TKS : toks p nc t (KStruct (Model false o fs) false) (VStruct vs) = [TB (hdr ++ fs_bytes p [] fs vs)]).
    { cbn [toks]. rewrite EBY. destruct (hdr ++ fs_bytes p [] fs vs) eqn:X; [apply app_eq_nil in X; tauto|reflexivity]. }
    rewrite TKS in *. cbn [app ST] in H. destruct (tsplit ([], []) done) as [S c] eqn:E. cbn [fst snd] in H.
    destruct (writes_tl t n e S c _ _ s (or_intror Nh) H) as (s1 & E1 & I1). fold hdr in I1. rewrite E1. cbn [bind].
    assert (Nhb : hdr ++ fs_bytes p [] fs vs <> []) by (intros X; apply app_eq_nil in X; tauto).
    destruct (0 <? n)%N eqn:En.
    + assert (Hn : (0 < n)%N) by lia.
      assert (Np : fs_toks p false fs vs <> []) by (apply fs_toks_len; auto).
      pose proof (fs_toks_bytes fs p false vs WA) as TBB.
      rewrite <- (app_nil_r (fs_bytes p [] fs vs)) in I1. rewrite <- TBB in I1.
      destruct (subbuf_run run Q (fs_toks p false fs vs) e S (c ++ hdr) [] R s1) as (s2 & x & E2 & HQ & I2); auto.
      * apply fs_toks_good.
      * apply (fs_flat fs p false vs WA). apply copy_fields_flat. auto.
      * rewrite TBB in E2, I2. rewrite <- LN in E2. rewrite E2. cbn [bind fst snd]. destruct (UPD x HQ) as (U1 & U2 & U3). eexists. eexists. split; [reflexivity|].
        split; [|split; [discriminate|auto]]. eapply inv_leaf_end; eauto. rewrite app_assoc. exact I2.
    + assert (Z0 : fs_bytes p [] fs vs = []) by (apply (fs_len_0 fs p false); auto; fold n; lia).
      rewrite Z0, app_nil_r in *. exists s1, ys. split; [reflexivity|]. split; [eapply inv_leaf_end; eauto|]. split; [discriminate|].
      split; [auto|]. split; [auto|]. cbn [yfin]. fold n. intros. lia.
Qed.

Lemma plain_not_mark : forall k, plain_kind k = true -> is_mark k = false.
Proof. destruct k; cbn; auto; discriminate. Qed.

Lemma seq_field : forall sk, Pk sk -> Pk (KSeq sk).
Proof.
  intros sk IH p nc t v i e done R s off plan ys W Mk Sh Hi H.
  destruct v; cbn [shape] in Sh; try contradiction. cbn [wf_kind] in W. rewrite andb_true_iff in W. destruct W as [WP W].
  cbn [toks k_write] in *.
  cut (exists s', foldM (fun v s => do r <- k_write p nc t i sk v off plan s ys; Ok (fst r)) l s = Ok s'
       /\ ST e (done ++ concat (map (toks p nc t sk) l)) R s' /\ (concat (map (toks p nc t sk) l) = [] -> s' = s)).
  { intros (s' & E & A & B). exists s', ys. rewrite E. cbn [bind]. auto 10. }
  revert done s H. induction Sh as [|x l Hx Hl IHl]; intros done s H; cbn [map concat foldM] in *.
  - exists s. rewrite app_nil_r. auto.
  - rewrite <- app_assoc in H.
    destruct (IH p nc t x i e done _ s off plan ys W (plain_not_mark _ WP) Hx Hi H) as (s1 & ys1 & E1 & I1 & Q1 & _).
    rewrite E1. cbn [bind fst]. destruct (IHl (done ++ toks p nc t sk x) s1 I1) as (s2 & E2 & I2 & Q2).
    exists s2. split; [exact E2|]. split; [rewrite app_assoc; exact I2|]. intros X. apply app_eq_nil in X. destruct X. rewrite Q2, Q1; auto.
Qed.

Lemma map_field : forall k vt vk, Pk k -> Pk vk -> Pk (KMap k vt vk).
Proof.
  intros k vt vk IHk IHv p nc t v i e done R s off plan ys W Mk Sh Hi H.
  destruct v; cbn [shape] in Sh; try contradiction. cbn [wf_kind] in W. rewrite !andb_true_iff in W. destruct W as ((W1 & WP) & W2).
  assert (Wk : wf_kind nc k = true /\ is_mark k = false) by (destruct k; try discriminate; auto). destruct Wk as [Wk Mk2].
  cbn [toks k_write] in *.
  cut (exists s', foldM (fun e s =>
        do r1 <- k_write p nc t i k (fst e) off plan s ys;
        do r2 <- k_write p nc vt i vk (snd e) off plan (fst r1) ys; Ok (fst r2)) l s = Ok s'
       /\ ST e (done ++ concat (map (fun e => toks p nc t k (fst e) ++ toks p nc vt vk (snd e)) l)) R s'
       /\ (concat (map (fun e => toks p nc t k (fst e) ++ toks p nc vt vk (snd e)) l) = [] -> s' = s)).
  { intros (s' & E & A & B). exists s', ys. rewrite E. cbn [bind]. auto 10. }
  revert done s H. induction Sh as [|x l Hx Hl IHl]; intros done s H; cbn [map concat foldM] in *.
  - exists s. rewrite app_nil_r. auto.
  - rewrite <- !app_assoc in H. destruct Hx as [Hx1 Hx2].
    destruct (IHk p nc t (fst x) i e done _ s off plan ys Wk Mk2 Hx1 Hi H) as (s1 & ys1 & E1 & I1 & Q1 & _).
    rewrite E1. cbn [bind fst].
    destruct (IHv p nc vt (snd x) i e _ _ s1 off plan ys W2 (plain_not_mark _ WP) Hx2 Hi I1) as (s2 & ys2 & E2 & I2 & Q2 & _).
    rewrite E2. cbn [bind fst].
    destruct (IHl _ s2 I2) as (s3 & E3 & I3 & Q3).
    exists s3. split; [exact E3|]. split; [rewrite !app_assoc in *; exact I3|]. intros X. apply app_eq_nil in X. destruct X as [X1 X2]. apply app_eq_nil in X1. destruct X1.
    rewrite Q3, Q2, Q1; auto.
Qed.

Lemma all_fields : forall k, Pk k.
Proof.
  induction k as [k L|nc' o fs b IH|sk IH|k vt v IHk IHv] using kind_ind2.
  - apply leaf_field; auto.
  - apply struct_field; auto.
  - apply seq_field; auto.
  - apply map_field; auto.
Qed.

(** ** Encode *)
Lemma fs_all : forall (fs : list (N * kind)), Forall (fun f => Pk (snd f)) fs.
Proof. intros. apply Forall_forall. intros. apply all_fields. Qed.

Lemma plan_toks : forall p m vs, wf_model m = true -> m_plan p m vs = lay 0 0 (fs_toks p (m_nocopy m) (m_fields m) vs).
Proof.
  intros p m vs W. unfold m_plan. rewrite fs_plan_ok.
  - apply plan_close_good. apply fs_toks_good.
  - apply wf_fields_all in W. apply Forall_forall. intros f Hf t v s. apply k_plan_ok. rewrite Forall_forall in W. auto.
Qed.

Lemma map_nlen_repeat : forall l, map nlen (map (fun n => repeat 0%N (N.to_nat n)) l) = l.
Proof. induction l; cbn; auto. rewrite IHl. f_equal. unfold nlen. rewrite repeat_length. lia. Qed.

Lemma nlen_repeat : forall {A} (x : A) n, nlen (repeat x (N.to_nat n)) = n.
Proof. intros. unfold nlen. rewrite repeat_length. lia. Qed.

Lemma fin_concat : forall ts g, nlen g = 0%N -> concat (fin_wire (tsplit ([], []) ts) g) = tbytes ts.
Proof.
  intros ts g Lg. apply nlen_0 in Lg. subst g. pose proof (tsplit_concat ts [] []) as E. cbn [concat app] in E. rewrite <- E.
  unfold fin_wire. destruct (tsplit ([], []) ts) as [S c]. cbn [fst snd]. rewrite concat_app. destruct c; cbn [concat]; rewrite ?app_nil_r; reflexivity.
Qed.

Lemma tsplit_fill : forall ts S c P, Forall2 (fun n b => n = 0%N \/ n = nlen b) P S ->
  Forall2 (fun n b => n = 0%N \/ n = nlen b) (P ++ fst (psp (nlen c) ts)) (fst (tsplit (S, c) ts)).
Proof.
  induction ts as [|[b|w] ts IH]; intros S c P F.
  - cbn. rewrite app_nil_r. auto.
  - rewrite psp_tb. cbn [tsplit fold_left tstep fst snd]. fold (tsplit (S, c ++ b) ts). rewrite <- nlen_app. apply IH. auto.
  - rewrite psp_tw. cbn [tsplit fold_left tstep fst snd]. fold (tsplit (S ++ c :: w, []) ts).
    replace (P ++ nlen c :: repeat 0%N (length w) ++ fst (psp 0 ts)) with ((P ++ nlen c :: repeat 0%N (length w)) ++ fst (psp (nlen (@nil N)) ts)).
    2:{ rewrite <- app_assoc. reflexivity. }
    apply IH. apply Forall2_app; auto. constructor; auto. clear. induction w; cbn; constructor; auto.
Qed.

Lemma lay_fill : forall ts, Forall2 (fun n b => n = 0%N \/ n = nlen b) (lay 0 0 ts) (fin_wire (tsplit ([], []) (strip ts)) []).
Proof.
  intros. unfold lay, fin_wire. pose proof (tsplit_fill (strip ts) [] [] [] (Forall2_nil _)) as F. change (nlen (@nil N)) with 0%N in F.
  destruct (tsplit_psp (strip ts) [] []) as [_ E]. change (nlen (@nil N)) with 0%N in E. cbn [app] in F.
  apply Forall2_app; auto. rewrite <- E. destruct (snd (tsplit ([], []) (strip ts))) as [|x c]; [constructor|].
  replace (0 <? nlen (x :: c))%N with true by (symmetry; apply N.ltb_lt; unfold nlen; cbn [length]; lia).
  constructor; [|constructor]. right. rewrite app_nil_r. lia.
Qed.

Theorem encode_into_ok : forall p m vs w0, wf_model m = true -> fs_shape (m_fields m) vs -> planned p m vs w0 ->
  (m_nocopy m = true -> (0 < fs_len p (m_fields m) vs)%N) ->
  exists w ys, m_encode_into p m vs w0 = Ok (w, ys) /\ concat w = fs_bytes p [] (m_fields m) vs
    /\ (m_nocopy m = true -> w = fin_wire (tsplit ([], []) (strip (fs_toks p true (m_fields m) vs))) [])
    /\ (m_nocopy m = false -> w = [fs_bytes p [] (m_fields m) vs])
    /\ MARKS p (m_nocopy m) (m_fields m) vs (length (m_fields m)) ys
    /\ YF p (m_fields m) vs (length (m_fields m)) ys.
Proof.
  intros p [nc o fs] vs w0 W Sh PL Hn. unfold planned in PL. cbn [m_nocopy m_fields] in *. pose proof (wf_fields_all _ _ W) as WA.
  unfold m_encode_into. cbn [m_nocopy m_fields].
  destruct nc.
  - specialize (Hn eq_refl). pose proof (fs_toks_len fs p true vs WA Hn) as Np.
    pose proof (fs_toks_good fs p true vs) as G. rewrite plan_toks in PL by auto. cbn [m_nocopy m_fields] in PL.
    set (ts := fs_toks p true fs vs) in *.
    assert (Nw : w0 <> []).
    { intros ->. cbn [map] in PL. destruct ts as [|[b|x] ts]; [congruence| |destruct G; discriminate]. destruct G as [G _]. rewrite lay_tb in PL.
      destruct (lay_pos 0 (0 + nlen b) ts) as (d & T & E); [apply nlen_nonnil in G; lia|]. congruence. }
    destruct (model_run p true fs vs 0 w0 Nw W (fs_all fs) Sh) as (w' & ys & E & _ & F & M & Y).
    { fold ts. destruct ts as [|x ts'] eqn:Ets; [congruence|]. cbn [ST tsplit fold_left fst snd]. exists w0. cbn [w_wire w_idx w_pos].
      split; [reflexivity|]. split; [reflexivity|]. split; [reflexivity|]. split; [exact PL|eexists; reflexivity]. }
    exists w', ys. split; [exact E|]. destruct (F Np) as (g & Lg & ->). fold ts. apply nlen_0 in Lg. subst g.
    split; [rewrite fin_concat, tbytes_strip by reflexivity; unfold ts; apply fs_toks_bytes; auto|]. split; [auto|]. split; [discriminate|auto].
  - destruct PL as (b0 & -> & L0).
    destruct (fs_flat fs p false vs WA (copy_fields_flat _ W)) as [TBS LEN].
    set (ts := fs_toks p false fs vs) in *. pose proof (fs_toks_bytes fs p false vs WA) as TBB. fold ts in TBB.
    destruct (model_run p false fs vs 0 [b0] ltac:(discriminate) W (fs_all fs) Sh) as (w' & ys & E & F0 & F & M & Y).
    { fold ts. destruct ts as [|x ts'] eqn:Ets; [cbn; congruence|]. cbn [ST tsplit fold_left fst snd]. exists [b0].
      cbn [w_wire w_idx w_pos]. split; [reflexivity|]. split; [reflexivity|]. split; [reflexivity|]. split; [|eexists; reflexivity].
      change (nlen (@nil N)) with 0%N. unfold lay. rewrite strip_tbs, psp_tbs by auto. cbn [fst snd app map]. rewrite TBB, N.add_0_r, N.add_0_l, <- LEN, L0.
      destruct (0 <? fs_len p fs vs)%N eqn:Z; auto. exfalso.
      assert (Q : tbytes (x :: ts') <> []).
      { apply good_tbytes; auto; [|discriminate]. rewrite <- Ets. apply fs_toks_good. }
      apply Q. rewrite TBB. apply nlen_0. lia. }
    exists w', ys. split; [exact E|].
    assert (EW : w' = [fs_bytes p [] fs vs]).
    { fold ts in F0, F. destruct ts as [|x ts'] eqn:Ets.
      - rewrite F0 by auto. cbn in TBB. rewrite LEN, <- TBB in L0. apply nlen_0 in L0. subst b0. rewrite <- TBB. reflexivity.
      - destruct F as (g & Lg & ->); [discriminate|]. apply nlen_0 in Lg. subst g. rewrite strip_tbs, tsplit_tb by auto. rewrite TBB.
        unfold fin_wire. cbn [fst snd app]. destruct (fs_bytes p [] fs vs) eqn:X; [|rewrite app_nil_r; reflexivity].
        exfalso. assert (Q : tbytes (x :: ts') <> []) by (apply good_tbytes; auto; [rewrite <- Ets; apply fs_toks_good|discriminate]). congruence. }
    subst w'. split; [cbn; apply app_nil_r|]. split; [discriminate|]. auto.
Qed.

Theorem encode_ok : forall p m vs, wf_model m = true -> fs_shape (m_fields m) vs ->
  (m_nocopy m = true -> (0 < fs_len p (m_fields m) vs)%N) ->
  exists w ys, m_encode p m vs = Ok (w, ys) /\ concat w = fs_bytes p [] (m_fields m) vs
    /\ (m_nocopy m = true -> w = fin_wire (tsplit ([], []) (strip (fs_toks p true (m_fields m) vs))) [])
    /\ (m_nocopy m = false -> w = [fs_bytes p [] (m_fields m) vs])
    /\ MARKS p (m_nocopy m) (m_fields m) vs (length (m_fields m)) ys
    /\ YF p (m_fields m) vs (length (m_fields m)) ys.
Proof.
  intros p m vs W Sh Hn.
  assert (E : exists w0, m_encode p m vs = m_encode_into p m vs w0 /\ planned p m vs w0).
  { unfold m_encode, planned. destruct (m_nocopy m); eexists; (split; [reflexivity|]); [apply map_nlen_repeat|].
    eexists. split; [reflexivity|apply nlen_repeat]. }
  destruct E as (w0 & -> & PL). apply encode_into_ok; auto.
Qed.

(** Encoding fills the planned buffers, whatever they contained. *)
Theorem encode_exact : forall p m vs w0, wf_model m = true -> fs_shape (m_fields m) vs -> planned p m vs w0 ->
  (m_nocopy m = true -> fs_len p (m_fields m) vs <> 0%N) ->
  exists w ys ys', m_encode p m vs = Ok (w, ys) /\ m_encode_into p m vs w0 = Ok (w, ys')
    /\ concat w = fs_bytes p [] (m_fields m) vs
    /\ fs_len p (m_fields m) vs = nlen (fs_bytes p (full_hole p) (m_fields m) vs)
    /\ Forall2 (fun n b => n = 0%N \/ n = nlen b) (if m_nocopy m then m_plan p m vs else [fs_len p (m_fields m) vs]) w.
Proof.
  intros p m vs w0 W Sh PL Hn.
  assert (Hn' : m_nocopy m = true -> (0 < fs_len p (m_fields m) vs)%N) by (intros; apply Hn in H; lia).
  destruct (encode_ok p m vs W Sh Hn') as (w & ys & E & B & F1 & F2 & M & Y).
  destruct (encode_into_ok p m vs w0 W Sh PL Hn') as (w' & ys' & E' & B' & F1' & F2' & M' & Y').
  assert (w' = w) by (destruct (m_nocopy m); [rewrite F1, F1' by auto|rewrite F2, F2' by auto]; reflexivity). subst w'.
  pose proof (wf_fields_all _ _ W) as WA.
  exists w, ys, ys'. split; [exact E|]. split; [exact E'|]. split; [exact B|]. split; [eapply fs_len_ok; eauto|].
  destruct m as [nc o fs]. cbn [m_nocopy m_fields] in *. destruct nc.
  - rewrite F1, plan_toks by auto. apply lay_fill.
  - rewrite F2 by auto. constructor; [|constructor]. right. apply (fs_flat fs p false vs WA (copy_fields_flat _ W)).
Qed.
