(** Encoding: markers, structures, models. *)
From Verif Require Import Base BaseProofs PrimModel PrimProofs ReaderModel ReaderProofs ReaderProofs2 NameModel NameProofs CodecModel CodecSpec CodecProofs CodecEnc CodecEnc2 CodecEnc3.

Lemma upd_length : forall {A} (l : list A) i x, length (upd l i x) = length l.
Proof.
  intros. unfold upd. destruct (i <? length l)%nat eqn:E; auto. apply Nat.ltb_lt in E.
  rewrite app_length. cbn [length]. rewrite firstn_length, skipn_length. lia.
Qed.

Lemma upd_nth : forall {A} (l : list A) i x d, (i < length l)%nat -> nth i (upd l i x) d = x.
Proof.
  intros. unfold upd. replace (i <? length l)%nat with true by (symmetry; apply Nat.ltb_lt; auto).
  rewrite app_nth2; rewrite firstn_length_le by lia; [|lia]. rewrite Nat.sub_diag. reflexivity.
Qed.

Lemma upd_cons : forall {A} (a : A) l i x, upd (a :: l) (S i) x = a :: upd l i x.
Proof.
  intros. unfold upd. cbn [length firstn skipn]. change (S i <? S (length l))%nat with (i <? length l)%nat.
  destruct (i <? length l)%nat; reflexivity.
Qed.

Lemma upd_nth_other : forall {A} (l : list A) i j x d, i <> j -> nth j (upd l i x) d = nth j l d.
Proof.
  induction l as [|a l IH]; intros i j x d H.
  - unfold upd. destruct i; reflexivity.
  - destruct i as [|i].
    + destruct j as [|j]; [congruence|]. reflexivity.
    + rewrite upd_cons. destruct j as [|j]; [reflexivity|]. cbn [nth]. apply IH. congruence.
Qed.

Lemma kind_at_lt : forall fs i, kind_at fs i <> KBool -> (i < length fs)%nat.
Proof.
  intros. destruct (Nat.lt_ge_cases i (length fs)); auto. exfalso. apply H. unfold kind_at. apply nth_overflow. rewrite map_length. auto.
Qed.

Lemma kind_at_eq : forall fs i f, nth_error fs i = Some f -> kind_at fs i = snd f.
Proof.
  intros. unfold kind_at. erewrite nth_indep with (d' := snd f).
  - rewrite map_nth. erewrite nth_error_nth by eauto. reflexivity.
  - rewrite map_length. apply nth_error_Some. congruence.
Qed.
Lemma typ_at_eq : forall fs i f, nth_error fs i = Some f -> typ_at fs i = fst f.
Proof.
  intros. unfold typ_at. erewrite nth_indep with (d' := fst f).
  - rewrite map_nth. erewrite nth_error_nth by eauto. reflexivity.
  - rewrite map_length. apply nth_error_Some. congruence.
Qed.
Lemma val_at_eq : forall vs i v, nth_error vs i = Some v -> val_at vs i = v.
Proof. intros. unfold val_at. erewrite nth_error_nth by eauto. reflexivity. Qed.

Lemma wf_mark_at : forall nc fs i f, wf_fields nc fs = true -> nth_error fs i = Some f ->
  wf_mark nc fs i (snd f) = true /\ wf_kind nc (snd f) = true.
Proof.
  intros nc fs i f W E. pose proof (wf_fields_all _ _ W) as A. split.
  - unfold wf_fields in W. rewrite andb_true_iff in W. destruct W as [_ W].
    cut (forall l k i f, wf_marks_from nc fs k l = true -> nth_error l i = Some f -> wf_mark nc fs (k + i) (snd f) = true).
    { intros Q. apply (Q fs 0%nat i f); auto. }
    induction l as [|g l IH]; intros k [|n] h Hw Hn; try discriminate; cbn [wf_marks_from nth_error] in *; rewrite andb_true_iff in Hw; destruct Hw as [H1 H2].
    + injection Hn as <-. rewrite Nat.add_0_r. auto.
    + rewrite <- plus_n_Sm. apply (IH (S k) n h); auto.
  - rewrite Forall_forall in A. apply A. eapply nth_error_In; eauto.
Qed.

Lemma marks_step : forall p nc fs vs j ys ys', MARKS p nc fs vs j ys -> length ys' = length ys ->
  (forall i, (i < j)%nat -> kind_at fs i <> KArg -> nth i ys' YNone = nth i ys YNone) ->
  mark_ok p nc fs vs j (nth j ys' YNone) ->
  (forall a, kind_at fs a = KArg -> concat (y_cov (nth a ys' YNone)) = concat (y_cov (nth a ys YNone)) ++ contrib p fs vs a j) ->
  MARKS p nc fs vs (S j) ys'.
Proof.
  intros p nc fs vs j ys ys' (L & M & C) L' H Hj Hc. split; [congruence|]. split.
  - intros i Hi. assert (D : (i < j)%nat \/ i = j) by lia. destruct D as [D|D]; [|subst i; auto].
    assert (Dk : kind_at fs i = KArg \/ kind_at fs i <> KArg) by (destruct (kind_at fs i); auto; right; discriminate).
    destruct Dk as [Dk|Dk].
    + unfold mark_ok. rewrite Dk. destruct (val_at vs i); exact I.
    + rewrite H by auto. auto.
  - intros a Ha. rewrite Hc, C by auto. unfold cov_upto. rewrite seq_S, map_app, concat_app. cbn [map concat Nat.add].
    rewrite app_nil_r. reflexivity.
Qed.

Lemma yf_step : forall p fs vs j ys ys', YF p fs vs j ys ->
  (forall i, (i < j)%nat -> kind_at fs i <> KArg -> nth i ys' YNone = nth i ys YNone) ->
  yfin p (kind_at fs j) (val_at vs j) (nth j ys' YNone) -> YF p fs vs (S j) ys'.
Proof.
  intros p fs vs j ys ys' Y H Hj i Hi. assert (D : (i < j)%nat \/ i = j) by lia. destruct D as [D|D]; [|subst i; auto].
  assert (Dk : kind_at fs i = KArg \/ kind_at fs i <> KArg) by (destruct (kind_at fs i); auto; right; discriminate).
  destruct Dk as [Dk|Dk].
  - rewrite Dk. destruct (val_at vs i); exact I.
  - rewrite H by auto. auto.
Qed.

Lemma firstn_at : forall {A} (a : list A) x b, firstn (length a) (a ++ x :: b) = a.
Proof. intros. apply firstn_app_exact. auto. Qed.

(** moving on over the empty buffer left for a signature *)
Lemma sig_switch : forall e done R s S c, tsplit ([], []) done = (S, c) -> c <> [] ->
  INV e S c (TW [[]] :: R) s -> ST e (done ++ [TW [[]]]) R (w_switch (w_switch s)).
Proof.
  intros e done R [ww ix ps] S c E Nc (W2 & E1 & E2 & E3 & E4 & y & E5). cbn [w_wire w_idx w_pos] in *. subst ww ix ps.
  rewrite lay_tw in E4 by (left; discriminate). destruct W2 as [|a [|z T]]; try discriminate. cbn [map app hd repeat length] in *.
  injection E4 as E4 E6 E7. subst a. assert (z = []) by (apply nlen_0; auto). subst z.
  assert (y = []) by (apply nlen_0; rewrite nlen_app in E4; lia). subst y. rewrite app_nil_r in *.
  assert (I : INV e (S ++ [c; []]) [] R (w_switch (w_switch (mkW (S ++ c :: [] :: T) (length S) (zlen c))))).
  { unfold w_switch. cbn [w_wire w_idx]. replace (S ++ c :: [] :: T) with ((S ++ [c; []]) ++ T) by (rewrite <- app_assoc; reflexivity).
    replace (Datatypes.S (Datatypes.S (length S))) with (length (S ++ [c; []])) by (rewrite app_length; cbn; lia). apply inv_zero. auto. }
  destruct R as [|r R].
  - cbn [ST]. intros _. rewrite strip_snoc by discriminate. rewrite strip_tw1, tsplit_snoc, E. unfold fin_wire. cbn [tstep fst snd w_wire w_switch].
    exists (repeat 0%N (N.to_nat e)). split; [unfold nlen; rewrite repeat_length; lia|]. destruct T; [|discriminate]. rewrite app_nil_r. reflexivity.
  - cbn [ST]. rewrite tsplit_snoc, E. exact I.
Qed.

(** an INV state right after bytes *)
Lemma inv_shape : forall e S c R s, INV e S c R s -> c <> [] -> exists y T, s = mkW (S ++ (c ++ y) :: T) (length S) (zlen c).
Proof.
  intros e S c R [ww ix ps] (W2 & E1 & E2 & E3 & E4 & y & E5) Nc. cbn [w_wire w_idx w_pos] in *. subst ww ix ps.
  destruct (lay_pos e (nlen c) R) as (d & T & L); [apply nlen_nonnil; auto|]. rewrite L in E4.
  destruct W2 as [|a W2]; [discriminate|]. cbn [hd] in E5. subst a. eauto.
Qed.

Lemma inv_idx : forall e S c R s, INV e S c R s -> w_idx s = length S /\ w_pos s = zlen c.
Proof. intros e S c R s (W2 & E1 & E2 & E3 & _). auto. Qed.

Lemma slice_0 : forall {A} (a b : list A), slice (a ++ b) 0 (zlen a) = Ok a.
Proof. intros. exact (slice_app [] a b). Qed.

Section Step.
  Variables (p : eparams) (nc : bool) (F0 F1 : list (N * kind)) (f : N * kind) (V0 V1 : list value) (v : value).
  Let fs := F0 ++ f :: F1.
  Let vs := V0 ++ v :: V1.
  Hypothesis LF : length F0 = length V0.
  Hypothesis WF : wf_fields nc fs = true.
  Hypothesis SH : shape (snd f) v.
  Let j := length F0.
  Let T0 := fs_toks p nc F0 V0.
  Let R := fs_toks p nc F1 V1.
  Let tk := toks p nc (fst f) (snd f) v.

  Lemma nth_f : nth_error fs j = Some f.
  Proof. subst fs j. rewrite nth_error_app2 by lia. rewrite Nat.sub_diag. reflexivity. Qed.
  Lemma nth_v : nth_error vs j = Some v.
  Proof. subst vs j. rewrite LF. rewrite nth_error_app2 by lia. rewrite Nat.sub_diag. reflexivity. Qed.
  Lemma kind_j : kind_at fs j = snd f. Proof. apply kind_at_eq, nth_f. Qed.
  Lemma val_j : val_at vs j = v. Proof. apply val_at_eq, nth_v. Qed.
  Lemma typ_j : typ_at fs j = fst f. Proof. apply typ_at_eq, nth_f. Qed.
  Lemma first_f : firstn j fs = F0. Proof. apply firstn_at. Qed.
  Lemma first_v : firstn j vs = V0. Proof. subst j vs. rewrite LF. apply firstn_at. Qed.
  Lemma skip_f : skipn j fs = f :: F1. Proof. subst j fs. apply skipn_app_exact. auto. Qed.
  Lemma skip_v : skipn j vs = v :: V1. Proof. subst j vs. rewrite LF. apply skipn_app_exact. auto. Qed.
  Lemma before_j : toks_before p nc fs vs j = T0.
  Proof. unfold toks_before. rewrite first_f, first_v. reflexivity. Qed.
  Lemma wf_F0 : Forall (fun f => wf_kind nc (snd f) = true) F0.
  Proof. pose proof (wf_fields_all _ _ WF) as A. apply Forall_app in A. tauto. Qed.

  Definition step_ok (e : N) (off : N) (plan : wplan) (s : wst) (ys : list ecx) : Prop :=
    exists s' ys', k_write p nc (fst f) j (snd f) v off plan s ys = Ok (s', ys') /\ ST e (T0 ++ tk) R s' /\ (tk = [] -> s' = s)
      /\ MARKS p nc fs vs (S j) ys' /\ YF p fs vs (S j) ys'.

  Lemma j_lt : (j < length fs)%nat.
  Proof. apply nth_error_Some. rewrite nth_f. discriminate. Qed.

  Lemma contrib_plain : is_mark (snd f) = false -> forall a, contrib p fs vs a j = [].
  Proof. intros H a. unfold contrib. rewrite kind_j. destruct (snd f); try discriminate; auto. Qed.

  Lemma step_plain : forall e s ys off plan, Pk (snd f) -> is_mark (snd f) = false ->
    ST e T0 (tk ++ R) s -> MARKS p nc fs vs j ys -> YF p fs vs j ys -> step_ok e off plan s ys.
  Proof.
    intros e s ys off plan P Mk H M Y. destruct (wf_mark_at nc fs j f WF nth_f) as [_ W].
    pose proof j_lt as JL. assert (Ly : length ys = length fs) by apply M.
    destruct (P p nc (fst f) v j e T0 R s off plan ys W Mk SH) as (s' & ys' & A & B & C & D & E & F); auto; [lia|].
    exists s', ys'. split; [exact A|]. split; [exact B|]. split; [exact C|]. 
    assert (EQ : forall i, (i < j)%nat -> kind_at fs i <> KArg -> nth i ys' YNone = nth i ys YNone) by (intros; apply E; lia).
    split.
    - apply (marks_step p nc fs vs j ys); auto.
      + unfold mark_ok. rewrite kind_j. destruct (snd f); try discriminate; destruct (val_at vs j); exact I.
      + intros a Ha. rewrite contrib_plain by auto. rewrite app_nil_r. destruct (Nat.eq_dec a j) as [->|Na].
        * rewrite kind_j in Ha. rewrite Ha in F. rewrite F. reflexivity.
        * rewrite E by auto. reflexivity.
    - apply (yf_step p fs vs j ys); auto. rewrite kind_j, val_j. destruct (snd f) eqn:Ek; try (destruct v; exact I). exact F.
  Qed.

  Lemma step_offset : forall e s ys off plan, (match snd f with KOffset | KRange _ _ => True | _ => False end) ->
    off = fs_len p F0 V0 ->
    ST e T0 (tk ++ R) s -> MARKS p nc fs vs j ys -> YF p fs vs j ys -> step_ok e off plan s ys.
  Proof.
    intros e s ys off plan Hk -> H M Y. pose proof j_lt as JL. assert (Ly : length ys = length fs) by apply M.
    assert (TK : tk = []) by (subst tk; destruct (snd f); try contradiction; destruct v; reflexivity).
    exists s, (upd ys j (YOff (fs_len p F0 V0) (w_idx s) (w_pos s))). rewrite TK in *. rewrite app_nil_r in *.
    split; [destruct (snd f); try contradiction; destruct v; reflexivity|]. split; [auto|]. split; [auto|].
    assert (EQ : forall i, (i < j)%nat -> kind_at fs i <> KArg -> nth i (upd ys j (YOff (fs_len p F0 V0) (w_idx s) (w_pos s))) YNone = nth i ys YNone) by (intros; apply upd_nth_other; lia).
    split.
    - apply (marks_step p nc fs vs j ys); auto.
      + apply upd_length.
      + rewrite upd_nth by lia. assert (off_ok p nc fs vs j (YOff (fs_len p F0 V0) (w_idx s) (w_pos s))).
        { exists (fs_len p F0 V0), (w_idx s), (w_pos s). split; auto. split; [rewrite first_f, first_v; auto|].
          rewrite skip_f, skip_v, before_j. cbn [fs_toks]. fold tk. fold R. rewrite TK. cbn [app]. intros NR.
          cbn [app] in H. unfold ST in H. destruct R as [|r R']; [congruence|]. apply inv_idx in H. auto. }
        unfold mark_ok. rewrite kind_j. destruct (snd f); try contradiction; destruct (val_at vs j); auto.
      + intros a Ha. assert (a <> j) by (intros ->; rewrite kind_j in Ha; rewrite Ha in Hk; contradiction).
        rewrite upd_nth_other by auto. unfold contrib. rewrite kind_j. destruct (snd f); try contradiction; rewrite app_nil_r; reflexivity.
    - apply (yf_step p fs vs j ys); auto. rewrite kind_j, val_j. destruct (snd f); try contradiction; destruct v; exact I.
  Qed.

  Lemma step_sig : forall e s ys off plan st cv, snd f = KSig st cv -> plan = psplit ([], 0%N) T0 ->
    ST e T0 (tk ++ R) s -> MARKS p nc fs vs j ys -> YF p fs vs j ys -> step_ok e off plan s ys.
  Proof.
    intros e s ys off plan st cv Ek Epl H M Y. pose proof j_lt as JL. assert (Ly : length ys = length fs) by apply M.
    destruct (wf_mark_at nc fs j f WF nth_f) as [WM _]. rewrite Ek in WM. cbn [wf_mark] in WM. rewrite !andb_true_iff in WM.
    destruct WM as ((((Nc & Lst) & Off) & Arg) & Flat). apply Nat.ltb_lt in Lst.
    assert (WR : k_write p nc (fst f) j (snd f) v off plan s ys = w_sig p nc (fst f) j st cv off plan s ys) by (rewrite Ek; destruct v; reflexivity).
    unfold step_ok. rewrite WR. unfold w_sig. clear WR.
    assert (TK : tk = if (0 <? ep_est p)%N then [TB (tl_enc (fst f) ++ tl_enc (ep_est p)); TW [[]]] else []).
    { subst tk. rewrite Ek. destruct v; reflexivity. }
    destruct (0 <? ep_est p)%N eqn:Ees.
    2:{ exists s, ys. rewrite TK in *. rewrite app_nil_r. split; auto. split; auto. split; auto. split.
        - apply (marks_step p nc fs vs j ys); auto.
          + unfold mark_ok. rewrite kind_j, Ek. assert (~ (0 < ep_est p)%N) by lia. destruct (val_at vs j); tauto.
          + intros a Ha. unfold contrib. rewrite kind_j, Ek, Ees. destruct (cv =? a)%nat; cbn [andb]; rewrite app_nil_r; reflexivity.
        - apply (yf_step p fs vs j ys); auto. rewrite kind_j, Ek. destruct (val_at vs j); exact I. }
    set (hdr := tl_enc (fst f) ++ tl_enc (ep_est p)) in *.
    assert (Nh : hdr <> []) by apply tl_app_nonnil.
    (* the fields before and after the start of the covered part *)
    destruct (split_at F0 st) as (FA & FB & EF & LA); [lia|].
    destruct (split_at V0 st) as (VA & VB & EV & LVA); [rewrite <- LF; fold j; lia|].
    assert (LAB : length FA = length VA) by lia.
    assert (KO : kind_at fs st = KOffset) by (destruct (kind_at fs st); try discriminate; auto).
    assert (KA : kind_at fs cv = KArg) by (destruct (kind_at fs cv); try discriminate; auto).
    assert (FSA : firstn st fs = FA).
    { subst fs. rewrite EF, <- app_assoc. apply firstn_app_exact. auto. }
    assert (FSV : firstn st vs = VA).
    { subst vs. rewrite EV, <- app_assoc. apply firstn_app_exact. auto. }
    assert (SKF : skipn st fs = FB ++ f :: F1).
    { subst fs. rewrite EF, <- app_assoc. apply skipn_app_exact. auto. }
    assert (SKV : skipn st vs = VB ++ v :: V1).
    { subst vs. rewrite EV, <- app_assoc. apply skipn_app_exact. auto. }
    assert (LBB : length FB = length VB) by (apply (f_equal (@length _)) in EF, EV; rewrite app_length in EF, EV; lia).
    rewrite FSA in Flat.
    pose proof wf_F0 as WA. rewrite EF in WA. apply Forall_app in WA. destruct WA as [WA WB].
    destruct (fs_flat FA p nc VA WA Flat) as [TBA LENA].
    pose proof M as (_ & MM & MC). pose proof (MM st Lst) as MO. unfold mark_ok in MO. rewrite KO in MO.
    assert (MO' : off_ok p nc fs vs st (nth st ys YNone)) by (destruct (val_at vs st); exact MO). clear MO.
    destruct MO' as (o & ix & ps & EY & Eo & Hix). rewrite EY. cbn [y_off]. rewrite FSA, FSV in Eo.
    destruct Hix as [Hix _].
    { rewrite SKF, SKV, fs_toks_app by auto. cbn [fs_toks]. fold tk. rewrite TK. intros X. apply app_eq_nil in X. destruct X; discriminate. }
    unfold toks_before in Hix. rewrite FSA, FSV, tsplit_tb in Hix by auto. cbn [fst length] in Hix. subst ix.
    (* the present state *)
    rewrite TK in H. cbn [app ST] in H.
    assert (ET0 : tsplit ([], []) T0 = tjoin [] (fs_bytes p [] FA VA) (tsplit ([], []) (fs_toks p nc FB VB))).
    { subst T0. rewrite EF, EV, fs_toks_app by auto. rewrite tsplit_app, tsplit_tb by auto. cbn [app].
      rewrite fs_toks_bytes by auto. apply tsplit_gen. }
    assert (CB : concat (fst (tsplit ([], []) (fs_toks p nc FB VB))) ++ snd (tsplit ([], []) (fs_toks p nc FB VB)) = fs_bytes p [] FB VB).
    { rewrite tsplit_concat. cbn [concat app]. apply fs_toks_bytes. auto. }
    pose proof (tsplit_psp T0 [] []) as [TP _]. change (nlen (@nil N)) with 0%N in TP. unfold psp in TP. rewrite <- Epl in TP. cbn [length Nat.add] in TP.
    destruct (tsplit ([], []) (fs_toks p nc FB VB)) as [S0 c0] eqn:ES0. cbn [fst snd] in CB.
    destruct (tsplit ([], []) T0) as [S c] eqn:EST. cbn [fst snd] in H, TP.
    rewrite <- (app_nil_r hdr) in H. destruct (writes_tl (fst f) (ep_est p) e S c [] (TW [[]] :: R) s (or_intror Nh) H) as (s1 & E1 & I1).
    fold hdr in I1. rewrite inv_tb0 in I1. rewrite E1. cbn [bind]. apply inv_idx in H. destruct H as [Hi Hp].
    assert (Nch : c ++ hdr <> []) by (intros X; apply app_eq_nil in X; tauto).
    destruct (inv_shape _ _ _ _ _ I1 Nch) as (y & T & Es1).
    rewrite Hi, Hp.
    assert (COV : exists cw, sig_cover nc o 0 (mkW (w_wire s1) (length S) (zlen c)) = Ok cw /\ concat cw = fs_bytes p [] FB VB).
    { rewrite Es1. cbn [w_wire]. unfold sig_cover. cbn [w_idx w_wire w_pos]. rewrite Nc. cbn [negb orb].
      unfold tjoin in ET0. cbn [fst snd] in ET0. subst o. rewrite LENA, <- zlen_nlen. destruct S0 as [|a q].
      - injection ET0 as -> ->. cbn [length Nat.eqb]. unfold w_buf. cbn [w_idx w_wire app nth].
        exists [c0]. split; [|rewrite <- CB; cbn; rewrite app_nil_r; reflexivity].
        rewrite <- !app_assoc. rewrite zlen_app. rewrite slice_app. reflexivity.
      - injection ET0 as -> ->. cbn [length Nat.eqb app nth]. exists (a :: q ++ [c0]). split.
        + rewrite slice_tail. cbn [bind]. unfold w_buf. cbn [w_idx w_wire nth]. rewrite nth_mid.
          rewrite <- app_assoc. rewrite slice_0. cbn [bind]. cbn [skipn]. rewrite Nat.sub_0_r. cbn [Nat.sub]. rewrite Nat.sub_0_r.
          rewrite firstn_app_exact by auto. reflexivity.
        + rewrite <- CB. cbn [concat]. rewrite concat_app. cbn. rewrite app_nil_r, <- app_assoc. reflexivity. }
    destruct COV as (cw & ECOV & CCW). rewrite ECOV. cbn [bind].
    assert (IFT : forall A (a b : A), (if nc then a else b) = a) by (rewrite Nc; auto). rewrite IFT.
    assert (Ncv : cv <> j) by (intros ->; rewrite kind_j in KA; congruence).
    assert (Lcv : (cv < length ys)%nat) by (rewrite Ly; apply kind_at_lt; rewrite KA; discriminate).
    eexists. eexists. split; [reflexivity|]. split.
    { rewrite TK. change [TB hdr; TW [[]]] with ([TB hdr] ++ [TW [[]]]). rewrite app_assoc.
      apply (sig_switch e (T0 ++ [TB hdr]) R s1 S (c ++ hdr)); auto. rewrite tsplit_snoc, EST. reflexivity. }
    split; [rewrite TK; discriminate|].
    assert (EQ : forall i y1 y2, (i < j)%nat -> kind_at fs i <> KArg -> nth i (upd (upd ys cv y1) j y2) YNone = nth i ys YNone).
    { intros i y1 y2 L1 L2. rewrite !upd_nth_other; auto; [intros ->; congruence|lia]. }
    split.
    - apply (marks_step p nc fs vs j ys); auto.
      + rewrite !upd_length. auto.
      + unfold mark_ok. rewrite kind_j, Ek, before_j, EST. cbn [fst].
        rewrite upd_nth by (rewrite upd_length; lia).
        assert (Q : YSig (length (fst (plan_switch (plan_add (tl_len (fst f) + tl_len (ep_est p)) plan)))) = YSig (Datatypes.S (length S))).
        { f_equal. unfold plan_switch, plan_add. cbn [fst snd]. rewrite app_length, <- TP. cbn. lia. }
        destruct (val_at vs j); intros _; exact Q.
      + intros a Ha. assert (a <> j) by (intros ->; rewrite kind_j in Ha; congruence). rewrite upd_nth_other by auto.
        unfold contrib. rewrite kind_j, Ek, Ees, andb_true_r, first_f, first_v.
        assert (SKB : skipn st F0 = FB) by (rewrite EF; apply skipn_app_exact; auto).
        assert (SKB2 : skipn st V0 = VB) by (rewrite EV; apply skipn_app_exact; auto). rewrite SKB, SKB2.
        assert (Q : concat (y_cov (nth a (upd ys cv (YCov (y_cov (nth cv ys YNone) ++ cw))) YNone)) = concat (y_cov (nth a ys YNone)) ++ (if (cv =? a)%nat then fs_bytes p [] FB VB else [])).
        { destruct (Nat.eqb_spec cv a) as [->|Na].
          - rewrite upd_nth by auto. cbn [y_cov]. rewrite concat_app, CCW. reflexivity.
          - rewrite upd_nth_other by auto. rewrite app_nil_r. reflexivity. }
        destruct (val_at vs j); exact Q.
    - apply (yf_step p fs vs j ys); auto. rewrite kind_j, Ek. destruct (val_at vs j); exact I.
  Qed.

  Lemma step_iname : forall e s ys off plan cv, snd f = KIName cv ->
    ST e T0 (tk ++ R) s -> MARKS p nc fs vs j ys -> YF p fs vs j ys -> step_ok e off plan s ys.
  Proof.
    intros e s ys off plan cv Ek H M Y. pose proof j_lt as JL. assert (Ly : length ys = length fs) by apply M.
    destruct (wf_mark_at nc fs j f WF nth_f) as [WM _]. rewrite Ek in WM. cbn [wf_mark] in WM. rewrite !andb_true_iff in WM.
    destruct WM as ((Nc & Arg) & Flat).
    assert (KA : kind_at fs cv = KArg) by (destruct (kind_at fs cv); try discriminate; auto).
    assert (Ncv : cv <> j) by (intros ->; rewrite kind_j in KA; congruence).
    assert (Lcv : (cv < length ys)%nat) by (rewrite Ly; apply kind_at_lt; rewrite KA; discriminate).
    pose proof SH as SH'. rewrite Ek in SH'. 
    assert (CASES : v = VNone \/ exists n, v = VName n) by (destruct v; cbn [shape] in SH'; try contradiction; eauto).
    destruct CASES as [Ev|(n & Ev)].
    - (* no name *)
      assert (TK : tk = []) by (subst tk; rewrite Ek, Ev; reflexivity).
      exists s, ys. rewrite TK in *. rewrite app_nil_r. split; [rewrite Ek, Ev; reflexivity|]. split; [auto|]. split; [auto|]. split.
      + apply (marks_step p nc fs vs j ys); auto.
        * unfold mark_ok. rewrite kind_j, Ek, val_j, Ev. exact I.
        * intros a Ha. unfold contrib. rewrite kind_j, Ek, val_j, Ev, app_nil_r. reflexivity.
      + apply (yf_step p fs vs j ys); auto. rewrite kind_j, Ek, val_j, Ev. exact I.
    - assert (TK : tk = leaf_tok (tlv (fst f) (name_enc (final_name p n)))) by (subst tk; rewrite Ek, Ev; reflexivity).
      assert (WR : k_write p nc (fst f) j (snd f) v off plan s ys = w_iname p (fst f) j cv n off plan s ys) by (rewrite Ek, Ev; reflexivity).
      unfold step_ok. rewrite WR. unfold w_iname. clear WR.
      set (n' := final_name p n) in *. set (hdr := tl_enc (fst f) ++ tl_enc (name_len n')).
      assert (EB : tlv (fst f) (name_enc n') = hdr ++ name_enc n') by (unfold tlv, hdr; rewrite name_len_enc, app_assoc; reflexivity).
      assert (Nh : hdr <> []) by apply tl_app_nonnil.
      assert (TK' : tk = [TB (hdr ++ name_enc n')]).
      { rewrite TK, EB. destruct (hdr ++ name_enc n') eqn:X; [apply app_eq_nil in X; tauto|reflexivity]. }
      rewrite first_f in Flat. destruct (fs_flat F0 p nc V0 wf_F0 Flat) as [TB0 LEN0].
      assert (ET0 : tsplit ([], []) T0 = ([], fs_bytes p [] F0 V0)).
      { subst T0. rewrite tsplit_tb by auto. rewrite fs_toks_bytes by apply wf_F0. reflexivity. }
      set (B := fs_bytes p [] F0 V0) in *.
      rewrite TK' in H. cbn [app ST] in H. rewrite ET0 in H. cbn [fst snd] in H.
      destruct (writes_tl (fst f) (name_len n') e [] B (name_enc n') R s (or_intror Nh) H) as (s1 & E1 & I1). fold hdr in I1.
      rewrite E1. cbn [bind]. pose proof (inv_idx _ _ _ _ _ I1) as [Hi1 Hp1].
      assert (N1 : B ++ hdr <> []) by (intros X; apply app_eq_nil in X; tauto).
      (* the name *)
      assert (NAME : n' = [] \/ exists n0 x, n' = n0 ++ [x]).
      { destruct n' as [|c0 r] eqn:En; [auto|]. right. destruct (exists_last (l := c0 :: r)) as (n0 & x & E); [discriminate|]. eauto. }
      assert (FINISH : forall s' ynm cw, INV e [] (B ++ hdr ++ name_enc n') (TB [] :: R) s' ->
         concat cw = cov_name p n ->
         (final_name p n <> [] -> ynm = YName 0 (zlen (B ++ hdr ++ name_enc (removelast (final_name p n))) + 2)%Z) ->
         ST e (T0 ++ tk) R s' /\ (tk = [] -> s' = s)
         /\ MARKS p nc fs vs (S j) (upd (upd ys j ynm) cv (YCov (y_cov (nth cv ys YNone) ++ cw)))
         /\ YF p fs vs (S j) (upd (upd ys j ynm) cv (YCov (y_cov (nth cv ys YNone) ++ cw)))).
      { intros s' ynm cw I2 CW YN. split; [|split; [rewrite TK'; discriminate|]].
        - rewrite TK'. assert (Nb : B ++ hdr ++ name_enc n' <> []) by (rewrite app_assoc; intros X; apply app_eq_nil in X; tauto).
          clear -I2 ET0 Nb. destruct R as [|r R'].
          + cbn [ST]. intros _. rewrite strip_snoc_tb, tsplit_snoc, ET0. destruct (inv_end _ _ _ _ I2 Nb) as (g & Lg & W).
            exists g. split; auto. rewrite W. unfold fin_wire. cbn [tstep fst snd]. destruct (B ++ hdr ++ name_enc n'); [congruence|]. reflexivity.
          + cbn [ST]. rewrite tsplit_snoc, ET0. cbn [tstep fst snd]. apply inv_tb0. auto.
        - assert (EQ : forall i, (i < j)%nat -> kind_at fs i <> KArg -> nth i (upd (upd ys j ynm) cv (YCov (y_cov (nth cv ys YNone) ++ cw))) YNone = nth i ys YNone).
          { intros i L1 L2. rewrite !upd_nth_other; auto; [lia|intros ->; congruence]. }
          split.
          + apply (marks_step p nc fs vs j ys); auto.
            * rewrite !upd_length. auto.
            * unfold mark_ok. rewrite kind_j, Ek, val_j, Ev, first_f, first_v, typ_j. rewrite upd_nth_other, upd_nth by (auto; lia). intros Q.
              rewrite (YN Q). f_equal. f_equal. unfold hdr. rewrite <- app_assoc. reflexivity.
            * intros a Ha. assert (a <> j) by (intros ->; rewrite kind_j in Ha; congruence).
              unfold contrib. rewrite kind_j, Ek, val_j, Ev. destruct (Nat.eqb_spec cv a) as [->|Na].
              -- rewrite upd_nth by (rewrite upd_length; auto). cbn [y_cov]. rewrite concat_app, CW. reflexivity.
              -- rewrite !upd_nth_other by auto. rewrite app_nil_r. reflexivity.
          + apply (yf_step p fs vs j ys); auto. rewrite kind_j, Ek, val_j, Ev. exact I. }
      destruct NAME as [En|(n0 & x & En)].
      + rewrite En in *. cbn [removelast foldM bind rev]. rewrite Hp1.
        destruct (inv_shape _ _ _ _ _ I1 N1) as (y & T & Es1). rewrite Es1. unfold w_buf. cbn [w_wire w_idx length nth app].
        assert (SL : slice ((B ++ hdr) ++ y) (zlen (B ++ hdr)) (zlen (B ++ hdr)) = Ok []).
        { pose proof (slice_app (B ++ hdr) [] y) as Q. change (zlen (@nil N)) with 0%Z in Q. rewrite Z.add_0_r in Q. exact Q. }
        cbn [app] in SL. rewrite SL. cbn [bind]. eexists. eexists. split; [reflexivity|].
        rewrite Es1 in I1. apply FINISH.
        * rewrite app_nil_r. exact I1.
        * unfold cov_name. fold n'. rewrite En. destruct (ep_digest p); reflexivity.
        * fold n'. congruence.
      + assert (RL : removelast n' = n0) by (rewrite En; apply removelast_last).
        assert (RV : rev n' = x :: rev n0) by (rewrite En, rev_app_distr; reflexivity).
        assert (NE : name_enc n' = name_enc n0 ++ comp_enc x).
        { rewrite En. unfold name_enc. rewrite map_app, concat_app. cbn. rewrite app_nil_r. reflexivity. }
        rewrite RL, RV. rewrite NE in I1.
        destruct (writes_fold w_comp comp_enc n0 comp_ok e [] (B ++ hdr) (comp_enc x) R s1 N1 I1) as (s2 & E2 & I2).
        fold (name_enc n0) in I2. rewrite E2. cbn [bind]. pose proof (inv_idx _ _ _ _ _ I2) as [Hi2 Hp2].
        assert (N2 : (B ++ hdr) ++ name_enc n0 <> []) by (intros X; apply app_eq_nil in X; tauto).
        rewrite <- (app_nil_r (comp_enc x)) in I2.
        destruct (comp_ok x e [] ((B ++ hdr) ++ name_enc n0) [] R s2 (or_introl N2) I2) as (s3 & E3 & I3). rewrite E3. cbn [bind].
        pose proof (inv_idx _ _ _ _ _ I3) as [Hi3 Hp3].
        assert (N3 : ((B ++ hdr) ++ name_enc n0) ++ comp_enc x <> []) by (intros X; apply app_eq_nil in X; tauto).
        destruct (inv_shape _ _ _ _ _ I3 N3) as (y & T & Es3).
        assert (SL : exists cw, slice (w_buf s3) (w_pos s1) (if ep_digest p then w_pos s2 else w_pos s3) = Ok cw /\ cw = cov_name p n).
        { eexists. split; [|reflexivity]. unfold cov_name. fold n'. rewrite RL, Hp1, Hp2, Hp3. rewrite Es3. unfold w_buf. cbn [w_wire w_idx length nth app].
          destruct (ep_digest p).
          - rewrite <- !(app_assoc (B ++ hdr)), <- (app_assoc (name_enc n0)). rewrite (zlen_app (B ++ hdr)). apply slice_app.
          - rewrite NE. rewrite <- !(app_assoc (B ++ hdr)). rewrite (zlen_app (B ++ hdr)). apply slice_app. }
        destruct SL as (cw & SL & ECW). rewrite SL. cbn [bind]. eexists. eexists. split; [reflexivity|].
        apply FINISH.
        * rewrite NE, !app_assoc. exact I3.
        * cbn. rewrite app_nil_r. exact ECW.
        * intros _. fold n'. rewrite RL, Hi2, Hp2, <- !app_assoc. reflexivity.
  Qed.

  Lemma step_any : forall e s ys off plan, Pk (snd f) -> off = fs_len p F0 V0 -> plan = psplit ([], 0%N) T0 ->
    ST e T0 (tk ++ R) s -> MARKS p nc fs vs j ys -> YF p fs vs j ys -> step_ok e off plan s ys.
  Proof.
    intros. destruct (is_mark (snd f)) eqn:E; [|apply step_plain; auto].
    assert (X : exists k, snd f = k) by eauto. destruct X as (k & Ek). rewrite Ek in E. destruct k; try discriminate.
    - apply step_offset; auto. rewrite Ek. exact I.
    - apply step_offset; auto. rewrite Ek. exact I.
    - eapply step_sig; eauto.
    - eapply step_iname; eauto.
  Qed.
End Step.

(** ** All fields of a model *)
Lemma run_ok : forall F1 V1 p nc F0 V0 e s ys, length F0 = length V0 -> length F1 = length V1 ->
  wf_fields nc (F0 ++ F1) = true -> Forall (fun f => Pk (snd f)) F1 -> Forall2 (fun f v => shape (snd f) v) F1 V1 ->
  ST e (fs_toks p nc F0 V0) (fs_toks p nc F1 V1) s ->
  MARKS p nc (F0 ++ F1) (V0 ++ V1) (length F0) ys -> YF p (F0 ++ F1) (V0 ++ V1) (length F0) ys ->
  exists s' ys', run_fields (fs_writers p nc (length F0) F1 V1) (fs_len p F0 V0) (psplit ([], 0%N) (fs_toks p nc F0 V0)) s ys = Ok (s', ys')
    /\ ST e (fs_toks p nc (F0 ++ F1) (V0 ++ V1)) [] s' /\ (fs_toks p nc F1 V1 = [] -> s' = s)
    /\ MARKS p nc (F0 ++ F1) (V0 ++ V1) (length (F0 ++ F1)) ys' /\ YF p (F0 ++ F1) (V0 ++ V1) (length (F0 ++ F1)) ys'.
Proof.
  induction F1 as [|f F1 IH]; intros [|v V1] p nc F0 V0 e s ys L0 L1 W P Sh H M Y; try discriminate.
  - exists s, ys. rewrite !app_nil_r in *. cbn [fs_writers run_fields fs_toks] in *. auto 10.
  - inversion P; subst. inversion Sh; subst. cbn [fs_toks] in H.
    destruct (step_any p nc F0 F1 f V0 V1 v L0 W ltac:(auto) e s ys (fs_len p F0 V0) _ ltac:(auto) eq_refl eq_refl H M Y) as (s1 & ys1 & E1 & S1 & Q1 & M1 & Y1).
    cbn [fs_writers run_fields]. rewrite E1. cbn [bind fst snd].
    assert (EF : F0 ++ f :: F1 = (F0 ++ [f]) ++ F1) by (rewrite <- app_assoc; reflexivity).
    assert (EV : V0 ++ v :: V1 = (V0 ++ [v]) ++ V1) by (rewrite <- app_assoc; reflexivity).
    assert (LS : length (F0 ++ [f]) = S (length F0)) by (rewrite app_length; cbn; lia).
    assert (TS : fs_toks p nc (F0 ++ [f]) (V0 ++ [v]) = fs_toks p nc F0 V0 ++ toks p nc (fst f) (snd f) v).
    { rewrite fs_toks_app by auto. cbn [fs_toks]. rewrite app_nil_r. reflexivity. }
    rewrite EF, EV in *.
    destruct (IH V1 p nc (F0 ++ [f]) (V0 ++ [v]) e s1 ys1) as (s2 & ys2 & E2 & S2 & Q2 & M2 & Y2); auto.
    + rewrite !app_length. cbn. lia.
    + rewrite TS. auto.
    + rewrite LS. auto.
    + rewrite LS. auto.
    + exists s2, ys2. rewrite LS, TS in E2. rewrite psplit_app in E2.
      rewrite fs_len_app in E2 by auto. cbn [fs_len] in E2. rewrite N.add_0_r in E2.
      rewrite k_plan_ok. 2:{ pose proof (wf_fields_all _ _ W) as A. rewrite <- EF in A. apply Forall_app in A. destruct A as [_ A]. inversion A; auto. }
      rewrite E2. split; auto. split; auto. split; auto.
      cbn [fs_toks]. intros X. apply app_eq_nil in X. destruct X as [X1 X2]. rewrite Q2 by auto. apply Q1. auto.
Qed.

Lemma marks_init : forall p nc fs vs, MARKS p nc fs vs 0 (map (fun _ => YNone) fs).
Proof.
  intros. split; [apply map_length|]. split; [intros; lia|]. intros a _. unfold cov_upto. cbn [seq map concat].
  assert (E : nth a (map (fun _ : N * kind => YNone) fs) YNone = YNone).
  { clear. revert a. induction fs; intros [|a']; cbn; auto. }
  rewrite E. reflexivity.
Qed.

Lemma f2_length : forall {A B} (R : A -> B -> Prop) l m, Forall2 R l m -> length l = length m.
Proof. induction 1; cbn; auto. Qed.

(** EncodeInto of a model *)
Lemma model_run : forall p nc fs vs e w, w <> [] -> wf_fields nc fs = true -> Forall (fun f => Pk (snd f)) fs -> fs_shape fs vs ->
  ST e [] (fs_toks p nc fs vs) (mkW w 0 0) ->
  exists w' ys', (do s0 <- w_start w;
     do r <- run_fields (fs_writers p nc 0 fs vs) 0 ([], 0%N) s0 (map (fun _ => YNone) fs);
     Ok (w_wire (fst r), snd r)) = Ok (w', ys')
    /\ (fs_toks p nc fs vs = [] -> w' = w)
    /\ (fs_toks p nc fs vs <> [] -> exists g, nlen g = e /\ w' = fin_wire (tsplit ([], []) (strip (fs_toks p nc fs vs))) g)
    /\ MARKS p nc fs vs (length fs) ys' /\ YF p fs vs (length fs) ys'.
Proof.
  intros p nc fs vs e w Nw W P Sh H.
  destruct (run_ok fs vs p nc [] [] e (mkW w 0 0) (map (fun _ => YNone) fs)) as (s' & ys' & E & S' & Q & M & Y); auto.
  - eapply f2_length; eauto.
  - apply marks_init.
  - intros i Hi. cbn in Hi. lia.
  - cbn [app] in *. exists (w_wire s'), ys'. unfold w_start. destruct w as [|b w]; [congruence|]. cbn [bind].
    cbn [length fs_len fs_toks psplit fold_left] in E. rewrite E. cbn [bind fst snd]. split; auto. split; [|split; [|auto]].
    + intros X. rewrite (Q X). reflexivity.
    + intros X. apply S'. auto.
Qed.
