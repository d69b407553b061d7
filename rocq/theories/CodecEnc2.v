(** Encoding: the writers fill the planned buffers exactly. *)
From Verif Require Import Base BaseProofs PrimModel PrimProofs ReaderModel ReaderProofs ReaderProofs2 NameModel NameProofs CodecModel CodecSpec CodecProofs CodecEnc.

(** the buffers of [S] are finished, [c] is what the present one holds, [R] is to come;
    the last buffer has room for [e] bytes more *)
Definition INV (e : N) (S : wire) (c : buf) (R : list tok) (s : wst) : Prop :=
  exists W2, w_wire s = S ++ W2 /\ w_idx s = length S /\ w_pos s = zlen c
    /\ map nlen W2 = lay e (nlen c) R /\ exists y, hd [] W2 = c ++ y.

Definition fin_wire (st : tst) (g : buf) : wire := fst st ++ match snd st with [] => [] | c => [c ++ g] end.

Definition ST (e : N) (done R : list tok) (s : wst) : Prop :=
  match R with
  | [] => done <> [] -> exists g, nlen g = e /\ w_wire s = fin_wire (tsplit ([], []) (strip done)) g
  | _ => INV e (fst (tsplit ([], []) done)) (snd (tsplit ([], []) done)) R s
  end.

Lemma upd_mid : forall {A} (S : list A) x T y, upd (S ++ x :: T) (length S) y = S ++ y :: T.
Proof.
  intros. unfold upd. rewrite app_length. cbn [length]. destruct (length S <? length S + Datatypes.S (length T))%nat eqn:E.
  - rewrite firstn_app_exact by auto. f_equal. f_equal.
    change (S ++ x :: T) with (S ++ [x] ++ T). rewrite app_assoc. apply skipn_app_exact. rewrite app_length. cbn. lia.
  - apply Nat.ltb_ge in E. lia.
Qed.

Lemma nth_mid : forall {A} (S : list A) x T d, nth (length S) (S ++ x :: T) d = x.
Proof. intros. rewrite app_nth2 by lia. rewrite Nat.sub_diag. reflexivity. Qed.

Lemma nlen_nonnil : forall {A} (l : list A), l <> [] -> (0 < nlen l)%N.
Proof. intros A [|x l] H; [congruence|]. unfold nlen. cbn [length]. lia. Qed.

Lemma zlen_nlen : forall {A} (l : list A), zlen l = Z.of_N (nlen l).
Proof. intros. unfold zlen, nlen. lia. Qed.

(** the present buffer *)
Lemma inv_cur : forall e S c a b R s, INV e S c (TB (a ++ b) :: R) s -> c <> [] \/ a <> [] ->
  exists y z T, s = mkW (S ++ (c ++ y ++ z) :: T) (length S) (zlen c) /\ length y = length a
    /\ map nlen ((c ++ y ++ z) :: T) = lay e (nlen (c ++ a)) (TB b :: R).
Proof.
  intros e S c a b R [w ix ps] (W2 & E1 & E2 & E3 & E4 & y & E5) H. cbn [w_wire w_idx w_pos] in *. subst w ix ps.
  rewrite lay_tb in E4.
  destruct (lay_pos e (nlen c + nlen (a ++ b)) R) as (d & T & L).
  { rewrite nlen_app. destruct H as [H|H]; apply nlen_nonnil in H; lia. }
  rewrite L in E4. destruct W2 as [|cur T']; [discriminate|]. cbn [hd map] in *. injection E4 as E4 E5'.
  subst cur.
  destruct (split_at y (length a)) as (y1 & z & -> & Ly).
  { unfold nlen in E4. rewrite !app_length in E4. lia. }
  exists y1, z, T'. split; auto. split; auto.
  rewrite lay_tb. rewrite !nlen_app in *. rewrite <- N.add_assoc. rewrite L. cbn [map]. f_equal; auto.
Qed.

Lemma inv_adv : forall e S c a b R y z T, length y = length a ->
  map nlen ((c ++ y ++ z) :: T) = lay e (nlen (c ++ a)) (TB b :: R) ->
  INV e S (c ++ a) (TB b :: R) (mkW (S ++ (c ++ a ++ z) :: T) (length S) (zlen (c ++ a))).
Proof.
  intros. exists ((c ++ a ++ z) :: T). cbn [w_wire w_idx w_pos hd]. split; [auto|]. split; [auto|]. split; [auto|]. split.
  - rewrite <- H0. cbn [map]. f_equal. unfold nlen. rewrite !app_length. lia.
  - exists z. rewrite <- app_assoc. reflexivity.
Qed.

Definition writes (w : wst -> res wst) (a : buf) : Prop := forall e S c b R s,
  c <> [] \/ a <> [] -> INV e S c (TB (a ++ b) :: R) s ->
  exists s', w s = Ok s' /\ INV e S (c ++ a) (TB b :: R) s'.

Lemma put_ok : forall a, writes (w_put a) a.
Proof.
  intros a e S c b R s H I. destruct (inv_cur _ _ _ _ _ _ _ I H) as (y & z & T & -> & L & M).
  eexists. split; [|eapply inv_adv; eauto]. unfold w_put, w_buf. cbn [w_wire w_idx w_pos]. rewrite nth_mid.
  rewrite write_at_app by auto. cbn [bind]. rewrite upd_mid. rewrite zlen_app. reflexivity.
Qed.

Lemma copy_ok : forall a, writes (w_copy a) a.
Proof.
  intros a e S c b R s H I. destruct (inv_cur _ _ _ _ _ _ _ I H) as (y & z & T & -> & L & M).
  eexists. split; [|eapply inv_adv; eauto]. unfold w_copy, w_buf. cbn [w_wire w_idx w_pos]. rewrite nth_mid.
  rewrite slice_tail. cbn [bind]. rewrite upd_mid, zlen_app.
  unfold zlen at 1. rewrite Nat2Z.id, firstn_app_exact by auto.
  unfold copy_into. rewrite firstn_all2 by (rewrite app_length; lia). rewrite skipn_app_exact by lia. reflexivity.
Qed.

Lemma comp_ok : forall x, writes (w_comp x) (comp_enc x).
Proof.
  intros x e S c b R s H I. destruct (inv_cur _ _ _ _ _ _ _ I H) as (y & z & T & -> & L & M).
  eexists. split; [|eapply inv_adv; eauto]. unfold w_comp, w_buf. cbn [w_wire w_idx w_pos]. rewrite nth_mid.
  rewrite slice_tail. cbn [bind]. pose proof (comp_len_enc x) as CE.
  rewrite comp_encode_into_ok. 2:{ rewrite <- CE. unfold nlen. rewrite app_length. lia. }
  cbn [bind fst snd]. rewrite upd_mid. unfold zlen at 1. rewrite Nat2Z.id, firstn_app_exact by auto.
  rewrite skipn_app_exact by (rewrite <- CE; unfold nlen; lia). rewrite zlen_app. rewrite (zlen_nlen (comp_enc x)), CE. reflexivity.
Qed.

Lemma writes_seq : forall w1 w2 a b, a <> [] -> writes w1 a -> writes w2 b -> writes (fun s => do s1 <- w1 s; w2 s1) (a ++ b).
Proof.
  intros w1 w2 a b Na H1 H2 e S c d R s Hn I. rewrite <- app_assoc in I.
  destruct (H1 e S c (b ++ d) R s) as (s1 & E1 & I1); auto.
  destruct (H2 e S (c ++ a) d R s1) as (s2 & E2 & I2); auto.
  { left. intros X. apply app_eq_nil in X. tauto. }
  exists s2. rewrite E1. cbn [bind]. rewrite <- app_assoc in I2. auto.
Qed.

Lemma writes_fold : forall {A} (f : A -> wst -> res wst) (g : A -> buf) l, (forall x, writes (f x) (g x)) ->
  forall e S c b R s, c <> [] -> INV e S c (TB (concat (map g l) ++ b) :: R) s ->
  exists s', foldM f l s = Ok s' /\ INV e S (c ++ concat (map g l)) (TB b :: R) s'.
Proof.
  induction l as [|x l IH]; intros H e S c b R s Nc I; cbn [map concat foldM] in *.
  - exists s. rewrite app_nil_r. auto.
  - rewrite <- app_assoc in I. destruct (H x e S c _ R s (or_introl Nc) I) as (s1 & E1 & I1). rewrite E1. cbn [bind].
    destruct (IH H e S (c ++ g x) b R s1) as (s2 & E2 & I2); auto.
    { intros X. apply app_eq_nil in X. tauto. }
    exists s2. rewrite <- app_assoc in I2. auto.
Qed.

Lemma writes_then_fold : forall {A} w1 a (f : A -> wst -> res wst) (g : A -> buf) l, a <> [] -> writes w1 a ->
  (forall x, writes (f x) (g x)) -> writes (fun s => do s1 <- w1 s; foldM f l s1) (a ++ concat (map g l)).
Proof.
  intros A w1 a f g l Na H1 Hf e S c d R s Hn I. rewrite <- app_assoc in I.
  destruct (H1 e S c (concat (map g l) ++ d) R s) as (s1 & E1 & I1); auto.
  destruct (writes_fold f g l Hf e S (c ++ a) d R s1) as (s2 & E2 & I2); auto.
  { intros X. apply app_eq_nil in X. tauto. }
  exists s2. rewrite E1. cbn [bind]. rewrite <- app_assoc in I2. auto.
Qed.

Lemma writes_tl : forall t n, writes (w_tl t n) (tl_enc t ++ tl_enc n).
Proof. intros. unfold w_tl. apply writes_seq; try apply put_ok. pose proof (tl_enc_nonnil t). auto. Qed.

(** finishing the bytes of a field *)
Lemma strip_snoc_tb : forall d b, strip (d ++ [TB b]) = d ++ [TB b].
Proof. intros. rewrite strip_snoc by discriminate. reflexivity. Qed.

Lemma inv_end : forall e S c s, INV e S c [TB []] s -> c <> [] ->
  exists g, nlen g = e /\ w_wire s = S ++ [c ++ g].
Proof.
  intros e S c s (W2 & E1 & _ & _ & E4 & y & E5) Nc. rewrite lay_tb in E4. change (nlen (@nil N)) with 0%N in E4. rewrite N.add_0_r in E4.
  rewrite lay_end in E4 by (apply nlen_nonnil; auto).
  destruct W2 as [|a [|]]; try discriminate. cbn [hd map] in *. injection E4 as E4. subst a. exists y. split; auto.
  rewrite nlen_app in E4. lia.
Qed.

Lemma inv_tb0 : forall e S c R s, INV e S c (TB [] :: R) s <-> INV e S c R s.
Proof.
  intros. unfold INV. rewrite lay_tb. change (nlen (@nil N)) with 0%N. rewrite N.add_0_r. tauto.
Qed.

Lemma tsplit_snoc : forall st d x, tsplit st (d ++ [x]) = tstep (tsplit st d) x.
Proof. intros. rewrite tsplit_app. reflexivity. Qed.

Lemma leaf_run : forall w b e done R s, b <> [] -> writes w b -> ST e done (TB b :: R) s ->
  exists s', w s = Ok s' /\ ST e (done ++ [TB b]) R s'.
Proof.
  intros w b e done R s Nb Hw H. cbn [ST] in H. destruct (tsplit ([], []) done) as [S c] eqn:E. cbn [fst snd] in H.
  rewrite <- (app_nil_r b) in H. destruct (Hw e S c [] R s (or_intror Nb) H) as (s' & E1 & I). exists s'. split; auto.
  assert (Nc : c ++ b <> []) by (intros X; apply app_eq_nil in X; tauto).
  destruct R as [|r R].
  - cbn [ST]. intros _. rewrite strip_snoc_tb, tsplit_snoc, E. destruct (inv_end _ _ _ _ I Nc) as (g & Lg & W).
    exists g. split; auto. rewrite W. unfold fin_wire. cbn [tstep fst snd]. destruct (c ++ b) eqn:X; [congruence|]. reflexivity.
  - cbn [ST]. rewrite tsplit_snoc, E. cbn [tstep fst snd]. apply inv_tb0. auto.
Qed.

Lemma leaf_run_tok : forall w b e done R s, b <> [] -> writes w b -> ST e done (leaf_tok b ++ R) s ->
  exists s', w s = Ok s' /\ ST e (done ++ leaf_tok b) R s' /\ (leaf_tok b = [] -> s' = s).
Proof.
  intros. destruct b as [|x b]; [congruence|]. cbn [leaf_tok app] in *.
  destruct (leaf_run w (x :: b) e done R s) as (s' & E & I); auto. exists s'. split; auto. split; auto. discriminate.
Qed.

(** ** Adding the caller's buffers *)
Lemma set_loop : forall (w : wire) S Z T, length Z = length w ->
  foldM (fun b s => do s' <- w_set b s; Ok (w_switch s')) w (mkW (S ++ Z ++ T) (length S) 0)
  = Ok (mkW (S ++ w ++ T) (length S + length w) 0).
Proof.
  induction w as [|b w IH]; intros S Z T L; destruct Z as [|z Z]; try discriminate; cbn [foldM length app].
  - rewrite Nat.add_0_r. reflexivity.
  - assert (E : (length S <? length (S ++ z :: Z ++ T))%nat = true) by (apply Nat.ltb_lt; rewrite app_length; cbn [length]; lia).
    assert (E' : (do s' <- w_set b (mkW (S ++ z :: Z ++ T) (length S) 0); Ok (w_switch s')) = Ok (mkW (S ++ b :: Z ++ T) (Datatypes.S (length S)) 0)).
    { unfold w_set. cbn [w_wire w_idx w_pos]. rewrite E, upd_mid. reflexivity. }
    rewrite E'. cbn [bind].
    replace (S ++ b :: Z ++ T) with ((S ++ [b]) ++ Z ++ T) by (rewrite <- app_assoc; reflexivity).
    replace (Datatypes.S (length S)) with (length (S ++ [b])) by (rewrite app_length; cbn; lia).
    rewrite IH by auto. f_equal. f_equal.
    + rewrite <- app_assoc. reflexivity.
    + rewrite app_length. cbn. lia.
Qed.

Lemma map_app_inv : forall {A B} (f : A -> B) l x y, map f l = x ++ y -> exists a b, l = a ++ b /\ map f a = x /\ map f b = y.
Proof.
  intros A B f l x. revert l. induction x as [|h x IH]; intros l y H.
  - exists [], l. auto.
  - destruct l as [|a l]; [discriminate|]. cbn in H. injection H as H1 H2. destruct (IH l y H2) as (p & q & -> & E1 & E2).
    exists (a :: p), q. cbn. rewrite E1, H1. auto.
Qed.

Lemma app_inj_l : forall {A} (a b c d : list A), a ++ b = c ++ d -> length a = length c -> a = c /\ b = d.
Proof.
  induction a as [|x a IH]; intros b [|y c] d H L; try discriminate; auto.
  cbn in *. injection H as -> H. destruct (IH b c d H) as [-> ->]; auto.
Qed.

Lemma inv_zero : forall e S W2 R, map nlen W2 = lay e 0 R -> INV e S [] R (mkW (S ++ W2) (length S) 0).
Proof. intros. exists W2. cbn. repeat split; auto. eexists. reflexivity. Qed.

(** after its type and length, the buffers of a wire: [f] stands for the loop *)
Lemma wire_run : forall (w : wire) e done R s S c, tsplit ([], []) done = (S, c) -> c <> [] -> strip done = done ->
  INV e S c (TW w :: R) s -> 
  exists s', foldM (fun b s => do s' <- w_set b s; Ok (w_switch s')) w (w_switch s) = Ok s' /\ ST e (done ++ [TW w]) R s'.
Proof.
  intros w e done R [ww ix ps] S c E Nc Sd (W2 & E1 & E2 & E3 & E4 & y & E5). cbn [w_wire w_idx w_pos] in *. subst ww ix ps.
  destruct (match w, R with [], [] => true | _, _ => false end) eqn:Q.
  - destruct w; [|discriminate]. destruct R; [|discriminate]. cbn [foldM]. eexists. split; [reflexivity|].
    cbn [ST]. intros _. unfold strip. rewrite rev_app_distr. cbn [rev app]. rewrite rev_involutive, E.
    rewrite lay_tw_nil in E4 by (apply nlen_nonnil; auto). destruct W2 as [|a [|]]; try discriminate. cbn [hd map] in *.
    injection E4 as E4. subst a. exists y. split; [rewrite nlen_app in E4; lia|]. cbn [w_switch w_wire]. unfold fin_wire. cbn [fst snd].
    destruct c; [congruence|reflexivity].
  - rewrite lay_tw in E4 by (destruct w; [destruct R; [discriminate|right; discriminate]|left; discriminate]).
    destruct W2 as [|a W2]; [discriminate|]. cbn [hd map] in *. injection E4 as E4 E6. subst a.
    assert (y = []) by (apply nlen_0; rewrite nlen_app in E4; lia). subst y. rewrite app_nil_r in *.
    destruct (map_app_inv _ _ _ _ E6) as (Z & T & -> & EZ & ET).
    assert (LZ : length Z = length w) by (apply (f_equal (@length N)) in EZ; rewrite map_length, repeat_length in EZ; auto).
    change (w_switch (mkW (S ++ c :: Z ++ T) (length S) (zlen c))) with (mkW (S ++ c :: Z ++ T) (Datatypes.S (length S)) 0).
    replace (S ++ c :: Z ++ T) with ((S ++ [c]) ++ Z ++ T) by (rewrite <- app_assoc; reflexivity).
    replace (Datatypes.S (length S)) with (length (S ++ [c])) by (rewrite app_length; cbn; lia).
    rewrite set_loop by auto. eexists. split; [reflexivity|].
    assert (I : INV e (S ++ c :: w) [] R (mkW ((S ++ [c]) ++ w ++ T) (length (S ++ [c]) + length w) 0)).
    { replace ((S ++ [c]) ++ w ++ T) with ((S ++ c :: w) ++ T) by (rewrite <- !app_assoc; reflexivity).
      replace (length (S ++ [c]) + length w)%nat with (length (S ++ c :: w)) by (rewrite !app_length; cbn; lia).
      apply inv_zero. auto. }
    destruct R as [|r R].
    + cbn [ST]. intros _. destruct w as [|a w]; [discriminate|]. exists (repeat 0%N (N.to_nat e)). split; [unfold nlen; rewrite repeat_length; lia|].
      rewrite strip_snoc by discriminate. rewrite strip_tw1, tsplit_snoc, E. unfold fin_wire. cbn [tstep fst snd w_wire].
      destruct T as [|x T]; [|cbn in ET; discriminate]. rewrite !app_nil_r, <- app_assoc. reflexivity.
    + cbn [ST]. rewrite tsplit_snoc, E. exact I.
Qed.

(** ** A nested structure without copying *)
Lemma subwire_run : forall {X} (run : wire -> res (wire * X)) (Q : X -> Prop) ts e done R s S c,
  good false ts -> ts <> [] ->
  (forall e' w, w <> [] -> ST e' [] ts (mkW w 0 0) -> exists w' x, run w = Ok (w', x) /\
      Q x /\ exists g, nlen g = e' /\ w' = fin_wire (tsplit ([], []) (strip ts)) g) ->
  tsplit ([], []) done = (S, c) -> c <> [] -> strip done = done ->
  INV e S c (strip ts ++ R) s ->
  exists s' x, w_subwire (lay 0 0 ts) run s = Ok (s', x) /\ Q x /\ ST e (done ++ strip ts) R s'.
Proof.
  intros X run Q ts e done R [ww ix ps] S c G NE Hrun E Nc Sd (W2 & E1 & E2 & E3 & E4 & y & E5). cbn [w_wire w_idx w_pos] in *. subst ww ix ps.
  pose proof (strip_strip ts false G) as SS.
  assert (SN : strip ts <> []).
  { intros Es. destruct (strip_cases ts) as [(t0 & Q1 & Q2)|(Q2 & _)]; [|congruence]. rewrite Q2 in Es. subst t0. subst ts. cbn in G. destruct G; discriminate. }
  assert (Dn : strip (done ++ strip ts) = done ++ strip ts) by (rewrite strip_snoc by auto; rewrite SS; reflexivity).
  rewrite lay_app in E4 by auto.
  pose proof (good_strip ts false G) as G1.
  pose proof (tsplit_psp (strip ts) [] []) as TP. change (nlen (@nil N)) with 0%N in TP. cbn [length Nat.add] in TP.
  pose proof (tsplit_app done (strip ts) ([], [])) as TA. rewrite E in TA. rewrite (tsplit_gen (strip ts) S c) in TA.
  rewrite psp_gen in E4.
  assert (LAY : lay 0 0 ts = fst (psp 0 (strip ts)) ++ (if (0 <? snd (psp 0 (strip ts)))%N then [snd (psp 0 (strip ts))] else [])).
  { unfold lay. rewrite N.add_0_r. reflexivity. }
  assert (LAYe : forall e', lay e' 0 ts = fst (psp 0 (strip ts)) ++ (if (0 <? snd (psp 0 (strip ts)))%N then [(snd (psp 0 (strip ts)) + e')%N] else [])) by reflexivity.
  destruct (psp 0 (strip ts)) as [P m] eqn:EP. destruct (tsplit ([], []) (strip ts)) as [S0 c0] eqn:ET. cbn [fst snd] in *.
  destruct TP as [TP1 TP2].
  assert (Lc : (0 < nlen c)%N) by (apply nlen_nonnil; auto).
  (* the present buffer *)
  assert (CUR : exists T, W2 = (c ++ y) :: T).
  { destruct W2 as [|a T]; [|cbn [hd] in E5; subst a; eauto]. exfalso. cbn [map] in E4. unfold pjoin in E4. destruct P as [|p0 P]; cbn [fst snd] in E4.
    - destruct (lay_pos e (nlen c + m) R) as (d & T & L); [lia|]. cbn [app] in E4. rewrite L in E4. discriminate.
    - discriminate. }
  destruct CUR as (T & ->). clear E5.
  unfold w_subwire, w_buf. cbn [w_wire w_idx w_pos]. rewrite nth_mid. rewrite slice_tail. cbn [bind].
  rewrite !LAY.
  assert (SK : skipn (Datatypes.S (length S)) (S ++ (c ++ y) :: T) = T).
  { change (S ++ (c ++ y) :: T) with (S ++ [c ++ y] ++ T). rewrite app_assoc. apply skipn_app_exact. rewrite app_length. cbn. lia. }
  rewrite SK.
  destruct (0 <? m)%N eqn:Em.
  - (* more is written into the last buffer *)
    assert (Hm : (0 < m)%N) by lia.
    assert (C0 : c0 <> []) by (intros ->; cbn in TP2; lia).
    set (m' := snd (pjoin (nlen c) (P, m))) in *.
    assert (Hm' : (0 < m')%N) by (subst m'; unfold pjoin; cbn [fst snd]; destruct P; cbn [snd]; lia).
    destruct (lay_pos e m' R Hm') as (e1 & T1 & L1). rewrite L1 in E4.
    assert (LEN : length (P ++ [m]) = (length P + 1)%nat) by (rewrite app_length; reflexivity). rewrite LEN.
    destruct ((length P + 1 =? 0)%nat) eqn:Z0; [apply Nat.eqb_eq in Z0; lia|]. cbn [orb].
    assert (LW : length ((c ++ y) :: T) = (length P + 1 + length T1)%nat).
    { apply (f_equal (@length N)) in E4. rewrite map_length in E4. rewrite E4. rewrite app_length. cbn [length].
      unfold pjoin. cbn [fst]. destruct P; cbn [fst length]; lia. }
    destruct (length (S ++ (c ++ y) :: T) <? length S + (length P + 1))%nat eqn:Z1; [apply Nat.ltb_lt in Z1; rewrite app_length in Z1; lia|].
    replace (length P + 1 - 1)%nat with (length P) by lia.
    (* the wire handed to the nested encoder *)
    destruct (split_at T (length P)) as (Ta & Tb & -> & LTa); [cbn [length] in LW; lia|].
    rewrite firstn_app_exact by auto.
    assert (SUB : map nlen (y :: Ta) = lay e1 0 ts /\ map nlen Tb = T1).
    { rewrite LAYe. unfold pjoin in *. cbn [fst snd map] in *. rewrite map_app in E4. destruct P as [|p0 P]; cbn [fst snd app length] in *.
      - destruct Ta; [|discriminate]. cbn [map app] in *. injection E4 as E4 E6. split; auto. f_equal. rewrite nlen_app in E4. subst m'. cbn [snd] in *. lia.
      - injection E4 as E4 E6. assert (nlen y = p0) by (rewrite nlen_app in E4; lia).
        assert (map nlen Ta = P ++ [(m' + e1)%N] /\ map nlen Tb = T1).
        { replace (P ++ (m' + e1)%N :: T1) with ((P ++ [(m' + e1)%N]) ++ T1) in E6 by (rewrite <- app_assoc; reflexivity).
          apply app_inj_l; auto. rewrite map_length, app_length. cbn. lia. }
        destruct H0 as [H0 H1]. split; auto. rewrite H, H0. subst m'. reflexivity. }
    destruct SUB as [SUB1 SUB2].
    destruct (Hrun e1 (y :: Ta)) as (w' & x & RUN & HQ & g & Lg & Ew); [discriminate| |].
    { cbn [ST]. destruct ts as [|t0 ts0]; [congruence|]. cbn [ST tsplit fold_left fst snd]. exists (y :: Ta). cbn. repeat split; auto. eexists; reflexivity. }
    rewrite RUN. cbn [bind fst snd]. rewrite last_last. rewrite Em.
    eexists. exists x. split; [reflexivity|]. split; [exact HQ|].
    unfold zlen at 1. rewrite Nat2Z.id, firstn_app_exact by auto. rewrite firstn_app_exact by auto.
    assert (SK2 : skipn (length S + (length P + 1)) (S ++ (c ++ y) :: Ta ++ Tb) = Tb).
    { replace (S ++ (c ++ y) :: Ta ++ Tb) with ((S ++ (c ++ y) :: Ta) ++ Tb) by (rewrite <- app_assoc; reflexivity).
      apply skipn_app_exact. rewrite app_length. cbn. lia. }
    rewrite SK2.
    (* the state afterwards *)
    assert (EW : S ++ (c ++ hd [] w') :: tl w' ++ Tb = fst (tjoin S c (S0, c0)) ++ (snd (tjoin S c (S0, c0)) ++ g) :: Tb
                 /\ (length S + (length P + 1) - 1)%nat = length (fst (tjoin S c (S0, c0)))
                 /\ (if (1 <? length P + 1)%nat then Z.of_N m else (zlen c + Z.of_N m)%Z) = zlen (snd (tjoin S c (S0, c0)))
                 /\ nlen (snd (tjoin S c (S0, c0))) = m').
    { subst w'. unfold fin_wire, tjoin. subst m'. unfold pjoin. cbn [fst snd]. destruct c0 as [|c00 c0]; [congruence|].
      rewrite !zlen_nlen. rewrite <- TP2 in *. destruct S0 as [|s0 S0]; destruct P as [|p0 P]; cbn [length] in TP1; try discriminate; cbn [fst snd app hd tl length].
      - split; [rewrite <- app_assoc; reflexivity|]. split; [lia|]. split; [cbn [Nat.add Nat.ltb Nat.leb]; rewrite nlen_app; lia|]. rewrite nlen_app. lia.
      - split; [rewrite <- !app_assoc; cbn [app]; rewrite <- ?app_assoc; reflexivity|]. split; [rewrite app_length; cbn [length]; lia|].
        split; [|auto]. replace (1 <? Datatypes.S (length P) + 1)%nat with true by (symmetry; apply Nat.ltb_lt; lia). reflexivity. }
    destruct EW as (EW1 & EW2 & EW3 & EW4). rewrite EW1, EW2, EW3.
    assert (Nj : snd (tjoin S c (S0, c0)) <> []) by (intros Q0; rewrite Q0 in EW4; cbn in EW4; lia).
    destruct R as [|r R].
    + cbn [ST]. intros _. rewrite Dn, TA. rewrite lay_end in L1 by auto. injection L1 as L1 L2. subst T1.
      destruct Tb; [|discriminate]. exists g. split; [lia|]. unfold fin_wire. cbn [w_wire].
      destruct (snd (tjoin S c (S0, c0))); [congruence|]. reflexivity.
    + cbn [ST]. rewrite TA. exists ((snd (tjoin S c (S0, c0)) ++ g) :: Tb). cbn [w_wire w_idx w_pos hd].
      split; [auto|]. split; [auto|]. split; [auto|]. split; [|eexists; reflexivity].
      rewrite EW4, L1. cbn [map]. rewrite nlen_app, EW4, SUB2, Lg. reflexivity.
  - (* it ends with a buffer of the caller *)
    assert (m = 0%N) by lia. subst m. assert (c0 = []) by (apply nlen_0; lia). subst c0.
    rewrite app_nil_r.
    assert (EP2 : snd (psp 0 (strip ts)) = 0%N) by (rewrite EP; reflexivity).
    destruct (good_ends _ _ G1 EP2 SS SN) as (t0 & a0 & w1 & Et).
    assert (LP : exists p0 P0, P = p0 :: P0 /\ last P 0%N = 0%N).
    { assert (EP1 : fst (psp 0 (strip ts)) = P) by (rewrite EP; reflexivity). rewrite Et in EP1. rewrite psp_app, psp_tw in EP1. cbn [fst snd psp psplit fold_left length] in EP1.
      rewrite app_nil_r in EP1.
      assert (EP3 : P = (fst (psp 0 t0) ++ snd (psp 0 t0) :: repeat 0%N (length w1)) ++ [0%N]).
      { rewrite <- EP1. rewrite <- app_assoc. cbn [app]. f_equal. f_equal.
        change [0%N] with (repeat 0%N 1). rewrite <- repeat_app. rewrite Nat.add_comm. reflexivity. }
      destruct P as [|p0 P0]; [symmetry in EP3; apply app_eq_nil in EP3; destruct EP3; discriminate|]. exists p0, P0. split; auto.
      rewrite EP3. apply last_last. }
    destruct LP as (p0 & P0 & EP0 & LP).
    destruct ((length P =? 0)%nat) eqn:Z0; [apply Nat.eqb_eq in Z0; rewrite EP0 in Z0; discriminate|]. cbn [orb].
    assert (LW : map nlen ((c ++ y) :: T) = (nlen c + p0)%N :: P0 ++ lay e 0 R).
    { rewrite E4. unfold pjoin. rewrite EP0. cbn [fst snd app]. reflexivity. }
    cbn [map] in LW. injection LW as LW1 LW2.
    destruct (map_app_inv _ _ _ _ LW2) as (Ta & Tb & -> & ETa & ETb).
    assert (LTa : length Ta = (length P - 1)%nat) by (apply (f_equal (@length N)) in ETa; rewrite map_length in ETa; rewrite EP0; cbn [length]; lia).
    assert (LPp : (0 < length P)%nat) by (rewrite EP0; cbn; lia).
    destruct (length (S ++ (c ++ y) :: Ta ++ Tb) <? length S + length P)%nat eqn:Z1; [apply Nat.ltb_lt in Z1; rewrite app_length in Z1; cbn [length] in Z1; rewrite app_length in Z1; lia|].
    rewrite firstn_app_exact by auto.
    destruct (Hrun 0%N (y :: Ta)) as (w' & x & RUN & HQ & g & Lg & Ew); [discriminate| |].
    { destruct ts as [|t1 ts0]; [congruence|]. cbn [ST tsplit fold_left fst snd]. exists (y :: Ta). cbn [w_wire w_idx w_pos]. split; [reflexivity|]. split; [reflexivity|]. split; [reflexivity|].
      split; [|eexists; reflexivity]. change (nlen (@nil N)) with 0%N. rewrite LAYe, app_nil_r, EP0. cbn [map]. f_equal; auto. rewrite nlen_app in LW1. lia. }
    rewrite RUN. cbn [bind fst snd]. rewrite LP. change (0 <? 0)%N with false. cbv iota.
    eexists. exists x. split; [reflexivity|]. split; [exact HQ|].
    unfold zlen. rewrite Nat2Z.id, firstn_app_exact by auto. rewrite firstn_app_exact by auto.
    assert (SK2 : skipn (length S + length P) (S ++ (c ++ y) :: Ta ++ Tb) = Tb).
    { replace (S ++ (c ++ y) :: Ta ++ Tb) with ((S ++ (c ++ y) :: Ta) ++ Tb) by (rewrite <- app_assoc; reflexivity).
      apply skipn_app_exact. rewrite app_length. cbn. lia. }
    rewrite SK2.
    destruct S0 as [|s0 S0]; [cbn [length] in TP1; rewrite <- TP1 in LPp; cbn in LPp; lia|].
    subst w'. unfold fin_wire in *. cbn [fst snd app hd tl tjoin] in *. rewrite !app_nil_r in *.
    unfold tjoin in TA. cbn [fst snd] in TA.
    replace (S ++ (c ++ s0) :: S0 ++ Tb) with ((S ++ (c ++ s0) :: S0) ++ Tb) by (rewrite <- app_assoc; reflexivity).
    replace (length S + length P)%nat with (length (S ++ (c ++ s0) :: S0)) by (rewrite app_length; cbn [length] in *; lia).
    destruct R as [|r R].
    + cbn [ST]. intros _. rewrite Dn, TA. cbn [w_wire fst snd]. exists (repeat 0%N (N.to_nat e)). split; [unfold nlen; rewrite repeat_length; lia|].
      destruct Tb; [|discriminate]. unfold fin_wire. cbn [fst snd]. reflexivity.
    + cbn [ST]. rewrite TA. cbn [fst snd]. apply inv_zero. auto.
Qed.

(** ** A nested structure that is copied *)
Definition is_tb (x : tok) : Prop := match x with TB _ => True | TW _ => False end.

Lemma tsplit_tb : forall ts S c, Forall is_tb ts -> tsplit (S, c) ts = (S, c ++ tbytes ts).
Proof.
  induction ts as [|[b|w] ts IH]; intros S c H.
  - cbn. rewrite app_nil_r. reflexivity.
  - inversion H; subst. cbn [tsplit fold_left tstep fst snd]. fold (tsplit (S, c ++ b) ts). rewrite IH by auto.
    unfold tbytes. cbn [map concat tok_bytes]. rewrite app_assoc. reflexivity.
  - inversion H; contradiction.
Qed.

Lemma psp_tbs : forall ts l, Forall is_tb ts -> psp l ts = ([], (l + nlen (tbytes ts))%N).
Proof.
  induction ts as [|[b|w] ts IH]; intros l H.
  - cbn. rewrite N.add_0_r. reflexivity.
  - inversion H; subst. rewrite psp_tb, IH by auto. unfold tbytes. cbn [map concat tok_bytes]. rewrite nlen_app. f_equal. lia.
  - inversion H; contradiction.
Qed.

Lemma strip_tbs : forall ts, Forall is_tb ts -> strip ts = ts.
Proof.
  intros. destruct (strip_cases ts) as [(t0 & E & _)|(E & _)]; auto. rewrite E in H. apply Forall_app in H. destruct H as [_ H]. inversion H. contradiction.
Qed.

Lemma good_tbytes : forall ts, good false ts -> ts <> [] -> Forall is_tb ts -> tbytes ts <> [].
Proof.
  intros [|[b|w] ts] G NE H X; [congruence| |inversion H; contradiction].
  unfold tbytes in X. cbn [map concat tok_bytes] in X. apply app_eq_nil in X. destruct G. tauto.
Qed.

Lemma subbuf_run : forall {X} (run : wire -> res (wire * X)) (Q : X -> Prop) ts e S c b R s,
  good false ts -> ts <> [] -> Forall is_tb ts ->
  (forall e' w, w <> [] -> ST e' [] ts (mkW w 0 0) -> exists w' x, run w = Ok (w', x) /\
      Q x /\ exists g, nlen g = e' /\ w' = fin_wire (tsplit ([], []) (strip ts)) g) ->
  INV e S c (TB (tbytes ts ++ b) :: R) s ->
  exists s' x, w_subbuf (nlen (tbytes ts)) run s = Ok (s', x) /\ Q x /\ INV e S (c ++ tbytes ts) (TB b :: R) s'.
Proof.
  intros X run Q ts e S c b R s G NE TBS Hrun I.
  pose proof (good_tbytes ts G NE TBS) as NB.
  destruct (inv_cur _ _ _ _ _ _ _ I (or_intror NB)) as (y & z & T & -> & L & M).
  unfold w_subbuf, w_buf. cbn [w_wire w_idx w_pos]. rewrite nth_mid, slice_tail. cbn [bind].
  destruct (Hrun (nlen z) [y ++ z]) as (w' & x & RUN & HQ & g & Lg & Ew); [discriminate| |].
  { destruct ts as [|t1 ts0]; [congruence|]. cbn [ST tsplit fold_left fst snd]. exists [y ++ z]. cbn [w_wire w_idx w_pos hd]. split; [reflexivity|]. split; [reflexivity|].
    split; [reflexivity|]. split; [|eexists; reflexivity]. change (nlen (@nil N)) with 0%N. unfold lay. rewrite strip_tbs by auto. rewrite psp_tbs by auto. cbn [fst snd app map].
    apply nlen_nonnil in NB. destruct (0 <? 0 + nlen (tbytes (t1 :: ts0)))%N eqn:Z; [|lia]. f_equal. rewrite nlen_app. unfold nlen at 1. rewrite L. unfold nlen. lia. }
  rewrite RUN. cbn [bind fst snd]. eexists. exists x. split; [reflexivity|]. split; [auto|].
  subst w'. rewrite strip_tbs, tsplit_tb by auto. unfold fin_wire. cbn [fst snd app].
  destruct (tbytes ts) as [|b0 bs] eqn:EB; [congruence|]. cbn [hd].
  unfold zlen at 1. rewrite Nat2Z.id, firstn_app_exact by auto. rewrite upd_mid.
  rewrite <- zlen_nlen, <- zlen_app.
  change (b0 :: bs ++ g) with ((b0 :: bs) ++ g). rewrite <- EB in *.
  exists ((c ++ tbytes ts ++ g) :: T). cbn [w_wire w_idx w_pos hd]. split; [auto|]. split; [auto|]. split; [auto|]. split.
  - rewrite <- M. cbn [map]. f_equal. rewrite !nlen_app, Lg. unfold nlen. rewrite L. reflexivity.
  - exists g. rewrite <- app_assoc. reflexivity.
Qed.
