From Coq Require Import Permutation.
From Verif Require Import Base BaseProofs NameModel TextModel TrieModel TrieSpec TrieProofs EngineModel EngineSpec EngineProofs.

Lemma split_digest_snoc : forall nm c, split_digest (nm ++ [c]) =
  if (ctyp c =? TypeImplicitSha256Digest)%N then Some (nm, Some (cval c)) else Some (nm ++ [c], None).
Proof. intros. unfold split_digest. rewrite rev_app_distr. simpl. destruct (ctyp c =? TypeImplicitSha256Digest)%N; auto. rewrite rev_involutive. auto. Qed.

Lemma split_bare : forall nm node sha, split_digest nm = Some (node, sha) -> bare nm node.
Proof.
  intros nm node sha H. destruct nm as [|c nm] using rev_ind; [discriminate|]. rewrite split_digest_snoc in H.
  destruct (N.eqb_spec (ctyp c) TypeImplicitSha256Digest); inversion H; subst; constructor; auto.
Qed.
Lemma bare_split : forall nm node, bare nm node -> exists sha, split_digest nm = Some (node, sha).
Proof. intros nm node H. inversion H; subst; rewrite split_digest_snoc; destruct (N.eqb_spec (ctyp c) TypeImplicitSha256Digest); try tauto; eauto. Qed.

Lemma keys_len : forall nm, length (keys nm) = length nm.
Proof. intros. apply map_length. Qed.

Lemma name_matches_spec : forall node cbp nm, prefix (keys node) (keys nm) ->
  (name_matches node cbp nm <-> negb ((length (keys node) <? length nm)%nat && negb cbp) = true).
Proof.
  intros node cbp nm P. unfold name_matches. rewrite <- (keys_len nm). split.
  - intros [E|[-> _]]; [|rewrite Bool.andb_false_r; auto]. rewrite E, Nat.ltb_irrefl. auto.
  - intros H. destruct cbp; [right; auto|]. left. rewrite Bool.andb_true_r in H. apply Bool.negb_true_iff, Nat.ltb_ge in H.
    apply prefix_len_eq; auto. apply Nat.le_antisymm; auto. destruct P as (s & ->). rewrite app_length. lia.
Qed.

Lemma satisfied_matches : forall nm node e data digest, split_digest nm = Some (node, pe_sha e) -> prefix (keys node) (keys data) ->
  (satisfied (length (keys node)) (length data) digest e = true <-> matches (pe_cbp e) data digest nm).
Proof.
  intros nm node e data digest SD P. unfold satisfied. rewrite Bool.andb_true_iff.
  pose proof (name_matches_spec node (pe_cbp e) data P) as NM. rewrite <- NM.
  destruct nm as [|c nm] using rev_ind; [discriminate|]. clear IHnm. rewrite split_digest_snoc in SD.
  destruct (N.eqb_spec (ctyp c) TypeImplicitSha256Digest) as [T|T]; inversion SD as [[E1 E2]]; subst node.
  - split.
    + intros [A B]. apply MDigest; auto. destruct (beqb_spec (cval c) digest); auto; discriminate.
    + intros M. inversion M as [nm0 c0 T0 M0 E|nm0 c0 T0 V0 M0 E]; apply app_inj_tail in E; destruct E as [-> ->]; [congruence|].
      split; auto. rewrite V0. apply beqb_refl.
  - split.
    + intros [A B]. apply MPlain; auto.
    + intros M. inversion M as [nm0 c0 T0 M0 E|nm0 c0 T0 V0 M0 E]; apply app_inj_tail in E; destruct E as [-> ->]; [auto|congruence].
Qed.

Lemma matches_prefix : forall nm node sha cbp data digest, split_digest nm = Some (node, sha) -> matches cbp data digest nm -> prefix (keys node) (keys data).
Proof.
  intros nm node sha cbp data digest SD M.
  assert (NMP : forall a, name_matches a cbp data -> prefix (keys a) (keys data)).
  { intros a [->|[_ H]]; auto. apply prefix_refl. }
  inversion M as [nm0 c0 T0 M0 E|nm0 c0 T0 V0 M0 E]; subst nm; rewrite split_digest_snoc in SD;
    destruct (N.eqb_spec (ctyp c0) TypeImplicitSha256Digest); try congruence; inversion SD; subst; auto.
Qed.

(** ** reachable states *)
Lemma reach : forall os, exists g, e_run eng_new os = Ok g /\ EInv (expressed 0 os) g /\ g_now g = elapsed os.
Proof. intros. destruct (run_inv os [] eng_new new_einv) as (g & A & B & C & _). exists g. auto. Qed.

Lemma reach_inv : forall os g, e_run eng_new os = Ok g -> EInv (expressed 0 os) g /\ g_now g = elapsed os.
Proof. intros os g H. destruct (reach os) as (g' & A & B). assert (g' = g) by congruence. subst. auto. Qed.

Lemma e_run_app : forall a b g, e_run g (a ++ b) = do g1 <- e_run g a; e_run g1 b.
Proof. induction a as [|o a IH]; intros b g; [auto|]. cbn [app e_run]. destruct (e_step g o); cbn [bind]; auto. Qed.

(** ** causes *)
Lemma step_cause : forall L g o g', EInv L g -> e_step g o = Ok g' -> exists new, g_log g' = g_log g ++ new /\
  forall i r, In (i, r) new -> exists x, nth_error L i = Some x /\ justified x (g_now g) o r.
Proof.
  intros L g o g' EI E. destruct o as [nm cbp life|nm digest|nm r|d|id|id].
  - exists []. rewrite app_nil_r. split; [|intros ? ? []]. cbn [e_step] in E. destruct nm as [|c nm].
    + inversion E; auto.
    + destruct (express_ok L g (c :: nm) cbp life EI) as (g1 & E1 & _ & _ & LG & _); [discriminate|]. rewrite E1 in E. cbn [bind] in E. inversion E; subst. auto.
  - destruct (data_ok L g nm digest EI) as (g1 & sat & E1 & _ & LG & _ & SA & _). cbn [e_step] in E. assert (g1 = g') by congruence. subst g1.
    exists (map (fun e => (pe_id e, RData)) sat). split; auto. intros i r IN. apply in_map_iff in IN. destruct IN as (e & Q & IN). inversion Q; subst i r.
    apply SA in IN. destruct IN as (p & n & x & P & W & X & IN & S1). destruct (ei_entry _ _ EI n x e X IN) as (nm0 & node & A & B & C).
    exists (mkX nm0 (pe_cbp e) (pe_deadline e)). split; auto. exists nm, digest. split; auto. simpl.
    assert (p = keys node). { eapply path_of_fun; [apply (ei_inv _ _ EI)|apply walk_path; [apply (ei_inv _ _ EI)|exact W]|exact C]. } subst p.
    eapply satisfied_matches; eauto.
  - cbn [e_step] in E. unfold e_nack in E. fold (keys nm) in E. pose proof (ei_inv _ _ EI) as I. rewrite t_exact_ok in E by auto. cbn [bind] in E.
    destruct (walk _ (g_pit g) 0 (keys nm)) as [n|] eqn:W; [|inversion E; subst; exists []; rewrite app_nil_r; split; auto; intros ? ? []].
    destruct (walk_root _ _ _ n I W) as (x & X & _). unfold value in E. rewrite (get_ok _ _ _ _ X) in E. cbn [bind] in E.
    destruct (t_delete (g_pit g) n) as [h| | |]; cbn [bind] in E; try discriminate. inversion E; subst g'. cbn [g_log].
    eexists. split; [reflexivity|]. intros i r0 IN. rewrite map_map in IN. apply in_map_iff in IN. destruct IN as (e & Q & IN). inversion Q; subst i r0.
    destruct (ei_entry _ _ EI n x e X IN) as (nm0 & node & A & B & C). exists (mkX nm0 (pe_cbp e) (pe_deadline e)). split; auto.
    exists nm, node. split; auto. split; [apply split_bare in B; auto|]. eapply path_of_fun; [apply I|apply walk_path; [apply I|exact W]|exact C].
  - cbn [e_step] in E. inversion E; subst. exists []. rewrite app_nil_r. split; auto. intros ? ? [].
  - destruct (fire_ok L g id EI) as (g1 & E1 & _ & _ & LG & _). assert (g1 = g') by congruence. subst. exists []. rewrite app_nil_r. split; auto. intros ? ? [].
  - cbn [e_step] in E. destruct (find (with_id id) (g_flight g)) as [t|] eqn:F; [|inversion E; subst; exists []; rewrite app_nil_r; split; auto; intros ? ? []].
    apply find_with_id in F. destruct F as [F1 F2]. destruct (ei_timers _ _ EI t) as [TN _]; [apply in_or_app; auto|].
    destruct (nth_error (g_pit g) (tm_node t)) as [x|] eqn:X; [|apply nth_error_None in X; lia].
    unfold e_timeout, value in E. cbn [g_pit g_now g_armed g_flight g_next g_log] in E. rewrite (get_ok _ _ _ _ X) in E. cbn [bind] in E.
    destruct (set_value _ _ _) as [h1| | |]; cbn [bind] in E; try discriminate.
    destruct (t_delete_if _ _ _) as [h2| | |]; cbn [bind] in E; try discriminate. inversion E; subst g'. cbn [g_log].
    eexists. split; [reflexivity|]. intros i r0 IN. rewrite map_map in IN. apply in_map_iff in IN. destruct IN as (e & Q & IN). inversion Q; subst i r0.
    apply filter_In in IN. destruct IN as [IN LATE]. apply Bool.negb_true_iff, Z.ltb_ge in LATE.
    destruct (ei_entry _ _ EI _ x e X IN) as (nm0 & node & A & B & C). exists (mkX nm0 (pe_cbp e) (pe_deadline e)). split; auto.
    split; [exists id; auto|]. simpl. auto.
Qed.

Lemma cause : forall os g i r, e_run eng_new os = Ok g -> In (i, r) (callbacks g) ->
  exists os1 o os2 x, os = os1 ++ o :: os2 /\ nth_error (expressed 0 os1) i = Some x /\ justified x (elapsed os1) o r.
Proof.
  intros os. induction os as [|o os IH] using rev_ind; intros g i r E IN.
  - inversion E; subst. destruct IN.
  - rewrite e_run_app in E. destruct (reach os) as (g1 & R & EI & NW). rewrite R in E. cbn [bind e_run] in E.
    destruct (e_step g1 o) as [g2| | |] eqn:S1; cbn [bind] in E; try discriminate. inversion E; subst g2.
    destruct (step_cause _ _ _ _ EI S1) as (new & LG & J). unfold callbacks in IN. rewrite LG in IN. apply in_app_iff in IN. destruct IN as [IN|IN].
    + destruct (IH g1 i r R IN) as (os1 & o' & os2 & x & A & B & C). exists os1, o', (os2 ++ [o]), x. subst os. rewrite <- app_assoc. auto.
    + destruct (J i r IN) as (x & X & JU). exists os, o, [], x. rewrite <- NW. auto.
Qed.

(** ** C25 *)
Lemma called_or_pending : forall os g i, e_run eng_new os = Ok g -> (i < length (expressed 0 os))%nat -> In i (called g) \/ timer_pending g i.
Proof.
  intros os g i E L. destruct (reach_inv os g E) as [EI _]. destruct (ei_timed _ _ EI i) as [H|(n & x & e & t & H1 & H2 & H3 & H4 & H5 & _)]; auto.
  - rewrite (ei_next _ _ EI). auto.
  - right. unfold timer_pending. rewrite <- H5. apply in_map. auto.
Qed.

Lemma due_called : forall os i x, nth_error (expressed 0 os) i = Some x -> (x_deadline x + TimeoutMargin <= elapsed os)%Z ->
  exists g, e_run eng_new (os ++ [EFire i; ERun i]) = Ok g /\ In i (called g).
Proof.
  intros os i x X DUE. destruct (reach os) as (g & R & EI & NW). rewrite e_run_app, R. cbn [bind e_run].
  destruct (fire_ok _ g i EI) as (g1 & F & EI1 & NX1 & LG1 & PT1 & NW1). rewrite F. cbn [bind].
  destruct (run_ok _ g1 i EI1) as (g2 & RU & EI2 & NX2 & _ & CA & MO & _). rewrite RU. cbn [bind]. exists g2. split; auto.
  assert (LI : (i < length (expressed 0 os))%nat) by (apply nth_error_Some; congruence).
  destruct (called_or_pending os g i R LI) as [H|H]; [apply MO; unfold called; rewrite LG1; auto|].
  apply CA. unfold timer_pending in H. rewrite map_app, in_app_iff in H.
  assert (KEEP : In i (map tm_id (g_flight g)) -> In i (map tm_id (g_flight g1))).
  { intros Q. cbn [e_step] in F. destruct (find (with_id i) (g_armed g)) as [t|]; [|inversion F; subst; auto].
    destruct (tm_due t <=? g_now g)%Z; inversion F; subst; auto. cbn [g_flight]. rewrite map_app, in_app_iff. auto. }
  destruct H as [H|H]; [|auto]. cbn [e_step] in F. destruct (find (with_id i) (g_armed g)) as [t|] eqn:FI.
  - apply find_with_id in FI. destruct FI as [F1 F2]. destruct (ei_timers _ _ EI t) as (_ & x0 & X0 & D); [apply in_or_app; auto|].
    rewrite F2 in X0. assert (x0 = x) by congruence. subst x0. destruct (Z.leb_spec (tm_due t) (g_now g)); [|lia].
    inversion F; subst. cbn [g_flight]. rewrite map_app, in_app_iff. right. left. auto.
  - apply in_map_iff in H. destruct H as (t & Q & T). pose proof (find_none _ _ FI t T) as Z0. unfold with_id in Z0. rewrite Q, Nat.eqb_refl in Z0. discriminate.
Qed.

Lemma once : forall os g, no_nack os -> e_run eng_new os = Ok g ->
  NoDup (called g) /\ (forall i, In i (called g) -> (i < length (expressed 0 os))%nat).
Proof.
  intros os g NN E. destruct (run_inv os [] eng_new new_einv) as (g' & A & B & _ & _ & X). assert (g' = g) by congruence. subst g'.
  split.
  - specialize (X NN new_exact). unfold Exact in X. assert (N : NoDup (ids (g_pit g) ++ called g)).
    { eapply Permutation_NoDup; [apply Permutation_sym; exact X|apply seq_NoDup]. }
    clear -N. induction (ids (g_pit g)); auto. inversion N; auto.
  - intros i Hi. apply (ei_called _ _ B) in Hi. rewrite (ei_next _ _ B) in Hi. auto.
Qed.

(** ** C26 *)
Lemma filed_entry : forall L g i p, EInv L g -> filed g i p -> exists n x e, walk _ (g_pit g) 0 p = Some n /\ nth_error (g_pit g) n = Some x /\ In e (t_val x) /\ pe_id e = i.
Proof.
  intros L g i p EI (n & l & e & T & V & IN & ID). rewrite t_exact_ok in T by apply (ei_inv _ _ EI). inversion T as [W].
  unfold value, get in V. destruct (nth_error (g_pit g) n) as [x|] eqn:X; [|discriminate]. inversion V; subst. exists n, x, e. auto.
Qed.
Lemma entry_filed : forall L g i p n x e, EInv L g -> walk _ (g_pit g) 0 p = Some n -> nth_error (g_pit g) n = Some x -> In e (t_val x) -> pe_id e = i -> filed g i p.
Proof. intros L g i p n x e EI W X IN ID. exists n, (t_val x), e. rewrite t_exact_ok by apply (ei_inv _ _ EI). unfold value. rewrite (get_ok _ _ _ _ X). rewrite W. auto. Qed.

Lemma data_step : forall os g nm digest, e_run eng_new os = Ok g -> exists g' new, e_data g nm digest = Ok g' /\
  callbacks g' = callbacks g ++ map (fun i => (i, RData)) new /\
  (forall i, In i new -> exists x, nth_error (expressed 0 os) i = Some x /\ matches (x_cbp x) nm digest (x_name x)) /\
  (forall i x p, nth_error (expressed 0 os) i = Some x -> filed g i p -> matches (x_cbp x) nm digest (x_name x) -> In i new) /\
  (forall i, timer_pending g i -> ~ In i new -> timer_pending g' i).
Proof.
  intros os g nm digest R. destruct (reach_inv os g R) as [EI NW].
  destruct (data_ok _ g nm digest EI) as (g' & sat & E1 & EI' & LG & NX & SA & _).
  exists g', (map pe_id sat). split; auto. split; [unfold callbacks; rewrite LG, map_map; auto|]. split; [|split].
  - intros i IN. destruct (step_cause _ _ (EData nm digest) _ EI E1) as (new & LG2 & J). rewrite LG in LG2. apply app_inv_head in LG2. subst new.
    destruct (J i RData) as (x & X & nm' & d' & Q & M); [apply in_map_iff in IN; destruct IN as (e & <- & IN); apply in_map_iff; exists e; auto|].
    inversion Q; subst. eauto.
  - intros i x p X FI M. destruct (filed_entry _ _ _ _ EI FI) as (n & y & e & W & Y & IN & <-). apply in_map. apply SA.
    destruct (ei_entry _ _ EI n y e Y IN) as (nm0 & node & A & B & C).
    assert (p = keys node). { eapply path_of_fun; [apply (ei_inv _ _ EI)|apply walk_path; [apply (ei_inv _ _ EI)|exact W]|exact C]. } subst p.
    assert (x = mkX nm0 (pe_cbp e) (pe_deadline e)) by congruence. subst x. simpl in M.
    exists (keys node), n, y. split; [eapply matches_prefix; eauto|]. split; auto. split; auto. split; auto.
    eapply satisfied_matches; eauto. eapply matches_prefix; eauto.
  - intros i T NI. unfold timer_pending in *. unfold e_data in E1. destruct (t_prefix (g_pit g) (map comp_str nm)) as [v| | |]; cbn [bind] in E1; try discriminate.
    destruct (data_loop (S (length (g_pit g))) (g_pit g) v (length nm) digest []) as [v0| | |]; cbn [bind] in E1; try discriminate.
    destruct (t_delete_if is_nil (fst v0) v); cbn [bind] in E1; try discriminate. inversion E1; subst g'. cbn [g_armed g_flight g_log] in *.
    apply app_inv_head in LG. assert (ID : map pe_id (snd v0) = map pe_id sat).
    { apply (f_equal (map fst)) in LG. rewrite !map_map in LG. simpl in LG. auto. } rewrite ID.
    apply in_map_iff in T. destruct T as (t & TI & T). apply in_map_iff. exists t. split; auto. rewrite in_app_iff in *. rewrite cancel_in. rewrite TI. tauto.
Qed.

Lemma cut_keeps : forall (a : amap (list pend)) pred q c p v, (forall r s, prefix r s -> a s <> None -> a r <> None) ->
  cut a pred q c -> prefix c p -> a p = Some v -> pred v = false -> prefix q p.
Proof.
  intros a pred q c p v CL H. induction H as [|p0 k B|p0 k w OC A PV|p0 k w c OC A PV CU IH]; intros P AP PF; auto.
  destruct (IH P AP PF) as (s & ->). destruct s as [|k' s].
  - rewrite app_nil_r in AP. congruence.
  - assert (k' = k). { apply OC. apply CL with (p0 ++ k' :: s); [exists s; rewrite <- app_assoc; auto|congruence]. } subst k'.
    exists s. rewrite <- app_assoc. auto.
Qed.

Lemma data_filed : forall os g nm digest g' i p x, e_run eng_new os = Ok g -> e_data g nm digest = Ok g' ->
  filed g i p -> nth_error (expressed 0 os) i = Some x -> ~ matches (x_cbp x) nm digest (x_name x) ->
  prefix p (keys nm) \/ (exists j r, filed g j r /\ prefix r (keys nm) /\ ~ prefix r p) ->
  filed g' i p.
Proof.
  intros os g nm digest g' i p x R E FI X NM COND. destruct (reach_inv os g R) as [EI NW]. pose proof (ei_inv _ _ EI) as I.
  destruct (data_ok _ g nm digest EI) as (g2 & sat2 & E2 & EI' & _). assert (g2 = g') by congruence. subst g2. clear sat2 E2.
  destruct (filed_entry _ _ _ _ EI FI) as (n & y & e & W & Y & IN & ID).
  unfold e_data in E. fold (keys nm) in E.
  destruct (t_prefix_ok _ (g_pit g) (keys nm) I) as (q & m & TP & WQ & PQ & MAX). rewrite TP in E. cbn [bind] in E.
  destruct (walk_root _ _ q m I WQ) as (xm & XM & _). pose proof (nth_lt _ _ _ _ XM) as NL.
  destruct (data_loop_ok (length nm) digest (S (length (g_pit g))) (g_pit g) m q [] I WQ) as (h1 & sat & DL & I1 & E1 & L1 & W1 & S1 & K1 & P1); [lia|].
  rewrite DL in E. cbn [bind fst snd app] in E.
  destruct (E1 m xm XM) as (x1 & X1 & _).
  destruct (t_delete_if_ok _ [] is_nil h1 m x1 q I1) as (h2 & DI & I2 & L2 & CUT); [rewrite W1; auto|auto|].
  rewrite DI in E. cbn [bind] in E. inversion E; subst g'. clear E.
  (* the entry survives the loop *)
  destruct (K1 n y Y) as (y1 & Y1 & _ & B). destruct (B e IN) as [IN1|IS].
  2: { exfalso. apply NM. apply S1 in IS. destruct IS as (p0 & n0 & x0 & PP & W0 & X0 & IN0 & SA).
       destruct (ei_entry _ _ EI n y e Y IN) as (nm0 & node & A1 & A2 & A3). destruct (ei_entry _ _ EI n0 x0 e X0 IN0) as (nm1 & node1 & B1 & B2 & B3).
       assert (nm1 = nm0 /\ node1 = node) as [-> ->] by (split; congruence).
       assert (p0 = keys node). { eapply path_of_fun; [exact I|apply walk_path; [exact I|exact W0]|exact B3]. } subst p0.
       assert (x = mkX nm0 (pe_cbp e) (pe_deadline e)) by congruence. subst x. simpl.
       eapply satisfied_matches; eauto. eapply prefix_trans; eauto. }
  assert (NN : is_nil (t_val y1) = false) by (destruct (t_val y1); [destruct IN1|auto]).
  assert (W1' : walk _ h1 0 p = Some n) by (rewrite W1; auto).
  assert (A1 : abs _ h1 p = Some (t_val y1)) by (eapply walk_abs; eauto).
  destruct (is_nil (t_val x1)) eqn:PX.
  - destruct CUT as (c & CU & REM).
    assert (NP : ~ prefix c p).
    { intros CP. assert (QP : prefix q p).
      { eapply cut_keeps; eauto. intros r s PR AS. eapply abs_prefix_closed; eauto. }
      destruct COND as [PP|(j & r & FJ & PR & NPR)].
      - assert (LP : (length p <= length q)%nat) by (apply MAX; auto; congruence).
        assert (q = p). { apply prefix_len_eq; auto. apply Nat.le_antisymm; auto. destruct QP as (s & ->). rewrite app_length. lia. }
        subst q. assert (n = m) by congruence. subst n. assert (y1 = x1) by congruence. congruence.
      - apply NPR. eapply prefix_trans; [|exact QP]. destruct (filed_entry _ _ _ _ EI FJ) as (nj & yj & ej & WJ & _).
        assert (LP : (length r <= length q)%nat) by (apply MAX; auto; congruence).
        destruct PR as (s1 & S1'), PQ as (s2 & S2'). rewrite S2' in S1'.
        exists (skipn (length r) q). rewrite <- (firstn_skipn (length r) q) at 1. f_equal.
        assert (H : firstn (length r) (r ++ s1) = firstn (length r) (q ++ s2)) by (rewrite S1'; auto).
        rewrite firstn_app, Nat.sub_diag, firstn_all in H. simpl in H. rewrite app_nil_r in H.
        rewrite firstn_app in H. replace (length r - length q)%nat with O in H by lia. simpl in H. rewrite app_nil_r in H. auto. }
    assert (A2 : abs _ h2 p = Some (t_val y1)).
    { destruct p as [|k p'].
      - rewrite (proj1 REM). auto.
      - rewrite (proj2 (proj2 REM (k :: p') ltac:(discriminate)) NP). auto. }
    apply abs_walk in A2. destruct A2 as (n2 & y2 & W2 & Y2 & V2). apply (entry_filed _ _ _ _ n2 y2 e EI'); auto. rewrite V2. auto.
  - subst h2. apply (entry_filed _ _ _ _ n y1 e EI'); auto.
Qed.

Lemma express_filed : forall os g nm cbp life g' b, e_run eng_new os = Ok g -> bare nm b -> e_step g (EExpress nm cbp life) = Ok g' ->
  filed g' (length (expressed 0 os)) (keys b) /\ (forall i p, filed g i p -> filed g' i p).
Proof.
  intros os g nm cbp life g' b R BA E. destruct (reach_inv os g R) as [EI NW]. pose proof (ei_inv _ _ EI) as I.
  assert (NE : nm <> []) by (intros ->; inversion BA; destruct nm; discriminate).
  destruct (express_ok _ g nm cbp life EI NE) as (g2 & E2 & _ & EI' & _). cbn [e_step] in E. rewrite E2 in E. cbn [bind] in E. inversion E; subst g2. clear E.
  destruct (bare_split _ _ BA) as (sha & SD). unfold e_express in E2. rewrite SD in E2. fold (keys b) in E2.
  unfold t_always, match_always in E2.
  destruct (first_loop _ [] (fun _ => false) (keys b) (S (length (keys b))) (g_pit g) [] 0 I eq_refl (prefix_nil _)) as (h1 & m & q & F & I1 & W1 & P1 & P2 & AD & _ & Q); [simpl; lia|].
  destruct Q as [->|Q]; [|discriminate]. rewrite F in E2. cbn [bind fst snd] in E2.
  destruct (walk_root _ h1 _ m I1 W1) as (x & X & _). unfold value in E2. rewrite (get_ok _ _ _ _ X) in E2. cbn [bind] in E2.
  rewrite (set_value_put _ _ _ _ X) in E2. cbn [bind] in E2. inversion E2 as [G]. rewrite <- G in EI'.
  destruct (put_val_inv h1 m x (t_val x ++ [mkPend (g_next g) (g_now g + match life with Some l => l | None => DefaultInterestLife end) cbp sha]) I1 X) as [I2 W2].
  set (h2 := put h1 m _) in *.
  assert (N2 : forall k, nth_error h2 k = if Nat.eqb k m then Some (with_val x (t_val x ++ [mkPend (g_next g) (g_now g + match life with Some l => l | None => DefaultInterestLife end) cbp sha])) else nth_error h1 k).
  { intros k. apply put_nth. eapply nth_lt; eauto. }
  split.
  - eapply (entry_filed _ _ _ _ m); [exact EI'| | | |].
    + cbn [g_pit]. rewrite W2. auto.
    + cbn [g_pit]. rewrite N2, Nat.eqb_refl. reflexivity.
    + simpl. apply in_or_app. right. left. reflexivity.
    + simpl. apply (ei_next _ _ EI).
  - intros i p FI. destruct (filed_entry _ _ _ _ EI FI) as (n & y & e & W & Y & IN & ID).
    pose proof (walk_abs _ _ _ _ _ W Y) as A.
    assert (A1 : abs _ h1 p = Some (t_val y)).
    { destruct AD as [AD1 AD2]. destruct (prefix_dec p (keys b)) as [D|D]; [rewrite AD1 by auto; unfold a_val; rewrite A; auto|rewrite AD2; auto]. }
    apply abs_walk in A1. destruct A1 as (n1 & y1 & B1 & B2 & B3).
    assert (exists y2, nth_error h2 n1 = Some y2 /\ In e (t_val y2)) as (y2 & C1 & C2).
    { rewrite N2. destruct (Nat.eqb_spec n1 m) as [->|]; [|exists y1; rewrite B3; auto]. eexists. split; [reflexivity|]. simpl. apply in_or_app. left.
      assert (y1 = x) by congruence. subst. rewrite B3. auto. }
    eapply (entry_filed _ _ _ _ n1 y2 e); [exact EI'| | | |]; auto. cbn [g_pit]. rewrite W2. auto.
Qed.
