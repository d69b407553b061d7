(** Lemmas for C64 and C65: own data, suppression, timers. *)
From Verif Require Import Base PrimModel NameModel OrderProofs SnModel SnSpec SnProofs.

(** ** This node's own number *)
Lemma published_cons : forall o os, published (o :: os) = ((match o with SnNew true => 1 | _ => 0 end) + published os)%N.
Proof. intros [[?|]|?|?|[|]|] os; unfold published; cbn [filter length]; lia. Qed.
Lemma reported_none : forall id ms, (forall m, In m ms -> fst (fst m) <> id) -> reported id ms = [].
Proof.
  unfold reported; induction ms as [|m ms IH]; intros H; [reflexivity|]. cbn [filter]. replace (bytes_eqb (fst (fst m)) id) with false by (symmetry; apply bytes_eqb_neq; apply H; now left).
  apply IH. intros; apply H; now right.
Qed.
Lemma top_le : forall id v b, (forall x, In (id, x) v -> (x <= b)%N) -> (top id v <= b)%N.
Proof. intros id v b H. destruct (top_in id v) as [->|I]; [lia|auto]. Qed.
Lemma run_seq : forall os s s', sn_run s os = Ok s' -> (n_seq s < two64)%N -> n_seq s' = ((n_seq s + published os) mod two64)%N.
Proof.
  induction os as [|o os IH]; intros s s' E L; cbn [sn_run] in E; [injection E as <-; cbn; rewrite N.add_0_r, N.mod_small; auto|].
  destruct (sn_step s o) as [s1| | |] eqn:E1; try discriminate. cbn [bind] in E. pose proof (step_effect _ _ _ E1) as (_ & F). rewrite published_cons.
  assert (Q : n_seq s1 = ((n_seq s + match o with SnNew true => 1 | _ => 0 end) mod two64)%N).
  { destruct o as [[r|]|k|k|[|]|]; rewrite ?N.add_0_r, ?(N.mod_small (n_seq s)) by auto.
    - destruct F as (? & ? & _ & _ & -> & _). reflexivity.
    - contradiction.
    - apply F.
    - apply F.
    - apply F.
    - apply F.
    - apply F. }
  rewrite (IH s1 s' E) by (rewrite Q; apply N.mod_lt; discriminate). rewrite Q, N.add_mod_idemp_l by discriminate. f_equal. lia.
Qed.
Lemma effect_own : forall s o s', sn_inv s -> effect s o s' -> seq_in (n_id s) (n_local s) = n_seq s -> (n_seq s + 1 < two64)%N ->
  (forall v x, o = SnSync (Some v) -> In (n_id s, x) v -> (x <= n_seq s)%N) ->
  seq_in (n_id s) (n_local s') = n_seq s' /\ (n_seq s <= n_seq s')%N /\ exists add, n_miss s' = n_miss s ++ add /\ reported (n_id s) add = [].
Proof.
  intros s o s' (ND & M) (Ei & F) Q L A. destruct o as [[r|]|k|k|[|]|]; try contradiction.
  - destruct F as (add & need & Fo & Fm & Fs & _). destruct (sync_fold _ _ _ _ _ _ _ ND Fo) as (_ & S1 & M1 & a & Ea & A1 & _). cbn [app] in Ea. subst a.
    assert (T : (top (n_id s) r <= n_seq s)%N) by (apply top_le; intros; eapply A; eauto).
    assert (S2 : seq_in (n_id s) (n_local s') = seq_in (n_id s) (n_local s)) by (rewrite S1; lia).
    split; [congruence|]. split; [lia|]. exists add. split; [auto|]. apply reported_none. intros m I E. destruct (A1 m I) as (_ & H). rewrite E in H. destruct H; [lia|auto].
  - destruct F as (F1 & F2 & F3 & _). rewrite F1, F2. split; [auto|]. split; [lia|]. exists []. rewrite app_nil_r. auto.
  - destruct F as (F1 & F2 & F3 & _). rewrite F1, F2. split; [auto|]. split; [lia|]. exists []. rewrite app_nil_r. auto.
  - destruct F as (F1 & F2 & F3 & _). split; [rewrite F2, seq_set, bytes_eqb_refl by auto; reflexivity|]. split; [rewrite F1, N.mod_small by lia; lia|]. exists []. rewrite app_nil_r. auto.
  - destruct F as (F1 & F2 & F3 & _). rewrite F1, F2. split; [auto|]. split; [lia|]. exists []. rewrite app_nil_r. auto.
  - destruct F as (F1 & F2 & F3 & _). rewrite F1, F2. split; [auto|]. split; [lia|]. exists []. rewrite app_nil_r. auto.
Qed.
Lemma run_own : forall os s s', sn_inv s -> sn_run s os = Ok s' -> seq_in (n_id s) (n_local s) = n_seq s -> (n_seq s + published os + 1 < two64)%N -> never_ahead s os ->
  seq_in (n_id s) (n_local s') = n_seq s' /\ n_seq s' = (n_seq s + published os)%N /\ exists add, n_miss s' = n_miss s ++ add /\ reported (n_id s) add = [].
Proof.
  induction os as [|o os IH]; intros s s' I E Q L A.
  - cbn [sn_run] in E. injection E as <-. split; [auto|]. split; [cbn; lia|]. exists []. rewrite app_nil_r. auto.
  - pose proof (run_seq _ _ _ E ltac:(lia)) as R. rewrite N.mod_small in R by lia. cbn [sn_run never_ahead] in *.
    destruct (sn_step s o) as [s1| | |] eqn:E1; try discriminate. cbn [bind] in E. pose proof (step_effect _ _ _ E1) as F. destruct A as (A1 & A2).
    destruct (effect_own s o s1 I F Q) as (Q1 & L1 & a1 & M1 & R1); [rewrite published_cons in L; lia|intros v x Eo X; eauto|].
    pose proof (effect_inv _ _ _ I F) as I1. destruct F as (Ei & F). rewrite <- Ei in *.
    assert (N1 : (n_seq s1 = n_seq s + match o with SnNew true => 1 | _ => 0 end)%N).
    { pose proof (run_seq [o] s s1) as X. cbn [sn_run] in X. rewrite E1 in X. cbn [bind] in X. specialize (X eq_refl ltac:(lia)). rewrite X, published_cons. rewrite published_cons in L. cbn [published filter length]. rewrite N.mod_small; [|change (published []) with 0%N; lia]. change (published []) with 0%N. lia. }
    destruct (IH s1 s' I1 E Q1) as (Q2 & L2 & a2 & M2 & R2); [rewrite published_cons in L; lia|auto|].
    split; [auto|]. split; [auto|]. exists (a1 ++ a2). split; [rewrite M2, M1, app_assoc; reflexivity|]. now rewrite reported_app, R1, R2.
Qed.

(** ** No panic *)
Lemma step_fine : forall s o, op_fine o -> n_closed s = false -> exists s', sn_step s o = Ok s' /\ n_closed s' = false.
Proof.
  intros s o F C. destruct o as [[r|]|k|k|ok|]; try contradiction; cbn [sn_step].
  - unfold on_sync_int. destruct (fold_left _ _ _) as [[l m] n]. rewrite C. cbn [andb]. destruct (_ || n_supp s); [destruct (n_supp s)|]; eexists; split; try reflexivity; exact C.
  - destruct (nth_error (n_sched s) k) as [[t b]|]; eexists; split; try reflexivity; exact C.
  - destruct (nth_error (n_fired s) k); eexists; split; try reflexivity; [|exact C]. unfold on_sync_timer, reschedule. cbn [n_supp n_agg n_local]. destruct (n_supp s && _); exact C.
  - eexists. split; [reflexivity|]. unfold new_data. destruct ok; exact C.
Qed.
Lemma run_fine : forall os s, Forall op_fine os -> n_closed s = false -> exists s', sn_run s os = Ok s' /\ n_closed s' = false.
Proof.
  induction os as [|o os IH]; intros s F C; cbn [sn_run]; [eauto|]. inversion F as [|? ? F1 F2]; subst. destruct (step_fine s o F1 C) as (s1 & -> & C1). cbn [bind]. auto.
Qed.

(** ** Suppression *)
Lemma agg_fold : forall r agg, 
  (forall id a, sv_get id (fold_left agg_entry r agg) = Some a -> sv_get id agg = Some a \/ In (id, a) r) /\
  (forall id a, sv_get id agg = Some a -> exists b, sv_get id (fold_left agg_entry r agg) = Some b /\ (a <= b)%N) /\
  (forall id y, In (id, y) r -> exists b, sv_get id (fold_left agg_entry r agg) = Some b /\ (y <= b)%N).
Proof.
  induction r as [|[i x] r IH]; intros agg; cbn [fold_left].
  - split; [auto|]. split; [intros id a H; exists a; split; [auto|lia]|intros id y []].
  - destruct (IH (agg_entry agg (i, x))) as (A & B & C).
    assert (G : forall id, sv_get id (agg_entry agg (i, x)) = if bytes_eqb i id then Some (match sv_get id agg with Some a => N.max a x | None => x end) else sv_get id agg).
    { intros id. unfold agg_entry. cbn [fst snd]. destruct (sv_get i agg) as [a|] eqn:Ga.
      - rewrite get_set. same_id i id; [rewrite Ga; reflexivity|reflexivity].
      - rewrite get_app. cbn [sv_get]. same_id i id; [now rewrite Ga|]. destruct (sv_get id agg); reflexivity. }
    split; [|split].
    + intros id a H. destruct (A id a H) as [K|K]; [|right; now right]. rewrite G in K. same_id i id; [|auto]. injection K as <-.
      destruct (sv_get id agg) as [b|]; [destruct (N.max_spec b x) as [[_ ->]|[_ ->]]; [right; now left|now left]|right; now left].
    + intros id a H. destruct (bytes_eqb i id) eqn:E.
      * destruct (B id (N.max a x)) as (b & Hb & L); [rewrite G, E, H; reflexivity|]. exists b. split; [auto|lia].
      * apply B. rewrite G, E. auto.
    + intros id y [E|I]; [|auto]. injection E as -> ->. destruct (B id (match sv_get id agg with Some a => N.max a y | None => y end)) as (b & Hb & L); [rewrite G, bytes_eqb_refl; reflexivity|].
      exists b. split; [auto|]. destruct (sv_get id agg); lia.
Qed.
Definition agg_ok (s : sn) (acc : list bvec) : Prop := n_supp s = true ->
  (forall id a, sv_get id (n_agg s) = Some a -> exists v, In v acc /\ In (id, a) v) /\
  ((forall v, In v acc -> NoDup (map fst v)) -> forall v id y, In v acc -> In (id, y) v -> exists a, sv_get id (n_agg s) = Some a /\ (y <= a)%N).
Definition acc_step (s : sn) (o : snop) (s' : sn) (acc : list bvec) : list bvec :=
  if n_supp s' then match o with SnSync (Some v) => if n_supp s then acc ++ [v] else [v] | _ => acc end else [].
Lemma agg_step : forall s o s' acc, agg_ok s acc -> sn_step s o = Ok s' -> agg_ok s' (acc_step s o s' acc).
Proof.
  intros s o s' acc H E S'. unfold acc_step. rewrite S'. unfold agg_ok in H. destruct o as [[r|]|k|k|[|]|]; cbn [sn_step] in E.
  - unfold on_sync_int in E. destruct (fold_left sync_entry r (n_local s, [], false)) as [[l m] n] eqn:F. destruct (n_closed s && _); [discriminate|]. destruct (n_supp s) eqn:SU.
    + rewrite orb_true_r in E. injection E as <-. cbn [n_agg]. destruct (H eq_refl) as (A & B). destruct (agg_fold r (n_agg s)) as (X & Y & Z). split.
      * intros id a G. destruct (X id a G) as [K|K]; [destruct (A id a K) as (v & I & J); exists v; split; [apply in_or_app; now left|auto]|exists r; split; [apply in_or_app; right; now left|auto]].
      * intros ND v id y I J. apply in_app_iff in I. destruct I as [I|[<-|[]]]; [|auto]. destruct (B (fun v I => ND v (in_or_app _ _ _ (or_introl I))) v id y I J) as (a & G & L). destruct (Y id a G) as (b & Gb & Lb). exists b. split; [auto|lia].
    + rewrite orb_false_r in E. destruct (n || _); injection E as <-; [|discriminate]. cbn [reschedule n_agg]. split.
      * intros id a G. exists r. split; [now left|now apply get_in].
      * intros ND v id y [<-|[]] J. exists y. split; [|lia]. apply get_nodup; [apply ND; now left|auto].
  - discriminate.
  - destruct (nth_error (n_sched s) k) as [[t b]|]; injection E as <-; cbn [n_supp n_agg] in *; auto.
  - destruct (nth_error (n_fired s) k); [|injection E as <-; auto]. injection E as <-. exfalso. unfold on_sync_timer, reschedule in S'. cbn [n_supp n_agg n_local] in S'. destruct (n_supp s && _); discriminate S'.
  - injection E as <-. discriminate S'.
  - injection E as <-. auto.
  - unfold on_detach in E. destruct (n_closed s); [discriminate|]. injection E as <-. cbn [n_supp n_agg] in *. auto.
Qed.
Lemma heard_ok : forall os s s' acc, agg_ok s acc -> sn_run s os = Ok s' -> agg_ok s' (heard s os acc).
Proof.
  induction os as [|o os IH]; intros s s' acc H E; cbn [sn_run heard] in *; [injection E as <-; auto|].
  destruct (sn_step s o) as [s1| | |] eqn:E1; try discriminate. cbn [bind] in E. apply (IH s1 s' _ (agg_step _ _ _ _ H E1) E).
Qed.
(** what the timer does *)
Lemma timer_sends : forall s k, (k < length (n_fired s))%nat -> exists s', sn_step s (SnTimer k) = Ok s' /\ n_supp s' = false /\ n_local s' = n_local s /\
  (n_sent s' = n_sent s ++ [n_local s] \/ (n_supp s = true /\ n_sent s' = n_sent s)) /\
  (n_sent s' = n_sent s <-> n_supp s = true /\ forall id x, In (id, x) (n_local s) -> exists a, sv_get id (n_agg s) = Some a /\ (x <= a)%N).
Proof.
  intros s k L. cbn [sn_step]. destruct (nth_error (n_fired s) k) eqn:E; [|apply nth_error_None in E; lia]. eexists. split; [reflexivity|].
  unfold on_sync_timer, reschedule. cbn [n_supp n_agg n_local]. set (cov := forallb _ _).
  assert (CV : cov = true <-> forall id x, In (id, x) (n_local s) -> exists a, sv_get id (n_agg s) = Some a /\ (x <= a)%N).
  { unfold cov. rewrite forallb_forall. split.
    - intros H id x I. specialize (H (id, x) I). cbn [fst snd] in H. destruct (sv_get id (n_agg s)) as [a|]; [|discriminate]. exists a. split; [auto|]. apply negb_true_iff, N.ltb_ge in H. auto.
    - intros H [id x] I. cbn [fst snd]. destruct (H id x I) as (a & -> & L2). apply negb_true_iff, N.ltb_ge. auto. }
  assert (NN : forall l : list bvec, l ++ [n_local s] <> l) by (intros l X; apply (f_equal (@length _)) in X; rewrite app_length in X; cbn [length] in X; lia).
  destruct (n_supp s); cbn [andb].
  - destruct cov; unfold express; cbn [n_supp n_local n_sent].
    + split; [auto|]. split; [auto|]. split; [auto|]. split; [intros _; split; [auto|now apply CV]|auto].
    + split; [auto|]. split; [auto|]. split; [auto|]. split; [intros X; now apply NN in X|]. intros (_ & X). apply CV in X. discriminate.
  - unfold express; cbn [n_supp n_local n_sent]. split; [auto|]. split; [auto|]. split; [auto|]. split; [intros X; now apply NN in X|]. intros (X & _). discriminate.
Qed.
(** when a vector puts the node into suppression *)
Lemma outdated : forall s r s', sn_inv s -> n_supp s = false -> NoDup (map fst r) -> sn_step s (SnSync (Some r)) = Ok s' ->
  (n_supp s' = true <-> exists id x, In (id, x) (n_local s') /\ match sv_get id r with Some y => (y < x)%N | None => True end).
Proof.
  intros s r s' (ND & M) SU NR E. cbn [sn_step] in E. unfold on_sync_int in E. destruct (fold_left sync_entry r (n_local s, [], false)) as [[l m] n] eqn:F.
  destruct (n_closed s && _); [discriminate|]. rewrite SU, orb_false_r in E.
  pose proof (need_fold _ _ _ _ _ _ _ NR ND F) as NF. destruct (sync_fold _ _ _ _ _ _ _ ND F) as (NL & SL & ML & _). cbn [orb] in NF.
  assert (LS : n_local s' = l) by (destruct (n || _); injection E as <-; reflexivity).
  assert (SS : n_supp s' = (n || existsb (fun e => match sv_get (fst e) r with Some _ => false | None => true end) l)) by (destruct (n || _); injection E as <-; reflexivity).
  assert (TR : forall id y, sv_get id r = Some y -> top id r = y).
  { intros id y G. pose proof (top_ge id r y (get_in _ _ _ G)). destruct (top_in id r) as [T|T]; [lia|]. apply get_nodup in T; [congruence|auto]. }
  rewrite LS, SS, orb_true_iff, NF, !existsb_exists. split.
  - intros [([id y] & I & L)|([id x] & I & L)]; cbn [fst snd] in L.
    + apply N.ltb_lt in L. pose proof (get_nodup _ _ _ NR I) as G. exists id, (seq_in id l). rewrite G. split; [|rewrite SL; lia].
      assert (ME : mentions id l) by (apply ML; right; apply in_map_iff; exists (id, y); auto). unfold seq_in. destruct (sv_get id l) eqn:GL; [now apply get_in|]. apply get_none in GL. contradiction.
    + exists id, x. split; [auto|]. destruct (sv_get id r); [discriminate|auto].
  - intros (id & x & I & L). destruct (sv_get id r) as [y|] eqn:G.
    + left. exists (id, y). split; [now apply get_in|]. cbn [fst snd]. apply N.ltb_lt. pose proof (get_nodup _ _ _ NL I) as GL. assert (X : seq_in id l = x) by (unfold seq_in; now rewrite GL). rewrite SL, (TR _ _ G) in X. lia.
    + right. exists (id, x). split; [auto|]. cbn [fst]. now rewrite G.
Qed.

(** ** Timers *)
Definition timed (s : sn) : Prop := (exists b, n_sched s = [(n_cur s, b)]) \/ (n_sched s = [] /\ In (n_cur s) (n_fired s)).
Lemma timed_cancel : forall s, timed s -> cancel s = [].
Proof. intros s [(b & E)|(E & _)]; unfold cancel; rewrite E; cbn [filter fst]; [rewrite Nat.eqb_refl|]; reflexivity. Qed.
Lemma cancel_eq : forall s s', n_sched s = n_sched s' -> n_cur s = n_cur s' -> cancel s = cancel s'.
Proof. intros s s' A B. unfold cancel. now rewrite A, B. Qed.
Lemma timed_resched : forall agg s, cancel s = [] -> timed (reschedule agg s).
Proof. intros agg s E. left. exists agg. unfold reschedule. cbn [n_sched n_cur]. rewrite E. reflexivity. Qed.
Lemma timed_step : forall s o s', timed s -> op_fine o -> sn_step s o = Ok s' -> timed s'.
Proof.
  intros s o s' T F E. pose proof (timed_cancel s T) as C. destruct o as [[r|]|k|k|[|]|]; try contradiction; cbn [sn_step] in E.
  - unfold on_sync_int in E. destruct (fold_left _ _ _) as [[l m] n]. destruct (n_closed s && _); [discriminate|].
    destruct (_ || n_supp s); [destruct (n_supp s)|]; injection E as <-; [exact T| |]; apply timed_resched; rewrite <- C; apply cancel_eq; reflexivity.
  - destruct (nth_error (n_sched s) k) as [[t b]|] eqn:K; [|injection E as <-; auto]. injection E as <-. destruct T as [(b' & T)|(T & _)]; rewrite T in K; [|destruct k; discriminate].
    destruct k as [|k]; [|destruct k; discriminate]. cbn [nth_error] in K. injection K as <- <-. right. cbn [n_sched n_cur n_fired]. rewrite T. split; [reflexivity|]. apply in_or_app. right. now left.
  - destruct (nth_error (n_fired s) k); [|injection E as <-; auto]. injection E as <-. unfold on_sync_timer. apply timed_resched. rewrite <- C. apply cancel_eq; cbn [n_supp n_agg n_local]; destruct (n_supp s && _); reflexivity.
  - injection E as <-. exact T.
  - injection E as <-. exact T.
Qed.
Lemma timed_run : forall os s s', timed s -> Forall op_fine os -> sn_run s os = Ok s' -> timed s'.
Proof.
  induction os as [|o os IH]; intros s s' T F E; cbn [sn_run] in E; [injection E as <-; auto|]. inversion F as [|? ? F1 F2]; subst.
  destruct (sn_step s o) as [s1| | |] eqn:E1; try discriminate. cbn [bind] in E. eapply IH; [|eauto|eauto]. eapply timed_step; eauto.
Qed.
