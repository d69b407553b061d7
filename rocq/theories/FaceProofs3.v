From Verif Require Import Base FaceModel FaceSpec FaceProofs FaceProofs2.

(** ** who owns the connection: an Open that has stored it, then the Run that it started *)
Definition owns (p : pc) : bool :=
  match p with OpnRunning | OpnGo | RunStart | RunTest _ | RunRead _ | RunErr | RunStop | RunClear => true | _ => false end.
Definition owner (s : face) (i : nat) : Prop := exists th, nth_error (f_threads s) i = Some th /\ owns (th_pc th) = true.
Definition entering (p : pc) : bool := match p with OpnDial | OpnStore _ => true | _ => false end.

Record Life (s : face) : Prop := {
  l_one : forall i j, owner s i -> owner s j -> i = j;
  l_conn : f_conn s <> None <-> exists i, owner s i;
  l_enter : forall i th, nth_error (f_threads s) i = Some th -> entering (th_pc th) = true -> f_conn s = None;
  l_read : forall i c p, nth_error (f_threads s) i = Some (mkTh c p) -> match p with RunTest x | RunRead x => x = f_conn s | _ => True end;
  l_run : f_running s = true -> exists i th, nth_error (f_threads s) i = Some th /\ owns (th_pc th) = true /\ th_pc th <> OpnRunning /\ th_pc th <> RunClear
}.

(** at most one goroutine is in Open *)
Definition lone (s : face) : Prop := forall i j, busy s i (Some COpen) -> busy s j (Some COpen) -> i = j.

Lemma owner_same : forall s s', f_threads s' = f_threads s -> forall i, owner s' i <-> owner s i.
Proof. intros s s' H i. unfold owner. rewrite H. tauto. Qed.

Lemma life_new : Life face_new.
Proof.
  constructor.
  - intros i j (th & H & _). destruct i; discriminate.
  - split; [intros H; exfalso; apply H; reflexivity|]. intros (i & th & H & _). destruct i; discriminate.
  - intros [|i] th H; discriminate.
  - intros [|i] c p H; discriminate.
  - discriminate.
Qed.

Lemma life_call : forall s c, Life s -> Life (with_thread s (mkTh (Some c) (start_pc c))).
Proof.
  intros s c [A B C D E].
  assert (O : forall i, owner (with_thread s (mkTh (Some c) (start_pc c))) i <-> owner s i).
  { intros i. unfold owner. cbn [f_threads with_thread]. split; intros (th & T & W).
    - rewrite nth_app_last in T. destruct (Nat.eqb i (length (f_threads s))); [injection T as <-; destruct c; discriminate|eauto].
    - exists th. split; auto. rewrite nth_error_app1; auto. apply nth_error_Some. congruence. }
  constructor.
  - intros i j I J. apply A; apply O; auto.
  - cbn [f_conn with_thread]. rewrite B. split; intros (i & I); exists i; apply O; auto.
  - intros i th T. cbn [f_threads f_conn with_thread] in *. rewrite nth_app_last in T. destruct (Nat.eqb i (length (f_threads s))); [injection T as <-; destruct c; discriminate|eauto].
  - intros i c0 p T. cbn [f_threads f_conn with_thread] in *. rewrite nth_app_last in T. destruct (Nat.eqb i (length (f_threads s))); [injection T as <- <-; destruct c; exact I|exact (D _ _ _ T)].
  - cbn [f_running with_thread]. intros R. destruct (E R) as (i & th & T & W). exists i, th. split; auto. cbn [f_threads with_thread]. rewrite nth_error_app1; auto. apply nth_error_Some. congruence.
Qed.

(** a goroutine moves; the connection and running stay *)
Lemma life_move : forall s s' t c p q, Life s -> nth_error (f_threads s) t = Some (mkTh c p) -> f_threads s' = set_nth (f_threads s) t (mkTh c q) ->
  f_conn s' = f_conn s -> f_running s' = f_running s \/ f_running s' = false -> owns q = owns p -> (entering q = true -> entering p = true \/ f_conn s = None) ->
  (p <> OpnRunning -> q <> OpnRunning) -> (p <> RunClear -> q <> RunClear \/ f_running s' = false) -> match q with RunTest x | RunRead x => x = f_conn s | _ => True end -> Life s'.
Proof.
  intros s s' t c p q [A B C D E] T H FC FR OW EN NR NC RD.
  assert (N : forall i, nth_error (f_threads s') i = if Nat.eqb i t then Some (mkTh c q) else nth_error (f_threads s) i) by (intros; rewrite H; eapply set_nth_nth; eauto).
  assert (O : forall i, owner s' i <-> owner s i).
  { intros i. unfold owner. rewrite N. destruct (Nat.eqb_spec i t) as [->|]; [|tauto]. rewrite T. split; intros (th & Q & W); injection Q as <-; eexists; (split; [reflexivity|]); cbn in *; congruence. }
  constructor.
  - intros i j I J. apply A; apply O; auto.
  - rewrite FC, B. split; intros (i & I); exists i; apply O; auto.
  - intros i th Q W. rewrite FC. rewrite N in Q. destruct (Nat.eqb_spec i t) as [->|]; [|eauto]. injection Q as <-. cbn in W. destruct (EN W); auto. eapply C; eauto.
  - intros i c0 p0 Q. rewrite FC. rewrite N in Q. destruct (Nat.eqb_spec i t) as [->|]; [|exact (D _ _ _ Q)]. injection Q as <- <-. exact RD.
  - intros R. assert (R0 : f_running s = true) by (destruct FR; congruence). destruct (E R0) as (i & th & Q & W1 & W2 & W3).
    destruct (Nat.eq_dec i t) as [->|NE].
    + rewrite T in Q. injection Q as <-. exists t, (mkTh c q). rewrite N, Nat.eqb_refl. cbn [th_pc] in *. split; auto. split; [congruence|]. split; auto. destruct (NC W3); auto. congruence.
    + exists i, th. rewrite N. destruct (Nat.eqb_spec i t); [contradiction|]. auto.
Qed.

Lemma life_step : forall s l s', shapes s -> lone s -> Life s -> f_step s l = Ok s' -> Life s'.
Proof.
  intros s l s' SH LO LF E. destruct l as [|c|t o]; cbn [f_step] in E.
  - injection E as <-. destruct LF as [A B C D F]. constructor; auto.
  - injection E as <-. apply life_call; auto.
  - destruct (nth_error (f_threads s) t) as [[c p]|] eqn:TH; [|injection E as <-; auto]. cbn [th_call th_pc] in E. pose proof (SH _ _ TH) as S0.
    pose proof LF as [A B C D F].
    assert (OWN : owns p = true -> owner s t) by (intros W; exists (mkTh c p); auto).
    destruct c as [[pkt| |]|]; destruct p as [q|q|rest|e| | | |i| | | | | | |x|x| | | |e]; try (exfalso; unfold shape in S0; cbn in S0; tauto); split_step E;
    try exact LF;
    try solve [eapply life_move; [exact LF|exact TH|reflexivity|reflexivity|first [left; reflexivity|right; reflexivity]|reflexivity|discriminate|intros _; discriminate|intros _; left; discriminate|exact I]];
    try solve [eapply life_move; [exact LF|exact TH|reflexivity|reflexivity|first [left; reflexivity|right; reflexivity]|reflexivity|intros _; left; reflexivity|intros _; discriminate|intros _; left; discriminate|exact I]];
    try solve [eapply life_move; [exact LF|exact TH|reflexivity|reflexivity|first [left; reflexivity|right; reflexivity]|reflexivity|intros _; right; assumption|intros _; discriminate|intros _; left; discriminate|exact I]];
    try solve [eapply life_move; [exact LF|exact TH|reflexivity|reflexivity|first [left; reflexivity|right; reflexivity]|reflexivity|discriminate|intros _; discriminate|intros _; left; discriminate|first [reflexivity|exact (D _ _ _ TH)]]].
    1: { destruct b; (eapply life_move; [exact LF|exact TH|reflexivity|reflexivity|left; reflexivity|reflexivity|discriminate|intros _; discriminate|intros _; left; discriminate|exact I]). }
    + (* OpnStore *) assert (FN : f_conn s = None) by (eapply C; [exact TH|reflexivity]).
      assert (NO : forall j, ~ owner s j). { intros j O. assert (f_conn s <> None) by (apply B; eauto). contradiction. }
      set (s' := at_pc (with_conn s (Some i)) t (Some COpen) OpnRunning).
      assert (N : forall j, nth_error (f_threads s') j = if Nat.eqb j t then Some (mkTh (Some COpen) OpnRunning) else nth_error (f_threads s) j) by (intros; unfold s'; cbn [f_threads at_pc with_conn]; eapply set_nth_nth; eauto).
      assert (O : forall j, owner s' j -> j = t). { intros j (th & Q & W). rewrite N in Q. destruct (Nat.eqb_spec j t); auto. exfalso. apply (NO j). exists th. auto. }
      constructor.
      * intros j k J K. rewrite (O j J), (O k K). auto.
      * split; [|discriminate]. intros _. exists t. exists (mkTh (Some COpen) OpnRunning). rewrite N, Nat.eqb_refl. auto.
      * intros j th Q W. exfalso. rewrite N in Q. destruct (Nat.eqb_spec j t) as [->|NE]; [injection Q as <-; discriminate|].
        apply NE. apply LO; [|exists (OpnStore i); split; [exact TH|discriminate]]. destruct th as [c0 p0]. pose proof (SH _ _ Q) as S1.
        cbn [th_pc] in W. exists p0. split; [|intros r ->; discriminate]. unfold doing. rewrite Q. destruct p0; try discriminate; destruct c0 as [[| |]|]; unfold shape in S1; cbn in S1; try tauto.
      * intros j c0 p0 Q. rewrite N in Q. destruct (Nat.eqb_spec j t) as [->|NE]; [injection Q as <- <-; exact I|].
        destruct p0; auto; exfalso; apply (NO j); eexists; split; eauto.
      * intros R. cbn in R. destruct (F R) as (j & th & Q & W & _). exfalso. apply (NO j). exists th. auto.
    + (* OpnRunning *) assert (OT : owner s t) by (apply OWN; reflexivity).
      set (s' := at_pc (with_running s true) t (Some COpen) OpnGo).
      assert (N : forall j, nth_error (f_threads s') j = if Nat.eqb j t then Some (mkTh (Some COpen) OpnGo) else nth_error (f_threads s) j) by (intros; unfold s'; cbn [f_threads at_pc with_running]; eapply set_nth_nth; eauto).
      assert (O : forall j, owner s' j <-> owner s j).
      { intros j. unfold owner. rewrite N. destruct (Nat.eqb_spec j t) as [->|]; [|tauto]. rewrite TH. split; intros (th & Q & W); injection Q as <-; eexists; (split; [reflexivity|reflexivity]). }
      constructor.
      * intros j k J K. apply A; apply O; auto.
      * change (f_conn s') with (f_conn s). rewrite B. split; intros (j & J); exists j; apply O; auto.
      * intros j th Q W. change (f_conn s') with (f_conn s). rewrite N in Q. destruct (Nat.eqb_spec j t) as [->|NE]; [injection Q as <-; discriminate|eauto].
      * intros j c0 p0 Q. change (f_conn s') with (f_conn s). rewrite N in Q. destruct (Nat.eqb_spec j t) as [->|NE]; [injection Q as <- <-; exact I|exact (D _ _ _ Q)].
      * intros _. exists t, (mkTh (Some COpen) OpnGo). rewrite N, Nat.eqb_refl. repeat split; discriminate.
    + (* OpnGo *) assert (OT : owner s t) by (apply OWN; reflexivity).
      set (s' := with_thread (at_pc s t (Some COpen) (Ret None)) (mkTh None RunStart)).
      assert (LT : (t < length (f_threads s))%nat) by (apply nth_error_Some; congruence).
      assert (N : forall j, nth_error (f_threads s') j = if Nat.eqb j (length (f_threads s)) then Some (mkTh None RunStart) else if Nat.eqb j t then Some (mkTh (Some COpen) (Ret None)) else nth_error (f_threads s) j).
      { intros j. unfold s'. cbn [f_threads with_thread at_pc]. rewrite nth_app_last, set_nth_length, (set_nth_nth _ _ _ _ _ TH). auto. }
      assert (O : forall j, owner s' j -> j = length (f_threads s)).
      { intros j (th & Q & W). rewrite N in Q. destruct (Nat.eqb_spec j (length (f_threads s))); auto. exfalso. destruct (Nat.eqb_spec j t) as [->|NE]; [injection Q as <-; discriminate|].
        apply NE. apply A; auto. exists th. auto. }
      constructor.
      * intros j k J K. rewrite (O j J), (O k K). auto.
      * change (f_conn s') with (f_conn s). split; [|intros _; apply B; eauto]. intros _. exists (length (f_threads s)), (mkTh None RunStart). rewrite N, Nat.eqb_refl. auto.
      * intros j th Q W. change (f_conn s') with (f_conn s). rewrite N in Q. destruct (Nat.eqb_spec j (length (f_threads s))); [injection Q as <-; discriminate|].
        destruct (Nat.eqb_spec j t) as [->|NE]; [injection Q as <-; discriminate|eauto].
      * intros j c0 p0 Q. change (f_conn s') with (f_conn s). rewrite N in Q. destruct (Nat.eqb_spec j (length (f_threads s))); [injection Q as <- <-; exact I|].
        destruct (Nat.eqb_spec j t) as [->|NE]; [injection Q as <- <-; exact I|exact (D _ _ _ Q)].
      * intros _. exists (length (f_threads s)), (mkTh None RunStart). rewrite N, Nat.eqb_refl. repeat split; discriminate.
    + (* RunStop *) eapply life_move; [exact LF|exact TH|reflexivity|reflexivity|right; reflexivity|reflexivity|discriminate|intros _; discriminate|intros _; right; reflexivity|exact I].
    + (* RunClear *) assert (OT : owner s t) by (apply OWN; reflexivity).
      set (s' := at_pc (with_conn s None) t None (Ret None)).
      assert (N : forall j, nth_error (f_threads s') j = if Nat.eqb j t then Some (mkTh None (Ret None)) else nth_error (f_threads s) j) by (intros; unfold s'; cbn [f_threads at_pc with_conn]; eapply set_nth_nth; eauto).
      assert (O : forall j, ~ owner s' j).
      { intros j (th & Q & W). rewrite N in Q. destruct (Nat.eqb_spec j t) as [->|NE]; [injection Q as <-; discriminate|]. apply NE. apply A; auto. exists th. auto. }
      constructor.
      * intros j k J. exfalso. eapply O; eauto.
      * split; [intros Q; exfalso; apply Q; reflexivity|]. intros (j & J). exfalso. eapply O; eauto.
      * intros j th Q W. reflexivity.
      * intros j c0 p0 Q. destruct p0; auto; exfalso; apply (O j); eexists; split; eauto; reflexivity.
      * intros R. change (f_running s') with (f_running s) in R. destruct (F R) as (j & th & Q & W1 & W2 & W3). assert (j = t) by (apply A; auto; exists th; auto). subst j.
        rewrite TH in Q. injection Q as <-. cbn in W3. congruence.
Qed.

Lemma one_opener_prefix : forall a b, one_opener (a ++ b) -> one_opener a.
Proof. intros a b H ls1 ls2 s i j EQ. apply (H ls1 (ls2 ++ b)). rewrite EQ, app_assoc. auto. Qed.
Lemma life_run : forall ls s, one_opener ls -> f_run face_new ls = Ok s -> Life s.
Proof.
  induction ls as [|l ls IH] using rev_ind; intros s OO E; [injection E as <-; apply life_new|].
  apply run_snoc in E. destruct E as (s1 & E1 & E2). eapply life_step; [eapply shapes_run; eauto| |apply IH; [eapply one_opener_prefix; eauto|auto]|exact E2].
  intros i j. apply (OO ls [l] s1); auto.
Qed.

(** ** statements *)
Lemma run_owner : forall s i, shapes s -> receiving s i -> owner s i.
Proof.
  intros s i SH (p & T & NR). exists (mkTh None p). split; auto. pose proof (SH _ _ T) as S0. unfold shape in S0. cbn in S0. cbn [th_pc].
  destruct p; cbn in *; try tauto. exfalso. eapply NR; eauto.
Qed.
Lemma owner_run : forall s i, shapes s -> owner s i -> receiving s i \/ busy s i (Some COpen).
Proof.
  intros s i SH ([c p] & T & W). pose proof (SH _ _ T) as S0. unfold shape in S0. cbn in S0, W.
  destruct c as [[pkt| |]|]; destruct p; try discriminate; cbn in S0; try tauto;
  first [left; eexists; split; [exact T|discriminate]|right; eexists; split; [exact T|discriminate]].
Qed.

Theorem one_run : forall ls s, one_opener ls -> f_run face_new ls = Ok s ->
  (forall i j, receiving s i -> receiving s j -> i = j) /\
  (f_running s = true -> exists i, receiving s i \/ busy s i (Some COpen)) /\
  ((exists i, receiving s i) -> f_conn s <> None) /\
  (f_conn s <> None -> exists i, receiving s i \/ busy s i (Some COpen)).
Proof.
  intros ls s OO R. pose proof (shapes_run _ _ R) as SH. destruct (life_run _ _ OO R) as [A B C D F]. split; [|split; [|split]].
  - intros i j I J. apply A; apply run_owner; auto.
  - intros RU. destruct (F RU) as (i & th & T & W & _). exists i. apply owner_run; auto. exists th. auto.
  - intros (i & I). apply B. exists i. apply run_owner; auto.
  - intros H. apply B in H. destruct H as (i & O). exists i. apply owner_run; auto.
Qed.

(** a panic: a Send or Close whose face has stopped *)
Theorem panic_cause : forall ls, one_opener ls -> f_run face_new ls = Panic ->
  exists ls1 t o ls2 s, ls = ls1 ++ LStep t o :: ls2 /\ f_run face_new ls1 = Ok s /\ (forall i, ~ receiving s i) /\
    (busy s t (Some CClose) \/ exists pkt, busy s t (Some (CSend pkt))).
Proof.
  induction ls as [|l ls IH] using rev_ind; intros OO E; [discriminate|]. rewrite f_run_app in E. destruct (f_run face_new ls) as [s| | |] eqn:R; cbn [bind f_run] in E; try discriminate.
  - destruct (f_step s l) as [s1| | |] eqn:ST; cbn [bind] in E; try discriminate. pose proof (one_opener_prefix _ _ OO) as OO1.
    pose proof (shapes_run _ _ R) as SH. destruct (life_run _ _ OO1 R) as [A B C D F]. destruct l as [|c|t o]; cbn [f_step] in ST; try discriminate.
    destruct (nth_error (f_threads s) t) as [[c p]|] eqn:TH; [|discriminate]. cbn [th_call th_pc] in ST. pose proof (SH _ _ TH) as S0.
    exists ls, t, o, [], s. split; auto. split; auto.
    assert (NO : f_conn s = None -> forall i, ~ receiving s i). { intros H i I. assert (f_conn s <> None) by (apply B; exists i; apply run_owner; auto). contradiction. }
    pose proof (D _ _ _ TH) as RD.
    destruct p; cbn [t_step] in ST; repeat match type of ST with Ok _ = Panic => discriminate | context [if ?b then _ else _] => destruct b | context [match ?b with _ => _ end] => destruct b eqn:? end; try discriminate.
    + split; [auto|]. right. unfold shape in S0. destruct c as [[pkt| |]|]; cbn in S0; try tauto. exists pkt, (SndWrite (l :: l0)). split; [exact TH|discriminate].
    + split; [auto|]. left. unfold shape in S0. destruct c as [[pkt| |]|]; cbn in S0; try tauto. exists ClsClose. split; [exact TH|discriminate].
    + exfalso. assert (O : owner s t) by (eexists; split; [exact TH|reflexivity]). assert (f_conn s <> None) by (apply B; eauto). congruence.
  - destruct (IH (one_opener_prefix _ _ OO) eq_refl) as (ls1 & t & o & ls2 & s & EQ & H). exists ls1, t, o, (ls2 ++ [l]), s. split; [rewrite EQ, <- app_assoc; auto|exact H].
Qed.

(** *** closing *)
Definition no_open (s : face) : Prop := ~ opening s.
Lemma no_open_step : forall s l s', shapes s -> no_open s -> opens [l] = O -> f_step s l = Ok s' -> no_open s'.
Proof.
  intros s l s' SH NO OP E. destruct l as [|c|t o]; cbn [f_step] in E.
  - injection E as <-. exact NO.
  - injection E as <-. intros (i & p & T & NR). unfold doing in T. cbn [f_threads with_thread] in T. rewrite nth_app_last in T. destruct (Nat.eqb i (length (f_threads s))).
    + injection T as -> <-. discriminate.
    + apply NO. exists i, p. auto.
  - destruct (nth_error (f_threads s) t) as [th|] eqn:TH; [|injection E as <-; auto]. destruct (step_threads s t o s' th TH E) as (q & N & _).
    intros (i & p & T & NR). unfold doing in T. rewrite N in T. destruct (Nat.eqb_spec i t) as [->|NE].
    + injection T as C ->. apply NO. exists t, (th_pc th). unfold doing. rewrite TH. destruct th as [c p0]. cbn in *. subst c. split; auto.
      intros r ->. cbn [t_step] in E. injection E as <-. specialize (N t). rewrite Nat.eqb_refl, TH in N. injection N as <-. eapply NR; eauto.
    + destruct (match th_pc th with OpnGo => true | _ => false end && Nat.eqb i (length (f_threads s))); [discriminate|]. apply NO. exists i, p. auto.
Qed.

(** while no Open is in progress *)
Definition shut (s : face) : Prop := f_running s = false /\ forall c, f_conn s = Some c -> is_closed (f_conns s) c = true.
Lemma closed_write : forall cs i b o cs' ok c, write cs i b o = (cs', ok) -> is_closed cs c = true -> is_closed cs' c = true.
Proof.
  intros cs i b o cs' ok c W H. unfold write in W. destruct (nth_error cs i) as [x|] eqn:X; [|injection W as <- _; auto]. destruct (c_broken x || c_closed x) eqn:DX; [injection W as <- _; auto|].
  assert (Q : forall y, c <> i -> is_closed (set_nth cs i y) c = true) by (intros y N; unfold is_closed in *; rewrite set_nth_other; auto).
  assert (c <> i). { intros ->. unfold is_closed in H. rewrite X in H. rewrite H, Bool.orb_true_r in DX. discriminate. }
  destruct o; injection W as <- _; auto.
Qed.
Lemma closed_close : forall cs i c, is_closed cs c = true -> is_closed (close_conn cs i) c = true.
Proof.
  intros cs i c H. unfold close_conn, is_closed in *. destruct (nth_error cs i) as [x|] eqn:X; auto. rewrite (set_nth_nth _ _ _ _ _ X). destruct (Nat.eqb c i); auto.
Qed.
Lemma closed_self : forall cs i, is_closed (close_conn cs i) i = true.
Proof.
  intros cs i. unfold close_conn, is_closed. destruct (nth_error cs i) as [x|] eqn:X; [|rewrite X; auto]. rewrite (set_nth_same _ _ _ _ X). reflexivity.
Qed.

(** without Open nothing makes the face run, or replaces its connection *)
Lemma quiet_step : forall s l s', shapes s -> no_open s -> f_step s l = Ok s' ->
  (f_running s = false -> f_running s' = false) /\ (f_conn s' = f_conn s \/ f_conn s' = None) /\ (forall c, is_closed (f_conns s) c = true -> is_closed (f_conns s') c = true).
Proof.
  intros s l s' SH NO E. destruct l as [|c|t o]; cbn [f_step] in E.
  - injection E as <-. auto.
  - injection E as <-. auto.
  - destruct (nth_error (f_threads s) t) as [[c p]|] eqn:TH; [|injection E as <-; auto]. cbn [th_call th_pc] in E. pose proof (SH _ _ TH) as S0.
    destruct c as [[pkt| |]|].
    2:{ assert (R : exists e, p = Ret e). { unfold shape in S0. cbn in S0. destruct p; cbn in S0; try tauto; try (exfalso; apply NO; exists t; eexists; split; [exact TH|discriminate]). eauto. }
        destruct R as (e & ->). cbn [t_step] in E. injection E as <-. auto. }
    + destruct p; try (exfalso; unfold shape in S0; cbn in S0; tauto); split_step E; cbn [f_running f_conn f_conns at_pc with_conn with_conns with_lock with_running]; try solve [split; [intros; first [assumption|reflexivity|congruence]|split; auto; fail]].
      split; auto. split; auto. intros c. eapply closed_write; eauto.
    + destruct p; try (exfalso; unfold shape in S0; cbn in S0; tauto); split_step E; cbn [f_running f_conn f_conns at_pc with_conn with_conns with_lock with_running]; try solve [split; [intros; first [assumption|reflexivity|congruence]|split; auto; fail]].
      split; auto. split; auto. intros c. apply closed_close.
    + destruct p; try (exfalso; unfold shape in S0; cbn in S0; tauto); split_step E; cbn [f_running f_conn f_conns at_pc with_conn with_conns with_lock with_running]; try solve [split; [intros; first [assumption|reflexivity|congruence]|split; auto; fail]].
Qed.

Lemma shut_step : forall s l s', shapes s -> no_open s -> shut s -> f_step s l = Ok s' -> shut s'.
Proof.
  intros s l s' SH NO [R C] E. destruct (quiet_step s l s' SH NO E) as (A & B & D). split; auto. intros c H. apply D. apply C. destruct B; congruence.
Qed.

Definition rank (p : pc) : nat := match p with RunStart => 5 | RunTest _ | RunRead _ => 4 | RunErr => 3 | RunStop => 2 | RunClear => 1 | _ => 0 end.
Definition rank_of (s : face) (t : nat) : nat := match nth_error (f_threads s) t with Some (mkTh None p) => rank p | _ => 0 end.

(** a Run of a closed face makes progress *)
Lemma rank_step : forall s l s' t, shapes s -> Life s -> no_open s -> shut s -> f_step s l = Ok s' -> (t < length (f_threads s))%nat -> (rank_of s' t <= rank_of s t - steps_of t [l])%nat.
Proof.
  intros s l s' t SH LF NO [RU CL] E LT. destruct l as [|c|u o]; cbn [f_step steps_of] in *.
  - injection E as <-. unfold rank_of. cbn [f_threads]. lia.
  - injection E as <-. unfold rank_of. cbn [f_threads with_thread]. rewrite nth_error_app1 by auto. lia.
  - destruct (nth_error (f_threads s) u) as [[c p]|] eqn:TH.
    2:{ injection E as <-. destruct (Nat.eqb_spec u t) as [->|]; [|lia]. apply nth_error_None in TH. lia. }
    cbn [th_call th_pc] in E. destruct (step_threads s u o s' _ TH E) as (q & N & _). cbn [th_call th_pc] in N. unfold rank_of. rewrite N.
    rewrite Nat.eqb_sym. destruct (Nat.eqb_spec u t) as [->|NE].
    + rewrite TH. destruct c; [lia|]. pose proof (N t) as NT. rewrite Nat.eqb_refl in NT. pose proof (SH _ _ TH) as S0. unfold shape in S0. cbn in S0.
      pose proof (l_read _ LF _ _ _ TH) as RD.
      destruct p; cbn in S0; try tauto; cbn [t_step] in E; try (rewrite RU in E);
      try (injection E as <-; cbn [f_threads at_pc with_conn with_running] in NT; rewrite (set_nth_same _ _ _ _ TH) in NT; injection NT as <-; cbn; lia).
      * destruct c; [|discriminate]. rewrite (CL n) in E by auto. injection E as <-; cbn [f_threads at_pc with_conn with_running] in NT; rewrite (set_nth_same _ _ _ _ TH) in NT; injection NT as <-; cbn; lia.
      * injection E as <-. rewrite TH in NT. injection NT as <-. cbn. lia.
    + destruct (match p with OpnGo => true | _ => false end && Nat.eqb t (length (f_threads s))) eqn:B; [|lia].
      apply Bool.andb_true_iff in B. destruct B as [_ B]. apply Nat.eqb_eq in B. lia.
Qed.

Lemma opens_app : forall a b, opens (a ++ b) = (opens a + opens b)%nat.
Proof. induction a as [|[|[| |]|] a IH]; intros b; cbn [app opens]; rewrite ?IH; lia. Qed.
Lemma steps_app : forall t a b, steps_of t (a ++ b) = (steps_of t a + steps_of t b)%nat.
Proof. induction a as [|[|c|u o] a IH]; intros b; cbn [app steps_of]; rewrite ?IH; lia. Qed.

(** the Close of goroutine [t], at work *)
Definition closes (s : face) (t : nat) : Prop :=
  exists p, nth_error (f_threads s) t = Some (mkTh (Some CClose) p) /\
  match p with ClsClose => f_running s = false | Ret _ => shut s | _ => True end.
Lemma closes_step : forall s l s' t, shapes s -> Life s -> no_open s -> closes s t -> f_step s l = Ok s' -> closes s' t.
Proof.
  intros s l s' t SH LF NO (p & T & H) E. destruct (quiet_step s l s' SH NO E) as (A & B & D).
  assert (KEEP : nth_error (f_threads s') t = Some (mkTh (Some CClose) p) -> closes s' t).
  { intros T'. exists p. split; auto. destruct p; auto. eapply shut_step; eauto. }
  destruct l as [|c|u o]; cbn [f_step] in E.
  - injection E as <-. auto.
  - injection E as <-. apply KEEP. cbn [f_threads with_thread]. rewrite nth_error_app1; auto. apply nth_error_Some. congruence.
  - destruct (nth_error (f_threads s) u) as [[c q]|] eqn:TH; [|injection E as <-; auto]. cbn [th_call th_pc] in E.
    destruct (step_threads s u o s' _ TH E) as (q' & N & _). cbn [th_call th_pc] in N. pose proof (N t) as NT. destruct (Nat.eqb_spec t u) as [<-|NE].
    + rewrite TH in T. injection T as -> ->. pose proof (SH _ _ TH) as S0. unfold shape in S0. cbn in S0.
      destruct p; cbn in S0; try tauto; cbn [t_step] in E.
      * destruct (f_conn s) eqn:FC; injection E as <-; cbn [f_threads at_pc] in NT; rewrite (set_nth_same _ _ _ _ TH) in NT; injection NT as <-; eexists; (split; [eapply set_nth_same; eauto|]); cbn; auto.
        split; cbn [f_running f_conn at_pc]; [|congruence]. destruct (f_running s) eqn:R; auto. destruct (l_run _ LF R) as (i & th & Q & W & _).
        assert (f_conn s <> None) by (apply (l_conn _ LF); exists i, th; auto). contradiction.
      * injection E as <-. eexists. split; [eapply set_nth_same; eauto|]. reflexivity.
      * destruct (f_conn s) eqn:FC; [|discriminate]. injection E as <-. eexists. split; [eapply set_nth_same; eauto|]. cbn. split; cbn [f_running f_conn f_conns at_pc with_conns]; auto.
        intros c0 Q. rewrite FC in Q. injection Q as <-. apply closed_self.
      * injection E as <-. apply KEEP. auto.
    + destruct (match q with OpnGo => true | _ => false end && Nat.eqb t (length (f_threads s))) eqn:Q; [|apply KEEP; congruence].
      apply Bool.andb_true_iff in Q. destruct Q as [_ Q]. apply Nat.eqb_eq in Q. assert (t < length (f_threads s))%nat by (apply nth_error_Some; congruence). lia.
Qed.

Lemma quiet_run : forall (P : face -> Prop) ls1 s1, one_opener ls1 -> f_run face_new ls1 = Ok s1 -> no_open s1 -> P s1 ->
  forall ls2 s2, one_opener (ls1 ++ ls2) -> opens ls2 = O -> f_run s1 ls2 = Ok s2 ->
  (forall s l s', shapes s -> Life s -> no_open s -> P s -> f_step s l = Ok s' -> P s') -> P s2 /\ no_open s2.
Proof.
  intros P ls1 s1 O1 R1 NO P1. induction ls2 as [|l ls IH] using rev_ind; intros s2 OO OP R ST; [injection R as <-; auto|].
  apply run_snoc in R. destruct R as (s & R2 & R3). rewrite app_assoc in OO. pose proof (one_opener_prefix _ _ OO) as OO2.
  assert (OP1 : opens ls = O /\ opens [l] = O) by (rewrite opens_app in OP; lia). destruct OP1 as [OP1 OP2].
  destruct (IH s OO2 OP1 R2 ST) as [PS NOS]. assert (RR : f_run face_new (ls1 ++ ls) = Ok s) by (rewrite f_run_app, R1; exact R2).
  pose proof (shapes_run _ _ RR) as SH. pose proof (life_run _ _ OO2 RR) as LF. split; [eapply ST; eauto|eapply no_open_step; eauto].
Qed.

Lemma no_open_call : forall s c, no_open s -> c <> COpen -> no_open (with_thread s (mkTh (Some c) (start_pc c))).
Proof.
  intros s c NO NC (i & p & T & NR). unfold doing in T. cbn [f_threads with_thread] in T. rewrite nth_app_last in T. destruct (Nat.eqb i (length (f_threads s))).
  - injection T as -> <-. congruence.
  - apply NO. exists i, p. auto.
Qed.

(** after Close returned *)
Theorem closed_face : forall ls1 ls2 s1 s2 r, one_opener (ls1 ++ LCall CClose :: ls2) -> opens ls2 = O -> f_run face_new ls1 = Ok s1 -> ~ opening s1 ->
  f_run s1 (LCall CClose :: ls2) = Ok s2 -> returned s2 (length (f_threads s1)) r -> shut s2 /\ no_open s2.
Proof.
  intros ls1 ls2 s1 s2 r OO OP R1 NO R2 (c & RE). cbn [f_run f_step bind] in R2. set (s0 := with_thread s1 (mkTh (Some CClose) (start_pc CClose))) in *.
  assert (R0 : f_run face_new (ls1 ++ [LCall CClose]) = Ok s0) by (rewrite f_run_app, R1; reflexivity).
  change (LCall CClose :: ls2) with ([LCall CClose] ++ ls2) in OO. rewrite app_assoc in OO.
  destruct (quiet_run (fun s => closes s (length (f_threads s1))) _ _ (one_opener_prefix _ _ OO) R0) with (ls2 := ls2) (s2 := s2) as [(p & T & H) NO2]; auto.
  - unfold s0. apply no_open_call; [exact NO|discriminate].
  - exists ClsCheck. split; auto. unfold s0. cbn [f_threads with_thread]. rewrite nth_app_last, Nat.eqb_refl. reflexivity.
  - intros s l s' SH LF N0 C E. eapply closes_step; eauto.
  - unfold returned, doing in RE. rewrite T in RE. injection RE as <- ->. auto.
Qed.

Lemma threads_len : forall s l s', f_step s l = Ok s' -> (length (f_threads s) <= length (f_threads s'))%nat.
Proof.
  intros s l s' E. destruct l as [|c|t o]; cbn [f_step] in E.
  - injection E as <-. auto.
  - injection E as <-. cbn [f_threads with_thread]. rewrite app_length. lia.
  - destruct (nth_error (f_threads s) t) as [[c p]|] eqn:TH; [|injection E as <-; auto]. cbn [th_call th_pc] in E.
    destruct p; split_step E; cbn [f_threads at_pc with_thread with_conn with_conns with_lock with_running]; rewrite ?app_length, ?set_nth_length; lia.
Qed.

(** a Run in progress is one that was *)
Definition runs (s : face) (i : nat) : Prop := exists p, nth_error (f_threads s) i = Some (mkTh None p).
Lemma runs_step : forall s l s' i, shapes s -> no_open s -> f_step s l = Ok s' -> runs s' i -> runs s i.
Proof.
  intros s l s' i SH NO E (p & T). destruct l as [|c|t o]; cbn [f_step] in E.
  - injection E as <-. exists p. exact T.
  - injection E as <-. cbn [f_threads with_thread] in T. rewrite nth_app_last in T. destruct (Nat.eqb i (length (f_threads s))); [discriminate|exists p; auto].
  - destruct (nth_error (f_threads s) t) as [[c q]|] eqn:TH; [|injection E as <-; exists p; auto]. destruct (step_threads s t o s' _ TH E) as (q' & N & _). rewrite N in T. cbn [th_call th_pc] in T.
    destruct (Nat.eqb_spec i t) as [->|NE]; [injection T as -> ->; exists q; auto|].
    destruct (match q with OpnGo => true | _ => false end && Nat.eqb i (length (f_threads s))) eqn:Q; [|exists p; auto].
    exfalso. pose proof (SH _ _ TH) as S0. unfold shape in S0. cbn in S0. destruct q; try discriminate. destruct c as [[| |]|]; cbn in S0; try tauto.
    apply NO. exists t, OpnGo. split; [exact TH|discriminate].
Qed.

Lemma closed_stream : forall s l s' c, shut s -> f_step s l = Ok s' -> stream s' c = stream s c.
Proof.
  intros s l s' c [RU CL] E. destruct l as [|k|t o]; cbn [f_step] in E.
  - injection E as <-. auto.
  - injection E as <-. auto.
  - destruct (nth_error (f_threads s) t) as [[k p]|] eqn:TH; [|injection E as <-; auto]. cbn [th_call th_pc] in E. unfold stream.
    destruct p; split_step E; cbn [f_conns at_pc with_thread with_conn with_conns with_lock with_running]; auto.
    + pose proof (CL n eq_refl) as C. rename n into m. match goal with W : write _ _ _ _ = _ |- _ => rename W into WW end.
      unfold write in WW. unfold is_closed in C. destruct (nth_error (f_conns s) m) as [x|]; [|injection WW as <- _; auto]. rewrite C, Bool.orb_true_r in WW. injection WW as <- _. auto.
    + rewrite nth_app_last. destruct (Nat.eqb_spec c (length (f_conns s))) as [->|]; auto. cbn. destruct (nth_error (f_conns s) (length (f_conns s))) eqn:Q; auto.
      assert (length (f_conns s) < length (f_conns s))%nat by (apply nth_error_Some; congruence). lia.
    + unfold close_conn. destruct (nth_error (f_conns s) n) as [x|] eqn:X; auto. rewrite (set_nth_nth _ _ _ _ _ X). destruct (Nat.eqb_spec c n) as [->|]; auto. rewrite X. auto.
Qed.

Lemma rank_live : forall s i, shapes s -> receiving s i -> (0 < rank_of s i)%nat.
Proof.
  intros s i SH (p & T & NR). pose proof (SH _ _ T) as S0. unfold shape in S0. cbn in S0. unfold rank_of. unfold doing in T. rewrite T.
  destruct p; cbn in *; try tauto; try lia. exfalso. eapply NR; eauto.
Qed.
Lemma rank_le : forall s i, (rank_of s i <= 5)%nat.
Proof. intros s i. unfold rank_of. destruct (nth_error (f_threads s) i) as [[[c|] p]|]; cbn; try lia. destruct p; cbn; lia. Qed.
Lemma runs_receiving : forall s i, (0 < rank_of s i)%nat -> receiving s i.
Proof.
  intros s i H. unfold rank_of in H. destruct (nth_error (f_threads s) i) as [[[c|] p]|] eqn:T; try lia. exists p. split; [exact T|]. intros r ->. cbn in H. lia.
Qed.

(** a Send called on a closed face *)
Definition refuses (n : nat) (s : face) : Prop := forall i pkt p, (n <= i)%nat -> doing s i (Some (CSend pkt)) p -> p = SndCheck pkt \/ p = Ret (Some FNotRunning).
Lemma refuses_step : forall n s l s', shapes s -> shut s -> refuses n s -> f_step s l = Ok s' -> refuses n s'.
Proof.
  intros n s l s' SH [RU _] RF E i pkt p LE T. unfold doing in T. destruct l as [|c|t o]; cbn [f_step] in E.
  - injection E as <-. eapply RF; eauto.
  - injection E as <-. cbn [f_threads with_thread] in T. rewrite nth_app_last in T. destruct (Nat.eqb i (length (f_threads s))); [|eapply RF; eauto]. injection T as -> <-. left. reflexivity.
  - destruct (nth_error (f_threads s) t) as [[c q]|] eqn:TH; [|injection E as <-; eapply RF; eauto]. destruct (step_threads s t o s' _ TH E) as (q' & N & _). pose proof (N i) as NI. rewrite N in T. cbn [th_call th_pc] in *.
    destruct (Nat.eqb_spec i t) as [->|NE].
    + injection T as -> ->. destruct (RF t pkt q LE TH) as [->| ->]; cbn [t_step] in E.
      * rewrite RU in E. injection E as <-. cbn [f_threads at_pc] in NI. rewrite (set_nth_same _ _ _ _ TH) in NI. injection NI as <-. auto.
      * injection E as <-. rewrite TH in NI. injection NI as <-. auto.
    + destruct (match q with OpnGo => true | _ => false end && Nat.eqb i (length (f_threads s))) eqn:Q; [discriminate|eapply RF; eauto].
Qed.

Theorem closed_later : forall ls1 s1 ls2 s2, one_opener (ls1 ++ ls2) -> f_run face_new ls1 = Ok s1 -> no_open s1 -> shut s1 -> opens ls2 = O -> f_run s1 ls2 = Ok s2 ->
  f_running s2 = false /\
  (forall i, receiving s2 i -> receiving s1 i /\ (steps_of i ls2 < 5)%nat) /\
  (forall i pkt r, (length (f_threads s1) <= i)%nat -> sends s2 i pkt -> returned s2 i r -> r = Some FNotRunning) /\
  (forall c, stream s2 c = stream s1 c).
Proof.
  intros ls1 s1 ls2 s2 OO R1 NO SU OP R2.
  assert (G : shut s2 /\ no_open s2 /\ (length (f_threads s1) <= length (f_threads s2))%nat /\ refuses (length (f_threads s1)) s2 /\ (forall c, stream s2 c = stream s1 c) /\
    (forall i, runs s2 i -> runs s1 i) /\ (forall i, (i < length (f_threads s1))%nat -> (rank_of s2 i <= rank_of s1 i - steps_of i ls2)%nat)).
  { revert s2 OO OP R2. induction ls2 as [|l ls IH] using rev_ind; intros s2 OO OP R2.
    - injection R2 as <-. split; auto. split; auto. split; auto. split; [intros i pkt p LE T; unfold doing in T; assert (i < length (f_threads s1))%nat by (apply nth_error_Some; congruence); lia|]. split; auto. split; auto. intros i LT. cbn [steps_of]. lia.
    - apply run_snoc in R2. destruct R2 as (s & R2 & R3). rewrite app_assoc in OO. pose proof (one_opener_prefix _ _ OO) as OO2.
      assert (OP1 : opens ls = O /\ opens [l] = O) by (rewrite opens_app in OP; lia). destruct OP1 as [OP1 OP2].
      destruct (IH s OO2 OP1 R2) as (A & B & C & D & F & G & H). assert (RR : f_run face_new (ls1 ++ ls) = Ok s) by (rewrite f_run_app, R1; exact R2).
      pose proof (shapes_run _ _ RR) as SH. pose proof (life_run _ _ OO2 RR) as LF. pose proof (threads_len _ _ _ R3) as TL.
      split; [eapply shut_step; eauto|]. split; [eapply no_open_step; eauto|]. split; [lia|]. split; [eapply refuses_step; eauto|].
      split; [intros c; rewrite (closed_stream _ _ _ c A R3); auto|]. split; [intros i Q; apply G; eapply runs_step; eauto|].
      intros i LT. pose proof (H i LT). assert (Q : (rank_of s2 i <= rank_of s i - steps_of i [l])%nat) by (eapply rank_step; eauto; lia). rewrite steps_app. lia. }
  destruct G as (A & B & C & D & F & G & H). split; [apply A|]. assert (R : f_run face_new (ls1 ++ ls2) = Ok s2) by (rewrite f_run_app, R1; exact R2). pose proof (shapes_run _ _ R) as SH.
  split; [|split; [|exact F]].
  - intros i I. pose proof (rank_live _ _ SH I) as RL. destruct I as (p & T & NR). assert (RN : runs s1 i) by (apply G; exists p; exact T). destruct RN as (p1 & T1).
    assert (LT : (i < length (f_threads s1))%nat) by (apply nth_error_Some; congruence). pose proof (H i LT). pose proof (rank_le s1 i). split; [apply runs_receiving; lia|lia].
  - intros i pkt r LE (p & T) (c & T2). unfold doing in T, T2. rewrite T in T2. injection T2 as <- ->. destruct (D i pkt _ LE T) as [Q|Q]; congruence.
Qed.

Lemma set_nth_last : forall {A} (l : list A) x y, set_nth (l ++ [x]) (length l) y = l ++ [y].
Proof. induction l as [|a l IH]; intros x y; [reflexivity|]. cbn [app length set_nth]. rewrite IH. reflexivity. Qed.

Ltac own_step NX SX :=
  cbn [f_run f_step f_threads]; rewrite ?NX; cbn [th_call th_pc start_pc t_step f_callbacks f_conn]; unfold with_thread, at_pc, with_conn, with_conns, with_running;
  cbn [f_callbacks f_conn f_running f_lock f_conns f_threads bind]; rewrite ?SX; cbn [bind].

(** *** opening, with nothing in between *)
Theorem open_fresh : forall ls s, one_opener ls -> f_run face_new ls = Ok s -> f_callbacks s = true -> (forall i, ~ receiving s i) -> ~ opening s ->
  exists s', f_run s (LCall COpen :: repeat (LStep (length (f_threads s)) Works) 6) = Ok s' /\ returned s' (length (f_threads s)) None /\ f_running s' = true /\
    f_conn s' = Some (length (f_conns s)) /\ f_conns s' = f_conns s ++ [mkConn [] false false] /\ receiving s' (S (length (f_threads s))).
Proof.
  intros ls s OO R CB NR NO. destruct (one_run _ _ OO R) as (_ & _ & _ & O4).
  assert (FC : f_conn s = None). { destruct (f_conn s) eqn:Q; auto. destruct O4 as (i & [I|I]); [discriminate|exfalso; eapply NR; eauto|]. exfalso. apply NO. exists i. auto. }
  destruct s as [cb cn ru lk cs th]. cbn [f_callbacks f_conn f_threads f_conns] in *. subst cb cn. cbn [repeat].
  assert (NX : forall x : thread, nth_error (th ++ [x]) (length th) = Some x) by (intros; rewrite nth_app_last, Nat.eqb_refl; auto).
  assert (SX : forall x y : thread, set_nth (th ++ [x]) (length th) y = th ++ [y]) by (intros; apply set_nth_last).
  exists (mkFace true (Some (length cs)) true lk (cs ++ [mkConn [] false false]) ((th ++ [mkTh (Some COpen) (Ret None)]) ++ [mkTh None RunStart])). split.
  { do 7 own_step NX SX. reflexivity. }
  split; [exists (Some COpen); unfold doing; cbn [f_threads with_thread at_pc]; rewrite nth_error_app1 by (rewrite app_length; cbn; lia); apply NX|].
  split; auto. split; auto. split; auto. exists RunStart. split; [|discriminate]. unfold doing. cbn [f_threads with_thread at_pc]. rewrite nth_app_last, app_length. cbn [length]. rewrite Nat.add_1_r, Nat.eqb_refl. auto.
Qed.

Theorem open_again : forall ls s i k, one_opener ls -> f_run face_new ls = Ok s -> f_callbacks s = true -> receiving s i -> (2 <= k)%nat ->
  f_run s (LCall COpen :: repeat (LStep (length (f_threads s)) Works) k) = Ok (with_thread s (mkTh (Some COpen) (Ret (Some FAlready)))).
Proof.
  intros ls s i k OO R CB I LE. destruct (one_run _ _ OO R) as (_ & _ & O3 & _). assert (FC : f_conn s <> None) by (apply O3; eauto).
  destruct s as [cb cn ru lk cs th]. cbn [f_callbacks f_conn f_threads f_conns] in *. subst cb. destruct cn as [c|]; [|congruence].
  assert (NX : forall x : thread, nth_error (th ++ [x]) (length th) = Some x) by (intros; rewrite nth_app_last, Nat.eqb_refl; auto).
  assert (SX : forall x y : thread, set_nth (th ++ [x]) (length th) y = th ++ [y]) by (intros; apply set_nth_last).
  destruct k as [|[|k]]; [lia|lia|]. cbn [repeat].
  do 3 own_step NX SX.
  clear LE. induction k as [|k IH]; [reflexivity|]. cbn [repeat f_run f_step f_threads]. rewrite NX. cbn [th_call th_pc t_step bind]. exact IH.
Qed.

(** *** deciding [one_opener] *)
Definition in_open (th : thread) : bool := match th with mkTh (Some COpen) (Ret _) => false | mkTh (Some COpen) _ => true | _ => false end.
Definition few_open (s : face) : bool := (length (filter in_open (f_threads s)) <=? 1)%nat.
Fixpoint alone (s : face) (ls : list label) : bool :=
  few_open s && match ls with [] => true | l :: ls' => match f_step s l with Ok s' => alone s' ls' | _ => true end end.

Lemma filter_two : forall (l : list thread) i j x y, nth_error l i = Some x -> nth_error l j = Some y -> in_open x = true -> in_open y = true -> (i < j)%nat -> (2 <= length (filter in_open l))%nat.
Proof.
  assert (ONE : forall (l : list thread) i x, nth_error l i = Some x -> in_open x = true -> (1 <= length (filter in_open l))%nat).
  { induction l as [|a l IH]; intros [|i] x T W; try discriminate; cbn in T; cbn [filter].
    - injection T as ->. rewrite W. cbn [length]. lia.
    - pose proof (IH i x T W). destruct (in_open a); cbn [length]; lia. }
  induction l as [|a l IH]; intros [|i] [|j] x y T1 T2 W1 W2 L; try discriminate; try lia; cbn in T1, T2; cbn [filter].
  - injection T1 as ->. rewrite W1. pose proof (ONE l j y T2 W2). cbn [length]. lia.
  - assert (2 <= length (filter in_open l))%nat by (apply (IH i j x y); auto; lia). destruct (in_open a); cbn [length]; lia.
Qed.
Lemma few_alone : forall s i j, few_open s = true -> busy s i (Some COpen) -> busy s j (Some COpen) -> i = j.
Proof.
  intros s i j F (p & T1 & N1) (q & T2 & N2). apply Nat.leb_le in F.
  assert (A : forall p, (forall r, p <> Ret r) -> in_open (mkTh (Some COpen) p) = true) by (intros p0 H; destruct p0; auto; exfalso; eapply H; eauto).
  destruct (Nat.lt_trichotomy i j) as [L|[L|L]]; auto; exfalso.
  - pose proof (filter_two _ _ _ _ _ T1 T2 (A p N1) (A q N2) L). lia.
  - pose proof (filter_two _ _ _ _ _ T2 T1 (A q N2) (A p N1) L). lia.
Qed.
Lemma one_opener_dec : forall ls, alone face_new ls = true -> one_opener ls.
Proof.
  assert (G : forall a b s s', alone s (a ++ b) = true -> f_run s a = Ok s' -> few_open s' = true).
  { induction a as [|l a IH]; intros b s s' H R.
    - injection R as <-. destruct b; cbn [app alone] in H; apply Bool.andb_true_iff in H; apply H.
    - cbn [app alone f_run] in *. apply Bool.andb_true_iff in H. destruct H as [_ H]. destruct (f_step s l) as [s1| | |]; cbn [bind] in R; try discriminate. eapply IH; eauto. }
  intros ls H ls1 ls2 s i j -> R. apply few_alone. eapply G; eauto.
Qed.

(** *** connections that stay open *)
Lemma alone_app : forall a b s s', alone s a = true -> f_run s a = Ok s' -> alone s' b = true -> alone s (a ++ b) = true.
Proof.
  induction a as [|l a IH]; intros b s s' A R B; [injection R as <-; auto|]. cbn [app alone f_run] in *. apply Bool.andb_true_iff in A. destruct A as [A1 A2]. rewrite A1.
  destruct (f_step s l) as [s1| | |]; cbn [bind] in R; try discriminate. eapply IH; eauto.
Qed.

Definition cycle (t : nat) : list label := LCall COpen :: repeat (LStep t Works) 6 ++ repeat (LStep (S t) Works) 2 ++ LStep (S t) (Fails 0) :: repeat (LStep (S t) Works) 3.
Lemma cycle_ok : forall lk cs th, filter in_open th = [] ->
  alone (mkFace true None false lk cs th) (cycle (length th)) = true /\
  f_run (mkFace true None false lk cs th) (cycle (length th)) = Ok (mkFace true None false lk (cs ++ [mkConn [] false false]) (th ++ [mkTh (Some COpen) (Ret None); mkTh None (Ret None)])).
Proof.
  intros lk cs th F.
  assert (NX : forall x : thread, nth_error (th ++ [x]) (length th) = Some x) by (intros; rewrite nth_app_last, Nat.eqb_refl; auto).
  assert (SX : forall x y : thread, set_nth (th ++ [x]) (length th) y = th ++ [y]) by (intros; apply set_nth_last).
  assert (NX2 : forall x y : thread, nth_error (th ++ [x; y]) (S (length th)) = Some y) by (intros; rewrite nth_error_app2 by lia; replace (S (length th) - length th)%nat with 1%nat by lia; auto).
  assert (SX2 : forall x y z : thread, set_nth (th ++ [x; y]) (S (length th)) z = th ++ [x; z]).
  { intros x y z. clear F NX SX NX2. induction th as [|a l IH]; [reflexivity|]. cbn [app length set_nth]. rewrite IH. reflexivity. }
  assert (AS : forall x y : thread, (th ++ [x]) ++ [y] = th ++ [x; y]) by (intros; rewrite <- app_assoc; auto).
  assert (FX : forall x, filter in_open (th ++ [x]) = filter in_open [x]) by (intros; rewrite filter_app, F; auto).
  assert (FX2 : forall x y, filter in_open (th ++ [x; y]) = filter in_open [x; y]) by (intros; rewrite filter_app, F; auto).
  assert (CL : is_closed (cs ++ [mkConn [] false false]) (length cs) = false) by (unfold is_closed; rewrite nth_app_last, Nat.eqb_refl; auto).
  unfold cycle. cbn [repeat app]. split.
  - do 13 (cbn [alone]; unfold few_open at 1; cbn [f_threads]; rewrite ?FX, ?FX2, ?F; cbn [filter in_open length Nat.leb andb f_step f_threads]; rewrite ?NX, ?NX2; cbn [th_call th_pc start_pc t_step f_callbacks f_conn f_running f_conns];
      rewrite ?CL; unfold with_thread, at_pc, with_conn, with_conns, with_running; cbn [f_callbacks f_conn f_running f_lock f_conns f_threads]; rewrite ?SX, ?SX2, ?AS).
    cbn [alone]. unfold few_open. cbn [f_threads]. rewrite FX2. reflexivity.
  - do 13 (cbn [f_run f_step f_threads]; rewrite ?NX, ?NX2; cbn [th_call th_pc start_pc t_step f_callbacks f_conn f_running f_conns];
      rewrite ?CL; unfold with_thread, at_pc, with_conn, with_conns, with_running; cbn [f_callbacks f_conn f_running f_lock f_conns f_threads bind]; rewrite ?SX, ?SX2, ?AS; cbn [bind]).
    reflexivity.
Qed.

Theorem conn_leak : forall n, exists ls s, one_opener ls /\ f_run face_new ls = Ok s /\ f_running s = false /\ (forall i, ~ receiving s i) /\
  map c_closed (f_conns s) = repeat false n /\
  exists s', f_run s (LCall CClose :: repeat (LStep (length (f_threads s)) Works) 1) = Ok s' /\ returned s' (length (f_threads s)) (Some FNotRunning) /\ f_conns s' = f_conns s.
Proof.
  assert (G : forall n, exists ls lk cs th, alone face_new ls = true /\ f_run face_new ls = Ok (mkFace true None false lk cs th) /\ filter in_open th = [] /\ (forall t, In t th -> exists e, th_pc t = Ret e) /\ map c_closed cs = repeat false n).
  { induction n as [|n (ls & lk & cs & th & A & R & F & I & C)].
    - exists [LSet]. eexists. eexists. eexists. split; [reflexivity|]. split; [reflexivity|]. split; [reflexivity|]. split; [intros t []|reflexivity].
    - destruct (cycle_ok lk cs th F) as [A2 R2]. exists (ls ++ cycle (length th)). eexists. eexists. eexists. split; [eapply alone_app; eauto|]. split; [rewrite f_run_app, R; exact R2|].
      split; [rewrite filter_app, F; auto|]. split; [|rewrite map_app, C; cbn; rewrite <- repeat_cons; auto].
      intros t IN. apply in_app_iff in IN. destruct IN as [IN|[<-|[<-|[]]]]; eauto; eexists; reflexivity. }
  intros n. destruct (G n) as (ls & lk & cs & th & A & R & F & I & C). exists ls. eexists. split; [apply one_opener_dec; auto|]. split; [exact R|]. split; [reflexivity|].
  split; [intros i (p & D & NR); unfold doing in D; apply nth_error_In in D; destruct (I _ D) as (e & Q); cbn in Q; eapply NR; eauto|]. split; [exact C|].
  assert (NX : forall x : thread, nth_error (th ++ [x]) (length th) = Some x) by (intros; rewrite nth_app_last, Nat.eqb_refl; auto).
  assert (SX : forall x y : thread, set_nth (th ++ [x]) (length th) y = th ++ [y]) by (intros; apply set_nth_last).
  exists (mkFace true None false lk cs (th ++ [mkTh (Some CClose) (Ret (Some FNotRunning))])). cbn [f_threads f_conns repeat]. split; [do 2 own_step NX SX; reflexivity|]. split; [|reflexivity].
  exists (Some CClose). unfold doing. cbn [f_threads]. apply NX.
Qed.
