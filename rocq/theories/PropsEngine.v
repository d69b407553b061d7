(** Expressed Interests and their callbacks: pkg/engine/basic/default_engine.go. *)
From Verif Require Import Base NameModel TextModel TrieModel TrieSpec EngineModel EngineSpec EngineProofs EngineProofs2 EngineProofs3.
Open Scope N_scope.

Definition nm_a : name := [mkComp 8 [97]].
Definition nm_ab : name := [mkComp 8 [97]; mkComp 8 [98]].
Definition nm_c : name := [mkComp 8 [99]].
Definition ms (n : N) : Z := (Z.of_N n * 1000000)%Z.

(** C25: whatever happens (including Nacks and timers that fire while other events
    are handled), no event crashes the engine, and every accepted Interest has been
    called back or its timer has still to run. *)
Theorem C25_callback_or_timer : forall os, exists g, e_run eng_new os = Ok g /\
  forall i, (i < length (expressed 0 os))%nat -> In i (called g) \/ timer_pending g i.
Proof. intros os. destruct (reach os) as (g & R & _). exists g. split; auto. intros i Hi. eapply called_or_pending; eauto. Qed.
Print Assumptions C25_callback_or_timer.

(** once lifetime and margin (10 ms) are over, running the timer, if that is still
    to happen, leaves the Interest called back *)
Theorem C25_called_when_due : forall os i x, nth_error (expressed 0 os) i = Some x -> (x_deadline x + 10000000 <= elapsed os)%Z ->
  exists g, e_run eng_new (os ++ [EFire i; ERun i]) = Ok g /\ In i (called g).
Proof. exact due_called. Qed.
Print Assumptions C25_called_when_due.

(** every callback has its cause: a matching Data, a Nack for that name, or the end
    of the Interest's lifetime *)
Theorem C25_cause : forall os g i r, e_run eng_new os = Ok g -> In (i, r) (callbacks g) ->
  exists os1 o os2 x, os = os1 ++ o :: os2 /\ nth_error (expressed 0 os1) i = Some x /\ justified x (elapsed os1) o r.
Proof. exact cause. Qed.
Print Assumptions C25_cause.

(** at most once, if no Nack for the Interest's own name arrives; missing: Interests with such
    a Nack, for which it is false, see below *)
Theorem C25_at_most_once_partial : forall os g i, e_run eng_new os = Ok g -> ~ nacked os i ->
  results_of g i = [] \/ exists r, results_of g i = [r].
Proof. exact interest_once. Qed.
Print Assumptions C25_at_most_once_partial.

(** with Nacks, in every history: an Interest has no result, or one, or a Nack and then a timeout ... *)
Theorem C25_results : forall os g i x b, e_run eng_new os = Ok g -> nth_error (expressed 0 os) i = Some x -> bare (x_name x) b -> b <> [] ->
  results_of g i = [] \/ (exists r, results_of g i = [r]) \/ (exists reason, results_of g i = [RNack reason; RTimeout]).
Proof. exact interest_results. Qed.
Print Assumptions C25_results.

(** ... and an Interest for a digest alone (filed under the empty name): Nacks, and then at most
    one other result *)
Theorem C25_results_any : forall os g i, e_run eng_new os = Ok g ->
  exists nacks rest, results_of g i = nacks ++ rest /\ Forall (fun r => exists n, r = RNack n) nacks /\ (length rest <= 1)%nat.
Proof. exact root_results. Qed.
Print Assumptions C25_results_any.

(** without any Nack no Interest is called twice *)
Theorem C25_no_nack : forall os g, no_nack os -> e_run eng_new os = Ok g ->
  NoDup (called g) /\ (forall i, In i (called g) -> (i < length (expressed 0 os))%nat).
Proof. exact once. Qed.
Print Assumptions C25_no_nack.

(** Whether the face could send changes only what Express returns: the histories above cover both. *)
Theorem C25_send : forall os g nm cbp life sent g' ok, e_run eng_new os = Ok g -> e_express_call g nm cbp life sent = Ok (g', ok) ->
  e_run eng_new (os ++ [EExpress nm cbp life]) = Ok g' /\ (ok = true <-> nm <> [] /\ sent = true).
Proof.
  intros os g nm cbp life sent g' ok R. unfold e_express_call. destruct (e_express g nm cbp life) as [r| | |] eqn:E; try discriminate. cbn [bind]. intros H. injection H as H.
  split.
  - rewrite e_run_app, R. cbn [bind e_run e_step]. rewrite E. cbn [bind]. destruct r; injection H as <- _; reflexivity.
  - unfold e_express, split_digest in E. destruct (rev nm) as [|c l] eqn:Er.
    + injection E as <-. injection H as _ <-. apply (f_equal (@rev _)) in Er. rewrite rev_involutive in Er. cbn in Er. split; [discriminate|]. intros [K _]. contradiction.
    + assert (nm <> []) by (intros ->; discriminate).
      assert (exists g1, r = Some g1) as (g1 & ->).
      { destruct (if (ctyp c =? TypeImplicitSha256Digest)%N then _ else _) as [[? ?]|] eqn:K; [|destruct (ctyp c =? TypeImplicitSha256Digest)%N; discriminate].
        destruct (t_always _ _ _) as [hn| | |]; try discriminate. cbn [bind] in E. destruct (value _ _) as [?| | |]; try discriminate. cbn [bind] in E.
        destruct (set_value _ _ _) as [?| | |]; try discriminate. cbn [bind] in E. injection E as <-. eexists. reflexivity. }
      injection H as _ <-. split; [intros ->; split; [assumption|reflexivity]|intros [_ K]; exact K].
Qed.
Print Assumptions C25_send.
Example C25_send_ex : exists g, e_express_call eng_new nm_a false None false = Ok (g, false) /\ timer_pending g 0.
Proof. eexists. split; [vm_compute; reflexivity|]. vm_compute. left. reflexivity. Qed.
(** So an Interest that could not be sent is called back nevertheless, although Express returned an error. *)
Theorem C25_unsent_refuted : exists g1 g2, e_express_call eng_new nm_a false (Some 1000%Z) false = Ok (g1, false) /\
  e_run g1 [ETick 10001000; EFire 0; ERun 0] = Ok g2 /\ callbacks g2 = [(0%nat, RTimeout)].
Proof. eexists. eexists. split; [vm_compute; reflexivity|]. split; [vm_compute; reflexivity|reflexivity]. Qed.
Print Assumptions C25_unsent_refuted.

(** A (100 ms), B (105 ms) and C (112 ms) are expressed for one name.  A's timer
    (110 ms) also times out B but leaves B's timer armed; a Nack at 111 ms calls C;
    B's timer at 115 ms finds C still in the node and calls it again. *)
Definition double_history : list eop :=
  [EExpress nm_a false (Some (ms 100)); EExpress nm_a false (Some (ms 105)); EExpress nm_a false (Some (ms 112));
   ETick 110000000; EFire 0; ERun 0;
   ETick 1000000; ENack nm_a 150;
   ETick 4000000; EFire 1; ERun 1].

Theorem C25_at_most_once_refuted : exists os g, e_run eng_new os = Ok g /\ ~ NoDup (called g).
Proof.
  exists double_history. destruct (e_run eng_new double_history) as [g| | |] eqn:E; try (vm_compute in E; discriminate).
  exists g. split; auto. assert (C : called g = [0; 1; 2; 2]%nat) by (vm_compute in E; inversion E; reflexivity).
  rewrite C. intros N. inversion N as [|? ? _ N1]. inversion N1 as [|? ? _ N2]. inversion N2 as [|? ? N3 _]. apply N3. left; auto.
Qed.
Print Assumptions C25_at_most_once_refuted.

(** in that history Interest 2 has a Nack and a timeout, the others one result *)
Example double_results : exists g, e_run eng_new double_history = Ok g /\ results_of g 0 = [RTimeout] /\ results_of g 1 = [RTimeout] /\
  results_of g 2 = [RNack 150; RTimeout].
Proof. eexists. split; [vm_compute; reflexivity|]. split; [reflexivity|]. split; reflexivity. Qed.

(** a digest alone: three Nacks and a timeout *)
Example digest_results : exists g, e_run eng_new [EExpress [mkComp 1 (repeat 7 32)] false (Some (ms 1)); ETick 11000000; EFire 0; ENack [] 50; ENack [] 50; ENack [] 100; ERun 0] = Ok g /\
  results_of g 0 = [RNack 50; RNack 50; RNack 100; RTimeout].
Proof. eexists. split; [vm_compute; reflexivity|reflexivity]. Qed.

(** a Nack for /c leaves an Interest for /a/b alone *)
Example other_nack : exists g, e_run eng_new [EExpress nm_ab false None; EExpress nm_c false None; ENack nm_c 100; EData nm_ab []] = Ok g /\
  results_of g 0 = [RData] /\ ~ nacked [EExpress nm_ab false None; EExpress nm_c false None; ENack nm_c 100; EData nm_ab []] 0.
Proof.
  eexists. split; [vm_compute; reflexivity|]. split; [reflexivity|]. intros (x & b & nm & r & X & B & IN & K). cbn in X. injection X as <-. cbn [x_name] in B.
  destruct (bare_split _ _ B) as (sha & S). vm_compute in S. injection S as <- _.
  cbn in IN. repeat (destruct IN as [IN|IN]; [try discriminate|]); [|contradiction]. injection IN as <- <-. vm_compute in K. discriminate.
Qed.

(** C26: a Data calls back only Interests it matches, and all that match and are
    filed in the pending tree; the timers of the others still run. *)
Theorem C26_data_partial : forall os g nm digest, e_run eng_new os = Ok g -> exists g' new, e_data g nm digest = Ok g' /\
  callbacks g' = callbacks g ++ map (fun i => (i, RData)) new /\
  (forall i, In i new -> exists x, nth_error (expressed 0 os) i = Some x /\ matches (x_cbp x) nm digest (x_name x)) /\
  (forall i x p, nth_error (expressed 0 os) i = Some x -> filed g i p -> matches (x_cbp x) nm digest (x_name x) -> In i new) /\
  (forall i, timer_pending g i -> ~ In i new -> timer_pending g' i).
Proof. exact data_step. Qed.
Print Assumptions C26_data_partial.

(** an accepted Interest is filed at once, and that leaves the others filed *)
Theorem C26_express_files : forall os g nm cbp life g' b, e_run eng_new os = Ok g -> bare nm b -> e_step g (EExpress nm cbp life) = Ok g' ->
  filed g' (length (expressed 0 os)) (keys b) /\ (forall i p, filed g i p -> filed g' i p).
Proof. exact express_filed. Qed.
Print Assumptions C26_express_files.

(** a Data that does not match an Interest leaves it filed if the Interest's path is
    on the Data's own path, or the Data reaches another filed path that does not lead
    to the Interest *)
Theorem C26_data_keeps_partial : forall os g nm digest g' i p x, e_run eng_new os = Ok g -> e_data g nm digest = Ok g' ->
  filed g i p -> nth_error (expressed 0 os) i = Some x -> ~ matches (x_cbp x) nm digest (x_name x) ->
  prefix p (keys nm) \/ (exists j r, filed g j r /\ prefix r (keys nm) /\ ~ prefix r p) ->
  filed g' i p.
Proof. exact data_filed. Qed.
Print Assumptions C26_data_keeps_partial.

(** without that it is false: an unrelated Data drops a pending Interest, which is
    then not satisfied by its own Data ... *)
Theorem C26_unsolicited_data_refuted : exists os g x, e_run eng_new os = Ok g /\ nth_error (expressed 0 os) 0 = Some x /\
  ~ In 0%nat (called g) /\ os = [EExpress nm_ab false None; EData nm_c []; EData nm_ab []] /\
  matches (x_cbp x) nm_ab [] (x_name x).
Proof.
  exists [EExpress nm_ab false None; EData nm_c []; EData nm_ab []].
  destruct (e_run eng_new _) as [g| | |] eqn:E; try (vm_compute in E; discriminate).
  exists g, (mkX nm_ab false 4000000000). split; auto. split; [reflexivity|].
  assert (C : called g = []) by (vm_compute in E; inversion E; reflexivity). rewrite C. split; [auto|]. split; auto.
  apply (MPlain false nm_ab [] [mkComp 8 [97]] (mkComp 8 [98])); [discriminate|]. left. reflexivity.
Qed.
Print Assumptions C26_unsolicited_data_refuted.

(** ... and so does the Data that satisfies an Interest for a shorter name *)
Theorem C26_shorter_data_refuted : exists os g x, e_run eng_new os = Ok g /\ nth_error (expressed 0 os) 1 = Some x /\
  os = [EExpress nm_a false None; EExpress nm_ab false None; EData nm_a []; EData nm_ab []] /\
  called g = [0%nat] /\ matches (x_cbp x) nm_ab [] (x_name x).
Proof.
  exists [EExpress nm_a false None; EExpress nm_ab false None; EData nm_a []; EData nm_ab []].
  destruct (e_run eng_new _) as [g| | |] eqn:E; try (vm_compute in E; discriminate).
  exists g, (mkX nm_ab false 4000000000). split; auto. split; [reflexivity|]. split; auto.
  split; [vm_compute in E; inversion E; reflexivity|].
  apply (MPlain false nm_ab [] [mkComp 8 [97]] (mkComp 8 [98])); [discriminate|]. left. reflexivity.
Qed.
Print Assumptions C26_shorter_data_refuted.

(** ... and a Nack for a shorter name: it removes that node with all that is below it *)
Theorem C26_shorter_nack_refuted : exists os g x, e_run eng_new os = Ok g /\ nth_error (expressed 0 os) 1 = Some x /\
  os = [EExpress nm_a false None; EExpress nm_ab false None; ENack nm_a 100; EData nm_ab []] /\
  called g = [0%nat] /\ matches (x_cbp x) nm_ab [] (x_name x).
Proof.
  exists [EExpress nm_a false None; EExpress nm_ab false None; ENack nm_a 100; EData nm_ab []].
  destruct (e_run eng_new _) as [g| | |] eqn:E; try (vm_compute in E; discriminate).
  exists g, (mkX nm_ab false 4000000000). split; auto. split; [reflexivity|]. split; auto.
  split; [vm_compute in E; inversion E; reflexivity|].
  apply (MPlain false nm_ab [] [mkComp 8 [97]] (mkComp 8 [98])); [discriminate|]. left. reflexivity.
Qed.
Print Assumptions C26_shorter_nack_refuted.

(** ... and a Nack for a longer name: it removes every ancestor that has no other child *)
Theorem C26_longer_nack_refuted : exists os g x, e_run eng_new os = Ok g /\ nth_error (expressed 0 os) 0 = Some x /\
  os = [EExpress nm_a false None; EExpress nm_ab false None; ENack nm_ab 100; EData nm_a []] /\
  called g = [1%nat] /\ matches (x_cbp x) nm_a [] (x_name x).
Proof.
  exists [EExpress nm_a false None; EExpress nm_ab false None; ENack nm_ab 100; EData nm_a []].
  destruct (e_run eng_new _) as [g| | |] eqn:E; try (vm_compute in E; discriminate).
  exists g, (mkX nm_a false 4000000000). split; auto. split; [reflexivity|]. split; auto.
  split; [vm_compute in E; inversion E; reflexivity|].
  apply (MPlain false nm_a [] [] (mkComp 8 [97])); [discriminate|]. left. reflexivity.
Qed.
Print Assumptions C26_longer_nack_refuted.

(** ** cases *)
Definition mixed_history : list eop :=
  [EExpress nm_ab false (Some (ms 50)); EExpress nm_a true None; EExpress [mkComp 8 [97]; mkComp 1 [1; 2]] true None;
   EData nm_ab [1; 3]; ETick 60000000; EExpress nm_c false (Some (ms 5)); ETick 15000000; EFire 3; ERun 3].

Example mixed_ok : exists g, e_run eng_new mixed_history = Ok g /\
  callbacks g = [(0%nat, RData); (1%nat, RData); (3%nat, RTimeout)] /\ timer_pending g 2 /\ no_nack mixed_history.
Proof.
  destruct (e_run eng_new mixed_history) as [g| | |] eqn:E; try (vm_compute in E; discriminate).
  exists g. split; auto. split; [vm_compute in E; inversion E; reflexivity|]. split.
  - vm_compute in E. inversion E. unfold timer_pending. simpl. auto.
  - intros nm r H. repeat (destruct H as [H|H]; [discriminate|]). destruct H.
Qed.

Example due_ok : let os := [EExpress nm_a false (Some (ms 100)); ETick 110000000] in
  nth_error (expressed 0 os) 0 = Some (mkX nm_a false (ms 100)) /\ (ms 100 + 10000000 <= elapsed os)%Z.
Proof. vm_compute. split; [reflexivity|discriminate]. Qed.

(** the hypotheses of C26_data_keeps_partial: /a/b and /c pending, Data /c *)
Example keeps_ok : exists g, e_run eng_new [EExpress nm_ab false None; EExpress nm_c false None] = Ok g /\
  filed g 0 (keys nm_ab) /\ filed g 1 (keys nm_c) /\ prefix (keys nm_c) (keys nm_c) /\ ~ prefix (keys nm_c) (keys nm_ab).
Proof.
  destruct (e_run eng_new [EExpress nm_ab false None; EExpress nm_c false None]) as [g| | |] eqn:E; try (vm_compute in E; discriminate).
  exists g. vm_compute in E. inversion E. split; auto. split; [|split; [|split]].
  - exists 2%nat, [mkPend 0 4000000000 false None], (mkPend 0 4000000000 false None). vm_compute. auto.
  - exists 3%nat, [mkPend 1 4000000000 false None], (mkPend 1 4000000000 false None). vm_compute. auto.
  - exists []. reflexivity.
  - intros (s & H). vm_compute in H. discriminate.
Qed.
