(** C79: calls do not wait for each other for ever, if user code obeys the rules of LockSpec. *)
From Verif Require Import Base LockModel LockSpec LockProofs.

Definition obeys (gs : list (list call)) : Prop := forall l, In l gs -> forallb (rules Alone) l = true.

(** In every state that goroutines obeying the rules come to, in any order of their steps, each of
    them is at its end, or one of them can go on, or the channel of missing data can be read. *)
Theorem C79_progress : forall cap gs sched s,
  (0 < cap)%nat -> obeys gs -> lrun cap (starting gs) sched = Some s ->
  all_done s \/ goes_on cap s.
Proof.
  intros cap gs sched s C O R. apply progress; [exact C|].
  apply (run_all cap sched _ _ (starting_fine gs O) (starting_exclusive gs) R).
Qed.
Print Assumptions C79_progress.

(** There is an end to it: how many steps there are is bounded, for any programs whatever. *)
Theorem C79_ends : forall cap gs sched s, lrun cap (starting gs) sched = Some s ->
  (List.length sched <= total (starting gs))%nat.
Proof.
  intros cap gs sched s. generalize (starting gs) as s0. clear gs.
  induction sched as [|e r IH]; intros s0 R; cbn [lrun List.length] in *; [lia|].
  destruct (lstep cap s0 e) as [s1|] eqn:E; [|discriminate].
  pose proof (total_step cap s0 e s1 E). specialize (IH s1 R). lia.
Qed.
Print Assumptions C79_ends.

(** So whatever has happened, all calls come to their ends from there. *)
Theorem C79_finishes : forall cap gs sched s,
  (0 < cap)%nat -> obeys gs -> lrun cap (starting gs) sched = Some s ->
  exists sched' s', lrun cap s sched' = Some s' /\ all_done s'.
Proof.
  intros cap gs sched s C O R.
  assert (F : fine s) by apply (run_all cap sched _ _ (starting_fine gs O) (starting_exclusive gs) R).
  clear R. remember (total s) as n eqn:N. revert s N F.
  induction n as [n IH] using lt_wf_ind; intros s N F.
  destruct (progress cap s C F) as [D|[e [s1 E]]]; [exists [], s; split; [reflexivity|exact D]|].
  pose proof (total_step cap s e s1 E) as T.
  destruct (IH (total s1) ltac:(lia) s1 eq_refl (fine_step cap s e s1 F E)) as [sched' [s' [R D]]].
  exists (e :: sched'), s'. split; [cbn [lrun]; rewrite E; exact R|exact D].
Qed.
Print Assumptions C79_finishes.

(** At no time does somebody hold a lock that somebody else holds for writing; that is true of
    programs that break the rules too. *)
Theorem C79_exclusive : forall cap gs sched s i j gi gj l w,
  lrun cap (starting gs) sched = Some s ->
  nth_error (l_gs s) i = Some gi -> nth_error (l_gs s) j = Some gj ->
  In (l, true) (g_held gi) -> In (l, w) (g_held gj) -> i = j.
Proof.
  intros cap gs sched s i j gi gj l w R.
  assert (X : exclusive s).
  { generalize (starting_exclusive gs) R. generalize (starting gs) as s0. clear gs R.
    induction sched as [|e r IH]; intros s0 X R; cbn [lrun] in R; [injection R as <-; exact X|].
    destruct (lstep cap s0 e) as [s1|] eqn:E; [|discriminate].
    apply (IH s1 (exclusive_step cap s0 e s1 X E) R). }
  apply X.
Qed.
Print Assumptions C79_exclusive.

(** A program: an Interest for a tree whose handler replies, another whose handler expresses and makes new data
    of a sync node, Data for three Interests of which one callback starts a goroutine that expresses,
    a sync Interest with two news, a detach, an attach of another tree that registers a route and
    fetches a key whose validator fetches another one, an SvSync on another engine that is told of
    updates and fetches the data. *)
Definition lock_ex : list (list call) :=
  [ [KTreeInterest 0 0 [KSearch 0; KSend 0]; KTreeInterest 0 0 [KExpress 0; KNewData 0 0 0];
     KResult 0 [[KSave 0]; []; [KGo [KExpress 0; KSvIncr 0 0]]]];
    [KTreeDetach 0 0 [KNodeDetach 0 0]; KTreeAttach 1 0 [KNodeAttach 0 0; KCommand 0; KFetch 0 0 [KFetch 1 0 []]]; KExpress 1];
    [KTreeInterest 0 0 [KSyncInt 0 0 2]; KSyncTimer 0 0 0];
    [KSvInterest 0 1 [KFetch 0 1 []; KAttachHandler 1]; KSvIncr 0 1; KSvTick 0 1; KRLock 1 [KSvGet 0]] ].

Example C79_rules_ex : obeys lock_ex.
Proof. intros l [<-|[<-|[<-|[<-|[]]]]]; reflexivity. Qed.

(** the first goroutine is in a handler, the second waits for the tree, so the third waits too *)
Example C79_waits_ex :
  exists s, lrun 1 (starting lock_ex) (map inl [0; 0; 0; 0; 1; 2; 2; 2]%nat) = Some s
    /\ gstep 1 s 1 = None /\ gstep 1 s 2 = None /\ gstep 1 s 0 <> None.
Proof. eexists. split; [vm_compute; reflexivity|]. repeat split; try (vm_compute; reflexivity). vm_compute. discriminate. Qed.

(** the bound *)
Example C79_ends_ex : total (starting lock_ex) = 283%nat.
Proof. vm_compute. reflexivity. Qed.

(** ** Without the rules *)

(** a run that comes to a state where nobody goes on though somebody is not at the end *)
Definition deadlock (cap : nat) (gs : list (list call)) : Prop :=
  exists sched s, lrun cap (starting gs) sched = Some s /\ stuck cap s /\ ~ all_done s.

(** Express in a callback of Express waits for the lock that the engine holds around the callback. *)
Theorem C79_callback_refuted : deadlock 1 [[KResult 0 [[KExpress 0]]]].
Proof.
  exists (map inl (repeat 0%nat 6)). eexists. split; [vm_compute; reflexivity|]. split.
  - intros [|i]; [vm_compute; reflexivity|]. destruct i; reflexivity.
  - intro D. specialize (D _ (or_introl eq_refl)). destruct D as [D _]. discriminate.
Qed.
Print Assumptions C79_callback_refuted.

(** A handler of a tree that detaches the tree waits for itself. *)
Theorem C79_tree_refuted : deadlock 1 [[KTreeInterest 0 0 [KTreeDetach 0 0 []]]].
Proof.
  exists (map inl (repeat 0%nat 5)). eexists. split; [vm_compute; reflexivity|]. split.
  - intros [|i]; [vm_compute; reflexivity|]. destruct i; reflexivity.
  - intro D. specialize (D _ (or_introl eq_refl)). destruct D as [D _]. discriminate.
Qed.
Print Assumptions C79_tree_refuted.

(** RLock in a handler of the tree is harmless until somebody else asks for the tree in between. *)
Theorem C79_rlock_refuted :
  deadlock 1 [[KTreeInterest 0 0 [KRLock 0 []]]; [KPutNode 0]]
  /\ exists s, lrun 1 (starting [[KTreeInterest 0 0 [KRLock 0 []]]]) (map inl (repeat 0%nat 7)) = Some s /\ all_done s.
Proof.
  split.
  - exists (map inl [0; 0; 0; 0; 1]%nat). eexists. split; [vm_compute; reflexivity|]. split.
    + intros [|[|i]]; [vm_compute; reflexivity|vm_compute; reflexivity|]. destruct i; reflexivity.
    + intro D. specialize (D _ (or_introl eq_refl)). destruct D as [D _]. discriminate.
  - eexists. split; [vm_compute; reflexivity|]. intros g [<-|[]]. split; reflexivity.
Qed.
Print Assumptions C79_rlock_refuted.

(** Two trees: a handler of each reads the other one. *)
Theorem C79_two_trees_refuted :
  deadlock 1 [[KTreeInterest 0 0 [KRLock 1 []]]; [KTreeInterest 1 1 [KRLock 0 []]]; [KPutNode 0]; [KPutNode 1]].
Proof.
  exists (map inl [0; 0; 0; 0; 1; 1; 1; 1; 2; 3]%nat). eexists. split; [vm_compute; reflexivity|]. split.
  - intros [|[|[|[|i]]]]; [vm_compute; reflexivity..|]. destruct i; reflexivity.
  - intro D. specialize (D _ (or_introl eq_refl)). destruct D as [D _]. discriminate.
Qed.
Print Assumptions C79_two_trees_refuted.

(** A reader of the missing data that makes new data, while more news arrive than the channel takes:
    the node waits for the reader holding its lock, the reader waits for the lock. *)
Theorem C79_channel_refuted : deadlock 1 [[KSyncInt 0 0 3]; [KTake 0; KNewData 0 0 0; KTake 0; KTake 0]].
Proof.
  exists (map inl [0; 0; 0; 1; 0; 1]%nat). eexists. split; [vm_compute; reflexivity|]. split.
  - intros [|[|i]]; [vm_compute; reflexivity|vm_compute; reflexivity|]. destruct i; reflexivity.
  - intro D. specialize (D _ (or_introl eq_refl)). destruct D as [D _]. discriminate.
Qed.
Print Assumptions C79_channel_refuted.

(** An attach listener fetches something whose validator wants to read the tree. *)
Theorem C79_validator_refuted : deadlock 1 [[KTreeAttach 0 0 [KFetch 0 0 [KRLock 0 []]]]].
Proof.
  exists (map inl (repeat 0%nat 14 ++ repeat 1%nat 6)). eexists. split; [vm_compute; reflexivity|]. split.
  - intros [|[|i]]; [vm_compute; reflexivity|vm_compute; reflexivity|]. destruct i; reflexivity.
  - intro D. specialize (D _ (or_introl eq_refl)). destruct D as [D _]. discriminate.
Qed.
Print Assumptions C79_validator_refuted.

(** The function called for updates asks its SvSync something. *)
Theorem C79_update_refuted : deadlock 1 [[KSvInterest 0 0 [KSvGet 0]]].
Proof.
  exists (map inl [0; 0; 0; 0; 1; 1; 1]%nat). eexists. split; [vm_compute; reflexivity|]. split.
  - intros [|[|i]]; [vm_compute; reflexivity|vm_compute; reflexivity|]. destruct i; reflexivity.
  - intro D. specialize (D _ (or_intror (or_introl eq_refl))). destruct D as [D _]. discriminate.
Qed.
Print Assumptions C79_update_refuted.

(** A callback of Express asks the SvSync something while the function called for updates expresses.
    Either of the two alone comes to its end. *)
Theorem C79_order_refuted :
  deadlock 1 [[KResult 0 [[KSvGet 0]]]; [KSvInterest 0 0 [KExpress 0]]]
  /\ (exists sched s, lrun 1 (starting [[KResult 0 [[KSvGet 0]]]]) sched = Some s /\ all_done s)
  /\ (exists sched s, lrun 1 (starting [[KSvInterest 0 0 [KExpress 0]]]) sched = Some s /\ all_done s).
Proof.
  split; [|split].
  - exists (map inl [0; 0; 0; 0; 0; 1; 1; 1; 1; 2; 2; 2; 0]%nat). eexists. split; [vm_compute; reflexivity|]. split.
    + intros [|[|[|i]]]; [vm_compute; reflexivity..|]. destruct i; reflexivity.
    + intro D. specialize (D _ (or_introl eq_refl)). destruct D as [D _]. discriminate.
  - exists (map inl (repeat 0%nat 9)). eexists. split; [vm_compute; reflexivity|]. intros g [<-|[]]. split; reflexivity.
  - exists (map inl (repeat 0%nat 4 ++ repeat 1%nat 12)). eexists. split; [vm_compute; reflexivity|].
    intros g [<-|[<-|[]]]; split; reflexivity.
Qed.
Print Assumptions C79_order_refuted.
