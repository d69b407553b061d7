(** C82: functions scheduled with the real timer *)
From Verif Require Import Base ClockModel ClockSpec ClockProofs.

(** Whatever is scheduled, cancelled and interleaved: a function runs at most once, and not before its time. *)
Theorem C82_once : forall es i,
  (starts i (c_log (crun es)) <= 1)%nat /\
  (forall t, In (OStart i t) (c_log (crun es)) -> exists t0 d, nth_error (scheduled 0 es) i = Some (t0, d) /\ (t0 + d <= t)%Z).
Proof.
  intros es i. destruct (inv_run es) as [A B C _ _ _ _]. split; [|exact (C i)].
  destruct (nth_error (c_tmrs (crun es)) i) as [t|] eqn:Et; [rewrite (proj2 (A i t Et)); destruct (started t); lia|]. rewrite (proj1 (B i Et)). lia.
Qed.
Print Assumptions C82_once.
(** three functions; the second one is cancelled in time *)
Definition ex_es : list cev := [ESched 10; ETick 3; ESched 5; ESched (-1); EFire 2; EFire 2; ECancel 1; EStep 0; EStep 0; EStep 0; ETick 6; EFire 1; EFire 0; ETick 1; EFire 0].
Example C82_once_ex : c_log (crun ex_es) = [OStart 2 3; ORet 1 true; OStart 0 10] /\ scheduled 0 ex_es = [(0, 10); (3, 5); (3, -1)]%Z.
Proof. split; vm_compute; reflexivity. Qed.

(** A function that has not started when a cancel returns nil never starts. *)
Theorem C82_cancelled : forall es i l1 l2, c_log (crun es) = l1 ++ ORet i true :: l2 -> starts i l1 = 0%nat -> starts i l2 = 0%nat.
Proof. intros es. exact (i_quiet _ _ (inv_run es)). Qed.
Print Assumptions C82_cancelled.
Example C82_cancelled_ex : c_log (crun ex_es) = [OStart 2 3] ++ ORet 1 true :: [OStart 0 10] /\ starts 1 [OStart 2 3] = 0%nat.
Proof. split; vm_compute; reflexivity. Qed.

(** A function nobody cancels has run or can run as soon as its time has come. *)
Theorem C82_runs : forall es i t0 d dt, nth_error (scheduled 0 es) i = Some (t0, d) -> cancels i es = 0%nat -> (forall k, ~ In (OPanic k) (c_log (crun es))) ->
  (0 <= dt)%Z -> (t0 + d <= elapsed es + dt)%Z -> starts i (c_log (crun (es ++ [ETick dt; EFire i]))) = 1%nat.
Proof.
  intros es i t0 d dt H1 H2 H3 H4 H5. apply runs with (t0 := t0) (d := d); try assumption.
  unfold panicked. apply not_true_is_false. intros H. apply existsb_exists in H. destruct H as (o & Ho & K). destruct o; try discriminate. exact (H3 _ Ho).
Qed.
Print Assumptions C82_runs.
Example C82_runs_ex : nth_error (scheduled 0 [ESched 10; ETick 3]) 0 = Some (0, 10)%Z /\ cancels 0 [ESched 10; ETick 3] = 0%nat /\ (0 + 10 <= elapsed [ESched 10; ETick 3] + 7)%Z /\
  starts 0 (c_log (crun ([ESched 10; ETick 3] ++ [ETick 6; EFire 0]))) = 0%nat.
Proof. split; [|split; [|split]]; vm_compute; congruence. Qed.

(** Calls of one cancel function that do not overlap: the first returns nil, the others the error; none panics. *)
Theorem C82_results : forall es i, one_by_one i es ->
  ~ In (OPanic i) (c_log (crun es)) /\ (returns i (c_log (crun es)) = [] \/ exists n, returns i (c_log (crun es)) = true :: repeat false n).
Proof.
  intros es i H. destruct (seq_run i es H) as [_ _ C _ E]. split; [exact E|]. destruct C as [[C _]|[C _]]; [left; exact C|right; exact C].
Qed.
Print Assumptions C82_results.
Definition ex_seq : list cev := [ESched 10; ECancel 0; EStep 0; EStep 0; EStep 0; ECancel 0; EStep 1].
Example C82_results_ex : one_by_one 0 ex_seq /\ returns 0 (c_log (crun ex_seq)) = [true; false].
Proof.
  split; [|vm_compute; reflexivity]. intros es1 es2 H. unfold ex_seq in H.
  do 8 (destruct es1 as [|? es1]; [vm_compute; lia|cbn [app] in H; first [discriminate H|injection H as <- H]]).
Qed.

(** That a cancel returned nil does not mean that the function does not run: it may have run already (with the dummy timer
    too, C30). *)
Theorem C82_ran_refuted : exists es, c_log (crun es) = [OStart 0 10; ORet 0 true].
Proof. exists [ESched 10; ETick 10; EFire 0; ECancel 0; EStep 0; EStep 0; EStep 0]. vm_compute. reflexivity. Qed.
Print Assumptions C82_ran_refuted.

(** Two goroutines that cancel at the same time: both may be told that they have cancelled, or one panics. *)
Theorem C82_both_refuted : exists es, c_log (crun es) = [ORet 0 true; ORet 0 true].
Proof. exists [ESched 10; ECancel 0; ECancel 0; EStep 0; EStep 1; EStep 0; EStep 1; EStep 0; EStep 1]. vm_compute. reflexivity. Qed.
Print Assumptions C82_both_refuted.
Theorem C82_panic_refuted : exists es, c_log (crun es) = [ORet 0 true; OPanic 0].
Proof. exists [ESched 10; ECancel 0; ECancel 0; EStep 0; EStep 1; EStep 0; EStep 0; EStep 1]. vm_compute. reflexivity. Qed.
Print Assumptions C82_panic_refuted.
