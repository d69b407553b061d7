(** The dummy timer and face: pkg/engine/dummy. *)
From Verif Require Import Base DummyModel DummySpec DummyProofs.

(** C30.  [cs] are the calls made so far, by code outside the callbacks, cancelling
    no event twice.  The events run so far are, each once, exactly those whose due time
    is behind the clock and which were not cancelled in time.  As this holds after
    every prefix of the calls, an event runs during the first MoveForward that takes the
    clock beyond its due time. *)
Theorem C30_timer_partial : forall cs, NoDup (cancels cs) ->
  let s := tm_run tmr_new (map plain cs) in
  tm_now s = clock cs /\ NoDup (tm_ran s) /\
  (forall k, In k (tm_ran s) <-> exists t, made cs k t /\ (t < clock cs)%Z /\ ~ cancelled cs k t) /\
  (forall k t, made cs k t -> ~ In k (cancels cs) -> snd (tm_cancel s k) = true).
Proof.
  intros cs N s. pose proof (TI_run cs N) as T. fold s in T. destruct T as [A B C D E F G]. repeat split; auto; try (apply G).
  intros k t M K. apply C in M. destruct M as [i I]. unfold tm_cancel. rewrite I, A. destruct (Z.ltb_spec t (clock cs)) as [L|L]; auto.
  destruct (nth_error (tm_events s) i) as [[t' [k'|]]|] eqn:X.
  - destruct (Z.eq_dec t' t) as [->|Y]; [rewrite Z.eqb_refl; auto|]. exfalso.
    destruct (E k t i I) as [Z|Z]; [rewrite X; congruence|lia|apply cancelled_in in Z; auto].
  - exfalso. destruct (E k t i I) as [Z|Z]; [rewrite X; congruence|lia|apply cancelled_in in Z; auto].
  - exfalso. destruct (E k t i I) as [Z|Z]; [rewrite X; congruence|lia|apply cancelled_in in Z; auto].
Qed.
Print Assumptions C30_timer_partial.

(** event 0 due at 5 is cancelled, event 1 due at 3 runs, event 2 due at 9 waits *)
Example timer_ok : let cs := [Schedule 5; Schedule 3; MoveForward 2; Schedule 7; Cancel 0; MoveForward 6] in
  NoDup (cancels cs) /\ tm_ran (tm_run tmr_new (map plain cs)) = [1%nat].
Proof. split; [repeat constructor; auto|vm_compute; reflexivity]. Qed.

(** cancelling an event twice may cancel another one *)
Theorem C30_double_cancel_refuted : exists cs,
  cs = [Schedule 5; Cancel 0; Schedule 5; Cancel 0; MoveForward 6] /\ tm_ran (tm_run tmr_new (map plain cs)) = [].
Proof. eexists. vm_compute. auto. Qed.
Print Assumptions C30_double_cancel_refuted.

(** an event scheduled by a callback is lost *)
Theorem C30_schedule_in_callback_refuted : forall d, 
  tm_ran (tm_run tmr_new [TmSchedule 1; TmForward 2 (fun _ => [ASchedule 1]); TmForward d (fun _ => [])]) = [0%nat].
Proof.
  intros. unfold tm_run. cbn [fold_left].
  replace (tm_step (tm_step tmr_new (TmSchedule 1)) (TmForward 2 (fun _ => [ASchedule 1])))
    with (mkTmr 2 [(1%Z, None)] [(1%Z, 0%nat); (3%Z, 1%nat)] [0%nat]) by (vm_compute; reflexivity).
  cbn [tm_step]. unfold tm_forward. cbn. reflexivity.
Qed.
Print Assumptions C30_schedule_in_callback_refuted.

(** an event cancelled by the callback of another one still runs; the cancel reports success *)
Theorem C30_cancel_in_callback_refuted :
  tm_ran (tm_run tmr_new [TmSchedule 1; TmSchedule 4; TmForward 2 (fun _ => [ACancel 1]); TmForward 3 (fun _ => [])]) = [0%nat; 1%nat].
Proof. vm_compute. reflexivity. Qed.
Print Assumptions C30_cancel_in_callback_refuted.

(** events passed by the same MoveForward run in the order of their slots *)
Theorem C30_order_refuted : tm_ran (tm_run tmr_new (map plain [Schedule 20; Schedule 10; MoveForward 30])) = [0%nat; 1%nat].
Proof. vm_compute. reflexivity. Qed.
Print Assumptions C30_order_refuted.

(** C31.  After any calls, the packets consumed since the face was last opened are the
    first of those sent since then; Consume returns the next one, and fails if there is
    none or the face is closed; Send succeeds iff the face is open. *)
Theorem C31_fifo : forall os f rs run sent got,
  df_run df_new os = (f, rs) -> opened false false [] os = (run, sent) -> got = consumed false false [] os rs ->
  (exists rest, sent = got ++ rest /\
     snd (df_step f DConsume) = (if run then match rest with b :: _ => DPkt b | [] => DErr end else DErr)) /\
  (forall pkt, snd (df_step f (DSend pkt)) = if run then DNil else DErr) /\
  (run = false -> forall pkt, fst (df_step f (DSend pkt)) = f).
Proof.
  intros os f rs run sent got H O ->. pose proof (df_run_ok os df_new [] f rs H) as R. cbn [df_new df_callback df_running df_pkts app] in R. rewrite O in R.
  injection R as -> ->. split; [|split].
  - exists (df_pkts f). split; auto. cbn [df_step]. destruct (df_running f); cbn [negb]; auto. destruct (df_pkts f); auto.
  - intros pkt. cbn [df_step]. destruct (df_running f); cbn [negb]; auto. destruct pkt as [|b [|]]; auto.
  - intros N pkt. cbn [df_step]. rewrite N. auto.
Qed.
Print Assumptions C31_fifo.

Example face_ok : let os := [DSetCallback; DOpen; DSend [[1%N]; [2%N]]; DSend [[3%N]]; DConsume] in
  opened false false [] os = (true, [[1%N; 2%N]; [3%N]]) /\
  consumed false false [] os (snd (df_run df_new os)) = [[1%N; 2%N]] /\
  snd (df_run df_new (os ++ [DConsume; DConsume])) = [DNil; DNil; DNil; DNil; DPkt [1%N; 2%N]; DPkt [3%N]; DErr].
Proof. vm_compute. auto. Qed.
