(** C81: the faces of programs in a browser. *)
From Verif Require Import Base ReaderModel WasmModel WasmSpec WasmProofs.

(** Whatever happens, at most one WebSocket of a face is alive, and it is the one Close closes. *)
Theorem C81_one_socket : forall es k, let s := fst (wrun w_new es) in alive s k -> w_conn s = Some k.
Proof.
  intros es k s. apply one_run. intros k'. unfold alive, sock_state. cbn [w_new w_socks]. destruct k'; cbn [nth_error]; congruence.
Qed.
Print Assumptions C81_one_socket.

(** As long as connections that are begun succeed, nobody closes the face while Open waits, and onPkt returns errors
    only about packets of the current connection: the calls return what the description in WasmSpec says, nothing
    panics, IsRunning tells whether the face is up, the other sides get the packets in order, and so does onPkt. *)
Theorem C81_face : forall es a rs, arun a_new es = Some (a, rs) ->
  let s := fst (wrun w_new es) in
  snd (wrun w_new es) = rs /\ w_panic s = false /\ w_run s = a_up a
  /\ concat (map j_sent (w_socks s)) = a_sent a /\ w_got s = a_got a.
Proof.
  intros es a rs E s. destruct (rel_run es w_new a_new a rs rel_new E) as [s' [W R]]. unfold s. rewrite W. cbn [fst snd].
  split; [reflexivity|]. split; [apply (r_panic _ _ R)|]. split; [apply (r_run _ _ R)|]. split; [apply (r_sent _ _ R)|apply (r_got _ _ R)].
Qed.
Print Assumptions C81_face.

(** If connecting fails, Open never returns, whatever happens later. *)
Theorem C81_fails_refuted : forall es es' k, let s := fst (wrun w_new es) in
  k < length (w_socks s) -> ~ alive s k -> In (k, false) (w_wait s) -> In (k, false) (w_wait (fst (wrun s es'))).
Proof.
  intros es es' k s Hl Ha Hw. apply wait_run; auto. unfold alive in Ha. destruct (sock_state (w_socks s) k); auto; exfalso; apply Ha; discriminate.
Qed.
Print Assumptions C81_fails_refuted.
Example C81_fails_ex : let s := fst (wrun w_new [WSet; WOpen; JGone 0]) in
  (0 < length (w_socks s))%nat /\ ~ alive s 0 /\ In (0%nat, false) (w_wait s) /\ snd (wstep s WOpen) = RErr.
Proof. vm_compute. split; [lia|]. split; [intros H; apply H; reflexivity|]. split; [auto|reflexivity]. Qed.

(** Closed while Open waits, the face may seem to run afterwards; sending then panics. *)
Theorem C81_close_refuted : exists es, let s := fst (wrun w_new es) in
  snd (wrun w_new es) = [RNil; RWait; RNil; RNil; RNil] /\ nth 3 es WSet = WClose /\ w_run s = true /\ w_conn s = None
  /\ snd (wstep s (WSend [[1]%N])) = RPanic.
Proof. exists [WSet; WOpen; JOpened 0; WClose; WReturn 0]. vm_compute. auto. Qed.
Print Assumptions C81_close_refuted.

(** After the other side has closed, the face seems to run, and sending succeeds although nothing is sent. *)
Theorem C81_lost_refuted : forall es a k rs, arun a_new es = Some (a, rs) -> a_phase a = Up k true ->
  let s := fst (wrun w_new es) in w_run s = true /\ forall w, wstep s (WSend w) = (s, RNil).
Proof.
  intros es a k rs E Ep s. destruct (rel_run es w_new a_new a rs rel_new E) as [s' [W R]]. unfold s. rewrite W. cbn [fst].
  destruct R as [Rp Rc Rr _ _ _ _ Rph]. rewrite Ep in Rph. unfold a_up in Rr. rewrite Ep in Rr.
  split; [exact Rr|]. intros w. unfold wstep. rewrite Rp, Rr. cbn [negb].
  destruct Rph as [-> [_ [l [t [-> [-> Cl]]]]]]. rewrite state_last. reflexivity.
Qed.
Print Assumptions C81_lost_refuted.
Example C81_lost_ex : exists a rs, arun a_new [WSet; WOpen; JOpened 0; WReturn 0; JGone 0] = Some (a, rs) /\ a_phase a = Up 0 true.
Proof. eexists. eexists. split; [vm_compute; reflexivity|reflexivity]. Qed.

(** A handler that closes the face and returns an error panics; a late error closes a connection made since. *)
Theorem C81_handler_refuted : exists es, snd (wrun w_new es) = [RNil; RWait; RNil; RNil; RNil; RNil; RPanic] /\ nth 5 es WSet = WClose /\ nth 6 es WSet = WDone 0 true.
Proof. exists [WSet; WOpen; JOpened 0; WReturn 0; JMsg 0 (Some [5]%N); WClose; WDone 0 true]. vm_compute. auto. Qed.
Print Assumptions C81_handler_refuted.
Theorem C81_late_refuted : exists es, let s := fst (wrun w_new es) in let s' := fst (wstep s (WDone 0 true)) in
  w_hand s = [0%nat] /\ w_conn s = Some 1%nat /\ alive s 1 /\ w_run s = true /\ ~ alive s' 1 /\ w_run s' = false.
Proof.
  exists [WSet; WOpen; JOpened 0; WReturn 0; JMsg 0 (Some [5]%N); WClose; WOpen; JOpened 1; WReturn 0]. vm_compute.
  split; [reflexivity|]. split; [reflexivity|]. split; [discriminate|]. split; [reflexivity|]. split; [|reflexivity]. intros H; apply H; reflexivity.
Qed.
Print Assumptions C81_late_refuted.

(** * The simulator *)
(** Whatever happens to any number of faces, nothing panics; Send succeeds exactly if the face runs. *)
Theorem C81_sim : forall es, let s := fst (srun s_new es) in
  ~ In RPanic (snd (srun s_new es)) /\ forall i w, snd (sstep s (SSend i w)) = if f_run (g_faces s i) then RNil else RErr.
Proof.
  intros es s. assert (H0 : sim_ok s_new) by (split; [reflexivity|]; cbn; discriminate).
  destruct (sim_run es s_new H0) as [H1 H2]. split; [exact H2|]. intros i w. apply (sim_step s (SSend i w) H1 ) with (i := i) (w := w). reflexivity.
Qed.
Print Assumptions C81_sim.

(** The simulator is given exactly the packets whose Send succeeded, each whole and once, in order. *)
Theorem C81_sim_sent : forall es, g_sent (fst (srun s_new es)) = sim_accepted es (snd (srun s_new es)).
Proof. intros es. exact (sim_sent es s_new). Qed.
Print Assumptions C81_sim_sent.
Example C81_sim_sent_ex : let es := [SSet 0; SSend 0 [[1]%N]; SOpen 0; SSend 0 [[1]%N; [2; 3]%N]; SSet 4; SOpen 4; SSend 4 [[5]%N]; SClose 0; SSend 0 [[6]%N]] in
  sim_accepted es (snd (srun s_new es)) = [(0%nat, [1; 2; 3]%N); (4%nat, [5]%N)].
Proof. vm_compute. reflexivity. Qed.

(** With one face, onPkt gets exactly the packets sent while the face was open, in order. *)
Theorem C81_sim_packets : forall i es, Forall (of_face i) es ->
  g_got (fst (srun s_new es)) = map (fun b => (i, b)) (sim_packets false false es).
Proof.
  intros i es F. assert (H0 : sim_ok s_new) by (split; [reflexivity|]; cbn; discriminate).
  rewrite (sim_one i es s_new F eq_refl H0 eq_refl). reflexivity.
Qed.
Print Assumptions C81_sim_packets.

(** With two, the one opened last gets all packets, and closing the other one stops it too. *)
Theorem C81_sim_two_refuted : exists es, let s := fst (srun s_new es) in
  f_run (g_faces s 0) = true /\ f_run (g_faces s 1) = true /\ g_got (fst (sstep s (SMsg (Some [7]%N)))) = [(1%nat, [7]%N)]
  /\ let s' := fst (sstep s (SClose 0)) in f_run (g_faces s' 1) = true /\ g_got (fst (sstep s' (SMsg (Some [7]%N)))) = [].
Proof. exists [SSet 0; SOpen 0; SSet 1; SOpen 1]. vm_compute. auto. Qed.
Print Assumptions C81_sim_two_refuted.

(** An error of onPkt: the face does not run, but it still gets packets, and it cannot be opened. *)
Theorem C81_sim_error_refuted : exists es, let s := fst (srun s_new es) in
  f_run (g_faces s 0) = false /\ g_got (fst (sstep s (SMsg (Some [8]%N)))) = [(0%nat, [7]%N); (0%nat, [8]%N)] /\ snd (sstep s (SOpen 0)) = RErr.
Proof. exists [SSet 0; SOpen 0; SMsg (Some [7]%N); SDone 0 true]. vm_compute. auto. Qed.
Print Assumptions C81_sim_error_refuted.

(** * Concrete cases *)
(** opened, used, closed after an error of onPkt, opened and used again *)
Definition ex_history : list wev :=
  [WOpen; WSet; WSend [[1]%N]; WOpen; WOpen; JOpened 0; JMsg 0 (Some [9]%N); WReturn 0; WSend [[1; 2]%N; [3]%N]; JMsg 0 None; WDone 0 false;
   JMsg 0 (Some [8]%N); WSend [[4]%N]; WDone 0 true; WSend [[5]%N]; WOpen; JOpened 1; WReturn 0; WSend [[6]%N]; WClose; WClose].
Example C81_face_ex : exists a, arun a_new ex_history = Some (a, [RErr; RNil; RErr; RWait; RErr; RNil; RNil; RNil; RNil; RNil; RNil; RNil; RNil; RNil; RErr; RWait; RNil; RNil; RNil; RNil; RErr])
  /\ a_sent a = [[1; 2; 3]; [4]; [6]]%N /\ a_got a = [[9]; [8]]%N.
Proof. eexists. split; [vm_compute; reflexivity|]. split; reflexivity. Qed.
Example C81_sim_ex : let es := [SMsg (Some [1]%N); SSet 3; SOpen 3; SMsg (Some [2]%N); SSend 3 [[5]%N]; SMsg None; SDone 0 false; SMsg (Some [3]%N); SClose 3; SMsg (Some [4]%N)] in
  Forall (of_face 3) es /\ sim_packets false false es = [[2]; [3]]%N /\ g_sent (fst (srun s_new es)) = [(3%nat, [5]%N)].
Proof. cbn zeta. split; [repeat constructor|]. split; vm_compute; reflexivity. Qed.
