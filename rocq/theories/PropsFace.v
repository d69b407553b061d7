(** Goroutines that share a StreamFace or a WebSocketFace: pkg/engine/basic/transports.go.

    A schedule is a list of labels: LSet (SetCallback), LCall c (a new goroutine calls Send,
    Open or Close), LStep t o (goroutine t makes its next step; o is how a dial, write, read
    or callback in it ends).  Goroutines are numbered in the order of their start; Open
    starts one for Run. *)
From Verif Require Import Base PrimModel StreamModel StreamProofs FaceModel FaceSpec FaceProofs FaceProofs2 FaceProofs3 WsModel WsSpec WsProofs.
Open Scope N_scope.

(** ** C71: Send *)

(** Any number of goroutines call Send, Open and Close in any order; no Open overlaps a Send, or
    there is one Open at most.  At every moment the bytes that a connection took are the packets
    of certain Sends one after another, then possibly a part of a packet whose Send has not
    returned nil.  No Send is there twice.  A Send that returned an error is not among them, a
    Send that returned nil is (on one connection only).  What had returned nil by some moment comes
    before all that is called later. *)
Theorem C71_stream_partial : forall ls1 ls2 s1 s2, (opens (ls1 ++ ls2) <= 1)%nat \/ separate (ls1 ++ ls2) -> f_run face_new ls1 = Ok s1 -> f_run s1 ls2 = Ok s2 ->
  exists first later : nat -> list nat,
  (forall c, exists rest, stream s2 c = concat (map (packet s2) (first c ++ later c)) ++ rest /\
     (rest = [] \/ exists i pkt more, sends s2 i pkt /\ ~ returned s2 i None /\ concat pkt = rest ++ more)) /\
  (forall c, NoDup (first c ++ later c)) /\
  (forall c c' i, In i (first c ++ later c) -> In i (first c' ++ later c') -> c = c') /\
  (forall c i, In i (first c ++ later c) -> exists pkt, sends s2 i pkt /\ forall e, ~ returned s2 i (Some e)) /\
  (forall i pkt, sends s2 i pkt -> pkt <> [] -> returned s2 i None -> exists c, In i (first c ++ later c)) /\
  (forall i pkt, sends s1 i pkt -> pkt <> [] -> returned s1 i None -> exists c, In i (first c)) /\
  (forall c i, In i (first c) -> (i < length (f_threads s1))%nat).
Proof. exact streams. Qed.
Print Assumptions C71_stream_partial.

(** Let every packet that is sent be one element, in shortest form, split into buffers in any
    way.  However the network chunks the bytes of a connection, the StreamFace at its other end
    hands over the packets of certain Sends, each once and unbroken, among them all whose Send
    returned nil; and when all Sends returned nil, exactly these and then the end of the stream. *)
Theorem C71_received_partial : forall ls s tolerates, (opens ls <= 1)%nat \/ separate ls -> f_run face_new ls = Ok s ->
  (forall i pkt, sends s i pkt -> exists t v, concat pkt = tl_enc t ++ tl_enc (N.of_nat (length v)) ++ v /\ t < 2 ^ 64 /\ N.of_nat (length v) + 18 <= 2 ^ 48) ->
  exists order : nat -> list nat,
  (forall c, NoDup (order c)) /\
  (forall i pkt, sends s i pkt -> returned s i None -> exists c, In i (order c)) /\
  (forall c i, In i (order c) -> exists pkt, sends s i pkt /\ forall e, ~ returned s i (Some e)) /\
  (forall c cs n, concat cs = stream s c -> (n <= length (order c))%nat -> s_run tolerates (fun _ => true) n cs = (firstn n (map (packet s) (order c)), SClosed)) /\
  ((forall i pkt, sends s i pkt -> returned s i None) -> tolerates EEOF = false ->
   forall c cs n, concat cs = stream s c -> (length (order c) < n)%nat -> s_run tolerates (fun _ => true) n cs = (map (packet s) (order c), SError EEOF)).
Proof.
  intros ls s tol H R EL. destruct (streams ls [] s s) as (f & l & S1 & ND & _ & S4 & S5 & _); [rewrite app_nil_r; auto|auto|reflexivity|].
  exists (fun c => f c ++ l c). split; [auto|]. split; [|split; [exact S4|]].
  { intros i pkt D RE. apply (S5 i pkt); auto. intros ->. destruct (EL i [] D) as (t & v & Q & _). cbn in Q. symmetry in Q. apply app_eq_nil in Q. destruct Q as [Q _].
    unfold tl_enc in Q. repeat match type of Q with context [if ?b then _ else _] => destruct b end; discriminate. }
  assert (PK : forall i pkt, sends s i pkt -> packet s i = concat pkt) by (intros i pkt (p & D); unfold packet; unfold doing in D; rewrite D; auto).
  assert (EN : forall o, (forall i, In i o -> exists pkt, sends s i pkt) -> exists pkts, map (packet s) o = map (fun e => element (fst e) (snd e)) pkts /\ (forall e, In e pkts -> u64_ok (fst e) /\ (zlen (snd e) + 18 <= max_alloc)%Z)).
  { induction o as [|i o IH]; intros A; [exists []; split; [auto|intros e []]|]. destruct IH as (pkts & Q1 & Q2); [intros; apply A; right; auto|].
    destruct (A i (or_introl eq_refl)) as (pkt & D). destruct (EL i pkt D) as (t & v & Q & T & V). exists ((t, v) :: pkts). split; [cbn [map fst snd]; rewrite Q1, (PK i pkt D), Q; auto|].
    intros e [<-|I]; auto. cbn [fst snd]. split; [exact T|]. change (2 ^ 48) with 281474976710656 in V. unfold zlen, max_alloc. lia. }
  split.
  - intros c cs n C L. destruct (EN (f c ++ l c)) as (pkts & Q1 & Q2); [intros i I; destruct (S4 c i I) as (pkt & D & _); eauto|]. destruct (S1 c) as (rest & ST & _). rewrite ST in C. rewrite Q1 in C |- *.
    apply (s_run_prefix tol pkts cs rest n Q2 C). rewrite <- (map_length (packet s)), Q1, map_length in L. exact L.
  - intros ALL T c cs n C L. destruct (EN (f c ++ l c)) as (pkts & Q1 & Q2); [intros i I; destruct (S4 c i I) as (pkt & D & _); eauto|]. destruct (S1 c) as (rest & ST & RS).
    assert (rest = []) as -> by (destruct RS as [->|(i & pkt & more & D & NR & _)]; auto; exfalso; apply NR; eauto). rewrite ST in C. rewrite Q1 in C |- *.
    rewrite <- (map_length (packet s)), Q1, map_length in L.
    destruct (s_run_all tol pkts cs [] (S (n - length pkts - 1)) Q2 C) as (c' & C' & E).
    replace (length pkts + S (n - length pkts - 1))%nat with n in E by lia. rewrite E, s_run_eof by auto. rewrite app_nil_r. auto.
Qed.
Print Assumptions C71_received_partial.

(** the steps of a goroutine, all of which work *)
Definition works (t k : nat) : list label := repeat (LStep t Works) k.
(** a new face is opened: goroutines 0 (Open) and 1 (Run) *)
Definition opened : list label := LSet :: LCall COpen :: works 0 6.
(** Run gets an error from the connection and ends *)
Definition run_fails (t : nat) : list label := works t 2 ++ LStep t (Fails 0) :: works t 3.

(** Three goroutines send; their steps alternate; the lock keeps the buffers of a packet together. *)
Definition three_senders : list label :=
  opened ++ [LCall (CSend [[5; 2]; [1; 2]]); LCall (CSend [[6; 1; 9]]); LCall (CSend [[7; 1]; [8]])] ++
  concat (repeat [LStep 4 Works; LStep 2 Works; LStep 3 Works] 16).
Example three_senders_ok : exists s, f_run face_new three_senders = Ok s /\ opens three_senders = 1%nat /\
  stream s 0 = packet s 4 ++ packet s 2 ++ packet s 3 /\ (forall i, In i [2; 3; 4]%nat -> returned s i None) /\
  (forall i pkt, sends s i pkt -> exists t v, concat pkt = tl_enc t ++ tl_enc (N.of_nat (length v)) ++ v /\ t < 2 ^ 64 /\ N.of_nat (length v) + 18 <= 2 ^ 48) /\
  s_run (fun _ => false) (fun _ => true) 9 [[7]; [1; 8; 5; 2]; [1; 2; 6; 1; 9]] = ([[7; 1; 8]; [5; 2; 1; 2]; [6; 1; 9]], SError EEOF).
Proof.
  eexists. split; [vm_compute; reflexivity|]. split; [reflexivity|]. split; [reflexivity|]. split; [intros i [<-|[<-|[<-|[]]]]; eexists; reflexivity|]. split; [|vm_compute; reflexivity].
  intros i pkt (p & D). unfold doing in D. destruct i as [|[|[|[|[|i]]]]]; cbn in D; try discriminate; [| | |destruct i; discriminate]; injection D as <- _.
  - exists 5, [1; 2]. split; [reflexivity|]. split; vm_compute; congruence.
  - exists 6, [9]. split; [reflexivity|]. split; vm_compute; congruence.
  - exists 7, [8]. split; [reflexivity|]. split; vm_compute; congruence.
Qed.

(** an error in the second buffer of a packet: the stream ends with a part of it *)
Example broken_send : exists s, f_run face_new (opened ++ [LCall (CSend [[5; 1]; [7]]); LCall (CSend [[6; 2]; [8; 9]])] ++ works 2 6 ++ works 3 3 ++ [LStep 3 (Fails 1); LStep 3 Works]) = Ok s /\
  stream s 0 = packet s 2 ++ [6; 2; 8] /\ returned s 2 None /\ returned s 3 (Some FWrite).
Proof. eexists. split; [vm_compute; reflexivity|]. split; [reflexivity|]. split; eexists; reflexivity. Qed.

(** Without the condition on Open: while a Send waits between two buffers the connection fails, Run
    ends, and Open makes a new one.  The Send writes its second buffer to the new connection and
    returns nil; the peer on neither connection gets the packet. *)
Theorem C71_reopen_refuted : exists ls s, f_run face_new ls = Ok s /\ sends s 2 [[5; 1]; [7]] /\ returned s 2 None /\ stream s 0 = [5; 1] /\ stream s 1 = [7].
Proof.
  exists (opened ++ LCall (CSend [[5; 1]; [7]]) :: works 2 3 ++ run_fails 1 ++ LCall COpen :: works 3 6 ++ works 2 3).
  eexists. split; [vm_compute; reflexivity|]. split; [eexists; reflexivity|]. split; [eexists; reflexivity|]. split; reflexivity.
Qed.
Print Assumptions C71_reopen_refuted.

(** Send may panic with a single Open and no Close: Run ends on an error of the connection after
    the check of running *)
Theorem C71_panic_refuted : exists ls, (opens ls <= 1)%nat /\ one_opener ls /\ ~ In (LCall CClose) ls /\ f_run face_new ls = Panic.
Proof.
  exists (opened ++ LCall (CSend [[5; 0]]) :: works 2 2 ++ run_fails 1 ++ works 2 1). split; [vm_compute; lia|]. split; [|split; [|vm_compute; reflexivity]].
  - apply one_opener_dec. vm_compute. reflexivity.
  - vm_compute. intros H. repeat destruct H as [H|H]; try discriminate; auto.
Qed.
Print Assumptions C71_panic_refuted.

(** ** C72: Open, Run and Close *)

(** If calls of Open do not overlap: there is at most one Run at any moment.  IsRunning is true only
    while a Run or an Open is in progress.  The face holds a connection during Run, and only during
    a Run or an Open. *)
Theorem C72_one_run : forall ls s, one_opener ls -> f_run face_new ls = Ok s ->
  (forall i j, receiving s i -> receiving s j -> i = j) /\
  (f_running s = true -> exists i, receiving s i \/ busy s i (Some COpen)) /\
  ((exists i, receiving s i) -> f_conn s <> None) /\
  (f_conn s <> None -> exists i, receiving s i \/ busy s i (Some COpen)).
Proof. exact one_run. Qed.
Print Assumptions C72_one_run.

(** Open of a face with callbacks in which neither Run nor Open is in progress (a new one, or one whose
    Run has ended, whatever happened to it before) makes it run with a new connection. *)
Theorem C72_open : forall ls s, one_opener ls -> f_run face_new ls = Ok s -> f_callbacks s = true -> (forall i, ~ receiving s i) -> ~ opening s ->
  exists s', f_run s (LCall COpen :: repeat (LStep (length (f_threads s)) Works) 6) = Ok s' /\ returned s' (length (f_threads s)) None /\ f_running s' = true /\
    f_conn s' = Some (length (f_conns s)) /\ f_conns s' = f_conns s ++ [mkConn [] false false] /\ receiving s' (S (length (f_threads s))).
Proof. exact open_fresh. Qed.
Print Assumptions C72_open.

(** Open during a Run returns an error and changes nothing. *)
Theorem C72_open_again : forall ls s i k, one_opener ls -> f_run face_new ls = Ok s -> f_callbacks s = true -> receiving s i -> (2 <= k)%nat ->
  f_run s (LCall COpen :: repeat (LStep (length (f_threads s)) Works) k) = Ok (with_thread s (mkTh (Some COpen) (Ret (Some FAlready)))).
Proof. exact open_again. Qed.
Print Assumptions C72_open_again.

(** When a Close has returned, with nil or an error, and no Open was in progress at its call or called
    since: the face is not running; each Run ends within five of its steps, and none begins; no
    further byte is written; a Send called from now on returns an error. *)
Theorem C72_close : forall ls1 ls2 ls3 s1 s2 s3 r, one_opener (ls1 ++ (LCall CClose :: ls2) ++ ls3) -> f_run face_new ls1 = Ok s1 -> ~ opening s1 -> opens (ls2 ++ ls3) = 0%nat ->
  f_run s1 (LCall CClose :: ls2) = Ok s2 -> returned s2 (length (f_threads s1)) r -> f_run s2 ls3 = Ok s3 ->
  f_running s3 = false /\
  (forall i, receiving s3 i -> receiving s2 i /\ (steps_of i ls3 < 5)%nat) /\
  (forall i pkt e, (length (f_threads s2) <= i)%nat -> sends s3 i pkt -> returned s3 i e -> e = Some FNotRunning) /\
  (forall c, stream s3 c = stream s2 c).
Proof.
  intros ls1 ls2 ls3 s1 s2 s3 r OO R1 NO OP R2 RE R3. rewrite opens_app in OP. rewrite app_assoc in OO. pose proof (one_opener_prefix _ _ OO) as OO2.
  destruct (closed_face ls1 ls2 s1 s2 r OO2) as [SU NO2]; auto; [lia|]. apply (closed_later (ls1 ++ LCall CClose :: ls2) s2 ls3 s3); auto; [|lia].
  rewrite f_run_app, R1. exact R2.
Qed.
Print Assumptions C72_close.

(** If calls of Open do not overlap, a panic is one of a Send or Close in progress when no Run is. *)
Theorem C72_panic_partial : forall ls, one_opener ls -> f_run face_new ls = Panic ->
  exists ls1 t o ls2 s, ls = ls1 ++ LStep t o :: ls2 /\ f_run face_new ls1 = Ok s /\ (forall i, ~ receiving s i) /\
    (busy s t (Some CClose) \/ exists pkt, busy s t (Some (CSend pkt))).
Proof. exact panic_cause. Qed.
Print Assumptions C72_panic_partial.

(** open, send, close, the end of Run, open again *)
Definition life : list label := opened ++ LCall (CSend [[5; 0]]) :: works 2 5 ++ works 1 2.
Example life_ok : exists s2 s3 s4, one_opener (life ++ (LCall CClose :: works 3 3) ++ works 1 4 ++ LCall COpen :: works 4 6) /\
  f_run face_new (life ++ (LCall CClose :: works 3 3)) = Ok s2 /\ returned s2 3 None /\ receiving s2 1 /\
  f_run s2 (works 1 4) = Ok s3 /\ ~ receiving s3 1 /\ f_run s3 (LCall COpen :: works 4 6) = Ok s4 /\ returned s4 4 None /\ receiving s4 5 /\ stream s4 0 = [5; 0] /\ stream s4 1 = [].
Proof.
  eexists. eexists. eexists. split; [apply one_opener_dec; vm_compute; reflexivity|]. split; [vm_compute; reflexivity|]. split; [eexists; reflexivity|]. split; [eexists; split; [reflexivity|discriminate]|].
  split; [vm_compute; reflexivity|]. split; [intros (p & D & NR); vm_compute in D; injection D as <-; eapply NR; reflexivity|]. split; [vm_compute; reflexivity|]. split; [eexists; reflexivity|]. split; [eexists; split; [reflexivity|discriminate]|]. split; reflexivity.
Qed.

(** ... but a Close whose check of conn comes just before the end of a Run panics, with a single Open *)
Theorem C72_close_panic_refuted : exists ls, opens ls = 1%nat /\ one_opener ls /\ (forall pkt, ~ In (LCall (CSend pkt)) ls) /\ f_run face_new ls = Panic.
Proof.
  exists (opened ++ LCall CClose :: works 2 1 ++ run_fails 1 ++ works 2 2). split; [reflexivity|]. split; [apply one_opener_dec; vm_compute; reflexivity|]. split; [|vm_compute; reflexivity].
  intros pkt. vm_compute. intros H. repeat destruct H as [H|H]; try discriminate; auto.
Qed.
Print Assumptions C72_close_panic_refuted.

(** Two Opens at the same time both succeed: two connections, two Runs, and Close closes one of the
    connections only, while the other Run ends without closing its own *)
Theorem C72_two_opens_refuted : exists ls s, f_run face_new ls = Ok s /\ returned s 0 None /\ returned s 1 None /\ receiving s 2 /\ receiving s 3 /\ length (f_conns s) = 2%nat /\
  exists s', f_run s (LCall CClose :: works 4 3 ++ works 2 9 ++ works 3 9) = Ok s' /\ returned s' 4 None /\ ~ receiving s' 2 /\ ~ receiving s' 3 /\ map c_closed (f_conns s') = [false; true].
Proof.
  exists (LSet :: LCall COpen :: LCall COpen :: works 0 2 ++ works 1 2 ++ works 0 4 ++ works 1 4). eexists. split; [vm_compute; reflexivity|].
  split; [eexists; reflexivity|]. split; [eexists; reflexivity|]. split; [eexists; split; [reflexivity|discriminate]|]. split; [eexists; split; [reflexivity|discriminate]|]. split; [reflexivity|].
  eexists. split; [vm_compute; reflexivity|]. split; [eexists; reflexivity|].
  split; [intros (p & D & NR); vm_compute in D; injection D as <-; eapply NR; reflexivity|]. split; [intros (p & D & NR); vm_compute in D; injection D as <-; eapply NR; reflexivity|]. reflexivity.
Qed.
Print Assumptions C72_two_opens_refuted.

(** A Run that ends by itself does not close the connection, and Close does not either afterwards: after
    n failures n connections are open, with calls one after the other *)
Theorem C72_leak_refuted : forall n, exists ls s, one_opener ls /\ f_run face_new ls = Ok s /\ f_running s = false /\ (forall i, ~ receiving s i) /\
  map c_closed (f_conns s) = repeat false n /\ exists s', f_run s (LCall CClose :: works (length (f_threads s)) 1) = Ok s' /\ returned s' (length (f_threads s)) (Some FNotRunning) /\ f_conns s' = f_conns s.
Proof. exact conn_leak. Qed.
Print Assumptions C72_leak_refuted.

(** ** C73: WebSocketFace *)

(** Run hands over the bytes of the binary messages that arrive, in order, and nothing else. *)
Theorem C73_received : forall acc limit ms n, Forall (fun b => acc b = true) (binaries ms) -> (n <= length ms)%nat -> w_run acc limit n 0 ms = (binaries (firstn n ms), WClosed).
Proof. exact w_run_accept. Qed.
Print Assumptions C73_received.
(** It ends after the first packet on which onPkt returns an error. *)
Theorem C73_refused : forall acc limit ms p ms' n, Forall (fun b => acc b = true) (binaries ms) -> acc p = false -> (length ms < n)%nat ->
  w_run acc limit n 0 (ms ++ WBin p :: ms') = (binaries ms ++ [p], WRefused).
Proof. exact w_run_refuse. Qed.
Print Assumptions C73_refused.
Example C73_refused_case : w_run (fun b => match b with [9] => false | _ => true end) 1000 9 0 [WBin [6; 0]; WOther []; WBin [9]; WBin [7]] = ([[6; 0]; [9]], WRefused).
Proof. vm_compute. reflexivity. Qed.

(** Goroutines call Send in any way that does not make it panic: each Send that returned nil, and no other,
    has written one binary message: its packet.  What had returned by some moment comes first. *)
Theorem C73_sent_partial : forall ls1 ls2 s1 s2, w_steps w_open ls1 = Ok s1 -> w_steps s1 ls2 = Ok s2 -> exists first later,
  binaries (w_out s2) = map (fun i => concat (w_packet s2 i)) (first ++ later) /\ length (w_out s2) = length (first ++ later) /\ NoDup (first ++ later) /\
  (forall i, In i first <-> w_sent s1 i) /\ (forall i, In i (first ++ later) <-> w_sent s2 i).
Proof.
  intros ls1 ls2 s1 s2 E1 E2. destruct (w_sends _ _ _ _ E1 E2) as (f & l & I1 & I2). exists f, l. destruct I1 as [_ _ A], I2 as [B C D]. rewrite B.
  split; [|split; [rewrite map_length; auto|auto]]. generalize (f ++ l). induction l0 as [|i o IH]; [reflexivity|]. cbn [map binaries flat_map]. rewrite <- IH. reflexivity.
Qed.
Print Assumptions C73_sent_partial.

(** Two Sends at the same time may panic: there is no lock around WriteMessage *)
Theorem C73_concurrent_refuted : forall p q, w_steps w_open [WCall p; WCall q; WStep 0; WStep 1; WStep 0; WStep 1] = Panic.
Proof. reflexivity. Qed.
Print Assumptions C73_concurrent_refuted.

(** When the connection ends (the peer closes it, or it fails) Run does not end and does not call onError:
    it reads again until the read panics *)
Theorem C73_end_refuted : forall limit ms n, (0 < limit)%nat -> (length ms + limit <= n)%nat -> w_run (fun _ => true) limit n 0 ms = (binaries ms, WPanic).
Proof. exact w_run_end. Qed.
Print Assumptions C73_end_refuted.

Example ws_ok : exists s1 s2, w_steps w_open [WCall [[5; 1]; [7]]; WCall [[6; 0]]; WStep 0; WStep 1; WStep 1; WStep 1] = Ok s1 /\ w_steps s1 [WStep 0; WCall []; WStep 0; WStep 0] = Ok s2 /\
  w_out s2 = [WBin [6; 0]; WBin [5; 1; 7]] /\ w_run (fun _ => true) 1000 3 0 (WBin [6; 0] :: WOther [1] :: WBin [5; 1; 7] :: []) = ([[6; 0]; [5; 1; 7]], WClosed).
Proof. eexists. eexists. split; [vm_compute; reflexivity|]. split; [vm_compute; reflexivity|]. split; reflexivity. Qed.
