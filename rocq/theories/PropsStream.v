(** StreamFace: pkg/engine/basic/transports.go. *)
From Verif Require Import Base PrimModel StreamModel StreamProofs.
Open Scope N_scope.

(** C29: nothing the face does depends on how the bytes were chunked *)
Theorem C29_chunking : forall tolerates accepts n (cs ds : list buf), concat cs = concat ds ->
  s_run tolerates accepts n cs = s_run tolerates accepts n ds.
Proof. exact s_run_concat. Qed.
Print Assumptions C29_chunking.

(** Packets are elements (type, value) in shortest form.  However the sender splits
    them into buffers and however the connection chunks the bytes, the receiver hands
    over these packets in this order: the first n of them if it is closed after n
    rounds, and all of them and nothing else before it reports the end of the stream
    (as the engine's onError makes it). *)
Theorem C29_framing : forall tolerates (pkts : list (N * buf)) (wires cs : list (list N)) (sent : list (list buf)) n,
  (forall t v, In (t, v) pkts -> t < 2 ^ 64 /\ N.of_nat (length v) + 18 <= 2 ^ 48) ->
  map (@concat N) sent = map (fun p => tl_enc (fst p) ++ tl_enc (N.of_nat (length (snd p))) ++ snd p) pkts ->
  wires = map (@concat N) sent -> concat cs = s_sends sent ->
  ((n <= length pkts)%nat -> s_run tolerates (fun _ => true) n cs = (firstn n wires, SClosed)) /\
  (tolerates EEOF = false -> (length pkts < n)%nat -> s_run tolerates (fun _ => true) n cs = (wires, SError EEOF)).
Proof.
  intros tol pkts wires cs sent n OK EQ -> H. rewrite s_sends_concat, EQ in H. rewrite EQ.
  change (map (fun p => tl_enc (fst p) ++ tl_enc (N.of_nat (length (snd p))) ++ snd p) pkts) with (map (fun e => element (fst e) (snd e)) pkts) in *.
  assert (OK' : forall e, In e pkts -> u64_ok (fst e) /\ (zlen (snd e) + 18 <= max_alloc)%Z).
  { intros [t v] I. destruct (OK t v I) as [A B]. cbn [fst snd]. split; [exact A|]. change (2 ^ 48) with 281474976710656 in B. unfold zlen, max_alloc. lia. }
  split.
  - intros L. apply s_run_prefix with (s := []); auto. rewrite app_nil_r. auto.
  - intros T L. destruct (s_run_all tol pkts cs [] (S (n - length pkts - 1)) OK') as (c' & C & E); [rewrite app_nil_r; auto|].
    replace (length pkts + S (n - length pkts - 1))%nat with n in E by lia. rewrite E. rewrite s_run_eof by auto. rewrite app_nil_r. auto.
Qed.
Print Assumptions C29_framing.

(** elements whose numbers are not in shortest form are handed over re-encoded *)
Theorem C29_nonminimal_refuted : exists bytes, s_run (fun _ => false) (fun _ => true) 1 [bytes] = ([[5; 1; 7]], SClosed) /\ bytes = [253; 0; 5; 1; 7].
Proof. exists [253; 0; 5; 1; 7]. vm_compute. auto. Qed.
Print Assumptions C29_nonminimal_refuted.

(** an onError that returns nil at the end of the stream gets invented packets forever *)
Theorem C29_tolerant_error_refuted : forall n, s_run (fun _ => true) (fun _ => true) n [] = (repeat [0; 0] n, SClosed).
Proof. induction n; [reflexivity|]. cbn [s_run]. cbn - [s_run]. rewrite IHn. reflexivity. Qed.
Print Assumptions C29_tolerant_error_refuted.

(** ... or the available part of a packet, filled up with zeros *)
Theorem C29_tolerant_truncation_refuted : s_run (fun _ => true) (fun _ => true) 1 [[6; 4; 1]] = ([[6; 4; 1; 0; 0; 0]], SClosed).
Proof. reflexivity. Qed.
Print Assumptions C29_tolerant_truncation_refuted.

(** ten bytes from the peer crash the process *)
Theorem C29_length_panics_refuted : exists bytes : buf, length bytes = 10%nat /\ forall n rest, s_run (fun _ => false) (fun _ => true) (S n) (bytes :: rest) = ([], SPanic).
Proof. exists [6; 255; 128; 0; 0; 0; 0; 0; 0; 0]. split; [reflexivity|]. intros. reflexivity. Qed.
Print Assumptions C29_length_panics_refuted.

(** two packets sent as three buffers, received as four chunks *)
Example framing_ok :
  let sent := [[[5; 2]; [1; 2]]; [[6; 1; 9]]] in
  let cs := [[5]; []; [2; 1; 2; 6]; [1; 9]] in
  concat cs = s_sends sent /\ s_run (fun _ => false) (fun _ => true) 9 cs = ([[5; 2; 1; 2]; [6; 1; 9]], SError EEOF).
Proof. vm_compute. auto. Qed.
