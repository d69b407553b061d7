(** C64 and C65: the SvsNode of pkg/schema/svs. *)
From Verif Require Import Base PrimModel PrimProofs ReaderModel ReaderSpec NameModel OrderProofs CodecModel CodecSpec CodecPar SnModel SnSpec SnProofs SnProofs2 SnGroup SnWire.

Local Notation A := [65%N].
Local Notation B := [66%N].
Local Notation C := [67%N].

(** ** C64: one node, whatever arrives *)

(** Of every other node, the node knows the greatest number it was told, however the vectors were repeated
    or reordered, and lists exactly the nodes it was told of *)
Theorem C64_learns : forall me os s id, sn_run (sn_attach me) os = Ok s -> id <> me ->
  greatest id (received os) (seq_in id (n_local s)) /\ (mentions id (n_local s) <-> exists v, In v (received os) /\ mentions id v).
Proof.
  intros me os s id E NE. destruct (run_learned os (sn_attach me) s id (attach_inv me) E NE) as (_ & _ & S1 & M1 & _).
  assert (Z : seq_in id (n_local (sn_attach me)) = 0%N) by (unfold seq_in; cbn [sn_attach n_local sv_get]; same_id me id; [congruence|reflexivity]).
  rewrite Z, N.max_0_l in S1. rewrite S1. split; [apply top_all_greatest|]. rewrite M1. split; [intros [[X|[]]|X]; [cbn in X; congruence|auto]|auto].
Qed.
Print Assumptions C64_learns.

(** What is reported as missing, for every other node: ranges that follow each other and cover each number
    from 1 to the one known, once *)
Theorem C64_missing_partial : forall me os s id, sn_run (sn_attach me) os = Ok s -> id <> me ->
  (forall v x, In v (received os) -> In (id, x) v -> (x + 1 < two64)%N) -> chain 1 (reported id (n_miss s)) (seq_in id (n_local s) + 1).
Proof.
  intros me os s id E NE H. destruct (run_learned os (sn_attach me) s id (attach_inv me) E NE) as (_ & _ & _ & _ & add & A1 & A2). specialize (A2 H).
  assert (Z : seq_in id (n_local (sn_attach me)) = 0%N) by (unfold seq_in; cbn [sn_attach n_local sv_get]; same_id me id; [congruence|reflexivity]).
  rewrite Z in A2. rewrite A1. exact A2.
Qed.
Print Assumptions C64_missing_partial.
(** the greatest number of a TLV NonNegativeInteger: the end of the range is 0 *)
Theorem C64_missing_refuted : exists me os s id, sn_run (sn_attach me) os = Ok s /\ id <> me /\ reported id (n_miss s) = [(1%N, 0%N)].
Proof. exists A, [SnSync (Some [(B, 18446744073709551615%N)])]. eexists. exists B. split; [vm_compute; reflexivity|]. split; [discriminate|vm_compute; reflexivity]. Qed.
Print Assumptions C64_missing_refuted.
Example C64_learns_case : exists s, sn_run (sn_attach A) [SnSync (Some [(B, 3%N); (C, 1%N)]); SnSync (Some [(B, 1%N); (A, 0%N)]); SnSync (Some [(B, 7%N); (C, 1%N)])] = Ok s
  /\ seq_in B (n_local s) = 7%N /\ reported B (n_miss s) = [(1, 4); (4, 8)]%N /\ reported C (n_miss s) = [(1, 2)]%N.
Proof. eexists. split; [vm_compute; reflexivity|]. split; [vm_compute; reflexivity|]. split; vm_compute; reflexivity. Qed.

(** The node's own number is the number of packets it published, and none of its own packets is reported
    missing, provided nobody knows more of its data than it published since it was attached *)
Theorem C64_own_partial : forall me os s, sn_run (sn_attach me) os = Ok s -> (published os + 1 < two64)%N -> never_ahead (sn_attach me) os ->
  n_seq s = published os /\ seq_in me (n_local s) = n_seq s /\ reported me (n_miss s) = [].
Proof.
  intros me os s E L NA. destruct (run_own os (sn_attach me) s (attach_inv me) E) as (Q & P & add & A1 & A2); auto.
  - unfold seq_in; cbn [sn_attach n_local n_id n_seq sv_get]. now rewrite bytes_eqb_refl.
  - rewrite A1. split; [exact P|]. split; [exact Q|exact A2].
Qed.
Print Assumptions C64_own_partial.
Example C64_own_case : exists s, sn_run (sn_attach A) [SnNew true; SnSync (Some [(A, 1%N)]); SnNew false; SnNew true] = Ok s /\ n_seq s = 2%N
  /\ never_ahead (sn_attach A) [SnNew true; SnSync (Some [(A, 1%N)]); SnNew false; SnNew true].
Proof.
  eexists. split; [vm_compute; reflexivity|]. split; [reflexivity|]. cbn [never_ahead]. split; [discriminate|]. cbn [sn_step]. split.
  - intros v x E I. injection E as <-. destruct I as [I|[]]. injection I as <-. vm_compute. discriminate.
  - match goal with |- match ?x with _ => _ end => let y := eval vm_compute in x in change x with y end. cbn [sn_step]. repeat split; discriminate.
Qed.
(** after a restart: the group has 5 packets of this node; they are reported as missing, the next packet gets
    the number 1 again, and the node's own number goes back from 5 to 1 *)
Theorem C64_own_refuted : exists me os s1 s2, sn_run (sn_attach me) os = Ok s1 /\ sn_step s1 (SnNew true) = Ok s2 /\
  reported me (n_miss s1) = [(1, 6)]%N /\ seq_in me (n_local s1) = 5%N /\ seq_in me (n_local s2) = 1%N /\ n_seq s2 = 1%N.
Proof. exists A, [SnSync (Some [(A, 5%N)])]. do 2 eexists. split; [vm_compute; reflexivity|]. split; [vm_compute; reflexivity|]. repeat split; vm_compute; reflexivity. Qed.
Print Assumptions C64_own_refuted.

(** A new packet gets the next number and is announced at once; if no packet is made, nothing changes *)
Theorem C64_new_data : forall me os s s', sn_run (sn_attach me) os = Ok s -> sn_step s (SnNew true) = Ok s' -> (n_seq s + 1 < two64)%N ->
  n_seq s' = (n_seq s + 1)%N /\ exists v, n_sent s' = n_sent s ++ [v] /\ In (me, n_seq s') v /\ (forall id x, id <> me -> (In (id, x) v <-> In (id, x) (n_local s))).
Proof.
  intros me os s s' E E1 L. destruct (run_learned os (sn_attach me) s (0%N :: me) (attach_inv me) E) as ((ND & M) & Ei & _).
  { cbn. intros X. apply (f_equal (@length N)) in X. cbn [length] in X. lia. }
  cbn [sn_attach n_id] in Ei. destruct (step_effect _ _ _ E1) as (_ & Q & F & _ & Fs). rewrite N.mod_small in Q by lia. split; [auto|].
  exists (n_local s'). split; [auto|]. rewrite F, <- Ei. assert (N2 : NoDup (map fst (sv_set (n_id s) (n_seq s') (n_local s)))) by now rewrite set_ids. split.
  - apply get_in. rewrite get_set, bytes_eqb_refl. destruct (sv_get (n_id s) (n_local s)) eqn:G; [auto|]. apply get_none in G. contradiction.
  - intros id x NE. assert (GE : sv_get id (sv_set (n_id s) (n_seq s') (n_local s)) = sv_get id (n_local s)) by (rewrite get_set; same_id (n_id s) id; [congruence|auto]).
    split; intros I; apply get_in; [rewrite <- GE|rewrite GE]; now apply get_nodup.
Qed.
Print Assumptions C64_new_data.
Theorem C64_no_data : forall s, sn_step s (SnNew false) = Ok s.
Proof. reflexivity. Qed.
Print Assumptions C64_no_data.
Example C64_new_data_case : exists s s', sn_run (sn_attach A) [SnSync (Some [(B, 3%N)]); SnNew true] = Ok s /\ sn_step s (SnNew true) = Ok s'
  /\ n_sent s' = [[(A, 1); (B, 3)]; [(A, 2); (B, 3)]]%N.
Proof. do 2 eexists. split; [vm_compute; reflexivity|]. split; [vm_compute; reflexivity|]. vm_compute. reflexivity. Qed.

(** A steady node goes into suppression exactly if what it knows after a Sync Interest is newer than the
    vector of the Interest *)
Theorem C64_suppress : forall me os s r s', sn_run (sn_attach me) os = Ok s -> n_supp s = false -> NoDup (map fst r) -> sn_step s (SnSync (Some r)) = Ok s' ->
  (n_supp s' = true <-> exists id x, In (id, x) (n_local s') /\ forall y, In (id, y) r -> (y < x)%N).
Proof.
  intros me os s r s' E SU NR E1. destruct (run_learned os (sn_attach me) s (0%N :: me) (attach_inv me) E) as (I1 & _).
  { cbn. intros X. apply (f_equal (@length N)) in X. cbn [length] in X. lia. }
  rewrite (outdated _ _ _ I1 SU NR E1). split; intros (id & x & I & H); exists id, x; (split; [auto|]).
  - intros y J. apply get_nodup in J; [|auto]. now rewrite J in H.
  - destruct (sv_get id r) eqn:G; [apply H; now apply get_in|exact Logic.I].
Qed.
Print Assumptions C64_suppress.
(** The timer of a node that is not in suppression sends the node's vector.  In suppression, it is not sent
    only if all of it was in vectors that others sent during the suppression. *)
Theorem C64_timer : forall me os s k, sn_run (sn_attach me) os = Ok s -> (k < length (n_fired s))%nat -> exists s', sn_step s (SnTimer k) = Ok s' /\ n_supp s' = false /\
  (n_sent s' = n_sent s ++ [n_local s] \/ (n_sent s' = n_sent s /\ n_supp s = true)) /\
  (n_sent s' = n_sent s -> forall id x, In (id, x) (n_local s) -> exists v y, In v (heard (sn_attach me) os []) /\ In (id, y) v /\ (x <= y)%N) /\
  ((forall v, In v (heard (sn_attach me) os []) -> NoDup (map fst v)) -> n_supp s = true ->
   (forall id x, In (id, x) (n_local s) -> exists v y, In v (heard (sn_attach me) os []) /\ In (id, y) v /\ (x <= y)%N) -> n_sent s' = n_sent s).
Proof.
  intros me os s k E L. destruct (timer_sends s k L) as (s' & E1 & S1 & S2 & S3 & S4). exists s'. split; [auto|]. split; [auto|].
  assert (AO : agg_ok s (heard (sn_attach me) os [])) by (apply (heard_ok os (sn_attach me)); [discriminate|auto]).
  split; [tauto|]. split.
  - intros N1 id x I. apply S4 in N1. destruct N1 as (SU & H). destruct (H id x I) as (a & G & LE). destruct (AO SU) as (X & _). destruct (X id a G) as (v & V1 & V2). eauto.
  - intros ND SU H. apply S4. split; [auto|]. intros id x I. destruct (H id x I) as (v & y & V1 & V2 & LE). destruct (AO SU) as (_ & X). destruct (X ND v id y V1 V2) as (a & G & LA). exists a. split; [auto|lia].
Qed.
Print Assumptions C64_timer.
Definition supp_ops := [SnSync (Some [(B, 3%N)]); SnSync (Some [(A, 0%N); (B, 2%N); (C, 1%N)]); SnSync (Some [(C, 4%N)]); SnFire 0].
Example C64_timer_case : exists s s', sn_run (sn_attach A) supp_ops = Ok s /\ n_supp s = true /\ heard (sn_attach A) supp_ops [] = [[(B, 3)]; [(A, 0); (B, 2); (C, 1)]; [(C, 4)]]%N
  /\ sn_step s (SnTimer 0) = Ok s' /\ n_sent s' = [] /\ n_local s' = [(A, 0); (B, 3); (C, 4)]%N.
Proof. do 2 eexists. split; [vm_compute; reflexivity|]. split; [reflexivity|]. split; [vm_compute; reflexivity|]. split; [vm_compute; reflexivity|]. split; vm_compute; reflexivity. Qed.

(** A vector that arrives in the steady state is answered with the node's vector when the timer runs, unless
    others answer first; the timer is the short one exactly if the vector is outdated *)
Theorem C64_answer : forall me os s r, Forall op_fine os -> sn_run (sn_attach me) os = Ok s -> n_supp s = false -> NoDup (map fst r) ->
  exists s1 s2, sn_step s (SnSync (Some r)) = Ok s1 /\ n_sched s1 = [(n_cur s1, n_supp s1)] /\
  sn_run s1 [SnFire 0; SnTimer (length (n_fired s))] = Ok s2 /\ n_sent s2 = n_sent s ++ [n_local s1].
Proof.
  intros me os s r FO E SU NR. destruct (run_learned os (sn_attach me) s (0%N :: me) (attach_inv me) E) as (I1 & _).
  { cbn. intros X. apply (f_equal (@length N)) in X. cbn [length] in X. lia. }
  destruct (run_fine os (sn_attach me) FO eq_refl) as (s0 & E0 & C0). assert (s0 = s) by congruence. subst s0.
  assert (T : timed s) by (eapply timed_run; [|exact FO|exact E]; left; exists false; reflexivity).
  destruct (step_fine s (SnSync (Some r)) Logic.I C0) as (s1 & E1 & C1). pose proof (outdated _ _ _ I1 SU NR E1) as OU. exists s1.
  assert (X : n_sched s1 = [(n_cur s1, n_supp s1)] /\ n_fired s1 = n_fired s /\ n_sent s1 = n_sent s /\ (n_supp s1 = true -> n_agg s1 = r)).
  { cbn [sn_step] in E1. unfold on_sync_int in E1. destruct (fold_left _ _ _) as [[l m] n]. rewrite C0 in E1. cbn [andb] in E1. rewrite SU, orb_false_r in E1.
    assert (CN : forall a l m g b q st f n c, cancel (mkSn a l g b q m st (n_sched s) (n_cur s) f n c) = []) by (intros; rewrite <- (timed_cancel s T); apply cancel_eq; reflexivity).
    destruct (n || _); injection E1 as <-; unfold reschedule; cbn [n_sched n_cur n_supp n_fired n_sent n_agg]; rewrite CN; repeat split; auto; discriminate. }
  destruct X as (X1 & X2 & X3 & X4).
  set (s1' := mkSn (n_id s1) (n_local s1) (n_agg s1) (n_supp s1) (n_seq s1) (n_miss s1) (n_sent s1) [] (n_cur s1) (n_fired s1 ++ [n_cur s1]) (n_next s1) (n_closed s1)).
  assert (EF : sn_step s1 (SnFire 0) = Ok s1') by (cbn [sn_step]; rewrite X1; reflexivity).
  destruct (timer_sends s1' (length (n_fired s))) as (s2 & E2 & _ & _ & D & IFF). { cbn [s1' n_fired]. rewrite X2, app_length. cbn [length]. lia. }
  exists s2. split; [auto|]. split; [auto|]. cbn [sn_run]. rewrite EF. cbn [bind]. rewrite E2. cbn [bind]. split; [reflexivity|].
  destruct D as [D|(D1 & D2)]; [rewrite D; cbn [s1' n_sent n_local]; now rewrite X3|]. exfalso. apply IFF in D2. destruct D2 as (_ & D2). cbn [s1' n_supp n_agg n_local] in *.
  apply OU in D1 as D3. destruct D3 as (id & x & I & H). destruct (D2 id x I) as (a & G & LE). rewrite (X4 D1) in G. rewrite G in H. lia.
Qed.
Print Assumptions C64_answer.
Example C64_answer_case : exists s, sn_run (sn_attach A) [SnNew true; SnSync (Some [(A, 0%N)]); SnFire 0; SnTimer 0] = Ok s /\ n_sent s = [[(A, 1%N)]; [(A, 1%N)]].
Proof. eexists. split; vm_compute; reflexivity. Qed.

(** Until it is detached, a node that hears only vectors it can parse never panics, and there is always one
    timer, or one whose function is about to run *)
Theorem C64_alive : forall me os, Forall op_fine os -> exists s, sn_run (sn_attach me) os = Ok s /\
  ((exists t b, n_sched s = [(t, b)]) \/ (n_sched s = [] /\ n_fired s <> [])).
Proof.
  intros me os FO. destruct (run_fine os (sn_attach me) FO eq_refl) as (s & E & _). exists s. split; [auto|].
  assert (T : timed s) by (eapply timed_run; [|exact FO|exact E]; left; exists false; reflexivity). destruct T as [(b & T)|(T1 & T2)]; [eauto|right]. split; [auto|]. intros X. rewrite X in T2. destruct T2.
Qed.
Print Assumptions C64_alive.
Example C64_alive_case : exists s, sn_run (sn_attach A) [SnFire 0; SnSync (Some [(A, 0%N)]); SnTimer 0; SnFire 0; SnNew true] = Ok s /\ n_sched s = [] /\ n_fired s = [2%nat] /\ Forall op_fine [SnFire 0; SnSync (Some [(A, 0%N)]); SnTimer 0; SnFire 0; SnNew true].
Proof. eexists. split; [vm_compute; reflexivity|]. split; [reflexivity|]. split; [reflexivity|]. repeat constructor. Qed.
(** a vector that cannot be parsed; a Sync Interest with news after the node was detached; detaching twice *)
Theorem C64_alive_refuted : sn_run (sn_attach A) [SnSync None] = Panic /\ sn_run (sn_attach A) [SnDetach; SnSync (Some [(B, 1%N)])] = Panic /\ sn_run (sn_attach A) [SnDetach; SnDetach] = Panic
  /\ decode_bv 20 [[202; 3; 7; 5; 1]]%N = Ok None.
Proof. repeat split; vm_compute; reflexivity. Qed.
Print Assumptions C64_alive_refuted.

(** A node that is detached while no timer function is waiting sends nothing more *)
Theorem C64_detach_partial : forall me os s, Forall op_fine os -> sn_run (sn_attach me) os = Ok s -> n_fired s = [] ->
  exists s1, sn_step s SnDetach = Ok s1 /\ n_sched s1 = [] /\ forall os2, Forall (fun o => match o with SnFire _ | SnTimer _ => True | _ => False end) os2 -> sn_run s1 os2 = Ok s1.
Proof.
  intros me os s FO E NF. destruct (run_fine os (sn_attach me) FO eq_refl) as (s0 & E0 & C0). assert (s0 = s) by congruence. subst s0.
  assert (T : timed s) by (eapply timed_run; [|exact FO|exact E]; left; exists false; reflexivity).
  cbn [sn_step]. unfold on_detach. rewrite C0. eexists. split; [reflexivity|]. cbn [n_sched]. rewrite (timed_cancel s T), NF. split; [reflexivity|].
  induction os2 as [|o os2 IH]; intros F2; [reflexivity|]. inversion F2 as [|? ? F3 F4]; subst. cbn [sn_run]. destruct o as [?|k|k|?|]; try contradiction; cbn [sn_step n_sched n_fired]; destruct k; cbn [nth_error bind]; auto.
Qed.
Print Assumptions C64_detach_partial.
(** if the timer fired but its function has to wait for the lock, the node goes on sending for ever *)
Theorem C64_detach_refuted : exists s, sn_run (sn_attach A) [SnFire 0; SnDetach; SnTimer 0; SnFire 0; SnTimer 0] = Ok s /\ n_sent s = [[(A, 0%N)]; [(A, 0%N)]] /\ n_sched s <> [].
Proof. eexists. split; [vm_compute; reflexivity|]. split; [reflexivity|discriminate]. Qed.
Print Assumptions C64_detach_refuted.

(** The name under which a packet is published is the one GetDataName gives for its number, and different
    packets have different names *)
Theorem C64_names : forall base id q, get_data_name base id q = new_data_name base id q /\ new_data_name base id q = base ++ [mkComp 8 id; mkComp 58 (nat_enc q)].
Proof. intros. unfold get_data_name, new_data_name, own_prefix. rewrite <- app_assoc. split; reflexivity. Qed.
Print Assumptions C64_names.
Theorem C64_names_differ : forall base id q id' q', (q < two64)%N -> (q' < two64)%N -> get_data_name base id q = get_data_name base id' q' -> id = id' /\ q = q'.
Proof.
  intros base id q id' q' L L' E. unfold get_data_name in E. apply app_inv_head in E. injection E as -> E2. split; [reflexivity|].
  pose proof (parse_nat_enc q L) as R1. pose proof (parse_nat_enc q' L') as R2. rewrite E2 in R1. congruence.
Qed.
Print Assumptions C64_names_differ.

(** The time to the next Sync Interest is the interval give or take an eighth, and in suppression half *)
Theorem C64_intervals_partial : forall intv r, (0 < intv)%Z -> (4 <= intv)%Z -> (0 <= r < intv / 4)%Z -> exists d, sync_intv intv r = Ok d /\ (8 * d >= 7 * intv)%Z /\ (8 * d <= 9 * intv + 7)%Z.
Proof.
  intros intv r P L R. unfold sync_intv. assert (Q : (1 <= intv / 4)%Z) by (apply Z.div_le_lower_bound; lia). destruct (Z.leb_spec (intv / 4) 0); [lia|]. eexists. split; [reflexivity|].
  pose proof (Z.div_mod intv 4 ltac:(lia)). pose proof (Z.mod_pos_bound intv 4 ltac:(lia)). pose proof (Z.div_mod intv 8 ltac:(lia)). pose proof (Z.mod_pos_bound intv 8 ltac:(lia)). split; lia.
Qed.
Print Assumptions C64_intervals_partial.
Theorem C64_agg_interval : forall intv r, (0 < intv)%Z -> (0 <= r < intv)%Z -> exists d, agg_intv intv r = Ok d /\ (2 * d >= intv)%Z /\ (2 * d <= 3 * intv)%Z.
Proof.
  intros intv r P R. unfold agg_intv. destruct (Z.leb_spec intv 0); [lia|]. eexists. split; [reflexivity|]. pose proof (Z.div_mod intv 2 ltac:(lia)). pose proof (Z.mod_pos_bound intv 2 ltac:(lia)). split; lia.
Qed.
Print Assumptions C64_agg_interval.
(** an interval that onAttach takes, and that panics *)
Theorem C64_intervals_refuted : exists intv, (0 < intv)%Z /\ forall r, sync_intv intv r = Panic.
Proof. exists 3%Z. split; [lia|reflexivity]. Qed.
Print Assumptions C64_intervals_refuted.
Example C64_intervals_case : sync_intv 30000000000 7499999999 = Ok 33749999999%Z /\ agg_intv 200000000 0 = Ok 100000000%Z.
Proof. split; reflexivity. Qed.

(** A vector that is sent is the vector that is received, however the bytes are divided *)
Theorem C64_wire : forall v, Forall (fun e => (snd e < two64)%N) v -> (zlen (bv_bytes v) < size_limit)%Z ->
  exists w, encode_bv v = Ok w /\ concat w = bv_bytes v /\
  forall w' F, concat w' = concat w -> nonempty_segs w' -> (length (concat w) < F)%nat -> decode_bv F w' = Ok (Some v).
Proof. exact bv_round_trip. Qed.
Print Assumptions C64_wire.
Example C64_wire_case : encode_bv [(A, 1%N); (B, 300%N)] = Ok [[202; 6; 7; 1; 65; 204; 1; 1; 202; 7; 7; 1; 66; 204; 2; 1; 44]%N]
  /\ decode_bv 20 [[202; 6; 7]; [1; 65; 204; 1; 1; 202; 7; 7; 1; 66; 204; 2; 1]; [44]]%N = Ok (Some [(A, 1%N); (B, 300%N)]).
Proof. split; vm_compute; reflexivity. Qed.

(** ** C65: a group *)

(** Whatever is lost, repeated or reordered: a node knows its own number exactly, never more of another than
    that one has published, and only nodes of the group; its own data are never reported as missing, and those
    of each other node once each, up to the number it knows *)
Theorem C65_safe : forall ids os g, NoDup ids -> grun (map sn_attach ids) os g -> (gpublished os + 2 < two64)%N ->
  map n_id g = ids /\ forall s, In s g ->
    seq_in (n_id s) (n_local s) = n_seq s /\ reported (n_id s) (n_miss s) = [] /\
    (forall v id x, (v = n_local s \/ In v (n_sent s)) -> In (id, x) v -> exists t, In t g /\ n_id t = id /\ (x <= n_seq t)%N) /\
    (forall id, id <> n_id s -> chain 1 (reported id (n_miss s)) (seq_in id (n_local s) + 1)).
Proof.
  intros ids os g ND R L. destruct (ginv_run _ _ _ R 0%N (ginv_start _ ND) ltac:(lia)) as ((_ & FA) & MI & _). rewrite map_map, map_id in MI. split; [auto|].
  intros s I. rewrite Forall_forall in FA. destruct (FA s I) as (_ & M2 & _ & _ & M5 & M6 & M7 & M8). split; [auto|]. split; [auto|]. split; [|auto]. intros v id x [->|V] J; [apply M6; auto|eapply M7; eauto].
Qed.
Print Assumptions C65_safe.

(** No step of the group panics *)
Theorem C65_no_panic : forall ids os g, NoDup ids -> grun (map sn_attach ids) os g -> (gpublished os + 2 < two64)%N ->
  (forall i o, (i < length g)%nat -> gop_fine (GLocal i o) -> exists g', gstep g (GLocal i o) g') /\
  (forall i j k t v, (i < length g)%nat -> nth_error g j = Some t -> nth_error (n_sent t) k = Some v -> exists g', gstep g (GDeliver i j k) g').
Proof.
  intros ids os g ND R L. destruct (ginv_run _ _ _ R 0%N (ginv_start _ ND) ltac:(lia)) as ((_ & FA) & _). rewrite Forall_forall in FA. split.
  - intros i o I F. destruct (nth_error g i) as [s|] eqn:E; [|apply nth_error_None in E; lia]. apply nth_error_split in E. destruct E as (a & b & -> & <-).
    destruct (FA s (in_mid _ _ _)) as (_ & _ & _ & C0 & _). destruct (step_fine s o) as (s' & E & _); [destruct o as [[?|]|?|?|?|]; try contradiction; exact Logic.I|auto|]. eexists. econstructor; eauto.
  - intros i j k t v I T V. destruct (nth_error g i) as [s|] eqn:E; [|apply nth_error_None in E; lia]. apply nth_error_split in E. destruct E as (a & b & -> & <-).
    destruct (FA s (in_mid _ _ _)) as (_ & _ & _ & C0 & _). destruct (step_fine s (SnSync (Some v)) Logic.I C0) as (s' & E & _). eexists. econstructor; eauto.
Qed.
Print Assumptions C65_no_panic.

(** If a vector with the last number of node j reached node i, then node i knows that number for good, and has
    reported each packet of j once *)
Theorem C65_converge : forall ids pre i j k post g1 t v g2 g si sj, NoDup ids -> (gpublished (pre ++ post) + 2 < two64)%N ->
  grun (map sn_attach ids) pre g1 -> nth_error g1 j = Some t -> nth_error (n_sent t) k = Some v -> gstep g1 (GDeliver i j k) g2 -> grun g2 post g ->
  nth_error g i = Some si -> forall p, p <> i -> nth_error g p = Some sj -> In (n_id sj, n_seq sj) v ->
  seq_in (n_id sj) (n_local si) = n_seq sj /\ chain 1 (reported (n_id sj) (n_miss si)) (n_seq sj + 1).
Proof.
  intros ids pre i j k post g1 t v g2 g si sj ND L R1 T V E R2 Si p NE Sj I.
  pose proof (delivered _ _ _ _ _ _ _ _ _ _ _ _ _ _ ND R1 T V E R2 L Si I) as GE.
  assert (R : grun (map sn_attach ids) (pre ++ GDeliver i j k :: post) g) by (eapply grun_app; [exact R1|]; econstructor; [exact Logic.I|exact E|exact R2]).
  assert (L2 : (gpublished (pre ++ GDeliver i j k :: post) + 2 < two64)%N) by (rewrite gpublished_app in *; rewrite gpublished_cons; cbn [is_new]; lia).
  destruct (ginv_run _ _ _ R 0%N (ginv_start _ ND) ltac:(lia)) as ((NG & FA) & _). rewrite Forall_forall in FA.
  assert (DI : n_id sj <> n_id si).
  { intros X. apply NE. apply (map_nth_error n_id) in Si, Sj. rewrite X in Sj. rewrite NoDup_nth_error in NG. apply NG; [apply nth_error_Some; congruence|congruence]. }
  destruct (FA si (nth_error_In _ _ Si)) as ((N1 & _) & _ & _ & _ & _ & M6 & _ & M8).
  assert (EQ : seq_in (n_id sj) (n_local si) = n_seq sj).
  { destruct (sv_get (n_id sj) (n_local si)) as [x|] eqn:G.
    - destruct (M6 _ _ (get_in _ _ _ G)) as (u & U1 & U2 & U3). assert (u = sj) by (eapply node_eq; [exact NG|auto|eapply nth_error_In; eauto|auto]). subst u. unfold seq_in in *. rewrite G in *. lia.
    - unfold seq_in in *. rewrite G in *. lia. }
  split; [auto|]. rewrite <- EQ. apply M8. auto.
Qed.
Print Assumptions C65_converge.
(** B hears of A's second packet from C, after A's own vectors to B were lost *)
Ltac local_step := eapply GrCons; [exact Logic.I|eapply gstep_at; vm_compute; reflexivity|].
Ltac deliver_step := eapply GrCons; [exact Logic.I|eapply gdeliver_at; vm_compute; reflexivity|].
Example C65_converge_case : exists g1 t g2 g si sj,
  grun (map sn_attach [A; B; C]) [GLocal 0 (SnNew true); GLocal 0 (SnNew true); GDeliver 2 0 1; GLocal 2 (SnFire 0); GLocal 2 (SnTimer 0)] g1
  /\ nth_error g1 2 = Some t /\ nth_error (n_sent t) 0 = Some [(C, 0); (A, 2)]%N /\ gstep g1 (GDeliver 1 2 0) g2 /\ grun g2 [GLocal 1 (SnNew true); GDeliver 0 1 0] g
  /\ nth_error g 1 = Some si /\ nth_error g 0 = Some sj /\ n_id sj = A /\ n_seq sj = 2%N /\ reported A (n_miss si) = [(1, 3)]%N /\ n_local sj = [(A, 2); (B, 1); (C, 0)]%N.
Proof.
  do 6 eexists. split; [do 2 local_step; deliver_step; do 2 local_step; constructor|].
  split; [vm_compute; reflexivity|]. split; [vm_compute; reflexivity|]. split; [eapply gdeliver_at; vm_compute; reflexivity|].
  split; [local_step; deliver_step; constructor|]. split; [vm_compute; reflexivity|]. split; [vm_compute; reflexivity|]. repeat split; vm_compute; reflexivity.
Qed.
