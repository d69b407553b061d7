(** State Vector Sync (pkg/sync).  [hash] is Name.Hash; [same_node hash n m] says that two names have the
    same hash.  All theorems hold of every hash function. *)
From Verif Require Import Base BaseProofs PrimModel PrimProofs ReaderModel ReaderSpec ReaderProofs NameModel NameProofs CodecModel CodecLib CodecSpec CodecSpec2 CodecSpec4 CodecPar PropsName SyncModel SyncSpec SyncProofs SyncProofs2 SyncProofs3 SyncWire.

(** names and a hash for the examples *)
Definition na : name := [mkComp 8 [97%N]].
Definition nb : name := [mkComp 8 [98%N]].
Definition hx (n : name) : N := match n with [mkComp _ [x]] => x | _ => 0%N end.

(** ** C32: sequence numbers never decrease *)
Theorem C32_monotone : forall hash os n, no_wrap hash svs_new os ->
  forall pre post, os = pre ++ post -> (seq_of hash (s_run hash svs_new pre) n <= seq_of hash (s_run hash svs_new os) n)%N.
Proof.
  intros hash os n W pre post ->. unfold s_run. rewrite fold_left_app. apply run_mono. intros a m b E. subst post.
  specialize (W (pre ++ a) m b). unfold s_run in W. rewrite fold_left_app in W. apply W. rewrite <- app_assoc. reflexivity.
Qed.
Print Assumptions C32_monotone.

Theorem C32_set : forall hash n v s,
  fst (set_seq hash n v s) = (seq_of hash s n <? v)%N /\
  forall m, seq_of hash (snd (set_seq hash n v s)) m = if same_node hash n m then N.max v (seq_of hash s n) else seq_of hash s m.
Proof. intros. split; apply set_ok. Qed.
Print Assumptions C32_set.

Theorem C32_incr : forall hash n s, (seq_of hash s n + 1 < two64)%N ->
  fst (incr_seq hash n s) = (seq_of hash s n + 1)%N /\
  forall m, seq_of hash (snd (incr_seq hash n s)) m = if same_node hash n m then (seq_of hash s n + 1)%N else seq_of hash s m.
Proof. intros hash n s H. destruct (incr_ok hash n s) as (A & B & _). rewrite N.mod_small in A, B by auto. auto. Qed.
Print Assumptions C32_incr.

(** the exception: IncrSeqNo at 2^64 - 1 *)
Theorem C32_wrap : forall hash n s, seq_of hash s n = (two64 - 1)%N -> fst (incr_seq hash n s) = 0%N /\ seq_of hash (snd (incr_seq hash n s)) n = 0%N.
Proof. intros hash n s H. destruct (incr_ok hash n s) as (A & B & _). rewrite A, B, H. unfold same_node. rewrite N.eqb_refl. split; reflexivity. Qed.
Print Assumptions C32_wrap.

Example C32_example : let os := [OMain; OIncr na; ORecv [(na, 7%N, 5%Z); (nb, 2%N, 5%Z)]; OSet na 6%N; OIncr na; OSend] in
  no_wrap hx svs_new os /\ map (fun k => seq_of hx (s_run hx svs_new (firstn k os)) na) [0; 1; 2; 3; 4; 5; 6]%nat = [0; 0; 1; 7; 7; 8; 8]%N
  /\ seq_of hx (s_run hx svs_new os) nb = 2%N.
Proof.
  split; [|split; vm_compute; reflexivity]. intros pre m post E.
  do 6 (destruct pre as [|? pre]; cbn [app] in E; [inversion E; subst; vm_compute; reflexivity|injection E as <- E]). destruct pre; discriminate E.
Qed.

(** ** C33: every number is announced once, in order *)

(** The number of a node grows through consecutive ranges, starting after 0; some come from
    SetSeqNo and IncrSeqNo, all others are exactly the ones passed to the callback, in this order. *)
Theorem C33_ranges : forall hash os n, no_wrap hash svs_new os -> fits64 os ->
  chain 0 (map snd (ranges hash n svs_new os)) (seq_of hash (s_run hash svs_new os) n)
  /\ announced hash n (s_updates (s_run hash svs_new os)) = map snd (filter fst (ranges hash n svs_new os)).
Proof. intros hash os n W FT. exact (ranges_ok hash os svs_new n W FT). Qed.
Print Assumptions C33_ranges.

(** Every number up to the current one is announced exactly once or was published locally, not both; no
    other number is announced. *)
Theorem C33_once : forall hash os n k, no_wrap hash svs_new os -> fits64 os ->
  (length (filter (fun r => (fst r <=? k) && (k <=? snd r))%N (announced hash n (s_updates (s_run hash svs_new os))))
   + length (filter (fun r => (fst r <=? k) && (k <=? snd r))%N (map snd (filter (fun x => negb (fst x)) (ranges hash n svs_new os)))))%nat
  = if ((0 <? k) && (k <=? seq_of hash (s_run hash svs_new os) n))%N then 1%nat else 0%nat.
Proof.
  intros hash os n k W FT. destruct (ranges_ok hash os svs_new n W FT) as [C A]. cbn [svs_new s_updates announced filter map app] in A. rewrite A.
  pose proof (chain_count _ _ _ k C) as K. change (seq_of hash svs_new n) with 0%N in K. rewrite <- K. clear. unfold within. induction (ranges hash n svs_new os) as [|[[] r] l IH]; cbn [filter fst negb map snd]; [reflexivity| |]; destruct ((fst r <=? k) && (k <=? snd r))%N; cbn [length]; lia.
Qed.
Print Assumptions C33_once.

(** the announced numbers were in the vector *)
Theorem C33_source : forall hash es s, exists us, s_updates (s_step hash s (ORecv es)) = s_updates s ++ us
  /\ forall n lo hi, In (n, lo, hi) us -> In (n, hi) (map fst es).
Proof. intros hash es s. destruct (recv_ok hash es s) as (_ & (us & A & _ & B) & _). exists us. auto. Qed.
Print Assumptions C33_source.

(** False of nodes in the sense of names: for every hash of the bytes of a name there are two names that are
    taken for the same node, and the publications of the second are not announced. *)
Theorem C33_collision_refuted : forall h : buf -> N, exists n m, n <> m /\ Forall comp_ok n /\ Forall comp_ok m /\
  let s := s_run (name_hash h) svs_new [ORecv [(n, 5%N, 0%Z)]; ORecv [(m, 3%N, 0%Z)]] in
  (forall lo hi, ~ In (m, lo, hi) (s_updates s)) /\ seq_of (name_hash h) s m = 5%N.
Proof.
  intros h. destruct (C13_hash_input_refuted h) as (n & m & N1 & N2 & NE & _ & EH). exists n, m. split; [auto|]. split; [auto|]. split; [auto|].
  set (hash := name_hash h) in *. unfold s_run. cbn [fold_left]. set (s1 := s_step hash svs_new (ORecv [(n, 5%N, 0%Z)])). 
  assert (SN : same_node hash n m = true) by (unfold same_node; rewrite EH; apply N.eqb_refl).
  assert (SM : same_node hash m m = true) by (unfold same_node; apply N.eqb_refl).
  destruct (recv_ok hash [(n, 5%N, 0%Z)] svs_new) as (A1 & (us1 & A2 & _ & A3) & _). fold s1 in A1, A2. 
  destruct (recv_ok hash [(m, 3%N, 0%Z)] s1) as (B1 & (us2 & B2 & B4 & B3) & _). cbn [s_step].
  assert (Q1 : seq_of hash s1 m = 5%N) by (cbn [s_step] in A1; unfold s1; cbn [s_step]; rewrite A1; cbn [map fst best fold_right snd]; rewrite SN; reflexivity).
  assert (Q2 : seq_of hash (recv hash [(m, 3%N, 0%Z)] s1) m = 5%N) by (rewrite B1, Q1; cbn [map fst best fold_right snd]; rewrite SM; reflexivity).
  split; [|exact Q2]. intros lo hi IN. rewrite B2 in IN. apply in_app_iff in IN. destruct IN as [IN|IN].
  - unfold s1 in IN. cbn [s_step] in IN. rewrite A2 in IN. cbn [svs_new s_updates app] in IN. apply A3 in IN. cbn in IN. destruct IN as [IN|[]]. inversion IN. congruence.
  - assert (C : chain 5 (announced hash m us2) 5). { rewrite <- Q1 at 1. rewrite <- Q2. apply B4. intros e [<-|[]]. reflexivity. }
    assert (E : announced hash m us2 = []).
    { remember (announced hash m us2) as l. destruct l as [|r l]; [reflexivity|]. exfalso. inversion C as [|a b c d L X]; subst. apply chain_le in X. lia. }
    unfold announced in E. apply map_eq_nil in E. assert (F : In (m, lo, hi) (filter (fun u => same_node hash (fst (fst u)) m) us2)) by (apply filter_In; split; auto). rewrite E in F. exact F.
Qed.
Print Assumptions C33_collision_refuted.

Example C33_example : let os := [ORecv [(na, 3%N, 1%Z)]; OIncr na; ORecv [(nb, 1%N, 2%Z); (na, 2%N, 2%Z)]; ORecv [(na, 9%N, 3%Z)]] in
  no_wrap hx svs_new os /\ fits64 os /\ announced hx na (s_updates (s_run hx svs_new os)) = [(1, 3); (5, 9)]%N
  /\ ranges hx na svs_new os = [(true, (1, 3)); (false, (4, 4)); (true, (5, 9))]%N.
Proof.
  split; [|split; [|split; vm_compute; reflexivity]].
  - intros pre m post E. do 4 (destruct pre as [|? pre]; cbn [app] in E; [inversion E; subst; vm_compute; reflexivity|injection E as <- E]). destruct pre; discriminate E.
  - intros es e I J. cbn [In] in I. destruct I as [I|[I|[I|[I|[]]]]]; inversion I; subst; cbn [In] in J; repeat destruct J as [<-|J]; try reflexivity; destruct J.
Qed.

(** ** C34: suppression *)

(** A participant enters suppression in [os0] followed by the vector [es] and stays in it during [os].
    When the timer expires it sends its vector if and only if it knows something newer than all vectors
    received since; otherwise it leaves suppression. *)
Theorem C34_timer : forall hash os0 es os,
  let s0 := s_run hash svs_new os0 in let s := s_step hash s0 (ORecv es) in let s' := s_run hash s os in
  s_suppress s0 = false -> s_suppress s = true -> keeps_suppress hash s os ->
  ((exists n, (best_of hash n (received os) < seq_of hash s' n)%N) -> s_pending (s_step hash s' OTimer) = S (s_pending s'))
  /\ (~ (exists n, (best_of hash n (received os) < seq_of hash s' n)%N) ->
        s_pending (s_step hash s' OTimer) = s_pending s' /\ s_suppress (s_step hash s' OTimer) = false).
Proof. intros hash. exact (suppress_timer hash). Qed.
Print Assumptions C34_timer.

(** otherwise the timer always sends *)
Theorem C34_steady : forall hash s, s_suppress s = false -> s_pending (s_step hash s OTimer) = S (s_pending s).
Proof. exact steady_timer. Qed.
Print Assumptions C34_steady.

(** what a started send does *)
Theorem C34_sends : forall hash s, (0 < s_pending s)%nat -> s_running s = true ->
  s_sent (s_step hash s OSend) = s_sent s ++ [vector s] /\ s_suppress (s_step hash s OSend) = false.
Proof. intros hash s P R. split; [apply send_sent; auto|]. cbn [s_step]. unfold send. destruct (s_pending s); [lia|]. cbn [with_pending s_running]. rewrite R. reflexivity. Qed.
Print Assumptions C34_sends.

(** When suppression is entered: the vector is behind on a node that was not updated in the last 200 ms;
    or it is not behind on any of its nodes but a node is missing. *)
Theorem C34_enter : forall hash os es, let s := s_run hash svs_new os in
  no_wrap hash svs_new os -> s_suppress s = false -> NoDup (map (fun e => hash (fst (fst e))) es) ->
  s_suppress (s_step hash s (ORecv es)) = true <->
  (exists n v now, In (n, v, now) es /\ (v < seq_of hash s n)%N /\ (recent hash n os + SuppressionPeriod < now)%Z)
  \/ (forall n v now, In (n, v, now) es -> (seq_of hash s n <= v)%N) /\ exists n, (0 < seq_of hash s n)%N /\ ~ in_vector hash n (map fst es).
Proof. exact enter_suppression. Qed.
Print Assumptions C34_enter.

(** A vector that lacks a node altogether is dropped, without entering suppression, when it is also behind on
    a node that was just updated: the sender is not told about the missing node. *)
Theorem C34_missing_refuted : exists os es, no_wrap hx svs_new os /\ let s := s_run hx svs_new os in
  s_suppress s = false /\ (0 < seq_of hx s nb)%N /\ ~ in_vector hx nb (map fst es) /\ s_suppress (s_step hx s (ORecv es)) = false
  /\ s_pending (s_step hx s (ORecv es)) = s_pending s.
Proof.
  exists [ORecv [(nb, 4%N, 0%Z)]; ORecv [(nb, 4%N, 1%Z); (na, 2%N, 1000%Z)]], [(na, 1%N, 2000%Z)].
  split; [intros pre m post E; do 2 (destruct pre as [|? pre]; cbn [app] in E; [inversion E|injection E as <- E]); destruct pre; discriminate E|].
  cbv zeta. split; [vm_compute; reflexivity|]. split; [vm_compute; reflexivity|]. split; [|split; vm_compute; reflexivity].
  intros (e & [<-|[]] & X). vm_compute in X. discriminate X.
Qed.
Print Assumptions C34_missing_refuted.

Example C34_example : let os0 := [OMain; OIncr na; ORecv [(nb, 1%N, 0%Z); (na, 1%N, 0%Z)]] in let es := [(nb, 1%N, 5000000000%Z)] in
  let s0 := s_run hx svs_new os0 in let s := s_step hx s0 (ORecv es) in
  no_wrap hx svs_new os0 /\ s_suppress s0 = false /\ s_suppress s = true
  /\ keeps_suppress hx s [ORecv [(nb, 1%N, 6000000000%Z)]]
  /\ s_pending (s_step hx (s_run hx s [ORecv [(nb, 1%N, 6000000000%Z)]]) OTimer) = 2%nat
  /\ s_suppress (s_run hx s [ORecv [(nb, 1%N, 6000000000%Z); (na, 1%N, 6000000000%Z)]]) = false.
Proof.
  cbv zeta. split; [|split; [vm_compute; reflexivity|]; split; [vm_compute; reflexivity|]; split; [|split; vm_compute; reflexivity]].
  - intros pre m post E. do 3 (destruct pre as [|? pre]; cbn [app] in E; [inversion E; subst; vm_compute; reflexivity|injection E as <- E]). destruct pre; discriminate E.
  - intros pre post E. destruct pre as [|o pre]; [vm_compute; reflexivity|]. cbn [app] in E. injection E as <- E. destruct pre as [|? pre]; [vm_compute; reflexivity|discriminate E].
Qed.

(** ** C35: convergence *)

(** merging is the component-wise maximum ... *)
Theorem C35_merge : forall hash es s m, seq_of hash (s_step hash s (ORecv es)) m = N.max (best hash m (map fst es)) (seq_of hash s m).
Proof. intros hash es s. exact (proj1 (recv_ok hash es s)). Qed.
Print Assumptions C35_merge.

(** ... so it is commutative, associative and idempotent: the result of any sequence of vectors
    depends only on the set of vectors *)
Theorem C35_order : forall hash vs ws s m, (forall es, In es vs <-> In es ws) ->
  seq_of hash (s_run hash s (map ORecv vs)) m = seq_of hash (s_run hash s (map ORecv ws)) m.
Proof.
  intros hash vs ws s m H.
  assert (G : forall us s, seq_of hash (s_run hash s (map ORecv us)) m = N.max (best_of hash m (map (map fst) us)) (seq_of hash s m)).
  { induction us as [|es us IH]; intros x; [cbn; lia|]. cbn [map]. change (s_run hash x (ORecv es :: map ORecv us)) with (s_run hash (s_step hash x (ORecv es)) (map ORecv us)).
    rewrite IH, C35_merge. cbn [best_of fold_right]. fold (best_of hash m (map (map fst) us)). lia. }
  assert (LE : forall a b : list (list (name * N * Z)), (forall es, In es a -> In es b) -> (best_of hash m (map (map fst) a) <= best_of hash m (map (map fst) b))%N).
  { assert (IN : forall (b : list (list (name * N * Z))) es, In es b -> (best hash m (map fst es) <= best_of hash m (map (map fst) b))%N).
    { induction b as [|x b IH]; intros es I; [contradiction|]. cbn [map best_of fold_right]. fold (best_of hash m (map (map fst) b)). destruct I as [->|I]; [lia|]. specialize (IH es I). lia. }
    induction a as [|x a IH]; intros b S; [cbn; lia|]. cbn [map best_of fold_right]. fold (best_of hash m (map (map fst) a)). specialize (IH b (fun es I => S es (or_intror I))). specialize (IN b x (S x (or_introl eq_refl))). lia. }
  rewrite !G. f_equal. apply N.le_antisymm; apply LE; intros es; apply H.
Qed.
Print Assumptions C35_order.

(** Any number of participants in any history [os1], then a history [os2] without publications in which
    every participant sends its vector once and every other participant gets it; other vectors,
    old or new, may be delivered to anybody at any time, in any order, more than once or never.
    In the end all participants agree on the greatest number anybody knew. *)
Theorem C35_converges : forall hash k os1 net os2 net2,
  n_run hash (repeat svs_new k) os1 net -> n_no_wrap hash (repeat svs_new k) os1 ->
  n_run hash net os2 net2 -> no_publication os2 ->
  (forall i j, (i < k)%nat -> (j < k)%nat -> i <> j -> reaches hash net os2 j i) ->
  forall i s, nth_error net2 i = Some s -> forall n, seq_of hash s n = n_best hash n net.
Proof. exact converges. Qed.
Print Assumptions C35_converges.

Ltac n_go := first [constructor; fail | eapply RunCons; [first [eapply StLocal; [reflexivity|intros ?; discriminate] | eapply StDeliver; [reflexivity|reflexivity|vm_compute; reflexivity|reflexivity]]|cbn [firstn skipn app]; n_go]].
Ltac safe_step := intros ? ? E; inversion E; subst; intros ? X; vm_compute in X; inversion X; subst; vm_compute; reflexivity.
Ltac nw_go := first [apply no_wrap_nil | eapply no_wrap_cons; [eapply StLocal; [reflexivity|intros ?; discriminate]|safe_step|cbn [firstn skipn app]; nw_go]].

Example C35_example : exists net net2, let os1 := [NLocal 0 OMain; NLocal 0 (OIncr na); NLocal 1 OMain; NLocal 1 (OIncr nb); NLocal 1 (OIncr nb)] in
  let os2 := [NLocal 0 OSend; NDeliver 1 0 0 [(na, 1%N, 1%Z)]; NLocal 1 OSend; NDeliver 0 1 0 [(na, 1%N, 2%Z); (nb, 2%N, 2%Z)]] in
  n_run hx (repeat svs_new 2) os1 net /\ n_no_wrap hx (repeat svs_new 2) os1 /\ n_run hx net os2 net2 /\ no_publication os2
  /\ (forall i j, (i < 2)%nat -> (j < 2)%nat -> i <> j -> reaches hx net os2 j i)
  /\ map (fun s => (seq_of hx s na, seq_of hx s nb)) net2 = [(1, 2); (1, 2)]%N.
Proof.
  eexists _, _. cbv zeta. cbn [repeat]. split; [n_go|]. split; [nw_go|]. split; [n_go|].
  split; [intros i m v; split; intros X; cbn [In] in X; repeat destruct X as [X|X]; try discriminate X; destruct X|].
  split; [|vm_compute; reflexivity].
  intros i j Hi Hj NE. destruct i as [|[|i]], j as [|[|j]]; try lia.
  - eexists [NLocal 0 OSend; NDeliver 1 0 0 [(na, 1%N, 1%Z)]], [], [], _, _, 0%nat, _.
    split; [reflexivity|]. split; [n_go|]. split; [reflexivity|]. split; [vm_compute; reflexivity|]. split; [vm_compute; lia|vm_compute; reflexivity].
  - eexists [], [], [NLocal 1 OSend; NDeliver 0 1 0 [(na, 1%N, 2%Z); (nb, 2%N, 2%Z)]], _, _, 0%nat, _.
    split; [reflexivity|]. split; [n_go|]. split; [reflexivity|]. split; [vm_compute; reflexivity|]. split; [vm_compute; lia|vm_compute; reflexivity].
Qed.

(** ** C51: a Sync Interest carries the state of its sender *)

(** the vector has an entry for every node with publications, the number is the known one, and the
    entries are in the canonical order of names, one per name *)
Theorem C51_vector : forall hash os, let s := s_run hash svs_new os in
  (forall n v, In (n, v) (vector s) -> seq_of hash s n = v)
  /\ (forall n, (0 < seq_of hash s n)%N -> in_vector hash n (vector s))
  /\ sorted_names (vector s).
Proof.
  intros hash os s. assert (I : SInv hash s) by (apply run_inv; apply inv_new).
  split; [intros; eapply vector_entry; eauto|]. split; [intros; apply vector_has; auto|eapply vector_sorted; eauto].
Qed.
Print Assumptions C51_vector.

(** there is only one such list: the order in which the Go map is iterated does not matter *)
Theorem C51_unique : forall a b, sorted_names a -> sorted_names b -> (forall e, In e a <-> In e b) -> a = b.
Proof. exact sorted_unique. Qed.
Print Assumptions C51_unique.

(** encoded as in the specification of State Vector Sync, and decoded by the receiver, however the parameters are fragmented *)
Theorem C51_encode : forall v, exists w, encode_sv v = Ok w /\ concat w = sv_bytes v.
Proof. exact sv_encode. Qed.
Print Assumptions C51_encode.

Theorem C51_received : forall v w F, Forall (fun e => name_typed (fst e) /\ (snd e < two64)%N) v ->
  concat w = sv_bytes v -> (zlen (sv_bytes v) < size_limit)%Z -> (length (sv_bytes v) < F)%nat ->
  on_sync F (Some w) = Ok (Some v).
Proof. exact sv_round_trip. Qed.
Print Assumptions C51_received.

Example C51_example : let v := vector (s_run hx svs_new [OIncr nb; ORecv [(na, 300%N, 0%Z)]]) in
  v = [(na, 300%N); (nb, 1%N)] /\ Forall (fun e => name_typed (fst e) /\ (snd e < two64)%N) v
  /\ sv_bytes v = [201; 21; 202; 9; 7; 3; 8; 1; 97; 204; 2; 1; 44; 202; 8; 7; 3; 8; 1; 98; 204; 1; 1]%N
  /\ on_sync 100 (Some [sv_bytes v]) = Ok (Some v).
Proof.
  cbv zeta. split; [vm_compute; reflexivity|]. split.
  - assert (T : name_typed na /\ name_typed nb) by (split; split; repeat constructor; try reflexivity; vm_compute; discriminate).
    change (Forall (fun e : name * N => name_typed (fst e) /\ (snd e < two64)%N) [(na, 300%N); (nb, 1%N)]).
    constructor; [split; [apply T|reflexivity]|constructor; [split; [apply T|reflexivity]|constructor]].
  - split; vm_compute; reflexivity.
Qed.

(** ** C52: parameters of received Sync Interests *)

(** Whatever the parameters are, if they contain no huge numbers, they are parsed or ignored. *)
Theorem C52_total_partial : forall w F, bytes_ok (concat w) -> no_huge_number (concat w) -> (zlen (concat w) < mem_limit)%Z -> (length (concat w) < F)%nat ->
  exists x, on_sync F (Some w) = Ok x.
Proof. exact on_sync_safe. Qed.
Print Assumptions C52_total_partial.

(** A Sync Interest with a name of length 2^63 panics in a goroutine, which ends the program. *)
Theorem C52_huge_refuted : exists w, bytes_ok (concat w) /\ forall F, on_sync (200 + F) (Some w) = Panic.
Proof.
  exists [[201; 12; 202; 10; 7; 255; 128; 0; 0; 0; 0; 0; 0; 0]%N]. split; [repeat constructor|]. intros F. vm_compute. reflexivity.
Qed.
Print Assumptions C52_huge_refuted.

(** ** C53: stopping *)

(** Before Stop nothing goes wrong, and Stop returns if main runs; afterwards nothing goes wrong either if no
    goroutine of an earlier Sync Interest is left and no other arrives. *)
Theorem C53_stop_partial : forall os, ~ In PStop os ->
  exists p, p_run proc_new os = Ok p /\
  (p_main p = true -> exists p', p_step p PStop = Ok p' /\
     (p_flight p = [] -> forall os', (forall o, In o os' -> o = PTake \/ o = PMain \/ exists k, o = PPush k) -> exists p'', p_run p' os' = Ok p'')).
Proof.
  intros os NS.
  assert (G : forall os p, ~ In PStop os -> p_closed p = false -> exists p', p_run p os = Ok p' /\ p_closed p' = false).
  { clear. induction os as [|o os IH]; intros p NS C; [exists p; auto|]. cbn [p_run].
    assert (X : exists p1, p_step p o = Ok p1 /\ p_closed p1 = false).
    { destruct o; cbn [p_step]; try (eexists; split; [reflexivity|]; auto; fail).
      - destruct (nth_error (p_flight p) k); [|eauto]. rewrite C. destruct (128 <=? length (p_chan p))%nat; eexists; split; [reflexivity|auto|reflexivity|auto].
      - destruct (p_main p); eexists; (split; [reflexivity|auto]).
      - exfalso. apply NS. left. reflexivity. }
    destruct X as (p1 & X1 & X2). rewrite X1. cbn [bind]. apply IH; [|auto]. intros I. apply NS. right. auto. }
  destruct (G os proc_new NS eq_refl) as (p & R & C). exists p. split; [auto|]. intros M. cbn [p_step]. rewrite M, C. eexists. split; [reflexivity|]. intros FL os' H.
  rewrite FL. clear -H. generalize (p_chan p) as ch. generalize false as mn. revert H. induction os' as [|o os IH]; intros H mn ch; [eexists; reflexivity|]. cbn [p_run].
  specialize (IH (fun x I => H x (or_intror I))). destruct (H o (or_introl eq_refl)) as [->|[->|[k ->]]]; cbn [p_step p_flight p_main p_chan p_closed].
  - destruct mn; cbn [bind]; apply IH.
  - cbn [bind]. apply IH.
  - destruct k; cbn [nth_error bind]; apply IH.
Qed.
Print Assumptions C53_stop_partial.

(** Otherwise the program ends with a panic ("send on closed channel"), and a Stop right after Start, before
    main runs, does not return unless main starts later. *)
Theorem C53_stop_refuted : (exists v, p_run proc_new [PMain; PArrive v; PStop; PPush 0] = Panic) /\ p_run proc_new [PStop] = Hang.
Proof. split; [exists []|]; reflexivity. Qed.
Print Assumptions C53_stop_refuted.
