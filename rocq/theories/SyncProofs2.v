(** Proofs about State Vector Sync: suppression, vectors and groups. *)
From Coq Require Import Permutation.
From Verif Require Import Base BaseProofs PrimModel NameModel NameProofs OrderProofs SyncModel SyncSpec SyncProofs.

Section Proofs.
  Variable hash : name -> N.
  Notation seq_of := (seq_of hash).
  Notation same_node := (same_node hash).
  Notation SInv := (SInv hash).

  (** ** Suppression *)
  Lemma recv_cases : forall es s, exists s1 out drop rs, rloop hash es (s, false, true, []) = (s1, out, drop, rs)
    /\ let miss := existsb (fun kv => negb (existsb (N.eqb (fst kv)) rs)) (s_state s1) in
       recv hash es s = if negb out && negb miss then steady s1
                        else if (drop && out) || s_suppress s1 then s1 else with_suppress true [] s1.
  Proof.
    intros es s. unfold recv. fold (rloop hash es (s, false, true, [])). destruct (rloop hash es (s, false, true, [])) as [[[s1 out] drop] rs]. exists s1, out, drop, rs. split; [reflexivity|].
    cbv zeta. destruct out; cbn [negb andb]; [rewrite andb_true_r; reflexivity|]. destruct (existsb _ (s_state s1)); cbn [negb andb]; [rewrite andb_false_r; reflexivity|reflexivity].
  Qed.

  Lemma recv_suppressed : forall es s, s_suppress s = true -> s_suppress (recv hash es s) = true ->
    forall m, num (hash m) (s_merge (recv hash es s)) = N.max (best hash m (map fst es)) (num (hash m) (s_merge s)).
  Proof.
    intros es s A B m. destruct (recv_cases es s) as (s1 & out & drop & rs & L & R). apply loop_ok in L. destruct L as (_ & _ & L3 & L4 & _). cbv zeta in R. rewrite R in *.
    destruct (negb out && _); [discriminate B|]. rewrite L3, A, orb_true_r. apply L4. auto.
  Qed.

  Lemma step_suppressed : forall o s, s_suppress s = true -> s_suppress (s_step hash s o) = true ->
    forall m, num (hash m) (s_merge (s_step hash s o)) = N.max (best_of hash m (received [o])) (num (hash m) (s_merge s)).
  Proof.
    intros o s A B m. destruct o as [k v|k|k|es| | | | |]; cbn [s_step received best_of fold_right] in *; try (cbn; lia).
    - unfold set_seq in *. destruct (_ <=? _)%N; cbn [snd with_pending with_state s_merge]; rewrite hn_merge; lia.
    - unfold incr_seq. cbn [snd with_pending with_state s_merge]. rewrite hn_merge. lia.
    - unfold get_seq. cbn [snd]. rewrite hn_merge. lia.
    - rewrite recv_suppressed by auto. lia.
    - unfold timer_expired in *. destruct (_ && _); cbn; lia.
    - unfold send in *. destruct (s_pending s); [cbn; lia|]. cbn [with_pending s_running] in *. destruct (s_running s); cbn; lia.
  Qed.

  Lemma received_cons : forall o os, received (o :: os) = received [o] ++ received os.
  Proof. intros o os. destruct o; reflexivity. Qed.
  Lemma best_of_app : forall m a b, best_of hash m (a ++ b) = N.max (best_of hash m a) (best_of hash m b).
  Proof. intros m a b. unfold best_of. induction a as [|v a IH]; cbn [app fold_right]; [rewrite N.max_0_l; reflexivity|]. rewrite IH. apply N.max_assoc. Qed.

  Lemma run_suppressed : forall os s, keeps_suppress hash s os ->
    forall m, num (hash m) (s_merge (s_run hash s os)) = N.max (best_of hash m (received os)) (num (hash m) (s_merge s)).
  Proof.
    induction os as [|o os IH]; intros s K m; [cbn; lia|].
    change (s_run hash s (o :: os)) with (s_run hash (s_step hash s o) os). rewrite IH, received_cons, best_of_app, step_suppressed; [lia| | |].
    - apply (K [] (o :: os)). reflexivity.
    - apply (K [o] os). reflexivity.
    - intros pre post E. apply (K (o :: pre) post). rewrite E. reflexivity.
  Qed.

  Lemma entered : forall es s, s_suppress s = false -> s_suppress (recv hash es s) = true -> s_merge (recv hash es s) = [].
  Proof.
    intros es s A B. destruct (recv_cases es s) as (s1 & out & drop & rs & L & R). apply loop_ok in L. destruct L as (_ & _ & L3 & _). cbv zeta in R. rewrite R in *.
    destruct (negb out && _); [discriminate B|]. destruct (drop && out); cbn [orb] in *; [congruence|]. rewrite L3, A in *. reflexivity.
  Qed.

  Lemma known_newer : forall s, SInv s -> forall f : N -> N,
    existsb (fun kv => (f (fst kv) <? snd kv)%N) (s_state s) = true <-> exists n, (f (hash n) < seq_of s n)%N.
  Proof.
    intros s I f. rewrite existsb_exists. split.
    - intros ([h v] & IN & L). cbn [fst snd] in L. apply N.ltb_lt in L. apply in_mget in IN; [|apply I]. destruct (si_known _ _ I h v IN) as [n En].
      pose proof (si_names _ _ I h n En) as E. exists n. rewrite seq_num, E. unfold num. rewrite IN. auto.
    - intros (n & L). rewrite seq_num in L. unfold num in L. destruct (mget (hash n) (s_state s)) as [v|] eqn:E; [|lia]. exists (hash n, v). split; [apply mget_in; auto|]. apply N.ltb_lt. auto.
  Qed.

  Theorem suppress_timer : forall os0 es os, let s0 := s_run hash svs_new os0 in let s := s_step hash s0 (ORecv es) in let s' := s_run hash s os in
    s_suppress s0 = false -> s_suppress s = true -> keeps_suppress hash s os ->
    ((exists n, (best_of hash n (received os) < seq_of s' n)%N) -> s_pending (s_step hash s' OTimer) = S (s_pending s'))
    /\ (~ (exists n, (best_of hash n (received os) < seq_of s' n)%N) -> s_pending (s_step hash s' OTimer) = s_pending s' /\ s_suppress (s_step hash s' OTimer) = false).
  Proof.
    intros os0 es os s0 s s' A B K. assert (I : SInv s') by (apply run_inv; apply step_inv; apply run_inv; apply inv_new).
    assert (M : forall n, num (hash n) (s_merge s') = best_of hash n (received os)).
    { intros n. unfold s'. rewrite run_suppressed by auto. unfold s. cbn [s_step]. rewrite entered by auto. unfold num at 1. cbn [mget]. lia. }
    assert (SP : s_suppress s' = true) by (apply (K os []); rewrite app_nil_r; reflexivity).
    pose proof (known_newer s' I (fun h => num h (s_merge s'))) as KN. cbn [s_step]. unfold timer_expired. rewrite SP. cbn [andb].
    destruct (existsb _ (s_state s')); cbn [negb].
    - split; [reflexivity|]. intros NE. exfalso. apply NE. destruct (proj1 KN eq_refl) as (n & L). exists n. rewrite M in L. auto.
    - split; [|intros _; split; reflexivity]. intros (n & L). assert (X : false = true) by (apply KN; exists n; rewrite M; auto). discriminate X.
  Qed.

  (** what a participant not in suppression does on expiry of the timer *)
  Lemma steady_timer : forall s, s_suppress s = false -> s_pending (s_step hash s OTimer) = S (s_pending s).
  Proof. intros s E. cbn [s_step]. unfold timer_expired. rewrite E. reflexivity. Qed.

  (** ** Entering suppression.  Vectors with one entry per node. *)
  Definition one_each (es : list (name * N * Z)) : Prop := NoDup (map (fun e => hash (fst (fst e))) es).
  Definition stale (s : svs) (e : name * N * Z) : bool := (snd (fst e) <? seq_of s (fst (fst e)))%N.

  Lemma entry_other : forall n v now s out drop rs s' out' drop' rs', recv_entry hash (n, v, now) (s, out, drop, rs) = (s', out', drop', rs') ->
    (forall m, hash m <> hash n -> seq_of s' m = seq_of s m) /\ (forall h, h <> hash n -> mget h (s_mtime s') = mget h (s_mtime s)).
  Proof.
    intros n v now s out drop rs s' out' drop' rs' H. split.
    - intros m NE. apply entry_ok in H. destruct H as [H _]. rewrite H. unfold SyncSpec.same_node. destruct (N.eqb_spec (hash n) (hash m)); [congruence|reflexivity].
    - intros h NE. unfold recv_entry in H. rewrite !hn_state in H.
      assert (Q : forall s2, s_mtime (if s_suppress s2 then if (num (hash n) (s_merge s2) <? v)%N then with_suppress true (mset (hash n) v (s_merge s2)) s2 else s2 else s2) = s_mtime s2)
        by (clear; intros s2; destruct (s_suppress s2); [destruct (_ <? _)%N|]; reflexivity).
      destruct (num (hash n) (s_state s) <? v)%N; [|destruct (v <? num (hash n) (s_state s))%N]; apply (f_equal (fun x => fst (fst (fst x)))) in H; cbn [fst] in H; rewrite <- H, Q; [cbn [s_mtime]; rewrite mget_mset; destruct (N.eqb_spec (hash n) h); [congruence|]| |]; rewrite hn_mtime; reflexivity.
  Qed.

  (** an entry that is behind, of a node that was not updated in the last SuppressionPeriod *)
  Definition old (s : svs) (e : name * N * Z) : bool :=
    stale s e && (match mget (hash (fst (fst e))) (s_mtime s) with Some t => t | None => zero_time end + SuppressionPeriod <? snd e)%Z.
  Lemma loop_out : forall es s out drop rs s' out' drop' rs', one_each es -> rloop hash es (s, out, drop, rs) = (s', out', drop', rs') ->
    out' = (out || existsb (stale s) es) /\ drop' = (drop && negb (existsb (old s) es)).
  Proof.
    induction es as [|[[n v] now] es IH]; intros s out drop rs s' out' drop' rs' D H.
    - cbn in H. inversion H; subst. cbn. rewrite orb_false_r, andb_true_r. auto.
    - unfold rloop in H. cbn [fold_left] in H. destruct (recv_entry hash (n, v, now) (s, out, drop, rs)) as [[[s1 out1] drop1] rs1] eqn:E1.
      unfold one_each in D. cbn [map fst] in D. inversion D as [|x l NI ND]; subst.
      specialize (IH s1 out1 drop1 rs1 s' out' drop' rs' ND H). destruct IH as (I1 & I2).
      destruct (entry_other _ _ _ _ _ _ _ _ _ _ _ E1) as [O1 O2].
      assert (NB : forall e, In e es -> hash (fst (fst e)) <> hash n).
      { intros e I X. apply NI. rewrite <- X. change (hash (fst (fst e))) with ((fun e : name * N * Z => hash (fst (fst e))) e). apply in_map. auto. }
      assert (ST : forall e, In e es -> stale s1 e = stale s e) by (intros e I; unfold stale; rewrite O1; auto).
      assert (SO : forall e, In e es -> old s1 e = old s e) by (intros e I; unfold old; rewrite ST, O2; auto).
      assert (EX : forall f g : name * N * Z -> bool, (forall e, In e es -> f e = g e) -> existsb f es = existsb g es).
      { clear. intros f g ST. induction es as [|e es IHe]; [reflexivity|]. cbn [existsb]. rewrite ST by (left; reflexivity). rewrite IHe by (intros; apply ST; right; auto). reflexivity. }
      assert (D1 : drop1 = (drop && negb (old s (n, v, now)))).
      { clear - E1. unfold recv_entry in E1. rewrite !hn_state, <- seq_num, hn_mtime in E1. unfold old, stale. cbn [fst snd].
        destruct (N.ltb_spec (seq_of s n) v); [inversion E1; subst; destruct (N.ltb_spec v (seq_of s n)); [lia|rewrite andb_true_r; reflexivity]|].
        destruct (v <? seq_of s n)%N; inversion E1; subst; cbn [andb negb]; [|rewrite andb_true_r; reflexivity].
        destruct (_ <? _)%Z; cbn; [rewrite andb_false_r|rewrite andb_true_r]; reflexivity. }
      apply entry_ok in E1. destruct E1 as (_ & _ & _ & _ & _ & _ & _ & _ & _ & E1 & _).
      rewrite I1, I2, E1, D1. cbn [existsb]. rewrite (EX _ _ ST), (EX _ _ SO). change (stale s (n, v, now)) with (v <? seq_of s n)%N.
      rewrite <- orb_assoc, <- andb_assoc, negb_orb. auto.
  Qed.

  Lemma missing_iff : forall s rs, SInv s ->
    existsb (fun kv => negb (existsb (N.eqb (fst kv)) rs)) (s_state s) = true <-> exists h v, mget h (s_state s) = Some v /\ ~ In h rs.
  Proof.
    intros s rs I. rewrite existsb_exists. split.
    - intros ([h v] & IN & L). cbn [fst] in L. exists h, v. split; [apply in_mget; auto; apply I|]. intros IR. apply negb_true_iff in L.
      assert (X : existsb (N.eqb h) rs = true) by (apply existsb_exists; exists h; split; [auto|apply N.eqb_refl]). congruence.
    - intros (h & v & E & NI). exists (h, v). split; [apply mget_in; auto|]. cbn [fst]. apply negb_true_iff. destruct (existsb (N.eqb h) rs) eqn:X; [|reflexivity].
      apply existsb_exists in X. destruct X as (y & IY & EY). apply N.eqb_eq in EY. subst. contradiction.
  Qed.

  Lemma best_absent : forall n v, ~ in_vector hash n v -> best hash n v = 0%N.
  Proof.
    induction v as [|e v IH]; intros H; [reflexivity|]. cbn [best fold_right]. fold (best hash n v). destruct (same_node (fst e) n) eqn:E.
    - exfalso. apply H. exists e. split; [left; reflexivity|auto].
    - apply IH. intros (x & I & X). apply H. exists x. split; [right; auto|auto].
  Qed.

  (** known nodes have positive numbers *)
  Definition pos (s : svs) : Prop := forall h v, mget h (s_state s) = Some v -> (0 < v)%N.
  Lemma pos_mset : forall k v s s', pos s -> (0 < v)%N -> s_state s' = mset k v (s_state s) -> pos s'.
  Proof. intros k v s s' P L E h x. rewrite E, mget_mset. destruct (k =? h)%N; [intros X; inversion X; subst; auto|apply P]. Qed.
  Lemma pos_same : forall s s', pos s -> s_state s' = s_state s -> pos s'.
  Proof. intros s s' P E h x. rewrite E. apply P. Qed.
  Lemma pos_loop : forall es s out drop rs s' out' drop' rs', rloop hash es (s, out, drop, rs) = (s', out', drop', rs') -> pos s -> pos s'.
  Proof.
    induction es as [|[[n v] now] es IH]; intros s out drop rs s' out' drop' rs' H P; [cbn in H; inversion H; subst; auto|].
    unfold rloop in H. cbn [fold_left] in H. destruct (recv_entry hash (n, v, now) (s, out, drop, rs)) as [[[s1 out1] drop1] rs1] eqn:E1.
    eapply IH; [exact H|]. clear IH H. unfold recv_entry in E1. rewrite !hn_state in E1.
    assert (Q : forall s2, s_state (if s_suppress s2 then if (num (hash n) (s_merge s2) <? v)%N then with_suppress true (mset (hash n) v (s_merge s2)) s2 else s2 else s2) = s_state s2)
      by (clear; intros s2; destruct (s_suppress s2); [destruct (_ <? _)%N|]; reflexivity).
    destruct (N.ltb_spec (num (hash n) (s_state s)) v) as [L|L]; [|destruct (v <? num (hash n) (s_state s))%N]; apply (f_equal (fun x => fst (fst (fst x)))) in E1; cbn [fst] in E1; subst s1.
    - eapply (pos_mset (hash n) v s); [auto|lia|]. rewrite Q. reflexivity.
    - eapply pos_same; [exact P|]. rewrite Q. apply hn_state.
    - eapply pos_same; [exact P|]. rewrite Q. apply hn_state.
  Qed.
  Lemma pos_step : forall o s, (forall m, o = OIncr m -> (seq_of s m + 1 < two64)%N) -> pos s -> pos (s_step hash s o).
  Proof.
    intros o s W P. destruct o as [k v|k|k|es| | | | |]; cbn [s_step]; try (eapply pos_same; [exact P|reflexivity]).
    - unfold set_seq. rewrite hn_state. destruct (N.leb_spec v (num (hash k) (s_state s))); cbn [snd]; [eapply pos_same; [exact P|apply hn_state]|].
      eapply (pos_mset (hash k) v s); [auto|lia|reflexivity].
    - unfold incr_seq. cbn [snd]. rewrite hn_state. eapply (pos_mset (hash k) _ s); [auto| |reflexivity].
      specialize (W k eq_refl). rewrite seq_num in W. rewrite N.mod_small by auto. lia.
    - unfold get_seq. cbn [snd]. eapply pos_same; [exact P|apply hn_state].
    - destruct (recv_split hash es s) as (s1 & out & drop & rs & L & R). apply (pos_same s1); [eapply pos_loop; eauto|]. destruct R as [->|[->| ->]]; reflexivity.
    - unfold timer_expired. destruct (_ && _); (eapply pos_same; [exact P|reflexivity]).
    - unfold send. destruct (s_pending s); [auto|]. cbn [with_pending s_running]. destruct (s_running s); (eapply pos_same; [exact P|reflexivity]).
  Qed.
  Lemma pos_run : forall os s, no_wrap hash s os -> pos s -> pos (s_run hash s os).
  Proof. induction os as [|o os IH]; intros s W P; [auto|]. cbn. apply IH; [apply no_wrap_tail; auto|]. apply pos_step; [eapply no_wrap_head; eauto|auto]. Qed.
  Lemma pos_new : pos svs_new.
  Proof. intros h v H. discriminate H. Qed.

  (** ** When a node was updated *)
  Lemma mtime_loop : forall es s out drop rs s' out' drop' rs' n, rloop hash es (s, out, drop, rs) = (s', out', drop', rs') ->
    mget (hash n) (s_mtime s') = update_in hash n (seq_of s n) es (mget (hash n) (s_mtime s)).
  Proof.
    induction es as [|[[k v] now] es IH]; intros s out drop rs s' out' drop' rs' n H; [cbn in H; inversion H; subst; reflexivity|].
    unfold rloop in H. cbn [fold_left] in H. destruct (recv_entry hash (k, v, now) (s, out, drop, rs)) as [[[s1 out1] drop1] rs1] eqn:E1.
    rewrite (IH _ _ _ _ _ _ _ _ n H). clear IH H. cbn [update_in].
    pose proof (proj1 (entry_ok _ _ _ _ _ _ _ _ _ _ _ _ E1) n) as SQ. rewrite SQ. unfold SyncSpec.same_node.
    destruct (N.eqb_spec (hash k) (hash n)) as [E|NE]; cbn [andb]; [|rewrite (proj2 (entry_other _ _ _ _ _ _ _ _ _ _ _ E1)) by congruence; reflexivity].
    unfold recv_entry in E1. rewrite !hn_state, <- seq_num in E1.
    assert (Q : forall s2, s_mtime (if s_suppress s2 then if (num (hash k) (s_merge s2) <? v)%N then with_suppress true (mset (hash k) v (s_merge s2)) s2 else s2 else s2) = s_mtime s2)
      by (clear; intros s2; destruct (s_suppress s2); [destruct (_ <? _)%N|]; reflexivity).
    replace (seq_of s k) with (seq_of s n) in E1 by (rewrite !seq_num, E; reflexivity).
    destruct (N.ltb_spec (seq_of s n) v) as [L|L]; [|destruct (v <? seq_of s n)%N]; apply (f_equal (fun x => fst (fst (fst x)))) in E1; cbn [fst] in E1; subst s1; rewrite Q.
    - cbn [s_mtime]. rewrite mget_mset, E, N.eqb_refl. rewrite N.max_l by lia. reflexivity.
    - rewrite hn_mtime, N.max_r by lia. reflexivity.
    - rewrite hn_mtime, N.max_r by lia. reflexivity.
  Qed.
  Lemma mtime_run : forall os s n, mget (hash n) (s_mtime (s_run hash s os)) = last_update hash n s os (mget (hash n) (s_mtime s)).
  Proof.
    induction os as [|o os IH]; intros s n; [reflexivity|]. change (s_run hash s (o :: os)) with (s_run hash (s_step hash s o) os). rewrite IH.
    destruct o as [k v|k|k|es| | | | |]; cbn [last_update]; f_equal; cbn [s_step].
    - unfold set_seq. destruct (_ <=? _)%N; cbn [snd with_pending with_state s_mtime]; rewrite hn_mtime; reflexivity.
    - unfold incr_seq. cbn [snd with_pending with_state s_mtime]. rewrite hn_mtime. reflexivity.
    - unfold get_seq. cbn [snd]. rewrite hn_mtime. reflexivity.
    - destruct (recv_split hash es s) as (s1 & out & drop & rs & L & R). rewrite <- (mtime_loop _ _ _ _ _ _ _ _ _ n L). destruct R as [->|[->| ->]]; reflexivity.
    - unfold timer_expired. destruct (_ && _); reflexivity.
    - unfold send. destruct (s_pending s); [reflexivity|]. cbn [with_pending s_running]. destruct (s_running s); reflexivity.
  Qed.

  Theorem enter_suppression : forall os es, let s := s_run hash svs_new os in
    no_wrap hash svs_new os -> s_suppress s = false -> NoDup (map (fun e => hash (fst (fst e))) es) ->
    s_suppress (s_step hash s (ORecv es)) = true <->
    (exists n v now, In (n, v, now) es /\ (v < seq_of s n)%N /\ (recent hash n os + SuppressionPeriod < now)%Z)
    \/ (forall n v now, In (n, v, now) es -> (seq_of s n <= v)%N) /\ exists n, (0 < seq_of s n)%N /\ ~ in_vector hash n (map fst es).
  Proof.
    intros os es s W SP OE. assert (I : SInv s) by (apply run_inv; apply inv_new). assert (P : pos s) by (apply pos_run; [auto|apply pos_new]).
    assert (RC : forall n, match mget (hash n) (s_mtime s) with Some t => t | None => zero_time end = recent hash n os) by (intros n; unfold s; rewrite mtime_run; reflexivity).
    cbn [s_step]. destruct (recv_cases es s) as (s1 & out & drop & rs & L & R). cbv zeta in R. rewrite R. clear R.
    destruct (loop_out _ _ _ _ _ _ _ _ _ OE L) as [LO LD]. pose proof (pos_loop _ _ _ _ _ _ _ _ _ L P) as P1.
    pose proof (loop_ok _ _ _ _ _ _ _ _ _ _ L) as (B1 & _ & B3 & _ & _ & _ & _ & B8 & B9). specialize (B9 I). rewrite SP in B3.
    cbn [orb] in LO. cbn [andb] in LD.
    assert (OLD : existsb (old s) es = true <-> exists n v now, In (n, v, now) es /\ (v < seq_of s n)%N /\ (recent hash n os + SuppressionPeriod < now)%Z).
    { rewrite existsb_exists. split.
      - intros ([[n v] now] & IN & O). unfold old, stale in O. cbn [fst snd] in O. apply andb_true_iff in O. destruct O as [O1 O2]. apply N.ltb_lt in O1. apply Z.ltb_lt in O2. rewrite RC in O2. eauto 6.
      - intros (n & v & now & IN & O1 & O2). exists (n, v, now). split; [auto|]. unfold old, stale. cbn [fst snd]. rewrite RC. apply andb_true_iff. split; [apply N.ltb_lt|apply Z.ltb_lt]; auto. }
    assert (STL : existsb (stale s) es = false <-> forall n v now, In (n, v, now) es -> (seq_of s n <= v)%N).
    { split.
      - intros E n v now IN. destruct (N.leb_spec (seq_of s n) v); [auto|]. assert (X : existsb (stale s) es = true) by (apply existsb_exists; exists (n, v, now); split; [auto|]; apply N.ltb_lt; auto). congruence.
      - intros H. destruct (existsb (stale s) es) eqn:X; [|reflexivity]. apply existsb_exists in X. destruct X as ([[n v] now] & IN & E). apply N.ltb_lt in E. specialize (H _ _ _ IN). cbn [fst snd] in E. lia. }
    assert (NIV : forall n, ~ in_vector hash n (map fst es) <-> ~ In (hash n) rs).
    { intros n. rewrite B8. cbn [In]. split; intros H X; apply H.
      - destruct X as [[]|X]. apply in_map_iff in X. destruct X as (e & E1 & E2). exists (fst e). split; [apply in_map; auto|]. unfold SyncSpec.same_node. apply N.eqb_eq. auto.
      - destruct X as (e & IE & SN). unfold SyncSpec.same_node in SN. apply N.eqb_eq in SN. apply in_map_iff in IE. destruct IE as (x & E1 & E2). right. apply in_map_iff. exists x. split; [rewrite E1; auto|auto]. }
    assert (MISS : existsb (fun kv => negb (existsb (N.eqb (fst kv)) rs)) (s_state s1) = true <-> exists n, (0 < seq_of s n)%N /\ ~ in_vector hash n (map fst es)).
    { rewrite (missing_iff _ _ B9). split.
      - intros (h & v & E & NI). destruct (si_known _ _ B9 _ _ E) as [n En]. pose proof (si_names _ _ B9 _ _ En) as EH. subst h. exists n. apply NIV in NI. split; [|auto].
        assert (X : (0 < seq_of s1 n)%N) by (rewrite seq_num; unfold num; rewrite E; eapply P1; eauto).
        rewrite B1 in X. replace (best hash n (map fst es)) with 0%N in X; [lia|]. symmetry. apply best_absent. auto.
      - intros (n & PS & NI). assert (X : (0 < seq_of s1 n)%N) by (rewrite B1; lia). rewrite seq_num in X. unfold num in X. destruct (mget (hash n) (s_state s1)) as [v|] eqn:E; [|lia].
        exists (hash n), v. split; [auto|]. apply NIV. auto. }
    rewrite <- OLD, <- STL, <- MISS. rewrite LO, LD, B3, orb_false_r. clear - B3.
    assert (SO : existsb (old s) es = true -> existsb (stale s) es = true).
    { rewrite !existsb_exists. intros (e & IE & O). exists e. split; [auto|]. unfold old in O. apply andb_true_iff in O. apply O. }
    destruct (existsb (stale s) es) eqn:E1, (existsb (old s) es) eqn:E2, (existsb (fun kv => negb (existsb (N.eqb (fst kv)) rs)) (s_state s1)) eqn:E3;
      try (specialize (SO eq_refl); discriminate SO); cbn [negb andb]; cbn [with_suppress steady s_suppress]; rewrite ?B3;
      (split; [intros X; try discriminate X; auto|intros [X|[X Y]]; try discriminate; auto]).
  Qed.
End Proofs.
