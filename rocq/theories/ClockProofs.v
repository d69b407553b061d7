From Verif Require Import Base ClockModel ClockSpec.

Lemma set_nth_get A (l : list A) i j x y : nth_error l i = Some y -> nth_error (set_nth l i x) j = if Nat.eqb j i then Some x else nth_error l j.
Proof.
  unfold set_nth. intros H. rewrite H. revert i j H. induction l as [|a l IH]; intros [|i] [|j] H; cbn in *; try discriminate; try reflexivity.
  exact (IH i j H).
Qed.
Lemma set_nth_len A (l : list A) i x : length (set_nth l i x) = length l.
Proof.
  unfold set_nth. destruct (nth_error l i) eqn:H; [|reflexivity]. revert i H. induction l as [|y l IH]; intros [|i] H; cbn in *; try discriminate; [reflexivity|].
  f_equal. exact (IH i H).
Qed.
Lemma nth_last A (l : list A) x j : nth_error (l ++ [x]) j = if Nat.eqb j (length l) then Some x else nth_error l j.
Proof.
  destruct (Nat.eqb_spec j (length l)) as [->|H].
  - rewrite nth_error_app2, Nat.sub_diag by lia. reflexivity.
  - destruct (Nat.lt_ge_cases j (length l)) as [L|L]; [rewrite nth_error_app1 by exact L; reflexivity|].
    rewrite nth_error_app2 by exact L. rewrite (proj2 (nth_error_None l j) L). destruct (j - length l)%nat eqn:E; [lia|]. destruct n; reflexivity.
Qed.

Lemma crun_snoc es e : crun (es ++ [e]) = cstep (crun es) e.
Proof. unfold crun. rewrite fold_left_app. reflexivity. Qed.
Lemma scheduled_app es1 : forall now es2, scheduled now (es1 ++ es2) = scheduled now es1 ++ scheduled (now + elapsed es1) es2.
Proof.
  induction es1 as [|e es1 IH]; intros now es2; [cbn; rewrite Z.add_0_r; reflexivity|].
  destruct e; cbn [scheduled elapsed app]; rewrite IH; try reflexivity. rewrite Z.add_assoc. reflexivity.
Qed.
Lemma elapsed_app es1 es2 : elapsed (es1 ++ es2) = (elapsed es1 + elapsed es2)%Z.
Proof. induction es1 as [|e es1 IH]; [reflexivity|]. destruct e; cbn [elapsed app]; rewrite ?IH; lia. Qed.
Lemma starts_app i l1 l2 : starts i (l1 ++ l2) = (starts i l1 + starts i l2)%nat.
Proof. unfold starts. rewrite filter_app, app_length. reflexivity. Qed.
Lemma returns_app i l1 l2 : returns i (l1 ++ l2) = returns i l1 ++ returns i l2.
Proof. unfold returns. apply flat_map_app. Qed.
Lemma cancels_app i l1 l2 : cancels i (l1 ++ l2) = (cancels i l1 + cancels i l2)%nat.
Proof. unfold cancels. rewrite filter_app, app_length. reflexivity. Qed.

(** a step, case by case *)
Ltac step_cases s e :=
  unfold cstep; destruct (panicked s) eqn:Ep; [|destruct e as [d|d|i'|i'|j];
    [| |destruct (nth_error (c_tmrs s) i') as [t|] eqn:Et; [destruct (t_state t) eqn:Es; [destruct (t_due t <=? c_now s)%Z eqn:Ed| |]|]
     |destruct (nth_error (c_tmrs s) i') as [t|] eqn:Et
     |destruct (nth_error (c_calls s) j) as [[i' pc]|] eqn:Ec; [destruct (nth_error (c_tmrs s) i') as [t|] eqn:Et; [destruct pc; [destruct (t_set t) eqn:Ef|destruct (t_set t) eqn:Ef| |]|]|]]];
  cbn [c_now c_tmrs c_calls c_log].

Definition started (t : tmr) : bool := match t_state t with TStarted => true | _ => false end.
Record inv (es : list cev) (s : cst) : Prop := mkInv {
  i_tmr : forall i t, nth_error (c_tmrs s) i = Some t ->
    (exists t0 d, nth_error (scheduled 0 es) i = Some (t0, d) /\ t_due t = (t0 + d)%Z) /\ starts i (c_log s) = (if started t then 1%nat else 0%nat);
  i_none : forall i, nth_error (c_tmrs s) i = None -> starts i (c_log s) = 0%nat /\ ~ In (ORet i true) (c_log s);
  i_time : forall i t, In (OStart i t) (c_log s) -> exists t0 d, nth_error (scheduled 0 es) i = Some (t0, d) /\ (t0 + d <= t)%Z;
  i_live : panicked s = false -> c_now s = elapsed es /\ length (c_tmrs s) = length (scheduled 0 es);
  i_clear : forall j i, nth_error (c_calls s) j = Some (i, PClear) -> exists t, nth_error (c_tmrs s) i = Some t /\ t_state t <> TPending;
  i_ret : forall i t, In (ORet i true) (c_log s) -> nth_error (c_tmrs s) i = Some t -> t_state t <> TPending;
  i_quiet : forall i l1 l2, c_log s = l1 ++ ORet i true :: l2 -> starts i l1 = 0%nat -> starts i l2 = 0%nat }.

Lemma nth_pre A (l m : list A) i x : nth_error l i = Some x -> nth_error (l ++ m) i = Some x.
Proof. intros H. rewrite nth_error_app1; [exact H|]. apply nth_error_Some. rewrite H. discriminate. Qed.
Lemma split_last {A} (l l1 l2 : list A) (x y : A) : l ++ [x] = l1 ++ y :: l2 -> (l2 = [] /\ l = l1 /\ x = y) \/ exists l2', l2 = l2' ++ [x] /\ l = l1 ++ y :: l2'.
Proof.
  intros H. destruct l2 as [|z l2] using rev_ind.
  - left. apply app_inj_tail in H. destruct H as [-> ->]. split; [|split]; reflexivity.
  - right. exists l2. rewrite app_comm_cons, app_assoc in H. apply app_inj_tail in H. destruct H as [-> ->]. split; reflexivity.
Qed.

Lemma inv_log es s : inv es s -> forall s', c_tmrs s' = c_tmrs s -> c_log s' = c_log s -> (forall j i, nth_error (c_calls s') j = Some (i, PClear) -> exists j', nth_error (c_calls s) j' = Some (i, PClear)) ->
  c_now s' = c_now s -> forall e, scheduled (0 + elapsed es) [e] = [] -> elapsed [e] = 0%Z -> inv (es ++ [e]) s'.
Proof.
  intros [A B C D E F G] s' Ht Hl Hc Hn e He He'. split; rewrite ?Ht, ?Hl, ?Hn, ?scheduled_app, ?He, ?app_nil_r; try assumption.
  - intros H. rewrite elapsed_app, He', Z.add_0_r. apply D. unfold panicked in *. rewrite Hl in H. exact H.
  - intros j i H. destruct (Hc j i H) as [j' H']. exact (E j' i H').
Qed.

Lemma inv_run es : inv es (crun es).
Proof.
  induction es as [|e es IH] using rev_ind.
  - split; cbn.
    + intros [|i] t H; discriminate.
    + intros i _. split; [reflexivity|tauto].
    + intros i t [].
    + intros _. split; reflexivity.
    + intros [|j] i H; discriminate.
    + intros i t [].
    + intros i [|] l2 H; discriminate.
  - rewrite crun_snoc. set (s := crun es) in *.
    destruct IH as [A B C D E F G].
    step_cases s e.
    + (* panicked *)
      split; try assumption.
      * intros i t H. destruct (A i t H) as [(t0 & d & H1 & H2) H3]. split; [|exact H3]. exists t0, d. rewrite scheduled_app. split; [apply nth_pre; exact H1|exact H2].
      * intros i t H. destruct (C i t H) as (t0 & d & H1 & H2). exists t0, d. rewrite scheduled_app. split; [apply nth_pre; exact H1|exact H2].
      * intros H. rewrite Ep in H. discriminate.
    + (* ESched *)
      specialize (D eq_refl) as [D1 D2]. split; cbn [c_now c_tmrs c_calls c_log].
      * intros i t. rewrite nth_last, D2. destruct (Nat.eqb_spec i (length (scheduled 0 es))) as [->|Hi].
        -- intros H. injection H as <-. cbn [t_due]. split.
           ++ exists (c_now s), d. rewrite scheduled_app. cbn [scheduled]. rewrite nth_last, Nat.eqb_refl, D1. split; reflexivity.
           ++ cbn. apply (B _). rewrite <- D2. apply nth_error_None. lia.
        -- intros H. destruct (A i t H) as [(t0 & d' & H1 & H2) H3]. split; [|exact H3]. exists t0, d'. rewrite scheduled_app. split; [apply nth_pre; exact H1|exact H2].
      * intros i. rewrite nth_last. destruct (Nat.eqb i (length (c_tmrs s))); [discriminate|]. apply B.
      * intros i t H. destruct (C i t H) as (t0 & d' & H1 & H2). exists t0, d'. rewrite scheduled_app. split; [apply nth_pre; exact H1|exact H2].
      * intros _. rewrite elapsed_app, scheduled_app, !app_length, D2, D1. cbn. split; [lia|reflexivity].
      * intros j i H. destruct (E j i H) as (t & H1 & H2). exists t. split; [apply nth_pre; exact H1|exact H2].
      * intros i t Hi. rewrite nth_last. destruct (Nat.eqb_spec i (length (c_tmrs s))) as [->|Hn].
        -- exfalso. destruct (B (length (c_tmrs s))) as [_ B2]; [apply nth_error_None; lia|]. exact (B2 Hi).
        -- apply F. exact Hi.
      * exact G.
    + (* ETick *)
      specialize (D eq_refl) as [D1 D2].
      split; rewrite ?scheduled_app; cbn [scheduled c_now c_tmrs c_calls c_log]; rewrite ?app_nil_r; try assumption.
      intros _. rewrite elapsed_app, D1. cbn. split; [lia|exact D2].
    + (* EFire *)
      specialize (D eq_refl) as [D1 D2]. destruct (A i' t Et) as [(t0 & d & H1 & H2) H3]. unfold started in H3. rewrite Es in H3.
      assert (Hnr : ~ In (ORet i' true) (c_log s)) by (intros Hi; exact (F i' t Hi Et Es)).
      split; rewrite ?scheduled_app; cbn [scheduled c_now c_tmrs c_calls c_log]; rewrite ?app_nil_r.
      * intros i x. rewrite (set_nth_get _ _ _ _ _ _ Et), starts_app. destruct (Nat.eqb_spec i i') as [->|Hi].
        -- intros H. injection H as <-. cbn [t_due]. split; [exists t0, d; split; [exact H1|exact H2]|]. rewrite H3. cbn. rewrite Nat.eqb_refl. reflexivity.
        -- intros H. destruct (A i x H) as [K1 K2]. split; [exact K1|]. rewrite K2. cbn. rewrite (proj2 (Nat.eqb_neq i' i)) by congruence. cbn. lia.
      * intros i. rewrite (set_nth_get _ _ _ _ _ _ Et), starts_app. destruct (Nat.eqb_spec i i') as [->|Hi]; [discriminate|].
        intros H. destruct (B i H) as [K1 K2]. rewrite K1. cbn. rewrite (proj2 (Nat.eqb_neq i' i)) by congruence. split; [reflexivity|].
        rewrite in_app_iff. intros [K|[K|[]]]; [exact (K2 K)|discriminate].
      * intros i x. rewrite in_app_iff. intros [H|[H|[]]]; [exact (C i x H)|]. injection H as <- <-. exists t0, d. split; [exact H1|]. apply Z.leb_le in Ed. lia.
      * intros _. rewrite elapsed_app, set_nth_len. cbn. split; [lia|exact D2].
      * intros j i H. destruct (E j i H) as (x & K1 & K2). rewrite (set_nth_get _ _ _ _ _ _ Et).
        destruct (Nat.eqb_spec i i') as [->|Hi]; eexists; (split; [reflexivity || exact K1|]); [discriminate|exact K2].
      * intros i x. rewrite in_app_iff, (set_nth_get _ _ _ _ _ _ Et). intros [H|[H|[]]]; [|discriminate].
        destruct (Nat.eqb_spec i i') as [->|Hi]; [exfalso; exact (Hnr H)|]. exact (F i x H).
      * intros i l1 l2 H K. destruct (split_last _ _ _ _ _ H) as [(_ & _ & X)|(l2' & -> & X)]; [discriminate|].
        rewrite starts_app, (G i l1 l2' X K). cbn. destruct (Nat.eqb_spec i' i) as [->|Hi]; [|reflexivity].
        exfalso. apply Hnr. rewrite X. apply in_app_iff. right. left. reflexivity.
    + eapply inv_log; [exact (mkInv es s A B C (fun _ => D eq_refl) E F G)|..]; try reflexivity. intros j i H. exists j. exact H.
    + eapply inv_log; [exact (mkInv es s A B C (fun _ => D eq_refl) E F G)|..]; try reflexivity. intros j i H. exists j. exact H.
    + eapply inv_log; [exact (mkInv es s A B C (fun _ => D eq_refl) E F G)|..]; try reflexivity. intros j i H. exists j. exact H.
    + eapply inv_log; [exact (mkInv es s A B C (fun _ => D eq_refl) E F G)|..]; try reflexivity. intros j i H. exists j. exact H.
    + (* ECancel *)
      eapply inv_log; [exact (mkInv es s A B C (fun _ => D eq_refl) E F G)|..]; try reflexivity. cbn [c_calls]. intros j i. rewrite nth_last.
      destruct (Nat.eqb j (length (c_calls s))); [discriminate|]. intros H. exists j. exact H.
    + eapply inv_log; [exact (mkInv es s A B C (fun _ => D eq_refl) E F G)|..]; try reflexivity. intros j i H. exists j. exact H.
    + (* reads a pointer *)
      eapply inv_log; [exact (mkInv es s A B C (fun _ => D eq_refl) E F G)|..]; try reflexivity. cbn [c_calls]. intros j' i. rewrite (set_nth_get _ _ _ _ _ _ Ec).
      destruct (Nat.eqb j' j); [discriminate|]. intros H. exists j'. exact H.
    + (* returns the error *)
      specialize (D eq_refl) as [D1 D2].
      split; rewrite ?scheduled_app; cbn [scheduled c_now c_tmrs c_calls c_log]; rewrite ?app_nil_r.
      * intros i x H. destruct (A i x H) as [K1 K2]. split; [exact K1|]. rewrite starts_app, K2. cbn. lia.
      * intros i H. destruct (B i H) as [K1 K2]. rewrite starts_app, K1. split; [reflexivity|]. rewrite in_app_iff. intros [K|[K|[]]]; [exact (K2 K)|discriminate].
      * intros i x. rewrite in_app_iff. intros [H|[H|[]]]; [exact (C i x H)|discriminate].
      * intros _. rewrite elapsed_app. cbn. split; [lia|exact D2].
      * intros j' i. rewrite (set_nth_get _ _ _ _ _ _ Ec). destruct (Nat.eqb j' j); [discriminate|]. apply E.
      * intros i x. rewrite in_app_iff. intros [H|[H|[]]]; [exact (F i x H)|discriminate].
      * intros i l1 l2 H K. destruct (split_last _ _ _ _ _ H) as [(_ & _ & X)|(l2' & -> & X)]; [discriminate|]. rewrite starts_app, (G i l1 l2' X K). reflexivity.
    + (* stops *)
      specialize (D eq_refl) as [D1 D2].
      set (t' := mkT (t_due t) (match t_state t with TPending => TStopped | x => x end) true).
      assert (Hs : started t' = started t) by (unfold started, t'; cbn [t_state]; destruct (t_state t); reflexivity).
      assert (Hp : t_state t' <> TPending) by (unfold t'; cbn [t_state]; destruct (t_state t); discriminate).
      split; rewrite ?scheduled_app; cbn [scheduled c_now c_tmrs c_calls c_log]; rewrite ?app_nil_r; try assumption.
      * intros i x. rewrite (set_nth_get _ _ _ _ _ _ Et). destruct (Nat.eqb_spec i i') as [->|Hi]; [|apply A].
        intros H. injection H as <-. fold t'. rewrite Hs. exact (A i' t Et).
      * intros i. rewrite (set_nth_get _ _ _ _ _ _ Et). destruct (Nat.eqb_spec i i') as [->|Hi]; [discriminate|]. apply B.
      * intros _. rewrite elapsed_app, set_nth_len. cbn. split; [lia|exact D2].
      * intros j' i. rewrite (set_nth_get _ _ _ _ _ _ Ec), (set_nth_get _ _ _ _ _ _ Et). destruct (Nat.eqb j' j).
        -- intros H. injection H as <-. rewrite Nat.eqb_refl. eexists. split; [reflexivity|exact Hp].
        -- intros H. destruct (E j' i H) as (x & K1 & K2). destruct (Nat.eqb_spec i i') as [->|Hi]; eexists; (split; [reflexivity || exact K1|]); [exact Hp|exact K2].
      * intros i x H. rewrite (set_nth_get _ _ _ _ _ _ Et). destruct (Nat.eqb_spec i i') as [->|Hi]; [|exact (F i x H)]. intros K. injection K as <-. exact Hp.
    + (* panics *)
      specialize (D eq_refl) as [D1 D2].
      split; rewrite ?scheduled_app; cbn [scheduled c_now c_tmrs c_calls c_log]; rewrite ?app_nil_r; try assumption.
      * intros i x H. destruct (A i x H) as [K1 K2]. split; [exact K1|]. rewrite starts_app, K2. cbn. lia.
      * intros i H. destruct (B i H) as [K1 K2]. rewrite starts_app, K1. split; [reflexivity|]. rewrite in_app_iff. intros [K|[K|[]]]; [exact (K2 K)|discriminate].
      * intros i x. rewrite in_app_iff. intros [H|[H|[]]]; [exact (C i x H)|discriminate].
      * intros _. rewrite elapsed_app. cbn. split; [lia|exact D2].
      * intros i x. rewrite in_app_iff. intros [H|[H|[]]]; [exact (F i x H)|discriminate].
      * intros i l1 l2 H K. destruct (split_last _ _ _ _ _ H) as [(_ & _ & X)|(l2' & -> & X)]; [discriminate|]. rewrite starts_app, (G i l1 l2' X K). reflexivity.
    + (* returns nil *)
      specialize (D eq_refl) as [D1 D2].
      destruct (E j i' Ec) as (t1 & Et1 & Hp). rewrite Et in Et1. injection Et1 as <-.
      split; rewrite ?scheduled_app; cbn [scheduled c_now c_tmrs c_calls c_log]; rewrite ?app_nil_r.
      * intros i x. rewrite (set_nth_get _ _ _ _ _ _ Et), starts_app. cbn [starts filter length]. change (starts i [ORet i' true]) with 0%nat. rewrite Nat.add_0_r.
        destruct (Nat.eqb_spec i i') as [->|Hi]; [|apply A]. intros H. injection H as <-. exact (A i' t Et).
      * intros i. rewrite (set_nth_get _ _ _ _ _ _ Et), starts_app. destruct (Nat.eqb_spec i i') as [->|Hi]; [discriminate|]. intros H. destruct (B i H) as [K1 K2].
        rewrite K1. split; [reflexivity|]. rewrite in_app_iff. intros [K|[K|[]]]; [exact (K2 K)|]. injection K as K. congruence.
      * intros i x. rewrite in_app_iff. intros [H|[H|[]]]; [exact (C i x H)|discriminate].
      * intros _. rewrite elapsed_app, set_nth_len. cbn. split; [lia|exact D2].
      * intros j' i. rewrite (set_nth_get _ _ _ _ _ _ Ec), (set_nth_get _ _ _ _ _ _ Et). destruct (Nat.eqb j' j); [discriminate|].
        intros H. destruct (E j' i H) as (x & K1 & K2). destruct (Nat.eqb_spec i i') as [->|Hi]; eexists; (split; [reflexivity || exact K1|]); [exact Hp|exact K2].
      * intros i x. rewrite in_app_iff, (set_nth_get _ _ _ _ _ _ Et). intros H. destruct (Nat.eqb_spec i i') as [->|Hi].
        -- intros K. injection K as <-. exact Hp.
        -- destruct H as [H|[H|[]]]; [exact (F i x H)|]. injection H as H. congruence.
      * intros i l1 l2 H K. destruct (split_last _ _ _ _ _ H) as [(-> & _ & X)|(l2' & -> & X)]; [reflexivity|]. rewrite starts_app, (G i l1 l2' X K). reflexivity.
    + eapply inv_log; [exact (mkInv es s A B C (fun _ => D eq_refl) E F G)|..]; try reflexivity. intros j' i H. exists j'. exact H.
    + eapply inv_log; [exact (mkInv es s A B C (fun _ => D eq_refl) E F G)|..]; try reflexivity. intros j' i H. exists j'. exact H.
    + eapply inv_log; [exact (mkInv es s A B C (fun _ => D eq_refl) E F G)|..]; try reflexivity. intros j' i H. exists j'. exact H.
Qed.

(** calls of the cancel function of one timer, one after the other *)
Definition undone (i : nat) (l : list (nat * cpc)) : nat :=
  length (filter (fun p => Nat.eqb (fst p) i && match snd p with PDone => false | _ => true end) l).
Lemma undone_app i l1 l2 : undone i (l1 ++ l2) = (undone i l1 + undone i l2)%nat.
Proof. unfold undone. rewrite filter_app, app_length. reflexivity. Qed.
Lemma undone_set i l j p q : nth_error l j = Some p -> (undone i (set_nth l j q) + undone i [p] = undone i l + undone i [q])%nat.
Proof.
  intros H. unfold set_nth. rewrite H. destruct (nth_error_split l j H) as (l1 & l2 & -> & <-).
  rewrite firstn_app, Nat.sub_diag, firstn_all, firstn_O, app_nil_r.
  replace (S (length l1)) with (length l1 + 1)%nat by lia. rewrite skipn_app, skipn_all2 by lia.
  replace (length l1 + 1 - length l1)%nat with 1%nat by lia. cbn [skipn app].
  rewrite !undone_app. change (q :: l2) with ([q] ++ l2). change (p :: l2) with ([p] ++ l2). rewrite !undone_app. lia.
Qed.
Lemma undone_two i l : forall j k p q, (undone i l <= 1)%nat -> nth_error l j = Some (i, p) -> nth_error l k = Some (i, q) -> p <> PDone -> q <> PDone -> j = k.
Proof.
  induction l as [|[i0 r] l IH]; intros j k p q H Hj Hk Np Nq; [destruct j; discriminate|].
  assert (Hin : forall m r, nth_error l m = Some (i, r) -> r <> PDone -> (1 <= undone i l)%nat).
  { intros m r0 Hm Nr. destruct (nth_error_split l m Hm) as (l1 & l2 & -> & _). rewrite undone_app. change ((i, r0) :: l2) with ([(i, r0)] ++ l2). rewrite undone_app.
    assert (undone i [(i, r0)] = 1%nat) by (unfold undone; cbn; rewrite Nat.eqb_refl; destruct r0; try reflexivity; contradiction). lia. }
  change ((i0, r) :: l) with ([(i0, r)] ++ l) in H. rewrite undone_app in H.
  destruct j as [|j], k as [|k]; cbn in Hj, Hk; try reflexivity.
  - injection Hj as -> ->. specialize (Hin k q Hk Nq). assert (undone i [(i, p)] = 1%nat) by (unfold undone; cbn; rewrite Nat.eqb_refl; destruct p; try reflexivity; contradiction). lia.
  - injection Hk as -> ->. specialize (Hin j p Hj Np). assert (undone i [(i, q)] = 1%nat) by (unfold undone; cbn; rewrite Nat.eqb_refl; destruct q; try reflexivity; contradiction). lia.
  - f_equal. apply (IH j k p q); try assumption. lia.
Qed.

Definition past (p : cpc) : Prop := p = PStop \/ p = PClear.
Record seq_inv (i : nat) (es : list cev) (s : cst) : Prop := mkSeq {
  q_undone : (undone i (c_calls s) + length (returns i (c_log s)) <= cancels i es)%nat;
  q_past : forall j p, nth_error (c_calls s) j = Some (i, p) -> past p -> exists t, nth_error (c_tmrs s) i = Some t /\ t_set t = true;
  q_rets : (returns i (c_log s) = [] /\ (forall t, nth_error (c_tmrs s) i = Some t -> t_set t = true)) \/
           (exists n, returns i (c_log s) = true :: repeat false n) /\ (forall t, nth_error (c_tmrs s) i = Some t -> t_set t = false);
  q_dom : nth_error (c_tmrs s) i = None -> returns i (c_log s) = [];
  q_nopanic : ~ In (OPanic i) (c_log s) }.

Lemma one_by_one_app i es e : one_by_one i (es ++ [e]) -> one_by_one i es.
Proof. intros H es1 es2 ->. apply (H es1 (es2 ++ [e])). rewrite app_assoc. reflexivity. Qed.

Lemma seq_run i es : one_by_one i es -> seq_inv i es (crun es).
Proof.
  induction es as [|e es IH] using rev_ind.
  - intros _. split; cbn.
    + lia.
    + intros [|j] p H; discriminate.
    + left. split; [reflexivity|]. intros t H. destruct i; discriminate.
    + reflexivity.
    + tauto.
  - intros H1. specialize (IH (one_by_one_app _ _ _ H1)).
    assert (Hle : (undone i (c_calls (crun es)) <= 1)%nat).
    { specialize (H1 es [e] eq_refl). destruct IH as [A _ _ _ _]. lia. }
    clear H1. rewrite crun_snoc. set (s := crun es) in *. destruct IH as [A B C D E].
    assert (Hsame : forall n, seq_inv i (es ++ [e]) (mkC n (c_tmrs s) (c_calls s) (c_log s))).
    { intros n. split; try assumption. cbn [c_calls c_log]. rewrite cancels_app. lia. }
    assert (Hs : seq_inv i (es ++ [e]) s) by (specialize (Hsame (c_now s)); destruct s; exact Hsame).
    step_cases s e; try exact Hs.
    + (* ESched *)
      split; cbn [c_now c_tmrs c_calls c_log]; try assumption.
      * rewrite cancels_app. lia.
      * intros j p Hj Hp. destruct (B j p Hj Hp) as (t & K1 & K2). exists t. split; [apply nth_pre; exact K1|exact K2].
      * destruct (Nat.eqb_spec i (length (c_tmrs s))) as [Hi|Hi].
        -- left. split; [apply D, nth_error_None; lia|]. intros t. rewrite nth_last, (proj2 (Nat.eqb_eq _ _) Hi). intros K. injection K as <-. reflexivity.
        -- destruct C as [[C1 C2]|[C1 C2]]; [left|right]; (split; [exact C1|]); intros t; rewrite nth_last, (proj2 (Nat.eqb_neq _ _) Hi); apply C2.
      * rewrite nth_last. destruct (Nat.eqb i (length (c_tmrs s))); [discriminate|exact D].
    + apply Hsame.
    + (* EFire *)
      split; cbn [c_now c_tmrs c_calls c_log].
      * rewrite cancels_app, returns_app. cbn [returns flat_map]. rewrite !app_nil_r. lia.
      * intros j p Hj Hp. destruct (B j p Hj Hp) as (x & K1 & K2). rewrite (set_nth_get _ _ _ _ _ _ Et). destruct (Nat.eqb_spec i i') as [->|Hi].
        -- rewrite Et in K1. injection K1 as <-. eexists. split; [reflexivity|exact K2].
        -- exists x. split; [exact K1|exact K2].
      * rewrite returns_app. cbn [returns flat_map]. rewrite app_nil_r.
        destruct C as [[C1 C2]|[C1 C2]]; [left|right]; (split; [exact C1|]); intros x; rewrite (set_nth_get _ _ _ _ _ _ Et);
          (destruct (Nat.eqb_spec i i') as [->|Hi]; [intros K; injection K as <-; exact (C2 t Et)|apply C2]).
      * rewrite (set_nth_get _ _ _ _ _ _ Et), returns_app. cbn [returns flat_map]. rewrite app_nil_r. destruct (Nat.eqb i i'); [discriminate|exact D].
      * rewrite in_app_iff. intros [K|[K|[]]]; [exact (E K)|discriminate].
    + (* ECancel *)
      split; cbn [c_now c_tmrs c_calls c_log]; try assumption.
      * rewrite cancels_app, undone_app. cbn. destruct (Nat.eqb i' i); cbn; lia.
      * intros j p. rewrite nth_last. destruct (Nat.eqb j (length (c_calls s))); [|apply B]. intros K. injection K as _ <-. intros [?|?]; discriminate.
    + (* reads a pointer *)
      split; cbn [c_now c_tmrs c_calls c_log]; try assumption.
      * rewrite cancels_app. pose proof (undone_set i _ _ _ (i', PStop) Ec) as K. replace (undone i [(i', PStop)]) with (undone i [(i', PRead)]) in K by (unfold undone; cbn; destruct (Nat.eqb i' i); reflexivity). lia.
      * intros j' p. rewrite (set_nth_get _ _ _ _ _ _ Ec). destruct (Nat.eqb j' j); [|apply B]. intros K Hp. injection K as <- _. exists t. split; [exact Et|exact Ef].
    + (* returns the error *)
      split; cbn [c_now c_tmrs c_calls c_log].
      * rewrite cancels_app, returns_app, app_length. pose proof (undone_set i _ _ _ (i', PDone) Ec) as K. unfold undone in K at 2 4. cbn in K.
        cbn [returns flat_map app]. destruct (Nat.eqb i' i); cbn in *; lia.
      * intros j' p. rewrite (set_nth_get _ _ _ _ _ _ Ec). destruct (Nat.eqb j' j); [|apply B]. intros K. injection K as _ <-. intros [?|?]; discriminate.
      * rewrite returns_app. cbn [returns flat_map]. destruct (Nat.eqb_spec i' i) as [->|Hi]; cbn [app]; rewrite ?app_nil_r; [|exact C].
        destruct C as [[C1 C2]|[[n C1] C2]]; [specialize (C2 t Et); congruence|]. right. split; [|exact C2].
        exists (S n). rewrite C1. cbn [app]. f_equal. change [false] with (repeat false 1). rewrite <- repeat_app. f_equal. lia.
      * intros K. rewrite returns_app, (D K). cbn. destruct (Nat.eqb_spec i' i) as [->|Hi]; [congruence|reflexivity].
      * rewrite in_app_iff. intros [K|[K|[]]]; [exact (E K)|discriminate].
    + (* stops *)
      split; cbn [c_now c_tmrs c_calls c_log]; try assumption.
      * rewrite cancels_app. pose proof (undone_set i _ _ _ (i', PClear) Ec) as K. replace (undone i [(i', PClear)]) with (undone i [(i', PStop)]) in K by (unfold undone; cbn; destruct (Nat.eqb i' i); reflexivity). lia.
      * intros j' p. rewrite (set_nth_get _ _ _ _ _ _ Ec), (set_nth_get _ _ _ _ _ _ Et). destruct (Nat.eqb j' j).
        -- intros K _. injection K as <- _. rewrite Nat.eqb_refl. eexists. split; reflexivity.
        -- intros K Hp. destruct (B j' p K Hp) as (x & K1 & K2). destruct (Nat.eqb_spec i i') as [->|Hi]; eexists; (split; [reflexivity || exact K1|]); [reflexivity|exact K2].
      * destruct C as [[C1 C2]|[C1 C2]]; [left|right]; (split; [exact C1|]); intros x; rewrite (set_nth_get _ _ _ _ _ _ Et);
          (destruct (Nat.eqb_spec i i') as [->|Hi]; [intros K; injection K as <-; rewrite <- (C2 t Et); cbn; congruence|apply C2]).
      * rewrite (set_nth_get _ _ _ _ _ _ Et). destruct (Nat.eqb i i'); [discriminate|exact D].
    + (* panics *)
      split; cbn [c_now c_tmrs c_calls c_log]; try assumption.
      * rewrite cancels_app, returns_app. cbn [returns flat_map]. rewrite app_nil_r. lia.
      * rewrite returns_app. cbn [returns flat_map]. rewrite app_nil_r. exact C.
      * rewrite returns_app. cbn [returns flat_map]. rewrite app_nil_r. exact D.
      * rewrite in_app_iff. intros [K|[K|[]]]; [exact (E K)|]. injection K as ->.
        destruct (B j PStop Ec (or_introl eq_refl)) as (x & K1 & K2). congruence.
    + (* returns nil *)
      split; cbn [c_now c_tmrs c_calls c_log].
      * rewrite cancels_app, returns_app, app_length. pose proof (undone_set i _ _ _ (i', PDone) Ec) as K. unfold undone in K at 2 4. cbn in K.
        cbn [returns flat_map app]. destruct (Nat.eqb i' i); cbn in *; lia.
      * intros j' p. rewrite (set_nth_get _ _ _ _ _ _ Ec), (set_nth_get _ _ _ _ _ _ Et). destruct (Nat.eqb_spec j' j) as [->|Hj].
        -- intros K. injection K as _ <-. intros [?|?]; discriminate.
        -- intros K Hp. destruct (Nat.eqb_spec i i') as [->|Hi]; [|exact (B j' p K Hp)].
           exfalso. apply Hj. apply (undone_two i' (c_calls s) j' j p PClear Hle K Ec); [destruct Hp as [->| ->]; discriminate|discriminate].
      * rewrite returns_app. cbn [returns flat_map]. destruct (Nat.eqb_spec i' i) as [->|Hi]; cbn [app]; rewrite ?app_nil_r.
        -- right. destruct (B j PClear Ec (or_intror eq_refl)) as (x & K1 & K2). destruct C as [[C1 C2]|[C1 C2]]; [|specialize (C2 x K1); congruence].
           split; [exists 0%nat; rewrite C1; reflexivity|]. intros y. rewrite (set_nth_get _ _ _ _ _ _ Et), Nat.eqb_refl. intros K. injection K as <-. reflexivity.
        -- destruct C as [[C1 C2]|[C1 C2]]; [left|right]; (split; [exact C1|]); intros x; rewrite (set_nth_get _ _ _ _ _ _ Et), (proj2 (Nat.eqb_neq i i')) by congruence; apply C2.
      * rewrite (set_nth_get _ _ _ _ _ _ Et), returns_app. destruct (Nat.eqb_spec i i') as [->|Hi]; [discriminate|].
        intros K. rewrite (D K). cbn. rewrite (proj2 (Nat.eqb_neq i' i)) by congruence. reflexivity.
      * rewrite in_app_iff. intros [K|[K|[]]]; [exact (E K)|discriminate].
Qed.

(** a timer nobody cancels *)
Lemma uncancelled es : forall i t, cancels i es = 0%nat -> nth_error (c_tmrs (crun es)) i = Some t -> t_state t <> TStopped /\ (forall j p, nth_error (c_calls (crun es)) j <> Some (i, p)).
Proof.
  induction es as [|e es IH] using rev_ind; intros i u; [intros _ H; destruct i; discriminate|].
  rewrite cancels_app, crun_snoc. intros Hc. assert (H0 : cancels i es = 0%nat) by lia. assert (He : cancels i [e] = 0%nat) by lia. clear Hc.
  set (s := crun es) in *.
  assert (Hno : forall t, nth_error (c_tmrs s) i = Some t -> t_state t <> TStopped /\ (forall j p, nth_error (c_calls s) j <> Some (i, p))) by (intros x; exact (IH i x H0)).
  pose proof (inv_run es) as I. fold s in I.
  assert (Hnone : nth_error (c_tmrs s) i = None -> forall j p, nth_error (c_calls s) j <> Some (i, p)).
  { clear - es. intros Hn j p. subst s. revert i j p Hn. induction es as [|e es IH] using rev_ind; intros i k p; [destruct k; discriminate|].
    rewrite crun_snoc. set (s := crun es) in *.
    step_cases s e; try (apply IH); try (rewrite (set_nth_get _ _ _ _ _ _ Et); destruct (Nat.eqb i i') eqn:Ei; [discriminate|]; try apply IH).
    - rewrite nth_last. destruct (Nat.eqb i (length (c_tmrs s))); [discriminate|]. apply IH.
    - intros Hn. rewrite nth_last. destruct (Nat.eqb k (length (c_calls s))); [|apply IH; exact Hn]. intros K. injection K as <- _. congruence.
    - intros Hn. rewrite (set_nth_get _ _ _ _ _ _ Ec). destruct (Nat.eqb k j); [|apply IH; exact Hn]. intros K. injection K as <- _. congruence.
    - intros Hn. rewrite (set_nth_get _ _ _ _ _ _ Ec). destruct (Nat.eqb k j); [|apply IH; exact Hn]. intros K. injection K as <- _. congruence.
    - intros Hn. rewrite (set_nth_get _ _ _ _ _ _ Ec). destruct (Nat.eqb k j); [|apply IH; exact Hn]. intros K. injection K as <- _. congruence.
    - intros Hn. rewrite (set_nth_get _ _ _ _ _ _ Ec). destruct (Nat.eqb k j); [|apply IH; exact Hn]. intros K. injection K as <- _. congruence. }
  step_cases s e; try exact (Hno u).
  - rewrite nth_last. destruct (Nat.eqb_spec i (length (c_tmrs s))) as [Hi|Hi]; [|exact (Hno u)]. intros K. injection K as <-. split; [discriminate|]. apply Hnone, nth_error_None. lia.
  - rewrite (set_nth_get _ _ _ _ _ _ Et). destruct (Nat.eqb_spec i i') as [->|Hi]; [|exact (Hno u)]. intros K. injection K as <-. split; [discriminate|]. exact (proj2 (Hno _ Et)).
  - intros K. destruct (Hno u K) as [K1 K2]. split; [exact K1|]. intros j p. rewrite nth_last. destruct (Nat.eqb j (length (c_calls s))); [|apply K2]. intros X. injection X as -> _.
    cbn in He. rewrite Nat.eqb_refl in He. discriminate.
  - intros K. destruct (Hno u K) as [K1 K2]. split; [exact K1|]. intros j' p. rewrite (set_nth_get _ _ _ _ _ _ Ec). destruct (Nat.eqb j' j); [|apply K2]. intros X. injection X as -> _. exact (K2 _ _ Ec).
  - intros K. destruct (Hno u K) as [K1 K2]. split; [exact K1|]. intros j' p. rewrite (set_nth_get _ _ _ _ _ _ Ec). destruct (Nat.eqb j' j); [|apply K2]. intros X. injection X as -> _. exact (K2 _ _ Ec).
  - rewrite (set_nth_get _ _ _ _ _ _ Et). destruct (Nat.eqb_spec i i') as [->|Hi].
    + intros _. exfalso. exact (proj2 (Hno _ Et) _ _ Ec).
    + intros K. destruct (Hno u K) as [K1 K2]. split; [exact K1|]. intros j' p. rewrite (set_nth_get _ _ _ _ _ _ Ec). destruct (Nat.eqb j' j); [|apply K2]. intros X. injection X as X _. congruence.
  - rewrite (set_nth_get _ _ _ _ _ _ Et). destruct (Nat.eqb_spec i i') as [->|Hi].
    + intros _. exfalso. exact (proj2 (Hno _ Et) _ _ Ec).
    + intros K. destruct (Hno u K) as [K1 K2]. split; [exact K1|]. intros j' p. rewrite (set_nth_get _ _ _ _ _ _ Ec). destruct (Nat.eqb j' j); [|apply K2]. intros X. injection X as X _. congruence.
Qed.
Lemma runs es i t0 d dt : nth_error (scheduled 0 es) i = Some (t0, d) -> cancels i es = 0%nat -> panicked (crun es) = false ->
  (t0 + d <= elapsed es + dt)%Z -> (0 <= dt)%Z -> starts i (c_log (crun (es ++ [ETick dt; EFire i]))) = 1%nat.
Proof.
  intros Hs Hc Hp Hd Hdt. change [ETick dt; EFire i] with ([ETick dt] ++ [EFire i]). rewrite app_assoc, !crun_snoc.
  pose proof (inv_run es) as [A _ _ D _ _ _]. destruct (D Hp) as [D1 D2].
  destruct (nth_error (c_tmrs (crun es)) i) as [t|] eqn:Et.
  2:{ apply nth_error_None in Et. rewrite D2 in Et. assert (K : nth_error (scheduled 0 es) i <> None) by congruence. apply nth_error_Some in K. lia. }
  destruct (A i t Et) as [(t1 & d1 & K1 & K2) K3]. rewrite Hs in K1. injection K1 as <- <-.
  destruct (uncancelled es i t Hc Et) as [K4 _].
  unfold cstep at 2. rewrite Hp. unfold cstep. unfold panicked in *. cbn [c_log c_tmrs c_now c_calls]. rewrite Hp, Et.
  unfold started in K3. destruct (t_state t) eqn:Es; [|exact K3|contradiction].
  rewrite (proj2 (Z.leb_le _ _)) by lia. cbn [c_log]. rewrite starts_app, K3. cbn. rewrite Nat.eqb_refl. reflexivity.
Qed.
