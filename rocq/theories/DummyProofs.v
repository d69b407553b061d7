(** Proofs about the dummy timer and face. *)
From Verif Require Import Base DummyModel DummySpec.

Lemma snoc_split {A} (p q l : list A) (x y : A) : p ++ x :: q = l ++ [y] ->
  (p = l /\ x = y /\ q = []) \/ exists q', q = q' ++ [y] /\ l = p ++ x :: q'.
Proof.
  intros H. destruct (rev q) as [|z r] eqn:E.
  - apply (f_equal (@rev A)) in E. rewrite rev_involutive in E. cbn in E. subst q. apply app_inj_tail in H. destruct H. auto.
  - apply (f_equal (@rev A)) in E. rewrite rev_involutive in E. cbn in E. subst q. right. exists (rev r).
    rewrite app_comm_cons, app_assoc in H. apply app_inj_tail in H. destruct H. subst. auto.
Qed.

Definition nsched cs := length (filter is_schedule cs).

Lemma clock_snoc cs c : clock (cs ++ [c]) = match c with MoveForward d => (clock cs + Z.of_N d)%Z | _ => clock cs end.
Proof. unfold clock. rewrite fold_left_app. reflexivity. Qed.
Lemma made_snoc cs c k t : made (cs ++ [c]) k t <-> made cs k t \/ (exists d, c = Schedule d /\ k = nsched cs /\ t = (clock cs + Z.of_N d)%Z).
Proof.
  split.
  - intros (p & d & q & E & L & T). symmetry in E. apply snoc_split in E. destruct E as [(-> & <- & ->)|(q' & -> & ->)].
    + right. exists d. auto.
    + left. exists p, d, q'. auto.
  - intros [(p & d & q & -> & L & T)|(d & -> & -> & ->)].
    + exists p, d, (q ++ [c]). rewrite <- app_assoc. auto.
    + exists cs, d, []. auto.
Qed.
Lemma canc_snoc cs c k t : cancelled (cs ++ [c]) k t <-> cancelled cs k t \/ (c = Cancel k /\ made cs k t /\ (clock cs <= t)%Z).
Proof.
  split.
  - intros (p & q & E & M & T). symmetry in E. apply snoc_split in E. destruct E as [(-> & <- & ->)|(q' & -> & ->)].
    + right. auto.
    + left. exists p, q'. auto.
  - intros [(p & q & -> & M & T)|(-> & M & T)].
    + exists p, (q ++ [c]). rewrite <- app_assoc. auto.
    + exists cs, []. auto.
Qed.
Lemma nsched_snoc cs c : nsched (cs ++ [c]) = (nsched cs + if is_schedule c then 1 else 0)%nat.
Proof. unfold nsched. rewrite filter_app, app_length. cbn. destruct (is_schedule c); auto. Qed.
Lemma cancels_snoc cs c : cancels (cs ++ [c]) = cancels cs ++ match c with Cancel k => [k] | _ => [] end.
Proof. unfold cancels. rewrite flat_map_app. cbn. rewrite app_nil_r. auto. Qed.

Lemma set_slot_length l : forall i x, length (set_slot l i x) = length l.
Proof. induction l; destruct i; cbn; auto. Qed.
Lemma nth_set_slot l : forall i x j, nth_error (set_slot l i x) j = if (i =? j)%nat then match nth_error l j with Some _ => Some x | None => None end else nth_error l j.
Proof. induction l as [|a l IH]; intros [|i] x [|j]; cbn; auto. destruct (i =? j)%nat; auto. Qed.
Lemma free_slot_ok l : (free_slot l <= length l)%nat /\ ((free_slot l < length l)%nat -> exists t, nth_error l (free_slot l) = Some (t, None)).
Proof.
  induction l as [|[t [k|]] l [IH1 IH2]]; cbn.
  - split; [auto|lia].
  - split; [lia|]. intros. apply IH2. lia.
  - split; [lia|]. exists t. auto.
Qed.

(** slots after Schedule *)
Lemma sched_slots l x i : let f := free_slot l in
  let l' := if (f =? length l)%nat then l ++ [x] else set_slot l f x in
  nth_error l' i = if (i =? f)%nat then Some x else nth_error l i.
Proof.
  cbn zeta. destruct (free_slot_ok l) as [L F]. destruct (Nat.eqb_spec (free_slot l) (length l)) as [E|E].
  - rewrite E. destruct (Nat.eqb_spec i (length l)) as [->|N].
    + rewrite nth_error_app2, Nat.sub_diag by auto. auto.
    + destruct (le_lt_dec (length l) i).
      * rewrite nth_error_app2 by auto. assert (X: nth_error l i = None) by (apply nth_error_None; auto). rewrite X.
        destruct (i - length l)%nat as [|n0] eqn:D; [lia|]. cbn. destruct n0; auto.
      * rewrite nth_error_app1; auto.
  - destruct F as [t F]; [lia|]. rewrite nth_set_slot, (Nat.eqb_sym i). destruct (Nat.eqb_spec (free_slot l) i) as [<-|N]; auto. rewrite F. auto.
Qed.

Definition clear (now : Z) (e : slot) : slot := match e with (t, Some k) => if (t <? now)%Z then (t, None) else e | _ => e end.
Definition fired (now : Z) (l : list slot) : list nat := flat_map (fun e : slot => match e with (t, Some k) => if (t <? now)%Z then [k] else [] | _ => [] end) l.
Lemma forward_plain todo : forall s done, forward_loop (fun _ => []) s todo done =
  (mkTmr (tm_now s) (tm_events s) (tm_info s) (tm_ran s ++ fired (tm_now s) todo), done ++ map (clear (tm_now s)) todo).
Proof.
  induction todo as [|[t [k|]] l IH]; intros s done.
  - cbn. rewrite !app_nil_r. destruct s; auto.
  - cbn [forward_loop]. cbn [fired flat_map clear map]. destruct (t <? tm_now s)%Z.
    + cbn [fold_left]. rewrite IH. cbn. rewrite <- !app_assoc. auto.
    + rewrite IH. rewrite <- !app_assoc. auto.
  - cbn [forward_loop]. rewrite IH. rewrite <- !app_assoc. auto.
Qed.

Record TI (cs : list tcall) (s : tmr) : Prop := {
  ti_now : tm_now s = clock cs;
  ti_len : length (tm_info s) = nsched cs;
  ti_made : forall k t, made cs k t <-> exists i, nth_error (tm_info s) k = Some (t, i);
  ti_slot : forall i t k, nth_error (tm_events s) i = Some (t, Some k) ->
    nth_error (tm_info s) k = Some (t, i) /\ (clock cs <= t)%Z /\ ~ cancelled cs k t;
  ti_gone : forall k t i, nth_error (tm_info s) k = Some (t, i) -> nth_error (tm_events s) i <> Some (t, Some k) ->
    (t < clock cs)%Z \/ cancelled cs k t;
  ti_nodup : NoDup (tm_ran s);
  ti_ran : forall k, In k (tm_ran s) <-> exists t, made cs k t /\ (t < clock cs)%Z /\ ~ cancelled cs k t
}.

Lemma cancelled_in cs k t : cancelled cs k t -> In k (cancels cs).
Proof. intros (p & q & -> & _). unfold cancels. rewrite flat_map_app. apply in_or_app. right. left. auto. Qed.
Lemma cancelled_made cs k t : cancelled cs k t -> made cs k t.
Proof. intros (p & q & -> & (p' & d & q' & -> & L & T) & _). exists p', d, (q' ++ Cancel k :: q). rewrite <- app_assoc. auto. Qed.

Lemma TI_new : TI [] tmr_new.
Proof.
  constructor; cbn; auto.
  - intros. split.
    + intros (p & d & q & E & _). destruct p; discriminate.
    + intros [i E]. destruct k; discriminate.
  - intros [|i]; cbn; discriminate.
  - intros [|k]; cbn; discriminate.
  - constructor.
  - intros k. split; [tauto|]. intros (t & (p & d & q & E & _) & _). destruct p; discriminate.
Qed.

Lemma nth_none {A} (l : list A) : nth_error l (length l) = None.
Proof. apply nth_error_None. auto. Qed.

Lemma fired_in now l k : In k (fired now l) <-> exists i t, nth_error l i = Some (t, Some k) /\ (t < now)%Z.
Proof.
  unfold fired. rewrite in_flat_map. split.
  - intros ([t o] & I & J). apply In_nth_error in I. destruct I as [i I]. destruct o as [k'|]; [|destruct J].
    destruct (Z.ltb_spec t now); [|destruct J]. destruct J as [->|[]]. exists i, t. auto.
  - intros (i & t & I & L). exists (t, Some k). split; [eapply nth_error_In; eauto|]. destruct (Z.ltb_spec t now); [left; auto|lia].
Qed.
Lemma fired_nodup now l : (forall i j t u k, nth_error l i = Some (t, Some k) -> nth_error l j = Some (u, Some k) -> i = j) -> NoDup (fired now l).
Proof.
  induction l as [|[t o] l IH]; intros U; [constructor|].
  assert (N : NoDup (fired now l)).
  { apply IH. intros i j a b k A B. specialize (U (S i) (S j) a b k A B). lia. }
  destruct o as [k|]; [|exact N]. cbn [fired flat_map]. destruct (t <? now)%Z; [|exact N]. cbn [app]. constructor; [|exact N].
  intros I. apply fired_in in I. destruct I as (i & u & I & _). specialize (U O (S i) t u k eq_refl I). lia.
Qed.
Lemma nth_clear now l i : nth_error (map (clear now) l) i = option_map (clear now) (nth_error l i).
Proof. apply nth_error_map. Qed.
Lemma NoDup_app_intro {A} (l1 l2 : list A) : NoDup l1 -> NoDup l2 -> (forall x, In x l1 -> In x l2 -> False) -> NoDup (l1 ++ l2).
Proof.
  induction l1; cbn; auto. intros N1 N2 D. inversion N1; subst. constructor.
  - intros I. apply in_app_or in I. destruct I; [auto|]. apply (D a); auto.
  - apply IHl1; auto. intros x I J. apply (D x); auto.
Qed.

Lemma TI_step cs s c : TI cs s -> (forall k, c = Cancel k -> ~ In k (cancels cs)) -> TI (cs ++ [c]) (tm_step s (plain c)).
Proof.
  intros [A B C D E F G] NC. destruct c as [d|k0|d].
  - (* Schedule *)
    cbn [plain tm_step]. unfold tm_schedule. rewrite A, B.
    set (t0 := (clock cs + Z.of_N d)%Z). set (f := free_slot (tm_events s)).
    assert (NM : forall t, ~ made cs (nsched cs) t).
    { intros t M. apply C in M. destruct M as [i M]. rewrite <- B, nth_none in M. discriminate. }
    constructor; cbn [tm_now tm_events tm_info tm_ran].
    + rewrite clock_snoc. auto.
    + rewrite app_length, nsched_snoc, B. auto.
    + intros k t. rewrite made_snoc, C. split.
      * intros [[i I]|(d' & X & -> & ->)].
        -- exists i. rewrite nth_error_app1; auto. apply nth_error_Some. congruence.
        -- injection X as <-. exists f. rewrite nth_error_app2, B, Nat.sub_diag by lia. auto.
      * intros [i I]. destruct (le_lt_dec (length (tm_info s)) k) as [L|L].
        -- rewrite nth_error_app2 in I by auto. right. exists d. assert (k - length (tm_info s) = 0)%nat.
           { destruct (k - length (tm_info s))%nat as [|n]; auto. cbn in I. destruct n; discriminate. }
           rewrite H in I. cbn in I. injection I as <- <-. split; [|split]; auto. lia.
        -- rewrite nth_error_app1 in I by auto. left. eauto.
    + intros i t k H. rewrite clock_snoc. rewrite (sched_slots (tm_events s)) in H. fold f in H. destruct (Nat.eqb_spec i f) as [->|N].
      * injection H as <- <-. rewrite nth_error_app2, B, Nat.sub_diag by lia. split; [|split]; auto; [subst t0; lia|].
        rewrite canc_snoc. intros [H|[H _]]; [|discriminate]. apply cancelled_made in H. eapply NM; eauto.
      * destruct (D _ _ _ H) as (D1 & D2 & D3). split; [|split]; auto.
        -- rewrite nth_error_app1; auto. apply nth_error_Some. congruence.
        -- rewrite canc_snoc. intros [X|[X _]]; [auto|discriminate].
    + intros k t i H N. rewrite clock_snoc, canc_snoc. rewrite (sched_slots (tm_events s)) in N. fold f in N.
      destruct (le_lt_dec (length (tm_info s)) k) as [L|L].
      * exfalso. rewrite nth_error_app2 in H by auto. assert (Y: (k - length (tm_info s) = 0)%nat).
        { destruct (k - length (tm_info s))%nat as [|n]; auto. cbn in H. destruct n; discriminate. }
        rewrite Y in H. cbn in H. injection H as <- <-. rewrite Nat.eqb_refl in N. apply N. repeat f_equal. lia.
      * rewrite nth_error_app1 in H by auto. destruct (E k t i H) as [X|X]; auto.
        intros X. destruct (Nat.eqb_spec i f) as [->|Y]; [|auto].
        destruct (free_slot_ok (tm_events s)) as [_ P]. destruct P as [u P]. { apply nth_error_Some. fold f. congruence. }
        fold f in P. congruence.
    + auto.
    + intros k. rewrite G, clock_snoc. split.
      * intros (t & M & L & N). exists t. rewrite made_snoc, canc_snoc. split; [auto|]. split; auto. intros [X|[X _]]; [auto|discriminate].
      * intros (t & M & L & N). rewrite made_snoc in M. rewrite canc_snoc in N. destruct M as [M|(d' & X & -> & ->)].
        -- exists t. split; [auto|]. split; [auto|]. intros X. apply N. auto.
        -- lia.
  - (* Cancel *)
    cbn [plain tm_step]. specialize (NC k0 eq_refl). unfold tm_cancel. rewrite A.
    assert (SAME : forall s', tm_now s' = tm_now s -> tm_info s' = tm_info s -> tm_ran s' = tm_ran s ->
       (forall i t k, nth_error (tm_events s') i = Some (t, Some k) -> nth_error (tm_events s) i = Some (t, Some k) /\ (k = k0 -> False)) ->
       (forall k t i, nth_error (tm_info s) k = Some (t, i) -> nth_error (tm_events s) i = Some (t, Some k) -> k <> k0 -> nth_error (tm_events s') i = Some (t, Some k)) ->
       (forall t i, nth_error (tm_info s) k0 = Some (t, i) -> (t < clock cs)%Z \/ (clock cs <= t)%Z) ->
       TI (cs ++ [Cancel k0]) s').
    { intros s' N1 N2 N3 N4 N5 _. constructor; rewrite ?N1, ?N2, ?N3, ?clock_snoc; auto.
      - rewrite nsched_snoc. cbn. lia.
      - intros k t. rewrite made_snoc, C. split; [|auto]. intros [X|(d & X & _)]; [auto|discriminate].
      - intros i t k H. destruct (N4 _ _ _ H) as [H1 H2]. destruct (D _ _ _ H1) as (D1 & D2 & D3). split; [|split]; auto.
        rewrite canc_snoc. intros [X|[X _]]; [auto|]. injection X as ->. auto.
      - intros k t i H N. rewrite canc_snoc. destruct (Nat.eq_dec k k0) as [->|K].
        + destruct (Z.lt_ge_cases t (clock cs)) as [X|X]; auto. right. right. split; auto. split; auto. apply C. eauto.
        + destruct (E k t i H) as [X|X]; auto.
      - intros k. rewrite G. split.
        + intros (t & M & L & N). exists t. rewrite made_snoc, canc_snoc. split; [auto|]. split; auto. intros [X|(X & _ & Y)]; [auto|lia].
        + intros (t & M & L & N). rewrite made_snoc in M. rewrite canc_snoc in N. destruct M as [M|(d' & X & _)]; [|discriminate]. exists t. split; [auto|]. split; [auto|]. intros X. apply N. auto. }
    destruct (nth_error (tm_info s) k0) as [[t0 i0]|] eqn:I0; cbn [fst].
    2:{ apply SAME; auto. - intros i t k H. split; auto. intros ->. destruct (D _ _ _ H) as (D1 & _). congruence. - intros; discriminate. }
    assert (T : (t0 < clock cs)%Z \/ (clock cs <= t0)%Z) by lia.
    assert (AT : forall i t, nth_error (tm_events s) i = Some (t, Some k0) -> i = i0 /\ t = t0).
    { intros i t H. destruct (D _ _ _ H) as (D1 & _). rewrite I0 in D1. injection D1 as <- <-. auto. }
    destruct (Z.ltb_spec t0 (clock cs)) as [L|L]; cbn [fst].
    + apply SAME; auto.
      * intros i t k H. split; auto. intros ->. destruct (AT _ _ H) as [-> ->]. destruct (D _ _ _ H) as (_ & D2 & _). lia.
      * intros t i X. lia.
    + assert (LIVE : nth_error (tm_events s) i0 = Some (t0, Some k0)).
      { destruct (nth_error (tm_events s) i0) as [[t' [k'|]]|] eqn:X.
        - destruct (Z.eq_dec t' t0) as [->|Y]; [destruct (Nat.eq_dec k' k0) as [->|Y]|]; auto; exfalso;
          (destruct (E k0 t0 i0 I0) as [Z|Z]; [rewrite X; congruence|lia|apply cancelled_in in Z; auto]).
        - exfalso. destruct (E k0 t0 i0 I0) as [Z|Z]; [rewrite X; congruence|lia|apply cancelled_in in Z; auto].
        - exfalso. destruct (E k0 t0 i0 I0) as [Z|Z]; [rewrite X; congruence|lia|apply cancelled_in in Z; auto]. }
      rewrite LIVE, Z.eqb_refl. cbn [fst]. apply SAME; auto; cbn [tm_events].
      * intros i t k H. rewrite nth_set_slot in H. destruct (Nat.eqb_spec i0 i) as [<-|N].
        -- rewrite LIVE in H. discriminate.
        -- split; auto. intros ->. destruct (AT _ _ H) as [-> ->]. auto.
      * intros k t i H1 H2 K. rewrite nth_set_slot. destruct (Nat.eqb_spec i0 i) as [<-|N]; auto. congruence.
      * intros t i X. lia.
  - (* MoveForward *)
    cbn [plain tm_step]. unfold tm_forward. rewrite forward_plain. cbn [tm_now tm_events tm_info tm_ran app]. rewrite A.
    set (now := (clock cs + Z.of_N d)%Z). assert (NOW : (clock cs <= now)%Z) by (subst now; lia).
    assert (MS : forall k t, made (cs ++ [MoveForward d]) k t <-> made cs k t).
    { intros. rewrite made_snoc. split; auto. intros [X|(? & X & _)]; [auto|discriminate]. }
    assert (CS : forall k t, cancelled (cs ++ [MoveForward d]) k t <-> cancelled cs k t).
    { intros. rewrite canc_snoc. split; auto. intros [X|(X & _)]; [auto|discriminate]. }
    assert (MU : forall k t u, made cs k t -> made cs k u -> t = u).
    { intros k t u X Y. apply C in X. apply C in Y. destruct X as [i X], Y as [j Y]. congruence. }
    constructor; cbn [tm_now tm_events tm_info tm_ran]; rewrite ?clock_snoc; fold now; auto.
    + rewrite nsched_snoc. cbn. lia.
    + intros k t. rewrite MS. auto.
    + intros i t k H. rewrite nth_clear in H. destruct (nth_error (tm_events s) i) as [[t' [k'|]]|] eqn:X; cbn [option_map clear] in H; try discriminate.
      destruct (Z.ltb_spec t' now); [discriminate|]. injection H as -> ->. destruct (D _ _ _ X) as (D1 & D2 & D3). rewrite CS. auto.
    + intros k t i H N. rewrite CS. rewrite nth_clear in N. destruct (Z.lt_ge_cases t now) as [L|L]; auto. destruct (E k t i H) as [X|X]; auto; [|lia].
      intros X. apply N. rewrite X. cbn [option_map clear]. destruct (Z.ltb_spec t now); [lia|auto].
    + apply NoDup_app_intro; auto.
      * apply fired_nodup. intros i j t u k H1 H2. destruct (D _ _ _ H1) as (D1 & _). destruct (D _ _ _ H2) as (D2 & _). congruence.
      * intros k I J. apply G in I. destruct I as (t & M & L & _). apply fired_in in J. destruct J as (i & u & J & _). destruct (D _ _ _ J) as (D1 & D2 & _).
        assert (made cs k u) by (apply C; eauto). specialize (MU _ _ _ M H). lia.
    + intros k. rewrite in_app_iff, G, fired_in. split.
      * intros [(t & M & L & N)|(i & t & H & L)].
        -- exists t. rewrite MS, CS. repeat split; auto. lia.
        -- destruct (D _ _ _ H) as (D1 & D2 & D3). exists t. rewrite MS, CS. repeat split; auto. apply C. eauto.
      * intros (t & M & L & N). rewrite MS in M. rewrite CS in N. destruct (Z.lt_ge_cases t (clock cs)) as [X|X].
        -- left. exists t. auto.
        -- right. pose proof M as M'. apply C in M'. destruct M' as [i I]. exists i, t. split; auto.
           destruct (nth_error (tm_events s) i) as [[t' [k'|]]|] eqn:Y.
           ++ destruct (Z.eq_dec t' t) as [->|Z1]; [destruct (Nat.eq_dec k' k) as [->|Z1]|]; auto; exfalso;
              (destruct (E k t i I) as [Z|Z]; [rewrite Y; congruence|lia|auto]).
           ++ exfalso. destruct (E k t i I) as [Z|Z]; [rewrite Y; congruence|lia|auto].
           ++ exfalso. destruct (E k t i I) as [Z|Z]; [rewrite Y; congruence|lia|auto].
Qed.

Lemma NoDup_app_l {A} (l1 l2 : list A) : NoDup (l1 ++ l2) -> NoDup l1 /\ forall x, In x l1 -> In x l2 -> False.
Proof.
  induction l1; cbn; [split; [constructor|auto]|]. intros N. inversion N; subst. destruct (IHl1 H2) as [N1 D]. split.
  - constructor; auto. intros I. apply H1. apply in_or_app. auto.
  - intros x [->|I] J; [apply H1; apply in_or_app; auto|eauto].
Qed.

Lemma TI_run cs : NoDup (cancels cs) -> TI cs (tm_run tmr_new (map plain cs)).
Proof.
  induction cs as [|c cs IH] using rev_ind; intros N; [apply TI_new|].
  rewrite cancels_snoc in N. apply NoDup_app_l in N. destruct N as [N D].
  unfold tm_run. rewrite map_app, fold_left_app. cbn [map fold_left]. apply TI_step; [apply IH; auto|].
  intros k -> I. apply (D k); auto. left. auto.
Qed.

(** ** face *)
Lemma fold_app_concat (l : list buf) : forall acc, fold_left (fun a b => a ++ b) l acc = acc ++ concat l.
Proof. induction l; intros acc; cbn; [rewrite app_nil_r; auto|]. rewrite IHl, app_assoc. auto. Qed.

Lemma df_run_ok os : forall f got f' rs, df_run f os = (f', rs) ->
  opened (df_callback f) (df_running f) (got ++ df_pkts f) os =
  (df_running f', consumed (df_callback f) (df_running f) got os rs ++ df_pkts f').
Proof.
  induction os as [|o os IH]; intros [q ru cb] got f' rs H; cbn [df_run df_callback df_running df_pkts] in *.
  { injection H as <- <-. auto. }
  destruct (df_step (mkFace q ru cb) o) as [f1 r] eqn:H1. destruct (df_run f1 os) as [f2 rs'] eqn:H2. injection H as <- <-.
  destruct o as [| | |[|b [|c pkt]]|]; cbn [df_step df_running df_pkts df_callback] in H1; destruct cb, ru; cbn [negb] in H1;
    try (destruct q as [|x q]); injection H1 as <- <-; cbn [opened consumed andb negb];
    try (specialize (IH _ got _ _ H2); cbn [df_callback df_running df_pkts] in IH; rewrite ?app_assoc, ?app_nil_r in IH; rewrite ?app_nil_r; exact IH);
    try (specialize (IH _ [] _ _ H2); cbn [df_callback df_running df_pkts app] in IH; exact IH);
    try (specialize (IH _ (got ++ [x]) _ _ H2); cbn [df_callback df_running df_pkts app] in IH; rewrite <- app_assoc in IH; exact IH);
    (specialize (IH _ got _ _ H2); cbn [df_callback df_running df_pkts] in IH; rewrite ?fold_app_concat in IH; cbn [concat app] in *; rewrite ?app_nil_r in *; rewrite <- ?app_assoc in *; cbn [app] in *; exact IH).
Qed.
