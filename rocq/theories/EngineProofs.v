From Coq Require Import Permutation.
From Verif Require Import Base BaseProofs NameModel TextModel TrieModel TrieSpec TrieProofs EngineModel EngineSpec.

(** ** frames of the trie operations *)
Section Frame.
Variables (V : Type) (zero : V).
Notation store := (store V).

Definition ext (h h' : store) : Prop :=
  forall n x, nth_error h n = Some x -> exists x', nth_error h' n = Some x' /\ t_par x' = t_par x /\ t_key x' = t_key x /\ t_dep x' = t_dep x.

Lemma ext_refl : forall h, ext h h.
Proof. intros h n x H. eauto. Qed.
Lemma ext_trans : forall a b c, ext a b -> ext b c -> ext a c.
Proof.
  intros a b c A B n x H. destruct (A n x H) as (y & Y & P & K & D). destruct (B n y Y) as (z & Z & P2 & K2 & D2).
  exists z. repeat split; congruence.
Qed.

Lemma put_same : forall (h : store) n x y, nth_error h n = Some x -> t_val y = t_val x -> map t_val (put h n y) = map t_val h.
Proof. induction h as [|z h IH]; destruct n; simpl; intros x y H E; try discriminate; [inversion H; subst; congruence|f_equal; eauto]. Qed.
Lemma put_ext : forall (h : store) n x y, nth_error h n = Some x -> t_par y = t_par x -> t_key y = t_key x -> t_dep y = t_dep x -> ext h (put h n y).
Proof.
  intros h n x y H A B C m z Z. rewrite put_nth by (eapply nth_lt; eauto). destruct (Nat.eqb_spec m n) as [->|]; [|eauto].
  assert (z = x) by congruence. subst. eauto.
Qed.

Lemma app_ext : forall (h t : store), ext h (h ++ t).
Proof. intros h t n x H. exists x. rewrite nth_error_app1 by (eapply nth_lt; eauto). auto. Qed.

Lemma first_vals : forall pred nm fuel h n h' m, first_satisfy_or_new zero fuel pred h n nm = Ok (h', m) ->
  ext h h' /\ exists k, map t_val h' = map t_val h ++ repeat zero k.
Proof.
  intros pred nm. induction fuel; intros h n h' m E; [discriminate|]. cbn [first_satisfy_or_new] in E. unfold get in E.
  destruct (nth_error h n) as [x|] eqn:X; [|discriminate]. cbn [bind] in E.
  destruct ((length nm <=? t_dep x)%nat || pred (t_val x)).
  - inversion E; subst. split; [apply ext_refl|]. exists O. simpl. rewrite app_nil_r. auto.
  - destruct (nth_error nm (t_dep x)) as [c|]; [|discriminate]. destruct (chd_get (t_chd x) c) as [ch|].
    + eapply IHfuel; eauto.
    + unfold add_child in E. destruct (t_chd x) as [mm|] eqn:M; [|discriminate]. cbn [bind fst snd] in E.
      apply IHfuel in E. destruct E as [E1 (k & E2)]. split.
      * eapply ext_trans; [|exact E1]. eapply ext_trans; [|apply app_ext]. eapply put_ext; eauto.
      * exists (S k). rewrite E2, map_app. rewrite (put_same _ _ x) by auto. rewrite <- app_assoc. reflexivity.
Qed.

Lemma delete_any : forall pred fuel h n x, Inv V h -> nth_error h n = Some x -> (n < fuel)%nat ->
  exists h', delete_if fuel pred h n = Ok h' /\ Inv V h' /\ map t_val h' = map t_val h /\ ext h h'.
Proof.
  intros pred. induction fuel; intros h n x I X F; [lia|]. cbn [delete_if]. rewrite (get_ok _ _ _ _ X). cbn [bind].
  destruct (pred (t_val x)); cbn [negb]; [|exists h; split; auto; split; auto; split; auto; apply ext_refl].
  pose proof I as (I0 & I1 & I2).
  destruct (t_par x) as [p|] eqn:PX.
  - assert (N0 : n <> O).
    { intros ->. destruct I0 as (r & m & R1 & R2 & _). congruence. }
    destruct (I1 n x X N0) as (p' & y & P1 & P2 & P3 & P4). assert (p' = p) by congruence. subst p'.
    assert (G : get (put h n (with_chd x None)) p = Ok y).
    { apply get_ok. rewrite put_nth by (eapply nth_lt; eauto). destruct (Nat.eqb_spec p n); [lia|auto]. }
    rewrite G. cbn [bind]. fold (unlink V h n p x y).
    assert (IU : Inv V (unlink V h n p x y)) by (apply unlink_inv; auto).
    assert (VU : map t_val (unlink V h n p x y) = map t_val h).
    { unfold unlink. rewrite (put_same _ _ y); [apply (put_same _ _ x); auto| |reflexivity].
      rewrite put_nth by (eapply nth_lt; eauto). destruct (Nat.eqb_spec p n); [lia|auto]. }
    assert (EU : ext h (unlink V h n p x y)).
    { unfold unlink. eapply ext_trans; [apply (put_ext h n x (with_chd x None)); auto|]. apply (put_ext _ p y); auto.
      rewrite put_nth by (eapply nth_lt; eauto). destruct (Nat.eqb_spec p n); [lia|auto]. }
    destruct (chd_len (chd_del (t_chd y) (t_key x)) =? 0)%nat.
    + assert (Y1 : nth_error (unlink V h n p x y) p = Some (with_chd y (chd_del (t_chd y) (t_key x)))).
      { rewrite unlink_nth by (auto; lia). rewrite Nat.eqb_refl. auto. }
      destruct (IHfuel _ p _ IU Y1) as (h' & D & I' & V' & E'); [lia|]. exists h'. split; auto. split; auto. split; [congruence|].
      eapply ext_trans; eauto.
    + exists (unlink V h n p x y). auto.
  - assert (n = O).
    { destruct n; auto. destruct (I1 (S n) x X) as (p & y & P & _); [lia|congruence]. }
    subst n. eexists. split; [reflexivity|]. destruct (root_clear V h x I X) as [I' _]. split; auto. split; [apply (put_same _ _ x); auto|].
    eapply put_ext; eauto.
Qed.

Lemma delete_any_top : forall pred h n x, Inv V h -> nth_error h n = Some x ->
  exists h', t_delete_if pred h n = Ok h' /\ Inv V h' /\ map t_val h' = map t_val h /\ ext h h'.
Proof. intros. apply delete_any with x; auto. apply nth_lt in H0. lia. Qed.

(** ** the path of a node, live or not *)
Inductive path_of (h : store) : nat -> path -> Prop :=
| PRoot : path_of h 0 []
| PStep : forall n x p q, nth_error h n = Some x -> t_par x = Some p -> path_of h p q -> path_of h n (q ++ [t_key x]).

Lemma path_of_ext : forall h h' n p, ext h h' -> path_of h n p -> path_of h' n p.
Proof.
  intros h h' n p E H. induction H as [|n x p q X P H IH]; [constructor|]. destruct (E n x X) as (x' & X' & P' & K' & _).
  rewrite <- K'. eapply PStep; eauto. congruence.
Qed.

Lemma walk_path : forall h p n, Inv V h -> walk V h 0 p = Some n -> path_of h n p.
Proof.
  intros h p. induction p as [|k p IH] using rev_ind; intros n I W; [inversion W; constructor|].
  rewrite walk_snoc in W. destruct (walk V h 0 p) as [m|] eqn:E; [|discriminate].
  destruct (step_child V h m k n I W) as (x & y & A1 & A2 & A3 & A4 & _). rewrite <- A4. apply PStep with m; auto.
Qed.

Lemma path_of_fun : forall h n p, Inv V h -> path_of h n p -> forall q, path_of h n q -> p = q.
Proof.
  intros h n p I H. induction H as [|n x p q X P H IH]; intros q' H'.
  - inversion H'; subst; auto. destruct I as ((r & m & R1 & R2 & _) & _). congruence.
  - inversion H'; subst.
    + destruct I as ((r & m & R1 & R2 & _) & _). congruence.
    + assert (x0 = x) by congruence. subst. f_equal. apply IH. congruence.
Qed.

Lemma always_ok : forall h nm, Inv V h -> exists h' m, t_always zero h nm = Ok (h', m) /\ Inv V h' /\ walk V h' 0 nm = Some m /\
  ext h h' /\ (exists k, map t_val h' = map t_val h ++ repeat zero k).
Proof.
  intros h nm I. unfold t_always, match_always.
  destruct (first_loop V zero (fun _ => false) nm (S (length nm)) h [] 0 I eq_refl (prefix_nil _)) as (h' & m & q & E & I' & W & P1 & P2 & AD & _ & Q); [simpl; lia|].
  destruct Q as [->|Q]; [|discriminate]. exists h', m. split; auto. split; auto. split; auto. eapply first_vals; eauto.
Qed.

End Frame.

(** ** the pending table *)
Notation pit := (store (list pend)).

Definition ids (h : pit) : list nat := concat (map (fun x => map pe_id (t_val x)) h).

Lemma ids_vals : forall h, ids h = concat (map (map pe_id) (map t_val h)).
Proof. intros. unfold ids. rewrite map_map. auto. Qed.

Lemma ids_pad : forall h h' k, map t_val h' = map t_val h ++ repeat [] k -> ids h' = ids h.
Proof.
  intros h h' k E. rewrite !ids_vals, E, map_app, concat_app. replace (concat (map (map pe_id) (repeat [] k))) with (@nil nat); [apply app_nil_r|].
  clear. induction k; simpl; auto.
Qed.

Lemma ids_put : forall h n x l, nth_error h n = Some x -> exists r,
  Permutation (ids h) (map pe_id (t_val x) ++ r) /\ Permutation (ids (put h n (with_val x l))) (map pe_id l ++ r).
Proof.
  unfold ids. induction h as [|y h IH]; destruct n; simpl; intros x l H; try discriminate.
  - inversion H; subst. exists (concat (map (fun x => map pe_id (t_val x)) h)). auto.
  - destruct (IH n x l H) as (r & A & B). exists (map pe_id (t_val y) ++ r). split.
    + rewrite A. rewrite !app_assoc. apply Permutation_app_tail. apply Permutation_app_comm.
    + rewrite B. rewrite !app_assoc. apply Permutation_app_tail. apply Permutation_app_comm.
Qed.

Lemma filter_perm : forall {A} (f : A -> bool) l, Permutation l (filter f l ++ filter (fun x => negb (f x)) l).
Proof.
  induction l as [|a l IH]; simpl; auto. destruct (f a); simpl; auto. apply Permutation_cons_app. auto.
Qed.

Lemma ids_partition : forall h n x f, nth_error h n = Some x ->
  Permutation (ids h) (map pe_id (filter f (t_val x)) ++ ids (put h n (with_val x (filter (fun e => negb (f e)) (t_val x))))).
Proof.
  intros h n x f H. destruct (ids_put h n x (filter (fun e => negb (f e)) (t_val x)) H) as (r & A & B).
  rewrite A, B. rewrite (filter_perm f (t_val x)) at 1. rewrite map_app, <- app_assoc. auto.
Qed.

Lemma perm3 : forall {A} (a b c : list A), Permutation (a ++ b ++ c) ((c ++ a) ++ b).
Proof. intros. rewrite app_assoc, <- (app_assoc c). apply Permutation_app_comm. Qed.

Lemma set_value_put : forall {V} (h : store V) n x v, nth_error h n = Some x -> set_value h n v = Ok (put h n (with_val x v)).
Proof. intros. unfold set_value. rewrite (get_ok _ _ _ _ H). auto. Qed.

Lemma put_val_inv : forall {V} (h : store V) n x v, Inv V h -> nth_error h n = Some x -> Inv V (put h n (with_val x v)) /\
  (forall p, walk V (put h n (with_val x v)) 0 p = walk V h 0 p).
Proof.
  intros V h n x v I X. destruct (set_value_ok V h n x v I X) as (h' & S & I' & W & _). rewrite (set_value_put _ _ _ _ X) in S. inversion S; subst. auto.
Qed.

(** ** the loop of onData *)
Lemma data_loop_ok : forall len digest fuel h cur q done, Inv _ h -> walk _ h 0 q = Some cur -> (cur < fuel)%nat ->
  exists h' sat, data_loop fuel h cur len digest done = Ok (h', done ++ sat) /\ Inv _ h' /\ ext _ h h' /\ length h' = length h /\
    (forall p, walk _ h' 0 p = walk _ h 0 p) /\
    (forall e, In e sat <-> exists p n x, prefix p q /\ walk _ h 0 p = Some n /\ nth_error h n = Some x /\ In e (t_val x) /\ satisfied (length p) len digest e = true) /\
    (forall n x, nth_error h n = Some x -> exists x', nth_error h' n = Some x' /\
        (forall e, In e (t_val x') -> In e (t_val x)) /\ (forall e, In e (t_val x) -> In e (t_val x') \/ In e sat)) /\
    Permutation (ids h) (map pe_id sat ++ ids h').
Proof.
  intros len digest. induction fuel; intros h cur q done I W F; [lia|]. cbn [data_loop].
  destruct (walk_root _ h q cur I W) as (x & X & D & _). rewrite (get_ok _ _ _ _ X). cbn [bind]. rewrite D.
  set (f := satisfied (length q) len digest). set (sat0 := filter f (t_val x)). set (kept := filter (fun e => negb (f e)) (t_val x)).
  set (h1 := put h cur (with_val x kept)).
  destruct (put_val_inv h cur x kept I X) as [I1 W1]. fold h1 in I1, W1.
  assert (L1 : length h1 = length h) by apply put_length.
  assert (N1 : forall m, nth_error h1 m = if Nat.eqb m cur then Some (with_val x kept) else nth_error h m).
  { intros m. apply put_nth. eapply nth_lt; eauto. }
  assert (E1 : ext _ h h1) by (eapply put_ext; eauto).
  assert (P1 : Permutation (ids h) (map pe_id sat0 ++ ids h1)) by (apply ids_partition; auto).
  assert (SV : exists h1', (if (length (t_val x) =? 0)%nat then Ok h else set_value h cur kept) = Ok h1' /\ h1' = h1).
  { destruct (length (t_val x) =? 0)%nat eqn:Z; [|exists h1; split; auto; rewrite (set_value_put _ _ _ _ X); auto].
    exists h. split; auto. apply Nat.eqb_eq in Z. apply length_zero_iff_nil in Z. unfold h1, kept. rewrite Z. simpl.
    assert (XE : with_val x [] = x) by (destruct x; simpl in *; subst; auto). rewrite XE.
    clear -X. revert cur X. induction h; destruct cur; simpl; intros; try discriminate; [congruence|f_equal; auto]. }
  destruct SV as (h1' & SV & ->). rewrite SV. cbn [bind].
  destruct q as [|k q] using rev_ind.
  - inversion W; subst cur. assert (PX : t_par x = None) by (destruct I as ((r & m & R1 & R2 & _) & _); congruence). rewrite PX.
    exists h1, sat0. split; auto. split; auto. split; auto. split; auto. split; auto. split; [|split; auto].
    + intros e. split.
      * intros H. apply filter_In in H. exists [], O, x. split; [apply prefix_nil|]. split; [reflexivity|]. split; [exact X|]. exact H.
      * intros (p & n & y & PP & WW & Y & IN & SA). destruct PP as (s & E). symmetry in E. apply app_eq_nil in E. destruct E as [-> _]. inversion WW; subst n.
        assert (y = x) by congruence. subst y. apply filter_In. auto.
    + intros n y Y. rewrite N1. destruct (Nat.eqb_spec n 0) as [->|].
      * assert (y = x) by congruence. subst y. exists (with_val x kept). split; auto. simpl. split.
        -- intros e H. apply filter_In in H. tauto.
        -- intros e H. destruct (f e) eqn:FE; [right; apply filter_In; auto|left; apply filter_In; rewrite FE; auto].
      * exists y. auto.
  - clear IHq. assert (WS := W). rewrite walk_snoc in WS. destruct (walk _ h 0 q) as [p|] eqn:WQ; [|discriminate].
    destruct (step_child _ h p k cur I WS) as (y & x0 & A1 & A2 & A3 & A4 & A5 & A6 & A7). assert (x0 = x) by congruence. subst x0.
    rewrite A3.
    assert (LT : (p < cur)%nat).
    { destruct I as (_ & Q1 & _). destruct (Q1 cur x X A7) as (p' & y' & Q & Q2 & _). congruence. }
    destruct (IHfuel h1 p q (done ++ sat0) I1) as (h' & sat & R & I' & E' & L' & W' & S' & K' & PM'); [rewrite W1; auto|lia|].
    exists h', (sat0 ++ sat). rewrite app_assoc. split; auto. split; auto. split; [eapply ext_trans; eauto|]. split; [congruence|].
    split; [intros; rewrite W', W1; auto|].
    assert (PATH : forall m p0, walk _ h 0 p0 = Some m -> prefix p0 q -> m <> cur).
    { intros m p0 Wm Pm ->. assert (p0 = q ++ [k]) by (apply (walk_inj _ h _ _ cur); auto). subst p0. apply (snoc_not_prefix q k Pm). }
    split; [|split].
    + intros e. rewrite in_app_iff. split.
      * intros [H|H].
        -- apply filter_In in H. exists (q ++ [k]), cur, x. split; [apply prefix_refl|]. tauto.
        -- apply S' in H. destruct H as (p0 & n & z & H1 & H2 & H3 & H4 & H5). rewrite W1 in H2. pose proof (PATH n p0 H2 H1).
           rewrite N1 in H3. destruct (Nat.eqb_spec n cur); [congruence|]. exists p0, n, z. split; [eapply prefix_trans; [exact H1|exists [k]; auto]|]. auto.
      * intros (p0 & n & z & H1 & H2 & H3 & H4 & H5). apply prefix_snoc in H1. destruct H1 as [H1| ->].
        -- right. apply S'. exists p0, n, z. split; auto. rewrite W1. split; auto. rewrite N1. pose proof (PATH n p0 H2 H1).
           destruct (Nat.eqb_spec n cur); [congruence|]. auto.
        -- left. assert (n = cur) by congruence. subst n. assert (z = x) by congruence. subst z. apply filter_In. auto.
    + intros n z Z. destruct (Nat.eqb_spec n cur) as [->|N].
      * assert (z = x) by congruence. subst z. destruct (K' cur (with_val x kept)) as (x' & X' & B1 & B2); [rewrite N1, Nat.eqb_refl; auto|].
        exists x'. split; auto. split.
        -- intros e H. apply B1 in H. simpl in H. apply filter_In in H. tauto.
        -- intros e H. destruct (f e) eqn:FE; [right; apply in_or_app; left; apply filter_In; auto|].
           destruct (B2 e) as [B|B]; auto; [simpl; apply filter_In; rewrite FE; auto|]. right. apply in_or_app; auto.
      * destruct (K' n z) as (x' & X' & B1 & B2); [rewrite N1; destruct (Nat.eqb_spec n cur); congruence|].
        exists x'. split; auto. split; auto. intros e H. destruct (B2 e H); auto. right. apply in_or_app; auto.
    + rewrite P1, PM', map_app, <- app_assoc. auto.
Qed.

(** ** invariant *)
Definition Timed (g : engine) (i : nat) : Prop :=
  exists n x e t, nth_error (g_pit g) n = Some x /\ In e (t_val x) /\ pe_id e = i /\
    In t (g_armed g ++ g_flight g) /\ tm_id t = i /\ tm_node t = n /\ (pe_deadline e <= tm_due t)%Z.

Definition entry_ok (L : list xint) (h : pit) (n : nat) (e : pend) : Prop :=
  exists nm node, nth_error L (pe_id e) = Some (mkX nm (pe_cbp e) (pe_deadline e)) /\ split_digest nm = Some (node, pe_sha e) /\
    path_of _ h n (keys node).

Record EInv (L : list xint) (g : engine) : Prop := {
  ei_inv : Inv _ (g_pit g);
  ei_next : g_next g = length L;
  ei_nodup : NoDup (map tm_id (g_armed g ++ g_flight g));
  ei_flight : forall t, In t (g_flight g) -> (tm_due t <= g_now g)%Z;
  ei_timers : forall t, In t (g_armed g ++ g_flight g) -> (tm_node t < length (g_pit g))%nat /\
    exists x, nth_error L (tm_id t) = Some x /\ tm_due t = (x_deadline x + TimeoutMargin)%Z;
  ei_timed : forall i, (i < g_next g)%nat -> In i (called g) \/ Timed g i;
  ei_entry : forall n x e, nth_error (g_pit g) n = Some x -> In e (t_val x) -> entry_ok L (g_pit g) n e;
  ei_called : forall i, In i (called g) -> (i < g_next g)%nat
}.

Definition Exact (g : engine) : Prop := Permutation (ids (g_pit g) ++ called g) (seq 0 (g_next g)).

Lemma cancel_in : forall l ts t, In t (cancel l ts) <-> In t ts /\ ~ In (tm_id t) l.
Proof.
  intros. unfold cancel. rewrite filter_In. split; intros [A B]; split; auto.
  - intros H. apply Bool.negb_true_iff in B. rewrite (proj2 (existsb_exists _ _)) in B; [discriminate|]. exists (tm_id t). split; auto. apply Nat.eqb_refl.
  - apply Bool.negb_true_iff. destruct (existsb (Nat.eqb (tm_id t)) l) eqn:E; auto. apply existsb_exists in E. destruct E as (x & I & E). apply Nat.eqb_eq in E. subst. tauto.
Qed.

Lemma nodup_filter_map : forall {A} (f : A -> nat) (p : A -> bool) l, NoDup (map f l) -> NoDup (map f (filter p l)).
Proof.
  induction l as [|a l IH]; simpl; intros H; [constructor|]. inversion H; subst. destruct (p a); simpl; auto. constructor; auto.
  intros I. apply H2. apply in_map_iff in I. destruct I as (x & E & I). apply filter_In in I. rewrite <- E. apply in_map. tauto.
Qed.

Lemma nodup_cancel_l : forall l a f, NoDup (map tm_id (a ++ f)) -> NoDup (map tm_id (cancel l a ++ f)).
Proof.
  intros l. induction a as [|t a IH]; simpl; intros f H; auto. inversion H; subst. unfold cancel in *. simpl.
  destruct (negb (existsb (Nat.eqb (tm_id t)) l)); simpl; auto. constructor; auto. intros I. apply H2.
  rewrite map_app in *. apply in_app_iff in I. apply in_app_iff. destruct I as [I|I]; auto. left.
  apply in_map_iff in I. destruct I as (x & E & I). apply filter_In in I. rewrite <- E. apply in_map. tauto.
Qed.

Lemma timer_lt : forall L g t, EInv L g -> In t (g_armed g ++ g_flight g) -> (tm_id t < g_next g)%nat.
Proof.
  intros L g t EI T. destruct (ei_timers _ _ EI t T) as (_ & x & X & _). rewrite (ei_next _ _ EI). apply nth_error_Some. congruence.
Qed.

(** entries move to another store that keeps the paths *)
Lemma entry_ok_ext : forall L h h' n e, ext _ h h' -> entry_ok L h n e -> entry_ok L h' n e.
Proof. intros L h h' n e E (nm & node & A & B & C). exists nm, node. split; auto. split; auto. eapply path_of_ext; eauto. Qed.

Lemma vals_nth : forall (h h' : pit) n x, map t_val h' = map t_val h -> nth_error h n = Some x -> exists x', nth_error h' n = Some x' /\ t_val x' = t_val x.
Proof.
  intros h h' n x E X. assert (H : nth_error (map t_val h) n = Some (t_val x)) by (apply map_nth_error; auto).
  rewrite <- E in H. rewrite nth_error_map in H. destruct (nth_error h' n) as [x'|]; [|discriminate]. exists x'. split; auto. simpl in H. congruence.
Qed.
Lemma vals_nth_pad : forall (h h' : pit) n x k, map t_val h' = map t_val h ++ repeat [] k -> nth_error h n = Some x -> exists x', nth_error h' n = Some x' /\ t_val x' = t_val x.
Proof.
  intros h h' n x k E X. assert (H : nth_error (map t_val h) n = Some (t_val x)) by (apply map_nth_error; auto).
  assert (H' : nth_error (map t_val h') n = Some (t_val x)).
  { rewrite E, nth_error_app1; auto. rewrite map_length. eapply nth_lt; eauto. }
  rewrite nth_error_map in H'. destruct (nth_error h' n) as [x'|]; [|discriminate]. exists x'. split; auto. simpl in H'. congruence.
Qed.
Lemma vals_nth_pad_inv : forall (h h' : pit) n x' e k, map t_val h' = map t_val h ++ repeat [] k -> nth_error h' n = Some x' -> In e (t_val x') ->
  exists x, nth_error h n = Some x /\ t_val x = t_val x'.
Proof.
  intros h h' n x' e k E X IN. assert (H : nth_error (map t_val h') n = Some (t_val x')) by (apply map_nth_error; auto).
  rewrite E in H. destruct (Nat.lt_ge_cases n (length h)) as [L|L].
  - rewrite nth_error_app1 in H by (rewrite map_length; auto). rewrite nth_error_map in H. destruct (nth_error h n) as [x|]; [|discriminate]. exists x. split; auto. simpl in H. congruence.
  - rewrite nth_error_app2 in H by (rewrite map_length; auto). apply nth_error_In in H. apply repeat_spec in H. rewrite H in IN. destruct IN.
Qed.
Lemma vals_length : forall (h h' : pit), map t_val h' = map t_val h -> length h' = length h.
Proof. intros. rewrite <- (map_length t_val h'), H, map_length. auto. Qed.

Lemma new_einv : EInv [] eng_new.
Proof.
  constructor; simpl; try (intros; exfalso; (tauto || lia)).
  - apply new_inv.
  - reflexivity.
  - constructor.
  - intros [|[|n]] x e H I; try discriminate. inversion H; subst. destruct I.
Qed.
Lemma new_exact : Exact eng_new.
Proof. unfold Exact. simpl. constructor. Qed.

(** ** steps *)
Lemma split_digest_nil : forall nm, split_digest nm = None <-> nm = [].
Proof.
  intros. unfold split_digest. destruct nm as [|c nm] using rev_ind; [simpl; tauto|]. rewrite rev_app_distr. simpl.
  destruct (ctyp c =? TypeImplicitSha256Digest)%N; split; intros H; try discriminate; destruct nm; discriminate.
Qed.

Lemma express_ok : forall L g nm cbp life, EInv L g -> nm <> [] -> exists g', e_express g nm cbp life = Ok (Some g') /\ g_now g' = g_now g /\
  EInv (L ++ [mkX nm cbp (g_now g + match life with Some l => l | None => DefaultInterestLife end)]) g' /\ g_log g' = g_log g /\ (Exact g -> Exact g').
Proof.
  intros L g nm cbp life EI NE. pose proof (timer_lt L g) as TL. specialize (fun t => TL t EI). destruct EI as [I NX ND FL TM TI EN CA]. unfold e_express.
  destruct (split_digest nm) as [[node sha]|] eqn:SD; [|apply split_digest_nil in SD; congruence].
  fold (keys node).
  destruct (always_ok _ [] (g_pit g) (keys node) I) as (h1 & n & A & I1 & W1 & E1 & (k & V1)). rewrite A. cbn [bind fst snd].
  destruct (walk_root _ h1 _ n I1 W1) as (x & X & _). unfold value. rewrite (get_ok _ _ _ _ X). cbn [bind].
  set (id := g_next g). set (lf := match life with Some l => l | None => DefaultInterestLife end).
  set (e := mkPend id (g_now g + lf) cbp sha). rewrite (set_value_put _ _ _ _ X). cbn [bind].
  set (h2 := put h1 n (with_val x (t_val x ++ [e]))). set (t := mkTimer id (g_now g + (lf + TimeoutMargin)) n).
  destruct (put_val_inv h1 n x (t_val x ++ [e]) I1 X) as [I2 _]. fold h2 in I2.
  assert (N2 : forall m, nth_error h2 m = if Nat.eqb m n then Some (with_val x (t_val x ++ [e])) else nth_error h1 m).
  { intros m. apply put_nth. eapply nth_lt; eauto. }
  assert (E2 : ext _ h1 h2) by (eapply put_ext; eauto).
  assert (L2 : (length (g_pit g) <= length h2)%nat).
  { unfold h2. rewrite put_length. rewrite <- (map_length t_val h1), V1, app_length, map_length. lia. }
  eexists. split; [reflexivity|]. split; [reflexivity|]. split; [|split; [reflexivity|]].
  - constructor; cbn [g_pit g_now g_armed g_flight g_next g_log called].
    + auto.
    + rewrite app_length. simpl. unfold id. lia.
    + rewrite !map_app in *. simpl. rewrite <- app_assoc. simpl. apply (Permutation_NoDup (l := id :: map tm_id (g_armed g) ++ map tm_id (g_flight g))).
      * apply Permutation_middle.
      * constructor; auto. rewrite <- map_app. intros Q. apply in_map_iff in Q. destruct Q as (t0 & Q1 & Q2). apply TL in Q2. unfold id in Q1. lia.
    + auto.
    + intros t0 Q. apply in_app_iff in Q. rewrite in_app_iff in Q. destruct Q as [[Q|[<-|[]]]|Q].
      * destruct (TM t0) as (B1 & x0 & B2 & B3); [apply in_or_app; auto|]. split; [lia|]. exists x0. split; auto. rewrite nth_error_app1; auto. apply nth_error_Some. congruence.
      * simpl. split; [unfold h2; rewrite put_length; eapply nth_lt; eauto|]. eexists. split; [unfold id; rewrite NX, nth_error_app2, Nat.sub_diag by auto; reflexivity|].
        simpl. fold lf. lia.
      * destruct (TM t0) as (B1 & x0 & B2 & B3); [apply in_or_app; auto|]. split; [lia|]. exists x0. split; auto. rewrite nth_error_app1; auto. apply nth_error_Some. congruence.
    + intros i Hi. destruct (Nat.eq_dec i id) as [->|Ni].
      * right. exists n, (with_val x (t_val x ++ [e])), e, t. cbn [g_pit g_armed g_flight]. rewrite N2, Nat.eqb_refl. split; auto. simpl. split; [apply in_or_app; right; left; auto|].
        split; auto. split; [rewrite !in_app_iff; simpl; auto|]. split; auto. split; auto. unfold TimeoutMargin. lia.
      * destruct (TI i) as [H|(m & y & e0 & t0 & H1 & H2 & H3 & H4 & H5 & H6 & H7)]; [unfold id in *; lia|left; auto|]. right.
        destruct (vals_nth_pad _ _ _ _ _ V1 H1) as (y' & Y1 & Y2).
        assert (exists y2, nth_error h2 m = Some y2 /\ In e0 (t_val y2)) as (y2 & Y3 & Y4).
        { rewrite N2. destruct (Nat.eqb_spec m n) as [->|]; [|exists y'; rewrite Y2; auto].
          eexists. split; [reflexivity|]. simpl. apply in_or_app. left. assert (y' = x) by congruence. subst. rewrite Y2. auto. }
        exists m, y2, e0, t0. cbn [g_pit g_armed g_flight]. split; auto. split; auto. split; auto. split; [|auto].
        rewrite !in_app_iff in *. tauto.
    + intros m y e0 Y IN. rewrite N2 in Y. 
      assert (OLD : forall y0, nth_error h1 m = Some y0 -> In e0 (t_val y0) -> entry_ok (L ++ [mkX nm cbp (g_now g + match life with Some l => l | None => DefaultInterestLife end)]) h2 m e0).
      { intros y0 Y0 IN0. destruct (vals_nth_pad_inv _ _ _ _ _ _ V1 Y0 IN0) as (z & Z1 & Z2). rewrite <- Z2 in IN0.
        destruct (EN m z e0 Z1 IN0) as (nm0 & node0 & B1 & B2 & B3). exists nm0, node0. split; [|split; auto].
        - rewrite nth_error_app1; auto. apply nth_error_Some. congruence.
        - eapply path_of_ext; [|exact B3]. eapply ext_trans; eauto. }
      destruct (Nat.eqb_spec m n) as [->|]; [|eauto]. inversion Y; subst y. simpl in IN. apply in_app_iff in IN. destruct IN as [IN|[<-|[]]]; [eauto|].
      exists nm, node. simpl. split; [unfold id; rewrite NX, nth_error_app2, Nat.sub_diag; auto|]. split; auto.
      eapply path_of_ext; [exact E2|]. apply walk_path; auto.
    + intros i Hi. apply CA in Hi. unfold id. lia.
  - unfold Exact. cbn [g_pit g_next called g_log]. intros EX. rewrite seq_S. simpl.
    destruct (ids_put h1 n x (t_val x ++ [e]) X) as (r & P1 & P2). fold h2 in P2.
    rewrite (ids_pad _ _ _ V1) in P1. rewrite P2, map_app. simpl. fold (called g).
    change (seq 0 id) with (seq 0 (g_next g)). rewrite <- EX, P1. rewrite <- !app_assoc. simpl.
    etransitivity; [apply Permutation_app_head, Permutation_cons_append|]. unfold called. cbn [g_log]. rewrite !app_assoc. auto.
Qed.

(** what the other steps have in common: entries leave only by being called back *)
Lemma step_inv : forall L g h' now' armed' flight' new r,
  EInv L g -> Inv _ h' -> ext _ (g_pit g) h' -> length h' = length (g_pit g) -> (g_now g <= now')%Z ->
  (forall n x, nth_error (g_pit g) n = Some x -> exists x', nth_error h' n = Some x' /\
     (forall e, In e (t_val x') -> In e (t_val x)) /\ (forall e, In e (t_val x) -> In e (t_val x') \/ In (pe_id e) new)) ->
  NoDup (map tm_id (armed' ++ flight')) ->
  (forall t, In t (armed' ++ flight') -> In t (g_armed g ++ g_flight g)) ->
  (forall t, In t (g_armed g ++ g_flight g) -> In t (armed' ++ flight') \/ In (tm_id t) new \/ In (tm_id t) (called g)) ->
  (forall t, In t flight' -> (tm_due t <= now')%Z) ->
  (forall i, In i new -> (i < g_next g)%nat) ->
  EInv L (mkEng h' now' armed' flight' (g_next g) (g_log g ++ map (fun i => (i, r)) new)).
Proof.
  intros L g h' now' armed' flight' new r [I NX ND FL TM TI EN CA] I' E' LE NW VA ND' SUB KEEP FL' NEW.
  assert (CALLED : map fst (g_log g ++ map (fun i => (i, r)) new) = called g ++ new).
  { rewrite map_app, map_map. simpl. rewrite map_id. auto. }
  constructor; cbn [g_pit g_now g_armed g_flight g_next g_log]; unfold called; cbn [g_log]; rewrite ?CALLED; auto.
  - intros t T. apply SUB in T. apply TM in T. rewrite LE. auto.
  - intros i Hi. rewrite in_app_iff. destruct (TI i Hi) as [H|(n & x & e & t & H1 & H2 & H3 & H4 & H5 & H6 & H7)]; auto.
    destruct (in_dec Nat.eq_dec i (called g ++ new)) as [Q|Q]; [rewrite in_app_iff in Q; tauto|]. rewrite in_app_iff in Q.
    right. destruct (VA n x H1) as (x' & X' & B1 & B2). exists n, x', e, t. cbn [g_pit g_armed g_flight]. split; auto.
    destruct (B2 e H2) as [B|B]; [|rewrite H3 in B; tauto]. split; auto. split; auto. split; [|auto].
    destruct (KEEP t H4) as [K|K]; auto. rewrite H5 in K. tauto.
  - intros n x' e X' IN. destruct (nth_error (g_pit g) n) as [x|] eqn:X.
    + destruct (VA n x X) as (x'' & X'' & B1 & _). assert (x'' = x') by congruence. subst x''. eapply entry_ok_ext; [exact E'|]. eapply EN; eauto.
    + apply nth_error_None in X. apply nth_lt in X'. lia.
  - intros i Hi. apply in_app_iff in Hi. destruct Hi; auto.
Qed.

Lemma entry_id_lt : forall L g n x e, EInv L g -> nth_error (g_pit g) n = Some x -> In e (t_val x) -> (pe_id e < g_next g)%nat.
Proof.
  intros L g n x e EI X IN. destruct (ei_entry _ _ EI n x e X IN) as (nm & node & A & _). rewrite (ei_next _ _ EI).
  apply nth_error_Some. congruence.
Qed.

Lemma data_ok : forall L g nm digest, EInv L g -> exists g' sat, e_data g nm digest = Ok g' /\ EInv L g' /\
  g_log g' = g_log g ++ map (fun e => (pe_id e, RData)) sat /\ g_next g' = g_next g /\
  (forall e, In e sat <-> exists p n x, prefix p (keys nm) /\ walk _ (g_pit g) 0 p = Some n /\ nth_error (g_pit g) n = Some x /\
      In e (t_val x) /\ satisfied (length p) (length nm) digest e = true) /\
  (forall n x e, nth_error (g_pit g) n = Some x -> In e (t_val x) -> In e sat \/ exists x', nth_error (g_pit g') n = Some x' /\ In e (t_val x')) /\
  (Exact g -> Exact g').
Proof.
  intros L g nm digest EI. pose proof EI as [I NX ND FL TM TI EN CA]. unfold e_data. fold (keys nm).
  destruct (t_prefix_ok _ (g_pit g) (keys nm) I) as (q & n & TP & W & PQ & MAX). rewrite TP. cbn [bind].
  destruct (walk_root _ _ q n I W) as (x & X & _). pose proof (nth_lt _ _ _ _ X) as NL.
  destruct (data_loop_ok (length nm) digest (S (length (g_pit g))) (g_pit g) n q [] I W) as (h1 & sat & DL & I1 & E1 & L1 & W1 & S1 & K1 & P1); [lia|].
  rewrite DL. cbn [bind fst snd app].
  destruct (E1 n x X) as (x1 & X1 & _).
  destruct (delete_any_top _ [] is_nil h1 n x1 I1 X1) as (h2 & DI & I2 & V2 & E2). rewrite DI. cbn [bind].
  eexists. exists sat. split; [reflexivity|]. split; [|split; [cbn [g_log]; rewrite map_map; auto|split; [reflexivity|split; [|split]]]].
  - apply step_inv; auto.
    + eapply ext_trans; eauto.
    + rewrite (vals_length _ _ V2). auto.
    + lia.
    + intros m y Y. destruct (K1 m y Y) as (y1 & Y1 & B1 & B2). destruct (vals_nth _ _ _ _ V2 Y1) as (y2 & Y2 & Q). exists y2. rewrite Q.
      split; auto. split; auto. intros e IN. destruct (B2 e IN); auto. right. apply in_map. auto.
    + apply nodup_cancel_l. auto.
    + intros t. rewrite !in_app_iff, cancel_in. tauto.
    + intros t. rewrite !in_app_iff, cancel_in. destruct (in_dec Nat.eq_dec (tm_id t) (map pe_id sat)); tauto.
    + intros i Hi. apply in_map_iff in Hi. destruct Hi as (e & <- & Hi). apply S1 in Hi. destruct Hi as (p & m & y & _ & _ & Y & IN & _).
      eapply entry_id_lt; eauto.
  - intros e. rewrite S1. split; intros (p & m & y & H1 & H2 & H3 & H4 & H5); exists p, m, y; (split; [|auto]).
    + eapply prefix_trans; eauto.
    + assert (LP : (length p <= length q)%nat) by (apply MAX; auto; congruence).
      destruct H1 as (s1 & S1'), PQ as (s2 & S2'). rewrite S2' in S1'.
      assert (p = firstn (length p) q).
      { assert (firstn (length p) (p ++ s1) = firstn (length p) (q ++ s2)) by (rewrite S1'; auto).
        rewrite firstn_app, Nat.sub_diag, firstn_all in H. simpl in H. rewrite app_nil_r in H.
        rewrite firstn_app in H. replace (length p - length q)%nat with O in H by lia. simpl in H. rewrite app_nil_r in H. auto. }
      exists (skipn (length p) q). rewrite H at 1. rewrite firstn_skipn. auto.
  - intros m y e Y IN. destruct (K1 m y Y) as (y1 & Y1 & B1 & B2). destruct (B2 e IN); auto. right.
    destruct (vals_nth _ _ _ _ V2 Y1) as (y2 & Y2 & Q). exists y2. cbn [g_pit]. rewrite Q. auto.
  - unfold Exact, called. cbn [g_pit g_log g_next]. intros EX. rewrite <- EX. rewrite map_app, !map_map. simpl. unfold called in *.
    rewrite (ids_vals h2), V2, <- ids_vals. rewrite P1. apply perm3.
Qed.

Lemma nack_ok : forall L g nm r, EInv L g -> exists g', e_nack g nm r = Ok g' /\ EInv L g' /\ g_next g' = g_next g.
Proof.
  intros L g nm r EI. pose proof EI as [I NX ND FL TM TI EN CA]. unfold e_nack. fold (keys nm).
  rewrite t_exact_ok by auto. cbn [bind]. destruct (walk _ (g_pit g) 0 (keys nm)) as [n|] eqn:W; [|exists g; auto].
  destruct (walk_root _ _ _ n I W) as (x & X & _). unfold value. rewrite (get_ok _ _ _ _ X). cbn [bind].
  destruct (delete_any_top _ [] (fun _ => true) (g_pit g) n x I X) as (h2 & DI & I2 & V2 & E2). unfold t_delete. rewrite DI. cbn [bind].
  eexists. split; [reflexivity|]. split; [|reflexivity]. apply step_inv; auto.
  - apply vals_length; auto.
  - lia.
  - intros m y Y. destruct (vals_nth _ _ _ _ V2 Y) as (y2 & Y2 & Q). exists y2. rewrite Q. split; auto.
  - apply nodup_cancel_l. auto.
  - intros t. rewrite !in_app_iff, cancel_in. tauto.
  - intros t. rewrite !in_app_iff, cancel_in. destruct (in_dec Nat.eq_dec (tm_id t) (map pe_id (t_val x))); tauto.
  - intros i Hi. apply in_map_iff in Hi. destruct Hi as (e & <- & Hi). eapply entry_id_lt; eauto.
Qed.

Lemma find_with_id : forall id ts t, find (with_id id) ts = Some t -> In t ts /\ tm_id t = id.
Proof. intros id ts t H. apply find_some in H. destruct H as [A B]. split; auto. apply Nat.eqb_eq in B. auto. Qed.

Lemma nodup_same_id : forall ts a b, NoDup (map tm_id ts) -> In a ts -> In b ts -> tm_id a = tm_id b -> a = b.
Proof.
  induction ts as [|t ts IH]; simpl; intros a b N A B E; [destruct A|]. inversion N; subst.
  destruct A as [->|A], B as [->|B]; auto.
  - exfalso. apply H1. rewrite E. apply in_map; auto.
  - exfalso. apply H1. rewrite <- E. apply in_map; auto.
Qed.

Lemma cancel_single_fire : forall t a f, NoDup (map tm_id (a ++ f)) -> In t a -> NoDup (map tm_id (cancel [tm_id t] a ++ f ++ [t])).
Proof.
  intros t a f ND IN. rewrite app_assoc, map_app. simpl. apply (Permutation_NoDup (l := tm_id t :: map tm_id (cancel [tm_id t] a ++ f))).
  - apply Permutation_cons_append.
  - constructor; [|apply nodup_cancel_l; auto]. rewrite map_app, in_app_iff. intros [H|H].
    + apply in_map_iff in H. destruct H as (y & E & Y). apply cancel_in in Y. simpl in Y. rewrite E in Y. tauto.
    + apply in_map_iff in H. destruct H as (y & E & Y). rewrite map_app in ND.
      apply in_split in IN. destruct IN as (a1 & a2 & ->). rewrite map_app in ND. simpl in ND. rewrite <- app_assoc in ND. apply NoDup_remove_2 in ND.
      apply ND. rewrite !in_app_iff. right. right. rewrite <- E. apply in_map. auto.
Qed.

Lemma run_ok : forall L g id, EInv L g -> exists g', e_step g (ERun id) = Ok g' /\ EInv L g' /\ g_next g' = g_next g /\
  (Exact g -> Exact g') /\ (In id (map tm_id (g_flight g)) -> In id (called g')) /\
  (forall i, In i (called g) -> In i (called g')) /\ (forall t, In t (g_flight g') -> tm_id t <> id) /\ g_now g' = g_now g.
Proof.
  intros L g id EI. pose proof EI as [I NX ND FL TM TI EN CA]. cbn [e_step].
  destruct (find (with_id id) (g_flight g)) as [t|] eqn:FI.
  2: { assert (NIN : ~ In id (map tm_id (g_flight g))).
       { intros H. apply in_map_iff in H. destruct H as (t & E & T). pose proof (find_none _ _ FI t T) as Q. unfold with_id in Q. rewrite E, Nat.eqb_refl in Q. discriminate. }
       exists g. split; auto. split; auto. split; auto. split; auto. split; [tauto|]. split; auto. split; auto. intros t T E. apply NIN. rewrite <- E. apply in_map. auto. }
  apply find_with_id in FI. destruct FI as [TF TID]. unfold e_timeout. cbn [g_pit g_now g_armed g_flight g_next g_log].
  assert (TIN : In t (g_armed g ++ g_flight g)) by (apply in_or_app; auto).
  destruct (TM t TIN) as [TNL _]. pose proof (timer_lt _ _ _ EI TIN) as TLT. destruct (nth_error (g_pit g) (tm_node t)) as [x|] eqn:X; [|apply nth_error_None in X; lia].
  unfold value. rewrite (get_ok _ _ _ _ X). cbn [bind]. set (n := tm_node t) in *.
  set (f := fun e => negb (g_now g <? pe_deadline e)%Z).
  set (sat := filter f (t_val x)).
  assert (KE : filter (fun e => (g_now g <? pe_deadline e)%Z) (t_val x) = filter (fun e => negb (f e)) (t_val x)).
  { apply filter_ext. intros e. unfold f. rewrite Bool.negb_involutive. auto. }
  rewrite KE. set (kept := filter (fun e => negb (f e)) (t_val x)).
  rewrite (set_value_put _ _ _ _ X). cbn [bind]. set (h1 := put (g_pit g) n (with_val x kept)).
  destruct (put_val_inv (g_pit g) n x kept I X) as [I1 W1]. fold h1 in I1, W1.
  assert (N1 : forall m, nth_error h1 m = if Nat.eqb m n then Some (with_val x kept) else nth_error (g_pit g) m).
  { intros m. apply put_nth. auto. }
  assert (E1 : ext _ (g_pit g) h1) by (eapply put_ext; eauto).
  assert (X1 : nth_error h1 n = Some (with_val x kept)) by (rewrite N1, Nat.eqb_refl; auto).
  destruct (delete_any_top _ [] is_nil h1 n _ I1 X1) as (h2 & DI & I2 & V2 & E2). rewrite DI. cbn [bind].
  assert (CALL : In id (called g ++ map pe_id sat)).
  { destruct (TI id) as [H|(m & y & e & t' & H1 & H2 & H3 & H4 & H5 & H6 & H7)]; [lia|apply in_or_app; auto|].
    assert (t' = t) by (eapply nodup_same_id; eauto; congruence). subst t'.
    assert (m = n) by (unfold n; auto). assert (y = x) by congruence. subst y. apply in_or_app. right. rewrite <- H3. apply in_map. apply filter_In. split; auto.
    unfold f. apply Bool.negb_true_iff. apply Z.ltb_ge. pose proof (FL t TF). lia. }
  eexists. split; [reflexivity|]. split; [|split; [reflexivity|split; [|split; [|split; [|split; [|reflexivity]]]]]].
  - apply step_inv; auto.
    + eapply ext_trans; eauto.
    + rewrite (vals_length _ _ V2). unfold h1. apply put_length.
    + lia.
    + intros m y Y. assert (exists y1, nth_error h1 m = Some y1 /\ (forall e, In e (t_val y1) -> In e (t_val y)) /\ (forall e, In e (t_val y) -> In e (t_val y1) \/ In (pe_id e) (map pe_id sat))) as (y1 & Y1 & B1 & B2).
      { rewrite N1. destruct (Nat.eqb_spec m n) as [->|]; [|exists y; auto]. assert (y = x) by congruence. subst y. eexists. split; [reflexivity|]. simpl. split.
        - intros e IN. apply filter_In in IN. tauto.
        - intros e IN. destruct (f e) eqn:FE; [right; apply in_map; apply filter_In; auto|left; apply filter_In; rewrite FE; auto]. }
      destruct (vals_nth _ _ _ _ V2 Y1) as (y2 & Y2 & Q). exists y2. rewrite Q. auto.
    + rewrite map_app in *.
      assert (Q : NoDup (map tm_id (cancel [id] (g_flight g) ++ g_armed g))).
      { apply nodup_cancel_l. rewrite map_app. eapply Permutation_NoDup; [apply Permutation_app_comm|]. auto. }
      rewrite map_app in Q. eapply Permutation_NoDup; [apply Permutation_app_comm|]. auto.
    + intros t0. rewrite !in_app_iff, cancel_in. tauto.
    + intros t0. rewrite !in_app_iff, cancel_in. intros [H|H]; auto. destruct (Nat.eq_dec (tm_id t0) id) as [E|E].
      * right. rewrite E. apply in_app_iff in CALL. tauto.
      * left. right. split; auto. simpl. intros [Q|[]]. congruence.
    + intros t0 T0. apply cancel_in in T0. apply FL. tauto.
    + intros i Hi. apply in_map_iff in Hi. destruct Hi as (e & <- & Hi). apply filter_In in Hi. eapply entry_id_lt; eauto. tauto.
  - unfold Exact, called. cbn [g_pit g_log g_next]. intros EX. rewrite <- EX. rewrite map_app, map_map. simpl. rewrite map_id.
    rewrite (ids_vals h2), V2, <- ids_vals. pose proof (ids_partition (g_pit g) n x f X) as P1. fold kept h1 sat in P1. rewrite P1. apply perm3.
  - intros _. unfold called. cbn [g_log]. rewrite map_app, map_map. simpl. rewrite map_id. auto.
  - intros i Hi. unfold called in *. cbn [g_log]. rewrite map_app. apply in_or_app. auto.
  - intros t0 T0. cbn [g_flight] in T0. apply cancel_in in T0. destruct T0 as [_ T0]. intros E. apply T0. left. auto.
Qed.

Lemma tick_ok : forall L g d, EInv L g -> EInv L (mkEng (g_pit g) (g_now g + Z.of_N d) (g_armed g) (g_flight g) (g_next g) (g_log g)).
Proof.
  intros L g d [I NX ND FL TM TI EN CA]. constructor; cbn; auto.
  intros t T. apply FL in T. lia.
Qed.

Lemma fire_ok : forall L g id, EInv L g -> exists g', e_step g (EFire id) = Ok g' /\ EInv L g' /\ g_next g' = g_next g /\ g_log g' = g_log g /\ g_pit g' = g_pit g /\ g_now g' = g_now g.
Proof.
  intros L g id EI. cbn [e_step]. destruct (find (with_id id) (g_armed g)) as [t|] eqn:FI; [|exists g; auto 10].
  destruct (Z.leb_spec (tm_due t) (g_now g)); [|exists g; auto 10]. apply find_with_id in FI. destruct FI as [TF TID].
  eexists. split; [reflexivity|]. split; [|auto 10]. destruct EI as [I NX ND FL TM TI EN CA]. subst id.
  assert (SAME : forall t0, In t0 (cancel [tm_id t] (g_armed g) ++ g_flight g ++ [t]) <-> In t0 (g_armed g ++ g_flight g)).
  { intros t0. rewrite !in_app_iff, cancel_in. simpl. split.
    - intros [[A _]|[A|[<-|[]]]]; auto.
    - intros [A|A]; auto. destruct (Nat.eq_dec (tm_id t0) (tm_id t)) as [E|E].
      + right. right. left. symmetry. eapply nodup_same_id; eauto; apply in_or_app; auto.
      + left. split; auto. intros [Q|[]]. congruence. }
  constructor; cbn [g_pit g_now g_armed g_flight g_next g_log called]; auto.
  - apply cancel_single_fire; auto.
  - intros t0 T0. apply in_app_iff in T0. destruct T0 as [T0|[<-|[]]]; auto.
  - intros t0 T0. apply TM. apply SAME. auto.
  - intros i Hi. destruct (TI i Hi) as [H0|(n & x & e & t0 & H1 & H2 & H3 & H4 & H5)]; [left; auto|right].
    exists n, x, e, t0. cbn [g_pit g_armed g_flight]. rewrite SAME. auto.
Qed.

Lemma step_ok : forall L g o, EInv L g -> exists g', e_step g o = Ok g' /\ EInv (L ++ expressed (g_now g) [o]) g' /\
  g_now g' = (g_now g + elapsed [o])%Z /\
  (forall i, In i (called g) -> In i (called g')) /\
  ((forall nm r, o <> ENack nm r) -> Exact g -> Exact g').
Proof.
  intros L g o EI. destruct o as [nm cbp life|nm digest|nm r|d|id|id]; cbn [expressed elapsed]; rewrite ?app_nil_r, ?Z.add_0_r.
  - destruct nm as [|c nm].
    + exists g. rewrite app_nil_r. auto.
    + destruct (express_ok L g (c :: nm) cbp life EI) as (g' & E & NW & EI' & LG & EX); [discriminate|]. exists g'. cbn [e_step]. rewrite E. cbn [bind].
      split; auto. split; auto. split; auto. split; auto. unfold called. rewrite LG. auto.
  - destruct (data_ok L g nm digest EI) as (g' & sat & E & EI' & LG & _ & _ & _ & EX). exists g'. split; auto. split; auto. split; [|split; auto].
    + unfold e_data in E. destruct (t_prefix (g_pit g) (map comp_str nm)) as [v| | |]; cbn [bind] in E; try discriminate.
      destruct (data_loop (S (length (g_pit g))) (g_pit g) v (length nm) digest []) as [v0| | |]; cbn [bind] in E; try discriminate.
      destruct (t_delete_if is_nil (fst v0) v); cbn [bind] in E; try discriminate. inversion E; auto.
    + intros i. unfold called. rewrite LG, map_app, in_app_iff. auto.
  - destruct (nack_ok L g nm r EI) as (g' & E & EI' & _). exists g'. split; auto. split; auto.
    unfold e_nack in E. destruct (t_exact (g_pit g) (map comp_str nm)) as [[n|]| | |]; cbn [bind] in E; try discriminate; [|inversion E; auto].
    + destruct (value (g_pit g) n); cbn [bind] in E; try discriminate. destruct (t_delete (g_pit g) n); cbn [bind] in E; try discriminate.
      inversion E. split; [reflexivity|]. split; [|intros Q; exfalso; exact (Q nm r eq_refl)]. intros i. unfold called. cbn [g_log]. rewrite map_app, in_app_iff. auto.
  - eexists. split; [reflexivity|]. split; [apply tick_ok; auto|]. auto.
  - destruct (fire_ok L g id EI) as (g' & E & EI' & NX & LG & PT & NW). exists g'. split; auto. split; auto. unfold Exact, called. rewrite LG, PT, NX. auto.
  - destruct (run_ok L g id EI) as (g' & E & EI' & NX & EX & _ & MO & _ & NW). exists g'. split; auto.
Qed.

Lemma elapsed_app : forall a b, elapsed (a ++ b) = (elapsed a + elapsed b)%Z.
Proof. induction a as [|o a IH]; intros b; simpl; auto. destruct o; auto. rewrite IH. lia. Qed.

Lemma expressed_app : forall a b now, expressed now (a ++ b) = expressed now a ++ expressed (now + elapsed a) b.
Proof.
  induction a as [|o a IH]; intros b now; simpl; [rewrite Z.add_0_r; auto|]. destruct o; auto.
  - destruct nm; auto. simpl. rewrite IH. auto.
  - rewrite IH, Z.add_assoc. auto.
Qed.

Lemma run_inv : forall os L g, EInv L g -> exists g', e_run g os = Ok g' /\ EInv (L ++ expressed (g_now g) os) g' /\
  g_now g' = (g_now g + elapsed os)%Z /\
  (forall i, In i (called g) -> In i (called g')) /\
  (no_nack os -> Exact g -> Exact g').
Proof.
  induction os as [|o os IH]; intros L g EI; cbn [e_run].
  - exists g. simpl. rewrite app_nil_r, Z.add_0_r. auto.
  - destruct (step_ok L g o EI) as (g1 & S1 & EI1 & N1 & M1 & X1). rewrite S1. cbn [bind].
    destruct (IH _ g1 EI1) as (g2 & S2 & EI2 & N2 & M2 & X2). exists g2. split; auto.
    change (o :: os) with ([o] ++ os). rewrite expressed_app, elapsed_app, app_assoc, <- N1. split; auto. split; [lia|]. split; auto.
    intros NN EX. apply X2; [intros nm r Q; apply (NN nm r); right; auto|]. apply X1; auto. intros nm r ->. apply (NN nm r). left; auto.
Qed.
