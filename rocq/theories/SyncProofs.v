(** Proofs about State Vector Sync: one participant. *)
From Verif Require Import Base BaseProofs PrimModel NameModel NameProofs OrderProofs SyncModel SyncSpec.

Lemma mget_mset : forall A k j (v : A) m, mget j (mset k v m) = if (k =? j)%N then Some v else mget j m.
Proof.
  induction m as [|[a x] m IH]; cbn [mset mget]; [reflexivity|].
  destruct (N.eqb_spec a k) as [->|NE]; cbn [mget]; [destruct (k =? j)%N; reflexivity|]. rewrite IH.
  destruct (N.eqb_spec a j) as [->|NJ]; [|reflexivity]. destruct (N.eqb_spec k j); [congruence|reflexivity].
Qed.
Lemma num_mset : forall k j v m, num j (mset k v m) = if (k =? j)%N then v else num j m.
Proof. intros. unfold num. rewrite mget_mset. destruct (k =? j)%N; reflexivity. Qed.
Lemma mget_in : forall A k (v : A) m, mget k m = Some v -> In (k, v) m.
Proof. induction m as [|[a x] m IH]; cbn [mget]; [discriminate|]. destruct (N.eqb_spec a k) as [->|]; intros H; [inversion H; left; reflexivity|right; auto]. Qed.
(** the keys of a map are different *)
Definition wfm {A} (m : list (N * A)) : Prop := NoDup (map fst m).
Lemma mset_keys : forall A k (v : A) m j, In j (map fst (mset k v m)) <-> j = k \/ In j (map fst m).
Proof.
  induction m as [|[a x] m IH]; intros j; cbn [mset map fst In]; [intuition|]. destruct (N.eqb_spec a k) as [->|]; cbn [map fst In]; [intuition|]. rewrite IH. intuition.
Qed.
Lemma mset_wfm : forall A k (v : A) m, wfm m -> wfm (mset k v m).
Proof.
  unfold wfm. induction m as [|[a x] m IH]; intros H; cbn [mset map fst]; [repeat constructor; auto|]. inversion H as [|a' l' NI ND]; subst.
  destruct (N.eqb_spec a k) as [->|NE]; cbn [map fst]; constructor; auto. rewrite mset_keys. intros [->|]; auto.
Qed.
Lemma in_mget : forall A k (v : A) m, wfm m -> In (k, v) m -> mget k m = Some v.
Proof.
  unfold wfm. induction m as [|[a x] m IH]; intros H I; [contradiction|]. inversion H as [|a' l' NI ND]; subst. cbn [mget]. destruct I as [E|I].
  - inversion E; subst. rewrite N.eqb_refl. reflexivity.
  - destruct (N.eqb_spec a k) as [->|]; [exfalso; apply NI; change k with (fst (k, v)); apply in_map; auto|auto].
Qed.

Section Proofs.
  Variable hash : name -> N.
  Notation seq_of := (seq_of hash).
  Notation same_node := (same_node hash).

  Lemma hn_state : forall n s, s_state (hash_name hash n s) = s_state s.
  Proof. intros. unfold hash_name. destruct (mget _ _); reflexivity. Qed.
  Lemma hn_updates : forall n s, s_updates (hash_name hash n s) = s_updates s.
  Proof. intros. unfold hash_name. destruct (mget _ _); reflexivity. Qed.
  Lemma hn_suppress : forall n s, s_suppress (hash_name hash n s) = s_suppress s.
  Proof. intros. unfold hash_name. destruct (mget _ _); reflexivity. Qed.
  Lemma hn_merge : forall n s, s_merge (hash_name hash n s) = s_merge s.
  Proof. intros. unfold hash_name. destruct (mget _ _); reflexivity. Qed.
  Lemma hn_pending : forall n s, s_pending (hash_name hash n s) = s_pending s.
  Proof. intros. unfold hash_name. destruct (mget _ _); reflexivity. Qed.
  Lemma hn_sent : forall n s, s_sent (hash_name hash n s) = s_sent s.
  Proof. intros. unfold hash_name. destruct (mget _ _); reflexivity. Qed.
  Lemma hn_running : forall n s, s_running (hash_name hash n s) = s_running s.
  Proof. intros. unfold hash_name. destruct (mget _ _); reflexivity. Qed.
  Lemma hn_mtime : forall n s, s_mtime (hash_name hash n s) = s_mtime s.
  Proof. intros. unfold hash_name. destruct (mget _ _); reflexivity. Qed.
  Lemma hn_names : forall n s, exists m, mget (hash n) (s_names (hash_name hash n s)) = Some m.
  Proof. intros. unfold hash_name. destruct (mget (hash n) (s_names s)) eqn:E; [eauto|]. cbn [s_names]. rewrite mget_mset, N.eqb_refl. eauto. Qed.
  Lemma hn_keeps : forall n s h m, mget h (s_names s) = Some m -> mget h (s_names (hash_name hash n s)) = Some m.
  Proof. intros n s h m H. unfold hash_name. destruct (mget (hash n) _) eqn:E; [auto|]. cbn [s_names]. rewrite mget_mset. destruct (N.eqb_spec (hash n) h); [congruence|auto]. Qed.

  Lemma seq_num : forall s n, seq_of s n = num (hash n) (s_state s).
  Proof. intros. unfold SyncSpec.seq_of, get_seq. cbn [fst]. rewrite hn_state. reflexivity. Qed.

  (** ** The invariant: the known hashes have names *)
  Record SInv (s : svs) : Prop := {
    si_wf : wfm (s_state s);
    si_names : forall h n, mget h (s_names s) = Some n -> hash n = h;
    si_known : forall h v, mget h (s_state s) = Some v -> exists n, mget h (s_names s) = Some n }.

  Lemma inv_new : SInv svs_new.
  Proof. split; [constructor| |]; intros h; discriminate. Qed.
  Lemma inv_hn : forall n s, SInv s -> SInv (hash_name hash n s).
  Proof.
    intros n s [W N K]. split; [rewrite hn_state; auto| |].
    - intros h m. unfold hash_name. destruct (mget (hash n) (s_names s)) eqn:E; [apply N|]. cbn [s_names]. rewrite mget_mset. destruct (N.eqb_spec (hash n) h) as [<-|]; [intros H; inversion H; reflexivity|apply N].
    - intros h v. rewrite hn_state. intros H. destruct (K h v H) as [m M]. exists m. apply hn_keeps. auto.
  Qed.
  Lemma inv_set : forall n v s s', SInv s -> s_state s' = mset (hash n) v (s_state (hash_name hash n s)) -> s_names s' = s_names (hash_name hash n s) -> SInv s'.
  Proof.
    intros n v s s' I ES EN. apply (inv_hn n) in I. destruct I as [W N K]. split; rewrite ?ES, ?EN; [apply mset_wfm; auto|auto|].
    intros h u. rewrite mget_mset. destruct (N.eqb_spec (hash n) h) as [<-|]; [intros _; apply hn_names|apply K].
  Qed.
  Lemma inv_same : forall s s', SInv s -> s_state s' = s_state s -> s_names s' = s_names s -> SInv s'.
  Proof. intros s s' [W N K] ES EN. split; rewrite ?ES, ?EN; auto. Qed.

  (** ** One entry *)
  Definition low (s : svs) (n : name) : N := ((seq_of s n + 1) mod two64)%N.
  Definition ent_update (n : name) (v : N) (s : svs) : list (name * N * N) := if (seq_of s n <? v)%N then [(n, low s n, v)] else [].
  Lemma entry_ok : forall n v now s out drop rs s' out' drop' rs', recv_entry hash (n, v, now) (s, out, drop, rs) = (s', out', drop', rs') ->
    (forall m, seq_of s' m = if same_node n m then N.max v (seq_of s m) else seq_of s m)
    /\ s_updates s' = s_updates s ++ ent_update n v s
    /\ s_suppress s' = s_suppress s
    /\ (s_suppress s = true -> forall h, num h (s_merge s') = if (hash n =? h)%N then N.max v (num h (s_merge s)) else num h (s_merge s))
    /\ s_pending s' = s_pending s /\ s_sent s' = s_sent s /\ s_running s' = s_running s
    /\ rs' = hash n :: rs /\ (SInv s -> SInv s')
    /\ out' = (out || (v <? seq_of s n)%N)
    /\ (forall h, (exists x, mget h (s_state s') = Some x) <-> (hash n = h /\ (seq_of s n < v)%N \/ exists x, mget h (s_state s) = Some x)).
  Proof.
    intros n v now s out drop rs s' out' drop' rs' H. unfold recv_entry in H. rewrite !hn_state in H. rewrite <- seq_num in H. unfold ent_update, low.
    set (s1 := hash_name hash n s) in *.
    assert (Q : forall s2, s_suppress s2 = s_suppress s -> s_merge s2 = s_merge s ->
      let s3 := (if s_suppress s2 then if (num (hash n) (s_merge s2) <? v)%N then with_suppress true (mset (hash n) v (s_merge s2)) s2 else s2 else s2) in
      s_state s3 = s_state s2 /\ s_updates s3 = s_updates s2 /\ s_names s3 = s_names s2 /\ s_suppress s3 = s_suppress s /\ s_pending s3 = s_pending s2 /\ s_sent s3 = s_sent s2 /\ s_running s3 = s_running s2
      /\ (s_suppress s = true -> forall h, num h (s_merge s3) = if (hash n =? h)%N then N.max v (num h (s_merge s)) else num h (s_merge s))).
    { intros s2 E1 E2. rewrite E1, E2. destruct (s_suppress s) eqn:ES.
      - destruct (N.ltb_spec (num (hash n) (s_merge s)) v); cbn; repeat (split; [try reflexivity; auto; fail|]).
        + intros _ h. rewrite num_mset. destruct (N.eqb_spec (hash n) h) as [<-|]; [lia|reflexivity].
        + intros _ h. rewrite E2. destruct (N.eqb_spec (hash n) h) as [<-|]; [lia|reflexivity].
      - cbn. repeat (split; [try reflexivity; auto; fail|]). discriminate. }
    destruct (N.ltb_spec (seq_of s n) v) as [L|L].
    - set (s2 := {| s_state := mset (hash n) v (s_state s) |}) in H.
      destruct (Q s2) as (Q1 & Q2 & Q3 & Q4 & Q5 & Q6 & Q7 & Q8); [apply hn_suppress|apply hn_merge|]. 
      match goal with H : (?a, _, _, _) = _ |- _ => set (s3 := a) in * end. inversion H; subst s3 out' drop' rs'. rewrite H1 in *. clear H H1 Q.
      split; [|split; [|split; [|split; [|split; [|split; [|split; [|split; [|split; [|split]]]]]]]]]; auto.
      + intros m. rewrite !seq_num, Q1. unfold s2. cbn [s_state]. rewrite num_mset. unfold SyncSpec.same_node. destruct (N.eqb_spec (hash n) (hash m)) as [E|]; [|reflexivity].
        rewrite seq_num in L. rewrite <- E. lia.
      + rewrite Q2. unfold s2. cbn [s_updates]. unfold s1. rewrite hn_updates. reflexivity.
      + rewrite Q5. apply hn_pending.
      + rewrite Q6. apply hn_sent.
      + rewrite Q7. apply hn_running.
      + intros I. eapply (inv_set n v s); [auto| |]; [rewrite Q1, hn_state; reflexivity|rewrite Q3; reflexivity].
      + rewrite (proj2 (N.ltb_ge _ _)) by lia. rewrite orb_false_r. reflexivity.
      + intros h. rewrite Q1. unfold s2. cbn [s_state]. rewrite mget_mset. destruct (N.eqb_spec (hash n) h) as [<-|NE]; [split; [auto|intros _; eauto]|].
        split; [auto|]. intros [[E _]|E]; [contradiction|auto].
    - assert (Q' := Q s1 ltac:(apply hn_suppress) ltac:(apply hn_merge)).
      assert (H' : exists d, (let s3 := (if s_suppress s1 then if (num (hash n) (s_merge s1) <? v)%N then with_suppress true (mset (hash n) v (s_merge s1)) s1 else s1 else s1) in (s3, (out || (v <? seq_of s n)%N), d, hash n :: rs)) = (s', out', drop', rs')).
      { destruct (v <? seq_of s n)%N; [rewrite orb_true_r|rewrite orb_false_r]; eexists; exact H. }
      clear H. destruct H' as [d H]. destruct Q' as (Q1 & Q2 & Q3 & Q4 & Q5 & Q6 & Q7 & Q8). cbv zeta in H.
      match goal with H : (?a, _, _, _) = _ |- _ => set (s3 := a) in * end. inversion H; subst s3 out' drop' rs'. rewrite H1 in *. clear H H1 Q.
      split; [|split; [|split; [|split; [|split; [|split; [|split; [|split; [|split; [|split]]]]]]]]]; auto.
      + intros m. rewrite !seq_num, Q1. unfold s1. rewrite hn_state. unfold SyncSpec.same_node. destruct (N.eqb_spec (hash n) (hash m)) as [E|]; [|reflexivity].
        rewrite seq_num in L. rewrite <- E. lia.
      + rewrite Q2, app_nil_r. apply hn_updates.
      + rewrite Q5. apply hn_pending.
      + rewrite Q6. apply hn_sent.
      + rewrite Q7. apply hn_running.
      + intros I. eapply inv_same; [apply (inv_hn n); exact I|auto|auto].
      + intros h. rewrite Q1. unfold s1. rewrite hn_state. split; [auto|]. intros [[_ E]|E]; [lia|auto].
  Qed.

  (** ** All entries *)
  Lemma chain_app : forall a l b k c, chain a l b -> chain b k c -> chain a (l ++ k) c.
  Proof. induction 1; intros; cbn [app]; [auto|constructor; auto]. Qed.
  Lemma announced_app : forall n a b, announced hash n (a ++ b) = announced hash n a ++ announced hash n b.
  Proof. intros. unfold announced. rewrite filter_app, map_app. reflexivity. Qed.

  Definition rloop (es : list (name * N * Z)) (x : svs * bool * bool * list N) : svs * bool * bool * list N := fold_left (fun x e => recv_entry hash e x) es x.

  Lemma loop_ok : forall es s out drop rs s' out' drop' rs', rloop es (s, out, drop, rs) = (s', out', drop', rs') ->
    (forall m, seq_of s' m = N.max (best hash m (map fst es)) (seq_of s m))
    /\ (exists us, s_updates s' = s_updates s ++ us
          /\ ((forall e, In e es -> (snd (fst e) < two64)%N) -> forall m, chain (seq_of s m) (announced hash m us) (seq_of s' m))
          /\ (forall n lo hi, In (n, lo, hi) us -> In (n, hi) (map fst es)))
    /\ s_suppress s' = s_suppress s
    /\ (s_suppress s = true -> forall m, num (hash m) (s_merge s') = N.max (best hash m (map fst es)) (num (hash m) (s_merge s)))
    /\ s_pending s' = s_pending s /\ s_sent s' = s_sent s /\ s_running s' = s_running s
    /\ (forall h, In h rs' <-> In h rs \/ In h (map (fun e => hash (fst (fst e))) es)) /\ (SInv s -> SInv s').
  Proof.
    induction es as [|[[n v] now] es IH]; intros s out drop rs s' out' drop' rs' H.
    - cbn in H. inversion H; subst. split; [intros m; cbn; lia|]. split; [exists []; rewrite app_nil_r; split; [auto|]; split; [constructor|intros n lo hi []]|].
      split; [auto|]. split; [intros; cbn; lia|]. repeat (split; [auto; fail|]). split; [intros h; cbn; intuition|auto].
    - unfold rloop in H. cbn [fold_left] in H. destruct (recv_entry hash (n, v, now) (s, out, drop, rs)) as [[[s1 out1] drop1] rs1] eqn:E1.
      apply entry_ok in E1. destruct E1 as (A1 & A2 & A3 & A4 & A5 & A6 & A7 & A8 & A9 & _).
      specialize (IH s1 out1 drop1 rs1 s' out' drop' rs' H). destruct IH as (B1 & (us & B2 & B2' & B2'') & B3 & B4 & B5 & B6 & B7 & B8 & B9).
      split; [|split; [|split; [|split; [|split; [|split; [|split; [|split]]]]]]]; try congruence; auto.
      + intros m. rewrite B1, A1. cbn [map fst best fold_right snd]. fold (best hash m (map fst es)). destruct (same_node n m); lia.
      + exists (ent_update n v s ++ us). split; [rewrite B2, A2, app_assoc; reflexivity|]. split.
        * intros LT m. rewrite announced_app. eapply chain_app; [|apply B2'; intros e I; apply LT; right; auto].
          rewrite A1. unfold ent_update. destruct (N.ltb_spec (seq_of s n) v) as [L|L].
          -- unfold announced. cbn [filter fst]. destruct (same_node n m) eqn:SN; cbn [map fst snd]; [|constructor].
             assert (EQ : seq_of s n = seq_of s m) by (unfold SyncSpec.same_node in SN; apply N.eqb_eq in SN; rewrite !seq_num, SN; reflexivity).
             unfold low. pose proof (LT (n, v, now) (or_introl eq_refl)) as X. cbn in X. rewrite N.mod_small by lia. rewrite EQ in *. rewrite N.max_l by lia. constructor; [auto|constructor].
          -- unfold announced. cbn [filter map]. destruct (same_node n m) eqn:SN; [|constructor].
             assert (EQ : seq_of s n = seq_of s m) by (unfold SyncSpec.same_node in SN; apply N.eqb_eq in SN; rewrite !seq_num, SN; reflexivity).
             rewrite N.max_r by lia. constructor.
        * intros x lo hi I. apply in_app_iff in I. destruct I as [I|I]; [|right; eauto]. unfold ent_update in I. destruct (seq_of s n <? v)%N; [|contradiction].
          destruct I as [I|[]]. inversion I; subst. left. reflexivity.
      + intros SP m. rewrite B4 by congruence. rewrite A4 by auto. cbn [map fst best fold_right snd]. fold (best hash m (map fst es)). unfold SyncSpec.same_node. destruct (hash n =? hash m)%N; lia.
      + intros h. rewrite B8, A8. cbn [map fst In]. intuition.
  Qed.

  Lemma loop_keys : forall es s out drop rs s' out' drop' rs', rloop es (s, out, drop, rs) = (s', out', drop', rs') ->
    forall h, (exists v, mget h (s_state s') = Some v) -> In h (map (fun e => hash (fst (fst e))) es) \/ exists v, mget h (s_state s) = Some v.
  Proof.
    induction es as [|[[n v] now] es IH]; intros s out drop rs s' out' drop' rs' H h K.
    - cbn in H. inversion H; subst. auto.
    - unfold rloop in H. cbn [fold_left] in H. destruct (recv_entry hash (n, v, now) (s, out, drop, rs)) as [[[s1 out1] drop1] rs1] eqn:E1.
      apply entry_ok in E1. destruct E1 as (_ & _ & _ & _ & _ & _ & _ & _ & _ & _ & E1). cbn [map fst In].
      destruct (IH _ _ _ _ _ _ _ _ H h K) as [I|I]; [auto|]. apply E1 in I. destruct I as [[I _]|I]; auto.
  Qed.

  Lemma recv_split : forall es s, exists s1 out drop rs, rloop es (s, false, true, []) = (s1, out, drop, rs)
    /\ (recv hash es s = steady s1 \/ recv hash es s = s1 \/ recv hash es s = with_suppress true [] s1).
  Proof.
    intros es s. unfold recv. fold (rloop es (s, false, true, [])). destruct (rloop es (s, false, true, [])) as [[[s1 out] drop] rs]. exists s1, out, drop, rs. split; [reflexivity|].
    destruct (if out then (out, drop) else if existsb (fun kv => negb (existsb (N.eqb (fst kv)) rs)) (s_state s1) then (true, false) else (out, drop)) as [o d].
    destruct (negb o); auto. destruct (d || s_suppress s1); auto.
  Qed.

  Lemma recv_ok : forall es s,
    (forall m, seq_of (recv hash es s) m = N.max (best hash m (map fst es)) (seq_of s m))
    /\ (exists us, s_updates (recv hash es s) = s_updates s ++ us
          /\ ((forall e, In e es -> (snd (fst e) < two64)%N) -> forall m, chain (seq_of s m) (announced hash m us) (seq_of (recv hash es s) m))
          /\ (forall n lo hi, In (n, lo, hi) us -> In (n, hi) (map fst es)))
    /\ s_pending (recv hash es s) = s_pending s /\ s_sent (recv hash es s) = s_sent s /\ s_running (recv hash es s) = s_running s
    /\ (SInv s -> SInv (recv hash es s)).
  Proof.
    intros es s. destruct (recv_split es s) as (s1 & out & drop & rs & H & R). apply loop_ok in H. destruct H as (B1 & (us & B2 & B2' & B2'') & B3 & B4 & B5 & B6 & B7 & B8 & B9).
    assert (Q : s_state (recv hash es s) = s_state s1 /\ s_names (recv hash es s) = s_names s1 /\ s_updates (recv hash es s) = s_updates s1 /\ s_pending (recv hash es s) = s_pending s1 /\ s_sent (recv hash es s) = s_sent s1 /\ s_running (recv hash es s) = s_running s1)
      by (destruct R as [->|[->| ->]]; repeat split; reflexivity).
    destruct Q as (Q1 & Q2 & Q3 & Q4 & Q5 & Q6).
    assert (QS : forall m, seq_of (recv hash es s) m = seq_of s1 m) by (intros; rewrite !seq_num, Q1; reflexivity).
    split; [intros m; rewrite QS; apply B1|]. split; [exists us; split; [congruence|]; split; [intros LT m; rewrite QS; auto|auto]|].
    repeat (split; [congruence|]). intros I. eapply inv_same; [apply B9; exact I|auto|auto].
  Qed.

  (** ** Steps *)
  Lemma step_inv : forall o s, SInv s -> SInv (s_step hash s o).
  Proof.
    intros o s I. destruct o; cbn [s_step].
    - unfold set_seq. destruct (_ <=? _)%N; cbn [snd]; [apply inv_hn; auto|]. eapply (inv_set n v s); [auto|reflexivity|reflexivity].
    - unfold incr_seq. cbn [snd]. eapply (inv_set n); [exact I|reflexivity|reflexivity].
    - unfold get_seq. cbn [snd]. apply inv_hn; auto.
    - apply recv_ok; auto.
    - unfold timer_expired. destruct (_ && _); eapply inv_same; eauto.
    - unfold send. destruct (s_pending s); [auto|]. cbn [with_pending s_running]. destruct (s_running s); eapply inv_same; eauto.
    - eapply inv_same; eauto.
    - eapply inv_same; eauto.
    - eapply inv_same; eauto.
  Qed.
  Lemma run_inv : forall os s, SInv s -> SInv (s_run hash s os).
  Proof. induction os as [|o os IH]; intros s I; [auto|]. cbn. apply IH. apply step_inv. auto. Qed.

  Lemma set_ok : forall n v s, fst (set_seq hash n v s) = (seq_of s n <? v)%N
    /\ (forall m, seq_of (snd (set_seq hash n v s)) m = if same_node n m then N.max v (seq_of s n) else seq_of s m)
    /\ s_updates (snd (set_seq hash n v s)) = s_updates s.
  Proof.
    intros n v s. unfold set_seq. rewrite hn_state, <- seq_num. destruct (N.leb_spec v (seq_of s n)) as [L|L]; cbn [fst snd].
    - split; [symmetry; apply N.ltb_ge; auto|]. split; [|apply hn_updates]. intros m. rewrite !seq_num, hn_state. unfold SyncSpec.same_node. destruct (N.eqb_spec (hash n) (hash m)) as [E|]; [|reflexivity].
      rewrite seq_num in L. rewrite <- E. lia.
    - split; [symmetry; apply N.ltb_lt; auto|]. split; [|apply hn_updates]. intros m. rewrite !seq_num. cbn [with_pending with_state s_state]. rewrite num_mset. unfold SyncSpec.same_node.
      rewrite seq_num in L. destruct (hash n =? hash m)%N; lia.
  Qed.
  Lemma incr_ok : forall n s, fst (incr_seq hash n s) = ((seq_of s n + 1) mod two64)%N
    /\ (forall m, seq_of (snd (incr_seq hash n s)) m = if same_node n m then ((seq_of s n + 1) mod two64)%N else seq_of s m)
    /\ s_updates (snd (incr_seq hash n s)) = s_updates s.
  Proof.
    intros n s. unfold incr_seq. rewrite hn_state, <- seq_num. cbn [fst snd]. split; [reflexivity|]. split; [|apply hn_updates].
    intros m. rewrite (seq_num (with_pending _ _)), (seq_num s m). cbn [with_pending with_state s_state]. rewrite num_mset. unfold SyncSpec.same_node. destruct (hash n =? hash m)%N; reflexivity.
  Qed.

  (** steps other than publications and receptions *)
  Definition quiet (o : sop) : Prop := match o with OSet _ _ | OIncr _ | ORecv _ => False | _ => True end.
  Lemma quiet_ok : forall o s, quiet o -> (forall m, seq_of (s_step hash s o) m = seq_of s m) /\ s_updates (s_step hash s o) = s_updates s.
  Proof.
    intros o s Q. destruct o; cbn [quiet] in Q; try contradiction; cbn [s_step].
    - unfold get_seq. cbn [snd]. split; [intros; rewrite !seq_num, hn_state; reflexivity|apply hn_updates].
    - unfold timer_expired. destruct (_ && _); (split; [intros; rewrite !seq_num; reflexivity|reflexivity]).
    - unfold send. destruct (s_pending s); [(split; [intros; rewrite !seq_num; reflexivity|reflexivity])|]. cbn [with_pending s_running]. destruct (s_running s); (split; [intros; rewrite !seq_num; reflexivity|reflexivity]).
    - (split; [intros; rewrite !seq_num; reflexivity|reflexivity]).
    - (split; [intros; rewrite !seq_num; reflexivity|reflexivity]).
    - (split; [intros; rewrite !seq_num; reflexivity|reflexivity]).
  Qed.

  Lemma step_mono : forall o s n, (forall m, o = OIncr m -> (seq_of s m + 1 < two64)%N) -> (seq_of s n <= seq_of (s_step hash s o) n)%N.
  Proof.
    intros o s n W. destruct o as [k v|k|k|es| | | | |]; try (match goal with |- context [s_step hash s ?o] => rewrite (proj1 (quiet_ok o s Logic.I)); lia end).
    - cbn [s_step]. rewrite (proj1 (proj2 (set_ok k v s))). unfold SyncSpec.same_node. destruct (N.eqb_spec (hash k) (hash n)) as [E|]; [|lia]. rewrite !seq_num, E. lia.
    - cbn [s_step]. rewrite (proj1 (proj2 (incr_ok k s))). unfold SyncSpec.same_node. specialize (W k eq_refl). destruct (N.eqb_spec (hash k) (hash n)) as [E|]; [|lia].
      rewrite N.mod_small by auto. rewrite !seq_num, E. lia.
    - cbn [s_step]. rewrite (proj1 (recv_ok es s)). lia.
  Qed.

  Lemma no_wrap_tail : forall s o os, no_wrap hash s (o :: os) -> no_wrap hash (s_step hash s o) os.
  Proof. intros s o os W pre m post E. apply (W (o :: pre) m post). rewrite E. reflexivity. Qed.
  Lemma no_wrap_head : forall s o os, no_wrap hash s (o :: os) -> forall m, o = OIncr m -> (seq_of s m + 1 < two64)%N.
  Proof. intros s o os W m ->. apply (W [] m os). reflexivity. Qed.

  Lemma run_mono : forall os s n, no_wrap hash s os -> (seq_of s n <= seq_of (s_run hash s os) n)%N.
  Proof.
    induction os as [|o os IH]; intros s n W; [cbn; lia|]. cbn. etransitivity; [apply step_mono; eapply no_wrap_head; eauto|]. apply IH. apply no_wrap_tail. auto.
  Qed.

  (** ** The announced ranges *)
  Lemma skip_same : forall A (l : list A), skipn (length l) l = [].
  Proof. induction l; auto. Qed.
  Lemma skip_app : forall A (l k : list A), skipn (length l) (l ++ k) = k.
  Proof. induction l; auto. Qed.

  Lemma ranges_ok : forall os s n, no_wrap hash s os -> fits64 os ->
    chain (seq_of s n) (map snd (ranges hash n s os)) (seq_of (s_run hash s os) n)
    /\ announced hash n (s_updates (s_run hash s os)) = announced hash n (s_updates s) ++ map snd (filter fst (ranges hash n s os)).
  Proof.
    induction os as [|o os IH]; intros s n W FT; [split; [constructor|cbn; rewrite app_nil_r; reflexivity]|].
    destruct (IH (s_step hash s o) n (no_wrap_tail _ _ _ W)) as [C A]; [intros es e I; apply FT; right; auto|].
    change (s_run hash s (o :: os)) with (s_run hash (s_step hash s o) os). cbn [ranges]. rewrite map_app, filter_app, map_app.
    pose proof (step_mono o s n (no_wrap_head _ _ _ W)) as M.
    assert (LOC : s_updates (s_step hash s o) = s_updates s -> 
      let l := if (seq_of s n <? seq_of (s_step hash s o) n)%N then [(false, ((seq_of s n + 1)%N, seq_of (s_step hash s o) n))] else [] in
      chain (seq_of s n) (map snd l ++ map snd (ranges hash n (s_step hash s o) os)) (seq_of (s_run hash (s_step hash s o) os) n)
      /\ announced hash n (s_updates (s_run hash (s_step hash s o) os)) = announced hash n (s_updates s) ++ map snd (filter fst l) ++ map snd (filter fst (ranges hash n (s_step hash s o) os))).
    { intros U l. rewrite U in A. unfold l. destruct (N.ltb_spec (seq_of s n) (seq_of (s_step hash s o) n)) as [L|L]; cbn [map snd app filter fst].
      - split; [constructor; auto|auto].
      - replace (seq_of s n) with (seq_of (s_step hash s o) n) by lia. auto. }
    assert (QU : quiet o -> 
      let l := map (pair true) (announced hash n (skipn (length (s_updates s)) (s_updates (s_step hash s o)))) in
      chain (seq_of s n) (map snd l ++ map snd (ranges hash n (s_step hash s o) os)) (seq_of (s_run hash (s_step hash s o) os) n)
      /\ announced hash n (s_updates (s_run hash (s_step hash s o) os)) = announced hash n (s_updates s) ++ map snd (filter fst l) ++ map snd (filter fst (ranges hash n (s_step hash s o) os))).
    { intros Q l. destruct (quiet_ok o s Q) as [Q1 Q2]. unfold l. rewrite Q2, skip_same. cbn [announced filter map app]. rewrite Q1 in C. rewrite Q2 in A. auto. }
    destruct o as [k v|k|k|es| | | | |]; try (apply QU; exact I).
    - apply LOC. apply set_ok.
    - apply LOC. apply incr_ok.
    - cbn [s_step] in *. destruct (recv_ok es s) as (_ & (us & U & CH & _) & _). rewrite U, skip_app. rewrite map_map. cbn [snd]. rewrite map_id.
      split; [eapply chain_app; [apply CH; intros e I; eapply FT; [left; reflexivity|auto]|exact C]|].
      rewrite A, U, announced_app, <- app_assoc. f_equal. f_equal.
      generalize (announced hash n us). induction l as [|x l IHl]; [reflexivity|]. cbn. f_equal. exact IHl.
  Qed.

  (** a chain covers every number once *)
  Definition within (k : N) (r : N * N) : bool := ((fst r <=? k) && (k <=? snd r))%N.
  Lemma chain_le : forall a l b, chain a l b -> (a <= b)%N.
  Proof. induction 1; lia. Qed.
  Lemma chain_count : forall a l b k, chain a l b -> length (filter (within k) l) = if ((a <? k) && (k <=? b))%N then 1%nat else 0%nat.
  Proof.
    induction 1 as [a|a hi l b L C IH]; cbn [filter].
    - destruct (N.ltb_spec a k), (N.leb_spec k a); cbn; auto; lia.
    - pose proof (chain_le _ _ _ C) as LE. unfold within at 1. cbn [fst snd].
      destruct (N.leb_spec (a + 1) k), (N.leb_spec k hi); cbn [andb length]; rewrite IH;
      destruct (N.ltb_spec hi k), (N.leb_spec k b), (N.ltb_spec a k); cbn; auto; lia.
  Qed.
End Proofs.
