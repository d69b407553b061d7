(** Lemmas for C65: a group of nodes that hear each other's vectors. *)
From Verif Require Import Base PrimModel NameModel OrderProofs SnModel SnSpec SnProofs SnProofs2.

Definition is_new (o : gop) : N := match o with GLocal _ (SnNew true) => 1 | _ => 0 end.
Lemma gpublished_cons : forall o os, gpublished (o :: os) = (is_new o + gpublished os)%N.
Proof. intros [i [[?|]|?|?|[|]|]|i j k] os; unfold gpublished, is_new; cbn [filter length]; lia. Qed.
(** a step of the group is a step of one node *)
Lemma gstep_node : forall g o g', gop_fine o -> gstep g o g' -> exists a s b s' p, g = a ++ s :: b /\ g' = a ++ s' :: b /\ sn_step s p = Ok s' /\ op_fine p /\
  match p with SnNew true => 1%N | _ => 0%N end = is_new o /\ (forall v, p = SnSync (Some v) -> exists t, In t g /\ In v (n_sent t)) /\
  match o with GLocal i _ => i = length a | GDeliver i j k => i = length a /\ exists t v, nth_error g j = Some t /\ nth_error (n_sent t) k = Some v /\ p = SnSync (Some v) end.
Proof.
  intros g o g' F E. destruct E as [a s b i o s' <- E|a s b i j k t v s' <- T V E].
  - exists a, s, b, s', o. destruct o as [[r|]|k|k|[|]|]; try contradiction; repeat split; auto; discriminate.
  - exists a, s, b, s', (SnSync (Some v)). repeat split; auto; [|eauto]. intros w Q. injection Q as <-. exists t. split; [eapply nth_error_In; eauto|eapply nth_error_In; eauto].
Qed.

(** what a vector says was published *)
Definition justified (g : list sn) (v : bvec) : Prop := forall id x, In (id, x) v -> exists t, In t g /\ n_id t = id /\ (x <= n_seq t)%N.
Definition member (P : N) (g : list sn) (s : sn) : Prop :=
  sn_inv s /\ seq_in (n_id s) (n_local s) = n_seq s /\ (n_seq s <= P)%N /\ n_closed s = false /\ reported (n_id s) (n_miss s) = [] /\
  justified g (n_local s) /\ (forall v, In v (n_sent s) -> justified g v) /\
  (forall id, id <> n_id s -> chain 1 (reported id (n_miss s)) (seq_in id (n_local s) + 1)).
Definition ginv (P : N) (g : list sn) : Prop := NoDup (map n_id g) /\ Forall (member P g) g.

Lemma justified_mono : forall a s b s' v, n_id s' = n_id s -> (n_seq s <= n_seq s')%N -> justified (a ++ s :: b) v -> justified (a ++ s' :: b) v.
Proof.
  intros a s b s' v Ei L J id x I. destruct (J id x I) as (t & T & E & X). apply in_app_iff in T. destruct T as [T|[<-|T]].
  - exists t. split; [apply in_or_app; auto|auto].
  - exists s'. split; [apply in_or_app; right; now left|]. split; [congruence|lia].
  - exists t. split; [apply in_or_app; right; now right|auto].
Qed.
Lemma seq_mention : forall id v, mentions id v -> In (id, seq_in id v) v.
Proof. intros id v M. unfold seq_in. destruct (sv_get id v) eqn:G; [now apply get_in|]. apply get_none in G. contradiction. Qed.
Lemma node_eq : forall g s t, NoDup (map n_id g) -> In s g -> In t g -> n_id s = n_id t -> s = t.
Proof.
  induction g as [|u g IH]; intros s t ND S1 T E; [destruct S1|]. cbn [map] in ND. inversion ND as [|? ? NI ND']; subst. destruct S1 as [<-|S1], T as [<-|T]; auto.
  - exfalso. apply NI. rewrite E. now apply in_map.
  - exfalso. apply NI. rewrite <- E. now apply in_map.
Qed.
Lemma sync_justified : forall g r local l' miss need m' n', NoDup (map fst local) -> fold_left sync_entry r (local, miss, need) = (l', m', n') -> justified g local -> justified g r -> justified g l'.
Proof.
  intros g r local l' miss need m' n' ND F J1 J2 id x I. destruct (sync_fold _ _ _ _ _ _ _ ND F) as (N2 & S2 & M2 & _).
  assert (ML : mentions id l') by (apply in_map_iff; exists (id, x); auto).
  assert (X : x = seq_in id l') by (unfold seq_in; now rewrite (get_nodup _ _ _ N2 I)).
  assert (D : (mentions id local /\ x = seq_in id local) \/ (mentions id r /\ x = top id r)).
  { rewrite X, S2. apply M2 in ML. destruct (N.max_spec (seq_in id local) (top id r)) as [[L ->]|[L ->]].
    - right. split; [|auto]. destruct (top_in id r) as [T|T]; [lia|]. apply in_map_iff. eexists. split; [|exact T]. reflexivity.
    - destruct ML as [ML|ML]; [left; auto|]. destruct (sv_get id local) eqn:G; [left; split; [|auto]; apply get_in in G; apply in_map_iff; eexists; split; [|exact G]; reflexivity|].
      right. split; [auto|]. unfold seq_in in *. rewrite G in *. lia. }
  destruct D as [(A & ->)|(A & ->)]; [apply J1; now apply seq_mention|].
  destruct (top_in id r) as [T|T]; [|auto]. rewrite T. apply in_map_iff in A. destruct A as ([i y] & Ei & A). cbn [fst] in Ei. subst i. destruct (J2 id y A) as (t & B & C & D). exists t. split; [auto|]. split; [auto|lia].
Qed.

Lemma member_other : forall P P' a s b s' u, n_id s' = n_id s -> (n_seq s <= n_seq s')%N -> (P <= P')%N -> member P (a ++ s :: b) u -> member P' (a ++ s' :: b) u.
Proof.
  intros P P' a s b s' u Ei L LP (M1 & M2 & M3 & M4 & M5 & M6 & M7 & M8). split; [auto|]. split; [auto|]. split; [lia|]. split; [auto|]. split; [auto|].
  split; [eapply justified_mono; eauto|]. split; [intros v I; eapply justified_mono; eauto|auto].
Qed.
Lemma in_mid : forall {A} (a : list A) s b, In s (a ++ s :: b).
Proof. intros. apply in_or_app. right. now left. Qed.
(** a node never forgets *)
Lemma effect_mono : forall P g s o s', member P g s -> (P + 1 < two64)%N -> effect s o s' -> forall id, (seq_in id (n_local s) <= seq_in id (n_local s'))%N.
Proof.
  intros P g s o s' ((ND & M) & Q & LP & _) L (Ei & F) id. destruct o as [[r|]|k|k|[|]|]; try contradiction.
  - destruct F as (add & need & Fo & _). destruct (sync_fold _ _ _ _ _ _ _ ND Fo) as (_ & S1 & _). rewrite S1. lia.
  - destruct F as (-> & _). lia.
  - destruct F as (-> & _). lia.
  - destruct F as (Q2 & -> & _). rewrite seq_set by auto. same_id (n_id s) id; [|lia]. rewrite Q2, N.mod_small by lia. lia.
  - destruct F as (-> & _). lia.
  - destruct F as (-> & _). lia.
Qed.
Lemma member_step : forall P a s b s' p, ginv P (a ++ s :: b) -> sn_step s p = Ok s' -> op_fine p -> (P + 2 < two64)%N ->
  (forall v, p = SnSync (Some v) -> justified (a ++ s :: b) v) ->
  n_id s' = n_id s /\ (n_seq s <= n_seq s')%N /\ member (P + match p with SnNew true => 1 | _ => 0 end)%N (a ++ s' :: b) s'.
Proof.
  intros P a s b s' p (ND & FA) E Fi L JV. assert (MS : member P (a ++ s :: b) s) by (rewrite Forall_forall in FA; apply FA, in_mid). pose proof MS as MS0.
  destruct MS as (M1 & M2 & M3 & M4 & M5 & M6 & M7 & M8). pose proof (step_effect _ _ _ E) as F. pose proof (effect_inv _ _ _ M1 F) as I1.
  destruct (step_fine s p Fi M4) as (s2 & E2 & C2). assert (s2 = s') by congruence. subst s2.
  assert (AH : forall v x, p = SnSync (Some v) -> In (n_id s, x) v -> (x <= n_seq s)%N).
  { intros v x -> I. destruct (JV v eq_refl _ _ I) as (t & T & Et & X). assert (t = s) by (eapply node_eq; [exact ND|auto|apply in_mid|auto]). subst t. auto. }
  destruct (effect_own s p s' M1 F M2 ltac:(lia) AH) as (Q1 & L1 & add & A1 & A2). destruct F as (Ei & F).
  split; [auto|]. split; [auto|]. unfold member. rewrite Ei. split; [auto|]. split; [auto|].
  assert (JM : forall v, justified (a ++ s :: b) v -> justified (a ++ s' :: b) v) by (intros v; now apply justified_mono).
  split; [|split; [auto|split]].
  - destruct p as [[r|]|k|k|[|]|]; try contradiction.
    + destruct F as (? & ? & _ & _ & -> & _). lia.
    + destruct F as (_ & -> & _). lia.
    + destruct F as (_ & -> & _). lia.
    + destruct F as (-> & _). rewrite N.mod_small by lia. lia.
    + destruct F as (_ & -> & _). lia.
  - now rewrite A1, reported_app, M5, A2.
  - assert (JL : justified (a ++ s' :: b) (n_local s')).
    { destruct p as [[r|]|k|k|[|]|]; try contradiction.
      - destruct F as (ad & need & Fo & _). apply JM. destruct M1. eapply sync_justified; [|exact Fo| |]; eauto.
      - destruct F as (-> & _). auto.
      - destruct F as (-> & _). auto.
      - destruct F as (Q2 & F2 & _). intros id x I. assert (ID : mentions id (n_local s)) by (assert (X : mentions id (n_local s')) by (apply in_map_iff; eexists; split; [|exact I]; reflexivity); unfold mentions in *; rewrite F2, set_ids in X; auto).
        assert (X : x = seq_in id (n_local s')) by (unfold seq_in; destruct I1 as (N1 & _); now rewrite (get_nodup _ _ _ N1 I)). destruct M1 as (N0 & M0).
        rewrite F2, seq_set in X by auto. revert X. same_id (n_id s) id; intros ->; [exists s'; split; [apply in_mid|split; [auto|lia]]|].
        apply (JM _ M6). now apply seq_mention.
      - destruct F as (-> & _). auto. }
    split; [auto|]. split.
    + intros v I. assert (D : In v (n_sent s) \/ v = n_local s \/ v = n_local s').
      { destruct p as [[r|]|k|k|[|]|]; try contradiction.
        - destruct F as (? & ? & _ & _ & _ & F). rewrite F in I. auto.
        - destruct F as (_ & _ & _ & [F|F]); rewrite F in I; [auto|]. apply in_app_iff in I. destruct I as [I|[<-|[]]]; auto.
        - destruct F as (_ & _ & _ & [F|F]); rewrite F in I; [auto|]. apply in_app_iff in I. destruct I as [I|[<-|[]]]; auto.
        - destruct F as (_ & _ & _ & F); rewrite F in I. apply in_app_iff in I. destruct I as [I|[<-|[]]]; auto.
        - destruct F as (_ & _ & _ & [F|F]); rewrite F in I; [auto|]. apply in_app_iff in I. destruct I as [I|[<-|[]]]; auto. }
      destruct D as [D|[->| ->]]; auto.
    + intros id NE. destruct M1 as (N0 & M0). specialize (M8 id NE). destruct p as [[r|]|k|k|[|]|]; try contradiction.
      * destruct F as (ad & need & Fo & Fm & _). destruct (sync_fold _ _ _ _ _ _ _ N0 Fo) as (_ & _ & _ & ad2 & Ea & _ & CH). cbn [app] in Ea. subst ad2. rewrite Fm, reported_app. eapply chain_app; [exact M8|].
        apply CH. intros x I. destruct (JV r eq_refl _ _ I) as (t & T & _ & X). rewrite Forall_forall in FA. destruct (FA t T) as (_ & _ & B & _). lia.
      * destruct F as (-> & _ & -> & _). auto.
      * destruct F as (-> & _ & -> & _). auto.
      * destruct F as (_ & -> & -> & _). rewrite seq_set by auto. same_id (n_id s) id; [congruence|auto].
      * destruct F as (-> & _ & -> & _). auto.
Qed.
Lemma ginv_step : forall P g o g', ginv P g -> gop_fine o -> gstep g o g' -> (P + 2 < two64)%N -> ginv (P + is_new o) g' /\ map n_id g' = map n_id g /\
  (forall i s', nth_error g' i = Some s' -> exists s, nth_error g i = Some s /\ (n_seq s <= n_seq s')%N /\ forall id, (seq_in id (n_local s) <= seq_in id (n_local s'))%N).
Proof.
  intros P g o g' G F E L. destruct (gstep_node _ _ _ F E) as (a & s & b & s' & p & -> & -> & St & Fi & Np & Jp & _).
  assert (JV : forall v, p = SnSync (Some v) -> justified (a ++ s :: b) v).
  { intros v Ep. destruct (Jp v Ep) as (t & T & V). destruct G as (_ & FA). rewrite Forall_forall in FA. destruct (FA t T) as (_ & _ & _ & _ & _ & _ & X & _). auto. }
  destruct (member_step P a s b s' p G St Fi L JV) as (Ei & Ls & MS). rewrite Np in MS. destruct G as (ND & FA).
  assert (MI : map n_id (a ++ s' :: b) = map n_id (a ++ s :: b)) by (rewrite !map_app; cbn [map]; now rewrite Ei).
  split; [split; [now rewrite MI|]|split; [auto|]].
  - rewrite Forall_forall in FA |- *. intros u I. apply in_app_iff in I. destruct I as [I|[<-|I]]; [|exact MS|].
    + eapply member_other; [exact Ei|exact Ls| |apply FA; apply in_or_app; auto]. lia.
    + eapply member_other; [exact Ei|exact Ls| |apply FA; apply in_or_app; right; now right]. lia.
  - intros i u U. destruct (Nat.eq_dec i (length a)) as [->|NE].
    + rewrite nth_error_app2, Nat.sub_diag in U by lia. cbn [nth_error] in U. injection U as <-. exists s. split; [rewrite nth_error_app2, Nat.sub_diag by lia; reflexivity|]. split; [auto|].
      rewrite Forall_forall in FA. intros id. apply (effect_mono P (a ++ s :: b) s p s'); [apply FA, in_mid|lia|now apply step_effect].
    + exists u. split; [|split; [lia|intros; lia]]. rewrite <- U. destruct (Nat.lt_ge_cases i (length a)) as [LT|GE]; [now rewrite !nth_error_app1 by auto|]. rewrite !nth_error_app2 by auto. destruct (i - length a)%nat eqn:D; [lia|reflexivity].
Qed.
Lemma ginv_run : forall g os g', grun g os g' -> forall P, ginv P g -> (P + gpublished os + 2 < two64)%N -> ginv (P + gpublished os) g' /\ map n_id g' = map n_id g /\
  (forall i s', nth_error g' i = Some s' -> exists s, nth_error g i = Some s /\ (n_seq s <= n_seq s')%N /\ forall id, (seq_in id (n_local s) <= seq_in id (n_local s'))%N).
Proof.
  induction 1 as [g|g o g1 os g2 F E R IH]; intros P G L.
  - replace (P + gpublished [])%N with P by (cbn; lia). split; [auto|]. split; [auto|]. intros i s S1. exists s. split; [auto|]. split; [lia|intros; lia].
  - rewrite gpublished_cons in *. destruct (ginv_step _ _ _ _ G F E ltac:(lia)) as (G1 & M1 & X1). destruct (IH _ G1 ltac:(lia)) as (G2 & M2 & X2). rewrite <- N.add_assoc in G2. split; [auto|]. split; [congruence|].
    intros i s' S'. destruct (X2 i s' S') as (s1 & S1 & L1 & K1). destruct (X1 i s1 S1) as (s & S0 & L0 & K0). exists s. split; [auto|]. split; [lia|]. intros id. specialize (K0 id). specialize (K1 id). lia.
Qed.
Lemma ginv_start : forall ids, NoDup ids -> ginv 0 (map sn_attach ids).
Proof.
  intros ids ND. split; [now rewrite map_map, map_id|]. apply Forall_forall. intros s I. apply in_map_iff in I. destruct I as (id & <- & I). split; [apply attach_inv|].
  split; [unfold seq_in; cbn [sn_attach n_id n_local sv_get]; now rewrite bytes_eqb_refl|]. split; [cbn; lia|]. split; [reflexivity|]. split; [reflexivity|]. split; [|split; [intros v []|]].
  - intros i x [E|[]]. injection E as <- <-. exists (sn_attach id). split; [now apply in_map|]. split; [reflexivity|cbn; lia].
  - intros i NE. replace (seq_in i (n_local (sn_attach id)) + 1)%N with 1%N; [constructor|]. unfold seq_in. cbn [sn_attach n_local sv_get n_id] in *. same_id id i; [congruence|reflexivity].
Qed.
Lemma grun_app : forall g a g1, grun g a g1 -> forall b g2, grun g1 b g2 -> grun g (a ++ b) g2.
Proof. induction 1; intros; cbn [app]; [auto|]. econstructor; eauto. Qed.
Lemma gpublished_app : forall a b, gpublished (a ++ b) = (gpublished a + gpublished b)%N.
Proof. intros. unfold gpublished. rewrite filter_app, app_length. lia. Qed.
(** what a delivered vector says is known from then on *)
Lemma delivered : forall ids pre i j k post g1 t v g2 g s id x, NoDup ids -> grun (map sn_attach ids) pre g1 -> nth_error g1 j = Some t -> nth_error (n_sent t) k = Some v ->
  gstep g1 (GDeliver i j k) g2 -> grun g2 post g -> (gpublished (pre ++ post) + 2 < two64)%N -> nth_error g i = Some s -> In (id, x) v -> (x <= seq_in id (n_local s))%N.
Proof.
  intros ids pre i j k post g1 t v g2 g s id x ND R1 T V E R2 L S1 I. rewrite gpublished_app in L.
  destruct (ginv_run _ _ _ R1 0%N (ginv_start _ ND) ltac:(lia)) as (G1 & _). destruct (ginv_step _ _ (GDeliver i j k) _ G1 Logic.I E ltac:(lia)) as (G2 & _).
  cbn [is_new] in G2. rewrite N.add_0_r in G2. destruct (ginv_run _ _ _ R2 _ G2 ltac:(lia)) as (_ & _ & X). destruct (X i s S1) as (s2 & S2 & _ & K). specialize (K id).
  destruct (gstep_node _ (GDeliver i j k) _ Logic.I E) as (a & u & b & u' & p & -> & -> & St & _ & _ & _ & -> & t' & v' & T' & V' & ->).
  assert (t' = t) by congruence. subst t'. assert (v' = v) by congruence. subst v'. rewrite nth_error_app2, Nat.sub_diag in S2 by lia. cbn [nth_error] in S2. injection S2 as <-.
  destruct (step_effect _ _ _ St) as (_ & add & need & Fo & _). destruct G1 as (_ & FA). rewrite Forall_forall in FA. destruct (FA u (in_mid _ _ _)) as ((N0 & _) & _).
  destruct (sync_fold _ _ _ _ _ _ _ N0 Fo) as (_ & S3 & _). specialize (S3 id). pose proof (top_ge _ _ _ I). lia.
Qed.

(** steps on a concrete group *)
Definition put {A} (i : nat) (x : A) (l : list A) : list A := firstn i l ++ x :: skipn (S i) l.
Lemma gstep_at : forall g i o s s', nth_error g i = Some s -> sn_step s o = Ok s' -> gstep g (GLocal i o) (put i s' g).
Proof.
  intros g i o s s' N1 E. apply nth_error_split in N1. destruct N1 as (a & b & -> & <-). unfold put. rewrite firstn_app, Nat.sub_diag, firstn_all, firstn_O, app_nil_r.
  replace (skipn (S (length a)) (a ++ s :: b)) with b; [now constructor|]. rewrite skipn_app, skipn_all2 by lia. replace (S (length a) - length a)%nat with 1%nat by lia. reflexivity.
Qed.
Lemma gdeliver_at : forall g i j k s t v s', nth_error g i = Some s -> nth_error g j = Some t -> nth_error (n_sent t) k = Some v -> sn_step s (SnSync (Some v)) = Ok s' -> gstep g (GDeliver i j k) (put i s' g).
Proof.
  intros g i j k s t v s' N1 T V E. apply nth_error_split in N1. destruct N1 as (a & b & -> & <-). unfold put. rewrite firstn_app, Nat.sub_diag, firstn_all, firstn_O, app_nil_r.
  replace (skipn (S (length a)) (a ++ s :: b)) with b; [econstructor; eauto|]. rewrite skipn_app, skipn_all2 by lia. replace (S (length a) - length a)%nat with 1%nat by lia. reflexivity.
Qed.
