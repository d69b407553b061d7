(** Proofs about State Vector Sync: the vectors that are sent, and groups. *)
From Coq Require Import Permutation.
From Verif Require Import Base BaseProofs PrimModel NameModel NameProofs OrderProofs SyncModel SyncSpec SyncProofs SyncProofs2.

(** ** Sorting *)
Lemma insert_perm : forall e l, Permutation (insert_entry e l) (e :: l).
Proof.
  induction l as [|x l IH]; cbn [insert_entry]; [reflexivity|]. destruct (_ <? 0)%Z; [reflexivity|]. rewrite IH. apply perm_swap.
Qed.
Lemma sort_perm : forall l, Permutation (sort_entries l) l.
Proof. induction l as [|e l IH]; cbn [sort_entries fold_right]; [reflexivity|]. fold (sort_entries l). rewrite insert_perm, IH. reflexivity. Qed.

Lemma insert_sorted : forall e l, sorted_names l -> ~ In (fst e) (map fst l) -> sorted_names (insert_entry e l).
Proof.
  intros e l H. induction H as [|x|x y l C H IH]; intros NI; cbn [insert_entry].
  - constructor.
  - destruct (Z.ltb_spec (name_compare (fst e) (fst x)) 0); [repeat constructor; auto|]. constructor; [|constructor].
    rewrite name_compare_anti. destruct (name_compare_cases (fst e) (fst x)) as [E|[E|E]]; [lia| |lia]. apply name_compare_eq in E. exfalso. apply NI. left. auto.
  - destruct (Z.ltb_spec (name_compare (fst e) (fst x)) 0); [repeat (constructor; auto)|].
    assert (XE : (name_compare (fst x) (fst e) < 0)%Z).
    { rewrite name_compare_anti. destruct (name_compare_cases (fst e) (fst x)) as [E|[E|E]]; [lia| |lia]. apply name_compare_eq in E. exfalso. apply NI. left. auto. }
    cbn [insert_entry] in IH. specialize (IH (fun X => NI (or_intror X))). destruct (name_compare (fst e) (fst y) <? 0)%Z; constructor; auto.
Qed.
Lemma sort_sorted : forall l, NoDup (map fst l) -> sorted_names (sort_entries l).
Proof.
  induction l as [|e l IH]; intros H; [constructor|]. cbn [map fst] in H. inversion H as [|x k NI ND]; subst. cbn [sort_entries fold_right]. fold (sort_entries l).
  apply insert_sorted; [auto|]. intros X. apply NI. eapply Permutation_in; [apply Permutation_map; apply sort_perm|exact X].
Qed.

(** a sorted vector is determined by its entries *)
Lemma sorted_head : forall e l, sorted_names (e :: l) -> forall x, In x l -> (name_compare (fst e) (fst x) < 0)%Z.
Proof.
  intros e l. revert e. induction l as [|f l IH]; intros e H x I; [contradiction|]. inversion H as [| |e' f' l' C S]; subst. destruct I as [<-|I]; [auto|].
  pose proof (IH f S x I) as L. destruct (name_compare_cases (fst e) (fst f)) as [E|[E|E]]; try lia. destruct (name_compare_cases (fst f) (fst x)) as [G|[G|G]]; try lia.
  rewrite (name_compare_trans _ _ _ E G). lia.
Qed.
Lemma sorted_tail : forall e l, sorted_names (e :: l) -> sorted_names l.
Proof. intros e l H. inversion H; subst; [constructor|auto]. Qed.
Lemma sorted_unique : forall a b, sorted_names a -> sorted_names b -> (forall e, In e a <-> In e b) -> a = b.
Proof.
  induction a as [|e a IH]; intros [|f b] SA SB E.
  - reflexivity.
  - exfalso. apply (E f). left. reflexivity.
  - exfalso. apply (E e). left. reflexivity.
  - assert (EF : e = f).
    { destruct (proj1 (E e) (or_introl eq_refl)) as [X|X]; [auto|]. destruct (proj2 (E f) (or_introl eq_refl)) as [Y|Y]; [auto|].
      pose proof (sorted_head _ _ SB _ X) as P. pose proof (sorted_head _ _ SA _ Y) as Q. rewrite name_compare_anti in Q. lia. }
    subst f. f_equal. apply IH; [eapply sorted_tail; eauto|eapply sorted_tail; eauto|]. intros x.
    assert (NS : forall l, sorted_names (e :: l) -> ~ In e l).
    { intros l S I. pose proof (sorted_head _ _ S _ I) as P. rewrite (proj2 (name_compare_eq (fst e) (fst e)) eq_refl) in P. lia. }
    split; intros I.
    + destruct (proj1 (E x) (or_intror I)) as [<-|X]; [exfalso; eapply NS; [exact SA|auto]|auto].
    + destruct (proj2 (E x) (or_intror I)) as [<-|X]; [exfalso; eapply NS; [exact SB|auto]|auto].
Qed.

Section Proofs.
  Variable hash : name -> N.
  Notation seq_of := (seq_of hash).
  Notation same_node := (same_node hash).
  Notation SInv := (SInv hash).

  (** ** Vectors *)
  Lemma best_perm : forall n a b, Permutation a b -> best hash n a = best hash n b.
  Proof.
    intros n a b H. induction H as [|x a b H IH|x y a|a b c H1 IH1 H2 IH2]; cbn [best fold_right].
    - reflexivity.
    - fold (best hash n a) (best hash n b). rewrite IH. reflexivity.
    - fold (best hash n a). destruct (same_node (fst x) n), (same_node (fst y) n); lia.
    - congruence.
  Qed.

  Definition entries (s : svs) : svec := map (fun kv => (match mget (fst kv) (s_names s) with Some n => n | None => [] end, snd kv)) (s_state s).
  Lemma entry_name : forall s h v, SInv s -> In (h, v) (s_state s) -> exists n, mget h (s_names s) = Some n /\ hash n = h.
  Proof. intros s h v I IN. apply in_mget in IN; [|apply I]. destruct (si_known _ _ I _ _ IN) as [n En]. exists n. split; [auto|]. eapply si_names; eauto. Qed.

  Lemma vector_best : forall s n, SInv s -> best hash n (vector s) = seq_of s n.
  Proof.
    intros s n I. unfold vector. fold (entries s). rewrite (best_perm n _ _ (sort_perm (entries s))). rewrite seq_num. unfold entries.
    assert (G : forall st, (forall h v, In (h, v) st -> In (h, v) (s_state s)) -> wfm st ->
      best hash n (map (fun kv => (match mget (fst kv) (s_names s) with Some m => m | None => [] end, snd kv)) st) = num (hash n) st).
    { induction st as [|[h v] st IH]; intros S W; [reflexivity|]. unfold wfm in W. cbn [map fst] in W. inversion W as [|x k NI ND]; subst.
      destruct (entry_name s h v I (S _ _ (or_introl eq_refl))) as (m & Em & EH). cbn [map fst snd]. rewrite Em. cbn [best fold_right fst snd].
      match goal with |- context [fold_right ?f 0%N ?l] => change (fold_right f 0%N l) with (best hash n l) end.
      rewrite IH; [|intros; apply S; right; auto|exact ND]. unfold SyncSpec.same_node. rewrite EH. unfold num. cbn [mget].
      destruct (N.eqb_spec h (hash n)) as [EN|]; [|reflexivity]. destruct (mget (hash n) st) as [x|] eqn:MX; [|lia].
      exfalso. apply NI. rewrite EN. apply mget_in in MX. apply (in_map fst) in MX. auto. }
    apply G; [auto|apply I].
  Qed.

  Lemma entries_nodup : forall s, SInv s -> NoDup (map fst (entries s)).
  Proof.
    intros s I. unfold entries. rewrite map_map. cbn [fst].
    assert (G : forall st, (forall h v, In (h, v) st -> In (h, v) (s_state s)) -> wfm st -> NoDup (map (fun kv : N * N => match mget (fst kv) (s_names s) with Some m => m | None => [] end) st)).
    { induction st as [|[h v] st IH]; intros S W; [constructor|]. unfold wfm in W. cbn [map fst] in W. inversion W as [|x k NI ND]; subst. cbn [map fst]. constructor; [|apply IH; [intros; apply S; right; auto|exact ND]].
      destruct (entry_name s h v I (S _ _ (or_introl eq_refl))) as (m & Em & EH). rewrite Em. intros X. apply in_map_iff in X. destruct X as ([h' v'] & E & IN). cbn [fst] in E.
      destruct (entry_name s h' v' I (S _ _ (or_intror IN))) as (m' & Em' & EH'). rewrite Em' in E. subst m'. apply NI. apply (in_map fst) in IN. cbn [fst] in IN. congruence. }
    apply G; [auto|apply I].
  Qed.
  Lemma vector_sorted : forall s, SInv s -> sorted_names (vector s).
  Proof. intros s I. apply sort_sorted. apply entries_nodup. auto. Qed.

  Lemma vector_entry : forall s n v, SInv s -> In (n, v) (vector s) -> seq_of s n = v.
  Proof.
    intros s n v I IN. apply (Permutation_in _ (sort_perm _)) in IN. fold (entries s) in IN. unfold entries in IN. apply in_map_iff in IN. destruct IN as ([h x] & E & IN). cbn [fst snd] in E.
    destruct (entry_name s h x I IN) as (m & Em & EH). rewrite Em in E. inversion E; subst. rewrite seq_num. unfold num. erewrite in_mget; [reflexivity|apply I|exact IN].
  Qed.
  Lemma vector_has : forall s n, SInv s -> (0 < seq_of s n)%N -> in_vector hash n (vector s).
  Proof.
    intros s n I L. destruct (existsb (fun e => same_node (fst e) n) (vector s)) eqn:E.
    - apply existsb_exists in E. destruct E as (e & IE & SE). exists e. auto.
    - exfalso. rewrite <- (vector_best s n I) in L. rewrite best_absent in L; [lia|]. intros (e & IE & SE).
      assert (X : existsb (fun e => same_node (fst e) n) (vector s) = true) by (apply existsb_exists; eauto). congruence.
  Qed.

  (** what the goroutines send *)
  Lemma send_sent : forall s, (0 < s_pending s)%nat -> s_running s = true -> s_sent (s_step hash s OSend) = s_sent s ++ [vector s].
  Proof. intros s P R. cbn [s_step]. unfold send. destruct (s_pending s); [lia|]. cbn [with_pending s_running]. rewrite R. reflexivity. Qed.
  Lemma step_sent : forall o s, s_sent (s_step hash s o) = s_sent s \/ o = OSend /\ s_sent (s_step hash s o) = s_sent s ++ [vector s].
  Proof.
    intros o s. destruct o as [k v|k|k|es| | | | |]; cbn [s_step]; auto.
    - left. unfold set_seq. destruct (_ <=? _)%N; cbn [snd with_pending with_state s_sent]; apply hn_sent.
    - left. unfold incr_seq. cbn [snd with_pending with_state s_sent]. apply hn_sent.
    - left. unfold get_seq. cbn [snd]. apply hn_sent.
    - left. destruct (recv_ok hash es s) as (_ & _ & _ & H & _). auto.
    - left. unfold timer_expired. destruct (_ && _); reflexivity.
    - unfold send. destruct (s_pending s); [auto|]. cbn [with_pending s_running]. destruct (s_running s); [right; split; reflexivity|left; reflexivity].
  Qed.

  (** ** Groups *)
  Lemma nth_upd : forall A (net : list A) i x y j, nth_error net i = Some y ->
    nth_error (firstn i net ++ x :: skipn (S i) net) j = if Nat.eqb i j then Some x else nth_error net j.
  Proof.
    induction net as [|a net IH]; intros [|i] x y j H; cbn [nth_error] in H; try discriminate; cbn [firstn skipn app].
    - destruct j; reflexivity.
    - destruct j as [|j]; cbn [nth_error Nat.eqb]; [reflexivity|]. change (match net with [] => [] | _ :: l => skipn i l end) with (skipn (S i) net). eapply IH. eauto.
  Qed.

  (** [good s]: the invariant, and what was sent is not ahead of the state *)
  Definition good (s : svs) : Prop := SInv s /\ forall v, In v (s_sent s) -> forall n, (best hash n v <= seq_of s n)%N.
  Lemma good_step : forall o s, (forall m, o = OIncr m -> (seq_of s m + 1 < two64)%N) -> good s -> good (s_step hash s o).
  Proof.
    intros o s W [I G]. split; [apply step_inv; auto|]. intros v IN n. pose proof (step_mono hash o s n W) as M.
    destruct (step_sent o s) as [E|[-> E]]; rewrite E in IN; [specialize (G v IN n); lia|]. apply in_app_iff in IN. destruct IN as [IN|[<-|[]]]; [specialize (G v IN n); lia|].
    rewrite vector_best by auto. auto.
  Qed.
  Lemma good_new : good svs_new.
  Proof. split; [apply inv_new|]. intros v []. Qed.

  Definition n_good (net : list svs) : Prop := forall i s, nth_error net i = Some s -> good s.
  Definition n_safe (net : list svs) (o : nop) : Prop := forall i m, o = NLocal i (OIncr m) -> forall s, nth_error net i = Some s -> (seq_of s m + 1 < two64)%N.

  Lemma n_step_get : forall net o net', n_step hash net o net' -> forall i s, nth_error net i = Some s ->
    exists s', nth_error net' i = Some s' /\ (s' = s \/ exists p, s' = s_step hash s p /\ (forall m, p = OIncr m -> o = NLocal i (OIncr m)) /\
      ((exists m v, p = OSet m v /\ o = NLocal i (OSet m v)) \/ (exists m, p = OIncr m) \/ quiet p \/ exists es j t v, p = ORecv es /\ nth_error net j = Some t /\ In v (s_sent t) /\ map fst es = v)).
  Proof.
    intros net o net' H i s G. destruct H as [net i' p s0 G0 NR|net i' j k es s0 t v G0 GJ GK EV].
    - destruct (Nat.eqb_spec i' i) as [->|NE].
      + exists (s_step hash s0 p). split; [rewrite (nth_upd _ _ _ _ _ _ G0), Nat.eqb_refl; reflexivity|]. right. exists p. rewrite G0 in G. inversion G; subst. split; [reflexivity|]. split; [intros m ->; reflexivity|].
        destruct p; cbn [quiet]; eauto 8. exfalso. eapply NR. reflexivity.
      + exists s. split; [rewrite (nth_upd _ _ _ _ _ _ G0); destruct (Nat.eqb_spec i' i); [contradiction|auto]|auto].
    - destruct (Nat.eqb_spec i' i) as [->|NE].
      + exists (s_step hash s0 (ORecv es)). split; [rewrite (nth_upd _ _ _ _ _ _ G0), Nat.eqb_refl; reflexivity|]. right. exists (ORecv es). rewrite G0 in G. inversion G; subst. split; [reflexivity|]. split; [discriminate|].
        right. right. right. exists es, j, t, (map fst es). split; [reflexivity|]. split; [auto|]. split; [eapply nth_error_In; eauto|reflexivity].
      + exists s. split; [rewrite (nth_upd _ _ _ _ _ _ G0); destruct (Nat.eqb_spec i' i); [contradiction|auto]|auto].
  Qed.
  Lemma n_step_back : forall net o net', n_step hash net o net' -> forall i s', nth_error net' i = Some s' -> exists s, nth_error net i = Some s.
  Proof.
    intros net o net' H i s' G. destruct H as [net i' p s0 G0 NR|net i' j k es s0 t v G0 GJ GK EV]; rewrite (nth_upd _ _ _ _ _ _ G0) in G; destruct (Nat.eqb_spec i' i) as [->|]; eauto.
  Qed.
  Lemma n_good_step : forall net o net', n_step hash net o net' -> n_safe net o -> n_good net -> n_good net'.
  Proof.
    intros net o net' H W G i s' E. destruct (n_step_back _ _ _ H _ _ E) as [s Es]. destruct (n_step_get _ _ _ H _ _ Es) as (s1 & E1 & C). rewrite E in E1. inversion E1; subst s1.
    destruct C as [->|(p & -> & PI & _)]; [eapply G; eauto|]. apply good_step; [|eapply G; eauto]. intros m ->. eapply W; [apply PI; reflexivity|auto].
  Qed.

  Lemma n_run_good : forall net os net', n_run hash net os net' -> n_no_wrap hash net os -> n_good net -> n_good net'.
  Proof.
    intros net os net' H. induction H as [net|net o net1 os net2 S R IH]; intros W G; [auto|]. apply IH.
    - intros pre i m post net' E RP. apply (W (o :: pre) i m post net'); [rewrite E; reflexivity|]. econstructor; eauto.
    - eapply n_good_step; [exact S| |auto]. intros i m -> s E. apply (W [] i m os net); [reflexivity|constructor|auto].
  Qed.

  (** without publications nothing gets greater than what was known *)
  Lemma quiet_step : forall net o net', n_step hash net o net' -> no_publication [o] -> n_good net -> forall n M,
    (forall i s, nth_error net i = Some s -> (seq_of s n <= M)%N) -> (forall i s, nth_error net' i = Some s -> (seq_of s n <= M)%N).
  Proof.
    intros net o net' H NP G n M U i s' E. destruct (n_step_back _ _ _ H _ _ E) as [s Es]. destruct (n_step_get _ _ _ H _ _ Es) as (s1 & E1 & C). rewrite E in E1. inversion E1; subst s1.
    destruct C as [->|(p & -> & PI & C)]; [eapply U; eauto|]. destruct C as [(m & v & -> & ->)|[(m & ->)|[Q|(es & j & t & v & -> & Ej & IV & EV)]]].
    - exfalso. apply (proj1 (NP i m v)). left. reflexivity.
    - exfalso. apply (proj2 (NP i m 0%N)). left. apply PI. reflexivity.
    - rewrite (proj1 (quiet_ok hash p s Q)). eapply U; eauto.
    - cbn [s_step]. rewrite (proj1 (recv_ok hash es s)). rewrite EV. pose proof (proj2 (G _ _ Ej) v IV n). pose proof (U _ _ Ej). pose proof (U _ _ Es). lia.
  Qed.
  Lemma pub_head : forall o os, no_publication (o :: os) -> no_publication [o].
  Proof. intros o os H i m v. destruct (H i m v) as [A B]. split; intros [->|[]]; [apply A|apply B]; left; reflexivity. Qed.
  Lemma pub_tail : forall o os, no_publication (o :: os) -> no_publication os.
  Proof. intros o os H i m v. destruct (H i m v) as [A B]. split; intros I; [apply A|apply B]; right; auto. Qed.
  Lemma pub_safe : forall net o, no_publication [o] -> n_safe net o.
  Proof. intros net o H i m -> s E. exfalso. apply (proj2 (H i m 0%N)). left. reflexivity. Qed.

  Lemma quiet_run : forall net os net', n_run hash net os net' -> no_publication os -> n_good net ->
    n_good net' /\ (forall n M, (forall i s, nth_error net i = Some s -> (seq_of s n <= M)%N) -> forall i s, nth_error net' i = Some s -> (seq_of s n <= M)%N)
    /\ (forall i s, nth_error net i = Some s -> exists s', nth_error net' i = Some s' /\ (forall n, (seq_of s n <= seq_of s' n)%N) /\ exists l, s_sent s' = s_sent s ++ l).
  Proof.
    intros net os net' H. induction H as [net|net o net1 os net2 S R IH]; intros NP G.
    - split; [auto|]. split; [auto|]. intros i s E. exists s. split; [auto|]. split; [intros; lia|]. exists []. rewrite app_nil_r. reflexivity.
    - pose proof (n_good_step _ _ _ S (pub_safe net o (pub_head _ _ NP)) G) as G1. destruct (IH (pub_tail _ _ NP) G1) as (I1 & I2 & I3). split; [auto|]. split.
      + intros n M U. apply I2. eapply quiet_step; eauto. eapply pub_head; eauto.
      + intros i s E. destruct (n_step_get _ _ _ S _ _ E) as (s1 & E1 & C). destruct (I3 _ _ E1) as (s2 & E2 & M2 & l2 & L2). exists s2. split; [auto|].
        assert (W : forall p, (forall m, p = OIncr m -> o = NLocal i (OIncr m)) -> forall m, p = OIncr m -> (seq_of s m + 1 < two64)%N).
        { intros p PI m EM. eapply (pub_safe net o (pub_head _ _ NP)); [apply PI; exact EM|auto]. }
        destruct C as [->|(p & -> & PI & _)]; [eauto|]. split.
        * intros n. etransitivity; [apply step_mono; apply W; exact PI|apply M2].
        * rewrite L2. destruct (step_sent p s) as [X|[_ X]]; rewrite X; [eauto|rewrite <- app_assoc; eauto].
  Qed.

  Lemma n_step_det : forall net o a b, n_step hash net o a -> n_step hash net o b -> a = b.
  Proof. intros net o a b A B. destruct A; inversion B; subst; repeat match goal with H : nth_error ?x ?i = Some _, H' : nth_error ?x ?i = Some _ |- _ => rewrite H in H'; inversion H'; subst; clear H' end; reflexivity. Qed.
  Lemma n_run_det : forall net os a b, n_run hash net os a -> n_run hash net os b -> a = b.
  Proof. intros net os a b A. revert b. induction A as [|net o net1 os net2 S R IH]; intros b B; inversion B; subst; [reflexivity|]. apply IH. erewrite (n_step_det net o net1); eauto. Qed.
  Lemma n_run_app : forall net a b net', n_run hash net (a ++ b) net' -> exists net1, n_run hash net a net1 /\ n_run hash net1 b net'.
  Proof.
    intros net a. revert net. induction a as [|o a IH]; intros net b net' H; [exists net; split; [constructor|auto]|]. cbn [app] in H. inversion H as [|n0 o0 n1 os0 n2 S R]; subst.
    destruct (IH _ _ _ R) as (n3 & R1 & R2). exists n3. split; [econstructor; eauto|auto].
  Qed.
  Lemma pub_app : forall a b, no_publication (a ++ b) -> no_publication a /\ no_publication b.
  Proof. intros a b H. split; intros i m v; destruct (H i m v) as [A B]; split; intros I; [apply A|apply B|apply A|apply B]; apply in_app_iff; auto. Qed.

  Lemma reach_ge : forall net os net2 i j n, n_good net -> n_run hash net os net2 -> no_publication os -> reaches hash net os j i ->
    forall s t, nth_error net2 i = Some s -> nth_error net j = Some t -> (seq_of t n <= seq_of s n)%N.
  Proof.
    intros net os net2 i j n G R NP (a & b & c & net1 & t1 & k & es & EO & RA & E1 & RUN & PEND & EK) s t Es Et. subst os.
    destruct (pub_app _ _ NP) as [NPa NPb]. destruct (n_run_app _ _ _ _ R) as (na & Ra & Rb). assert (na = net1) by (eapply n_run_det; eauto). subst na.
    destruct (quiet_run _ _ _ Ra NPa G) as (G1 & _ & M1). destruct (M1 _ _ Et) as (t1' & E1' & LE1 & _). rewrite E1 in E1'. inversion E1'; subst t1'.
    inversion Rb as [|x1 x2 nb x3 x4 S2 R2]; subst. pose proof (pub_tail _ _ NPb) as NPb'. destruct (pub_app _ _ NPb') as [NP2 NP3]. destruct (n_run_app _ _ _ _ R2) as (nc & R3 & R4).
    pose proof (n_good_step _ _ _ S2 (pub_safe net1 _ (pub_head _ _ NPb)) G1) as G2.
    assert (E2 : nth_error nb j = Some (s_step hash t1 OSend)).
    { inversion S2; subst. match goal with H : nth_error net1 j = Some _ |- _ => rewrite (nth_upd _ _ _ _ _ _ H), Nat.eqb_refl; rewrite E1 in H; inversion H; subst; reflexivity end. }
    destruct (quiet_run _ _ _ R3 NP2 G2) as (G3 & _ & M3). destruct (M3 _ _ E2) as (t3 & E3 & _ & l3 & L3). rewrite send_sent in L3 by auto.
    inversion R4 as [|y1 y2 nd y3 y4 S4 R5]; subst.
    pose proof (n_good_step _ _ _ S4 (pub_safe nc _ (pub_head _ _ NP3)) G3) as G4.
    inversion S4 as [|z1 z2 z3 z4 z5 s3 t3' v G0 GJ GK EV]; subst. rewrite E3 in GJ. inversion GJ; subst t3'.
    assert (EVV : map fst es = vector t1).
    { rewrite L3 in GK. rewrite nth_error_app1 in GK by (rewrite app_length; cbn; lia). rewrite nth_error_app2 in GK by lia. rewrite Nat.sub_diag in GK. cbn in GK. inversion GK. reflexivity. }
    assert (E4 : nth_error (firstn i nc ++ s_step hash s3 (ORecv es) :: skipn (S i) nc) i = Some (s_step hash s3 (ORecv es))) by (rewrite (nth_upd _ _ _ _ _ _ G0), Nat.eqb_refl; reflexivity).
    destruct (quiet_run _ _ _ R5 (pub_tail _ _ NP3) G4) as (_ & _ & M5). destruct (M5 _ _ E4) as (s5 & E5 & LE5 & _). rewrite Es in E5. inversion E5; subst s5.
    specialize (LE5 n). cbn [s_step] in LE5. rewrite (proj1 (recv_ok hash es s3)), EVV, vector_best in LE5 by (apply (G1 _ _ E1)). specialize (LE1 n). lia.
  Qed.

  Lemma n_best_ge : forall n net i s, nth_error net i = Some s -> (seq_of s n <= n_best hash n net)%N.
  Proof.
    intros n. induction net as [|x net IH]; intros [|i] s E; cbn [nth_error] in E; try discriminate; cbn [n_best fold_right]; fold (n_best hash n net).
    - inversion E; subst. lia.
    - specialize (IH _ _ E). lia.
  Qed.
  Lemma n_best_le : forall n net M, (forall i s, nth_error net i = Some s -> (seq_of s n <= M)%N) -> (n_best hash n net <= M)%N.
  Proof.
    intros n. induction net as [|x net IH]; intros M H; cbn [n_best fold_right]; [lia|]. fold (n_best hash n net). specialize (IH M (fun i => H (S i))). specialize (H O x eq_refl). lia.
  Qed.

  Theorem converges : forall k os1 net os2 net2,
    n_run hash (repeat svs_new k) os1 net -> n_no_wrap hash (repeat svs_new k) os1 ->
    n_run hash net os2 net2 -> no_publication os2 ->
    (forall i j, (i < k)%nat -> (j < k)%nat -> i <> j -> reaches hash net os2 j i) ->
    forall i s, nth_error net2 i = Some s -> forall n, seq_of s n = n_best hash n net.
  Proof.
    intros k os1 net os2 net2 R1 W R2 NP RE i s E n.
    assert (LEN : forall a os b, n_run hash a os b -> forall i, (exists s, nth_error b i = Some s) -> exists s, nth_error a i = Some s).
    { intros a os b H. induction H as [|a o n1 os b S R IH]; intros j X; [auto|]. destruct (IH j X) as [x Ex]. eapply n_step_back; eauto. }
    assert (G : n_good net).
    { eapply n_run_good; [exact R1|auto|]. intros j x Ex. apply nth_error_In in Ex. apply repeat_spec in Ex. subst. apply good_new. }
    destruct (quiet_run _ _ _ R2 NP G) as (_ & U & M).
    assert (LT : forall j x, nth_error net j = Some x -> (j < k)%nat).
    { intros j x Ex. destruct (LEN _ _ _ R1 j (ex_intro _ _ Ex)) as [y Ey]. rewrite <- (repeat_length svs_new k). apply nth_error_Some. congruence. }
    apply N.le_antisymm.
    - eapply U; [|exact E]. intros j x Ex. apply n_best_ge with (i := j). auto.
    - destruct (LEN _ _ _ R2 i (ex_intro _ _ E)) as [si Ei]. apply n_best_le. intros j x Ex. destruct (Nat.eqb_spec i j) as [->|NE].
      + destruct (M _ _ Ex) as (y & Ey & LE & _). rewrite E in Ey. inversion Ey; subst. apply LE.
      + exact (reach_ge net os2 net2 i j n G R2 NP (RE i j (LT _ _ Ei) (LT _ _ Ex) NE) s x E Ex).
  Qed.

  Lemma no_wrap_cons : forall net o net1 os, n_step hash net o net1 -> n_safe net o -> n_no_wrap hash net1 os -> n_no_wrap hash net (o :: os).
  Proof.
    intros net o net1 os S W H pre i m post net' E R s Es. destruct pre as [|o' pre]; cbn [app] in E; inversion E; subst.
    - inversion R; subst. eapply W; eauto.
    - inversion R as [|x1 x2 n1 x4 x5 S1 R1]; subst. assert (n1 = net1) by (eapply n_step_det; eauto). subst n1. eapply H; eauto.
  Qed.
  Lemma no_wrap_nil : forall net, n_no_wrap hash net [].
  Proof. intros net pre i m post net' E. destruct pre; discriminate E. Qed.
End Proofs.
