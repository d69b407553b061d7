From Coq Require Import Permutation.
From Verif Require Import Base BaseProofs HeapModel HeapProofs HeapSpec.

Section HP2.
Variables (V P : Type) (ltb : P -> P -> bool).
Hypothesis WO : weak_order ltb.
Notation queue := (queue V P).
Notation entry := (entry V P).

Definition holds (q : queue) (k : nat) (e : entry) : Prop :=
  e_id e = k /\ q_obj q k = Some (e_obj e) /\ q_pri q k = Some (e_pri e).

Definition Abs (q : queue) (L : list entry) : Prop := Forall2 (holds q) (q_list q) L.

Notation good := (good V P ltb).

Lemma abs_exists : forall q : queue, good q -> exists L, Abs q L.
Proof.
  intros q [(_ & B & _) _]. unfold Abs.
  assert (H : forall l, (forall k, In k l -> In k (q_list q)) -> exists L, Forall2 (holds q) l L).
  { induction l as [|k l IH]; intros H; [exists []; constructor|].
    destruct IH as (L & HL); [intros; apply H; right; auto|].
    destruct (B k) as (_ & (v & Hv) & (p & Hp)); [apply H; left; auto|].
    exists ((k, v, p) :: L). constructor; auto. split; auto. }
  apply H; auto.
Qed.

Lemma f2_len : forall {A B} (R : A -> B -> Prop) l m, Forall2 R l m -> length l = length m.
Proof. induction 1; simpl; auto. Qed.

Lemma f2_nth : forall {A B} (R : A -> B -> Prop) l m, Forall2 R l m -> forall i x, nth_error l i = Some x ->
  exists y, nth_error m i = Some y /\ R x y.
Proof. induction 1; intros [|i] z E; simpl in *; try discriminate; eauto. inversion E; subst; eauto. Qed.

Lemma abs_ids : forall (q : queue) l L, Forall2 (holds q) l L -> map e_id L = l.
Proof. induction 1 as [|k e l L [E _] _ IH]; simpl; auto. congruence. Qed.

Lemma holds_fun : forall (q : queue) k e e', holds q k e -> holds q k e' -> e = e'.
Proof.
  intros q k [[i v] p] [[i' v'] p'] (A & B & C) (A' & B' & C'). unfold e_id, e_obj, e_pri in *. simpl in *. congruence.
Qed.

Lemma f2_perm : forall {A B} (R : A -> B -> Prop) l l', Permutation l l' -> forall m, Forall2 R l m ->
  exists m', Forall2 R l' m' /\ Permutation m m'.
Proof.
  induction 1; intros m F.
  - inversion F; subst. exists []. auto.
  - inversion F; subst. destruct (IHPermutation _ H4) as (m' & F' & P'). exists (y :: m'). auto.
  - inversion F; subst. inversion H3; subst. exists (y1 :: y0 :: l'0). split; auto. constructor.
  - destruct (IHPermutation1 _ F) as (m1 & F1 & P1). destruct (IHPermutation2 _ F1) as (m2 & F2 & P2).
    exists m2. split; auto. eapply Permutation_trans; eauto.
Qed.

Lemma f2_fun : forall {A B} (R : A -> B -> Prop), (forall a b c, R a b -> R a c -> b = c) ->
  forall l m m', Forall2 R l m -> Forall2 R l m' -> m = m'.
Proof. intros A B R U l m m' F. revert m'. induction F; intros m' F'; inversion F'; subst; auto. f_equal; eauto. Qed.

(** entries as found through two queues agree when the fields of the items do *)
Lemma abs_perm : forall (q q' : queue) l L L', Permutation (q_list q') l -> Abs q' L' -> Forall2 (holds q') l L -> Permutation L' L.
Proof.
  intros q q' l L L' PM A F. destruct (f2_perm _ _ _ PM _ A) as (m & Fm & Pm).
  assert (m = L) by (eapply f2_fun; eauto using holds_fun). subst; auto.
Qed.

Lemma f2_impl : forall {A B} (R S : A -> B -> Prop) l m, (forall a b, In a l -> R a b -> S a b) -> Forall2 R l m -> Forall2 S l m.
Proof. intros A B R S l m H F. induction F; constructor; auto. - apply H; auto. left; auto. - apply IHF. intros; apply H; auto. right; auto. Qed.

Lemma nodup_ids : forall q L, good q -> Abs q L -> NoDup (map e_id L).
Proof. intros q L [(A & _) _] F. rewrite (abs_ids _ _ _ F). auto. Qed.

Lemma peek_minimal : forall q L, good q -> Abs q L -> L <> [] ->
  exists e, q_peek q = Ok (e_id e) /\ q_obj q (e_id e) = Some (e_obj e) /\ q_pri q (e_id e) = Some (e_pri e) /\ minimal ltb e L /\
    nth_error L 0 = Some e.
Proof.
  intros q L G A NE. pose proof G as [W HP]. unfold q_peek.
  destruct (q_list q) as [|k l] eqn:EL; [unfold Abs in A; rewrite EL in A; inversion A; congruence|].
  pose proof A as A'. unfold Abs in A'. rewrite EL in A'. inversion A' as [|k' e l' L' (H1 & H2 & H3) HL]; subst. clear A'.
  exists e. simpl. split; auto. split; auto. split; auto. split; auto. split; [left; auto|].
  intros x I. apply In_nth_error in I. destruct I as (i & I).
  assert (LT : (i < len V P q)%nat).
  { unfold len. rewrite (f2_len _ _ _ A). apply nth_error_Some. congruence. }
  destruct WO as [O1 O2]. pose proof (heap_min V P ltb O1 O2 q i G LT) as M. unfold lea in M. rewrite less_pri in M.
  unfold pri_at in M. unfold len in LT.
  destruct (nth_error (q_list q) i) as [k|] eqn:Ek; [|apply nth_error_None in Ek; lia].
  destruct (f2_nth _ _ _ A i k Ek) as (y & Ey & (Q1 & Q2 & Q3)). rewrite I in Ey. inversion Ey; subst y.
  rewrite EL in M. simpl in M. rewrite Q3, H3 in M. auto.
Qed.

Lemma step_refines : forall q o L, good q -> Abs q L ->
  (o = OPop /\ L = [] /\ q_step ltb q o = Panic) \/
  exists q' r L', q_step ltb q o = Ok (q', r) /\ good q' /\ Abs q' L' /\ spec_step ltb L o r L'.
Proof.
  destruct WO as [O1 O2].
  intros q o L G A. pose proof (abs_ids _ _ _ A) as IDS. destruct o as [v p| |i v p]; cbn [q_step].
  - right. destruct (push_ok V P ltb O1 O2 q v p G) as (q' & i & E & G' & PM & FO & FP & NX & I0 & NI).
    rewrite E. cbn [bind fst snd]. destruct (abs_exists q' G') as (L' & A').
    exists q', (RIndex i), L'. split; auto. split; auto. split; auto.
    assert (FR : forall k, In k (q_list q) -> k <> q_next q).
    { intros k I. destruct G as [(_ & B & _) _]. apply B in I. lia. }
    assert (F : Forall2 (holds q') (q_next q :: q_list q) ((q_next q, v, p) :: L)).
    { constructor.
      - unfold holds. rewrite FO, FP, !fset_eq. auto.
      - eapply f2_impl; [|exact A]. intros k e I (H1 & H2 & H3). unfold holds. rewrite FO, FP, !fset_neq by auto. auto. }
    apply SPush with (q_next q); auto.
    + rewrite IDS. intros I. exact (FR _ I eq_refl).
    + eapply abs_perm; eauto.
    + destruct (f2_nth _ _ _ A' _ _ NI) as (y & Ey & Hy). etransitivity; [exact Ey|]. f_equal.
      eapply holds_fun; [exact Hy|]. inversion F; auto.
  - destruct (q_list q) as [|k0 l0] eqn:EL.
    { left. assert (L = []) by (unfold Abs in A; rewrite EL in A; inversion A; auto). split; auto. split; auto.
      unfold q_pop. rewrite EL. reflexivity. }
    right. destruct (pop_ok V P ltb O1 O2 q G) as (q' & k & E & G' & PM & FO & FP & NX & N0); [congruence|].
    rewrite E. cbn [bind fst snd]. 
    assert (LN : L <> []) by (intros ->; unfold Abs in A; rewrite EL in A; inversion A).
    destruct (peek_minimal q L G A LN) as (e & PK & PO & PP & MI & _).
    unfold q_peek in PK. rewrite N0 in PK. inversion PK; subst k.
    destruct (abs_exists q' G') as (L' & A').
    exists q', (RObj (Some (e_obj e))), L'. rewrite PO. split; auto. split; auto. split; auto.
    apply SPop; auto. apply (abs_perm q q (e_id e :: q_list q')); auto.
    constructor. { split; auto. }
    eapply f2_impl; [|exact A']. intros k x I (H1 & H2 & H3). rewrite FO in H2. rewrite FP in H3. split; auto.
  - right. destruct (Z.ltb i 0 || Z.leb (zlen (q_list q)) i)%bool eqn:R.
    + exists q, (RIndex (-1)), L. unfold q_update. rewrite R. cbn [bind fst snd]. split; auto. split; auto. split; auto.
      apply SNoUpdate. unfold in_range. unfold zlen in *. rewrite <- (f2_len _ _ _ A).
      apply Bool.orb_true_iff in R. destruct R as [R|R]; [apply Z.ltb_lt in R|apply Z.leb_le in R]; lia.
    + apply Bool.orb_false_iff in R. destruct R as [R1 R2]. apply Z.ltb_ge in R1. apply Z.leb_gt in R2.
      destruct (update_ok V P ltb O1 O2 q i v p G) as (q' & j & k & E & G' & NK & PM & FO & FP & NX & J0 & NJ); [lia|].
      rewrite E. cbn [bind fst snd]. destruct (abs_exists q' G') as (L' & A').
      destruct (f2_nth _ _ _ A _ _ NK) as (e & NE & HE). pose proof HE as (EID & _).
      pose proof NE as NE'. apply nth_error_split in NE'. destruct NE' as (a & b & EQ & LA).
      exists q', (RIndex j), L'. split; auto. split; auto. split; auto.
      assert (HN : holds q' k (e_id e, v, p)).
      { unfold holds. rewrite FO, FP, !fset_eq. auto. }
      apply SUpdate with a e b; auto.
      * unfold in_range. unfold zlen in *. rewrite <- (f2_len _ _ _ A). lia.
      * apply (abs_perm q q' (q_list q)); auto.
        apply nth_error_split in NK. destruct NK as (la & lb & EK & LK). rewrite EK.
        pose proof A as A2. unfold Abs in A2. rewrite EK, EQ in A2.
        assert (ND : NoDup (la ++ k :: lb)) by (rewrite <- EK; destruct G as [(ND & _) _]; auto).
        apply Forall2_app_inv_l in A2. destruct A2 as (ma & mb & Fa & Fb & EM).
        assert (length ma = length a) by (rewrite <- (f2_len _ _ _ Fa); lia).
        assert (ma = a /\ mb = e :: b).
        { clear -EM H. revert ma EM H. induction a; destruct ma; simpl; intros; try discriminate; auto.
          inversion EM; subst. destruct (IHa ma) as [-> ->]; auto. }
        destruct H0 as [-> ->]. inversion Fb as [|? ? ? ? _ Fb']; subst.
        apply NoDup_remove_2 in ND.
        assert (OK : forall x l m, (forall y, In y l -> In y (la ++ lb)) -> Forall2 (holds q) l m -> x = l -> Forall2 (holds q') l m).
        { intros x l m HS F _. eapply f2_impl; [|exact F]. intros z w I (H1 & H2 & H3).
          assert (z <> e_id e) by (intros ->; apply ND; apply HS; auto).
          unfold holds. rewrite FO, FP, !fset_neq by auto. auto. }
        apply Forall2_app; [eapply OK; eauto; intros; apply in_or_app; auto|].
        constructor; auto. eapply OK; eauto. intros; apply in_or_app; auto.
      * destruct (f2_nth _ _ _ A' _ _ NJ) as (y & Ey & Hy). etransitivity; [exact Ey|]. f_equal. eapply holds_fun; eauto.
Qed.

Lemma run_refines : forall ops q L, good q -> Abs q L -> forall q' outs, q_run ltb q ops = Ok (q', outs) ->
  exists L', good q' /\ Abs q' L' /\ spec_run ltb L ops outs L'.
Proof.
  induction ops as [|o ops IH]; intros q L G A q' outs E; cbn [q_run] in E.
  - inversion E; subst. exists L. split; auto. split; auto. constructor.
  - destruct (step_refines q o L G A) as [(-> & -> & S)|(q1 & r & L1 & S & G1 & A1 & SP)]; rewrite S in E; cbn [bind] in E; [discriminate|].
    cbn [fst] in E. destruct (q_run ltb q1 ops) as [[q2 rs]| | |] eqn:R; cbn [bind] in E; try discriminate. inversion E; subst.
    destruct (IH q1 L1 G1 A1 _ _ R) as (L' & G' & A' & SR). exists L'. split; auto. split; auto. econstructor; eauto.
Qed.

Lemma run_total : forall ops q L, good q -> Abs q L ->
  match q_run ltb q ops with
  | Ok _ => True
  | Panic => exists pre post q1 outs, ops = pre ++ OPop :: post /\ q_run ltb q pre = Ok (q1, outs) /\ q_len q1 = 0%Z
  | _ => False
  end.
Proof.
  induction ops as [|o ops IH]; intros q L G A; cbn [q_run]; auto.
  destruct (step_refines q o L G A) as [(-> & -> & S)|(q1 & r & L1 & S & G1 & A1 & SP)]; rewrite S; cbn [bind fst snd].
  - exists [], ops, q, []. split; auto. split; auto. unfold q_len, zlen. rewrite (f2_len _ _ _ A). auto.
  - specialize (IH q1 L1 G1 A1). destruct (q_run ltb q1 ops) as [[q2 rs]| | |] eqn:R; cbn [bind]; auto.
    destruct IH as (pre & post & q3 & outs & -> & R3 & LZ). exists (o :: pre), post, q3, (r :: outs).
    split; auto. split; auto. cbn [q_run]. rewrite S. cbn [bind fst snd]. rewrite R3. reflexivity.
Qed.

Lemma new_good : good q_new.
Proof.
  split; [|intros k H; unfold len in H; simpl in H; lia].
  split; [constructor|]. split; [intros k []|]. intros [|i] k E; discriminate.
Qed.

Lemma new_abs : Abs q_new [].
Proof. constructor. Qed.

Theorem c23_history : forall ops (q : queue) outs, q_run ltb q_new ops = Ok (q, outs) ->
  exists L, spec_run ltb [] ops outs L /\ NoDup (map e_id L) /\ q_len q = zlen L /\
    match L with
    | [] => q_peek q = Panic
    | _ => exists e, minimal ltb e L /\ q_peek q = Ok (e_id e) /\
                     q_obj q (e_id e) = Some (e_obj e) /\ q_pri q (e_id e) = Some (e_pri e)
    end.
Proof.
  intros ops q outs E. destruct (run_refines ops q_new [] new_good new_abs _ _ E) as (L & G & A & S).
  exists L. split; auto. split; [eapply nodup_ids; eauto|]. split; [unfold q_len, zlen; rewrite (f2_len _ _ _ A); auto|].
  destruct L as [|x L]; [|destruct (peek_minimal q (x :: L) G A) as (e & ? & ? & ? & ? & _); [discriminate|eauto 6]].
  unfold q_peek. unfold Abs in A. inversion A. reflexivity.
Qed.

Theorem c23_total : forall ops : list (qop V P),
  match q_run ltb q_new ops with
  | Ok _ => True
  | Panic => exists pre post (q : queue) outs, ops = pre ++ OPop :: post /\ q_run ltb q_new pre = Ok (q, outs) /\ q_len q = 0%Z
  | _ => False
  end.
Proof. intros. apply run_total with []; [apply new_good|apply new_abs]. Qed.

End HP2.
