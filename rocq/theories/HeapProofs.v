From Coq Require Import Permutation.
From Verif Require Import Base BaseProofs HeapModel.

Lemma set_nth_length : forall {A} (l : list A) i x, length (set_nth l i x) = length l.
Proof. induction l; destruct i; simpl; auto. Qed.

Lemma nth_set_nth : forall {A} (l : list A) i x k, (i < length l)%nat ->
  nth_error (set_nth l i x) k = if Nat.eqb k i then Some x else nth_error l k.
Proof.
  induction l as [|a l IH]; intros i x k H; simpl in H; [lia|].
  destruct i, k; simpl; auto. apply IH. lia.
Qed.

Lemma nth_error_ext : forall {A} (l m : list A), (forall i, nth_error l i = nth_error m i) -> l = m.
Proof.
  induction l as [|a l IH]; destruct m as [|b m]; intros H; auto.
  - specialize (H O). discriminate.
  - specialize (H O). discriminate.
  - f_equal. specialize (H O). simpl in H. congruence. apply IH. intros i. apply (H (S i)).
Qed.

Lemma set_nth_split : forall {A} (a : list A) x b y, set_nth (a ++ x :: b) (length a) y = a ++ y :: b.
Proof. induction a; intros; simpl; auto. f_equal. auto. Qed.

Lemma swap_perm : forall {A} (l : list A) i j x y, nth_error l i = Some x -> nth_error l j = Some y ->
  Permutation l (set_nth (set_nth l i y) j x).
Proof.
  intros A l i j x y Hi Hj.
  destruct (Nat.lt_trichotomy i j) as [L|[L|L]].
  - apply nth_error_split in Hi. destruct Hi as (a & b & -> & <-).
    rewrite nth_error_app2 in Hj by lia. replace (j - length a)%nat with (S (j - length a - 1)) in Hj by lia. simpl in Hj.
    apply nth_error_split in Hj. destruct Hj as (c & d & -> & Lc).
    rewrite set_nth_split. replace j with (length (a ++ y :: c)) by (rewrite app_length; simpl; lia).
    replace (a ++ y :: c ++ y :: d) with ((a ++ y :: c) ++ y :: d) by (rewrite <- app_assoc; reflexivity).
    rewrite set_nth_split. rewrite <- app_assoc. apply Permutation_app_head. simpl.
    transitivity (y :: x :: c ++ d).
    + rewrite perm_swap. apply perm_skip. symmetry. apply Permutation_middle.
    + apply perm_skip. apply Permutation_middle.
  - subst j. assert (x = y) by congruence. subst y.
    assert (H : (i < length l)%nat) by (apply nth_error_Some; congruence).
    replace (set_nth (set_nth l i x) i x) with l; auto.
    apply nth_error_ext. intros k. rewrite !nth_set_nth by (rewrite ?set_nth_length; auto).
    destruct (Nat.eqb_spec k i); subst; auto.
  - apply nth_error_split in Hj. destruct Hj as (a & b & -> & <-).
    rewrite nth_error_app2 in Hi by lia. replace (i - length a)%nat with (S (i - length a - 1)) in Hi by lia. simpl in Hi.
    apply nth_error_split in Hi. destruct Hi as (c & d & -> & Lc).
    replace i with (length (a ++ y :: c)) by (rewrite app_length; simpl; lia).
    replace (a ++ y :: c ++ x :: d) with ((a ++ y :: c) ++ x :: d) by (rewrite <- app_assoc; reflexivity).
    rewrite set_nth_split. replace ((a ++ y :: c) ++ y :: d) with (a ++ y :: (c ++ y :: d)) by (rewrite <- app_assoc; reflexivity).
    rewrite set_nth_split, <- app_assoc. apply Permutation_app_head. simpl.
    transitivity (x :: y :: c ++ d).
    + rewrite perm_swap. apply perm_skip. symmetry. apply Permutation_middle.
    + apply perm_skip. apply Permutation_middle.
Qed.

Lemma set_nth_map_perm : forall {A} (l : list A) i x, (i < length l)%nat -> 
  exists a b y, l = a ++ y :: b /\ length a = i /\ set_nth l i x = a ++ x :: b.
Proof.
  intros A l i x H. destruct (nth_error l i) as [y|] eqn:E; [|apply nth_error_None in E; lia].
  apply nth_error_split in E. destruct E as (a & b & -> & <-). exists a, b, y. split; auto. split; auto. apply set_nth_split.
Qed.

Section HeapProofs.
Variables (V P : Type) (ltb : P -> P -> bool).
Hypothesis ltb_asym : forall x y, ltb x y = true -> ltb y x = false.
Hypothesis le_trans : forall x y z, ltb y x = false -> ltb z y = false -> ltb z x = false.
Notation queue := (queue V P).
Notation q_less := (q_less ltb).
Notation h_up := (h_up ltb).
Notation h_down_loop := (h_down_loop ltb).
Notation h_down := (h_down ltb).
Notation h_fix := (h_fix ltb).
Notation q_push := (q_push ltb).
Notation q_pop := (q_pop ltb).
Notation q_update := (q_update ltb).

Definition len (q : queue) : nat := length (q_list q).

(** pointers distinct and allocated, their index fields are their positions *)
Definition WF (q : queue) : Prop :=
  NoDup (q_list q) /\
  (forall k, In k (q_list q) -> (k < q_next q)%nat /\ (exists v, q_obj q k = Some v) /\ (exists p, q_pri q k = Some p)) /\
  (forall i k, nth_error (q_list q) i = Some k -> q_idx q k = Z.of_nat i).

Definition pri_at (q : queue) (i : nat) : option P :=
  match nth_error (q_list q) i with Some k => q_pri q k | None => None end.

Lemma less_pri : forall (q : queue) i j, q_less q i j =
  match pri_at q i, pri_at q j with Some x, Some y => ltb x y | _, _ => false end.
Proof.
  intros. unfold HeapModel.q_less, pri_at.
  destruct (nth_error (q_list q) i) as [a|]; [|reflexivity].
  destruct (nth_error (q_list q) j) as [b|]; [reflexivity|]. destruct (q_pri q a); reflexivity.
Qed.

Lemma wf_pri : forall (q : queue) i, WF q -> (i < len q)%nat -> exists x, pri_at q i = Some x.
Proof.
  intros q i (_ & W & _) H. unfold pri_at. unfold len in H.
  destruct (nth_error (q_list q) i) as [k|] eqn:E; [|apply nth_error_None in E; lia].
  apply nth_error_In in E. apply W in E. tauto.
Qed.

(** priorities: position i is at most position j *)
Definition lea (q : queue) (i j : nat) : Prop := q_less q j i = false.

Lemma lea_trans : forall (q : queue) i j k, WF q -> (j < len q)%nat -> lea q i j -> lea q j k -> lea q i k.
Proof.
  unfold lea. intros q i j k W H. rewrite !less_pri. destruct (wf_pri q j W H) as (y & ->).
  destruct (pri_at q i), (pri_at q k); auto. intros. eapply le_trans; eauto.
Qed.

Lemma less_lea : forall (q : queue) i j, q_less q i j = true -> lea q i j.
Proof.
  unfold lea. intros q i j. rewrite !less_pri. destruct (pri_at q i), (pri_at q j); auto.
Qed.

Lemma lea_refl : forall (q : queue) i, lea q i i.
Proof.
  unfold lea. intros. rewrite less_pri. destruct (pri_at q i) as [p|]; auto. destruct (ltb p p) eqn:E; auto.
  apply ltb_asym in E as E2. congruence.
Qed.

(** ** Swap *)
Lemma swap_len : forall (q : queue) i j, len (q_swap q i j) = len q.
Proof.
  intros. unfold q_swap, len. destruct (nth_error (q_list q) i), (nth_error (q_list q) j); auto.
  simpl. rewrite !set_nth_length. auto.
Qed.

Lemma swap_nth : forall (q : queue) i j k, (i < len q)%nat -> (j < len q)%nat ->
  nth_error (q_list (q_swap q i j)) k =
  if Nat.eqb k j then nth_error (q_list q) i else if Nat.eqb k i then nth_error (q_list q) j else nth_error (q_list q) k.
Proof.
  unfold len. intros q i j k Hi Hj. unfold q_swap.
  destruct (nth_error (q_list q) i) as [a|] eqn:Ei; [|apply nth_error_None in Ei; lia].
  destruct (nth_error (q_list q) j) as [b|] eqn:Ej; [|apply nth_error_None in Ej; lia].
  simpl. rewrite nth_set_nth by (rewrite set_nth_length; auto).
  destruct (Nat.eqb_spec k j); auto. rewrite nth_set_nth by auto. destruct (Nat.eqb_spec k i); auto.
Qed.

Lemma swap_fields : forall (q : queue) i j, q_obj (q_swap q i j) = q_obj q /\ q_pri (q_swap q i j) = q_pri q /\ q_next (q_swap q i j) = q_next q.
Proof. intros. unfold q_swap. destruct (nth_error (q_list q) i), (nth_error (q_list q) j); auto. Qed.

Lemma swap_pri_at : forall (q : queue) i j k, (i < len q)%nat -> (j < len q)%nat ->
  pri_at (q_swap q i j) k = if Nat.eqb k j then pri_at q i else if Nat.eqb k i then pri_at q j else pri_at q k.
Proof.
  intros. unfold pri_at. rewrite swap_nth by auto. destruct (swap_fields q i j) as (_ & -> & _).
  destruct (Nat.eqb k j); auto. destruct (Nat.eqb k i); auto.
Qed.

Lemma swap_perm_list : forall (q : queue) i j, Permutation (q_list q) (q_list (q_swap q i j)).
Proof.
  intros. unfold q_swap. destruct (nth_error (q_list q) i) eqn:Ei, (nth_error (q_list q) j) eqn:Ej; auto.
  simpl. apply swap_perm; auto.
Qed.

Lemma swap_wf : forall (q : queue) i j, (i < len q)%nat -> (j < len q)%nat -> i <> j -> WF q -> WF (q_swap q i j).
Proof.
  intros q i j Hi Hj N (W1 & W2 & W3). destruct (swap_fields q i j) as (F1 & F2 & F3).
  pose proof (swap_perm_list q i j) as PM. split; [|split].
  - eapply Permutation_NoDup; eauto.
  - intros k I. rewrite F1, F2, F3. apply W2. eapply Permutation_in; [symmetry; eauto|auto].
  - intros k a E. rewrite swap_nth in E by auto. unfold q_swap. unfold len in *.
    destruct (nth_error (q_list q) i) as [x|] eqn:Ei; [|apply nth_error_None in Ei; lia].
    destruct (nth_error (q_list q) j) as [y|] eqn:Ej; [|apply nth_error_None in Ej; lia].
    simpl. unfold fset.
    assert (UNQ : forall m n z, nth_error (q_list q) m = Some z -> nth_error (q_list q) n = Some z -> m = n).
    { intros m n z E1 E2. apply W3 in E1. apply W3 in E2. lia. }
    destruct (Nat.eqb_spec k j).
    + inversion E; subst a. rewrite Nat.eqb_refl. congruence.
    + destruct (Nat.eqb_spec k i).
      * inversion E; subst a. destruct (Nat.eqb_spec y x) as [->|]; [exfalso; apply N; eapply UNQ; eauto|].
        rewrite Nat.eqb_refl. congruence.
      * destruct (Nat.eqb_spec a x) as [->|]; [exfalso; eauto|].
        destruct (Nat.eqb_spec a y) as [->|]; [exfalso; eauto|]. auto.
Qed.

(** a heap operation only permutes the slice *)
Definition permuted (q q' : queue) : Prop :=
  Permutation (q_list q) (q_list q') /\ q_obj q' = q_obj q /\ q_pri q' = q_pri q /\ q_next q' = q_next q.

Lemma permuted_refl : forall (q : queue), permuted q q.
Proof. repeat split; auto. Qed.
Lemma permuted_trans : forall (a b c : queue), permuted a b -> permuted b c -> permuted a c.
Proof. intros a b c (A1 & A2 & A3 & A4) (B1 & B2 & B3 & B4). repeat split; try congruence. eapply Permutation_trans; eauto. Qed.
Lemma swap_permuted : forall (q : queue) i j, permuted q (q_swap q i j).
Proof. intros. destruct (swap_fields q i j) as (A & B & C). repeat split; auto. apply swap_perm_list. Qed.
Lemma permuted_len : forall (q q' : queue), permuted q q' -> len q' = len q.
Proof. intros q q' (A & _). unfold len. symmetry. apply Permutation_length; auto. Qed.

(** ** the heap *)
Definition par (j : nat) : nat := ((j - 1) / 2)%nat.

Lemma par_lt : forall j, (0 < j)%nat -> (par j < j)%nat.
Proof. intros. unfold par. apply Nat.div_lt_upper_bound; lia. Qed.

Lemma par_children : forall k i, (0 < k)%nat -> par k = i <-> k = (2 * i + 1)%nat \/ k = (2 * i + 2)%nat.
Proof.
  intros k i H. unfold par. split.
  - intros E. pose proof (Nat.div_mod (k - 1) 2). assert ((k - 1) mod 2 < 2)%nat by (apply Nat.mod_upper_bound; lia). lia.
  - intros [->| ->].
    + replace (2 * i + 1 - 1)%nat with (i * 2)%nat by lia. apply Nat.div_mul. lia.
    + replace (2 * i + 2 - 1)%nat with (1 + i * 2)%nat by lia. rewrite Nat.div_add by lia. reflexivity.
Qed.

Definition heap_ok (q : queue) (n : nat) : Prop := forall k, (0 < k < n)%nat -> lea q (par k) k.

(** ordered except around position i *)
Definition Hole (q : queue) (n i : nat) : Prop :=
  (forall k, (0 < k < n)%nat -> k <> i -> par k <> i -> lea q (par k) k) /\
  (forall k, (0 < k < n)%nat -> par k = i -> (0 < i)%nat -> lea q (par i) k).

Definition kids_ok (q : queue) (n i : nat) : Prop := forall k, (0 < k < n)%nat -> par k = i -> lea q i k.

Lemma lea_swap : forall (q : queue) i j a b, (i < len q)%nat -> (j < len q)%nat ->
  lea (q_swap q i j) a b <->
  lea q (if Nat.eqb a j then i else if Nat.eqb a i then j else a) (if Nat.eqb b j then i else if Nat.eqb b i then j else b).
Proof.
  intros. unfold lea. rewrite !less_pri, !swap_pri_at by auto.
  destruct (Nat.eqb a j), (Nat.eqb a i), (Nat.eqb b j), (Nat.eqb b i); tauto.
Qed.

Lemma up_ok : forall fuel q j n, WF q -> (n <= len q)%nat -> (j < n)%nat -> Hole q n j -> kids_ok q n j -> (j + 1 < fuel)%nat ->
  exists q', h_up fuel q j = Ok q' /\ WF q' /\ permuted q q' /\ heap_ok q' n /\
    (forall k, (n <= k)%nat -> nth_error (q_list q') k = nth_error (q_list q) k).
Proof.
  induction fuel; intros q j n W NL J [H1 H2] K F; [lia|]. cbn [HeapModel.h_up]. fold (par j).
  destruct (Nat.eqb_spec (par j) j) as [E|E].
  - assert (j = 0)%nat by (destruct j; auto; pose proof (par_lt (S j)); lia). subst j.
    exists q. split; [reflexivity|]. split; auto. split; [apply permuted_refl|]. split; auto.
    intros k Hk. destruct (Nat.eq_dec (par k) 0) as [E0|E0]; [rewrite E0; apply K; auto|]. apply H1; auto. lia.
  - assert (J0 : (0 < j)%nat) by (destruct j; [exfalso; apply E; reflexivity|lia]).
    pose proof (par_lt j J0) as PL. set (i := par j) in *. cbn [orb].
    destruct (q_less q j i) eqn:L; cbn [negb].
    + assert (Hi : (i < len q)%nat) by lia. assert (Hj : (j < len q)%nat) by lia.
      pose proof (less_lea _ _ _ L) as LE.
      destruct (IHfuel (q_swap q i j) i n) as (q' & E' & W' & P' & HP' & T').
      * apply swap_wf; auto.
      * rewrite swap_len; auto.
      * lia.
      * split.
        { intros k Hk Ni Np. apply lea_swap; auto.
          destruct (Nat.eqb_spec k j) as [->|Nj]; [exfalso; apply Np; reflexivity|].
          destruct (Nat.eqb_spec (par k) j) as [Pj|Pj].
          - destruct (Nat.eqb_spec k i); [congruence|]. apply H2; auto.
          - destruct (Nat.eqb_spec (par k) i); [congruence|]. destruct (Nat.eqb_spec k i); [congruence|]. apply H1; auto. }
        { intros k Hk Pk I0. pose proof (par_lt i I0). apply lea_swap; auto.
          destruct (Nat.eqb_spec (par i) j); [lia|]. destruct (Nat.eqb_spec (par i) i); [lia|].
          assert (LI : lea q (par i) i) by (apply H1; lia).
          destruct (Nat.eqb_spec k j) as [->|Nj]; auto.
          destruct (Nat.eqb_spec k i) as [->|Nki]; [lia|].
          apply lea_trans with i; auto. rewrite <- Pk. apply H1; auto. rewrite Pk; auto. }
      * intros k Hk Pk. apply lea_swap; auto. 
        destruct (Nat.eqb_spec i j); [lia|]. rewrite Nat.eqb_refl.
        destruct (Nat.eqb_spec k j) as [->|Nj]; auto.
        destruct (Nat.eqb_spec k i) as [->|Nki]; [pose proof (par_lt i); lia|].
        apply lea_trans with i; auto. rewrite <- Pk. apply H1; auto. rewrite Pk; auto.
      * lia.
      * exists q'. split; auto. split; auto. split; [eapply permuted_trans; [apply swap_permuted|eauto]|]. split; auto.
        intros k Hk. rewrite T' by auto. rewrite swap_nth by auto.
        destruct (Nat.eqb_spec k j); [lia|]. destruct (Nat.eqb_spec k i); [lia|auto].
    + exists q. split; [reflexivity|]. split; auto. split; [apply permuted_refl|]. split; auto.
      intros k Hk. destruct (Nat.eq_dec k j) as [->|Nk]; [exact L|].
      destruct (Nat.eq_dec (par k) j) as [E0|E0]; [rewrite E0; apply K; auto|]. apply H1; auto.
Qed.

Lemma down_ok : forall fuel q i i0 n, WF q -> (n <= len q)%nat -> Hole q n i -> (i0 <= i)%nat ->
  ((i0 < i)%nat -> lea q (par i) i) -> (i < len q)%nat -> (n - i < fuel)%nat ->
  exists q' i', h_down_loop fuel q i n = Ok (q', i') /\ WF q' /\ permuted q q' /\ (i <= i')%nat /\ (i' < len q)%nat /\
    Hole q' n i' /\ kids_ok q' n i' /\ ((i0 < i')%nat -> lea q' (par i') i') /\ (i' = i -> q' = q) /\
    (forall k, (n <= k)%nat -> k <> i -> nth_error (q_list q') k = nth_error (q_list q) k).
Proof.
  induction fuel; intros q i i0 n W NL HO I0 UP IL F; [lia|]. cbn [HeapModel.h_down_loop].
  destruct HO as [H1 H2].
  destruct (Nat.leb_spec n (2 * i + 1)) as [Q|Q].
  { exists q, i. split; [reflexivity|]. split; auto. split; [apply permuted_refl|]. split; auto. split; auto.
    split; [split; auto|]. split; auto. intros k Hk Pk. apply par_children in Pk; lia. }
  set (j := if (2 * i + 1 + 1 <? n)%nat && q_less q (2 * i + 1 + 1) (2 * i + 1) then (2 * i + 1 + 1)%nat else (2 * i + 1)%nat).
  assert (PJ : par j = i /\ (0 < j < n)%nat /\ (i < j)%nat /\ forall k, (0 < k < n)%nat -> par k = i -> lea q j k).
  { assert (C : (j = 2 * i + 1 \/ j = 2 * i + 2)%nat /\ (j < n)%nat).
    { unfold j. destruct (Nat.ltb_spec (2 * i + 1 + 1) n); cbn [andb]; [|lia]. destruct (q_less _ _ _); lia. }
    destruct C as [C CN]. split; [apply par_children; lia|]. split; [lia|]. split; [lia|].
    intros k Hk Pk. apply par_children in Pk; [|lia]. unfold j.
    destruct (Nat.ltb_spec (2 * i + 1 + 1) n); cbn [andb].
    - destruct (q_less q (2 * i + 1 + 1) (2 * i + 1)) eqn:L.
      + destruct Pk as [->| ->]; [apply less_lea; auto|replace (2 * i + 2)%nat with (2 * i + 1 + 1)%nat by lia; apply lea_refl].
      + destruct Pk as [->| ->]; [apply lea_refl|replace (2 * i + 2)%nat with (2 * i + 1 + 1)%nat by lia; exact L].
    - destruct Pk as [->| ->]; [apply lea_refl|lia]. }
  destruct PJ as (PJ & JN & IJ & MIN).
  destruct (q_less q j i) eqn:L; cbn [negb].
  - assert (Hi : (i < len q)%nat) by auto. assert (Hj : (j < len q)%nat) by lia.
    pose proof (less_lea _ _ _ L) as LE.
    destruct (IHfuel (q_swap q i j) j i0 n) as (q' & i' & E' & W' & P' & I' & IL' & HO' & K' & UP' & EQ' & T').
    + apply swap_wf; auto. lia.
    + rewrite swap_len. auto.
    + split.
      * intros k Hk Nj Pk. apply lea_swap; auto.
        destruct (Nat.eqb_spec (par k) j); [congruence|]. destruct (Nat.eqb_spec k j); [congruence|].
        destruct (Nat.eqb_spec (par k) i) as [Pi|Pi].
        { destruct (Nat.eqb_spec k i) as [->|]; [pose proof (par_lt i); lia|]. apply MIN; auto. }
        destruct (Nat.eqb_spec k i) as [->|]; [|apply H1; auto].
        apply H2; auto. lia.
      * intros k Hk Pk J0. apply lea_swap; auto. rewrite PJ.
        destruct (Nat.eqb_spec i j); [lia|]. rewrite Nat.eqb_refl.
        assert (j < k)%nat by (rewrite <- Pk; apply par_lt; lia).
        destruct (Nat.eqb_spec k j); [lia|]. destruct (Nat.eqb_spec k i); [lia|].
        rewrite <- Pk at 1. apply H1; auto; lia.
    + lia.
    + intros _. apply lea_swap; auto. rewrite PJ. destruct (Nat.eqb_spec i j); [lia|]. rewrite !Nat.eqb_refl. auto.
    + rewrite swap_len; auto.
    + lia.
    + exists q', i'. split; auto. split; auto. split; [eapply permuted_trans; [apply swap_permuted|eauto]|].
      split; [lia|]. split; [rewrite swap_len in IL'; auto|]. split; auto. split; auto. split; auto. split; [lia|].
      intros k Hk Ni. rewrite T' by lia. rewrite swap_nth by auto.
      destruct (Nat.eqb_spec k j); [lia|]. destruct (Nat.eqb_spec k i); [lia|auto].
  - exists q, i. split; [reflexivity|]. split; auto. split; [apply permuted_refl|]. split; auto. split; auto.
    split; [split; auto|]. split; auto.
    intros k Hk Pk. apply lea_trans with j; auto. lia.
Qed.

Lemma hole_done : forall (q : queue) n i, Hole q n i -> kids_ok q n i -> ((0 < i)%nat -> lea q (par i) i) -> heap_ok q n.
Proof.
  intros q n i [H1 H2] K U k Hk. destruct (Nat.eq_dec k i) as [->|N]; [apply U; lia|].
  destruct (Nat.eq_dec (par k) i) as [E|E]; [rewrite E; apply K; auto|]. apply H1; auto.
Qed.

(** ** operations *)
Definition good (q : queue) : Prop := WF q /\ heap_ok q (len q).

Lemma fset_eq : forall {A} (f : nat -> A) k a, fset f k a k = a.
Proof. intros. unfold fset. rewrite Nat.eqb_refl. auto. Qed.
Lemma fset_neq : forall {A} (f : nat -> A) k a x, x <> k -> fset f k a x = f x.
Proof. intros. unfold fset. destruct (Nat.eqb_spec x k); congruence. Qed.

Lemma push_ok : forall (q : queue) v p, good q -> exists q' i,
  q_push q v p = Ok (q', i) /\ good q' /\ Permutation (q_list q') (q_next q :: q_list q) /\
  q_obj q' = fset (q_obj q) (q_next q) (Some v) /\ q_pri q' = fset (q_pri q) (q_next q) (Some p) /\
  q_next q' = S (q_next q) /\ (0 <= i)%Z /\ nth_error (q_list q') (Z.to_nat i) = Some (q_next q).
Proof.
  intros q v p [(W1 & W2 & W3) HP]. unfold HeapModel.q_push.
  set (k := q_next q). set (n := length (q_list q)).
  set (q1 := mkQ (q_list q ++ [k]) (fset (q_obj q) k (Some v)) (fset (q_pri q) k (Some p)) (fset (q_idx q) k (Z.of_nat n)) (S k)).
  assert (FR : forall x, In x (q_list q) -> x <> k) by (intros x I; apply W2 in I; unfold k; lia).
  assert (W' : WF q1).
  { split; [|split]; simpl.
    - apply (Permutation_NoDup (l := k :: q_list q)).
      + apply Permutation_cons_append.
      + constructor; auto. intros I. apply (FR k I). auto.
    - intros x I. apply in_app_or in I. destruct I as [I|[<-|[]]].
      + rewrite !fset_neq by auto. destruct (W2 x I) as (? & ? & ?). split; auto.
      + rewrite !fset_eq. split; [lia|]. eauto.
    - intros i x E. destruct (Nat.lt_ge_cases i n) as [L|L].
      + rewrite nth_error_app1 in E by auto. rewrite fset_neq; auto. apply FR. eapply nth_error_In; eauto.
      + rewrite nth_error_app2 in E by auto. destruct (i - length (q_list q))%nat eqn:Q; simpl in E; [|destruct n0; discriminate].
        inversion E; subst. rewrite fset_eq. f_equal. unfold n in *. lia. }
  assert (L1 : len q1 = S n) by (unfold len; simpl; rewrite app_length; simpl; lia).
  assert (PA : forall x, (x < n)%nat -> pri_at q1 x = pri_at q x).
  { intros x Hx. unfold pri_at. simpl. rewrite nth_error_app1 by auto.
    destruct (nth_error (q_list q) x) as [y|] eqn:E; auto. rewrite fset_neq; auto. apply FR. eapply nth_error_In; eauto. }
  destruct (up_ok (S (S n)) q1 n (S n)) as (q2 & E2 & W2' & P2 & HP2 & _); auto; try lia.
  - split.
    + intros x Hx Nn _. unfold lea. rewrite less_pri. pose proof (par_lt x). rewrite !PA by lia.
      rewrite <- less_pri. apply HP. unfold len. unfold n in Hx, Nn. lia.
    + intros x Hx Px N0. pose proof (par_lt x). lia.
  - intros x Hx Px. pose proof (par_lt x). lia.
  - rewrite E2. cbn [bind]. exists q2, (q_idx q2 k). split; auto.
    destruct P2 as (Q1 & Q2 & Q3 & Q4).
    assert (PM : Permutation (q_list q2) (k :: q_list q)).
    { rewrite <- Q1. simpl. symmetry. apply Permutation_cons_append. }
    split; [split; auto; replace (len q2) with (S n); auto; rewrite <- L1; symmetry; unfold len; apply Permutation_length; symmetry; auto|].
    split; auto. split; auto. split; auto. split; auto.
    assert (I : In k (q_list q2)) by (eapply Permutation_in; [symmetry; exact PM|left; auto]).
    apply In_nth_error in I. destruct I as (i & I). destruct W2' as (_ & _ & W3'). rewrite (W3' _ _ I).
    split; [lia|]. rewrite Nat2Z.id. auto.
Qed.

Lemma heap_min : forall (q : queue) i, good q -> (i < len q)%nat -> lea q 0 i.
Proof.
  intros q i [W HP]. induction i as [i IH] using lt_wf_ind. intros H.
  destruct i as [|i]; [apply lea_refl|]. pose proof (par_lt (S i)).
  apply lea_trans with (par (S i)); auto; [lia|apply IH; lia|apply HP; lia].
Qed.

Lemma pop_ok : forall (q : queue), good q -> q_list q <> [] -> exists q' k,
  q_pop q = Ok (q', k) /\ good q' /\ Permutation (q_list q) (k :: q_list q') /\
  q_obj q' = q_obj q /\ q_pri q' = q_pri q /\ q_next q' = q_next q /\ nth_error (q_list q) 0 = Some k.
Proof.
  intros q [W HP] NE. unfold HeapModel.q_pop. destruct (length (q_list q)) as [|n] eqn:LN.
  { apply length_zero_iff_nil in LN. congruence. }
  assert (LQ : len q = S n) by auto.
  assert (HD : exists k, nth_error (q_list q) 0 = Some k) by (destruct (q_list q); [congruence|simpl; eauto]).
  destruct HD as (k0 & HD).
  set (q1 := q_swap q 0 n).
  assert (W1 : WF q1).
  { destruct n; [|apply swap_wf; auto; lia].
    (* swapping position 0 with itself *)
    unfold q1, q_swap. rewrite HD. destruct W as (A & B & C). split; [|split]; simpl.
    - destruct (q_list q) as [|a [|b l]]; simpl in *; try discriminate. inversion HD; subst. auto.
    - destruct (q_list q) as [|a [|b l]]; simpl in *; try discriminate. inversion HD; subst. auto.
    - destruct (q_list q) as [|a [|b l]]; simpl in *; try discriminate. inversion HD; subst.
      intros [|i] x E; simpl in E; [|destruct i; discriminate]. inversion E; subst. rewrite fset_eq. auto. }
  assert (P1 : permuted q q1) by apply swap_permuted.
  assert (L1 : len q1 = S n) by (unfold q1; rewrite swap_len; auto).
  assert (N1 : nth_error (q_list q1) n = Some k0).
  { unfold q1. rewrite swap_nth by lia. rewrite Nat.eqb_refl. auto. }
  unfold HeapModel.h_down.
  destruct (down_ok (S n) q1 0 0 n) as (q2 & i' & E2 & W2 & P2 & I2 & IL2 & HO2 & K2 & U2 & _ & T2); auto; try lia.
  { split; [|lia]. intros k Hk N0 NP. unfold q1. pose proof (par_lt k). apply lea_swap; try lia.
    destruct (Nat.eqb_spec (par k) n); [lia|]. destruct (Nat.eqb_spec (par k) 0); [congruence|].
    destruct (Nat.eqb_spec k n); [lia|]. destruct (Nat.eqb_spec k 0); [lia|]. apply HP. lia. }
  rewrite E2. cbn [bind fst snd].
  assert (N2 : nth_error (q_list q2) n = Some k0).
  { destruct n as [|n].
    - assert (q2 = q1). { cbn [HeapModel.h_down_loop] in E2. simpl in E2. inversion E2; auto. } subst. auto.
    - rewrite T2 by lia. auto. }
  rewrite N2. eexists _, k0. split; [reflexivity|].
  assert (L2 : length (q_list q2) = S n).
  { pose proof (permuted_len _ _ P2). unfold len in *. lia. }
  assert (SP : q_list q2 = firstn n (q_list q2) ++ [k0]).
  { rewrite <- (firstn_skipn n (q_list q2)) at 1. f_equal.
    assert (length (skipn n (q_list q2)) = 1)%nat by (rewrite skipn_length; lia).
    pose proof N2 as N3. rewrite <- (firstn_skipn n (q_list q2)) in N3.
    rewrite nth_error_app2 in N3 by (rewrite firstn_length; lia).
    rewrite firstn_length, L2 in N3. replace (n - Nat.min n (S n))%nat with O in N3 by lia.
    destruct (skipn n (q_list q2)) as [|a [|b l]]; simpl in *; try discriminate. congruence. }
  assert (LF : length (firstn n (q_list q2)) = n) by (rewrite firstn_length; lia).
  assert (HOK : heap_ok q2 n).
  { apply hole_done with i'; auto. }
  destruct W2 as (A & B & C).
  assert (K0 : ~ In k0 (firstn n (q_list q2))).
  { rewrite SP in A. apply NoDup_remove_2 in A. rewrite app_nil_r in A. auto. }
  split; [split|].
  - split; [|split]; simpl.
    + rewrite SP in A. apply NoDup_remove_1 in A. rewrite app_nil_r in A. auto.
    + intros k I. apply B. rewrite SP. apply in_or_app. auto.
    + intros i k E. rewrite fset_neq.
      * apply C. rewrite SP. rewrite nth_error_app1; auto. apply nth_error_Some. congruence.
      * intros ->. apply K0. eapply nth_error_In; eauto.
  - unfold len. simpl. rewrite LF. intros k Hk. pose proof (par_lt k).
    assert (PA : forall x, (x < n)%nat -> pri_at {| q_list := firstn n (q_list q2); q_obj := q_obj q2; q_pri := q_pri q2;
       q_idx := fset (q_idx q2) k0 (-1)%Z; q_next := q_next q2 |} x = pri_at q2 x).
    { intros x Hx. unfold pri_at. simpl. rewrite SP at 2. rewrite nth_error_app1 by lia. reflexivity. }
    unfold lea. rewrite less_pri, !PA by lia. rewrite <- less_pri. apply HOK. auto.
  - cbn [q_list q_obj q_pri q_next]. destruct P1 as (X1 & X2 & X3 & X4). destruct P2 as (Y1 & Y2 & Y3 & Y4).
    split; [|repeat split; congruence].
    rewrite X1, Y1. rewrite SP at 1. symmetry. apply Permutation_cons_append.
Qed.

Lemma update_ok : forall (q : queue) i v p, good q -> (0 <= i < zlen (q_list q))%Z -> exists q' j k,
  q_update q i v p = Ok (q', j) /\ good q' /\ nth_error (q_list q) (Z.to_nat i) = Some k /\
  Permutation (q_list q') (q_list q) /\
  q_obj q' = fset (q_obj q) k (Some v) /\ q_pri q' = fset (q_pri q) k (Some p) /\ q_next q' = q_next q /\
  (0 <= j)%Z /\ nth_error (q_list q') (Z.to_nat j) = Some k.
Proof.
  intros q i v p [(A & B & C) HP] HI. unfold HeapModel.q_update.
  destruct (Z.ltb_spec i 0); [lia|]. destruct (Z.leb_spec (zlen (q_list q)) i); [lia|]. cbn [orb].
  destruct (nth_error (q_list q) (Z.to_nat i)) as [k|] eqn:E.
  2: { apply nth_error_None in E. unfold zlen in *. lia. }
  set (q1 := mkQ (q_list q) (fset (q_obj q) k (Some v)) (fset (q_pri q) k (Some p)) (q_idx q) (q_next q)).
  assert (IX : Z.to_nat (q_idx q1 k) = Z.to_nat i).
  { simpl. rewrite (C _ _ E). lia. }
  rewrite IX. set (i0 := Z.to_nat i) in *.
  assert (IK : In k (q_list q)) by (eapply nth_error_In; eauto).
  assert (W1 : WF q1).
  { split; [|split]; simpl; auto. intros x I. destruct (Nat.eq_dec x k) as [->|N].
    - rewrite !fset_eq. split; [apply B; auto|]. eauto.
    - rewrite !fset_neq by auto. auto. }
  assert (PA : forall x, x <> i0 -> pri_at q1 x = pri_at q x).
  { intros x Hx. unfold pri_at. simpl. destruct (nth_error (q_list q) x) as [y|] eqn:Ex; auto.
    rewrite fset_neq; auto. intros ->. apply C in Ex. apply C in E. lia. }
  assert (LI : (i0 < len q1)%nat) by (unfold len; simpl; apply nth_error_Some; congruence).
  assert (LE : forall a b, a <> i0 -> b <> i0 -> lea q a b -> lea q1 a b).
  { intros a b Ha Hb. unfold lea. rewrite !less_pri, !PA by auto. auto. }
  assert (HO : Hole q1 (len q1) i0).
  { split.
    - intros x Hx Nx Px. apply LE; auto.
    - intros x Hx Px I0. pose proof (par_lt x). pose proof (par_lt i0 I0). apply LE; try lia.
      assert (W : WF q) by (split; auto).
      apply lea_trans with i0; auto.
      assert (Q : lea q (par x) x) by (apply HP; auto). rewrite Px in Q. exact Q. }
  unfold HeapModel.h_fix, HeapModel.h_down. change (length (q_list q1)) with (len q1).
  destruct (down_ok (S (len q1)) q1 i0 i0 (len q1)) as (q2 & i' & E2 & W2 & P2 & I2 & IL2 & HO2 & K2 & U2 & EQ2 & T2); auto; try lia.
  rewrite E2. cbn [bind fst snd].
  assert (FIN : exists q3, (if (i0 <? i')%nat then Ok q2 else h_up (S (S i0)) q2 i0) = Ok q3 /\ WF q3 /\ permuted q1 q3 /\ heap_ok q3 (len q1)).
  { destruct (Nat.ltb_spec i0 i').
    - exists q2. split; auto. split; auto. split; auto. apply hole_done with i'; auto.
    - assert (i' = i0) by lia. subst i'. rewrite (EQ2 eq_refl) in *.
      destruct (up_ok (S (S i0)) q1 i0 (len q1)) as (q3 & E3 & W3 & P3 & HP3 & _); auto; try lia. eauto. }
  destruct FIN as (q3 & E3 & W3 & P3 & HP3). rewrite E3. cbn [bind].
  exists q3, (q_idx q3 k), k. split; auto. destruct P3 as (Q1 & Q2 & Q3 & Q4).
  split; [split; auto; replace (len q3) with (len q1); auto; unfold len; apply Permutation_length; auto|].
  split; auto. split; [symmetry; exact Q1|]. split; auto. split; auto. split; auto.
  assert (I : In k (q_list q3)) by (eapply Permutation_in; [exact Q1|exact IK]).
  apply In_nth_error in I. destruct I as (x & I). destruct W3 as (_ & _ & C3). rewrite (C3 _ _ I).
  split; [lia|]. rewrite Nat2Z.id. auto.
Qed.

End HeapProofs.
