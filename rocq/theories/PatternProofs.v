From Verif Require Import Base BaseProofs NameModel OrderProofs.

(** ** patterns *)
(** No tag stands at two places whose components have different values. *)
Definition tags_consistent (p : list pat) (n : name) : Prop :=
  forall i j t u tag ci cj,
    nth_error p i = Some (PVar t tag) -> nth_error p j = Some (PVar u tag) ->
    nth_error n i = Some ci -> nth_error n j = Some cj -> cval ci = cval cj.

Definition matches (p : list pat) (n : name) : Prop :=
  Forall2 (fun x c => pat_is_match x c = true) p n.

Lemma mget_mset : forall m t v u, mget (mset m t v) u = if bytes_eqb t u then Some v else mget m u.
Proof. reflexivity. Qed.

Lemma matches_length : forall p n, matches p n -> length p = length n.
Proof. intros p n H. induction H; simpl; auto. Qed.

(** what Match leaves in the map *)
Lemma np_match_get : forall p n m, matches p n -> tags_consistent p n ->
  exists m', np_match p n m = Ok m' /\
    (forall i t tag c, nth_error p i = Some (PVar t tag) -> nth_error n i = Some c -> mget m' tag = Some (cval c)) /\
    (forall tag, (forall t, ~ In (PVar t tag) p) -> mget m' tag = mget m tag).
Proof.
  induction p as [|x p IH]; intros n m M C; inversion M as [|? c ? n' E F]; subst.
  - exists m. split; auto. split; auto. intros [|i]; discriminate.
  - cbn [np_match].
    assert (C' : tags_consistent p n').
    { intros i j t u tag ci cj H1 H2 H3 H4. apply (C (S i) (S j) t u tag ci cj); auto. }
    destruct (IH n' (pat_match x c m) F C') as (m' & E' & G1 & G2).
    exists m'. split; auto. split.
    + intros i t tag ci H1 H2. destruct i as [|i]; [|eapply G1; eauto].
      simpl in H1, H2. injection H1 as ->. injection H2 as ->.
      destruct (in_dec (list_eq_dec N.eq_dec) tag (map (fun y => match y with PVar _ tg => tg | PComp _ => [] end)
                  (filter (fun y => match y with PVar _ _ => true | PComp _ => false end) p))) as [I|I].
      * apply in_map_iff in I. destruct I as (y & Ey & Iy). apply filter_In in Iy. destruct Iy as [Iy B].
        destruct y as [|u tg]; [discriminate|]. subst tg.
        apply In_nth_error in Iy. destruct Iy as (j & Hj).
        assert (exists cj, nth_error n' j = Some cj) as (cj & Hc).
        { assert (j < length p)%nat by (apply nth_error_Some; congruence).
          assert (j < length n')%nat by (rewrite <- (matches_length _ _ F); auto).
          destruct (nth_error n' j) eqn:Q; eauto. apply nth_error_None in Q. lia. }
        rewrite (G1 _ _ _ _ Hj Hc). f_equal. symmetry. apply (C 0%nat (S j) t u tag ci cj); auto.
      * rewrite G2.
        { cbn [pat_match]. rewrite mget_mset, bytes_eqb_refl. auto. }
        intros u Iu. apply I. apply in_map_iff. exists (PVar u tag). split; auto. apply filter_In. auto.
    + intros tag NI. rewrite G2.
      * destruct x as [|t tg]; auto. cbn [pat_match]. rewrite mget_mset.
        destruct (bytes_eqb tg tag) eqn:Q; auto. apply bytes_eqb_eq in Q. subst. exfalso. eapply NI. left; reflexivity.
      * intros t I. eapply NI. right; eauto.
Qed.

Lemma np_from_matching_ok : forall p n m', matches p n ->
  (forall i t tag c, nth_error p i = Some (PVar t tag) -> nth_error n i = Some c -> mget m' tag = Some (cval c)) ->
  np_from_matching p m' = Ok n.
Proof.
  intros p n m' M. induction M; intros G; cbn [np_from_matching]; auto.
  assert (E : pat_from_matching x m' = Ok y).
  { destruct x as [c|t tag]; simpl in H.
    - apply comp_equal_eq in H. subst. reflexivity.
    - apply N.eqb_eq in H. simpl. rewrite (G 0%nat t tag y eq_refl eq_refl). subst. destruct y; reflexivity. }
  rewrite E. cbn [bind]. rewrite IHM; [reflexivity|]. intros i t tag c H1 H2. apply (G (S i) t tag c); auto.
Qed.

Lemma match_then_instantiate : forall p n m, matches p n -> tags_consistent p n ->
  exists m', np_match p n m = Ok m' /\ np_from_matching p m' = Ok n.
Proof.
  intros. destruct (np_match_get p n m H H0) as (m' & E & G & _). exists m'. split; auto.
  apply np_from_matching_ok; auto.
Qed.

Lemma instantiate_then_match : forall p m n, np_from_matching p m = Ok n ->
  matches p n /\ tags_consistent p n.
Proof.
  intros p m n H.
  assert (matches p n /\ forall i t tag c, nth_error p i = Some (PVar t tag) -> nth_error n i = Some c -> mget m tag = Some (cval c)).
  { revert n H. induction p as [|x p IH]; intros n H; cbn [np_from_matching] in H.
    - inversion H; subst. split; [constructor|]. intros [|i]; discriminate.
    - destruct (pat_from_matching x m) as [c| | |] eqn:E; try discriminate. cbn [bind] in H.
      destruct (np_from_matching p m) as [n'| | |] eqn:E2; try discriminate. cbn [bind] in H. inversion H; subst.
      destruct (IH n' eq_refl) as [M G].
      assert (Hx : pat_is_match x c = true /\ forall t tag, x = PVar t tag -> mget m tag = Some (cval c)).
      { destruct x as [c0|t tag]; simpl in E.
        - inversion E; subst. split; [apply comp_equal_refl|discriminate].
        - destruct (mget m tag) eqn:Q; inversion E; subst. split; [apply N.eqb_refl|].
          intros ? ? Eq. inversion Eq; subst. auto. }
      destruct Hx as [H1 H2]. split; [constructor; auto|].
      intros [|i] t tag ci Hp Hn; simpl in Hp, Hn.
      + inversion Hp; inversion Hn; subst. eauto.
      + eauto. }
  destruct H0 as [M G]. split; auto.
  intros i j t u tag ci cj H1 H2 H3 H4. pose proof (G _ _ _ _ H1 H3). pose proof (G _ _ _ _ H2 H4). congruence.
Qed.

(** without the consistency of tags the name is not recovered *)
Lemma repeated_tag_breaks : exists p n m', matches p n /\ np_match p n [] = Ok m' /\ np_from_matching p m' <> Ok n.
Proof.
  exists [PVar 8 [97]; PVar 8 [97]]%N, [mkComp 8 [1]; mkComp 8 [2]]%N. eexists.
  split; [repeat constructor|]. split; [reflexivity|]. vm_compute. discriminate.
Qed.

(** NamePattern order and prefix *)
Lemma pat_equal_eq : forall a b, pat_equal a b = true <-> a = b.
Proof.
  destruct a, b; simpl; split; intros H; try discriminate.
  - apply comp_equal_eq in H. subst; auto.
  - inversion H; subst. apply comp_equal_refl.
  - apply andb_prop in H. destruct H as [H1 H2]. apply N.eqb_eq in H1. apply bytes_eqb_eq in H2. subst; auto.
  - inversion H; subst. rewrite N.eqb_refl, bytes_eqb_refl. auto.
Qed.

Lemma pat_compare_eq : forall a b, pat_compare a b = 0%Z <-> a = b.
Proof.
  destruct a, b; simpl; split; intros H; try discriminate.
  - apply comp_compare_eq in H. subst; auto.
  - inversion H; subst. apply comp_compare_eq; auto.
  - destruct (N.eqb_spec typ typ0); simpl in H. apply bytes_compare_eq in H. subst; auto.
    destruct (_ <? _)%N; discriminate.
  - inversion H; subst. rewrite N.eqb_refl. simpl. apply bytes_compare_refl.
Qed.

Lemma pat_compare_anti : forall a b, pat_compare b a = (- pat_compare a b)%Z.
Proof.
  destruct a, b; simpl; auto. apply comp_compare_anti.
  destruct (N.eqb_spec typ typ0), (N.eqb_spec typ0 typ); try congruence; simpl.
  - apply bytes_compare_anti.
  - destruct (N.ltb_spec typ typ0), (N.ltb_spec typ0 typ); auto; lia.
Qed.

Lemma pat_compare_trans : forall x y z, pat_compare x y = (-1)%Z -> pat_compare y z = (-1)%Z -> pat_compare x z = (-1)%Z.
Proof.
  destruct x as [a|t a], y as [b|u b], z as [c|v c]; simpl; intros H1 H2; try discriminate; auto.
  - eapply comp_compare_trans; eauto.
  - destruct (N.eqb_spec t u), (N.eqb_spec u v), (N.eqb_spec t v); simpl in *; subst; try congruence.
    + eapply bytes_compare_trans; eauto.
    + destruct (N.ltb_spec v u); [|discriminate]. destruct (N.ltb_spec u v); [lia|discriminate].
    + destruct (N.ltb_spec t u); [|discriminate]. destruct (N.ltb_spec u v); [|discriminate].
      destruct (N.ltb_spec t v); auto; lia.
Qed.

Lemma np_compare_eq : forall n m, np_compare n m = 0%Z <-> n = m.
Proof.
  induction n; destruct m; simpl; split; intros H; try discriminate; auto.
  - destruct (Z.eqb_spec (pat_compare a p) 0) as [E|E]; [|congruence].
    apply pat_compare_eq in E. apply IHn in H. congruence.
  - inversion H; subst. rewrite (proj2 (pat_compare_eq p p) eq_refl). simpl. apply IHn. auto.
Qed.

Lemma np_compare_anti : forall n m, np_compare m n = (- np_compare n m)%Z.
Proof.
  induction n; destruct m; simpl; auto. rewrite (pat_compare_anti a p).
  destruct (Z.eqb_spec (pat_compare a p) 0) as [E|E].
  - rewrite E. simpl. apply IHn.
  - destruct (Z.eqb_spec (- pat_compare a p) 0); [lia|auto].
Qed.

Lemma np_compare_trans : forall n m k, np_compare n m = (-1)%Z -> np_compare m k = (-1)%Z -> np_compare n k = (-1)%Z.
Proof.
  induction n; intros m k H1 H2.
  - destruct m; simpl in H1; [discriminate|]. destruct k; simpl in *; auto; discriminate.
  - destruct m as [|b m]; simpl in H1; [discriminate|]. destruct k as [|c k]; simpl in *; [discriminate|].
    destruct (Z.eqb_spec (pat_compare a b) 0) as [E|E].
    + apply pat_compare_eq in E. subst b. destruct (Z.eqb_spec (pat_compare a c) 0); eauto.
    + destruct (Z.eqb_spec (pat_compare b c) 0) as [E2|E2].
      * apply pat_compare_eq in E2. subst c. rewrite H1. reflexivity.
      * rewrite (pat_compare_trans _ _ _ H1 H2). reflexivity.
Qed.

Lemma np_all_equal_prefix : forall n m, (length n <= length m)%nat -> (np_all_equal n m = true <-> exists s, m = n ++ s).
Proof.
  induction n; intros m L; simpl.
  - split; eauto.
  - destruct m as [|b m]; simpl in L; [lia|]. rewrite andb_true_iff, pat_equal_eq, IHn by lia.
    split.
    + intros [-> [s ->]]. exists s. auto.
    + intros [s E]. inversion E; subst. split; eauto.
Qed.

Lemma np_is_prefix_iff : forall n m, np_is_prefix n m = true <-> exists s, m = n ++ s.
Proof.
  intros. unfold np_is_prefix. destruct (Nat.ltb_spec (length m) (length n)).
  - split; [discriminate|]. intros [s ->]. rewrite app_length in H. lia.
  - apply np_all_equal_prefix. auto.
Qed.

Lemma np_equal_iff : forall n m, np_equal n m = true <-> n = m.
Proof.
  intros. unfold np_equal. destruct (Nat.eqb_spec (length n) (length m)) as [L|L]; simpl.
  - rewrite np_all_equal_prefix by lia. split.
    + intros [s ->]. rewrite app_length in L. destruct s; [rewrite app_nil_r; auto|simpl in L; lia].
    + intros ->. exists []. rewrite app_nil_r. auto.
  - split; [discriminate|]. intros; subst; congruence.
Qed.
