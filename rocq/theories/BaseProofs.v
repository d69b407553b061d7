(** Lemmas about the vocabulary of Base. *)
From Verif Require Import Base.

Lemma zlen_nonneg : forall {A} (l : list A), (0 <= zlen l)%Z.
Proof. intros. unfold zlen. lia. Qed.

Lemma zlen_app : forall {A} (a b : list A), (zlen (a ++ b) = zlen a + zlen b)%Z.
Proof. intros. unfold zlen. rewrite app_length. lia. Qed.

Lemma nlen_app : forall {A} (a b : list A), (nlen (a ++ b) = nlen a + nlen b)%N.
Proof. intros. unfold nlen. rewrite app_length. lia. Qed.

Lemma zlen_cons : forall {A} (x : A) l, (zlen (x :: l) = 1 + zlen l)%Z.
Proof. intros. unfold zlen. simpl length. lia. Qed.

Lemma be_length : forall n x, length (be n x) = n.
Proof.
  induction n; intros; simpl; auto. rewrite app_length, IHn. simpl. lia.
Qed.

Lemma be_ok : forall n x, bytes_ok (be n x).
Proof.
  induction n; intros; simpl. constructor.
  apply Forall_app; split; [apply IHn|]. constructor; auto. unfold byte_ok. lia.
Qed.

Lemma unbe_app : forall a b, unbe (a ++ [b]) = (unbe a * 256 + b)%N.
Proof. intros. unfold unbe. rewrite fold_left_app. reflexivity. Qed.

Lemma unbe_be : forall n x, unbe (be n x) = (x mod 256 ^ N.of_nat n)%N.
Proof.
  induction n; intros.
  - simpl. change (256 ^ N.of_nat 0)%N with 1%N. rewrite N.mod_1_r. reflexivity.
  - simpl be. rewrite unbe_app, IHn.
    replace (N.of_nat (S n)) with (N.succ (N.of_nat n)) by lia.
    rewrite N.pow_succ_r'.
    assert (256 ^ N.of_nat n <> 0)%N by (apply N.pow_nonzero; lia).
    rewrite N.mod_mul_r by lia. lia.
Qed.

Lemma unbe_be_small : forall n x, (x < 256 ^ N.of_nat n)%N -> unbe (be n x) = x.
Proof. intros. rewrite unbe_be. apply N.mod_small. auto. Qed.

Lemma unbe_bound : forall l, bytes_ok l -> (unbe l < 256 ^ nlen l)%N.
Proof.
  intros l. induction l using rev_ind; intros H.
  - cbn. lia.
  - apply Forall_app in H. destruct H as [H1 H2]. inversion H2; subst.
    rewrite unbe_app. unfold byte_ok in *.
    specialize (IHl H1).
    replace (nlen (l ++ [x])) with (N.succ (nlen l)) by (rewrite nlen_app; unfold nlen; simpl; lia).
    rewrite N.pow_succ_r'. lia.
Qed.

Lemma be_unbe : forall l, bytes_ok l -> be (length l) (unbe l) = l.
Proof.
  intros l. induction l using rev_ind; intros H; simpl; auto.
  apply Forall_app in H. destruct H as [H1 H2]. inversion H2; subst. unfold byte_ok in *.
  rewrite app_length. simpl length. replace (length l + 1)%nat with (S (length l)) by lia.
  simpl be. rewrite unbe_app.
  replace ((unbe l * 256 + x) / 256)%N with (unbe l) by lia.
  replace ((unbe l * 256 + x) mod 256)%N with x by lia.
  rewrite IHl by auto. reflexivity.
Qed.

Lemma unbe_inj : forall a b, bytes_ok a -> bytes_ok b -> length a = length b ->
  unbe a = unbe b -> a = b.
Proof.
  intros. rewrite <- (be_unbe a), <- (be_unbe b) by auto. congruence.
Qed.

Lemma pow256_8 : (256 ^ 8 = two64)%N.
Proof. reflexivity. Qed.

Lemma unbe64_app : forall a b, unbe64 (a ++ [b]) = ((unbe64 a * 256) mod two64 + b)%N.
Proof. intros. unfold unbe64. rewrite fold_left_app. reflexivity. Qed.

Lemma unbe64_mod : forall l, bytes_ok l -> (unbe64 l = unbe l mod two64)%N.
Proof.
  intros l. induction l using rev_ind; intros H.
  - reflexivity.
  - apply Forall_app in H. destruct H as [H1 H2]. inversion H2; subst. unfold byte_ok in *.
    rewrite unbe64_app, unbe_app, IHl by auto. unfold two64. lia.
Qed.

Lemma unbe64_small : forall l, bytes_ok l -> (length l <= 8)%nat -> unbe64 l = unbe l.
Proof.
  intros. rewrite unbe64_mod by auto. apply N.mod_small.
  eapply N.lt_le_trans. apply unbe_bound; auto.
  rewrite <- pow256_8. apply N.pow_le_mono_r. lia. unfold nlen. lia.
Qed.

Lemma to_int_small : forall x, (x < two63)%N -> to_int x = Z.of_N x.
Proof. intros. unfold to_int. destruct (N.ltb_spec x two63); lia. Qed.

Lemma to_int_big : forall x, (two63 <= x)%N -> (x < two64)%N -> (to_int x < 0)%Z.
Proof.
  intros. unfold to_int, two63, two64, Ztwo64 in *.
  destruct (N.ltb_spec x 9223372036854775808); lia.
Qed.

Lemma to_int_range : forall x, u64_ok x -> (- Ztwo63 <= to_int x < Ztwo63)%Z.
Proof.
  intros. unfold to_int, u64_ok, two63, two64, Ztwo64, Ztwo63 in *.
  destruct (N.ltb_spec x 9223372036854775808); lia.
Qed.

Lemma wrap64_id : forall z, (- Ztwo63 <= z < Ztwo63)%Z -> wrap64 z = z.
Proof.
  intros. unfold wrap64, Ztwo63, Ztwo64 in *. rewrite Z.mod_small; lia.
Qed.

Lemma slice_ok : forall {A} (b : list A) i j, (0 <= i)%Z -> (i <= j)%Z -> (j <= zlen b)%Z ->
  slice b i j = Ok (firstn (Z.to_nat (j - i)) (skipn (Z.to_nat i) b)).
Proof.
  intros. unfold slice.
  destruct (Z.leb_spec 0 i); try lia. destruct (Z.leb_spec i j); try lia.
  destruct (Z.leb_spec j (zlen b)); try lia. reflexivity.
Qed.

Lemma slice_app : forall {A} (p m s : list A),
  slice (p ++ m ++ s) (zlen p) (zlen p + zlen m)%Z = Ok m.
Proof.
  intros. rewrite slice_ok; [| apply zlen_nonneg | pose proof (zlen_nonneg m); lia
    | rewrite !zlen_app; pose proof (zlen_nonneg s); lia].
  unfold zlen.
  replace (Z.to_nat (Z.of_nat (length p) + Z.of_nat (length m) - Z.of_nat (length p)))
    with (length m) by lia.
  rewrite Nat2Z.id. rewrite skipn_app, skipn_all, Nat.sub_diag. simpl.
  rewrite firstn_app, firstn_all, Nat.sub_diag. simpl. rewrite app_nil_r. reflexivity.
Qed.

Lemma slice_inv : forall {A} (b : list A) i j r, slice b i j = Ok r ->
  (0 <= i <= j)%Z /\ (j <= zlen b)%Z /\ r = firstn (Z.to_nat (j - i)) (skipn (Z.to_nat i) b)
  /\ zlen r = (j - i)%Z.
Proof.
  unfold slice; intros. destruct (Z.leb_spec 0 i), (Z.leb_spec i j), (Z.leb_spec j (zlen b)); simpl in H; try discriminate.
  inversion H; subst. repeat split; auto; try lia.
  unfold zlen in *. rewrite firstn_length, skipn_length. lia.
Qed.

Lemma index_app : forall {A} (p : list A) x s, index (p ++ x :: s) (zlen p) = Ok x.
Proof.
  intros. unfold index, zlen. destruct (Z.ltb_spec (Z.of_nat (length p)) 0); try lia.
  rewrite Nat2Z.id, nth_error_app2, Nat.sub_diag by lia. reflexivity.
Qed.

Lemma index_inv : forall {A} (b : list A) i x, index b i = Ok x ->
  (0 <= i < zlen b)%Z /\ nth_error b (Z.to_nat i) = Some x.
Proof.
  unfold index; intros. destruct (Z.ltb_spec i 0); try discriminate.
  destruct (nth_error b (Z.to_nat i)) eqn:E; inversion H; subst. split; auto.
  assert (nth_error b (Z.to_nat i) <> None) by congruence. apply nth_error_Some in H1. unfold zlen. lia.
Qed.

Lemma put_prefix_app : forall x b, (length x <= length b)%nat ->
  put_prefix b x = Ok (x ++ skipn (length x) b).
Proof. intros. unfold put_prefix. destruct (Nat.leb_spec (length x) (length b)); auto; lia. Qed.

Lemma bytes_ok_app : forall a b, bytes_ok (a ++ b) <-> bytes_ok a /\ bytes_ok b.
Proof. intros. apply Forall_app. Qed.

Lemma bytes_ok_firstn : forall n l, bytes_ok l -> bytes_ok (firstn n l).
Proof. intros. rewrite <- (firstn_skipn n l) in H. apply bytes_ok_app in H. tauto. Qed.

Lemma bytes_ok_skipn : forall n l, bytes_ok l -> bytes_ok (skipn n l).
Proof. intros. rewrite <- (firstn_skipn n l) in H. apply bytes_ok_app in H. tauto. Qed.

Lemma bytes_ok_concat : forall w, wire_ok w -> bytes_ok (concat w).
Proof.
  induction w; simpl; intros. constructor. inversion H; subst.
  apply bytes_ok_app; split; auto.
Qed.
