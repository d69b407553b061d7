From Verif Require Import Base BaseProofs PrimModel PrimProofs ReaderProofs ReaderProofs2 NameModel NameProofs.

Lemma app_eq_len : forall {A} (a b c d : list A), a ++ b = c ++ d -> length a = length c -> a = c /\ b = d.
Proof.
  induction a; intros b c d E L; destruct c; try discriminate; simpl in *; auto.
  inversion E; subst. destruct (IHa b c d); auto. subst. auto.
Qed.

(** ** bytes.Compare *)
Lemma bytes_compare_cases : forall a b, bytes_compare a b = (-1)%Z \/ bytes_compare a b = 0%Z \/ bytes_compare a b = 1%Z.
Proof.
  induction a; destruct b; simpl; auto. destruct (a <? n)%N; auto. destruct (n <? a)%N; auto.
Qed.

Lemma bytes_compare_refl : forall a, bytes_compare a a = 0%Z.
Proof. induction a; simpl; auto. rewrite N.ltb_irrefl. auto. Qed.

Lemma bytes_compare_eq : forall a b, bytes_compare a b = 0%Z <-> a = b.
Proof.
  induction a; destruct b; simpl; split; intros H; try discriminate; auto.
  - destruct (N.ltb_spec a n); [discriminate|]. destruct (N.ltb_spec n a); [discriminate|].
    apply IHa in H. subst. f_equal. lia.
  - inversion H; subst. rewrite N.ltb_irrefl. apply IHa. auto.
Qed.

Lemma bytes_compare_anti : forall a b, bytes_compare b a = (- bytes_compare a b)%Z.
Proof.
  induction a; destruct b; simpl; auto.
  destruct (N.ltb_spec n a), (N.ltb_spec a n); auto. lia.
Qed.

Lemma bytes_compare_trans : forall a b c, bytes_compare a b = (-1)%Z -> bytes_compare b c = (-1)%Z -> bytes_compare a c = (-1)%Z.
Proof.
  induction a; intros b c H1 H2.
  - destruct b; simpl in H1; [discriminate|]. destruct c; simpl in *; auto. discriminate.
  - destruct b; simpl in H1; [discriminate|]. destruct c; simpl in *; [discriminate|].
    destruct (N.ltb_spec a n).
    + destruct (N.ltb_spec n n0). { destruct (N.ltb_spec a n0); auto; lia. }
      destruct (N.ltb_spec n0 n); [discriminate|]. destruct (N.ltb_spec a n0); auto; lia.
    + destruct (N.ltb_spec n a); [discriminate|]. assert (a = n) by lia. subst n.
      destruct (N.ltb_spec a n0); auto. destruct (N.ltb_spec n0 a); [discriminate|]. eauto.
Qed.

Lemma bytes_compare_app_same : forall p a b, bytes_compare (p ++ a) (p ++ b) = bytes_compare a b.
Proof. induction p; intros; simpl; auto. rewrite N.ltb_irrefl. auto. Qed.

Lemma bytes_eqb_eq : forall a b, bytes_eqb a b = true <-> a = b.
Proof. intros. unfold bytes_eqb. destruct (list_eq_dec N.eq_dec a b); split; auto; discriminate. Qed.

Lemma bytes_eqb_refl : forall a, bytes_eqb a a = true.
Proof. intros. apply bytes_eqb_eq. auto. Qed.

Lemma bytes_eqb_neq : forall a b, bytes_eqb a b = false <-> a <> b.
Proof. intros. unfold bytes_eqb. destruct (list_eq_dec N.eq_dec a b); split; auto; congruence. Qed.

(** Comparing two equally long byte strings followed by anything compares their
    big-endian values first. *)
Lemma unbe_cons : forall x l, unbe (x :: l) = (x * 256 ^ nlen l + unbe l)%N.
Proof.
  intros. revert x. induction l using rev_ind; intros.
  - unfold unbe. simpl. change (256 ^ nlen (@nil N))%N with 1%N. lia.
  - change (x0 :: l ++ [x]) with ((x0 :: l) ++ [x]). rewrite !unbe_app, IHl.
    replace (nlen (l ++ [x])) with (N.succ (nlen l)) by (rewrite nlen_app; unfold nlen; simpl; lia).
    rewrite N.pow_succ_r'. lia.
Qed.

Lemma bytes_compare_be : forall a b s t, bytes_ok a -> bytes_ok b -> length a = length b ->
  bytes_compare (a ++ s) (b ++ t) =
  if (unbe a <? unbe b)%N then (-1)%Z else if (unbe b <? unbe a)%N then 1%Z else bytes_compare s t.
Proof.
  induction a; intros b s t Ha Hb HL; destruct b as [|y b]; try discriminate.
  - reflexivity.
  - inversion Ha; inversion Hb; subst. simpl in HL. injection HL as HL.
    simpl app. cbn [bytes_compare]. rewrite !unbe_cons.
    assert (NL : nlen a0 = nlen b) by (unfold nlen; lia). rewrite NL.
    pose proof (unbe_bound a0 H2) as B1. pose proof (unbe_bound b H6) as B2. rewrite NL in B1.
    rewrite (IHa b s t H2 H6 HL). clear IHa.
    set (q := (256 ^ nlen b)%N) in *. set (u := unbe a0) in *. set (v := unbe b) in *.
    destruct (N.ltb_spec a y).
    { destruct (N.ltb_spec (a * q + u) (y * q + v)); auto. nia. }
    destruct (N.ltb_spec y a).
    { destruct (N.ltb_spec (a * q + u) (y * q + v)); [nia|]. destruct (N.ltb_spec (y * q + v) (a * q + u)); auto. nia. }
    assert (a = y) by lia. subst y.
    destruct (N.ltb_spec u v), (N.ltb_spec (a * q + u) (a * q + v)); try lia.
    destruct (N.ltb_spec v u), (N.ltb_spec (a * q + v) (a * q + u)); try lia.
Qed.

Lemma be_val : forall k x, (x < 256 ^ N.of_nat k)%N -> unbe (be k x) = x.
Proof. intros. apply unbe_be_small. auto. Qed.

Lemma tl_enc_compare : forall v w s t, u64_ok v -> u64_ok w ->
  bytes_compare (tl_enc v ++ s) (tl_enc w ++ t) =
  if (v <? w)%N then (-1)%Z else if (w <? v)%N then 1%Z else bytes_compare s t.
Proof.
  intros v w s t Hv Hw. unfold u64_ok, two64 in *.
  assert (B : forall k m s t x y, (x < 256 ^ N.of_nat k)%N -> (y < 256 ^ N.of_nat k)%N ->
    bytes_compare ((m :: be k x) ++ s) ((m :: be k y) ++ t) =
    if (x <? y)%N then (-1)%Z else if (y <? x)%N then 1%Z else bytes_compare s t).
  { intros. simpl app. cbn [bytes_compare]. rewrite N.ltb_irrefl.
    rewrite bytes_compare_be; [|apply be_ok|apply be_ok|rewrite !be_length; auto].
    rewrite !be_val; auto. }
  pose proof pow_two16 as P2. pose proof pow_two32 as P4. pose proof pow_two64 as P8.
  unfold tl_enc.
  destruct (N.leb_spec v 252); [|destruct (N.leb_spec v 65535); [|destruct (N.leb_spec v 4294967295)]];
  (destruct (N.leb_spec w 252); [|destruct (N.leb_spec w 65535); [|destruct (N.leb_spec w 4294967295)]]);
  try (apply B; lia);
  try (rewrite !(N.mod_small v) by lia); try (rewrite !(N.mod_small w) by lia); cbn [bytes_compare app];
  repeat match goal with |- context [(?a <? ?b)%N] => destruct (N.ltb_spec a b); try lia end; auto.
Qed.

(** ** Component.Compare *)
Lemma comp_eta : forall a b, ctyp a = ctyp b -> cval a = cval b -> a = b.
Proof. destruct a, b; simpl; intros; subst; auto. Qed.

Lemma comp_compare_cases : forall a b, comp_compare a b = (-1)%Z \/ comp_compare a b = 0%Z \/ comp_compare a b = 1%Z.
Proof.
  intros. unfold comp_compare. destruct (ctyp a =? ctyp b)%N; simpl.
  - destruct (nlen (cval a) =? nlen (cval b))%N; simpl. apply bytes_compare_cases. destruct (_ <? _)%N; auto.
  - destruct (_ <? _)%N; auto.
Qed.

Lemma comp_compare_eq : forall a b, comp_compare a b = 0%Z <-> a = b.
Proof.
  intros. unfold comp_compare. split.
  - destruct (N.eqb_spec (ctyp a) (ctyp b)); simpl.
    + destruct (N.eqb_spec (nlen (cval a)) (nlen (cval b))); simpl.
      * intros H. apply bytes_compare_eq in H. apply comp_eta; auto.
      * destruct (_ <? _)%N; discriminate.
    + destruct (_ <? _)%N; discriminate.
  - intros ->. rewrite !N.eqb_refl. simpl. apply bytes_compare_refl.
Qed.

Lemma comp_compare_anti : forall a b, comp_compare b a = (- comp_compare a b)%Z.
Proof.
  intros. unfold comp_compare.
  destruct (N.eqb_spec (ctyp b) (ctyp a)), (N.eqb_spec (ctyp a) (ctyp b)); try congruence; simpl.
  - destruct (N.eqb_spec (nlen (cval b)) (nlen (cval a))), (N.eqb_spec (nlen (cval a)) (nlen (cval b))); try congruence; simpl.
    + apply bytes_compare_anti.
    + destruct (N.ltb_spec (nlen (cval b)) (nlen (cval a))), (N.ltb_spec (nlen (cval a)) (nlen (cval b))); auto; lia.
  - destruct (N.ltb_spec (ctyp b) (ctyp a)), (N.ltb_spec (ctyp a) (ctyp b)); auto; lia.
Qed.

Lemma comp_compare_lt : forall a b, comp_compare a b = (-1)%Z <->
  (ctyp a < ctyp b)%N \/ (ctyp a = ctyp b /\ ((nlen (cval a) < nlen (cval b))%N \/
     (nlen (cval a) = nlen (cval b) /\ bytes_compare (cval a) (cval b) = (-1)%Z))).
Proof.
  intros. unfold comp_compare.
  destruct (N.eqb_spec (ctyp a) (ctyp b)); simpl.
  - destruct (N.eqb_spec (nlen (cval a)) (nlen (cval b))); simpl.
    + split; [intros; right; split; auto|]. intros [|[_ [|[_ ?]]]]; auto; lia.
    + destruct (N.ltb_spec (nlen (cval a)) (nlen (cval b))); split; intros; auto; try discriminate.
      destruct H0 as [|[_ [|[? _]]]]; lia.
  - destruct (N.ltb_spec (ctyp a) (ctyp b)); split; intros; auto; try discriminate.
    destruct H0 as [|[? _]]; lia.
Qed.

Lemma comp_compare_trans : forall a b c, comp_compare a b = (-1)%Z -> comp_compare b c = (-1)%Z -> comp_compare a c = (-1)%Z.
Proof.
  intros a b c H1 H2. rewrite comp_compare_lt in *.
  destruct H1 as [|[? [|[? ?]]]], H2 as [|[? [|[? ?]]]]; try (left; lia); try (right; split; [lia|left; lia]).
  right. split; [lia|]. right. split; [lia|]. eapply bytes_compare_trans; eauto.
Qed.

Lemma comp_equal_eq : forall a b, comp_equal a b = true <-> a = b.
Proof.
  intros. unfold comp_equal. split.
  - destruct (N.eqb_spec (ctyp a) (ctyp b)); simpl; [|discriminate].
    destruct (N.eqb_spec (nlen (cval a)) (nlen (cval b))); simpl; [|discriminate].
    rewrite bytes_eqb_eq. intros. apply comp_eta; auto.
  - intros ->. rewrite !N.eqb_refl. simpl. apply bytes_eqb_refl.
Qed.

Lemma comp_equal_refl : forall a, comp_equal a a = true.
Proof. intros. apply comp_equal_eq. auto. Qed.

(** ** Name.Compare, Equal, IsPrefix *)
Lemma name_compare_cases : forall n m, name_compare n m = (-1)%Z \/ name_compare n m = 0%Z \/ name_compare n m = 1%Z.
Proof.
  induction n; destruct m; simpl; auto. destruct (_ =? _)%Z; auto. apply comp_compare_cases.
Qed.

Lemma name_compare_eq : forall n m, name_compare n m = 0%Z <-> n = m.
Proof.
  induction n; destruct m; simpl; split; intros H; try discriminate; auto.
  - destruct (Z.eqb_spec (comp_compare a c) 0) as [E|E]; [|congruence].
    apply comp_compare_eq in E. apply IHn in H. congruence.
  - inversion H; subst. rewrite (proj2 (comp_compare_eq c c) eq_refl). simpl. apply IHn. auto.
Qed.

Lemma name_compare_anti : forall n m, name_compare m n = (- name_compare n m)%Z.
Proof.
  induction n; destruct m; simpl; auto. rewrite (comp_compare_anti a c).
  destruct (Z.eqb_spec (comp_compare a c) 0) as [E|E].
  - rewrite E. simpl. apply IHn.
  - destruct (Z.eqb_spec (- comp_compare a c) 0); [lia|auto].
Qed.

Lemma name_compare_trans : forall n m k, name_compare n m = (-1)%Z -> name_compare m k = (-1)%Z -> name_compare n k = (-1)%Z.
Proof.
  induction n; intros m k H1 H2.
  - destruct m; simpl in H1; [discriminate|]. destruct k; simpl in *; auto; discriminate.
  - destruct m as [|b m]; simpl in H1; [discriminate|]. destruct k as [|c k]; simpl in *; [discriminate|].
    destruct (Z.eqb_spec (comp_compare a b) 0) as [E|E].
    + apply comp_compare_eq in E. subst b. destruct (Z.eqb_spec (comp_compare a c) 0); eauto.
    + destruct (Z.eqb_spec (comp_compare b c) 0) as [E2|E2].
      * apply comp_compare_eq in E2. subst c. rewrite H1. reflexivity.
      * rewrite (comp_compare_trans _ _ _ H1 H2). reflexivity.
Qed.

Lemma all_equal_prefix : forall n m, (length n <= length m)%nat -> (all_equal n m = true <-> exists s, m = n ++ s).
Proof.
  induction n; intros m L; simpl.
  - split; eauto.
  - destruct m as [|b m]; simpl in L; [lia|]. rewrite andb_true_iff, comp_equal_eq, IHn by lia.
    split.
    + intros [-> [s ->]]. exists s. auto.
    + intros [s E]. inversion E; subst. split; eauto.
Qed.

Lemma is_prefix_iff : forall n m, is_prefix n m = true <-> exists s, m = n ++ s.
Proof.
  intros. unfold is_prefix. destruct (Nat.ltb_spec (length m) (length n)).
  - split; [discriminate|]. intros [s ->]. rewrite app_length in H. lia.
  - apply all_equal_prefix. auto.
Qed.

Lemma name_equal_iff : forall n m, name_equal n m = true <-> n = m.
Proof.
  intros. unfold name_equal. destruct (Nat.eqb_spec (length n) (length m)) as [L|L]; simpl.
  - rewrite all_equal_prefix by lia. split.
    + intros [s ->]. rewrite app_length in L. destruct s; [rewrite app_nil_r; auto|simpl in L; lia].
    + intros ->. exists []. rewrite app_nil_r. auto.
  - split; [discriminate|]. intros; subst; congruence.
Qed.

(** ** agreement with the order of the encodings *)
Lemma comp_enc_compare : forall a b s t, comp_ok a -> comp_ok b ->
  (nlen (cval a) <= 255)%N -> (nlen (cval b) <= 255)%N ->
  bytes_compare (comp_enc a ++ s) (comp_enc b ++ t) =
  if (comp_compare a b =? 0)%Z then bytes_compare s t else comp_compare a b.
Proof.
  intros a b s t [Ta Va] [Tb Vb] La Lb. unfold comp_enc. rewrite <- !app_assoc.
  rewrite tl_enc_compare by auto. unfold comp_compare.
  destruct (N.eqb_spec (ctyp a) (ctyp b)) as [E|E]; simpl negb; cbv iota.
  - rewrite E, !N.ltb_irrefl. unfold nat_enc.
    destruct (N.leb_spec (nlen (cval a)) 255); [|lia]. destruct (N.leb_spec (nlen (cval b)) 255); [|lia].
    rewrite !N.mod_small by lia. cbn [app bytes_compare].
    destruct (N.eqb_spec (nlen (cval a)) (nlen (cval b))) as [L|L]; simpl negb; cbv iota.
    + rewrite L, N.ltb_irrefl.
      assert (LL : length (cval a) = length (cval b)) by (unfold nlen in L; lia).
      clear - LL. revert LL. generalize (cval a) (cval b). intros x. induction x; intros y LL; destruct y; try discriminate.
      * reflexivity.
      * cbn [app bytes_compare]. destruct (a0 <? n)%N; [reflexivity|]. destruct (n <? a0)%N; [reflexivity|].
        apply IHx. simpl in LL. lia.
    + destruct (N.ltb_spec (nlen (cval a)) (nlen (cval b))); [reflexivity|].
      destruct (N.ltb_spec (nlen (cval b)) (nlen (cval a))); [reflexivity|lia].
  - destruct (N.ltb_spec (ctyp a) (ctyp b)); [reflexivity|].
    destruct (N.ltb_spec (ctyp b) (ctyp a)); [reflexivity|lia].
Qed.

Lemma comp_enc_nonnil : forall c, comp_enc c <> [].
Proof. intros c H. pose proof (comp_enc_min c). rewrite H in H0. simpl in H0. lia. Qed.

Lemma name_compare_enc : forall n m, Forall comp_ok n -> Forall comp_ok m ->
  Forall (fun c => (nlen (cval c) <= 255)%N) n -> Forall (fun c => (nlen (cval c) <= 255)%N) m ->
  name_compare n m = bytes_compare (name_enc n) (name_enc m).
Proof.
  induction n; intros m O1 O2 S1 S2; destruct m as [|b m].
  - reflexivity.
  - unfold name_enc. simpl. pose proof (comp_enc_nonnil b). destruct (comp_enc b); [congruence|reflexivity].
  - unfold name_enc. simpl. pose proof (comp_enc_nonnil a). destruct (comp_enc a); [congruence|reflexivity].
  - inversion O1; inversion O2; inversion S1; inversion S2; subst.
    unfold name_enc. cbn [map concat]. rewrite comp_enc_compare by auto. cbn [name_compare].
    destruct (comp_compare a b =? 0)%Z; auto. apply IHn; auto.
Qed.

(** ** hash input *)
Lemma hash_collision : forall (h : buf -> N) x y,
  let n1 := [mkComp 8 (x ++ be 8 8 ++ y)] in
  let n2 := [mkComp 8 x; mkComp 8 y] in
  n1 <> n2 /\ name_hash h n1 = name_hash h n2.
Proof.
  intros. split; [discriminate|]. unfold name_hash, name_hash_input. subst n1 n2. simpl.
  f_equal. unfold comp_hash_input. cbn [ctyp cval]. rewrite ?app_nil_r, <- ?app_assoc. reflexivity.
Qed.

(** with the same list of value lengths the stream does determine the name *)
Lemma hash_input_inj_shape : forall n m, Forall comp_ok n -> Forall comp_ok m ->
  map (fun c => length (cval c)) n = map (fun c => length (cval c)) m ->
  name_hash_input n = name_hash_input m -> n = m.
Proof.
  induction n; intros m O1 O2 L E; destruct m as [|b m]; try discriminate; auto.
  inversion O1; inversion O2; subst. simpl in L. injection L as L1 L2.
  unfold name_hash_input in E. cbn [map concat] in E. unfold comp_hash_input at 1 3 in E. rewrite <- !app_assoc in E.
  assert (be 8 (ctyp a) = be 8 (ctyp b) /\ cval a ++ concat (map comp_hash_input n) = cval b ++ concat (map comp_hash_input m)).
  { apply app_eq_len; auto. }
  destruct H as [E1 E2]. apply app_eq_len in E2; auto. destruct E2 as [E2 E3].
  f_equal; [|apply IHn; auto]. apply comp_eta; auto.
  destruct H1 as [T1 _], H5 as [T2 _]. unfold u64_ok, two64 in *.
  rewrite <- (be_val 8 (ctyp a)), <- (be_val 8 (ctyp b)), E1; auto; rewrite pow_two64; auto.
Qed.
