From Verif Require Import Base BaseProofs NameModel TextModel TrieModel TrieSpec.

Lemma beqb_spec : forall a b, bytes_eqb a b = true <-> a = b.
Proof. intros. unfold bytes_eqb. destruct (list_eq_dec N.eq_dec a b); split; congruence. Qed.
Lemma beqb_refl : forall a, bytes_eqb a a = true.
Proof. intros. apply beqb_spec. auto. Qed.
Lemma beqb_neq : forall a b, a <> b -> bytes_eqb a b = false.
Proof. intros. unfold bytes_eqb. destruct (list_eq_dec N.eq_dec a b); congruence. Qed.
Lemma key_dec : forall a b : key, {a = b} + {a <> b}.
Proof. apply list_eq_dec. apply N.eq_dec. Qed.
Lemma path_dec : forall a b : path, {a = b} + {a <> b}.
Proof. apply list_eq_dec. apply key_dec. Qed.

(** maps *)
Lemma find_in : forall m k c, find_key m k = Some c -> In (k, c) m.
Proof.
  induction m as [|[k' c'] m IH]; simpl; intros k c H; [discriminate|].
  unfold bytes_eqb in H. destruct (list_eq_dec N.eq_dec k k'); [inversion H; subst; auto|auto].
Qed.
Lemma in_find : forall m k c, NoDup (map fst m) -> In (k, c) m -> find_key m k = Some c.
Proof.
  induction m as [|[k' c'] m IH]; simpl; intros k c ND I; [destruct I|]. destruct I as [E|I].
  - inversion E; subst. rewrite beqb_refl. auto.
  - inversion ND; subst. rewrite beqb_neq; auto. intros ->. apply H1. apply (in_map fst) in I. auto.
Qed.
Lemma find_none_in : forall m k, find_key m k = None -> ~ In k (map fst m).
Proof.
  induction m as [|[k' c'] m IH]; simpl; intros k H; auto.
  unfold bytes_eqb in H. destruct (list_eq_dec N.eq_dec k k'); [discriminate|]. intros [E|I]; [congruence|]. eapply IH; eauto.
Qed.
Lemma find_del : forall m k j, find_key (del_key m k) j = if bytes_eqb k j then None else find_key m j.
Proof.
  induction m as [|[k' c'] m IH]; intros k j; simpl; [destruct (bytes_eqb k j); auto|].
  unfold del_key in *. simpl. destruct (key_dec k k') as [->|N].
  - rewrite beqb_refl. simpl. rewrite IH. destruct (key_dec k' j) as [->|N].
    + rewrite beqb_refl. auto.
    + rewrite (beqb_neq k' j) by auto. rewrite (beqb_neq j k') by auto. auto.
  - rewrite (beqb_neq k k') by auto. simpl. rewrite IH. destruct (key_dec j k') as [->|N'].
    + rewrite beqb_refl, (beqb_neq k k') by auto. auto.
    + rewrite (beqb_neq j k') by auto. auto.
Qed.
Lemma del_in : forall m k e, In e (del_key m k) <-> In e m /\ fst e <> k.
Proof.
  intros. unfold del_key. rewrite filter_In. split; intros [A B]; split; auto.
  - intros E. rewrite E, beqb_refl in B. discriminate.
  - rewrite beqb_neq; auto.
Qed.
Lemma del_nodup : forall m k, NoDup (map fst m) -> NoDup (map fst (del_key m k)).
Proof.
  induction m as [|e m IH]; intros k H; simpl; [constructor|]. inversion H; subst. unfold del_key in *. simpl.
  destruct (bytes_eqb k (fst e)); simpl; auto. constructor; auto.
  intros I. apply H2. apply in_map_iff in I. destruct I as (x & Hx & I). apply filter_In in I. rewrite <- Hx. apply in_map. tauto.
Qed.
Lemma find_cons : forall m k c j, find_key ((k, c) :: m) j = if bytes_eqb j k then Some c else find_key m j.
Proof. reflexivity. Qed.

(** prefixes *)
Lemma prefix_refl : forall {A} (p : list A), prefix p p.
Proof. intros. exists []. rewrite app_nil_r. auto. Qed.
Lemma prefix_nil : forall {A} (p : list A), prefix [] p.
Proof. intros. exists p. auto. Qed.
Lemma prefix_snoc : forall {A} (p q : list A) k, prefix p (q ++ [k]) <-> prefix p q \/ p = q ++ [k].
Proof.
  intros. split.
  - intros (s & E). destruct s as [|x s] using rev_ind.
    + right. rewrite app_nil_r in E. auto.
    + left. rewrite app_assoc in E. apply app_inj_tail in E. destruct E as [-> _]. exists s. auto.
  - intros [(s & ->)| ->]; [exists (s ++ [k]); apply app_assoc_reverse|apply prefix_refl].
Qed.
Lemma snoc_not_prefix : forall {A} (q : list A) k, ~ prefix (q ++ [k]) q.
Proof. intros A q k (s & E). apply (f_equal (@length A)) in E. rewrite !app_length in E. simpl in E. lia. Qed.
Lemma prefix_dec : forall p q : path, {prefix p q} + {~ prefix p q}.
Proof.
  induction p as [|a p IH]; intros q; [left; apply prefix_nil|].
  destruct q as [|b q]; [right; intros (s & E); discriminate|].
  destruct (key_dec a b) as [->|N].
  - destruct (IH q) as [L|R]; [left; destruct L as (s & ->); exists s; auto|].
    right. intros (s & E). apply R. exists s. inversion E; auto.
  - right. intros (s & E). inversion E. congruence.
Qed.
Lemma prefix_trans : forall {A} (p q r : list A), prefix p q -> prefix q r -> prefix p r.
Proof. intros A p q r (s & ->) (t & ->). exists (s ++ t). apply app_assoc_reverse. Qed.
Lemma prefix_len_eq : forall {A} (p q : list A), prefix p q -> length p = length q -> p = q.
Proof.
  intros A p q (s & ->) H. rewrite app_length in H. destruct s; [rewrite app_nil_r; auto|simpl in H; lia].
Qed.

Section TrieProofs.
Variables (V : Type) (zero : V).
Notation store := (store V).
Notation tnode := (tnode V).

Lemma put_length : forall (h : store) n x, length (put h n x) = length h.
Proof. induction h; destruct n; simpl; auto. Qed.
Lemma put_nth : forall (h : store) n x m, (n < length h)%nat ->
  nth_error (put h n x) m = if Nat.eqb m n then Some x else nth_error h m.
Proof.
  induction h as [|y h IH]; intros n x m H; simpl in H; [lia|]. destruct n, m; simpl; auto. apply IH. lia.
Qed.
Lemma nth_lt : forall (h : store) n x, nth_error h n = Some x -> (n < length h)%nat.
Proof. intros. apply nth_error_Some. congruence. Qed.
Lemma get_ok : forall (h : store) n x, nth_error h n = Some x -> get h n = Ok x.
Proof. intros. unfold get. rewrite H. auto. Qed.

(** every child map holds exactly children, and no deleted node *)
Definition child_ok (h : store) (n : nat) (k : key) (c : nat) : Prop :=
  exists y, nth_error h c = Some y /\ t_par y = Some n /\ t_key y = k /\ t_chd y <> None.

Definition Inv (h : store) : Prop :=
  (exists r m, nth_error h 0 = Some r /\ t_par r = None /\ t_dep r = O /\ t_chd r = Some m) /\
  (forall n x, nth_error h n = Some x -> n <> O -> exists p y, t_par x = Some p /\ (p < n)%nat /\
     nth_error h p = Some y /\ t_dep x = S (t_dep y)) /\
  (forall n x m, nth_error h n = Some x -> t_chd x = Some m -> NoDup (map fst m) /\
     forall k c, In (k, c) m -> child_ok h n k c).

Definition step (h : store) (n : nat) (k : key) : option nat :=
  match nth_error h n with Some x => chd_get (t_chd x) k | None => None end.

Fixpoint walk (h : store) (n : nat) (p : path) : option nat :=
  match p with
  | [] => Some n
  | k :: p' => match step h n k with Some c => walk h c p' | None => None end
  end.

Lemma walk_app : forall (h : store) p q n, walk h n (p ++ q) = match walk h n p with Some m => walk h m q | None => None end.
Proof. induction p; intros; simpl; auto. destruct (step h n a); auto. Qed.
Lemma walk_snoc : forall (h : store) p k n, walk h n (p ++ [k]) = match walk h n p with Some m => step h m k | None => None end.
Proof. intros. rewrite walk_app. destruct (walk h n p); auto. simpl. destruct (step h n0 k); auto. Qed.

Lemma step_child : forall h n k c, Inv h -> step h n k = Some c -> exists x y, nth_error h n = Some x /\
  nth_error h c = Some y /\ t_par y = Some n /\ t_key y = k /\ t_chd y <> None /\ t_dep y = S (t_dep x) /\ c <> O.
Proof.
  intros h n k c (I0 & I1 & I2) S. unfold step in S. destruct (nth_error h n) as [x|] eqn:E; [|discriminate].
  unfold chd_get in S. destruct (t_chd x) as [m|] eqn:M; [|discriminate].
  apply find_in in S. destruct (I2 n x m E M) as [_ C]. destruct (C k c S) as (y & Y1 & Y2 & Y3 & Y4).
  assert (c <> O).
  { intros ->. destruct I0 as (r & m' & R1 & R2 & _). congruence. }
  destruct (I1 c y Y1 H) as (p & z & P1 & P2 & P3 & P4).
  exists x, y. split; auto. split; auto. split; auto. split; auto. split; auto. split; auto.
  assert (p = n) by congruence. subst p. congruence.
Qed.

(** what a walk from the root ends in *)
Lemma walk_root : forall h p n, Inv h -> walk h 0 p = Some n -> exists x, nth_error h n = Some x /\ t_dep x = length p /\ t_chd x <> None.
Proof.
  intros h p. induction p as [|k p IH] using rev_ind; intros n I W.
  - inversion W; subst. destruct I as ((r & m & R1 & R2 & R3 & R4) & _). exists r. split; auto. split; auto. congruence.
  - rewrite walk_snoc in W. destruct (walk h 0 p) as [q|] eqn:E; [|discriminate].
    destruct (IH q I eq_refl) as (x & X1 & X2 & X3). destruct (step_child h q k n I W) as (x' & y & A1 & A2 & A3 & A4 & A5 & A6 & A7).
    exists y. split; auto. split; auto. rewrite A6, app_length. simpl. assert (x = x') by congruence. subst. lia.
Qed.

Lemma walk_inj : forall h p q n, Inv h -> walk h 0 p = Some n -> walk h 0 q = Some n -> p = q.
Proof.
  intros h p. induction p as [|k p IH] using rev_ind; intros q n I W1 W2.
  - inversion W1; subst. destruct q as [|j q] using rev_ind; auto.
    rewrite walk_snoc in W2. destruct (walk h 0 q); [|discriminate]. apply step_child in W2; auto.
    destruct W2 as (? & ? & ? & ? & ? & ? & ? & ? & Q). congruence.
  - rewrite walk_snoc in W1. destruct (walk h 0 p) as [a|] eqn:E1; [|discriminate]. apply step_child in W1; auto.
    destruct W1 as (x & y & X1 & X2 & X3 & X4 & X5 & X6 & X7).
    destruct q as [|j q] using rev_ind; [inversion W2; subst; congruence|]. clear IHq.
    rewrite walk_snoc in W2. destruct (walk h 0 q) as [b|] eqn:E2; [|discriminate]. apply step_child in W2; auto.
    destruct W2 as (x' & y' & Y1 & Y2 & Y3 & Y4 & Y5 & Y6 & Y7).
    assert (y = y') by congruence. subst y'. assert (a = b) by congruence. subst b.
    rewrite (IH q a I eq_refl E2). congruence.
Qed.

Definition abs (h : store) (p : path) : option V :=
  match walk h 0 p with
  | Some n => match nth_error h n with Some x => Some (t_val x) | None => None end
  | None => None
  end.

Lemma abs_walk : forall h p v, abs h p = Some v -> exists n x, walk h 0 p = Some n /\ nth_error h n = Some x /\ t_val x = v.
Proof.
  intros h p v A. unfold abs in A. destruct (walk h 0 p) as [n|]; [|discriminate].
  destruct (nth_error h n) as [x|] eqn:E; [|discriminate]. inversion A. exists n, x. auto.
Qed.
Lemma walk_abs : forall h p n x, walk h 0 p = Some n -> nth_error h n = Some x -> abs h p = Some (t_val x).
Proof. intros. unfold abs. rewrite H, H0. auto. Qed.
Lemma abs_none : forall h p, Inv h -> abs h p = None <-> walk h 0 p = None.
Proof.
  intros h p I. split; unfold abs; intros H.
  - destruct (walk h 0 p) as [n|] eqn:E; auto. destruct (walk_root h p n I E) as (x & X & _). rewrite X in H. discriminate.
  - rewrite H. auto.
Qed.

Lemma node_res_walk : forall h p n, Inv h -> walk h 0 p = Some n -> exists v, node_res h (Some n) = Ok (ONode (length p) v) /\ abs h p = Some v.
Proof.
  intros h p n I W. destruct (walk_root h p n I W) as (x & X1 & X2 & X3). exists (t_val x).
  unfold node_res, depth, value. rewrite (get_ok _ _ _ X1). cbn [bind]. rewrite X2. split; auto. apply walk_abs with n; auto.
Qed.

(** ** lookups *)

Lemma exact_loop : forall h nm, Inv h -> forall fuel p n, walk h 0 p = Some n -> prefix p nm -> (length nm - length p < fuel)%nat ->
  exact_match fuel h n nm = Ok (walk h 0 nm).
Proof.
  intros h nm I. induction fuel; intros p n W P F; [lia|]. cbn [exact_match].
  destruct (walk_root h p n I W) as (x & X1 & X2 & _). rewrite (get_ok _ _ _ X1). cbn [bind]. rewrite X2.
  destruct P as (s & ->). rewrite app_length in *. destruct s as [|c s].
  - rewrite app_nil_r. simpl length. destruct (Nat.leb_spec (length p + 0) (length p)); [|lia]. rewrite W. auto.
  - destruct (Nat.leb_spec (length p + length (c :: s)) (length p)); [simpl in *; lia|].
    rewrite nth_error_app2 by lia. rewrite Nat.sub_diag. cbn [nth_error].
    assert (EQ : p ++ c :: s = (p ++ [c]) ++ s) by (rewrite <- app_assoc; auto).
    assert (ST : walk h 0 (p ++ [c]) = step h n c) by (rewrite walk_snoc, W; auto).
    unfold step in ST. rewrite X1 in ST. destruct (chd_get (t_chd x) c) as [ch|] eqn:E.
    + apply IHfuel with (p ++ [c]); auto. { exists s; auto. } simpl in F. rewrite !app_length. simpl. lia.
    + rewrite EQ, walk_app, ST. auto.
Qed.

Lemma t_exact_ok : forall h nm, Inv h -> t_exact h nm = Ok (walk h 0 nm).
Proof. intros. apply exact_loop with []; auto. apply prefix_nil. simpl. lia. Qed.

Lemma prefix_loop : forall h nm, Inv h -> forall fuel p n, walk h 0 p = Some n -> prefix p nm -> (length nm - length p < fuel)%nat ->
  exists q m, prefix_match fuel h n nm = Ok m /\ walk h 0 q = Some m /\ prefix q nm /\
    (forall q', prefix q' nm -> walk h 0 q' <> None -> (length q' <= length q)%nat).
Proof.
  intros h nm I. induction fuel; intros p n W P F; [lia|]. cbn [prefix_match].
  destruct (walk_root h p n I W) as (x & X1 & X2 & _). rewrite (get_ok _ _ _ X1). cbn [bind]. rewrite X2.
  destruct P as (s & ->). rewrite app_length in *. destruct s as [|c s].
  - rewrite app_nil_r. simpl length. destruct (Nat.leb_spec (length p + 0) (length p)); [|lia].
    exists p, n. split; auto. split; auto. split; [apply prefix_refl|]. intros q' (t & E) _. rewrite E, app_length. lia.
  - destruct (Nat.leb_spec (length p + length (c :: s)) (length p)); [simpl in *; lia|].
    rewrite nth_error_app2 by lia. rewrite Nat.sub_diag. cbn [nth_error].
    assert (EQ : p ++ c :: s = (p ++ [c]) ++ s) by (rewrite <- app_assoc; auto).
    assert (ST : walk h 0 (p ++ [c]) = step h n c) by (rewrite walk_snoc, W; auto).
    unfold step in ST. rewrite X1 in ST. destruct (chd_get (t_chd x) c) as [ch|] eqn:E.
    + apply IHfuel with (p ++ [c]); auto. { exists s; auto. } simpl in F. rewrite !app_length. simpl. lia.
    + exists p, n. split; auto. split; auto. split; [exists (c :: s); auto|].
      intros q' (t & E') Hq. destruct (Nat.le_gt_cases (length q') (length p)); auto. exfalso. apply Hq.
      assert (exists u, q' = (p ++ [c]) ++ u) as (u & ->).
      { assert (Q : firstn (length q') ((p ++ [c]) ++ s) = q') by (rewrite <- EQ, E', firstn_app, Nat.sub_diag, firstn_all; simpl; apply app_nil_r).
        rewrite firstn_app in Q. rewrite firstn_all2 in Q by (rewrite app_length; simpl; lia). eauto. }
      rewrite walk_app, ST. auto.
Qed.

Lemma t_prefix_ok : forall h nm, Inv h -> exists q m, t_prefix h nm = Ok m /\ walk h 0 q = Some m /\ prefix q nm /\
    (forall q', prefix q' nm -> walk h 0 q' <> None -> (length q' <= length q)%nat).
Proof. intros. apply prefix_loop with []; auto. apply prefix_nil. simpl. lia. Qed.

(** ** insertion *)
Lemma add_child_ok : forall h p n x c, Inv h -> walk h 0 p = Some n -> nth_error h n = Some x -> step h n c = None ->
  exists h' ch, add_child zero h n x c = Ok (h', ch) /\ Inv h' /\ walk h' 0 (p ++ [c]) = Some ch /\
    abs h' (p ++ [c]) = Some zero /\
    (forall r, r <> p ++ [c] -> abs h' r = abs h r).
Proof.
  intros h p n x c I W X SS. destruct (walk_root h p n I W) as (x0 & X1 & X2 & X3). assert (x0 = x) by congruence. subst x0.
  unfold add_child. destruct (t_chd x) as [m|] eqn:M; [|congruence].
  pose proof (nth_lt _ _ _ X) as NL.
  set (x' := with_chd x (Some ((c, length h) :: m))). set (y' := mkNode zero c (Some n) (S (t_dep x)) (Some [])).
  set (h' := put h n x' ++ [y']).
  assert (NTH : forall i, nth_error h' i = if Nat.eqb i n then Some x' else if Nat.eqb i (length h) then Some y' else nth_error h i).
  { intros i. unfold h'. destruct (Nat.lt_ge_cases i (length h)) as [L|L].
    - rewrite nth_error_app1 by (rewrite put_length; auto). rewrite put_nth by auto.
      destruct (Nat.eqb_spec i (length h)); [lia|]. auto.
    - rewrite nth_error_app2 by (rewrite put_length; auto). rewrite put_length.
      destruct (Nat.eqb_spec i n); [lia|]. destruct (Nat.eqb_spec i (length h)) as [->|Ni].
      + rewrite Nat.sub_diag. auto.
      + rewrite (proj2 (nth_error_None h i)) by auto. apply nth_error_None. simpl. lia. }
  assert (SN : find_key m c = None).
  { unfold step in SS. rewrite X, M in SS. auto. }
  assert (I' : Inv h').
  { pose proof I as (I0 & I1 & I2). split; [|split].
    - destruct I0 as (r & mr & R1 & R2 & R3 & R4). pose proof (nth_lt _ _ _ R1).
      destruct (Nat.eq_dec n 0) as [->|N0].
      + exists x', ((c, length h) :: m). rewrite NTH. simpl. assert (r = x) by congruence. subst r. repeat split; auto.
      + exists r, mr. rewrite NTH. destruct (Nat.eqb_spec 0 n); [lia|]. destruct (Nat.eqb_spec 0 (length h)); [lia|]. auto.
    - intros i z Hz Hi. rewrite NTH in Hz.
      assert (UP : forall q, (q < length h)%nat -> forall w, nth_error h q = Some w -> exists w', nth_error h' q = Some w' /\ t_dep w' = t_dep w).
      { intros q Lq w Hw. rewrite NTH. destruct (Nat.eqb_spec q n) as [->|].
        - exists x'. split; auto. simpl. congruence.
        - destruct (Nat.eqb_spec q (length h)); [lia|]. eauto. }
      destruct (Nat.eqb_spec i n) as [->|Nn].
      + inversion Hz; subst z. destruct (I1 n x X Hi) as (q & w & Q1 & Q2 & Q3 & Q4).
        destruct (UP q (nth_lt _ _ _ Q3) w Q3) as (w' & U1 & U2). exists q, w'. simpl. repeat split; auto. congruence.
      + destruct (Nat.eqb_spec i (length h)) as [->|Nl].
        * inversion Hz; subst z. destruct (UP n NL x X) as (w' & U1 & U2). exists n, w'. simpl. repeat split; auto. 
        * destruct (I1 i z Hz Hi) as (q & w & Q1 & Q2 & Q3 & Q4).
          destruct (UP q (nth_lt _ _ _ Q3) w Q3) as (w' & U1 & U2). exists q, w'. repeat split; auto. congruence.
    - assert (CO : forall j k d, child_ok h j k d -> child_ok h' j k d).
      { intros j k d (w & W1 & W2 & W3 & W4). pose proof (nth_lt _ _ _ W1). unfold child_ok. rewrite NTH.
        destruct (Nat.eqb_spec d n) as [->|].
        - exists x'. assert (w = x) by congruence. subst w. simpl. repeat split; auto. discriminate.
        - destruct (Nat.eqb_spec d (length h)); [lia|]. exists w. auto. }
      intros i z mz Hz Hm. rewrite NTH in Hz. destruct (Nat.eqb_spec i n) as [->|Nn].
      + inversion Hz; subst z. simpl in Hm. inversion Hm; subst mz. destruct (I2 n x m X M) as [ND C].
        split. { simpl. constructor; auto. apply find_none_in; auto. }
        intros k d [E|In']; [|apply CO; auto]. inversion E; subst. exists y'. rewrite NTH.
        destruct (Nat.eqb_spec (length h) n); [lia|]. rewrite Nat.eqb_refl. simpl. repeat split; auto. discriminate.
      + destruct (Nat.eqb_spec i (length h)) as [->|Nl].
        * inversion Hz; subst z. simpl in Hm. inversion Hm; subst mz. split; [constructor|intros k d []].
        * destruct (I2 i z mz Hz Hm) as [ND C]. split; auto. }
  assert (ST : forall i k, step h' i k = if Nat.eqb i n && bytes_eqb k c then Some (length h) else step h i k).
  { intros i k. unfold step. rewrite NTH. destruct (Nat.eqb_spec i n) as [->|].
    - rewrite X, M. unfold x', with_chd. cbn [t_chd chd_get andb]. rewrite find_cons. destruct (bytes_eqb k c); auto.
    - cbn [andb]. destruct (Nat.eqb_spec i (length h)) as [->|]; auto.
      rewrite (proj2 (nth_error_None h (length h))) by auto. reflexivity. }
  assert (WK : forall r, (~ prefix (p ++ [c]) r -> walk h' 0 r = walk h 0 r) /\ (walk h 0 r <> None -> walk h' 0 r = walk h 0 r)).
  { intros r. induction r as [|j r IH] using rev_ind; [split; auto|]. rewrite !walk_snoc.
    assert (NPr : walk h 0 r <> None -> ~ prefix (p ++ [c]) r).
    { intros Hw (t & ->). apply Hw. rewrite walk_app, walk_snoc, W, SS. auto. }
    assert (KEY : walk h 0 r <> None -> r ++ [j] <> p ++ [c] -> match walk h 0 r with Some m0 => step h' m0 j | None => None end = match walk h 0 r with Some m0 => step h m0 j | None => None end).
    { intros Hw Nq. destruct (walk h 0 r) as [a|] eqn:Er; auto. rewrite ST. destruct (Nat.eqb_spec a n) as [->|]; auto.
      cbn [andb]. destruct (key_dec j c) as [->|Nj]; [|rewrite beqb_neq; auto].
      exfalso. apply Nq. f_equal. apply (walk_inj h r p n); auto. }
    split.
    - intros NP. assert (~ prefix (p ++ [c]) r) by (intros Q; apply NP; apply prefix_snoc; auto).
      rewrite (proj1 IH H). destruct (walk h 0 r) as [a|] eqn:Er; auto. rewrite KEY; auto; [congruence|].
      intros E. apply NP. rewrite E. apply prefix_refl.
    - intros Hn. assert (Hr : walk h 0 r <> None) by (destruct (walk h 0 r); congruence).
      rewrite (proj2 IH Hr). apply KEY; auto. intros E. apply app_inj_tail in E. destruct E as [-> ->]. rewrite W in Hn. congruence. }
  assert (WN : walk h' 0 (p ++ [c]) = Some (length h)).
  { rewrite walk_snoc, (proj2 (WK p)) by congruence. rewrite W, ST, Nat.eqb_refl, beqb_refl. auto. }
  exists h', (length h). split; auto. split; auto. split; auto. split.
  - unfold abs. rewrite WN, NTH. destruct (Nat.eqb_spec (length h) n); [lia|]. rewrite Nat.eqb_refl. auto.
  - intros r Nr. destruct (prefix_dec (p ++ [c]) r) as [P|P].
    + (* strictly below the new node there is nothing *)
      assert (walk h 0 r = None).
      { destruct P as (t & ->). rewrite walk_app, walk_snoc, W, SS. auto. }
      assert (walk h' 0 r = None).
      { destruct P as (t & ->). destruct t as [|k t]; [rewrite app_nil_r in Nr; congruence|].
        rewrite walk_app, WN. cbn [walk]. rewrite ST. destruct (Nat.eqb_spec (length h) n); [lia|]. cbn [andb].
        unfold step. rewrite (proj2 (nth_error_None h (length h))) by auto. auto. }
      unfold abs. rewrite H, H0. auto.
    + unfold abs. rewrite (proj1 (WK r) P). destruct (walk h 0 r) as [a|] eqn:Er; auto.
      destruct (walk_root h r a I Er) as (w & W1 & _). pose proof (nth_lt _ _ _ W1).
      rewrite NTH. destruct (Nat.eqb_spec a n) as [->|]; [rewrite X; auto|]. destruct (Nat.eqb_spec a (length h)); [lia|auto].
Qed.

Lemma abs_prefix_closed : forall h p q, Inv h -> prefix p q -> abs h q <> None -> abs h p <> None.
Proof.
  intros h p q I (s & ->) H E. apply abs_none in E; auto. apply H. apply abs_none; auto. rewrite walk_app, E. auto.
Qed.

Lemma first_loop : forall pred nm fuel h p n, Inv h -> walk h 0 p = Some n -> prefix p nm -> (length nm - length p < fuel)%nat ->
  exists h' m q, first_satisfy_or_new zero fuel pred h n nm = Ok (h', m) /\ Inv h' /\ walk h' 0 q = Some m /\
    prefix p q /\ prefix q nm /\ a_added zero (abs h) q (abs h') /\
    (forall r, prefix r q -> prefix p r -> r <> q -> pred (a_val zero (abs h) r) = false) /\
    (q = nm \/ pred (a_val zero (abs h) q) = true).
Proof.
  intros pred nm. induction fuel; intros h p n I W P F; [lia|]. cbn [first_satisfy_or_new].
  destruct (walk_root h p n I W) as (x & X1 & X2 & _). rewrite (get_ok _ _ _ X1). cbn [bind]. rewrite X2.
  pose proof (walk_abs _ _ _ _ W X1) as AP.
  assert (STAY : p = nm \/ pred (t_val x) = true -> exists h' m q, Ok (h, n) = Ok (h', m) /\ Inv h' /\ walk h' 0 q = Some m /\
    prefix p q /\ prefix q nm /\ a_added zero (abs h) q (abs h') /\
    (forall r, prefix r q -> prefix p r -> r <> q -> pred (a_val zero (abs h) r) = false) /\
    (q = nm \/ pred (a_val zero (abs h) q) = true)).
  { intros D. exists h, n, p. split; auto. split; auto. split; auto. split; [apply prefix_refl|]. split; auto. split.
    - split; auto. intros r Hr. unfold a_val. destruct (abs h r) eqn:E; auto.
      exfalso. apply (abs_prefix_closed h r p I Hr); auto. congruence.
    - split.
      + intros r H1 H2 N. exfalso. apply N. apply prefix_len_eq; auto.
        destruct H1 as (s1 & E1), H2 as (s2 & E2). rewrite E1, app_length in *. apply (f_equal (@length _)) in E2. rewrite !app_length in E2.
        apply (f_equal (@length _)) in E1. rewrite app_length in E1. lia.
      + destruct D as [D|D]; auto. right. unfold a_val. rewrite AP. auto. }
  destruct (Nat.leb_spec (length nm) (length p)) as [L|L].
  { cbn [orb]. apply STAY. left. apply prefix_len_eq; auto. destruct P as (s & ->). rewrite app_length in *. lia. }
  cbn [orb]. destruct (pred (t_val x)) eqn:PR; [apply STAY; auto|].
  destruct P as (s & ->). rewrite app_length in *. destruct s as [|c s]; [simpl in *; lia|].
  rewrite nth_error_app2 by lia. rewrite Nat.sub_diag. cbn [nth_error].
  assert (EQ : p ++ c :: s = (p ++ [c]) ++ s) by (rewrite <- app_assoc; auto).
  assert (ST : walk h 0 (p ++ [c]) = step h n c) by (rewrite walk_snoc, W; auto).
  assert (PP : forall r q, prefix r q -> prefix p r -> prefix (p ++ [c]) q -> r = p \/ prefix (p ++ [c]) r).
  { intros r q (s1 & E1) (s2 & ->) (s3 & E3). destruct s2 as [|d s2]; [left; apply app_nil_r|right].
    rewrite E3 in E1. rewrite <- !app_assoc in E1. apply app_inv_head in E1. inversion E1. exists s2. rewrite <- app_assoc. auto. }
  assert (FF : (length p + length (c :: s) - length (p ++ [c]) < fuel)%nat) by (simpl in F; rewrite !app_length; simpl; lia).
  destruct (chd_get (t_chd x) c) as [ch|] eqn:E.
  - assert (ST' : walk h 0 (p ++ [c]) = Some ch) by (rewrite ST; unfold step; rewrite X1; auto).
    destruct (IHfuel h (p ++ [c]) ch I ST') as (h' & m & q & R & I' & W' & P1 & P2 & AD & NO & FI); auto.
    { exists s; auto. }
    exists h', m, q. split; auto. split; auto. split; auto. split; [eapply prefix_trans; [|exact P1]; exists [c]; auto|].
    split; auto. split; auto. split; auto.
    intros r H1 H2 N. destruct (PP r q H1 H2 P1) as [->|H3]; [|apply NO; auto]. unfold a_val. rewrite AP. auto.
  - assert (SN : step h n c = None) by (unfold step; rewrite X1; auto).
    destruct (add_child_ok h p n x c I W X1 SN) as (h1 & ch & A1 & I1 & W1 & Z1 & O1).
    rewrite A1. cbn [bind fst snd].
    destruct (IHfuel h1 (p ++ [c]) ch I1 W1) as (h' & m & q & R & I' & W' & P1 & P2 & AD & NO & FI); auto.
    { exists s; auto. }
    assert (AN : abs h (p ++ [c]) = None) by (apply abs_none; auto; rewrite ST; auto).
    assert (AV : forall r, a_val zero (abs h1) r = a_val zero (abs h) r).
    { intros r. unfold a_val. destruct (path_dec r (p ++ [c])) as [->|Nr]; [rewrite Z1, AN; auto|rewrite O1; auto]. }
    exists h', m, q. split; auto. split; auto. split; auto. split; [eapply prefix_trans; [|exact P1]; exists [c]; auto|].
    split; auto. split; [|split].
    + destruct AD as [AD1 AD2]. split.
      * intros r Hr. rewrite AD1, AV; auto.
      * intros r Hr. rewrite AD2 by auto. apply O1. intros ->. auto.
    + intros r H1 H2 N. destruct (PP r q H1 H2 P1) as [->|H3]; [|rewrite <- AV; apply NO; auto]. unfold a_val. rewrite AP. auto.
    + destruct FI as [->|FI]; auto. right. rewrite <- AV. auto.
Qed.

(** ** values *)
Lemma set_value_ok : forall h n x v, Inv h -> nth_error h n = Some x -> exists h', set_value h n v = Ok h' /\ Inv h' /\
  (forall p, walk h' 0 p = walk h 0 p) /\ (forall m, nth_error h' m = if Nat.eqb m n then Some (with_val x v) else nth_error h m).
Proof.
  intros h n x v (I0 & I1 & I2) X. unfold set_value. rewrite (get_ok _ _ _ X). cbn [bind].
  pose proof (nth_lt _ _ _ X) as NL.
  set (h' := put h n (with_val x v)).
  assert (NTH : forall m, nth_error h' m = if Nat.eqb m n then Some (with_val x v) else nth_error h m).
  { intros m. unfold h'. apply put_nth. auto. }
  assert (FW : forall m y, nth_error h m = Some y -> exists y', nth_error h' m = Some y' /\ t_par y' = t_par y /\ t_key y' = t_key y /\ t_dep y' = t_dep y /\ t_chd y' = t_chd y).
  { intros m y Y. rewrite NTH. destruct (Nat.eqb_spec m n) as [->|].
    - assert (y = x) by congruence. subst. exists (with_val x v). auto.
    - exists y. auto. }
  assert (BW : forall m y', nth_error h' m = Some y' -> exists y, nth_error h m = Some y /\ t_par y' = t_par y /\ t_key y' = t_key y /\ t_dep y' = t_dep y /\ t_chd y' = t_chd y).
  { intros m y Y. rewrite NTH in Y. destruct (Nat.eqb_spec m n) as [->|].
    - inversion Y; subst. exists x. auto.
    - exists y. auto. }
  exists h'. split; auto. split; [|split; auto].
  - split; [|split].
    + destruct I0 as (r & m & R1 & R2 & R3 & R4). destruct (FW _ _ R1) as (r' & F1 & F2 & F3 & F4 & F5). exists r', m. repeat split; congruence.
    + intros i z Hz Hi. destruct (BW _ _ Hz) as (z0 & B1 & B2 & B3 & B4 & B5). destruct (I1 i z0 B1 Hi) as (p & y & P1 & P2 & P3 & P4).
      destruct (FW _ _ P3) as (y' & F1 & F2 & F3 & F4 & F5). exists p, y'. repeat split; auto; congruence.
    + intros i z m Hz Hm. destruct (BW _ _ Hz) as (z0 & B1 & B2 & B3 & B4 & B5). rewrite B5 in Hm. destruct (I2 i z0 m B1 Hm) as [ND C].
      split; auto. intros k c Hc. destruct (C k c Hc) as (y & Y1 & Y2 & Y3 & Y4). destruct (FW _ _ Y1) as (y' & F1 & F2 & F3 & F4 & F5).
      exists y'. repeat split; congruence.
  - assert (SE : forall m k, step h' m k = step h m k).
    { intros m k. unfold step. destruct (nth_error h' m) as [y'|] eqn:E.
      - destruct (BW _ _ E) as (y & -> & _ & _ & _ & ->). auto.
      - destruct (nth_error h m) as [y|] eqn:E2; auto. destruct (FW _ _ E2) as (y' & F & _). congruence. }
    intros p. generalize 0%nat. induction p as [|k p IH]; intros s; simpl; auto. rewrite SE. destruct (step h s k); auto.
Qed.

(** ** deletion *)
(** unlink node n from its parent p *)
Definition unlink (h : store) (n p : nat) (x y : tnode) : store :=
  put (put h n (with_chd x None)) p (with_chd y (chd_del (t_chd y) (t_key x))).

Lemma unlink_nth : forall h n p x y m, nth_error h n = Some x -> nth_error h p = Some y -> n <> p ->
  nth_error (unlink h n p x y) m =
  if Nat.eqb m p then Some (with_chd y (chd_del (t_chd y) (t_key x)))
  else if Nat.eqb m n then Some (with_chd x None) else nth_error h m.
Proof.
  intros. unfold unlink. pose proof (nth_lt _ _ _ H). pose proof (nth_lt _ _ _ H0).
  rewrite put_nth by (rewrite put_length; auto). destruct (Nat.eqb m p); auto. rewrite put_nth by auto. auto.
Qed.

Lemma unlink_length : forall h n p x y, length (unlink h n p x y) = length h.
Proof. intros. unfold unlink. rewrite !put_length. auto. Qed.

Lemma unlink_inv : forall h n p x y, Inv h -> nth_error h n = Some x -> nth_error h p = Some y -> t_par x = Some p -> (p < n)%nat ->
  Inv (unlink h n p x y).
Proof.
  intros h n p x y (I0 & I1 & I2) X Y PX LT.
  assert (NP : n <> p) by lia.
  pose proof (fun m => unlink_nth h n p x y m X Y NP) as NTH. set (h' := unlink h n p x y) in *.
  assert (FW : forall m z, nth_error h m = Some z -> exists z', nth_error h' m = Some z' /\ t_par z' = t_par z /\ t_key z' = t_key z /\ t_dep z' = t_dep z /\ (m <> n -> t_chd z <> None -> t_chd z' <> None)).
  { intros m z Z. rewrite NTH. destruct (Nat.eqb_spec m p) as [->|].
    - assert (z = y) by congruence. subst. eexists. split; [reflexivity|]. repeat split; auto. cbn [t_chd with_chd]. intros _. destruct (t_chd y); simpl; congruence.
    - destruct (Nat.eqb_spec m n) as [->|].
      + assert (z = x) by congruence. subst. eexists. split; [reflexivity|]. repeat split; auto.
      + exists z. auto. }
  assert (BW : forall m z', nth_error h' m = Some z' -> exists z, nth_error h m = Some z /\ t_par z' = t_par z /\ t_key z' = t_key z /\ t_dep z' = t_dep z /\
     (t_chd z' = None \/ (m = p /\ t_chd z' = chd_del (t_chd y) (t_key x)) \/ (m <> p /\ m <> n /\ t_chd z' = t_chd z))).
  { intros m z Z. rewrite NTH in Z. destruct (Nat.eqb_spec m p) as [->|].
    - inversion Z; subst. exists y. repeat split; auto.
    - destruct (Nat.eqb_spec m n) as [->|].
      + inversion Z; subst. exists x. repeat split; auto.
      + exists z. repeat split; auto. }
  assert (CO : forall i k c, child_ok h i k c -> c <> n -> child_ok h' i k c).
  { intros i k c (z & Z1 & Z2 & Z3 & Z4) N. destruct (FW _ _ Z1) as (z' & F1 & F2 & F3 & F4 & F5).
    exists z'. repeat split; try congruence. auto. }
  split; [|split].
  - destruct I0 as (r & m & R1 & R2 & R3 & R4). destruct (FW _ _ R1) as (r' & F1 & F2 & F3 & F4 & F5).
    assert (0 <> n)%nat by (intros <-; assert (r = x) by congruence; subst; congruence).
    destruct (t_chd r') as [m'|] eqn:E; [|exfalso; apply F5; auto; congruence].
    exists r', m'. repeat split; congruence.
  - intros i z' Hz Hi. destruct (BW _ _ Hz) as (z & B1 & B2 & B3 & B4 & _). destruct (I1 i z B1 Hi) as (q & w & Q1 & Q2 & Q3 & Q4).
    destruct (FW _ _ Q3) as (w' & F1 & F2 & F3 & F4 & _). exists q, w'. repeat split; auto; congruence.
  - intros i z' m Hz Hm. destruct (BW _ _ Hz) as (z & B1 & B2 & B3 & B4 & [B5|[(B5 & B6)|(B5 & B6 & B7)]]).
    + congruence.
    + subst i. assert (z = y) by congruence. subst z. rewrite Hm in B6. destruct (t_chd y) as [my|] eqn:EY; simpl in B6; inversion B6; subst m.
      destruct (I2 p y my Y EY) as [ND C]. split; [apply del_nodup; auto|]. intros k c Hc. apply del_in in Hc. simpl in Hc. destruct Hc as [Hc Nk].
      apply CO; auto. intros ->. destruct (C k n Hc) as (w & W1 & W2 & W3 & W4). congruence.
    + rewrite B7 in Hm. destruct (I2 i z m B1 Hm) as [ND C]. split; auto. intros k c Hc. apply CO; auto.
      intros ->. destruct (C k n Hc) as (w & W1 & W2 & W3 & W4). congruence.
Qed.

Lemma unlink_walk : forall h n p x y q k, Inv h -> nth_error h n = Some x -> nth_error h p = Some y ->
  walk h 0 q = Some p -> walk h 0 (q ++ [k]) = Some n ->
  forall r, (prefix (q ++ [k]) r -> walk (unlink h n p x y) 0 r = None) /\
            (~ prefix (q ++ [k]) r -> walk (unlink h n p x y) 0 r = walk h 0 r).
Proof.
  intros h n p x y q k I X Y WP WN.
  assert (ST : step h p k = Some n) by (rewrite walk_snoc, WP in WN; auto).
  destruct (step_child h p k n I ST) as (y0 & x0 & A1 & A2 & A3 & A4 & A5 & A6 & A7).
  assert (x0 = x) by congruence. assert (y0 = y) by congruence. subst x0 y0.
  assert (NP : n <> p).
  { intros ->. assert (x = y) by congruence. subst. lia. }
  pose proof (fun m => unlink_nth h n p x y m X Y NP) as NTH. set (h' := unlink h n p x y) in *.
  assert (SE : forall m j, m <> n -> step h' m j = if Nat.eqb m p && bytes_eqb k j then None else step h m j).
  { intros m j Nm. unfold step. rewrite NTH. destruct (Nat.eqb_spec m p) as [->|].
    - rewrite Y. cbn [t_chd with_chd andb]. rewrite A4. unfold chd_del, chd_get. destruct (t_chd y) as [my|]; [apply find_del|destruct (bytes_eqb k j); auto].
    - destruct (Nat.eqb_spec m n); [congruence|]. auto. }
  assert (BASE : forall r, ~ prefix (q ++ [k]) r -> walk h' 0 r = walk h 0 r).
  { induction r as [|j r IH] using rev_ind; [auto|]. intros NPr.
    assert (~ prefix (q ++ [k]) r) by (intros Q; apply NPr; apply prefix_snoc; auto).
    rewrite !walk_snoc, IH by auto. destruct (walk h 0 r) as [m|] eqn:Er; auto.
    assert (m <> n).
    { intros ->. apply H. rewrite (walk_inj h r (q ++ [k]) n); auto. apply prefix_refl. }
    rewrite SE by auto. destruct (Nat.eqb_spec m p) as [->|]; auto. cbn [andb].
    assert (r = q) by (eapply walk_inj; eauto). subst r.
    destruct (key_dec k j) as [->|Nj]; [exfalso; apply NPr; apply prefix_refl|]. rewrite beqb_neq; auto. }
  intros r. split; [|apply BASE].
  intros (s & ->). rewrite walk_app, walk_snoc, BASE by apply snoc_not_prefix. rewrite WP, SE by auto.
  rewrite Nat.eqb_refl, beqb_refl. auto.
Qed.

Lemma unlink_abs : forall h n p x y q k, Inv h -> nth_error h n = Some x -> nth_error h p = Some y ->
  walk h 0 q = Some p -> walk h 0 (q ++ [k]) = Some n ->
  forall r, (prefix (q ++ [k]) r -> abs (unlink h n p x y) r = None) /\
            (~ prefix (q ++ [k]) r -> abs (unlink h n p x y) r = abs h r).
Proof.
  intros h n p x y q k I X Y WP WN r. destruct (unlink_walk h n p x y q k I X Y WP WN r) as [A B].
  assert (NP : n <> p).
  { intros ->. assert (q = q ++ [k]) by (eapply walk_inj; eauto). apply (f_equal (@length _)) in H. rewrite app_length in H. simpl in H. lia. }
  split; intros H; unfold abs; [rewrite A by auto; auto|]. rewrite B by auto. destruct (walk h 0 r) as [m|] eqn:E; auto.
  rewrite (unlink_nth h n p x y m X Y NP). destruct (Nat.eqb_spec m p) as [->|]; [rewrite Y; auto|].
  destruct (Nat.eqb_spec m n) as [->|]; [rewrite X; auto|auto].
Qed.

Lemma root_clear : forall h x, Inv h -> nth_error h 0 = Some x -> Inv (put h 0 (with_chd x (Some []))) /\
  forall r, abs (put h 0 (with_chd x (Some []))) r = match r with [] => abs h [] | _ => None end.
Proof.
  intros h x (I0 & I1 & I2) X. pose proof (nth_lt _ _ _ X) as NL.
  pose proof (fun m => put_nth h 0 (with_chd x (Some [])) m NL) as NTH. set (h' := put h 0 (with_chd x (Some []))) in *.
  assert (FW : forall m z, nth_error h m = Some z -> exists z', nth_error h' m = Some z' /\ t_par z' = t_par z /\ t_key z' = t_key z /\ t_dep z' = t_dep z /\ (t_chd z <> None -> t_chd z' <> None)).
  { intros m z Z. rewrite NTH. destruct (Nat.eqb_spec m 0) as [->|]; [|exists z; auto].
    assert (z = x) by congruence. subst. eexists. split; [reflexivity|]. repeat split; auto. simpl. congruence. }
  destruct I0 as (r0 & m0 & R1 & R2 & R3 & R4). assert (r0 = x) by congruence. subst r0.
  split; [split; [|split]|].
  - exists (with_chd x (Some [])), []. rewrite NTH. simpl. auto.
  - intros i z Hz Hi. rewrite NTH in Hz. destruct (Nat.eqb_spec i 0); [congruence|].
    destruct (I1 i z Hz Hi) as (q & w & Q1 & Q2 & Q3 & Q4). destruct (FW _ _ Q3) as (w' & F1 & F2 & F3 & F4 & _). exists q, w'. repeat split; auto; congruence.
  - intros i z m Hz Hm. rewrite NTH in Hz. destruct (Nat.eqb_spec i 0) as [->|].
    + inversion Hz; subst. simpl in Hm. inversion Hm; subst. split; [constructor|intros k c []].
    + destruct (I2 i z m Hz Hm) as [ND C]. split; auto. intros k c Hc. destruct (C k c Hc) as (w & W1 & W2 & W3 & W4).
      destruct (FW _ _ W1) as (w' & F1 & F2 & F3 & F4 & F5). exists w'. repeat split; try congruence. auto.
  - intros [|k r]; unfold abs; cbn [walk].
    + rewrite NTH, X. auto.
    + unfold step. rewrite NTH. auto.
Qed.

Lemma only_child_del : forall h p y q k, Inv h -> nth_error h p = Some y -> walk h 0 q = Some p ->
  if (chd_len (chd_del (t_chd y) k) =? 0)%nat then only_child (abs h) q k
  else exists k', k' <> k /\ abs h (q ++ [k']) <> None.
Proof.
  intros h p y q k I Y W. destruct (walk_root h q p I W) as (y' & Y1 & _ & Y3). assert (y' = y) by congruence. subst y'.
  destruct (t_chd y) as [m|] eqn:M; [|congruence]. cbn [chd_del chd_len].
  destruct (del_key m k) as [|[k' c] l] eqn:D; cbn [length Nat.eqb].
  - intros k' A. destruct (key_dec k' k) as [|N]; auto. exfalso. apply A. apply abs_none; auto. rewrite walk_snoc, W. unfold step.
    rewrite Y, M. cbn [chd_get]. destruct (find_key m k') as [c|] eqn:F; auto. apply find_in in F.
    assert (In (k', c) (del_key m k)) by (apply del_in; auto). rewrite D in H. destruct H.
  - assert (In (k', c) (del_key m k)) by (rewrite D; left; auto). apply del_in in H. simpl in H. destruct H as [H N].
    exists k'. split; auto. intros E. apply abs_none in E; auto. rewrite walk_snoc, W in E. unfold step in E. rewrite Y, M in E. cbn [chd_get] in E.
    rewrite (in_find m k' c) in E; auto; [discriminate|]. destruct I as (_ & _ & I2). destruct (I2 p y m Y M). auto.
Qed.

(** deleting a node of the tree *)
Lemma delete_loop : forall pred fuel h n x p, Inv h -> walk h 0 p = Some n -> nth_error h n = Some x -> (n < fuel)%nat ->
  exists h', delete_if fuel pred h n = Ok h' /\ Inv h' /\ length h' = length h /\
  if pred (t_val x) then exists c, cut (abs h) pred p c /\ a_removed (abs h) c (abs h') else h' = h.
Proof.
  intros pred. induction fuel; intros h n x p I W X F; [lia|]. cbn [delete_if]. rewrite (get_ok _ _ _ X). cbn [bind].
  destruct (pred (t_val x)) eqn:PX; cbn [negb]; [|exists h; auto].
  destruct p as [|k q] using rev_ind.
  - inversion W; subst n. pose proof I as ((r & m & R1 & R2 & R3 & R4) & _). assert (r = x) by congruence. subst r. rewrite R2.
    destruct (root_clear h x I X) as [I' A]. eexists. split; [reflexivity|]. split; auto. split; [apply put_length|].
    exists []. split; [constructor|]. split; [rewrite A; auto|]. intros r Hr. split; intros P; [rewrite A; destruct r; congruence|exfalso; apply P; apply prefix_nil].
  - clear IHq. assert (WS := W). rewrite walk_snoc in WS. destruct (walk h 0 q) as [p|] eqn:WQ; [|discriminate].
    destruct (step_child h p k n I WS) as (y & x0 & A1 & A2 & A3 & A4 & A5 & A6 & A7). assert (x0 = x) by congruence. subst x0.
    rewrite A3.
    assert (LT : (p < n)%nat).
    { destruct I as (_ & I1 & _). destruct (I1 n x X A7) as (p' & y' & P1 & P2 & _). congruence. }
    assert (G : get (put h n (with_chd x None)) p = Ok y).
    { apply get_ok. rewrite put_nth by (eapply nth_lt; eauto). destruct (Nat.eqb_spec p n); [lia|auto]. }
    rewrite G. cbn [bind]. fold (unlink h n p x y). set (h1 := unlink h n p x y).
    assert (I1 : Inv h1) by (apply unlink_inv; auto).
    assert (L1 : length h1 = length h) by apply unlink_length.
    pose proof (unlink_abs h n p x y q k I X A1 WQ W) as UA. fold h1 in UA.
    pose proof (walk_abs _ _ _ _ WQ A1) as AQ.
    assert (RM : a_removed (abs h) (q ++ [k]) (abs h1)).
    { split; [apply UA; intros (s & E); destruct q; discriminate|]. intros r Hr. apply UA. }
    pose proof (only_child_del h p y q k I A1 WQ) as OC. rewrite A4.
    destruct (chd_len (chd_del (t_chd y) k) =? 0)%nat.
    + assert (Y1 : nth_error h1 p = Some (with_chd y (chd_del (t_chd y) (t_key x)))).
      { unfold h1. rewrite unlink_nth by (auto; lia). rewrite Nat.eqb_refl. auto. }
      assert (W1 : walk h1 0 q = Some p).
      { rewrite <- WQ. apply (unlink_walk h n p x y q k); auto. apply snoc_not_prefix. }
      destruct (IHfuel h1 p _ q I1 W1 Y1) as (h' & R & I' & L' & C); [lia|].
      exists h'. split; auto. split; auto. split; [congruence|]. cbn [t_val with_chd] in C.
      destruct (pred (t_val y)) eqn:PY.
      * destruct C as (c & CU & RE). exists c.
        assert (NC : forall q0 c0, cut (abs h1) pred q0 c0 -> prefix q0 q -> cut (abs h) pred q0 c0 /\ prefix c0 q0).
        { intros q0 c0 HC. induction HC as [|p0 k0 (k1 & N1 & E1)|p0 k0 v0 O0 E0 F0|p0 k0 v0 c0 O0 E0 F0 HC IH]; intros PQ.
          - split; [constructor|apply prefix_nil].
          - split; [|apply prefix_refl]. apply CutStop. exists k1. split; auto. intros E. apply E1. 
            destruct (prefix_dec (q ++ [k]) (p0 ++ [k1])) as [P|P]; [apply UA; auto|rewrite (proj2 (UA _) P); auto].
          - split; [|apply prefix_refl]. apply CutKeep with v0; auto.
            + intros k1 E1. apply O0. rewrite (proj2 (UA _)); auto. intros (s & E). destruct PQ as (t & ->).
              apply (f_equal (@length _)) in E. rewrite !app_length in E. simpl in E. lia.
            + rewrite <- E0. symmetry. apply UA. intros (s & E). destruct PQ as (t & ->). apply (f_equal (@length _)) in E. rewrite !app_length in E. simpl in E. lia.
          - assert (PQ' : prefix p0 q) by (eapply prefix_trans; [|exact PQ]; exists [k0]; auto).
            destruct (IH PQ') as [C1 C2]. split; [|eapply prefix_trans; [exact C2|exists [k0]; auto]].
            apply CutClimb with v0; auto.
            + intros k1 E1. apply O0. rewrite (proj2 (UA _)); auto. intros (s & E). destruct PQ as (t & ->).
              apply (f_equal (@length _)) in E. rewrite !app_length in E. simpl in E. lia.
            + rewrite <- E0. symmetry. apply UA. intros (s & E). destruct PQ as (t & ->). apply (f_equal (@length _)) in E. rewrite !app_length in E. simpl in E. lia. }
        destruct (NC q c CU (prefix_refl q)) as [CU' CP].
        split; [apply CutClimb with (t_val y); auto|].
        destruct RE as [RE1 RE2]. split.
        -- rewrite RE1. destruct RM as [RM1 _]. auto.
        -- intros r Hr. destruct (RE2 r Hr) as [Q1 Q2]. split; auto. intros NP. rewrite Q2 by auto. apply UA.
           intros P. apply NP. eapply prefix_trans; [exact CP|]. eapply prefix_trans; [|exact P]. exists [k]; auto.
      * subst h'. exists (q ++ [k]). split; auto. apply CutKeep with (t_val y); auto.
    + exists h1. split; auto. split; auto. split; auto. exists (q ++ [k]). split; auto. apply CutStop. auto.
Qed.

Lemma t_delete_if_ok : forall pred h n x p, Inv h -> walk h 0 p = Some n -> nth_error h n = Some x ->
  exists h', t_delete_if pred h n = Ok h' /\ Inv h' /\ length h' = length h /\
  if pred (t_val x) then exists c, cut (abs h) pred p c /\ a_removed (abs h) c (abs h') else h' = h.
Proof. intros. apply delete_loop; auto. apply nth_lt in H1. lia. Qed.

Lemma new_inv : Inv (new_trie zero).
Proof.
  split; [|split].
  - exists (mkNode zero [] None 0 (Some [])), []. auto.
  - intros [|n] x H; [congruence|]. destruct n; discriminate.
  - intros [|[|n]] x m H M; try discriminate. inversion H; subst. simpl in M. inversion M; subst. split; [constructor|intros k c []].
Qed.

Lemma new_abs : forall p, abs (new_trie zero) p = a_new zero p.
Proof. intros [|k p]; reflexivity. Qed.

(** ** histories *)
Lemma t_step_refines : forall h o, Inv h -> exists h' r, t_step zero h o = Ok (h', r) /\ Inv h' /\ a_step zero (abs h) o r (abs h').
Proof.
  intros h o I.
  assert (NR : forall nm, exists r, (do r <- node_res h (walk h 0 nm); Ok r) = Ok r /\ node_out (abs h) nm r /\ node_res h (walk h 0 nm) = Ok r).
  { intros nm. destruct (walk h 0 nm) as [n|] eqn:W.
    - destruct (node_res_walk h nm n I W) as (v & R & A). exists (ONode (length nm) v). rewrite R. split; auto. split; auto. unfold node_out. rewrite A. auto.
    - exists ONil. simpl. split; auto. split; auto. unfold node_out. rewrite (proj2 (abs_none h nm I) W). auto. }
  destruct o as [nm|nm|nm|pred nm|nm v|nm|pred nm]; cbn [t_step].
  - rewrite t_exact_ok by auto. cbn [bind]. destruct (NR (keys nm)) as (r & _ & O & R). rewrite R. cbn [bind].
    exists h, r. split; auto. split; auto. constructor; auto. intros q; auto.
  - destruct (t_prefix_ok h (keys nm) I) as (q & m & E & W & P & B). rewrite E. cbn [bind].
    destruct (node_res_walk h q m I W) as (v & R & A). rewrite R. cbn [bind]. exists h, (ONode (length q) v). split; auto. split; auto.
    constructor; auto. { intros r; auto. } intros q' P' H. apply B; auto. intros E'. apply H. apply abs_none; auto.
  - unfold t_always, match_always.
    destruct (first_loop (fun _ => false) (keys nm) (S (length (keys nm))) h [] 0 I eq_refl (prefix_nil _)) as (h' & m & q & E & I' & W & P1 & P2 & AD & _ & Q); [simpl; lia|].
    rewrite E. cbn [bind fst snd]. destruct (node_res_walk h' q m I' W) as (v & R & A). rewrite R. cbn [bind].
    destruct Q as [->|Q]; [|discriminate]. destruct AD as [AD1 AD2]. pose proof A as A'. rewrite AD1 in A' by apply prefix_refl. inversion A' as [A'']. 
    unfold keys. rewrite map_length. fold (keys nm). eexists _, _. split; [reflexivity|]. split; auto. apply AAlways. split; auto.
  - unfold t_first.
    destruct (first_loop pred (keys nm) (S (length (keys nm))) h [] 0 I eq_refl (prefix_nil _)) as (h' & m & q & E & I' & W & P1 & P2 & AD & NO & Q); [simpl; lia|].
    rewrite E. cbn [bind fst snd]. destruct (node_res_walk h' q m I' W) as (v & R & A). rewrite R. cbn [bind].
    pose proof AD as [AD1 AD2]. pose proof A as A'. rewrite AD1 in A' by apply prefix_refl. inversion A' as [A''].
    eexists _, _. split; [reflexivity|]. split; auto. apply AFirst; auto. intros r H1 H2. apply NO; auto. apply prefix_nil.
  - rewrite t_exact_ok by auto. cbn [bind]. destruct (NR (keys nm)) as (r & _ & O & R). rewrite R. cbn [bind].
    destruct (walk h 0 (keys nm)) as [n|] eqn:W.
    + destruct (walk_root h _ n I W) as (x & X & _). destruct (set_value_ok h n x v I X) as (h' & S & I' & WK & NTH). rewrite S. cbn [bind].
      exists h', r. split; auto. split; auto. constructor; auto.
      * intros p Np. unfold abs. rewrite WK. destruct (walk h 0 p) as [m|] eqn:Wp; auto. rewrite NTH. destruct (Nat.eqb_spec m n) as [->|]; auto.
        exfalso. apply Np. apply (walk_inj h p (keys nm) n); auto.
      * unfold abs. rewrite WK, W, NTH, X, Nat.eqb_refl. auto.
    + exists h, r. split; auto. split; auto. constructor; auto. rewrite (proj2 (abs_none h (keys nm) I) W). auto.
  - rewrite t_exact_ok by auto. cbn [bind]. destruct (NR (keys nm)) as (r & _ & O & R). rewrite R. cbn [bind].
    destruct (walk h 0 (keys nm)) as [n|] eqn:W.
    + destruct (walk_root h _ n I W) as (x & X & _). destruct (t_delete_if_ok (fun _ => true) h n x _ I W X) as (h' & D & I' & _ & C).
      unfold t_delete. rewrite D. cbn [bind]. destruct C as (c & CU & RE). exists h', r. split; auto. split; auto. apply ADelete with c; auto.
      rewrite (walk_abs _ _ _ _ W X). discriminate.
    + simpl in R. inversion R; subst. exists h, ONil. split; auto. split; auto. apply ADeleteNil; [apply abs_none; auto|intros q; auto].
  - rewrite t_exact_ok by auto. cbn [bind]. destruct (NR (keys nm)) as (r & _ & O & R). rewrite R. cbn [bind].
    destruct (walk h 0 (keys nm)) as [n|] eqn:W.
    + destruct (walk_root h _ n I W) as (x & X & _). destruct (t_delete_if_ok pred h n x _ I W X) as (h' & D & I' & _ & C).
      rewrite D. cbn [bind]. exists h', r. split; auto. split; auto. pose proof (walk_abs _ _ _ _ W X) as A. destruct (pred (t_val x)) eqn:PX.
      * destruct C as (c & CU & RE). apply ADeleteIf with (t_val x) c; auto.
      * subst h'. apply AKeep; auto. { intros v Hv. congruence. } intros q; auto.
    + exists h, r. split; auto. split; auto. apply AKeep; auto; [|intros q; auto]. rewrite (proj2 (abs_none h (keys nm) I) W). discriminate.
Qed.


Theorem t_run_refines : forall os h, Inv h -> exists h' rs, t_run zero h os = Ok (h', rs) /\ Inv h' /\ a_run zero (abs h) os rs (abs h').
Proof.
  induction os as [|o os IH]; intros h I; cbn [t_run].
  - exists h, []. split; auto. split; auto. constructor. intros p; auto.
  - destruct (t_step_refines h o I) as (h1 & r & S & I1 & A1). rewrite S. cbn [bind fst snd].
    destruct (IH h1 I1) as (h2 & rs & S2 & I2 & A2). rewrite S2. cbn [bind fst snd]. exists h2, (r :: rs). split; auto. split; auto. econstructor; eauto. intros p; auto.
Qed.

End TrieProofs.
