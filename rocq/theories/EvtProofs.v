From Verif Require Import Base EvtModel EvtSpec.

Section P.
  Variable Any : Type.
  Variable anil : Any.
  Variable room : nat -> nat.
  Variable body : N -> nat -> list eop.
  Variable ans : N -> nat -> Any.

  Lemma put_len : forall A (l : list A) i x, length (put_at l i x) = length l.
  Proof. induction l as [|y l IH]; intros [|i] x; cbn [put_at length]; auto. Qed.
  Lemma put_nth_same : forall A (l : list A) i x d, (i < length l)%nat -> nth i (put_at l i x) d = x.
  Proof. induction l as [|y l IH]; intros [|i] x d H; cbn [put_at length nth] in *; try lia; auto. apply IH. lia. Qed.
  Lemma put_nth_other : forall A (l : list A) i j x d, i <> j -> nth j (put_at l i x) d = nth j l d.
  Proof. induction l as [|y l IH]; intros [|i] [|j] x d H; cbn [put_at nth]; auto; try congruence. Qed.
  Lemma put_firstn : forall A (l : list A) i x, firstn i (put_at l i x) = firstn i l.
  Proof. induction l as [|y l IH]; intros [|i] x; cbn [put_at firstn]; auto. f_equal. apply IH. Qed.
  Lemma put_firstn_le : forall A (l : list A) i j x, (j <= i)%nat -> firstn j (put_at l i x) = firstn j l.
  Proof. induction l as [|y l IH]; intros [|i] [|j] x H; cbn [put_at firstn]; auto; try lia. f_equal. apply IH. lia. Qed.
  Lemma put_firstn_S : forall A (l : list A) i x, (i < length l)%nat -> firstn (S i) (put_at l i x) = firstn i l ++ [x].
  Proof. induction l as [|y l IH]; intros [|i] x H; cbn [put_at firstn length app] in *; try lia; auto. f_equal. apply IH. lia. Qed.

  (** every slice lies in an array of its own, unless it is empty *)
  Definition Ok_evs (s : evs) : Prop :=
    (forall t, (s_arr (e_val s t) < length (e_heap s))%nat /\ (s_len (e_val s t) <= length (arr (e_heap s) (s_arr (e_val s t))))%nat)
    /\ (forall t u, t <> u -> s_arr (e_val s t) = s_arr (e_val s u) -> s_arr (e_val s t) = O)
    /\ arr (e_heap s) 0 = [].
  (** a slice of which the elements stay as they are *)
  Definition kept (s : evs) (sl : slice) : Prop :=
    (s_arr sl < length (e_heap s))%nat /\ (forall t, s_arr (e_val s t) = s_arr sl -> (s_len sl <= s_len (e_val s t))%nat) /\ (s_len sl <= length (arr (e_heap s) (s_arr sl)))%nat.
  Definition elems (s : evs) (sl : slice) : list N := firstn (s_len sl) (arr (e_heap s) (s_arr sl)).

  Lemma new_ok : Ok_evs evs_new.
  Proof. split; [|split]; cbn; auto. Qed.

  Lemma own_kept : forall s t, Ok_evs s -> kept s (e_val s t).
  Proof.
    intros s t (A & B & C). destruct (A t) as [A1 A2]. split; [auto|]. split; [|auto]. intros u E. destruct (Nat.eq_dec u t) as [->|NE]; [lia|].
    pose proof (B u t NE E) as Z. rewrite <- E, Z, C in A2. cbn in A2. lia.
  Qed.

  Lemma arr_app : forall h x a, (a < length h)%nat -> arr (h ++ [x]) a = arr h a.
  Proof. intros. unfold arr. apply app_nth1. auto. Qed.
  Lemma arr_new : forall h x, arr (h ++ [x]) (length h) = x.
  Proof. intros. unfold arr. rewrite app_nth2, Nat.sub_diag by lia. reflexivity. Qed.
  Lemma firstn_exact : forall A (l r : list A), firstn (length l) (l ++ r) = l.
  Proof. intros. rewrite firstn_app, Nat.sub_diag, firstn_all. cbn. apply app_nil_r. Qed.

  Lemma add_ok : forall s t p, Ok_evs s -> Ok_evs (e_add room s t p) /\ did (e_listeners s) (EAdd t p) (e_listeners (e_add room s t p))
    /\ forall sl, kept s sl -> kept (e_add room s t p) sl /\ elems (e_add room s t p) sl = elems s sl.
  Proof.
    intros s t p (A & B & C). destruct (A t) as [A1 A2]. unfold e_add. set (sl0 := e_val s t) in *. destruct (Nat.ltb_spec (s_len sl0) (length (arr (e_heap s) (s_arr sl0)))) as [LT|GE].
    - assert (NZ : s_arr sl0 <> O) by (intros E; rewrite E, C in LT; cbn in LT; lia).
      set (a' := put_at (arr (e_heap s) (s_arr sl0)) (s_len sl0) p).
      assert (SAME : arr (put_at (e_heap s) (s_arr sl0) a') (s_arr sl0) = a') by (apply put_nth_same; auto).
      assert (OTH : forall b, b <> s_arr sl0 -> arr (put_at (e_heap s) (s_arr sl0) a') b = arr (e_heap s) b) by (intros b NE; apply put_nth_other; congruence).
      assert (LEN : forall b, length (arr (put_at (e_heap s) (s_arr sl0) a') b) = length (arr (e_heap s) b)).
      { intros b. destruct (Nat.eq_dec b (s_arr sl0)) as [->|NE]; [rewrite SAME; apply put_len|rewrite OTH; auto]. }
      split; [|split].
      + split; [|split].
        * intros u. cbn [e_heap e_val]. unfold set_val. rewrite LEN, put_len. destruct (Nat.eqb_spec u t) as [->|NE]; cbn [s_arr s_len]; [split; lia|apply A].
        * intros u v NE. cbn [e_val]. unfold set_val. destruct (Nat.eqb_spec u t) as [->|NU], (Nat.eqb_spec v t) as [->|NV]; cbn [s_arr]; try congruence; intros E.
          -- destruct (B t v NE); auto.
          -- destruct (B u t NE); auto.
          -- apply (B u v); auto.
        * cbn [e_heap]. rewrite OTH; auto.
      + unfold did, e_listeners. cbn [e_heap e_val]. unfold set_val. rewrite Nat.eqb_refl. cbn [s_arr s_len]. split.
        * rewrite SAME. unfold a'. apply put_firstn_S. auto.
        * intros u NE. destruct (Nat.eqb_spec u t) as [->|_]; [congruence|]. destruct (Nat.eq_dec (s_arr (e_val s u)) (s_arr sl0)) as [E|NEA].
          -- exfalso. apply NZ. rewrite <- E. apply (B u t); auto.
          -- rewrite OTH; auto.
      + intros sl (K1 & K2 & K3). split; [split; [|split]|]; cbn [e_heap e_val].
        * rewrite put_len. auto.
        * intros u. unfold set_val. destruct (Nat.eqb_spec u t) as [->|NE]; cbn [s_arr s_len]; intros E; [specialize (K2 t E); unfold sl0; lia|auto].
        * rewrite LEN. auto.
        * unfold elems. cbn [e_heap]. destruct (Nat.eq_dec (s_arr sl) (s_arr sl0)) as [E|NE]; [|rewrite OTH; auto]. rewrite E, SAME. unfold a'. apply put_firstn_le. symmetry in E. apply K2 in E. exact E.
    - assert (L0 : length (firstn (s_len sl0) (arr (e_heap s) (s_arr sl0))) = s_len sl0) by (rewrite firstn_length; lia).
      split; [|split].
      + split; [|split].
        * intros u. cbn [e_heap e_val]. unfold set_val. rewrite app_length. cbn [length]. destruct (Nat.eqb_spec u t) as [->|NE]; cbn [s_arr s_len].
          -- split; [lia|]. rewrite arr_new, app_length. cbn [length]. lia.
          -- destruct (A u). rewrite arr_app by auto. split; lia.
        * intros u v NE. cbn [e_val]. unfold set_val. destruct (Nat.eqb_spec u t) as [->|NU], (Nat.eqb_spec v t) as [->|NV]; cbn [s_arr]; try congruence; intros E.
          -- destruct (A v). lia.
          -- destruct (A u). lia.
          -- apply (B u v); auto.
        * cbn [e_heap]. rewrite arr_app by lia. auto.
      + unfold did, e_listeners. cbn [e_heap e_val]. unfold set_val. rewrite Nat.eqb_refl. cbn [s_arr s_len]. fold sl0. split.
        * rewrite arr_new.
          rewrite <- L0 at 1. rewrite firstn_app. replace (S (length (firstn (s_len sl0) (arr (e_heap s) (s_arr sl0)))) - length (firstn (s_len sl0) (arr (e_heap s) (s_arr sl0))))%nat with 1%nat by lia.
          rewrite firstn_all2 by lia. reflexivity.
        * intros u NE. destruct (Nat.eqb_spec u t) as [->|_]; [congruence|]. rewrite arr_app by apply A. reflexivity.
      + intros sl (K1 & K2 & K3). split; [split; [|split]|]; cbn [e_heap e_val].
        * rewrite app_length. lia.
        * intros u. unfold set_val. destruct (Nat.eqb_spec u t) as [->|NE]; cbn [s_arr s_len]; intros E; [lia|auto].
        * rewrite arr_app; auto.
        * unfold elems. cbn [e_heap]. rewrite arr_app; auto.
  Qed.

  Lemma remove_ok : forall s t p, Ok_evs s -> Ok_evs (e_remove s t p) /\ did (e_listeners s) (ERemove t p) (e_listeners (e_remove s t p))
    /\ forall sl, kept s sl -> kept (e_remove s t p) sl /\ elems (e_remove s t p) sl = elems s sl.
  Proof.
    intros s t p (A & B & C). destruct (A t) as [A1 A2]. unfold e_remove. set (sl0 := e_val s t) in *. set (old := firstn (s_len sl0) (arr (e_heap s) (s_arr sl0))). set (new := filter _ old).
    split; [|split].
    - split; [|split].
      + intros u. cbn [e_heap e_val]. unfold set_val. rewrite app_length. cbn [length]. destruct (Nat.eqb_spec u t) as [->|NE]; cbn [s_arr s_len].
        * split; [lia|]. rewrite arr_new, app_length. lia.
        * destruct (A u). rewrite arr_app by auto. split; lia.
      + intros u v NE. cbn [e_val]. unfold set_val. destruct (Nat.eqb_spec u t) as [->|NU], (Nat.eqb_spec v t) as [->|NV]; cbn [s_arr]; try congruence; intros E.
        * destruct (A v). lia.
        * destruct (A u). lia.
        * apply (B u v); auto.
      + cbn [e_heap]. rewrite arr_app by lia. auto.
    - unfold did, e_listeners. cbn [e_heap e_val]. unfold set_val. rewrite Nat.eqb_refl. cbn [s_arr s_len]. fold sl0. split.
      + rewrite arr_new. apply firstn_exact.
      + intros u NE. destruct (Nat.eqb_spec u t) as [->|_]; [congruence|]. rewrite arr_app by apply A. reflexivity.
    - intros sl (K1 & K2 & K3). split; [split; [|split]|]; cbn [e_heap e_val].
      + rewrite app_length. lia.
      + intros u. unfold set_val. destruct (Nat.eqb_spec u t) as [->|NE]; cbn [s_arr s_len]; intros E; [lia|auto].
      + rewrite arr_app; auto.
      + unfold elems. cbn [e_heap]. rewrite arr_app; auto.
  Qed.

  Lemma op_ok : forall s o, Ok_evs s -> Ok_evs (e_op room s o) /\ did (e_listeners s) o (e_listeners (e_op room s o))
    /\ forall sl, kept s sl -> kept (e_op room s o) sl /\ elems (e_op room s o) sl = elems s sl.
  Proof. intros s [t p|t p] H; cbn [e_op]; [apply add_ok|apply remove_ok]; auto. Qed.

  Lemma ops_ok : forall os s, Ok_evs s -> Ok_evs (fold_left (e_op room) os s) /\ all_did (e_listeners s) os (e_listeners (fold_left (e_op room) os s))
    /\ forall sl, kept s sl -> kept (fold_left (e_op room) os s) sl /\ elems (fold_left (e_op room) os s) sl = elems s sl.
  Proof.
    induction os as [|o os IH]; intros s H; cbn [fold_left].
    - split; [auto|]. split; [constructor|auto].
    - destruct (op_ok s o H) as (O1 & D1 & K1). destruct (IH _ O1) as (O2 & D2 & K2). split; [auto|]. split; [econstructor; eauto|].
      intros sl K. destruct (K1 sl K) as [Ka Ea]. destruct (K2 sl Ka) as [Kb Eb]. split; [auto|congruence].
  Qed.

  Lemma nth_elems : forall l n i, (i < n)%nat -> nth i l 0%N = nth i (firstn n l) 0%N.
  Proof. induction l as [|x l IH]; intros [|n] [|i] H; cbn [firstn nth]; auto; try lia. apply IH. lia. Qed.

  Lemma skip_nth : forall (l : list N) i, (i < length l)%nat -> skipn i l = nth i l 0%N :: skipn (S i) l.
  Proof. induction l as [|x l IH]; intros [|i] H; cbn [length skipn nth] in *; try lia; auto. rewrite IH by lia. reflexivity. Qed.

  Lemma loop_ok : forall acc n i sl s k r s' k' r' c, Ok_evs s -> kept s sl -> (i + n = s_len sl)%nat ->
    e_loop Any room body ans n i sl acc s k r = (s', k', r', c) ->
    Ok_evs s' /\ called body ans acc (skipn i (elems s sl)) (e_listeners s) k r (e_listeners s') k' r' c.
  Proof.
    intros acc. induction n as [|n IH]; intros i sl s k r s' k' r' c OK K E H; cbn [e_loop] in H.
    - injection H as <- <- <- <-. split; [auto|]. rewrite skipn_all2; [constructor|]. unfold elems. rewrite firstn_length. lia.
    - assert (LEN : length (elems s sl) = s_len sl) by (unfold elems; rewrite firstn_length; destruct K as (_ & _ & K); lia).
      rewrite (skip_nth (elems s sl) i) by lia. rewrite (nth_elems (arr (e_heap s) (s_arr sl)) (s_len sl) i) in H by lia. fold (elems s sl) in H.
      set (p := nth i (elems s sl) 0%N) in *. destruct (ops_ok (body p k) s OK) as (O1 & D1 & K1). destruct (K1 sl K) as [Ka Ea].
      destruct (match acc with Some f => f (ans p k) | None => false end) eqn:AC.
      + injection H as <- <- <- <-. split; [auto|]. apply CalledStop; [auto|]. destruct acc as [f|]; [eauto|discriminate].
      + destruct (e_loop Any room body ans n (S i) sl acc (fold_left (e_op room) (body p k) s) (S k) (ans p k)) as [[[s2 k2] r2] c2] eqn:L. injection H as <- <- <- <-.
        destruct (IH (S i) sl _ _ _ _ _ _ _ O1 Ka ltac:(lia) L) as [O2 C2]. split; [auto|]. eapply CalledNext; [exact D1| |rewrite <- Ea; exact C2].
        intros f ->. exact AC.
  Qed.

  Lemma dispatch_ok : forall s t acc k s' k' r c, Ok_evs s -> e_dispatch Any anil room body ans s t acc k = (s', k', r, c) ->
    Ok_evs s' /\ called body ans acc (e_listeners s t) (e_listeners s) k anil (e_listeners s') k' r c.
  Proof.
    intros s t acc k s' k' r c OK H. unfold e_dispatch in H. apply (loop_ok acc _ 0 (e_val s t)) in H; auto using own_kept.
  Qed.

  Lemma run_ok : forall h s k s' out, Ok_evs s -> e_run Any anil room body ans s k h = (s', out) -> fired anil body ans (e_listeners s) k h (e_listeners s') out.
  Proof.
    induction h as [|[o|t acc] h IH]; intros s k s' out OK H; cbn [e_run] in H.
    - injection H as <- <-. constructor.
    - destruct (op_ok s o OK) as (O1 & D1 & _). econstructor; [exact D1|]. apply IH; auto.
    - destruct (e_dispatch Any anil room body ans s t acc k) as [[[s1 k1] r] c] eqn:D. destruct (e_run Any anil room body ans s1 k1 h) as [s2 out'] eqn:R. injection H as <- <-.
      destruct (dispatch_ok _ _ _ _ _ _ _ _ OK D) as [O1 C1]. econstructor; [exact C1|]. apply IH; auto.
  Qed.

  Lemma run_keeps : forall h s k s' out, Ok_evs s -> e_run Any anil room body ans s k h = (s', out) -> Ok_evs s'.
  Proof.
    induction h as [|[o|t acc] h IH]; intros s k s' out OK H; cbn [e_run] in H.
    - injection H as <- _. exact OK.
    - destruct (op_ok s o OK) as (O1 & _ & _). apply (IH (e_op room s o) k s' out); auto.
    - destruct (e_dispatch Any anil room body ans s t acc k) as [[[s1 k1] r] c] eqn:D. destruct (e_run Any anil room body ans s1 k1 h) as [s2 out'] eqn:R. injection H as <- <-.
      destruct (dispatch_ok _ _ _ _ _ _ _ _ OK D) as [O1 _]. apply (IH s1 k1 s2 out'); auto.
  Qed.

  Lemma last_cons : forall A (l : list A) x d, last (x :: l) d = last l x.
  Proof. induction l as [|y l IH]; intros x d; [reflexivity|]. change (last (x :: y :: l) d) with (last (y :: l) d). rewrite (IH y d), (IH y x). reflexivity. Qed.

  (** the calls are a beginning of the listeners, all of them unless the last result was accepted *)
  Lemma called_prefix : forall acc todo l k r l' k' r' c, called body ans acc todo l k r l' k' r' c ->
    (exists rest, todo = map fst c ++ rest) /\ r' = last (map snd c) r
    /\ (acc = None -> map fst c = todo)
    /\ (forall f, acc = Some f -> map fst c <> todo -> c <> [] /\ f r' = true)
    /\ (forall f c1 x c2, acc = Some f -> c = c1 ++ x :: c2 -> c2 <> [] -> f (snd x) = false).
  Proof.
    induction 1 as [l k r|p todo l k r0 l1 D (f & E & F)|p todo l k r0 l1 l2 k2 r2 c D NF H IH].
    - split; [exists []; reflexivity|]. split; [reflexivity|]. split; [auto|]. split; [intros f _ NE; exfalso; apply NE; reflexivity|]. intros f [|] x c2 _ Z; discriminate.
    - split; [exists todo; reflexivity|]. split; [reflexivity|]. split; [intros; congruence|]. split; [intros g G _; split; congruence|].
      intros g [|y c1] x c2 _ Z NE; [injection Z as _ <-; congruence|]. destruct c1; discriminate.
    - destruct IH as ((rest & ->) & R & N & A & B). split; [exists rest; reflexivity|]. split; [cbn [map snd]; rewrite R; symmetry; apply last_cons|].
      split; [intros Z; cbn [map fst]; f_equal; auto|]. split.
      + intros f F NE. split; [discriminate|]. apply (A f F). intros Z. apply NE. cbn [map fst]. congruence.
      + intros f [|y c1] x c2 F Z NE; [injection Z as <- _; apply NF; auto|]. injection Z as _ Z. apply (B f c1 x c2); auto.
  Qed.
End P.
