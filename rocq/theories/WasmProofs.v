(** Proofs about [WasmModel]. *)
From Verif Require Import Base ReaderModel WasmModel WasmSpec.

Lemma set_last : forall l j f, set_sock (l ++ [j]) (length l) f = l ++ [f j].
Proof.
  intros. unfold set_sock. rewrite nth_error_app2, Nat.sub_diag by lia. cbn [nth_error].
  rewrite firstn_app, Nat.sub_diag, firstn_all. cbn [firstn]. rewrite app_nil_r.
  rewrite skipn_all2 by (rewrite app_length; cbn [length]; lia). reflexivity.
Qed.
Lemma state_last : forall l j, sock_state (l ++ [j]) (length l) = j_state j.
Proof. intros. unfold sock_state. rewrite nth_error_app2, Nat.sub_diag by lia. reflexivity. Qed.
Definition closed (l : list jsock) : Prop := Forall (fun j => j_state j = JClosed) l.
Lemma state_closed : forall l k, closed l -> sock_state l k = JClosed.
Proof.
  intros l k H. unfold sock_state. destruct (nth_error l k) as [j|] eqn:E; [|reflexivity].
  apply nth_error_In in E. unfold closed in H. rewrite Forall_forall in H. auto.
Qed.
Lemma state_other : forall l j k, closed l -> k <> length l -> sock_state (l ++ [j]) k = JClosed.
Proof.
  intros l j k H Hk. destruct (lt_dec k (length l)) as [L|L].
  - unfold sock_state. rewrite nth_error_app1 by auto. exact (state_closed l k H).
  - unfold sock_state. destruct (nth_error (l ++ [j]) k) eqn:E; [|reflexivity].
    assert (k < length (l ++ [j])) by (apply nth_error_Some; congruence). rewrite app_length in H0. cbn [length] in H0. lia.
Qed.
Lemma closed_last : forall l j, closed l -> j_state j = JClosed -> closed (l ++ [j]).
Proof. intros l j H1 H2. apply Forall_app. split; auto. Qed.

Record rel (s : wst) (a : ast) : Prop := mkRel {
  r_panic : w_panic s = false;
  r_cb : w_cb s = a_cb a;
  r_run : w_run s = a_up a;
  r_len : length (w_socks s) = a_next a;
  r_hand : w_hand s = a_hand a;
  r_got : w_got s = a_got a;
  r_sent : concat (map j_sent (w_socks s)) = a_sent a;
  r_ph : match a_phase a with
         | Down => w_conn s = None /\ w_wait s = [] /\ closed (w_socks s)
         | Waiting k m => w_conn s = Some k /\ w_wait s = [(k, m)]
             /\ exists l, w_socks s = l ++ [mkJ (if m then JOpen else JConnecting) []] /\ k = length l /\ closed l
         | Up k g => w_conn s = Some k /\ w_wait s = []
             /\ exists l t, w_socks s = l ++ [mkJ (if g then JClosed else JOpen) t] /\ k = length l /\ closed l
         end }.

Lemma rel_new : rel w_new a_new.
Proof. split; try reflexivity. cbn. split; [reflexivity|]. split; [reflexivity|]. constructor. Qed.

Lemma nth_one : forall A (x : A) i, nth_error [x] i = match i with O => Some x | _ => None end.
Proof. intros A x [|[|i]]; reflexivity. Qed.

Ltac rsplit := split; cbn [w_panic w_cb w_conn w_run w_socks w_wait w_hand w_got a_cb a_phase a_next a_hand a_sent a_got]; auto.

Lemma rel_step : forall s a e a' r, rel s a -> astep a e = Some (a', r) -> exists s', wstep s e = (s', r) /\ rel s' a'.
Proof.
  intros s a e a' r R E. destruct R as [Rp Rc Rr Rl Rh Rg Rs Rph].
  destruct s as [cb conn run socks wait hand got pan]. destruct a as [acb ph nx ah asent agot].
  cbn [w_panic w_cb w_conn w_run w_socks w_wait w_hand w_got a_cb a_phase a_next a_hand a_sent a_got] in *. subst pan cb hand got.
  unfold a_up in Rr; cbn [a_phase] in Rr.
  destruct e as [| |i|w| |i err|k|k|k b]; cbn [astep a_phase a_cb a_next a_hand a_sent a_got] in E; unfold wstep; cbn [w_panic w_cb w_conn w_run w_socks w_wait w_hand w_got].
  - injection E as <- <-. eexists. split; [reflexivity|]. rsplit.
  - (* Open *) destruct ph as [|k m|k g].
    + destruct Rph as [-> [-> Cl]]. destruct acb; injection E as <- <-; cbn [negb].
      * eexists. split; [reflexivity|]. rsplit.
        -- rewrite app_length. cbn [length]. lia.
        -- rewrite map_app, concat_app. cbn [map concat j_sent]. rewrite !app_nil_r. exact Rs.
        -- rewrite Rl. split; [reflexivity|]. split; [reflexivity|]. exists socks. auto.
      * eexists. split; [reflexivity|]. rsplit.
    + destruct Rph as [-> [-> Cl]]. injection E as <- <-. destruct acb; cbn [negb]; (eexists; split; [reflexivity|]; rsplit).
    + destruct Rph as [-> [-> Cl]]. injection E as <- <-. destruct acb; cbn [negb]; (eexists; split; [reflexivity|]; rsplit).
  - (* Return *) destruct ph as [|k m|k g].
    + destruct Rph as [-> [-> Cl]]. assert (E' : a' = mkA acb Down nx ah asent agot /\ r = ROff) by (destruct i; injection E as <- <-; auto).
      destruct E' as [-> ->]. replace (nth_error [] i) with (@None (nat * bool)) by (destruct i; reflexivity).
      eexists. split; [reflexivity|]. rsplit.
    + destruct Rph as [-> [-> [l [-> [Hk Cl]]]]]. rewrite nth_one. destruct i as [|i].
      * destruct m; injection E as <- <-.
        -- eexists. split; [reflexivity|]. rsplit. split; [reflexivity|]. split; [reflexivity|]. exists l, []. auto.
        -- eexists. split; [reflexivity|]. rsplit. split; [reflexivity|]. split; [reflexivity|]. exists l. auto.
      * injection E as <- <-. eexists. split; [reflexivity|]. rsplit. split; [reflexivity|]. split; [reflexivity|]. exists l. auto.
    + destruct Rph as [-> [-> Cl]]. assert (E' : a' = mkA acb (Up k g) nx ah asent agot /\ r = ROff) by (destruct i; injection E as <- <-; auto).
      destruct E' as [-> ->]. replace (nth_error [] i) with (@None (nat * bool)) by (destruct i; reflexivity).
      eexists. split; [reflexivity|]. rsplit.
  - (* Send *) destruct ph as [|k m|k g]; subst run; cbn [negb].
    + injection E as <- <-. eexists. split; [reflexivity|]. rsplit.
    + injection E as <- <-. eexists. split; [reflexivity|]. rsplit.
    + destruct Rph as [-> [-> [l [t [-> [-> Cl]]]]]]. rewrite state_last. cbn [j_state].
      destruct g; injection E as <- <-.
      * eexists. split; [reflexivity|]. rsplit. split; [reflexivity|]. split; [reflexivity|]. exists l, t. auto.
      * rewrite set_last. cbn [j_state j_sent]. eexists. split; [reflexivity|]. rsplit.
        -- rewrite app_length in *. exact Rl.
        -- rewrite <- Rs. rewrite !map_app, !concat_app. cbn [map concat j_sent]. rewrite !app_nil_r, app_assoc. reflexivity.
        -- split; [reflexivity|]. split; [reflexivity|]. exists l, (t ++ [concat w]). auto.
  - (* Close *) destruct ph as [|k m|k g].
    + destruct Rph as [-> [-> Cl]]. injection E as <- <-. eexists. split; [reflexivity|]. rsplit.
    + discriminate E.
    + destruct Rph as [-> [-> [l [t [-> [-> Cl]]]]]]. injection E as <- <-. rewrite set_last. cbn [j_close j_sent].
      eexists. split; [reflexivity|]. rsplit.
      * rewrite app_length in *. exact Rl.
      * rewrite <- Rs. rewrite !map_app, !concat_app. reflexivity.
      * split; [reflexivity|]. split; [reflexivity|]. apply closed_last; auto.
  - (* Done *) destruct (nth_error ah i) as [k|] eqn:En.
    2:{ injection E as <- <-. eexists. split; [reflexivity|]. rsplit. }
    destruct err.
    2:{ injection E as <- <-. eexists. split; [reflexivity|]. rsplit. }
    destruct ph as [|k' m|k' g]; try discriminate E. destruct (Nat.eqb_spec k k'); [|discriminate E]. injection E as <- <-.
    destruct Rph as [-> [-> [l [t [-> [-> Cl]]]]]]. rewrite set_last. cbn [j_close j_sent].
    eexists. split; [reflexivity|]. rsplit.
    + rewrite app_length in *. exact Rl.
    + rewrite <- Rs. rewrite !map_app, !concat_app. reflexivity.
    + split; [reflexivity|]. split; [reflexivity|]. apply closed_last; auto.
  - (* Opened *) destruct ph as [|k' m|k' g].
    + destruct Rph as [-> [-> Cl]]. injection E as <- <-. rewrite state_closed by auto. eexists. split; [reflexivity|]. rsplit.
    + destruct Rph as [-> [-> [l [-> [-> Cl]]]]]. destruct m.
      * injection E as <- <-. destruct (Nat.eq_dec k (length l)) as [->|N1].
        -- rewrite state_last. cbn [j_state]. eexists. split; [reflexivity|]. rsplit. split; [reflexivity|]. split; [reflexivity|]. exists l. auto.
        -- rewrite state_other by auto. eexists. split; [reflexivity|]. rsplit. split; [reflexivity|]. split; [reflexivity|]. exists l. auto.
      * destruct (Nat.eqb_spec k (length l)) as [->|N1]; injection E as <- <-.
        -- rewrite state_last, set_last. cbn [j_state j_sent map fst]. rewrite Nat.eqb_refl. eexists. split; [reflexivity|]. rsplit.
           ++ rewrite app_length in *. exact Rl.
           ++ rewrite <- Rs. rewrite !map_app, !concat_app. reflexivity.
           ++ split; [reflexivity|]. split; [reflexivity|]. exists l. auto.
        -- rewrite state_other by auto. eexists. split; [reflexivity|]. rsplit. split; [reflexivity|]. split; [reflexivity|]. exists l. auto.
    + destruct Rph as [-> [-> [l [t [-> [-> Cl]]]]]]. injection E as <- <-.
      assert (Hs : sock_state (l ++ [mkJ (if g then JClosed else JOpen) t]) k <> JConnecting).
      { destruct (Nat.eq_dec k (length l)) as [->|N1]; [rewrite state_last; destruct g; discriminate|rewrite state_other by auto; discriminate]. }
      destruct (sock_state _ k); try congruence; (eexists; split; [reflexivity|]; rsplit; split; [reflexivity|]; split; [reflexivity|]; exists l, t; auto).
  - (* Gone *) destruct ph as [|k' m|k' g].
    + destruct Rph as [-> [-> Cl]]. injection E as <- <-. rewrite state_closed by auto. eexists. split; [reflexivity|]. rsplit.
    + destruct Rph as [-> [-> [l [-> [-> Cl]]]]]. destruct (Nat.eqb_spec k (length l)) as [->|N1]; [discriminate E|]. injection E as <- <-.
      rewrite state_other by auto. eexists. split; [reflexivity|]. rsplit. split; [reflexivity|]. split; [reflexivity|]. exists l. auto.
    + destruct Rph as [-> [-> [l [t [-> [-> Cl]]]]]]. destruct g.
      * injection E as <- <-. rewrite state_closed by (apply closed_last; auto). eexists. split; [reflexivity|]. rsplit. split; [reflexivity|]. split; [reflexivity|]. exists l, t. auto.
      * destruct (Nat.eqb_spec k (length l)) as [->|N1]; injection E as <- <-.
        -- rewrite state_last, set_last. cbn [j_state j_close j_sent]. eexists. split; [reflexivity|]. rsplit.
           ++ rewrite app_length in *. exact Rl.
           ++ rewrite <- Rs. rewrite !map_app, !concat_app. reflexivity.
           ++ split; [reflexivity|]. split; [reflexivity|]. exists l, t. auto.
        -- rewrite state_other by auto. eexists. split; [reflexivity|]. rsplit. split; [reflexivity|]. split; [reflexivity|]. exists l, t. auto.
  - (* Msg *) assert (Off : forall S, match a_phase (mkA acb ph nx ah asent agot) with Waiting k' true | Up k' false => k <> k' | _ => True end ->
      S = sock_state socks k -> S <> JOpen).
    { intros S HS ->. cbn [a_phase] in HS. destruct ph as [|k' [|]|k' [|]].
      - destruct Rph as [_ [_ Cl]]. rewrite state_closed by auto. discriminate.
      - destruct Rph as [_ [_ [l [-> [-> Cl]]]]]. rewrite state_other by auto. discriminate.
      - destruct Rph as [_ [_ [l [-> [-> Cl]]]]]. destruct (Nat.eq_dec k (length l)) as [->|N1]; [rewrite state_last|rewrite state_other by auto]; discriminate.
      - destruct Rph as [_ [_ [l [t [-> [-> Cl]]]]]]. rewrite state_closed by (apply closed_last; auto). discriminate.
      - destruct Rph as [_ [_ [l [t [-> [-> Cl]]]]]]. rewrite state_other by auto. discriminate. }
    assert (Old : forall r0, (a' = mkA acb ph nx ah asent agot /\ r = r0) -> r0 = ROff -> match a_phase (mkA acb ph nx ah asent agot) with Waiting k' true | Up k' false => k <> k' | _ => True end ->
       exists s', (match sock_state socks k with
        | JOpen => match b with None => (mkW acb conn run socks wait ah agot false, RNil) | Some b => (mkW acb conn run socks wait (ah ++ [k]) (agot ++ [b]) false, RNil) end
        | _ => (mkW acb conn run socks wait ah agot false, ROff) end) = (s', r) /\ rel s' a').
    { intros r0 [-> ->] -> Ho. specialize (Off _ Ho eq_refl). destruct (sock_state socks k); try congruence; (eexists; split; [reflexivity|]; rsplit). }
    destruct ph as [|k' [|]|k' [|]]; cbn [a_phase] in *.
    + injection E as <- <-. apply (Old ROff); auto.
    + destruct (Nat.eqb_spec k k') as [->|N1]; injection E as <- <-; [|apply (Old ROff); auto].
      destruct Rph as [-> [-> [l [-> [-> Cl]]]]]. rewrite state_last. cbn [j_state].
      destruct b as [b|]; (eexists; split; [reflexivity|]; rsplit; split; [reflexivity|]; split; [reflexivity|]; exists l; auto).
    + injection E as <- <-. apply (Old ROff); auto.
    + injection E as <- <-. apply (Old ROff); auto.
    + destruct (Nat.eqb_spec k k') as [->|N1]; injection E as <- <-; [|apply (Old ROff); auto].
      destruct Rph as [-> [-> [l [t [-> [-> Cl]]]]]]. rewrite state_last. cbn [j_state].
      destruct b as [b|]; (eexists; split; [reflexivity|]; rsplit; split; [reflexivity|]; split; [reflexivity|]; exists l, t; auto).
Qed.

Lemma rel_run : forall es s a a' rs, rel s a -> arun a es = Some (a', rs) -> exists s', wrun s es = (s', rs) /\ rel s' a'.
Proof.
  induction es as [|e es IH]; intros s a a' rs R E; cbn [arun wrun] in *.
  - injection E as <- <-. exists s. auto.
  - destruct (astep a e) as [[a1 r]|] eqn:E1; [|discriminate E].
    destruct (arun a1 es) as [[a2 rs2]|] eqn:E2; [|discriminate E]. injection E as <- <-.
    destruct (rel_step _ _ _ _ _ R E1) as [s1 [W1 R1]]. destruct (IH _ _ _ _ R1 E2) as [s2 [W2 R2]].
    exists s2. rewrite W1, W2. auto.
Qed.

(** * All histories *)
Lemma set_sock_length : forall l k f, length (set_sock l k f) = length l.
Proof.
  intros. unfold set_sock. destruct (nth_error l k) eqn:E; [|reflexivity].
  assert (k < length l) by (apply nth_error_Some; congruence).
  rewrite app_length, firstn_length. cbn [length]. rewrite skipn_length. lia.
Qed.
Lemma set_state : forall l k f k', sock_state (set_sock l k f) k'
  = if Nat.eqb k' k then match nth_error l k with Some j => j_state (f j) | None => JClosed end else sock_state l k'.
Proof.
  intros l k f k'. unfold set_sock. destruct (nth_error l k) as [j|] eqn:E.
  - assert (L : k < length l) by (apply nth_error_Some; congruence).
    assert (Lf : length (firstn k l) = k) by (rewrite firstn_length; lia).
    unfold sock_state. destruct (Nat.eqb_spec k' k) as [->|N1].
    + rewrite nth_error_app2 by lia. rewrite Lf, Nat.sub_diag. reflexivity.
    + destruct (lt_dec k' k) as [H|H].
      * rewrite nth_error_app1 by lia. replace (nth_error (firstn k l) k') with (nth_error l k'); [reflexivity|].
        rewrite <- (firstn_skipn k l) at 1. rewrite nth_error_app1 by lia. reflexivity.
      * rewrite nth_error_app2 by lia. rewrite Lf. destruct (k' - k) as [|d] eqn:Ed; [lia|]. cbn [nth_error].
        replace (nth_error (skipn (S k) l) d) with (nth_error l k'); [reflexivity|].
        rewrite <- (firstn_skipn (S k) l) at 1. rewrite nth_error_app2; rewrite firstn_length, Nat.min_l by lia; [f_equal; lia|lia].
  - destruct (Nat.eqb_spec k' k) as [->|N1]; [|reflexivity]. unfold sock_state. rewrite E. reflexivity.
Qed.
Lemma set_close : forall l k k', sock_state (set_sock l k j_close) k' = if Nat.eqb k' k then JClosed else sock_state l k'.
Proof. intros. rewrite set_state. destruct (Nat.eqb k' k); [|reflexivity]. destruct (nth_error l k); reflexivity. Qed.

Lemma one_step : forall s e, (forall k, alive s k -> w_conn s = Some k) -> forall k, alive (fst (wstep s e)) k -> w_conn (fst (wstep s e)) = Some k.
Proof.
  intros s e H k. unfold alive, wstep in *.
  destruct (w_panic s); [exact (H k)|].
  destruct e as [| |i|w| |i err|k0|k0|k0 b].
  - exact (H k).
  - destruct (negb (w_cb s)); [exact (H k)|]. destruct (w_conn s) eqn:Ec; [cbn [fst]; rewrite Ec; exact (H k)|]. cbn [fst w_socks w_conn].
    destruct (Nat.eq_dec k (length (w_socks s))) as [->|N1]; [reflexivity|]. intros Ha. exfalso.
    assert (Ha' : sock_state (w_socks s) k <> JClosed).
    { unfold sock_state in *. destruct (lt_dec k (length (w_socks s))); [rewrite nth_error_app1 in Ha by auto; auto|].
      destruct (nth_error (w_socks s ++ [mkJ JConnecting []]) k) eqn:E; [|congruence].
      assert (k < length (w_socks s ++ [mkJ JConnecting []])) by (apply nth_error_Some; congruence). rewrite app_length in H0. cbn [length] in H0. lia. }
    apply H in Ha'. discriminate Ha'.
  - destruct (nth_error (w_wait s) i) as [[k1 [|]]|]; exact (H k).
  - destruct (negb (w_run s)); [exact (H k)|]. destruct (w_conn s) as [k1|] eqn:Ec; [|cbn [fst w_socks w_conn]; exact (H k)].
    destruct (sock_state (w_socks s) k1) eqn:Es; cbn [fst w_socks w_conn]; [exact (H k)| |rewrite Ec; exact (H k)].
    rewrite set_state. intros Ha. apply H. destruct (Nat.eqb_spec k k1) as [->|N1]; [congruence|auto].
  - destruct (w_conn s) as [k1|] eqn:Ec; [|cbn [fst]; rewrite Ec; exact (H k)]. cbn [fst w_socks w_conn]. rewrite set_close.
    destruct (Nat.eqb_spec k k1) as [->|N1]; [congruence|]. intros Ha. apply H in Ha. congruence.
  - destruct (nth_error (w_hand s) i); [|exact (H k)]. destruct err; [|exact (H k)].
    destruct (w_conn s) as [k1|] eqn:Ec; [|cbn [fst w_socks w_conn]; exact (H k)]. cbn [fst w_socks w_conn]. rewrite set_close.
    destruct (Nat.eqb_spec k k1) as [->|N1]; [congruence|]. intros Ha. apply H in Ha. congruence.
  - destruct (sock_state (w_socks s) k0) eqn:Es; [|exact (H k)|exact (H k)]. cbn [fst w_socks w_conn]. rewrite set_state.
    intros Ha. apply H. destruct (Nat.eqb_spec k k0) as [->|N1]; [congruence|auto].
  - destruct (sock_state (w_socks s) k0) eqn:Es; [| |exact (H k)]; cbn [fst w_socks w_conn]; rewrite set_close;
      (intros Ha; apply H; destruct (Nat.eqb_spec k k0) as [->|N1]; [congruence|auto]).
  - destruct (sock_state (w_socks s) k0); [exact (H k)| |exact (H k)]. destruct b; exact (H k).
Qed.
Lemma one_run : forall es s, (forall k, alive s k -> w_conn s = Some k) -> forall k, alive (fst (wrun s es)) k -> w_conn (fst (wrun s es)) = Some k.
Proof.
  induction es as [|e es IH]; intros s H k; cbn [wrun].
  - exact (H k).
  - assert (H1 := one_step s e H). destruct (wstep s e) as [s1 r]. cbn [fst] in H1.
    specialize (IH s1 H1 k). destruct (wrun s1 es) as [s2 rs]. exact IH.
Qed.

(** once connecting has failed, Open waits for ever *)
Lemma wait_step : forall s e k, sock_state (w_socks s) k = JClosed -> k < length (w_socks s) -> In (k, false) (w_wait s) ->
  let s' := fst (wstep s e) in sock_state (w_socks s') k = JClosed /\ k < length (w_socks s') /\ In (k, false) (w_wait s').
Proof.
  intros s e k Hs Hl Hw. unfold wstep. destruct (w_panic s); [auto|].
  assert (Hc : forall k0, sock_state (set_sock (w_socks s) k0 j_close) k = JClosed /\ k < length (set_sock (w_socks s) k0 j_close)).
  { intros k0. rewrite set_close, set_sock_length. destruct (Nat.eqb k k0); auto. }
  destruct e as [| |i|w| |i err|k0|k0|k0 b]; cbn zeta.
  - auto.
  - destruct (negb (w_cb s)); [auto|]. destruct (w_conn s); [auto|]. cbn [fst w_socks w_wait]. split; [|split].
    + unfold sock_state in *. rewrite nth_error_app1 by auto. auto.
    + rewrite app_length. lia.
    + apply in_or_app. auto.
  - destruct (nth_error (w_wait s) i) as [[k1 [|]]|] eqn:En; auto. cbn [fst w_socks w_wait]. split; [auto|]. split; [auto|].
    assert (Hi : i < length (w_wait s)) by (apply nth_error_Some; congruence).
    rewrite <- (firstn_skipn i (w_wait s)) in Hw. unfold remove_at. apply in_app_or in Hw. apply in_or_app. destruct Hw as [Hw|Hw]; [left; auto|right].
    assert (Ei : skipn i (w_wait s) = (k1, true) :: skipn (S i) (w_wait s)).
    { clear -En. revert En. generalize (w_wait s). induction i as [|i IH]; intros [|x l] En; cbn [nth_error skipn] in *; try discriminate; [congruence|]. apply IH in En. rewrite En. reflexivity. }
    rewrite Ei in Hw. destruct Hw as [Hw|Hw]; [discriminate Hw|auto].
  - destruct (negb (w_run s)); [auto|]. destruct (w_conn s) as [k1|]; [|auto].
    destruct (sock_state (w_socks s) k1) eqn:Es; [auto| |auto]. cbn [fst w_socks w_wait]. rewrite set_state, set_sock_length.
    destruct (Nat.eqb_spec k k1) as [->|N1]; [congruence|auto].
  - destruct (w_conn s) as [k1|]; [|auto]. cbn [fst w_socks w_wait]. destruct (Hc k1). auto.
  - destruct (nth_error (w_hand s) i); [|auto]. destruct err; [|auto]. destruct (w_conn s) as [k1|]; [|auto]. cbn [fst w_socks w_wait]. destruct (Hc k1). auto.
  - destruct (sock_state (w_socks s) k0) eqn:Es; [|auto|auto]. cbn [fst w_socks w_wait]. rewrite set_state, set_sock_length.
    destruct (Nat.eqb_spec k k0) as [->|N1]; [congruence|]. split; [auto|]. split; [auto|].
    apply in_map_iff. exists (k, false). split; [|auto]. cbn [fst]. destruct (Nat.eqb_spec k k0); [congruence|reflexivity].
  - destruct (sock_state (w_socks s) k0); [| |auto]; cbn [fst w_socks w_wait]; destruct (Hc k0); auto.
  - destruct (sock_state (w_socks s) k0); [auto| |auto]. destruct b; auto.
Qed.
Lemma wait_run : forall es s k, sock_state (w_socks s) k = JClosed -> k < length (w_socks s) -> In (k, false) (w_wait s) -> In (k, false) (w_wait (fst (wrun s es))).
Proof.
  induction es as [|e es IH]; intros s k H1 H2 H3; cbn [wrun]; [auto|].
  destruct (wait_step s e k H1 H2 H3) as [A1 [A2 A3]]. destruct (wstep s e) as [s1 r]. cbn [fst] in *.
  specialize (IH s1 k A1 A2 A3). destruct (wrun s1 es). exact IH.
Qed.

(** * The face of the simulator *)
Definition sim_ok (s : sst) : Prop := g_panic s = false /\ forall i, f_run (g_faces s i) = true -> f_sim (g_faces s i) = true.
Lemma sim_step : forall s e, sim_ok s -> sim_ok (fst (sstep s e)) /\ snd (sstep s e) <> RPanic
  /\ (forall i w, e = SSend i w -> snd (sstep s e) = if f_run (g_faces s i) then RNil else RErr).
Proof.
  intros s e [Hp H]. unfold sstep. rewrite Hp.
  assert (U : forall i x, (f_run x = true -> f_sim x = true) -> forall j, f_run (upd (g_faces s) i x j) = true -> f_sim (upd (g_faces s) i x j) = true).
  { intros i x Hx j. unfold upd. destruct (Nat.eqb j i); auto. }
  destruct e as [i|i|i w|i|b|n err]; cbn [fst snd].
  - split; [|split; [discriminate|intros; discriminate]]. split; [reflexivity|]. cbn [g_faces]. apply U. cbn [f_run f_sim]. apply H.
  - destruct (negb (f_cb (g_faces s i))); [split; [split; auto|split; [discriminate|intros; discriminate]]|].
    destruct (f_sim (g_faces s i)); (split; [split; auto|split; [discriminate|intros; discriminate]]). cbn [fst g_faces]. apply U. auto.
  - destruct (f_run (g_faces s i)) eqn:Er; cbn [negb].
    + rewrite (H i Er). cbn [negb fst snd]. split; [split; auto|]. split; [discriminate|].
      intros i0 w0 E. injection E as <- <-. rewrite Er. reflexivity.
    + cbn [fst snd]. split; [split; auto|]. split; [discriminate|]. intros i0 w0 E. injection E as <- <-. rewrite Er. reflexivity.
  - destruct (negb (f_sim (g_faces s i))); (split; [split; auto|split; [discriminate|intros; discriminate]]). cbn [fst g_faces]. apply U. cbn [f_run]. discriminate.
  - destruct (g_holder s); [destruct b|]; (split; [split; auto|split; [discriminate|intros; discriminate]]).
  - destruct (nth_error (g_hand s) n) as [i|]; [|split; [split; auto|split; [discriminate|intros; discriminate]]].
    cbn [fst snd]. split; [|split; [discriminate|intros; discriminate]]. split; [reflexivity|]. cbn [g_faces].
    destruct err; [|auto]. apply U. cbn [f_run]. discriminate.
Qed.
Lemma sim_run : forall es s, sim_ok s -> sim_ok (fst (srun s es)) /\ ~ In RPanic (snd (srun s es)).
Proof.
  induction es as [|e es IH]; intros s H; cbn [srun]; [split; [auto|intros []]|].
  destruct (sim_step s e H) as [A1 [A2 _]]. destruct (sstep s e) as [s1 r]. cbn [fst snd] in *.
  destruct (IH s1 A1) as [B1 B2]. destruct (srun s1 es) as [s2 rs]. cbn [fst snd] in *. split; [auto|].
  intros [E|E]; [congruence|auto].
Qed.

Lemma sim_one : forall i es s, Forall (of_face i) es -> g_panic s = false -> sim_ok s ->
  g_holder s = (if f_sim (g_faces s i) then Some i else None) ->
  g_got (fst (srun s es)) = g_got s ++ map (fun b => (i, b)) (sim_packets (f_cb (g_faces s i)) (f_sim (g_faces s i)) es).
Proof.
  intros i. induction es as [|e es IH]; intros s F Hp Ok Hh; cbn [srun].
  - cbn [sim_packets map fst]. rewrite app_nil_r. reflexivity.
  - apply Forall_cons_iff in F. destruct F as [Fe F].
    assert (Ok1 := proj1 (sim_step s e Ok)).
    assert (K : forall s1 r, sstep s e = (s1, r) ->
      g_holder s1 = (if f_sim (g_faces s1 i) then Some i else None)
      /\ g_got s1 ++ map (fun b => (i, b)) (sim_packets (f_cb (g_faces s1 i)) (f_sim (g_faces s1 i)) es)
         = g_got s ++ map (fun b => (i, b)) (sim_packets (f_cb (g_faces s i)) (f_sim (g_faces s i)) (e :: es))).
    { intros s1 r. unfold sstep. rewrite Hp.
      assert (U : forall x, upd (g_faces s) i x i = x) by (intros; unfold upd; rewrite Nat.eqb_refl; reflexivity).
      destruct e as [j|j|j w|j|b|n err]; cbn [of_face] in Fe; try subst j; cbn [sim_packets].
      - intros E; injection E as <- <-. cbn [g_holder g_faces g_got]. rewrite U. cbn [f_sim f_cb]. auto.
      - destruct (f_cb (g_faces s i)) eqn:Ec; cbn [negb orb].
        + destruct (f_sim (g_faces s i)) eqn:Es; intros E; injection E as <- <-.
          * rewrite ?Ec, ?Es, Hh, ?Es. auto.
          * cbn [g_holder g_faces g_got]. rewrite U. cbn [f_sim f_cb]. auto.
        + intros E; injection E as <- <-. rewrite Ec. auto.
      - destruct (negb (f_run (g_faces s i))); [intros E; injection E as <- <-; auto|].
        destruct (negb (f_sim (g_faces s i))); intros E; injection E as <- <-; auto.
      - destruct (f_sim (g_faces s i)) eqn:Es; cbn [negb]; intros E; injection E as <- <-.
        + cbn [g_holder g_faces g_got]. rewrite U. cbn [f_sim f_cb]. auto.
        + rewrite ?Es, Hh, ?Es. auto.
      - rewrite Hh. destruct (f_sim (g_faces s i)) eqn:Es; destruct b as [b|]; intros E; injection E as <- <-; cbn [g_holder g_faces g_got]; rewrite ?Es; cbn [map]; auto.
        rewrite ?Hh, ?Es. split; [reflexivity|]. rewrite <- app_assoc. reflexivity.
      - destruct (nth_error (g_hand s) n) as [j|]; intros E; injection E as <- <-; [|auto]. cbn [g_holder g_faces g_got].
        destruct err; [|auto]. unfold upd. destruct (Nat.eqb_spec i j) as [->|N1]; cbn [f_sim f_cb]; auto. }
    destruct (sstep s e) as [s1 r] eqn:E1. destruct (K s1 r eq_refl) as [K1 K2]. cbn [fst] in Ok1.
    specialize (IH s1 F (proj1 Ok1) Ok1 K1). destruct (srun s1 es) as [s2 rs]. cbn [fst] in *. rewrite IH. exact K2.
Qed.

Lemma sim_sent : forall es s, g_sent (fst (srun s es)) = g_sent s ++ sim_accepted es (snd (srun s es)).
Proof.
  induction es as [|e es IH]; intros s; [cbn; rewrite app_nil_r; reflexivity|].
  cbn [srun]. destruct (sstep s e) as [s1 r] eqn:E. specialize (IH s1). destruct (srun s1 es) as [s2 rs]. cbn [fst snd] in *. rewrite IH.
  assert (K : g_sent s1 = g_sent s ++ match e, r with SSend i w, RNil => [(i, concat w)] | _, _ => [] end).
  { unfold sstep in E. destruct (g_panic s); [injection E as <- <-; destruct e; rewrite app_nil_r; reflexivity|].
    destruct e as [j|j|j w|j|b|n err].
    - injection E as <- <-. rewrite app_nil_r. reflexivity.
    - destruct (negb (f_cb (g_faces s j))); [|destruct (f_sim (g_faces s j))]; injection E as <- <-; rewrite app_nil_r; reflexivity.
    - destruct (negb (f_run (g_faces s j))); [|destruct (negb (f_sim (g_faces s j)))]; injection E as <- <-; rewrite ?app_nil_r; reflexivity.
    - destruct (negb (f_sim (g_faces s j))); injection E as <- <-; rewrite app_nil_r; reflexivity.
    - destruct (g_holder s); [destruct b|]; injection E as <- <-; rewrite app_nil_r; reflexivity.
    - destruct (nth_error (g_hand s) n); injection E as <- <-; rewrite app_nil_r; reflexivity. }
  rewrite K, <- app_assoc. f_equal. destruct e; cbn [sim_accepted app]; try reflexivity. destruct r; reflexivity.
Qed.
