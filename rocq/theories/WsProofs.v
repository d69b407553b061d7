From Verif Require Import Base WsModel WsSpec.

Lemma put_nth_nth : forall {A} (l : list A) t x y i, nth_error l t = Some y -> nth_error (put_nth l t x) i = if Nat.eqb i t then Some x else nth_error l i.
Proof.
  induction l as [|a l IH]; intros t x y i H; [destruct t; discriminate|]. destruct t as [|t], i as [|i]; cbn; auto. rewrite (IH t x y i H). auto.
Qed.


Lemma w_run_prefix : forall limit ms n, (n <= length ms)%nat -> w_run (fun _ => true) limit n 0 ms = (binaries (firstn n ms), WClosed).
Proof.
  intros limit. induction ms as [|[b|b] ms IH]; intros [|n] L; cbn [length] in L; try lia; try reflexivity; cbn [w_run firstn binaries flat_map]; rewrite IH by lia; reflexivity.
Qed.
Lemma w_run_fail : forall limit acc f k, (limit <= k + f)%nat -> (k < limit)%nat -> w_run acc limit f k [] = ([], WPanic).
Proof.
  intros limit acc. induction f as [|f IH]; intros k L K; [lia|]. cbn [w_run]. destruct (Nat.leb_spec limit (S k)); [reflexivity|]. apply IH; lia.
Qed.
Lemma w_run_end : forall limit ms n, (0 < limit)%nat -> (length ms + limit <= n)%nat -> w_run (fun _ => true) limit n 0 ms = (binaries ms, WPanic).
Proof.
  intros limit. induction ms as [|[b|b] ms IH]; intros n P L; cbn [length] in L.
  - apply w_run_fail; lia.
  - destruct n; [lia|]. cbn [w_run binaries flat_map]. rewrite IH by lia. reflexivity.
  - destruct n; [lia|]. cbn [w_run binaries flat_map]. rewrite IH by lia. reflexivity.
Qed.
Lemma w_run_refuse : forall acc limit ms p ms' n, Forall (fun b => acc b = true) (binaries ms) -> acc p = false -> (length ms < n)%nat ->
  w_run acc limit n 0 (ms ++ WBin p :: ms') = (binaries ms ++ [p], WRefused).
Proof.
  intros acc limit. induction ms as [|[b|b] ms IH]; intros p ms' n F R L; cbn [length] in L; (destruct n; [lia|]); cbn [app w_run binaries flat_map].
  - rewrite R. reflexivity.
  - cbn [binaries flat_map app] in F. inversion F as [|? ? AB F']; subst. rewrite AB. rewrite (IH p ms' n) by (auto; lia). reflexivity.
  - rewrite (IH p ms' n) by (auto; lia). reflexivity.
Qed.
Lemma w_run_accept : forall acc limit ms n, Forall (fun b => acc b = true) (binaries ms) -> (n <= length ms)%nat -> w_run acc limit n 0 ms = (binaries (firstn n ms), WClosed).
Proof.
  intros acc limit. induction ms as [|[b|b] ms IH]; intros [|n] F L; cbn [length] in L; try lia; try reflexivity; cbn [w_run firstn binaries flat_map].
  - cbn [binaries flat_map app] in F. inversion F as [|? ? AB F']; subst. rewrite AB, IH by (auto; lia). reflexivity.
  - rewrite IH by (auto; lia). reflexivity.
Qed.

(** ** the Sends *)

Lemma NoDup_app_intro' {A} (l1 l2 : list A) : NoDup l1 -> NoDup l2 -> (forall x, In x l1 -> In x l2 -> False) -> NoDup (l1 ++ l2).
Proof.
  induction l1 as [|a l1 IH]; intros H1 H2 D; auto. inversion H1; subst. cbn. constructor; [|apply IH; auto; intros x I; apply D; right; auto].
  rewrite in_app_iff. intros [I|I]; auto. eapply D; [left; auto|auto].
Qed.

Record WInv (s : wface) (order : list nat) : Prop := {
  wi_out : w_out s = map (fun i => WBin (concat (w_packet s i))) order;
  wi_nodup : NoDup order;
  wi_in : forall i, In i order <-> w_sent s i
}.

Lemma w_packet_ext : forall s s' order, (forall i pkt p, w_doing s i pkt p -> w_packet s' i = pkt) -> (forall i, In i order -> exists pkt p, w_doing s i pkt p) ->
  map (fun i => WBin (concat (w_packet s i))) order = map (fun i => WBin (concat (w_packet s' i))) order.
Proof.
  intros s s' order H I. apply map_ext_in. intros i J. destruct (I i J) as (pkt & p & T). rewrite (H i pkt p T). unfold w_packet, w_doing in *. rewrite T. auto.
Qed.

Lemma w_step_inv : forall s l s' order, WInv s order -> w_step s l = Ok s' -> exists new, WInv s' (order ++ new).
Proof.
  intros s l s' order [O ND IN] E.
  assert (ALL : forall i, In i order -> exists pkt p, w_doing s i pkt p) by (intros i J; apply IN in J; destruct J as (pkt & T); eauto).
  destruct l as [pkt|t]; cbn [w_step] in E.
  - injection E as <-. exists []. rewrite app_nil_r.
    assert (N : forall i, nth_error (w_threads s ++ [(pkt, WsCheck)]) i = if (i <? length (w_threads s))%nat then nth_error (w_threads s) i else if Nat.eqb i (length (w_threads s)) then Some (pkt, WsCheck) else None).
    { intros i. destruct (Nat.ltb_spec i (length (w_threads s))); [apply nth_error_app1; auto|]. rewrite nth_error_app2 by auto. destruct (Nat.eqb_spec i (length (w_threads s))) as [->|]; [rewrite Nat.sub_diag; auto|].
      destruct (i - length (w_threads s))%nat as [|k] eqn:Q; [lia|]. destruct k; auto. }
    constructor; auto.
    + cbn [w_out]. rewrite O. apply w_packet_ext; auto. intros i pk p T. unfold w_packet, w_doing in *. cbn [w_threads]. rewrite N.
      assert (L : (i < length (w_threads s))%nat) by (apply nth_error_Some; congruence). apply Nat.ltb_lt in L. rewrite L, T. auto.
    + intros i. rewrite IN. unfold w_sent, w_doing. cbn [w_threads]. split; intros (pk & T); exists pk.
      * rewrite N. assert (L : (i < length (w_threads s))%nat) by (apply nth_error_Some; congruence). apply Nat.ltb_lt in L. rewrite L, T. auto.
      * rewrite N in T. destruct (Nat.ltb i (length (w_threads s))); auto. destruct (Nat.eqb i (length (w_threads s))); discriminate.
  - destruct (nth_error (w_threads s) t) as [[pkt p]|] eqn:TH; [|injection E as <-; exists []; rewrite app_nil_r; constructor; auto].
    assert (G : forall q wr, p <> WsRet true -> q <> WsRet true -> WInv (mkW (w_running s) (w_out s) wr (put_nth (w_threads s) t (pkt, q))) order).
    { intros q wr NP NQ. constructor; auto.
      - cbn [w_out]. rewrite O. apply w_packet_ext; auto. intros i pk p0 T. unfold w_packet, w_doing in *. cbn [w_threads]. rewrite (put_nth_nth _ _ _ _ _ TH). destruct (Nat.eqb_spec i t) as [->|]; [congruence|]. rewrite T. auto.
      - intros i. rewrite IN. unfold w_sent, w_doing. cbn [w_threads]. rewrite (put_nth_nth _ _ _ _ _ TH). destruct (Nat.eqb_spec i t) as [->|]; [|tauto]. split; intros (pk & T); congruence. }
    destruct p as [| | |ok].
    + destruct (w_running s); injection E as <-; exists []; rewrite app_nil_r; apply G; discriminate.
    + destruct (w_writer s); [discriminate|]. injection E as <-. exists []. rewrite app_nil_r. apply G; discriminate.
    + injection E as <-. exists [t]. constructor.
      * cbn [w_out]. rewrite map_app, O. f_equal.
        -- apply w_packet_ext; auto. intros i pk p0 T. unfold w_packet, w_doing in *. cbn [w_threads]. rewrite (put_nth_nth _ _ _ _ _ TH). destruct (Nat.eqb_spec i t) as [->|]; [congruence|]. rewrite T. auto.
        -- cbn [map]. unfold w_packet. cbn [w_threads]. rewrite (put_nth_nth _ _ _ _ _ TH), Nat.eqb_refl. auto.
      * apply NoDup_app_intro'; auto; [constructor; [auto|constructor]|]. intros i J [<-|[]]. apply IN in J. destruct J as (pk & T). unfold w_doing in T. congruence.
      * intros i. rewrite in_app_iff, IN. unfold w_sent, w_doing. cbn [w_threads]. rewrite (put_nth_nth _ _ _ _ _ TH). destruct (Nat.eqb_spec i t) as [->|NE].
        -- split; [intros _; eauto|intros _; right; left; auto].
        -- split; [intros [H|[H|[]]]; [auto|congruence]|auto].
    + injection E as <-. exists []. rewrite app_nil_r. constructor; auto.
Qed.

Theorem w_sends : forall ls1 ls2 s1 s2, w_steps w_open ls1 = Ok s1 -> w_steps s1 ls2 = Ok s2 -> exists first later, WInv s1 first /\ WInv s2 (first ++ later).
Proof.
  assert (G : forall ls s s' order, WInv s order -> w_steps s ls = Ok s' -> exists new, WInv s' (order ++ new)).
  { induction ls as [|l ls IH]; intros s s' order I E; cbn [w_steps] in E; [injection E as <-; exists []; rewrite app_nil_r; auto|].
    destruct (w_step s l) as [s1| | |] eqn:ST; cbn [bind] in E; try discriminate. destruct (w_step_inv _ _ _ _ I ST) as (n1 & I1). destruct (IH _ _ _ I1 E) as (n2 & I2).
    exists (n1 ++ n2). rewrite app_assoc. auto. }
  intros ls1 ls2 s1 s2 E1 E2. assert (I0 : WInv w_open []). { constructor; [reflexivity|constructor|]. intros i. split; [intros []|]. intros (pkt & T). unfold w_doing in T. destruct i; discriminate. }
  destruct (G _ _ _ _ I0 E1) as (f & I1). destruct (G _ _ _ _ I1 E2) as (l & I2). eauto.
Qed.
