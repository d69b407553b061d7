From Coq Require Import Permutation.
From Verif Require Import Base BaseProofs NameModel TextModel TrieModel TrieSpec TrieProofs EngineModel EngineSpec EngineProofs EngineProofs2.

(** ** deleted nodes stay deleted *)
Definition dead (h : pit) (n : nat) : Prop := exists x, nth_error h n = Some x /\ t_chd x = None.
Definition keeps_dead (h h' : pit) : Prop := forall n, dead h n -> dead h' n.

Lemma kd_refl : forall h, keeps_dead h h.
Proof. intros h n D. auto. Qed.
Lemma kd_trans : forall a b c, keeps_dead a b -> keeps_dead b c -> keeps_dead a c.
Proof. intros a b c A B n D. auto. Qed.

Lemma kd_put : forall (h : pit) n x y, nth_error h n = Some x -> (t_chd x = None -> t_chd y = None) -> keeps_dead h (put h n y).
Proof.
  intros h n x y X C m (z & Z & CZ). unfold dead. rewrite put_nth by (eapply nth_lt; eauto). destruct (Nat.eqb_spec m n) as [->|].
  - exists y. split; auto. apply C. congruence.
  - exists z. auto.
Qed.
Lemma kd_app : forall (h t : pit), keeps_dead h (h ++ t).
Proof. intros h t m (z & Z & CZ). exists z. split; auto. rewrite nth_error_app1; auto. eapply nth_lt; eauto. Qed.

Lemma kd_first : forall pred nm fuel h n h' m, first_satisfy_or_new [] fuel pred h n nm = Ok (h', m) -> keeps_dead h h'.
Proof.
  intros pred nm. induction fuel; intros h n h' m E; [discriminate|]. cbn [first_satisfy_or_new] in E.
  destruct (get h n) as [x| | |] eqn:G; cbn [bind] in E; try discriminate.
  destruct ((length nm <=? t_dep x)%nat || pred (t_val x)); [injection E as <- _; apply kd_refl|].
  destruct (nth_error nm (t_dep x)) as [c|]; [|discriminate]. destruct (chd_get (t_chd x) c) as [ch|]; [eapply IHfuel; eauto|].
  unfold add_child in E. destruct (t_chd x) as [mm|] eqn:C; cbn [bind] in E; [|discriminate]. cbn [fst snd] in E.
  assert (X : nth_error h n = Some x) by (unfold get in G; destruct (nth_error h n); congruence).
  eapply kd_trans; [|eapply IHfuel; eauto]. eapply kd_trans; [|apply kd_app]. eapply kd_put; eauto. congruence.
Qed.

Lemma kd_delete : forall pred fuel h n h', Inv _ h -> delete_if fuel pred h n = Ok h' -> keeps_dead h h'.
Proof.
  intros pred. induction fuel; intros h n h' I E; [discriminate|]. cbn [delete_if] in E.
  destruct (get h n) as [x| | |] eqn:G; cbn [bind] in E; try discriminate.
  assert (X : nth_error h n = Some x) by (unfold get in G; destruct (nth_error h n); congruence).
  destruct (pred (t_val x)); cbn [negb] in E; [|injection E as <-; apply kd_refl].
  pose proof I as (I0 & I1 & I2).
  destruct (t_par x) as [p|] eqn:PX.
  - assert (N0 : n <> O). { intros ->. destruct I0 as (r & m & R1 & R2 & _). congruence. }
    destruct (I1 n x X N0) as (p' & y & P1 & P2 & P3 & P4). assert (p' = p) by congruence. subst p'.
    assert (Y : nth_error (put h n (with_chd x None)) p = Some y).
    { rewrite put_nth by (eapply nth_lt; eauto). destruct (Nat.eqb_spec p n); [lia|auto]. }
    rewrite (get_ok _ _ _ _ Y) in E. cbn [bind] in E. fold (unlink _ h n p x y) in E.
    assert (KU : keeps_dead h (unlink _ h n p x y)).
    { unfold unlink. apply kd_trans with (put h n (with_chd x None)); [apply (kd_put h n x); auto|]. apply (kd_put _ p y); auto. unfold with_chd. cbn [t_chd]. intros ->. reflexivity. }
    destruct (chd_len (chd_del (t_chd y) (t_key x)) =? 0)%nat; [|injection E as <-; exact KU].
    eapply kd_trans; [exact KU|]. eapply IHfuel; [|exact E]. apply unlink_inv; auto.
  - injection E as <-. assert (n = O). { destruct n; auto. destruct (I1 (S n) x X) as (p & y & P & _); [lia|congruence]. } subst n.
    apply (kd_put h 0 x); auto. destruct I0 as (r & m & R1 & R2 & R3 & R4). congruence.
Qed.

(** the node that is deleted is dead, unless it is the root *)
Lemma delete_dead : forall fuel h n x h', Inv _ h -> nth_error h n = Some x -> n <> O -> delete_if fuel (fun _ => true) h n = Ok h' -> dead h' n.
Proof.
  intros [|fuel] h n x h' I X N0 E; [discriminate|]. cbn [delete_if negb] in E. rewrite (get_ok _ _ _ _ X) in E. cbn [bind] in E.
  pose proof I as (I0 & I1 & I2). destruct (I1 n x X N0) as (p & y & P1 & P2 & P3 & P4). rewrite P1 in E.
  assert (Y : nth_error (put h n (with_chd x None)) p = Some y).
  { rewrite put_nth by (eapply nth_lt; eauto). destruct (Nat.eqb_spec p n); [lia|auto]. }
  rewrite (get_ok _ _ _ _ Y) in E. cbn [bind] in E. fold (unlink _ h n p x y) in E.
  assert (DU : dead (unlink _ h n p x y) n).
  { exists (with_chd x None). split; [|reflexivity]. rewrite unlink_nth by (auto; lia). destruct (Nat.eqb_spec n p); [lia|]. rewrite Nat.eqb_refl. auto. }
  destruct (chd_len (chd_del (t_chd y) (t_key x)) =? 0)%nat; [|injection E as <-; exact DU].
  eapply kd_delete; [|exact E|exact DU]. apply unlink_inv; auto.
Qed.

Lemma kd_loop : forall fuel h cur len dg done h' d, data_loop fuel h cur len dg done = Ok (h', d) -> keeps_dead h h'.
Proof.
  induction fuel; intros h cur len dg done h' d E; [discriminate|]. cbn [data_loop] in E.
  destruct (get h cur) as [x| | |] eqn:G; cbn [bind] in E; try discriminate.
  assert (X : nth_error h cur = Some x) by (unfold get in G; destruct (nth_error h cur); congruence).
  assert (K : forall h1, (if (length (t_val x) =? 0)%nat then Ok h else set_value h cur (filter (fun e => negb (satisfied (t_dep x) len dg e)) (t_val x))) = Ok h1 -> keeps_dead h h1).
  { intros h1. destruct (length (t_val x) =? 0)%nat; intros Q; [injection Q as <-; apply kd_refl|]. rewrite (set_value_put _ _ _ _ X) in Q. injection Q as <-. eapply kd_put; eauto. }
  destruct (if (length (t_val x) =? 0)%nat then Ok h else _) as [h1| | |]; cbn [bind] in E; try discriminate. specialize (K h1 eq_refl).
  destruct (t_par x) as [p|]; [|injection E as <- _; exact K]. eapply kd_trans; [exact K|eauto].
Qed.

(** ** the results of an Interest *)
Definition res_of (l : list (nat * result)) (i : nat) : list result := map snd (filter (fun e => (fst e =? i)%nat) l).
Definition is_nack (r : result) : Prop := exists n, r = RNack n.

(** what an Interest that is still in the table may have got *)
Definition got_pending (h : pit) (n : nat) (rs : list result) : Prop :=
  rs = [] \/ (n <> O /\ dead h n /\ exists r, rs = [RNack r]) \/ (n = O /\ Forall is_nack rs).
(** ... and one that is not any more, whose node was the root or another *)
Definition got_final (root : bool) (rs : list result) : Prop :=
  (exists r, rs = [r]) \/ (root = false /\ exists r, rs = [RNack r; RTimeout]) \/ (root = true /\ exists ns r, rs = ns ++ [r] /\ Forall is_nack ns).

Definition is_root (L : list xint) (i : nat) : bool :=
  match nth_error L i with Some x => match split_digest (x_name x) with Some ([], _) => true | _ => false end | None => false end.

Record Calls (L : list xint) (g : engine) : Prop := {
  ca_nodup : NoDup (ids (g_pit g));
  ca_pending : forall n x e, nth_error (g_pit g) n = Some x -> In e (t_val x) -> got_pending (g_pit g) n (res_of (g_log g) (pe_id e));
  ca_final : forall i, (i < g_next g)%nat -> ~ In i (ids (g_pit g)) -> got_final (is_root L i) (res_of (g_log g) i)
}.

Lemma in_ids : forall (h : pit) i, In i (ids h) <-> exists n x e, nth_error h n = Some x /\ In e (t_val x) /\ pe_id e = i.
Proof.
  intros h i. unfold ids. rewrite in_concat. split.
  - intros (l & A & B). apply in_map_iff in A. destruct A as (x & <- & A). apply In_nth_error in A. destruct A as (n & A).
    apply in_map_iff in B. destruct B as (e & <- & B). eauto 10.
  - intros (n & x & e & A & B & <-). exists (map pe_id (t_val x)). split; [|apply in_map; auto]. apply in_map_iff. exists x. split; auto. eapply nth_error_In; eauto.
Qed.

Lemma res_app : forall l new r i, NoDup new -> res_of (l ++ map (fun i => (i, r)) new) i = res_of l i ++ (if in_dec Nat.eq_dec i new then [r] else []).
Proof.
  intros l new r i ND. unfold res_of. rewrite filter_app, map_app. f_equal. induction new as [|j new IH]; [reflexivity|]. inversion ND; subst. cbn [map filter fst].
  destruct (Nat.eqb_spec j i) as [->|NE].
  - cbn [map snd]. rewrite IH by auto. destruct (in_dec Nat.eq_dec i new); [contradiction|]. destruct (in_dec Nat.eq_dec i (i :: new)); [reflexivity|]. exfalso. apply n0. left. auto.
  - rewrite IH by auto. destruct (in_dec Nat.eq_dec i new), (in_dec Nat.eq_dec i (j :: new)); auto.
    + exfalso. apply n. right. auto.
    + exfalso. destruct i0; auto.
Qed.

Lemma nodup_split : forall {A} (a b : list A), NoDup (a ++ b) -> NoDup a /\ NoDup b /\ forall x, In x a -> ~ In x b.
Proof.
  induction a as [|y a IH]; cbn [app]; intros b H; [split; [constructor|auto]|]. inversion H; subst. destruct (IH b H3) as (P & Q & R). split; [|split; auto].
  - constructor; auto. intros Z. apply H2. apply in_or_app. auto.
  - intros x [<-|X]; auto. intros Z. apply H2. apply in_or_app. auto.
Qed.
Lemma same_node : forall (h : pit) m m' y y' e e', NoDup (ids h) -> nth_error h m = Some y -> nth_error h m' = Some y' -> In e (t_val y) -> In e' (t_val y') -> pe_id e' = pe_id e -> m' = m.
Proof.
  unfold ids. induction h as [|a h IH]; intros m m' y y' e e' ND Y Y' IN IN' ID; [destruct m; discriminate|]. cbn [map concat] in ND. apply nodup_split in ND. destruct ND as (_ & NB & DJ).
  assert (K : forall k z f, nth_error h k = Some z -> In f (t_val z) -> In (pe_id f) (concat (map (fun x => map pe_id (t_val x)) h))).
  { intros k z f Z F. apply in_concat. exists (map pe_id (t_val z)). split; [apply in_map_iff; exists z; split; auto; eapply nth_error_In; eauto|apply in_map; auto]. }
  destruct m as [|m], m' as [|m']; cbn [nth_error] in *; auto.
  - injection Y as ->. exfalso. apply (DJ (pe_id e)); [apply in_map; auto|]. rewrite <- ID. eapply K; eauto.
  - injection Y' as ->. exfalso. apply (DJ (pe_id e')); [apply in_map; auto|]. rewrite ID. eapply K; eauto.
  - f_equal. eapply IH; eauto.
Qed.

(** where an entry is: the root exactly if its name says so *)
Lemma root_entry : forall L g n x e, EInv L g -> nth_error (g_pit g) n = Some x -> In e (t_val x) -> is_root L (pe_id e) = true <-> n = O.
Proof.
  intros L g n x e EI X IN. destruct (ei_entry _ _ EI n x e X IN) as (nm & node & A & B & C). unfold is_root. rewrite A. cbn [x_name]. rewrite B.
  pose proof (ei_inv _ _ EI) as I. destruct node as [|c node].
  - split; [intros _|auto]. change (keys []) with (@nil buf) in C. inversion C; subst; auto. destruct q; discriminate.
  - split; [discriminate|]. intros ->. exfalso. assert (P0 : path_of _ (g_pit g) 0 []) by constructor.
    pose proof (path_of_fun _ _ _ _ I P0 _ C) as Q. discriminate.
Qed.

(** the results of Data and timers: entries leave the table and get one more result *)
Lemma removal : forall L g h' armed' flight' new r now', EInv L g -> Calls L g -> Permutation (ids (g_pit g)) (new ++ ids h') -> keeps_dead (g_pit g) h' ->
  (forall n x', nth_error h' n = Some x' -> exists x, nth_error (g_pit g) n = Some x /\ forall e, In e (t_val x') -> In e (t_val x)) ->
  (forall n x e, nth_error (g_pit g) n = Some x -> In e (t_val x) -> In (pe_id e) new -> dead (g_pit g) n -> r = RTimeout) ->
  Calls L (mkEng h' now' armed' flight' (g_next g) (g_log g ++ map (fun i => (i, r)) new)).
Proof.
  intros L g h' armed' flight' new r now' EI [ND PE FI] PM KD VA DR. pose proof (Permutation_NoDup PM ND) as NDA.
  destruct (nodup_split _ _ NDA) as (NDN & NDI & DJ). constructor; cbn [g_pit g_log g_next].
  - exact NDI.
  - intros n x' e X' IN. destruct (VA n x' X') as (x & X & V). rewrite res_app by auto.
    destruct (in_dec Nat.eq_dec (pe_id e) new) as [Q|Q]; [exfalso; apply (DJ _ Q); apply in_ids; eauto 10|]. rewrite app_nil_r.
    destruct (PE n x e X (V e IN)) as [A|[(A & B & C)|A]]; [left; auto|right; left; auto|right; right; auto].
  - intros i LI NI. rewrite res_app by auto. destruct (in_dec Nat.eq_dec i new) as [Q|Q].
    + assert (IG : In i (ids (g_pit g))) by (eapply Permutation_in; [apply Permutation_sym; exact PM|apply in_or_app; auto]).
      apply in_ids in IG. destruct IG as (n & x & e & X & IN & <-). destruct (PE n x e X IN) as [A|[(A & B & r0 & C)|(A & B)]].
      * left. exists r. rewrite A. reflexivity.
      * right. left. split; [|exists r0; rewrite C, (DR n x e X IN Q B); reflexivity]. destruct (is_root L (pe_id e)) eqn:RT; auto. apply (root_entry L g n x e EI X IN) in RT. contradiction.
      * right. right. split; [apply (root_entry L g n x e EI X IN); auto|]. eauto.
    + rewrite app_nil_r. apply FI; auto. intros Z. apply NI. eapply Permutation_in in Z; [|exact PM]. apply in_app_iff in Z. tauto.
Qed.

Lemma is_root_app : forall L M i, (i < length L)%nat -> is_root (L ++ M) i = is_root L i.
Proof. intros L M i H. unfold is_root. rewrite nth_error_app1; auto. Qed.

Lemma res_of_none : forall l i, ~ In i (map fst l) -> res_of l i = [].
Proof.
  intros l i H. unfold res_of. induction l as [|[j r] l IH]; [reflexivity|]. cbn [filter fst]. destruct (Nat.eqb_spec j i) as [->|]; [exfalso; apply H; left; auto|]. apply IH. intros Q. apply H. right. auto.
Qed.

Lemma data_calls : forall L g nm dg g', EInv L g -> Calls L g -> e_data g nm dg = Ok g' -> Calls L g'.
Proof.
  intros L g nm dg g' EI C E. pose proof (ei_inv _ _ EI) as I. unfold e_data in E. fold (keys nm) in E.
  destruct (t_prefix_ok _ (g_pit g) (keys nm) I) as (q & n & TP & W & PQ & MAX). rewrite TP in E. cbn [bind] in E.
  destruct (walk_root _ _ q n I W) as (x & X & _). pose proof (nth_lt _ _ _ _ X) as NL.
  destruct (data_loop_ok (length nm) dg (S (length (g_pit g))) (g_pit g) n q [] I W) as (h1 & sat & DL & I1 & E1 & L1 & W1 & S1 & K1 & P1); [lia|].
  rewrite DL in E. cbn [bind fst snd app] in E. destruct (E1 n x X) as (x1 & X1 & _).
  destruct (delete_any_top _ [] is_nil h1 n x1 I1 X1) as (h2 & DI & I2 & V2 & E2). rewrite DI in E. cbn [bind] in E. injection E as <-.
  apply removal; auto.
  - rewrite (ids_vals h2), V2, <- ids_vals. exact P1.
  - eapply kd_trans; [eapply kd_loop; eauto|]. unfold t_delete_if in DI. eapply kd_delete; eauto.
  - intros m y2 Y2. assert (LM : (m < length (g_pit g))%nat) by (rewrite <- L1, <- (vals_length _ _ V2); eapply nth_lt; eauto).
    destruct (nth_error (g_pit g) m) as [y|] eqn:Y; [|apply nth_error_None in Y; lia]. exists y. split; auto.
    destruct (K1 m y Y) as (y1 & Y1 & B1 & _). destruct (vals_nth _ _ _ _ V2 Y1) as (y2' & Y2' & Q). assert (y2' = y2) by congruence. subst y2'. rewrite Q. auto.
  - intros m y e Y IN IS (z & Z & CZ). exfalso. apply in_map_iff in IS. destruct IS as (e' & ID & IS). apply S1 in IS.
    destruct IS as (p & m' & y' & PP & WM & Y' & IN' & _).
    assert (m' = m) by (destruct C as [ND _ _]; exact (same_node _ m m' y y' e e' ND Y Y' IN IN' ID)).
    subst m'. destruct (walk_root _ _ p m I WM) as (y0 & Y0 & _ & NZ). congruence.
Qed.

Lemma run_calls : forall L g id g', EInv L g -> Calls L g -> e_step g (ERun id) = Ok g' -> Calls L g'.
Proof.
  intros L g id g' EI C E. pose proof (ei_inv _ _ EI) as I. cbn [e_step] in E.
  destruct (find (with_id id) (g_flight g)) as [t|] eqn:FI; [|injection E as <-; auto].
  apply find_with_id in FI. destruct FI as [TF TID]. unfold e_timeout in E. cbn [g_pit g_now g_armed g_flight g_next g_log] in E.
  destruct (ei_timers _ _ EI t) as [TNL _]; [apply in_or_app; auto|]. destruct (nth_error (g_pit g) (tm_node t)) as [x|] eqn:X; [|apply nth_error_None in X; lia].
  unfold value in E. rewrite (get_ok _ _ _ _ X) in E. cbn [bind] in E. set (n := tm_node t) in *.
  set (f := fun e => negb (g_now g <? pe_deadline e)%Z) in *.
  assert (KE : filter (fun e => (g_now g <? pe_deadline e)%Z) (t_val x) = filter (fun e => negb (f e)) (t_val x)).
  { apply filter_ext. intros e. unfold f. rewrite Bool.negb_involutive. auto. }
  rewrite KE in E. set (kept := filter (fun e => negb (f e)) (t_val x)) in *.
  rewrite (set_value_put _ _ _ _ X) in E. cbn [bind] in E. set (h1 := put (g_pit g) n (with_val x kept)) in *.
  destruct (put_val_inv (g_pit g) n x kept I X) as [I1 _]. fold h1 in I1.
  assert (N1 : forall m, nth_error h1 m = if Nat.eqb m n then Some (with_val x kept) else nth_error (g_pit g) m) by (intros m; apply put_nth; auto).
  assert (X1 : nth_error h1 n = Some (with_val x kept)) by (rewrite N1, Nat.eqb_refl; auto).
  destruct (delete_any_top _ [] is_nil h1 n _ I1 X1) as (h2 & DI & I2 & V2 & E2). rewrite DI in E. cbn [bind] in E. injection E as <-.
  apply removal; auto.
  - rewrite (ids_vals h2), V2, <- ids_vals. exact (ids_partition (g_pit g) n x f X).
  - apply kd_trans with h1; [apply (kd_put (g_pit g) n x); auto|]. unfold t_delete_if in DI. eapply kd_delete; eauto.
  - intros m y2 Y2. assert (M1 : nth_error (map t_val h1) m = Some (t_val y2)) by (rewrite <- V2; apply map_nth_error; auto).
    rewrite nth_error_map, N1 in M1. destruct (Nat.eqb_spec m n) as [->|].
    + cbn in M1. injection M1 as M1. exists x. split; auto. intros e IN. rewrite <- M1 in IN. apply filter_In in IN. tauto.
    + destruct (nth_error (g_pit g) m) as [y|]; [|discriminate]. cbn in M1. injection M1 as M1. exists y. split; auto. rewrite M1. auto.
Qed.

Lemma nack_calls : forall L g nm r g', EInv L g -> Calls L g -> e_nack g nm r = Ok g' -> Calls L g'.
Proof.
  intros L g nm r g' EI C E. pose proof (ei_inv _ _ EI) as I. unfold e_nack in E. fold (keys nm) in E.
  rewrite t_exact_ok in E by auto. cbn [bind] in E. destruct (walk _ (g_pit g) 0 (keys nm)) as [n|] eqn:W; [|injection E as <-; auto].
  destruct (walk_root _ _ _ n I W) as (x & X & _ & LIVE). unfold value in E. rewrite (get_ok _ _ _ _ X) in E. cbn [bind] in E.
  destruct (delete_any_top _ [] (fun _ => true) (g_pit g) n x I X) as (h2 & DI & I2 & V2 & E2). unfold t_delete in E. rewrite DI in E. cbn [bind] in E. injection E as <-.
  destruct C as [ND PE FI].
  assert (NDN : NoDup (map pe_id (t_val x))).
  { destruct (ids_put (g_pit g) n x [] X) as (q & A & _). apply (Permutation_NoDup A) in ND. apply nodup_split in ND. tauto. }
  assert (KD : keeps_dead (g_pit g) h2) by (unfold t_delete_if in DI; eapply kd_delete; eauto).
  assert (IDS : ids h2 = ids (g_pit g)) by (rewrite !ids_vals, V2; auto).
  constructor; cbn [g_pit g_log g_next].
  - rewrite IDS. auto.
  - intros m y2 e Y2 IN. rewrite res_app by auto.
    assert (M1 : nth_error (map t_val (g_pit g)) m = Some (t_val y2)) by (rewrite <- V2; apply map_nth_error; auto).
    rewrite nth_error_map in M1. destruct (nth_error (g_pit g) m) as [y|] eqn:Y; [|discriminate]. cbn in M1. injection M1 as M1. rewrite <- M1 in IN.
    destruct (in_dec Nat.eq_dec (pe_id e) (map pe_id (t_val x))) as [Q|Q].
    + apply in_map_iff in Q. destruct Q as (e' & ID & IN'). assert (n = m) by exact (same_node _ m n y x e e' ND Y X IN IN' ID). subst m. assert (y = x) by congruence. subst y.
      destruct (PE n x e Y IN) as [A|[(A & (z & Z & CZ) & _)|(A & B)]].
      * rewrite A. destruct (Nat.eq_dec n 0) as [->|N0].
        -- right. right. split; auto. repeat constructor. exists r. auto.
        -- right. left. split; auto. split; [|exists r; reflexivity]. unfold t_delete_if in DI. exact (delete_dead _ _ n x _ I X N0 DI).
      * exfalso. congruence.
      * right. right. split; auto. apply Forall_app. split; auto. repeat constructor. exists r. auto.
    + rewrite app_nil_r. destruct (PE m y e Y IN) as [A|[(A & B & D)|A]]; [left; auto|right; left; auto|right; right; auto].
  - intros i LI NI. rewrite IDS in NI. rewrite res_app by auto. destruct (in_dec Nat.eq_dec i (map pe_id (t_val x))) as [Q|Q]; [|rewrite app_nil_r; auto].
    exfalso. apply NI. apply in_ids. apply in_map_iff in Q. destruct Q as (e & <- & IN). eauto 10.
Qed.

Lemma express_calls : forall L g nm cbp life g', EInv L g -> Calls L g -> nm <> [] -> e_express g nm cbp life = Ok (Some g') ->
  Calls (L ++ [mkX nm cbp (g_now g + match life with Some l => l | None => DefaultInterestLife end)]) g'.
Proof.
  intros L g nm cbp life g' EI C NE E. pose proof (ei_inv _ _ EI) as I. unfold e_express in E.
  destruct (split_digest nm) as [[node sha]|] eqn:SD; [|apply split_digest_nil in SD; congruence]. fold (keys node) in E.
  destruct (always_ok _ [] (g_pit g) (keys node) I) as (h1 & n & A & I1 & W1 & E1 & (k & V1)). rewrite A in E. cbn [bind fst snd] in E.
  destruct (walk_root _ h1 _ n I1 W1) as (x & X & _). unfold value in E. rewrite (get_ok _ _ _ _ X) in E. cbn [bind] in E.
  set (id := g_next g) in *. set (lf := match life with Some l => l | None => DefaultInterestLife end) in *.
  set (e := mkPend id (g_now g + lf) cbp sha) in *. rewrite (set_value_put _ _ _ _ X) in E. cbn [bind] in E. injection E as <-.
  set (h2 := put h1 n (with_val x (t_val x ++ [e]))).
  assert (N2 : forall m, nth_error h2 m = if Nat.eqb m n then Some (with_val x (t_val x ++ [e])) else nth_error h1 m).
  { intros m. apply put_nth. eapply nth_lt; eauto. }
  destruct C as [ND PE FI].
  assert (IDS : Permutation (ids h2) (id :: ids (g_pit g))).
  { destruct (ids_put h1 n x (t_val x ++ [e]) X) as (q & Q1 & Q2). unfold h2. rewrite Q2, map_app. cbn [map]. rewrite <- app_assoc. cbn [app].
    rewrite <- Permutation_middle. apply perm_skip. rewrite <- Q1. rewrite (ids_pad _ _ _ V1). auto. }
  assert (LT : forall i, In i (ids (g_pit g)) -> (i < g_next g)%nat).
  { intros i H. apply in_ids in H. destruct H as (m & y & f & Y & IN & <-). eapply entry_id_lt; eauto. }
  assert (KD : keeps_dead (g_pit g) h2).
  { unfold t_always, match_always in A. eapply kd_trans; [eapply kd_first; eauto|]. eapply kd_put; eauto. }
  assert (NL : res_of (g_log g) id = []).
  { apply res_of_none. intros Q. apply (ei_called _ _ EI) in Q. unfold id in Q. lia. }
  constructor; cbn [g_pit g_log g_next].
  - eapply Permutation_NoDup; [apply Permutation_sym; exact IDS|]. constructor; auto. intros Q. apply LT in Q. unfold id in Q. lia.
  - intros m y f Y IN.
    assert (OLD : (f = e) \/ exists y0, nth_error h1 m = Some y0 /\ In f (t_val y0)).
    { rewrite N2 in Y. destruct (Nat.eqb_spec m n) as [->|].
      - injection Y as <-. cbn [with_val t_val] in IN. apply in_app_iff in IN. destruct IN as [IN|[<-|[]]]; auto. right. exists x. auto.
      - right. exists y. auto. }
    destruct OLD as [->|(y0 & Y0 & IN0)]; [left; exact NL|]. destruct (vals_nth_pad_inv _ _ _ _ _ _ V1 Y0 IN0) as (y1 & Y1 & V). rewrite <- V in IN0.
    destruct (PE m y1 f Y1 IN0) as [B|[(B & D & R)|B]]; [left; auto|right; left; auto|right; right; auto].
  - intros i LI NI. assert (i <> id). { intros ->. apply NI. eapply Permutation_in; [apply Permutation_sym; exact IDS|left; auto]. }
    fold id in LI. assert (LG : (i < g_next g)%nat) by (fold id; lia). rewrite is_root_app by (rewrite <- (ei_next _ _ EI); auto).
    apply FI; auto. intros Q. apply NI. eapply Permutation_in; [apply Permutation_sym; exact IDS|right; auto].
Qed.

Lemma calls_step : forall L g o g', EInv L g -> Calls L g -> e_step g o = Ok g' -> Calls (L ++ expressed (g_now g) [o]) g'.
Proof.
  intros L g o g' EI C E. destruct o as [nm cbp life|nm dg|nm r|d|id|id]; cbn [expressed]; rewrite ?app_nil_r.
  - cbn [e_step] in E. destruct nm as [|c nm].
    + injection E as <-. rewrite app_nil_r. auto.
    + destruct (e_express g (c :: nm) cbp life) as [[g1|]| | |] eqn:X; cbn [bind] in E; try discriminate; injection E as <-.
      * apply express_calls; auto. discriminate.
      * destruct (express_ok L g (c :: nm) cbp life EI) as (g1 & E1 & _); [discriminate|]. congruence.
  - eapply data_calls; eauto.
  - eapply nack_calls; eauto.
  - cbn [e_step] in E. injection E as <-. destruct C as [A B D]. constructor; auto.
  - destruct (fire_ok L g id EI) as (g1 & E1 & _ & NX & LG & PT & _). assert (g1 = g') by congruence. subst g1. destruct C as [A B D].
    constructor; rewrite ?PT, ?LG, ?NX; auto.
  - eapply run_calls; eauto.
Qed.

Lemma calls_run : forall os g, e_run eng_new os = Ok g -> Calls (expressed 0 os) g.
Proof.
  induction os as [|o os IH] using rev_ind; intros g E.
  - injection E as <-. constructor; cbn; [constructor| |intros i H; lia]. intros [|[|n]] x e H IN; try discriminate. injection H as <-. destruct IN.
  - rewrite e_run_app in E. destruct (reach os) as (g1 & R & EI & NW). rewrite R in E. cbn [bind e_run] in E.
    destruct (e_step g1 o) as [g2| | |] eqn:S1; cbn [bind] in E; try discriminate. injection E as <-.
    rewrite expressed_app, Z.add_0_l, <- NW. eapply calls_step; eauto.
Qed.

(** ** the results of one Interest *)
Lemma interest_results : forall os g i x b, e_run eng_new os = Ok g -> nth_error (expressed 0 os) i = Some x -> bare (x_name x) b -> b <> [] ->
  results_of g i = [] \/ (exists r, results_of g i = [r]) \/ (exists reason, results_of g i = [RNack reason; RTimeout]).
Proof.
  intros os g i x b E X B NB. destruct (reach_inv os g E) as [EI _]. destruct (calls_run os g E) as [ND PE FI]. change (results_of g i) with (res_of (g_log g) i).
  assert (RT : is_root (expressed 0 os) i = false). { unfold is_root. rewrite X. destruct (bare_split _ _ B) as (sha & ->). destruct b; congruence. }
  destruct (in_dec Nat.eq_dec i (ids (g_pit g))) as [Q|Q].
  - apply in_ids in Q. destruct Q as (n & y & e & Y & IN & <-). destruct (PE n y e Y IN) as [A|[(_ & _ & r & A)|(A & _)]]; [left; auto|right; left; eauto|].
    apply (root_entry _ _ _ _ _ EI Y IN) in A. congruence.
  - assert (LI : (i < g_next g)%nat) by (rewrite (ei_next _ _ EI); apply nth_error_Some; congruence).
    destruct (FI i LI Q) as [A|[(_ & A)|(A & _)]]; [right; left; auto|right; right; auto|congruence].
Qed.
Lemma res_in : forall l i r, In r (res_of l i) <-> In (i, r) l.
Proof.
  intros l i r. unfold res_of. rewrite in_map_iff. split.
  - intros ([j s] & E & IN). apply filter_In in IN. destruct IN as [IN Q]. cbn in *. apply Nat.eqb_eq in Q. subst. auto.
  - intros IN. exists (i, r). split; auto. apply filter_In. split; auto. cbn. apply Nat.eqb_refl.
Qed.
(** without a Nack for its own name an Interest has one result, whatever Nacks there are for other names *)
Lemma interest_once : forall os g i, e_run eng_new os = Ok g -> ~ nacked os i -> results_of g i = [] \/ exists r, results_of g i = [r].
Proof.
  intros os g i E NN. destruct (reach_inv os g E) as [EI _]. destruct (calls_run os g E) as [ND PE FI]. change (results_of g i) with (res_of (g_log g) i).
  assert (NR : forall r, ~ In (RNack r) (res_of (g_log g) i)).
  { intros r IN. apply res_in in IN. destruct (cause os g i _ E IN) as (os1 & o & os2 & x & EQ & X & nm & b & O & B & K).
    apply NN. exists x, b, nm, r. split; [|split; [exact B|split; [|exact K]]].
    - rewrite EQ, expressed_app. rewrite nth_error_app1; auto. apply nth_error_Some. congruence.
    - rewrite EQ, O. apply in_or_app. right. left. auto. }
  assert (NF : forall rs, Forall is_nack rs -> (forall r, ~ In (RNack r) rs) -> rs = []).
  { intros [|r rs] F H; auto. inversion F as [|? ? [q ->] _]; subst. exfalso. apply (H q). left. auto. }
  destruct (in_dec Nat.eq_dec i (ids (g_pit g))) as [Q|Q].
  - apply in_ids in Q. destruct Q as (n & y & e & Y & IN & <-). destruct (PE n y e Y IN) as [A|[(_ & _ & r & A)|(_ & A)]]; [left; auto|right; eauto|]. left. apply NF; auto.
  - destruct (Nat.lt_ge_cases i (g_next g)) as [LI|GE].
    + destruct (FI i LI Q) as [A|[(_ & r & A)|(_ & ns & r & A & F)]]; [right; auto| |].
      * exfalso. apply (NR r). rewrite A. left. auto.
      * right. exists r. rewrite A. rewrite (NF ns); auto. intros q H. apply (NR q). rewrite A. apply in_or_app. auto.
    + left. apply res_of_none. intros H. apply (ei_called _ _ EI) in H. lia.
Qed.
(** ... and in every history the results are Nacks, and possibly one Data or one timeout at the end *)
Lemma root_results : forall os g i, e_run eng_new os = Ok g -> exists ns rs, results_of g i = ns ++ rs /\ Forall is_nack ns /\ (length rs <= 1)%nat.
Proof.
  intros os g i E. destruct (reach_inv os g E) as [EI _]. destruct (calls_run os g E) as [ND PE FI]. change (results_of g i) with (res_of (g_log g) i).
  destruct (in_dec Nat.eq_dec i (ids (g_pit g))) as [Q|Q].
  - apply in_ids in Q. destruct Q as (n & y & e & Y & IN & <-). destruct (PE n y e Y IN) as [A|[(_ & _ & r & A)|(_ & A)]].
    + exists [], []. rewrite A. cbn. auto.
    + exists [], [RNack r]. rewrite A. cbn. auto.
    + exists (res_of (g_log g) (pe_id e)), []. rewrite app_nil_r. cbn. auto.
  - destruct (Nat.lt_ge_cases i (g_next g)) as [LI|GE].
    + destruct (FI i LI Q) as [(r & A)|[(_ & r & A)|(_ & ns & r & A & F)]].
      * exists [], [r]. rewrite A. cbn. auto.
      * exists [RNack r], [RTimeout]. rewrite A. cbn. split; auto. split; auto. repeat constructor. exists r. auto.
      * exists ns, [r]. cbn. auto.
    + exists [], []. rewrite res_of_none by (intros H; apply (ei_called _ _ EI) in H; lia). cbn. auto.
Qed.
