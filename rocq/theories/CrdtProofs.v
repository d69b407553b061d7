(** Lemmas for C44: single operations and histories. *)
From Coq Require Import Permutation.
From Verif Require Import Base PrimModel HeapModel HeapProofs CrdtModel CrdtSpec CrdtLinks CrdtRefine CrdtOps.

Lemma some_inj : forall {A} (a b : A), Some a = Some b -> a = b. Proof. congruence. Qed.

Section Proofs.
  Context {V : Type}.
  Implicit Types (d : doc V) (e : entry V) (xs : list (entry V)).

  Definition ids xs : list ident := map e_id xs.

  Lemma holds_iff : forall d xs, holds d xs <-> exists l, holds_at d l xs. Proof. reflexivity. Qed.
  Lemma is_id_iff : forall o e, is_id o e = true <-> o = Some (e_id e).
  Proof. intros. unfold is_id. rewrite oid_eqb_iff. split; congruence. Qed.
  Lemma opos_none : forall i xs, opos (Some i) xs = None <-> ~ In i (ids xs).
  Proof.
    intros. unfold opos. rewrite last_pos_none. unfold ids. rewrite in_map_iff. split.
    - intros H (e & <- & I). specialize (H e I). assert (is_id (Some (e_id e)) e = true) by now apply is_id_iff. congruence.
    - intros H e I. destruct (is_id (Some i) e) eqn:E; [|auto]. apply is_id_iff in E. injection E as ->. exfalso. apply H. eauto.
  Qed.
  Lemma rpos_none : forall o i xs, rpos o (Some i) xs = None <-> ~ In i (ids xs) \/ o = Some i.
  Proof.
    intros. unfold rpos. rewrite last_pos_none. split.
    - intros H. destruct (oid_eqb o (Some i)) eqn:O; [apply oid_eqb_iff in O; now right|]. left. intros I. apply in_map_iff in I. destruct I as (e & <- & I). specialize (H e I).
      assert (A : is_id (Some (e_id e)) e = true) by now apply is_id_iff. rewrite A, andb_true_r in H. apply negb_false_iff, is_id_iff in H. subst o.
      assert (oid_eqb (Some (e_id e)) (Some (e_id e)) = true) by now apply oid_eqb_iff. congruence.
    - intros [H| ->] e I.
      + destruct (is_id (Some i) e) eqn:E; [|apply andb_false_r]. apply is_id_iff in E. injection E as ->. exfalso. apply H. unfold ids. apply in_map_iff. eauto.
      + destruct (is_id (Some i) e); reflexivity.
  Qed.
  Lemma lready_false : forall xs o ro, lready xs o ro = false <->
    (exists i, o = Some i /\ ~ In i (ids xs)) \/ (exists i, ro = Some i /\ (~ In i (ids xs) \/ o = Some i)).
  Proof.
    intros. unfold lready. rewrite negb_false_iff, orb_true_iff, !andb_true_iff, !negb_true_iff. 
    assert (S : forall A (x : option A), is_some x = false <-> x = None) by (intros A [|]; split; [discriminate|discriminate|auto|auto]).
    split.
    - intros [(A & B)|(A & B)]; apply S in B.
      + left. destruct o as [i|]; [|discriminate]. exists i. split; [auto|]. now apply opos_none.
      + right. destruct ro as [i|]; [|discriminate]. exists i. split; [auto|]. now apply rpos_none.
    - intros [(i & -> & A)|(i & -> & A)]; [left|right]; (split; [reflexivity|]); apply S; [now apply opos_none|now apply rpos_none].
  Qed.

  Lemma in_skipn_nth : forall A (l : list A) n x, In x (skipn n l) -> exists k, (n <= k)%nat /\ nth_error l k = Some x.
  Proof. intros A l n x I. apply In_nth_error in I. destruct I as (k & K). rewrite nth_error_skipn in K. exists (n + k)%nat. split; [lia|auto]. Qed.
  Lemma in_firstn_nth : forall A (l : list A) n k x, nth_error l k = Some x -> (k < n)%nat -> In x (firstn n l).
  Proof. intros A l n k x K L. apply nth_error_In with k. rewrite nth_error_firstn. destruct (Nat.ltb_spec k n); [auto|lia]. Qed.
  Lemma in_skipn_of : forall A (l : list A) n k x, nth_error l k = Some x -> (n <= k)%nat -> In x (skipn n l).
  Proof. intros A l n k x K L. apply nth_error_In with (k - n)%nat. rewrite nth_error_skipn. replace (n + (k - n))%nat with k by lia. auto. Qed.

  Lemma lscan_none : forall (gap : list (entry V)) i k best conf before, lscan gap i k best conf before = None -> e_origin i <> None /\ exists x, In x gap /\ e_origin x = None.
  Proof.
    induction gap as [|x g IH]; intros i k best conf before H; cbn [lscan] in H; [discriminate|].
    assert (R : forall k best conf before, lscan g i k best conf before = None -> e_origin i <> None /\ exists y, In y (x :: g) /\ e_origin y = None).
    { intros k' b' c' f' H'. destruct (IH _ _ _ _ _ H') as (A & y & Y & O). split; [auto|]. exists y. split; [now right|auto]. }
    destruct (oid_eqb (e_origin i) (e_origin x)) eqn:O.
    - destruct (_ <? _)%N; [eauto|]. destruct (oid_eqb (e_rorigin i) _); [discriminate|eauto].
    - destruct (e_origin x) as [oo|] eqn:X.
      + destruct (mem oo _); [|discriminate]. destruct (negb _); eauto.
      + split; [|exists x; split; [now left|auto]]. intros N. rewrite N in O. discriminate.
  Qed.

  Lemma c44_insert : forall d xs id o ro c, holds d xs ->
    match insert d (Some id) o ro c with
    | Ok (d', false) => d' = d /\ ((exists i, o = Some i /\ ~ In i (ids xs)) \/ (exists i, ro = Some i /\ (~ In i (ids xs) \/ o = Some i)))
    | Ok (d', true) =>
        (forall i, o = Some i -> In i (ids xs)) /\ (forall i, ro = Some i -> In i (ids xs) /\ o <> Some i) /\
        (exists pre post, xs = pre ++ post /\ holds d' (pre ++ mkE id o ro c false :: post) /\
          (forall i, o = Some i -> In i (ids pre) /\ ~ In i (ids post)) /\
          (forall i a b, ro = Some i -> xs = a ++ b -> (forall j, o = Some j -> ~ In j (ids b)) -> In i (ids b) -> In i (ids post))) /\
        d_producer d' = d_producer d /\ d_clock d' = ((N.max (d_clock d) (snd id) + 1) mod two64)%N
    | Panic => exists i pre x post, o = Some i /\ xs = pre ++ x :: post /\ In i (ids pre) /\ ~ In i (ids (x :: post)) /\ e_origin x = None
    | _ => False
    end.
  Proof.
    intros d xs id o ro c (l & H). change (holds_at d l xs) in H. rewrite (insert_refines d l xs id o ro c H).
    destruct (lready xs o ro) eqn:R; [|split; [auto|]; now apply lready_false].
    assert (Ro : forall i, o = Some i -> In i (ids xs)).
    { intros i ->. destruct (in_dec (fun a b => match id_eqb a b as t return id_eqb a b = t -> {a = b} + {a <> b} with true => fun E => left (proj1 (id_eqb_iff a b) E) | false => fun E => right (fun X => Bool.diff_false_true (eq_trans (eq_sym E) (proj2 (id_eqb_iff a b) X))) end eq_refl) i (ids xs)) as [I|I]; [auto|].
      exfalso. assert (lready xs (Some i) ro = false) by (apply lready_false; left; eauto). congruence. }
    assert (Rr : forall i, ro = Some i -> In i (ids xs) /\ o <> Some i).
    { intros i ->. destruct (rpos o (Some i) xs) as [j|] eqn:RP.
      - unfold rpos in RP. pose proof RP as RP'. apply last_pos_some in RP. destruct RP as ((e & X & P) & _). apply andb_true_iff in P. destruct P as (P1 & P2). apply is_id_iff in P2. injection P2 as ->.
        split; [apply in_map; eapply nth_error_In; eauto|]. intros ->. apply negb_true_iff in P1. assert (is_id (Some (e_id e)) e = true) by now apply is_id_iff. congruence.
      - exfalso. apply rpos_none in RP. assert (lready xs o (Some i) = false) by (apply lready_false; right; eauto). congruence. }
    assert (AfterO : forall i k x, o = Some i -> (gap_from xs o <= k)%nat -> nth_error xs k = Some x -> e_id x <> i).
    { intros i k x -> G X E. unfold gap_from in G. destruct (opos (Some i) xs) as [m|] eqn:O.
      - unfold opos in O. apply last_pos_some in O. destruct O as (_ & O). specialize (O k x ltac:(lia) X). assert (is_id (Some i) x = true) by (apply is_id_iff; congruence). congruence.
      - apply opos_none in O. apply O. rewrite <- E. apply in_map. eapply nth_error_In; eauto. }
    assert (AtO : forall i n, o = Some i -> (gap_from xs o <= n)%nat -> In i (ids (firstn n xs))).
    { intros i n -> G. unfold gap_from in G. destruct (opos (Some i) xs) as [m|] eqn:O.
      - unfold opos in O. apply last_pos_some in O. destruct O as ((x & X & P) & _). apply is_id_iff in P. injection P as ->. apply in_map. eapply in_firstn_nth; [eauto|lia].
      - apply opos_none in O. exfalso. auto. }
    pose proof (gap_bounds xs o ro) as GB.
    destruct (lscan _ _ _ _ _ _) as [k|] eqn:K.
    - apply lscan_bound in K; [|lia]. destruct K as (_ & K). cbn [plus] in K. unfold gap_of in K. rewrite firstn_length, skipn_length in K.
      set (n := (gap_from xs o + k)%nat) in *.
      split; [exact Ro|]. split; [exact Rr|]. split; [|split; reflexivity].
      exists (firstn n xs), (skipn n xs). split; [now rewrite firstn_skipn|]. split.
      + exists (firstn n l ++ length (d_heap d) :: skipn n l). destruct (placed_holds d l xs n (mkE id o ro c false) H) as (A & B). split; [exact A|exact B].
      + split.
        * intros i Oi. split; [apply (AtO i n Oi); lia|]. intros I. unfold ids in I. apply in_map_iff in I. destruct I as (x & E & I). apply in_skipn_nth in I. destruct I as (m & M & X). eapply (AfterO i m x); eauto. lia.
        * intros i a b Ri Ex Nb Ib.
          assert (Q : exists j, rpos o ro xs = Some j /\ (length a <= j)%nat).
          { destruct (rpos o ro xs) as [j|] eqn:RP; [|subst ro; apply rpos_none in RP; destruct (Rr i eq_refl); tauto]. exists j. split; [auto|].
            unfold rpos in RP. apply last_pos_some in RP. destruct RP as (_ & RP). unfold ids in Ib. apply in_map_iff in Ib. destruct Ib as (y & Ey & Iy). apply In_nth_error in Iy. destruct Iy as (m & M).
            destruct (Nat.le_gt_cases (length a) j) as [|L]; [auto|]. exfalso.
            assert (F : negb (is_id o y) && is_id ro y = false).
            { apply (RP (length a + m)%nat); [lia|]. rewrite Ex, nth_error_app2 by lia. replace (length a + m - length a)%nat with m by lia. auto. }
            assert (T1 : is_id ro y = true) by (apply is_id_iff; congruence). rewrite T1, andb_true_r in F. apply negb_false_iff, is_id_iff in F. destruct (Rr i Ri). congruence. }
          destruct Q as (j & RP & J).
          assert (GJ : (gap_from xs o <= j)%nat).
          { unfold gap_from. destruct (opos o xs) as [m|] eqn:O; [|lia]. unfold opos in O. apply last_pos_some in O. destruct O as ((x & X & P) & _). apply is_id_iff in P.
            assert (m < length a)%nat; [|lia]. destruct (Nat.lt_ge_cases m (length a)) as [|L]; [auto|]. exfalso. apply (Nb _ P). unfold ids. apply in_map_iff. exists x. split; [auto|].
            rewrite Ex, nth_error_app2 in X by lia. eapply nth_error_In; eauto. }
          assert (GT : gap_to xs o ro = j) by (unfold gap_to; rewrite RP; destruct (Nat.leb_spec (gap_from xs o) j); [auto|lia]).
          unfold rpos in RP. apply last_pos_some in RP. destruct RP as ((x & X & P) & _). apply andb_true_iff in P. destruct P as (_ & P). apply is_id_iff in P.
          unfold ids. apply in_map_iff. exists x. split; [congruence|]. eapply in_skipn_of; [exact X|]. unfold n. lia.
    - apply lscan_none in K. destruct K as (On & x & Ix & Xo). cbn [e_origin] in On. destruct o as [i|]; [|contradiction]. unfold gap_of in Ix.
      apply In_nth_error in Ix. destruct Ix as (m & M). rewrite nth_error_firstn in M. destruct (_ <? _)%nat; [|discriminate]. rewrite nth_error_skipn in M.
      set (p := (gap_from xs (Some i) + m)%nat) in *. pose proof (nth_error_split _ _ M) as (pre & post & Ex & Lp). exists i, pre, x, post. split; [auto|]. split; [auto|].
      assert (Fp : pre = firstn p xs) by (rewrite Ex, <- Lp, firstn_app, Nat.sub_diag, firstn_O, firstn_all, app_nil_r; auto).
      assert (Sp : x :: post = skipn p xs) by (rewrite Ex, <- Lp, skipn_app, Nat.sub_diag, skipn_O, skipn_all; auto).
      split; [rewrite Fp; apply AtO; [auto|unfold p; lia]|]. split; [|auto]. rewrite Sp. intros I. unfold ids in I. apply in_map_iff in I. destruct I as (y & E & I). apply in_skipn_nth in I. destruct I as (t & T & X).
      eapply (AfterO i t y); eauto. unfold p in T. lia.
  Qed.

  Lemma c44_delete : forall d xs id, holds d xs ->
    match delete d (Some id) with
    | Ok (d', false) => d' = d /\ ~ In id (ids xs)
    | Ok (d', true) => exists pre e post, xs = pre ++ e :: post /\ e_id e = id /\ ~ In id (ids pre) /\ holds d' (pre ++ hidden e :: post) /\
        d_producer d' = d_producer d /\ d_clock d' = ((N.max (d_clock d) (snd id) + 1) mod two64)%N
    | _ => False
    end.
  Proof.
    intros d xs id (l & H). change (holds_at d l xs) in H. rewrite (delete_refines d l xs id H).
    destruct (first_pos _ xs) as [k|] eqn:F.
    - apply first_pos_some in F. destruct F as (pre & e & post & Ex & Lp & P & Q).
      destruct (nth_error l k) as [a|] eqn:A.
      + exists pre, e, post. split; [auto|]. split; [now apply id_eqb_iff|]. split.
        { intros I. unfold ids in I. apply in_map_iff in I. destruct I as (y & E & I). specialize (Q y I). cbv beta in Q. assert (id_eqb (e_id y) id = true) by now apply id_eqb_iff. congruence. }
        split; [|split; reflexivity]. pose proof (hide_holds d l xs k a H A) as HH.
        assert (HA : hide_at xs k = pre ++ hidden e :: post) by (unfold hide_at; rewrite Ex, <- Lp, nth_error_app2, Nat.sub_diag by lia; cbn [nth_error]; apply set_nth_split).
        rewrite HA in HH. exists l. exact HH.
      + apply nth_error_None in A. destruct H as (_ & E). apply ents_length in E. rewrite Ex, app_length in E. cbn [length] in E. lia.
    - split; [auto|]. intros I. unfold ids in I. apply in_map_iff in I. destruct I as (y & E & I). apply first_pos_none with (x := y) in F; [|auto]. assert (id_eqb (e_id y) id = true) by now apply id_eqb_iff. cbv beta in F. congruence.
  Qed.

  Definition prev_id xs (n : nat) : option ident := left_id xs n.
  (** LocalInsert: where the item goes *)
  Lemma local_insert_at : forall d l xs off c, holds_at d l xs ->
    ((zlen (counted xs) < off)%Z /\ (0 < off)%Z /\ local_insert d off c = Ok (d, None)) \/
    (exists n, (n <= length xs)%nat /\ ((off <= 0)%Z /\ n = O \/ (exists m x, n = S m /\ nth_error xs m = Some x /\ zlen (counted (firstn n xs)) = off /\ (m = O \/ e_deleted x = false))) /\
      local_insert d off c = Ok (with_clock (placed d l n (mkE (d_producer d, d_clock d) (left_id xs n) (id_at xs n) c false)) ((d_clock d + 1) mod two64)%N, Some (length (d_heap d)))).
  Proof.
    intros d l xs off c H. destruct (Z.leb_spec off 0) as [Of|Of].
    - right. exists Datatypes.O. split; [lia|]. split; [left; auto|]. apply local_place with (left := None); [auto|lia|now apply item_at_0|reflexivity|auto].
    - destruct (item_at_spec d l xs off H Of) as [(I & C)|(m & a & x & I & A & X & C & Dx)].
      + left. split; [auto|]. split; [auto|]. unfold local_insert. rewrite I. cbn [bind is_some negb andb]. apply Z.ltb_lt in Of. now rewrite Of.
      + right. exists (S m). split; [assert (m < length xs)%nat by (apply nth_error_Some; congruence); lia|].
        split; [right; exists m, x; auto|]. apply local_place with (left := Some a); [auto| |auto| |discriminate].
        * assert (m < length xs)%nat by (apply nth_error_Some; congruence). lia.
        * rewrite last_of_firstn; [auto|]. apply nth_error_Some. congruence.
  Qed.
  Lemma left_id_rev : forall xs n, (n <= length xs)%nat -> left_id xs n = id_before xs n.
  Proof.
    intros xs [|k] L; unfold id_before; [reflexivity|]. cbn [left_id]. unfold id_at. destruct (nth_error xs k) as [x|] eqn:X; [|apply nth_error_None in X; lia].
    pose proof (nth_error_split _ _ X) as (a & b & -> & <-). rewrite firstn_app, firstn_all2 by lia. replace (S (length a) - length a)%nat with 1%nat by lia.
    cbn [firstn]. rewrite rev_app_distr. reflexivity.
  Qed.
  Lemma id_at_skipn : forall xs n, id_at xs n = id_after xs n.
  Proof. intros. unfold id_at, id_after. f_equal. revert n. induction xs as [|x xs IH]; intros [|n]; cbn [nth_error skipn hd_error]; auto. Qed.

  Lemma c44_local_insert : forall d xs off c, holds d xs ->
    match local_insert d off c with
    | Ok (d', None) => d' = d /\ (0 < off)%Z /\ (zlen (counted xs) < off)%Z
    | Ok (d', Some i) =>
        exists pre post x, xs = pre ++ post /\ zlen (counted pre) = Z.max 0 off /\ (forall p y, pre = p ++ [y] -> p = [] \/ e_deleted y = false) /\
          holds d' (pre ++ entry_of x :: post) /\ nth_error (d_heap d') i = Some x /\
          entry_of x = mkE (d_producer d, d_clock d) (option_map e_id (hd_error (rev pre))) (option_map e_id (hd_error post)) c false /\
          d_producer d' = d_producer d /\ d_clock d' = ((d_clock d + 1) mod two64)%N
    | _ => False
    end.
  Proof.
    intros d xs off c (l & H). change (holds_at d l xs) in H. destruct (local_insert_at d l xs off c H) as [(A & B & ->)|(n & Ln & C & ->)]; [auto|].
    set (e := mkE _ _ _ c false). exists (firstn n xs), (skipn n xs).
    pose proof (placed_holds d l xs n e H) as (PL & PE).
    assert (X : exists x, nth_error (d_heap (placed d l n e)) (length (d_heap d)) = Some x /\ entry_of x = e).
    { pose proof (ents_nth _ _ _ (length (firstn n l)) PE) as Q. rewrite nth_error_app2, Nat.sub_diag in Q by lia. cbn [nth_error option_map] in Q.
      unfold put in Q. assert (length (firstn n l) = length (firstn n xs)) as LL by (rewrite !firstn_length; destruct H as (_ & E); apply ents_length in E; lia).
      rewrite LL, nth_error_app2, Nat.sub_diag in Q by lia. cbn [nth_error option_map] in Q. injection Q as Q.
      destruct (nth_error _ _) as [x|]; [|discriminate]. cbn [option_map] in Q. exists x. split; [reflexivity|]. symmetry. exact (some_inj _ _ Q). }
    destruct X as (x & X & Ex). exists x. split; [now rewrite firstn_skipn|]. split; [|split; [|split; [|split; [|split]]]].
    - destruct C as [(O1 & ->)|(m & y & -> & Y & C & _)]; [rewrite firstn_O; cbn [counted]; unfold zlen; cbn [length]; lia|]. rewrite C. unfold zlen in C. lia.
    - intros p y Py. destruct C as [(O1 & ->)|(m & z & -> & Z0 & C & Dz)]; [rewrite firstn_O in Py; destruct p; discriminate|].
      pose proof (nth_error_split _ _ Z0) as (a & b & Eq & <-). rewrite Eq, firstn_app, firstn_all2 in Py by lia. replace (S (length a) - length a)%nat with 1%nat in Py by lia.
      cbn [firstn] in Py. apply app_inj_tail in Py. destruct Py as (<- & <-). destruct Dz as [Dz|Dz]; [left; destruct a; [auto|discriminate]|now right].
    - rewrite Ex. exists (firstn n l ++ length (d_heap d) :: skipn n l). split; [exact PL|exact PE].
    - exact X.
    - rewrite Ex. unfold e. rewrite left_id_rev, id_at_skipn by auto. reflexivity.
    - split; reflexivity.
  Qed.

  Lemma c44_local_delete : forall d xs off, holds d xs ->
    match local_delete d off with
    | Ok (d', None) => d' = d /\ ((off <= 0)%Z \/ (zlen (counted xs) < off)%Z)
    | Ok (d', Some i) => exists pre e post x, xs = pre ++ e :: post /\ zlen (counted (pre ++ [e])) = off /\ (pre = [] \/ e_deleted e = false) /\ holds d' (pre ++ hidden e :: post) /\
        nth_error (d_heap d') i = Some x /\ it_id x = e_id e /\ d_producer d' = d_producer d /\ d_clock d' = d_clock d
    | _ => False
    end.
  Proof.
    intros d xs off (l & H). change (holds_at d l xs) in H. unfold local_delete. destruct (Z.leb_spec off 0) as [L|L]; [rewrite (item_at_0 d off L); cbn [bind]; auto|].
    destruct (item_at_spec d l xs off H L) as [(I & C)|(m & a & x & I & A & X & C & Dx)]; rewrite I; cbn [bind]; [auto|].
    pose proof (nth_error_split _ _ X) as (pre & post & Eq & Lp). destruct (nth_id d l xs m H a A) as (y & e & Y & Xe & Ee). rewrite X in Xe. injection Xe as <-.
    exists pre, x, post, (as_deleted y). split; [auto|]. split; [|split; [|split; [|split; [|split; [|split; reflexivity]]]]].
    - rewrite <- C, Eq, <- Lp, firstn_app, firstn_all2 by lia. replace (S (length pre) - length pre)%nat with 1%nat by lia. reflexivity.
    - destruct Dx as [Dx|Dx]; [left; destruct pre; [auto|cbn [length] in Lp; lia]|now right].
    - pose proof (hide_holds d l xs m a H A) as HH. assert (HA : hide_at xs m = pre ++ hidden x :: post) by (unfold hide_at; rewrite X, Eq, <- Lp; apply set_nth_split).
      rewrite HA in HH. exists l. exact HH.
    - cbn [d_heap]. now apply upd_same.
    - rewrite Ee. reflexivity.
  Qed.

  (** ** Histories *)
  Lemma within_refl : forall {A} (l : list A), within l l. Proof. induction l; constructor; auto. Qed.
  Lemma within_trans : forall {A} (b c : list A), within b c -> forall a, within a b -> within a c.
  Proof. induction 1; intros a' W; [auto| |constructor; auto]. inversion W; subst; [constructor 2; auto|constructor 3; auto]. Qed.
  Lemma within_insert : forall {A} (a b : list A) x, within (a ++ b) (a ++ x :: b).
  Proof. induction a; intros; cbn [app]; [constructor 3; apply within_refl|constructor 2; auto]. Qed.

  Definition step_good xs ys (added : list (entry V)) : Prop := within (map shown xs) (map shown ys) /\ Permutation (map shown ys) (added ++ map shown xs).
  Lemma good_refl : forall xs, step_good xs xs []. Proof. intros. split; [apply within_refl|reflexivity]. Qed.
  Lemma good_insert : forall pre post e, shown e = e -> step_good (pre ++ post) (pre ++ e :: post) [e].
  Proof.
    intros. split; rewrite !map_app; cbn [map]; rewrite H; [apply within_insert|]. symmetry. cbn [app]. apply Permutation_middle.
  Qed.
  Lemma good_hide : forall pre post e, step_good (pre ++ e :: post) (pre ++ hidden e :: post) [].
  Proof. intros. unfold step_good. replace (map shown (pre ++ hidden e :: post)) with (map shown (pre ++ e :: post)) by (rewrite !map_app; reflexivity). apply good_refl. Qed.

  Lemma cstep_ok : forall d xs op, holds d xs ->
    match cstep d op with
    | Ok (d', added) => exists ys, holds d' ys /\ step_good xs ys added
    | Panic => exists iid i ro c e, op = CInsert (Some iid) (Some i) ro c /\ In i (ids xs) /\ In e xs /\ e_origin e = None
    | _ => False
    end.
  Proof.
    intros d xs op H. destruct op as [[id|] o ro c|[id|]|off c|off]; cbn [cstep].
    - pose proof (c44_insert d xs id o ro c H) as C. destruct (insert d (Some id) o ro c) as [[d' [|]]| | |]; cbn [bind fst snd]; auto.
      + destruct C as (_ & _ & (pre & post & -> & Hh & _) & _). eexists. split; [exact Hh|]. now apply good_insert.
      + destruct C as (-> & _). exists xs. split; [auto|apply good_refl].
      + destruct C as (i & pre & x & post & -> & -> & I & _ & X). exists id, i, ro, c, x. split; [auto|]. split; [unfold ids in *; rewrite map_app; apply in_or_app; auto|]. split; [apply in_elt|auto].
    - cbn [insert bind fst snd]. exists xs. split; [auto|apply good_refl].
    - pose proof (c44_delete d xs id H) as C. destruct (delete d (Some id)) as [[d' [|]]| | |]; cbn [bind fst snd]; auto.
      + destruct C as (pre & e & post & -> & _ & _ & Hh & _). eexists. split; [exact Hh|apply good_hide].
      + destruct C as (-> & _). exists xs. split; [auto|apply good_refl].
      + destruct C.
    - cbn [delete bind fst snd]. exists xs. split; [auto|apply good_refl].
    - pose proof (c44_local_insert d xs off c H) as C. destruct (local_insert d off c) as [[d' [i|]]| | |]; cbn [bind fst snd]; auto.
      + destruct C as (pre & post & x & -> & _ & _ & Hh & X & Ex & _). rewrite X. eexists. split; [exact Hh|]. apply good_insert. rewrite Ex. reflexivity.
      + destruct C as (-> & _). exists xs. split; [auto|apply good_refl].
      + destruct C.
    - pose proof (c44_local_delete d xs off H) as C. destruct (local_delete d off) as [[d' [i|]]| | |]; cbn [bind fst snd]; auto.
      + destruct C as (pre & e & post & x & -> & _ & _ & Hh & _). eexists. split; [exact Hh|apply good_hide].
      + destruct C as (-> & _). exists xs. split; [auto|apply good_refl].
      + destruct C.
  Qed.
  Lemma c44_history : forall ops d xs, holds d xs ->
    match crun d ops with
    | Ok (d', added) => exists ys, holds d' ys /\ step_good xs ys added
    | Panic => exists pre iid i ro c post d1 a1 ys e, ops = pre ++ CInsert (Some iid) (Some i) ro c :: post /\ crun d pre = Ok (d1, a1) /\ holds d1 ys /\ In i (ids ys) /\ In e ys /\ e_origin e = None
    | _ => False
    end.
  Proof.
    induction ops as [|op ops IH]; intros d xs H; cbn [crun]; [exists xs; split; [auto|apply good_refl]|].
    pose proof (cstep_ok d xs op H) as C. destruct (cstep d op) as [[d1 a1]| | |] eqn:E1; cbn [bind fst snd]; auto.
    - destruct C as (ys & Hy & W1 & P1). specialize (IH d1 ys Hy). destruct (crun d1 ops) as [[d2 a2]| | |]; cbn [bind fst snd]; auto.
      + destruct IH as (zs & Hz & W2 & P2). exists zs. split; [auto|]. split; [eapply within_trans; eauto|].
        eapply perm_trans; [exact P2|]. rewrite P1, !app_assoc. apply Permutation_app_tail. apply Permutation_app_comm.
      + destruct IH as (pre & iid & i & ro & c & post & d2 & a2 & zs & e & -> & R & Z). exists (op :: pre), iid, i, ro, c, post, d2, (a1 ++ a2), zs, e. split; [auto|]. split; [|auto].
        cbn [crun]. rewrite E1. cbn [bind fst snd]. rewrite R. reflexivity.
    - destruct C as (iid & i & ro & c & e & -> & I & Ie & O). exists [], iid, i, ro, c, ops, d, [], xs, e. split; [reflexivity|]. split; [reflexivity|]. auto.
  Qed.
  Lemma empty_holds : forall p, holds (V:=V) (empty_doc p) [].
  Proof. intros. exists []. split; [|reflexivity]. exists None. split; [split; reflexivity|]. split; [constructor|]. cbn [empty_doc d_heap length]. intros; lia. Qed.

  (** ** Clocks *)
  Definition op_clock (op : cop V) : N := match op with CInsert (Some id) _ _ _ => snd id | CDelete (Some id) => snd id | _ => 0%N end.
  Definition clocks_below d xs : Prop := forall e, In e xs -> (snd (e_id e) < d_clock d)%N.
  Lemma holds_fun : forall d xs ys, holds d xs -> holds d ys -> xs = ys.
  Proof.
    intros d xs ys (l & (q & S & _) & E) (l' & (q' & S' & _) & E').
    assert (G : forall l l' p c q q', seg (d_heap d) p c l q None -> seg (d_heap d) p c l' q' None -> l = l').
    { clear. induction l as [|a l IH]; intros [|b l'] p c q q' S S'; [auto| | |].
      - destruct S, S'; congruence.
      - destruct S, S'; congruence.
      - destruct S as (C & x & X & _ & S), S' as (C' & x' & X' & _ & S'). assert (a = b) by congruence. subst b. rewrite X in X'. injection X' as <-. f_equal. eapply IH; eauto. }
    assert (l = l') by (eapply G; eauto). subst l'. rewrite E in E'. clear -E'. revert ys E'. induction xs as [|x xs IH]; intros [|y ys] E; try discriminate; [auto|]. cbn [map] in E. injection E as -> E. f_equal. auto.
  Qed.
  Lemma cstep_clock : forall d xs op d' a, holds d xs -> clocks_below d xs -> (N.max (d_clock d) (op_clock op) + 1 < two64)%N -> cstep d op = Ok (d', a) ->
    exists ys, holds d' ys /\ clocks_below d' ys /\ (d_clock d <= d_clock d' <= N.max (d_clock d) (op_clock op) + 1)%N.
  Proof.
    intros d xs op d' a H B O E. destruct op as [[id|] o ro c|[id|]|off c|off]; cbn [cstep op_clock] in *.
    - pose proof (c44_insert d xs id o ro c H) as C. destruct (insert d (Some id) o ro c) as [[d1 [|]]| | |]; cbn [bind fst snd] in E; try discriminate; injection E as <- <-.
      + destruct C as (_ & _ & (pre & post & -> & Hh & _) & _ & Cl). eexists. split; [exact Hh|]. rewrite N.mod_small in Cl by lia. unfold clocks_below in *. rewrite Cl. split; [|lia].
        intros e I. apply in_app_iff in I. cbn [In] in I. destruct I as [I|[<-|I]]; [|cbn [e_id]; lia|]; specialize (B e ltac:(apply in_or_app; auto)); lia.
      + destruct C as (-> & _). exists xs. split; [auto|]. split; [auto|lia].
    - cbn [insert bind fst snd] in E. injection E as <- <-. exists xs. split; [auto|]. split; [auto|lia].
    - pose proof (c44_delete d xs id H) as C. destruct (delete d (Some id)) as [[d1 [|]]| | |]; cbn [bind fst snd] in E; try discriminate; injection E as <- <-.
      + destruct C as (pre & e & post & -> & _ & _ & Hh & _ & Cl). eexists. split; [exact Hh|]. rewrite N.mod_small in Cl by lia. unfold clocks_below in *. rewrite Cl. split; [|lia].
        intros y I. apply in_app_iff in I. cbn [In] in I. destruct I as [I|[<-|I]]; [specialize (B y ltac:(apply in_or_app; auto)); lia| |specialize (B y ltac:(apply in_or_app; right; now right)); lia].
        specialize (B e ltac:(apply in_elt)). cbn [hidden e_id]. lia.
      + destruct C as (-> & _). exists xs. split; [auto|]. split; [auto|lia].
    - cbn [delete bind fst snd] in E. injection E as <- <-. exists xs. split; [auto|]. split; [auto|lia].
    - pose proof (c44_local_insert d xs off c H) as C. destruct (local_insert d off c) as [[d1 [i|]]| | |]; cbn [bind fst snd] in E; try discriminate; injection E as <- <-.
      + destruct C as (pre & post & x & -> & _ & _ & Hh & X & Ex & _ & Cl). eexists. split; [exact Hh|]. rewrite N.mod_small in Cl by lia. unfold clocks_below in *. rewrite Cl. split; [|lia].
        intros e I. apply in_app_iff in I. cbn [In] in I. destruct I as [I|[<-|I]]; [|rewrite Ex; cbn [e_id snd]; lia|]; specialize (B e ltac:(apply in_or_app; auto)); lia.
      + destruct C as (-> & _). exists xs. split; [auto|]. split; [auto|lia].
    - pose proof (c44_local_delete d xs off H) as C. destruct (local_delete d off) as [[d1 [i|]]| | |]; cbn [bind fst snd] in E; try discriminate; injection E as <- <-.
      + destruct C as (pre & e & post & x & -> & _ & _ & Hh & _ & _ & _ & Cl). eexists. split; [exact Hh|]. unfold clocks_below in *. rewrite Cl. split; [|lia].
        intros y I. apply in_app_iff in I. cbn [In] in I. destruct I as [I|[<-|I]]; [specialize (B y ltac:(apply in_or_app; auto)); lia| |specialize (B y ltac:(apply in_or_app; right; now right)); lia].
        specialize (B e ltac:(apply in_elt)). cbn [hidden e_id]. lia.
      + destruct C as (-> & _). exists xs. split; [auto|]. split; [auto|lia].
  Qed.
  Lemma crun_clock : forall B ops d xs d' a, holds d xs -> clocks_below d xs -> (forall op, In op ops -> (op_clock op <= B)%N) ->
    (N.max (d_clock d) B + N.of_nat (length ops) < two64)%N -> crun d ops = Ok (d', a) -> exists ys, holds d' ys /\ clocks_below d' ys.
  Proof.
    intros B; induction ops as [|op ops IH]; intros d xs d' a H C O L E; cbn [crun] in E; [injection E as <- <-; eauto|].
    destruct (cstep d op) as [[d1 a1]| | |] eqn:E1; cbn [bind fst snd] in E; try discriminate. cbn [length] in L.
    pose proof (O op (or_introl eq_refl)) as Oo.
    destruct (cstep_clock d xs op d1 a1 H C ltac:(lia) E1) as (ys & Hy & Cy & Cl).
    destruct (crun d1 ops) as [[d2 a2]| | |] eqn:E2; cbn [bind fst snd] in E; try discriminate. injection E as <- <-.
    eapply IH; [exact Hy|exact Cy| | |exact E2]; [intros; apply O; now right|lia].
  Qed.
End Proofs.
