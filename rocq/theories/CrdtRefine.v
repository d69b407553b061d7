(** The operations of a shared document, seen as operations on lists. *)
From Verif Require Import Base PrimModel HeapModel HeapProofs CrdtModel CrdtSpec CrdtLinks.

Lemma skipn_skipn : forall {A} n m (l : list A), skipn n (skipn m l) = skipn (n + m) l.
Proof.
  intros A n m. induction m as [|m IH]; intros l; [now rewrite Nat.add_0_r|]. destruct l as [|x l]; [now rewrite !skipn_nil|].
  rewrite Nat.add_succ_r. cbn [skipn]. apply IH.
Qed.
Lemma nth_error_skipn : forall {A} n (l : list A) k, nth_error (skipn n l) k = nth_error l (n + k).
Proof. intros A; induction n as [|n IH]; intros [|x l] k; cbn [skipn Nat.add nth_error]; auto. destruct k; reflexivity. Qed.
Lemma nth_error_firstn : forall {A} n (l : list A) k, nth_error (firstn n l) k = if (k <? n)%nat then nth_error l k else None.
Proof.
  intros A; induction n as [|n IH]; intros l k; [rewrite firstn_O; destruct k; reflexivity|].
  destruct l as [|x l]; [rewrite firstn_nil; destruct k; cbn [nth_error]; destruct (_ <? _)%nat; reflexivity|].
  destruct k as [|k]; cbn [firstn nth_error]; [reflexivity|]. rewrite IH. reflexivity.
Qed.

Section Refine.
  Context {V : Type}.
  Implicit Types (h : list (item V)) (d : doc V) (e : entry V).

  Definition ents h (l : list nat) : list (option (entry V)) := map (fun a => option_map entry_of (nth_error h a)) l.
  Definition holds_at d (l : list nat) (xs : list (entry V)) : Prop := linked d l /\ ents (d_heap d) l = map Some xs.

  Definition is_id (o : option ident) e : bool := oid_eqb (Some (e_id e)) o.
  Fixpoint last_pos {A} (p : A -> bool) (xs : list A) : option nat :=
    match xs with
    | [] => None
    | x :: r => match last_pos p r with Some k => Some (S k) | None => if p x then Some O else None end
    end.
  Fixpoint lscan (gap : list (entry V)) (i : entry V) (k best : nat) (conf before : list ident) : option nat :=
    match gap with
    | [] => Some best
    | x :: g =>
        let conf' := e_id x :: conf in
        let before' := e_id x :: before in
        if oid_eqb (e_origin i) (e_origin x) then
          if (fst (e_id x) <? fst (e_id i))%N then lscan g i (S k) (S k) [] before'
          else if oid_eqb (e_rorigin i) (e_rorigin x) then Some best
          else lscan g i (S k) best conf' before'
        else match e_origin x with
             | None => None
             | Some oo => if mem oo before' then if negb (mem oo conf') then lscan g i (S k) (S k) [] before' else lscan g i (S k) best conf' before'
                          else Some best
             end
    end.
  Definition opos (o : option ident) (xs : list (entry V)) : option nat := last_pos (is_id o) xs.
  Definition rpos (o ro : option ident) (xs : list (entry V)) : option nat := last_pos (fun e => negb (is_id o e) && is_id ro e) xs.
  Definition lready (xs : list (entry V)) (o ro : option ident) : bool :=
    negb ((is_some o && negb (is_some (opos o xs))) || (is_some ro && negb (is_some (rpos o ro xs)))).
  Definition gap_from (xs : list (entry V)) (o : option ident) : nat := match opos o xs with Some k => S k | None => O end.
  Definition gap_to (xs : list (entry V)) (o ro : option ident) : nat :=
    match rpos o ro xs with Some j => if (gap_from xs o <=? j)%nat then j else length xs | None => length xs end.
  Definition gap_of (xs : list (entry V)) (o ro : option ident) : list (entry V) := firstn (gap_to xs o ro - gap_from xs o) (skipn (gap_from xs o) xs).
  Definition put (xs : list (entry V)) (n : nat) e : list (entry V) := firstn n xs ++ e :: skipn n xs.
  Definition linsert (xs : list (entry V)) e : option (list (entry V)) :=
    match lscan (gap_of xs (e_origin e) (e_rorigin e)) e 0 0 [] [] with
    | Some k => Some (put xs (gap_from xs (e_origin e) + k) e)
    | None => None
    end.

  Lemma last_pos_some : forall A (p : A -> bool) xs k, last_pos p xs = Some k <->
    (exists x, nth_error xs k = Some x /\ p x = true) /\ (forall j x, (k < j)%nat -> nth_error xs j = Some x -> p x = false).
  Proof.
    intros A p; induction xs as [|x r IH]; intros k; cbn [last_pos].
    - split; [discriminate|]. intros ((x & X & _) & _). destruct k; discriminate.
    - destruct (last_pos p r) as [m|] eqn:E.
      + destruct (IH m) as [F _]. specialize (F eq_refl). destruct F as ((y & Y & P) & G).
        split.
        * intros H; inversion H; subst. split; [exists y; auto|]. intros [|j] z J Z; [lia|]. cbn [nth_error] in Z. apply (G j); [lia|auto].
        * intros ((z & Z & Pz) & G'). destruct k as [|k].
          -- exfalso. rewrite (G' (S m) y) in P; [discriminate|lia|auto].
          -- cbn [nth_error] in Z. destruct (Nat.lt_trichotomy m k) as [L|[->|L]]; [rewrite (G k z) in Pz; [discriminate|auto|auto]|auto|].
             rewrite (G' (S m) y) in P; [discriminate|lia|auto].
      + assert (N : forall j y, nth_error r j = Some y -> p y = false).
        { clear IH. revert E. induction r as [|z r IHr]; intros E j y Y; [destruct j; discriminate|]. cbn [last_pos] in E.
          destruct (last_pos p r); [discriminate|]. destruct (p z) eqn:Pz; [discriminate|]. destruct j as [|j]; cbn [nth_error] in Y; [inversion Y; subst; auto|eauto]. }
        destruct (p x) eqn:P.
        * split.
          -- intros H; inversion H; subst. split; [exists x; auto|]. intros [|j] y J Y; [lia|]. eauto.
          -- intros ((y & Y & Py) & G). destruct k as [|k]; [auto|]. cbn [nth_error] in Y. rewrite (N k y Y) in Py. discriminate.
        * split; [discriminate|]. intros ((y & Y & Py) & G). destruct k as [|k]; cbn [nth_error] in Y; [inversion Y; subst; congruence|rewrite (N k y Y) in Py; discriminate].
  Qed.
  Lemma last_pos_none : forall A (p : A -> bool) xs, last_pos p xs = None <-> (forall x, In x xs -> p x = false).
  Proof.
    intros A p; induction xs as [|x r IH]; cbn [last_pos].
    - split; [intros _ y []|auto].
    - destruct (last_pos p r) eqn:E.
      + split; [discriminate|]. intros H. destruct IH as [_ IH]. exfalso. assert (Some n = None) by (apply IH; intros; apply H; now right). discriminate.
      + destruct IH as [IH _]. specialize (IH eq_refl). destruct (p x) eqn:P.
        * split; [discriminate|]. intros H. rewrite H in P by now left. discriminate.
        * split; [|auto]. intros _ y [<-|I]; auto.
  Qed.

  Lemma ents_nth : forall h l xs k, ents h l = map Some xs -> option_map Some (nth_error xs k) = option_map (fun a => option_map entry_of (nth_error h a)) (nth_error l k).
  Proof. intros h l xs k E. unfold ents in E. rewrite <- !nth_error_map, E. now rewrite nth_error_map. Qed.
  Lemma ents_length : forall h l xs, ents h l = map Some xs -> length l = length xs.
  Proof. intros h l xs E. apply (f_equal (@length _)) in E. unfold ents in E. now rewrite !map_length in E. Qed.
  Lemma ents_app : forall h l1 l2, ents h (l1 ++ l2) = ents h l1 ++ ents h l2. Proof. intros. apply map_app. Qed.
  Lemma ents_cons : forall h a l xs, ents h (a :: l) = map Some xs -> exists x r, nth_error h a = Some x /\ xs = entry_of x :: r /\ ents h l = map Some r.
  Proof. intros h a l [|e r] E; [discriminate|]. cbn [ents map] in E. injection E as E1 E2. destruct (nth_error h a) as [x|]; [|discriminate]. cbn [option_map] in E1. injection E1 as <-. eauto. Qed.
  Lemma ents_frame : forall h h' l, (forall a, In a l -> option_map entry_of (nth_error h' a) = option_map entry_of (nth_error h a)) -> ents h' l = ents h l.
  Proof. intros. apply map_ext_in. auto. Qed.

  Lemma search_spec : forall h o ro l fuel p cur q xs left right, seg h p cur l q None -> ents h l = map Some xs -> (length l <= fuel)%nat ->
    search fuel h cur o ro left right =
      Ok (match opos o xs with Some k => nth_error l k | None => left end, match rpos o ro xs with Some k => nth_error l k | None => right end).
  Proof.
    intros h o ro; induction l as [|a l IH]; intros fuel p cur q xs left right S E L.
    - destruct S as (_ & ->). destruct xs; [|discriminate]. destruct fuel; reflexivity.
    - destruct (ents_cons _ _ _ _ E) as (x & r & X & -> & E'). destruct S as (-> & x' & X' & Lx & S). rewrite X in X'. injection X' as <-.
      cbn [length] in L. destruct fuel as [|f]; [lia|]. cbn [search]. unfold deref. rewrite X. cbn [bind].
      unfold opos, rpos. cbn [last_pos]. fold (opos o r). fold (rpos o ro r). unfold is_id at 1 2 3. cbn [entry_of e_id].
      assert (Lf : (length l <= f)%nat) by lia.
      destruct (oid_eqb (Some (it_id x)) o) eqn:A.
      + rewrite (IH f _ _ _ r _ _ S E' Lf). cbn [negb andb]. destruct (opos o r), (rpos o ro r); reflexivity.
      + cbn [negb andb]. destruct (oid_eqb (Some (it_id x)) ro); rewrite (IH f _ _ _ r _ _ S E' Lf); destruct (opos o r), (rpos o ro r); reflexivity.
  Qed.

  Lemma scan_spec : forall h i left0 rest gap done fuel p cur q gs k best conf before,
    seg h p cur (gap ++ rest) q None -> ents h gap = map Some gs -> (length gap <= fuel)%nat ->
    (forall a, In a gap -> it_right i <> Some a) -> (rest = [] \/ it_right i = first_of rest) -> k = length done -> (best <= k)%nat ->
    scan fuel h i cur (match best with O => left0 | S b => nth_error (done ++ gap) b end) conf before =
      match lscan gs (entry_of i) k best conf before with
      | None => Panic
      | Some m => Ok (match m with O => left0 | S b => nth_error (done ++ gap) b end)
      end.
  Proof.
    intros h i left0 rest; induction gap as [|a gap IH]; intros done fuel p cur q gs k best conf before S E L R R' K B.
    - destruct gs; [|discriminate]. cbn [app] in S. cbn [lscan]. destruct rest as [|b rest].
      + destruct S as (_ & ->). destruct fuel; reflexivity.
      + destruct R' as [|R']; [discriminate|]. destruct S as (-> & _). cbn [first_of] in R'. destruct fuel; cbn [scan]; rewrite R'; cbn [ptr_eqb]; rewrite Nat.eqb_refl; reflexivity.
    - destruct (ents_cons _ _ _ _ E) as (x & r & X & -> & E'). destruct S as (-> & x' & X' & Lx & S). rewrite X in X'. injection X' as <-.
      cbn [length] in L. destruct fuel as [|f]; [lia|]. cbn [scan lscan].
      replace (ptr_eqb (Some a) (it_right i)) with false.
      2:{ symmetry. destruct (ptr_eqb (Some a) (it_right i)) eqn:P; [|auto]. apply ptr_eqb_iff in P. symmetry in P. exfalso. apply (R a); [now left|auto]. }
      unfold deref. rewrite X. cbn [bind]. cbn [entry_of e_id e_origin e_rorigin].
      assert (IH' : forall best conf before, (best <= Datatypes.S k)%nat -> scan f h i (it_right x) (match best with O => left0 | Datatypes.S b => nth_error (done ++ a :: gap) b end) conf before =
          match lscan r (entry_of i) (Datatypes.S k) best conf before with None => Panic | Some m => Ok (match m with O => left0 | Datatypes.S b => nth_error (done ++ a :: gap) b end) end).
      { intros best' conf' before' B'. replace (done ++ a :: gap) with ((done ++ [a]) ++ gap) by now rewrite <- app_assoc.
        eapply IH; [exact S|exact E'|lia| |exact R'| |exact B']; [intros; apply R; now right|rewrite app_length; cbn [length]; lia]. }
      assert (Sa : Some a = match Datatypes.S k with O => left0 | Datatypes.S b => nth_error (done ++ a :: gap) b end).
      { rewrite nth_error_app2 by lia. rewrite K, Nat.sub_diag. reflexivity. }
      destruct (oid_eqb (it_origin i) (it_origin x)).
      + destruct (fst (it_id x) <? fst (it_id i))%N; [rewrite Sa; exact (IH' (Datatypes.S k) _ _ (Nat.le_refl _))|].
        destruct (oid_eqb (it_rorigin i) (it_rorigin x)); [reflexivity|apply IH'; lia].
      + destruct (it_origin x) as [oo|]; [|reflexivity].
        destruct (mem oo (it_id x :: before)); [|reflexivity]. destruct (negb (mem oo (it_id x :: conf))); [rewrite Sa; exact (IH' (Datatypes.S k) _ _ (Nat.le_refl _))|apply IH'; lia].
  Qed.
  Lemma lscan_bound : forall gap i k best conf before m, (best <= k)%nat -> lscan gap i k best conf before = Some m -> (best <= m <= k + length gap)%nat.
  Proof.
    induction gap as [|x g IH]; intros i k best conf before m B H; cbn [lscan length] in *; [inversion H; lia|].
    destruct (oid_eqb _ _).
    - destruct (_ <? _)%N; [apply IH in H; lia|]. destruct (oid_eqb _ _); [inversion H; lia|apply IH in H; lia].
    - destruct (e_origin x); [|discriminate]. destruct (mem _ _); [|inversion H; lia]. destruct (negb _); apply IH in H; lia.
  Qed.

  Lemma last_of_firstn : forall (l : list nat) n, (n < length l)%nat -> last_of (firstn (S n) l) = nth_error l n.
  Proof.
    intros l n H. destruct (nth_error l n) as [a|] eqn:E; [|apply nth_error_None in E; lia].
    pose proof (nth_error_split _ _ E) as (l1 & l2 & -> & <-). rewrite firstn_app, firstn_all2 by lia. replace (S (length l1) - length l1)%nat with 1%nat by lia.
    cbn [firstn]. apply last_of_snoc.
  Qed.
  Lemma first_of_skipn : forall (l : list nat) n, first_of (skipn n l) = nth_error l n.
  Proof. induction l as [|a l IH]; intros [|n]; cbn [skipn first_of nth_error]; auto. Qed.
  Lemma nth_nodup : forall (l : list nat) i j a, NoDup l -> nth_error l i = Some a -> nth_error l j = Some a -> i = j.
  Proof. intros l i j a N A B. rewrite NoDup_nth_error in N. apply N; [apply nth_error_Some; congruence|congruence]. Qed.

  Lemma opos_bound : forall A (p : A -> bool) xs k, last_pos p xs = Some k -> (k < length xs)%nat.
  Proof. intros A p xs k H. apply last_pos_some in H. destruct H as ((x & X & _) & _). apply nth_error_Some. congruence. Qed.
  Lemma gap_bounds : forall xs o ro, (gap_from xs o <= gap_to xs o ro <= length xs)%nat.
  Proof.
    intros. unfold gap_to. assert (G : (gap_from xs o <= length xs)%nat) by (unfold gap_from; destruct (opos o xs) eqn:O; [apply opos_bound in O; lia|lia]).
    destruct (rpos o ro xs) as [j|] eqn:R; [|lia]. apply opos_bound in R. destruct (Nat.leb_spec (gap_from xs o) j); lia.
  Qed.
  Lemma firstn_map_ents : forall h l xs n, ents h l = map Some xs -> ents h (firstn n l) = map Some (firstn n xs).
  Proof. intros. unfold ents in *. now rewrite <- !firstn_map, H. Qed.
  Lemma skipn_map_ents : forall h l xs n, ents h l = map Some xs -> ents h (skipn n l) = map Some (skipn n xs).
  Proof. intros. unfold ents in *. now rewrite <- !skipn_map, H. Qed.

  (** InsertInto finds the place *)
  Lemma left_of_gap : forall d l xs o, holds_at d l xs -> (o <> None -> opos o xs <> None) ->
    (match opos o xs with Some k => nth_error l k | None => None end) = last_of (firstn (gap_from xs o) l).
  Proof.
    intros d l xs o (Lk & E) H. unfold gap_from. destruct (opos o xs) as [k|] eqn:O; [|reflexivity].
    rewrite last_of_firstn; [auto|]. rewrite (ents_length _ _ _ E). eapply opos_bound; eauto.
  Qed.

  Lemma nth_left : forall h l p c q a k x, seg h p c l q None -> nth_error l k = Some a -> nth_error h a = Some x -> it_left x = match k with O => p | S j => nth_error l j end.
  Proof.
    intros h; induction l as [|b l IH]; intros p c q a k x S K X; [destruct k; discriminate|].
    destruct S as (C & y & Y & L & S). destruct k as [|k]; cbn [nth_error] in K.
    - inversion K; subst. congruence.
    - rewrite (IH _ _ _ _ _ _ S K X). destruct k; auto.
  Qed.
  Lemma nth_right : forall h l p c q a k x, seg h p c l q None -> nth_error l k = Some a -> nth_error h a = Some x -> it_right x = nth_error l (S k).
  Proof.
    intros h; induction l as [|b l IH]; intros p c q a k x S K X; [destruct k; discriminate|].
    destruct S as (C & y & Y & L & S). destruct k as [|k]; cbn [nth_error] in K |- *.
    - inversion K; subst. rewrite X in Y. inversion Y; subst. apply seg_first in S. rewrite S. destruct l; reflexivity.
    - apply (IH _ _ _ _ _ _ S K X).
  Qed.

  Lemma insert_into_spec : forall d l xs id o ro c, holds_at d l xs -> lready xs o ro = true ->
    let lp := match opos o xs with Some k => nth_error l k | None => None end in
    let rp := match rpos o ro xs with Some k => nth_error l k | None => None end in
    let new := mkItem id lp rp o ro c false in
    let d1 := mkDoc (d_producer d) (d_clock d) (d_start d) (d_heap d ++ [new]) in
    match lscan (gap_of xs o ro) (entry_of new) 0 0 [] [] with
    | None => insert_into d1 (length (d_heap d)) = Panic
    | Some k =>
        let n := (gap_from xs o + k)%nat in
        insert_into d1 (length (d_heap d)) =
          Ok (mkDoc (d_producer d) (d_clock d) (match firstn n l with [] => Some (length (d_heap d)) | _ => d_start d end)
                    (match d_start d with None => d_heap d1 | Some _ => spliced (d_heap d1) (length (d_heap d)) (firstn n l) (skipn n l) end))
    end.
  Proof.
    intros d l xs id o ro c ((q & S & ND & AL) & E) RD lp rp new d1.
    assert (Len : length l = length xs) by (eapply ents_length; eauto).
    set (P := gap_from xs o). set (Q := gap_to xs o ro).
    pose proof (gap_bounds xs o ro) as GB. fold P Q in GB.
    set (h1 := d_heap d ++ [new]).
    assert (S1 : seg h1 None (d_start d) l q None) by (now apply seg_grow).
    assert (E1 : ents h1 l = map Some xs).
    { rewrite <- E. apply ents_frame. intros a I. unfold h1. rewrite nth_error_app1; [auto|]. eapply seg_alloc; eauto. }
    assert (Xn : nth_error h1 (length (d_heap d)) = Some new) by (unfold h1; rewrite nth_error_app2, Nat.sub_diag by lia; reflexivity).
    assert (Ni : ~ In (length (d_heap d)) l) by (intros I; pose proof (seg_alloc _ _ _ _ _ _ S _ I); lia).
    destruct (d_start d) as [s|] eqn:Hs.
    2:{ destruct l as [|a l]; [|destruct S; discriminate]. destruct xs; [|discriminate]. cbn [lready] in *.
        replace (lscan (gap_of [] o ro) (entry_of new) 0 0 [] []) with (Some O) by reflexivity.
        unfold insert_into. cbn [d_start d1 d_producer d_clock d_heap]. cbv zeta. rewrite firstn_nil. reflexivity. }
    assert (Lp : lp = last_of (firstn P l)).
    { unfold lp, P. apply (left_of_gap d l xs o); [split; [exists q; rewrite Hs; auto|auto]|].
      intros On. unfold lready in RD. destruct o; [|contradiction]. cbn [is_some] in RD. destruct (opos (Some i) xs); [discriminate|cbn in RD; discriminate]. }
    assert (Sp : l = firstn P l ++ firstn (Q - P) (skipn P l) ++ skipn Q l).
    { rewrite <- (firstn_skipn P l) at 1. f_equal. rewrite <- (firstn_skipn (Q - P) (skipn P l)) at 1. f_equal. rewrite skipn_skipn. f_equal. lia. }
    set (pre := firstn P l) in *. set (gap := firstn (Q - P) (skipn P l)) in *. set (rest := skipn Q l) in *.
    assert (Eg : ents h1 gap = map Some (gap_of xs o ro)).
    { unfold gap, gap_of. fold P Q. apply firstn_map_ents. now apply skipn_map_ents. }
    assert (Lg : length gap = (Q - P)%nat) by (unfold gap; rewrite firstn_length, skipn_length; lia).
    assert (Rg : forall a, In a gap -> rp <> Some a).
    { intros a I Ra. unfold rp in Ra. destruct (rpos o ro xs) as [j|] eqn:R; [|discriminate].
      unfold gap in I. apply In_nth_error in I. destruct I as (m & M).
      assert (m < Q - P)%nat by (rewrite <- Lg; apply nth_error_Some; unfold gap; congruence).
      rewrite nth_error_firstn in M. destruct (m <? Q - P)%nat eqn:Mq; [|lia]. rewrite nth_error_skipn in M.
      assert (j = P + m)%nat by (eapply nth_nodup; eauto). assert (HQ : Q = if (P <=? j)%nat then j else length xs) by (unfold Q, gap_to; rewrite R; reflexivity). destruct (Nat.leb_spec P j); lia. }
    assert (Rr : rest = [] \/ rp = first_of rest).
    { unfold rest, rp. rewrite first_of_skipn. unfold Q, gap_to. fold P. destruct (rpos o ro xs) as [j|].
      - destruct (P <=? j)%nat; [now right|left]. apply skipn_all2. lia.
      - left. apply skipn_all2. lia. }
    rewrite Sp in S1. destruct (linked_cut _ _ _ _ _ S1) as (Sa & Sb).
    pose proof (scan_spec h1 new lp rest gap [] (length h1) (last_of pre) (first_of (gap ++ rest)) q (gap_of xs o ro) 0 0 [] [] Sb Eg) as SC.
    assert (Lh : (length gap <= length h1)%nat).
    { unfold h1. rewrite app_length. apply Nat.le_trans with (length l); [rewrite Lg; lia|].
      assert (length l <= length (d_heap d))%nat; [|lia]. rewrite <- (seq_length (length (d_heap d)) 0). apply NoDup_incl_length; [auto|].
      intros a I. apply in_seq. pose proof (seg_alloc _ _ _ _ _ _ S _ I). lia. }
    specialize (SC Lh Rg Rr eq_refl (Nat.le_refl 0)). cbn [app] in SC.
    assert (Dn : deref h1 (length (d_heap d)) = Ok new) by (unfold deref; rewrite Xn; reflexivity).
    (* the scan or its omission *)
    assert (Key : forall (w : res (option nat)), (w = scan (length h1) h1 new (first_of (gap ++ rest)) lp [] [] \/ (w = Ok lp /\ gap = [])) ->
       w = match lscan (gap_of xs o ro) (entry_of new) 0 0 [] [] with None => Panic | Some m => Ok (last_of (firstn (P + m) l)) end).
    { intros w W.
      assert (W' : w = match lscan (gap_of xs o ro) (entry_of new) 0 0 [] [] with None => Panic | Some m => Ok (match m with O => lp | Datatypes.S b => nth_error gap b end) end).
      { destruct W as [->|(-> & G)]; [exact SC|]. rewrite G in Eg. destruct (gap_of xs o ro) eqn:GG; [reflexivity|discriminate]. }
      rewrite W'. clear W W'. destruct (lscan _ _ _ _ _ _) as [m|] eqn:M; [|auto]. f_equal.
      apply lscan_bound in M; [|lia]. destruct M as (_ & M). cbn [plus] in M.
      assert (LG : length (gap_of xs o ro) = length gap) by (pose proof (ents_length _ _ _ Eg); lia).
      destruct m as [|b]; [rewrite Nat.add_0_r; exact Lp|].
      replace (P + Datatypes.S b)%nat with (Datatypes.S (P + b)) by lia. rewrite last_of_firstn by lia.
      unfold gap. rewrite nth_error_firstn. destruct (b <? Q - P)%nat eqn:B; [|lia]. now rewrite nth_error_skipn. }
    assert (W : exists w, insert_into d1 (length (d_heap d)) = (do left <- w; join_after d1 (length (d_heap d)) left) /\
         (w = scan (length h1) h1 new (first_of (gap ++ rest)) lp [] [] \/ (w = Ok lp /\ gap = []))).
    { unfold insert_into. change (d_start d1) with (Some s). change (d_heap d1) with h1. cbv zeta. rewrite Dn. cbn [bind].
      change (it_left new) with lp. change (it_right new) with rp. rewrite Lp.
      assert (HP : forall a, last_of pre = Some a -> exists y, nth_error h1 a = Some y /\ it_right y = first_of (gap ++ rest)).
      { intros a A. destruct pre as [|b pre'] using rev_ind; [discriminate|]. rewrite last_of_snoc in A. injection A as <-. apply seg_snoc in Sa. destruct Sa as (q' & y & _ & Y & _ & _ & R). eauto. }
      destruct (last_of pre) as [a|] eqn:A.
      - destruct (HP a eq_refl) as (y & Y & R). unfold deref at 1. rewrite Y. cbn [bind]. rewrite R.
        destruct (ptr_eqb (first_of (gap ++ rest)) rp) eqn:PE; cbn [negb].
        + eexists. split; [reflexivity|]. right. split; [auto|]. apply ptr_eqb_iff in PE.
          destruct gap as [|g gap']; [auto|]. cbn [app first_of] in PE. exfalso. apply (Rg g); [now left|auto].
        + unfold deref. rewrite Y. cbn [bind]. rewrite R. eexists. split; [reflexivity|]. left. reflexivity.
      - assert (pre = []) by (destruct pre as [|b pre'] using rev_ind; [auto|rewrite last_of_snoc in A; discriminate]).
        assert (P0 : P = O). { unfold pre in H. apply (f_equal (@length _)) in H. rewrite firstn_length in H. cbn [length] in H.
          assert (length l <> O) by (intros Z; destruct l; [destruct S; discriminate|discriminate]). lia. }
        assert (Hf : Some s = first_of (gap ++ rest)). { rewrite H in Sa. destruct Sa as (_ & Sa). exact Sa. }
        assert (Rp : forall r, rp = Some r -> exists y j, nth_error h1 r = Some y /\ rpos o ro xs = Some j /\ nth_error l j = Some r /\ it_left y = match j with O => None | Datatypes.S k => nth_error l k end).
        { intros r R. unfold rp in R. destruct (rpos o ro xs) as [j|] eqn:RJ; [|discriminate].
          assert (Ir : In r l) by (eapply nth_error_In; eauto).
          destruct (nth_error h1 r) as [y|] eqn:Y; [|apply nth_error_None in Y; pose proof (seg_alloc _ _ _ _ _ _ S _ Ir); unfold h1 in Y; rewrite app_length in Y; lia].
          exists y, j. split; [auto|]. split; [auto|]. split; [auto|]. rewrite <- Sp in S1. eapply nth_left; [exact S1|exact R|exact Y]. }
        destruct rp as [r|] eqn:RP.
        + destruct (Rp r eq_refl) as (y & j & Y & RJ & J & L). unfold deref at 1. rewrite Y. cbn [bind]. rewrite L.
          destruct j as [|j].
          * eexists. split; [reflexivity|]. right. split; [auto|].
            unfold gap, Q, gap_to. rewrite RJ. fold P. rewrite P0. reflexivity.
          * destruct (nth_error l j) as [z|] eqn:Z; [|apply nth_error_None in Z; assert (Datatypes.S j < length l)%nat by (apply nth_error_Some; congruence); lia].
            eexists. split; [reflexivity|]. left. rewrite Hf. reflexivity.
        + eexists. split; [reflexivity|]. left. rewrite Hf. reflexivity. }
    destruct W as (w & -> & W). rewrite (Key w W). clear Key W w SC.
    destruct (lscan _ _ _ _ _ _) as [k|] eqn:K; [|reflexivity]. cbv zeta. cbn [bind].
    rewrite (join_spliced d1 (length (d_heap d)) (firstn (P + k) l) (skipn (P + k) l) q new).
    - change (d_heap d1) with h1. change (d_start d1) with (Some s). reflexivity.
    - rewrite firstn_skipn. change (d_heap d1) with h1. change (d_start d1) with (Some s). rewrite Sp. exact S1.
    - rewrite firstn_skipn. auto.
    - exact Xn.
  Qed.
End Refine.
