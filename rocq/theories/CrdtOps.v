(** Insert, Delete, LocalInsert and LocalDelete on the list of a shared document. *)
From Verif Require Import Base PrimModel HeapModel HeapProofs CrdtModel CrdtSpec CrdtLinks CrdtRefine.

Lemma app_cut : forall {A} (a b c d : list A), length a = length c -> a ++ b = c ++ d -> a = c /\ b = d.
Proof.
  intros A; induction a as [|x a IH]; intros b [|y c] d L E; try discriminate; [auto|]. cbn [app length] in *. injection E as -> E.
  destruct (IH b c d) as (-> & ->); auto.
Qed.

Section Ops.
  Context {V : Type}.
  Implicit Types (h : list (item V)) (d : doc V) (e : entry V).

  Definition item_for e (l r : option nat) : item V := mkItem (e_id e) l r (e_origin e) (e_rorigin e) (e_content e) (e_deleted e).
  Definition placed d (l : list nat) (n : nat) e : doc V :=
    mkDoc (d_producer d) (d_clock d) (match firstn n l with [] => Some (length (d_heap d)) | _ => d_start d end)
          (spliced (d_heap d ++ [item_for e None None]) (length (d_heap d)) (firstn n l) (skipn n l)).

  Lemma upd_last : forall h x f, upd (h ++ [x]) (length h) f = h ++ [f x].
  Proof.
    intros. unfold upd. rewrite nth_error_app2, Nat.sub_diag by lia. cbn [nth_error]. change (h ++ [x]) with (h ++ x :: []). rewrite set_nth_split. reflexivity.
  Qed.
  Lemma spliced_links : forall h x l r pre post, spliced (h ++ [with_links l r x]) (length h) pre post = spliced (h ++ [x]) (length h) pre post.
  Proof. intros. unfold spliced. rewrite !upd_last. reflexivity. Qed.

  Lemma placed_holds : forall d l xs n e, holds_at d l xs ->
    holds_at (placed d l n e) (firstn n l ++ length (d_heap d) :: skipn n l) (put xs n e).
  Proof.
    intros d l xs n e ((q & S & ND & AL) & E). set (i := length (d_heap d)). set (h1 := d_heap d ++ [item_for e None None]).
    assert (Ni : ~ In i l) by (intros I; pose proof (seg_alloc _ _ _ _ _ _ S _ I); unfold i in *; lia).
    assert (X : nth_error h1 i = Some (item_for e None None)) by (unfold h1, i; rewrite nth_error_app2, Nat.sub_diag by lia; reflexivity).
    assert (ND' : NoDup (firstn n l ++ i :: skipn n l)).
    { apply Permutation.Permutation_NoDup with (i :: l); [rewrite <- (firstn_skipn n l) at 1; apply Permutation.Permutation_middle|constructor; auto]. }
    assert (S1 : seg h1 None (d_start d) (firstn n l ++ skipn n l) q None) by (rewrite firstn_skipn; now apply seg_grow).
    split.
    - destruct (spliced_seg h1 i (d_start d) (firstn n l) (skipn n l) q _ S1 ND' X) as (q' & S').
      exists q'. split; [exact S'|]. split; [exact ND'|]. cbn [placed d_heap]. rewrite spliced_length. unfold h1. rewrite app_length. cbn [length]. intros a A.
      rewrite in_app_iff. cbn [In]. destruct (Nat.eq_dec a i) as [->|Na]; [auto|].
      assert (I : In a l) by (apply AL; unfold i in *; lia). rewrite <- (firstn_skipn n l) in I. apply in_app_iff in I. tauto.
    - cbn [placed d_heap]. fold h1 i. transitivity (ents h1 (firstn n l ++ i :: skipn n l)).
      + apply ents_frame. intros a _. apply spliced_entry.
      + assert (E1 : ents h1 l = map Some xs).
        { rewrite <- E. apply ents_frame. intros a I. unfold h1. rewrite nth_error_app1; [auto|]. eapply seg_alloc; eauto. }
        rewrite ents_app. unfold put. rewrite map_app. f_equal; [now apply firstn_map_ents|]. cbn [map ents]. rewrite X. f_equal; [|now apply skipn_map_ents].
        cbn [option_map]. f_equal. destruct e; reflexivity.
  Qed.

  Lemma insert_into_placed : forall d l xs id o ro c, holds_at d l xs -> lready xs o ro = true ->
    let lp := match opos o xs with Some k => nth_error l k | None => None end in
    let rp := match rpos o ro xs with Some k => nth_error l k | None => None end in
    insert_into (mkDoc (d_producer d) (d_clock d) (d_start d) (d_heap d ++ [mkItem id lp rp o ro c false])) (length (d_heap d)) =
      match lscan (gap_of xs o ro) (mkE id o ro c false) 0 0 [] [] with
      | None => Panic
      | Some k => Ok (placed d l (gap_from xs o + k) (mkE id o ro c false))
      end.
  Proof.
    intros d l xs id o ro c H R lp rp. pose proof (insert_into_spec d l xs id o ro c H R) as I. cbv zeta in I. fold lp rp in I.
    change (entry_of (mkItem id lp rp o ro c false)) with (mkE id o ro c false) in I.
    destruct (lscan _ _ _ _ _ _) as [k|] eqn:K; [|exact I]. rewrite I. f_equal. unfold placed. f_equal.
    cbn [d_heap]. change (mkItem id lp rp o ro c false) with (with_links lp rp (item_for (mkE id o ro c false) None None)). rewrite spliced_links.
    destruct (d_start d) as [s|] eqn:Hs; [reflexivity|].
    destruct H as ((q & S & ND & AL) & E). rewrite Hs in S. destruct l as [|a l]; [|destruct S; discriminate]. destruct xs; [|discriminate].
    cbn [d_heap]. rewrite firstn_nil, skipn_nil. unfold spliced. cbn [last_of first_of rev]. rewrite upd_last.
    unfold lp, rp. reflexivity.
  Qed.

  Lemma linked_bound : forall d l, linked d l -> (length l <= length (d_heap d))%nat.
  Proof.
    intros d l (q & S & ND & AL). rewrite <- (seq_length (length (d_heap d)) 0). apply NoDup_incl_length; [auto|].
    intros a I. apply in_seq. pose proof (seg_alloc _ _ _ _ _ _ S _ I). lia.
  Qed.

  Lemma insert_refines : forall d l xs id o ro c, holds_at d l xs ->
    insert d (Some id) o ro c =
      if lready xs o ro then
        match lscan (gap_of xs o ro) (mkE id o ro c false) 0 0 [] [] with
        | None => Panic
        | Some k => Ok (with_clock (placed d l (gap_from xs o + k) (mkE id o ro c false)) ((N.max (d_clock d) (snd id) + 1) mod two64)%N, true)
        end
      else Ok (d, false).
  Proof.
    intros d l xs id o ro c H. unfold insert. pose proof H as ((q & S & ND & AL) & E).
    rewrite (search_spec _ o ro l (length (d_heap d)) None (d_start d) q xs None None S E (linked_bound _ _ (proj1 H))). cbn [bind].
    assert (R : (is_some o && negb (is_some match opos o xs with Some k => nth_error l k | None => None end)) || (is_some ro && negb (is_some match rpos o ro xs with Some k => nth_error l k | None => None end)) = negb (lready xs o ro)).
    { unfold lready. rewrite negb_involutive.
      assert (G : forall (m : option nat), (forall k, m = Some k -> (k < length xs)%nat) -> is_some match m with Some k => nth_error l k | None => None end = is_some m).
      { intros [k|] Hk; [|auto]. specialize (Hk k eq_refl). rewrite <- (ents_length _ _ _ E) in Hk. apply nth_error_Some in Hk. destruct (nth_error l k); [auto|contradiction]. }
      rewrite !G; [auto| |]; intros k K; eapply opos_bound; eauto. }
    rewrite R. destruct (lready xs o ro) eqn:RD; [|reflexivity]. cbn [negb].
    rewrite (insert_into_placed d l xs id o ro c H RD). destruct (lscan _ _ _ _ _ _); reflexivity.
  Qed.

  (** ** Deleting *)
  Fixpoint first_pos {A} (p : A -> bool) (xs : list A) : option nat :=
    match xs with [] => None | x :: r => if p x then Some O else option_map S (first_pos p r) end.
  Lemma find_spec : forall h id l fuel p cur q xs, seg h p cur l q None -> ents h l = map Some xs -> (length l <= fuel)%nat ->
    find_id fuel h cur id = Ok (match first_pos (fun e => id_eqb (e_id e) id) xs with Some k => nth_error l k | None => None end).
  Proof.
    intros h id; induction l as [|a l IH]; intros fuel p cur q xs S E L.
    - destruct S as (_ & ->). destruct xs; [|discriminate]. destruct fuel; reflexivity.
    - destruct (ents_cons _ _ _ _ E) as (x & r & X & -> & E'). destruct S as (-> & x' & X' & Lx & S). rewrite X in X'. injection X' as <-.
      cbn [length] in L. destruct fuel as [|f]; [lia|]. cbn [find_id first_pos]. unfold deref. rewrite X. cbn [bind entry_of e_id].
      destruct (id_eqb (it_id x) id); [reflexivity|]. rewrite (IH f _ _ _ r S E'); [|lia]. destruct (first_pos _ r); reflexivity.
  Qed.
  Definition hide_at (xs : list (entry V)) (k : nat) : list (entry V) := match nth_error xs k with Some e => set_nth xs k (hidden e) | None => xs end.
  Definition doc_hide d (a : nat) : doc V := mkDoc (d_producer d) (d_clock d) (d_start d) (upd (d_heap d) a as_deleted).

  Lemma seg_as_deleted : forall h (a : nat) l p c q n, seg h p c l q n -> seg (upd h a as_deleted) p c l q n.
  Proof.
    intros h a; induction l as [|b l IH]; intros p c q n S; [exact S|]. destruct S as (C & x & X & L & S). split; [auto|].
    rewrite upd_nth. destruct (b =? a)%nat eqn:F.
    - apply Nat.eqb_eq in F. subst. rewrite X. exists (as_deleted x). split; [reflexivity|]. split; [auto|]. apply IH. exact S.
    - exists x. split; [auto|]. split; [auto|]. apply IH. exact S.
  Qed.
  Lemma hide_holds : forall d l xs k a, holds_at d l xs -> nth_error l k = Some a -> holds_at (doc_hide d a) l (hide_at xs k).
  Proof.
    intros d l xs k a ((q & S & ND & AL) & E) K. split.
    - exists q. cbn [doc_hide d_heap d_start]. split; [now apply seg_as_deleted|]. split; [auto|]. rewrite upd_length. auto.
    - cbn [doc_hide d_heap]. pose proof (ents_nth _ _ _ k E) as N. rewrite K in N. cbn [option_map] in N. unfold hide_at. destruct (nth_error xs k) as [e|] eqn:X; [|discriminate].
      cbn [option_map] in N. injection N as N. destruct (nth_error (d_heap d) a) as [x|] eqn:Xa; [|discriminate]. cbn [option_map] in N. injection N as N.
      pose proof (nth_error_split _ _ K) as (l1 & l2 & -> & L1). pose proof (nth_error_split _ _ X) as (x1 & x2 & -> & X1).
      rewrite <- X1, set_nth_split. unfold ents in *. rewrite map_app in E |- *. rewrite map_app in E |- *. cbn [map] in E |- *.
      assert (A1 : map (fun a => option_map entry_of (nth_error (d_heap d) a)) l1 = map Some x1 /\ map (fun a => option_map entry_of (nth_error (d_heap d) a)) l2 = map Some x2).
      { apply app_cut in E; [|rewrite !map_length; lia]. destruct E as (E1 & E2). split; [exact E1|]. now injection E2. }
      destruct A1 as (A1 & A2).
      assert (FR : forall b, b <> a -> option_map entry_of (nth_error (upd (d_heap d) a as_deleted) b) = option_map entry_of (nth_error (d_heap d) b)) by (intros; now rewrite upd_other).
      apply NoDup_remove_2 in ND. rewrite in_app_iff in ND.
      f_equal; [|f_equal].
      + rewrite <- A1. apply map_ext_in. intros b B. apply FR. intros ->. tauto.
      + rewrite (upd_same _ _ _ _ Xa). cbn [option_map]. f_equal. rewrite N. reflexivity.
      + rewrite <- A2. apply map_ext_in. intros b B. apply FR. intros ->. tauto.
  Qed.
  Lemma delete_refines : forall d l xs id, holds_at d l xs ->
    delete d (Some id) =
      match first_pos (fun e => id_eqb (e_id e) id) xs with
      | Some k => match nth_error l k with
                  | Some a => Ok (with_clock (doc_hide d a) ((N.max (d_clock d) (snd id) + 1) mod two64)%N, true)
                  | None => Ok (d, false)
                  end
      | None => Ok (d, false)
      end.
  Proof.
    intros d l xs id H. unfold delete. pose proof H as ((q & S & ND & AL) & E).
    rewrite (find_spec _ id l (length (d_heap d)) None (d_start d) q xs S E (linked_bound _ _ (proj1 H))). cbn [bind].
    destruct (first_pos _ xs) as [k|]; [|reflexivity]. destruct (nth_error l k); reflexivity.
  Qed.
  Lemma first_pos_some : forall A (p : A -> bool) xs k, first_pos p xs = Some k -> exists pre x post, xs = pre ++ x :: post /\ length pre = k /\ p x = true /\ forall y, In y pre -> p y = false.
  Proof.
    intros A p; induction xs as [|x r IH]; intros k H; cbn [first_pos] in H; [discriminate|]. destruct (p x) eqn:P.
    - injection H as <-. exists [], x, r. repeat (split; [auto|]). intros y [].
    - destruct (first_pos p r) as [j|] eqn:F; [|discriminate]. injection H as <-. destruct (IH j eq_refl) as (pre & y & post & -> & L & Py & Q).
      exists (x :: pre), y, post. split; [auto|]. split; [cbn [length]; lia|]. split; [auto|]. intros z [<-|Z]; auto.
  Qed.
  Lemma first_pos_none : forall A (p : A -> bool) xs, first_pos p xs = None <-> forall x, In x xs -> p x = false.
  Proof.
    intros A p; induction xs as [|x r IH]; cbn [first_pos]; [split; [intros _ y []|auto]|]. destruct (p x) eqn:P.
    - split; [discriminate|]. intros H. rewrite (H x) in P by now left. discriminate.
    - destruct (first_pos p r) eqn:F.
      + split; [discriminate|]. intros H. exfalso. destruct IH as [_ IH]. assert (Some n = None) by (apply IH; intros; apply H; now right). discriminate.
      + split; [|auto]. intros _ y [<-|I]; [auto|]. apply IH; auto.
  Qed.

  (** ** ItemAt *)
  Lemma skip_spec : forall h l fuel p cur q xs, seg h p cur l q None -> ents h l = map Some xs -> (length l <= fuel)%nat ->
    exists l1 l2 x1 x2 p', l = l1 ++ l2 /\ xs = x1 ++ x2 /\ length l1 = length x1 /\ skip_deleted fuel h cur = Ok (first_of l2) /\ seg h p' (first_of l2) l2 q None /\ ents h l2 = map Some x2 /\
      visible x1 = [] /\ match x2 with [] => True | y :: _ => e_deleted y = false end.
  Proof.
    intros h; induction l as [|a l IH]; intros fuel p cur q xs S E L.
    - destruct S as (-> & ->). destruct xs; [|discriminate]. exists [], [], [], [], q. split; [reflexivity|]. split; [reflexivity|]. split; [reflexivity|]. split; [destruct fuel; reflexivity|]. split; [split; reflexivity|]. split; [reflexivity|]. split; [reflexivity|exact I].
    - destruct (ents_cons _ _ _ _ E) as (x & r & X & -> & E'). pose proof S as S0. destruct S as (-> & x' & X' & Lx & S). rewrite X in X'. injection X' as <-.
      cbn [length] in L. destruct fuel as [|f]; [lia|]. cbn [skip_deleted]. unfold deref. rewrite X. cbn [bind].
      destruct (it_deleted x) eqn:Dx.
      + destruct (IH f _ _ _ r S E') as (l1 & l2 & x1 & x2 & p' & -> & -> & Ll & H & S2 & E2 & Vi & Y); [lia|].
        exists (a :: l1), l2, (entry_of x :: x1), x2, p'. split; [auto|]. split; [auto|]. split; [cbn [length]; lia|]. split; [exact H|]. split; [auto|]. split; [auto|].
        split; [|auto]. cbn [visible filter entry_of e_deleted]. rewrite Dx. exact Vi.
      + exists [], (a :: l), [], (entry_of x :: r), p. split; [auto|]. split; [auto|]. split; [auto|]. split; [reflexivity|]. split; [auto|]. split; [auto|]. split; [auto|]. exact Dx.
  Qed.
  Lemma visible_app : forall (a b : list (entry V)), visible (a ++ b) = visible a ++ visible b. Proof. intros. apply filter_app. Qed.
  Lemma counted_visible : forall (x : entry V) r, e_deleted x = false -> counted (x :: r) = visible (x :: r).
  Proof. intros x r H. cbn [counted visible filter]. now rewrite H. Qed.

  Lemma advance_spec : forall h k l fuel p q xs, seg h p (first_of l) l q None -> ents h l = map Some xs -> (length l <= fuel)%nat -> (length l <= length h)%nat ->
    exists l1 l2 x1 x2, l = l1 ++ l2 /\ xs = x1 ++ x2 /\ length l1 = length x1 /\ length l2 = length x2 /\ advance fuel h (Z.of_nat k) (first_of l) = Ok (first_of l2) /\
      match x2 with [] => (length (counted x1) <= k)%nat | y :: _ => length (counted x1) = k /\ (x1 = [] \/ e_deleted y = false) end.
  Proof.
    intros h; induction k as [|k IH]; intros l fuel p q xs S E L Lh.
    - exists [], l, [], xs. split; [auto|]. split; [auto|]. split; [auto|]. split; [now apply ents_length in E|]. split; [destruct l, fuel; reflexivity|]. destruct xs; auto.
    - destruct l as [|a l].
      + destruct xs; [|discriminate]. exists [], [], [], []. split; [reflexivity|]. split; [reflexivity|]. split; [reflexivity|]. split; [reflexivity|]. split; [destruct fuel; reflexivity|]. cbn [counted length]. lia.
      + destruct (ents_cons _ _ _ _ E) as (x & r & X & -> & E'). destruct S as (_ & x' & X' & Lx & S). rewrite X in X'. injection X' as <-.
        cbn [length] in L, Lh. destruct fuel as [|f]; [lia|]. cbn [advance first_of]. destruct (Z.leb_spec (Z.of_nat (Datatypes.S k)) 0); [lia|].
        destruct (skip_spec h l (length h) _ _ _ r S E') as (m1 & l2 & y1 & x2 & p' & -> & -> & Lm & SK & S2 & E2 & Vi & Y); [lia|].
        unfold next, deref. rewrite X. cbn [bind]. rewrite SK. cbn [bind]. replace (Z.of_nat (Datatypes.S k) - 1)%Z with (Z.of_nat k) by lia.
        rewrite app_length in L, Lh.
        destruct (IH l2 f p' q x2 S2 E2) as (n1 & n2 & z1 & z2 & -> & -> & Ln1 & Ln2 & AD & F); [lia|lia|].
        exists (a :: m1 ++ n1), n2, (entry_of x :: y1 ++ z1), z2. split; [cbn [app]; now rewrite <- app_assoc|]. split; [cbn [app]; now rewrite <- app_assoc|].
        split; [cbn [length]; rewrite !app_length; lia|]. split; [auto|]. split; [exact AD|].
        assert (C : length (counted (entry_of x :: y1 ++ z1)) = Datatypes.S (length (counted z1))).
        { cbn [counted length]. rewrite visible_app, Vi. cbn [app]. f_equal. destruct z1 as [|z z1]; [reflexivity|]. cbn [app] in Y. rewrite <- counted_visible by auto. reflexivity. }
        rewrite C. destruct z2 as [|z z2]; [lia|]. destruct F as (F1 & F2). split; [lia|]. right. destruct F2 as [->|F2]; auto.
  Qed.

  (** ItemAt gives the item where the items counted before are one fewer than the offset *)
  Lemma item_at_spec : forall d l xs off, holds_at d l xs -> (0 < off)%Z ->
    (item_at d off = Ok None /\ (zlen (counted xs) < off)%Z) \/
    (exists n a x, item_at d off = Ok (Some a) /\ nth_error l n = Some a /\ nth_error xs n = Some x /\ zlen (counted (firstn (S n) xs)) = off /\ (n = O \/ e_deleted x = false)).
  Proof.
    intros d l xs off H O. pose proof H as ((q & S & ND & AL) & E). unfold item_at. destruct (Z.leb_spec off 0); [lia|].
    pose proof (seg_first _ _ _ _ _ S) as F. rewrite F in S. rewrite F.
    destruct (advance_spec (d_heap d) (Z.to_nat (off - 1)) l (length (d_heap d)) None q xs S E (linked_bound _ _ (proj1 H)) (linked_bound _ _ (proj1 H)))
      as (l1 & l2 & x1 & x2 & El & Ex & L1 & L2 & AD & C). rewrite Z2Nat.id in AD by lia. rewrite AD.
    destruct x2 as [|y x2].
    - left. destruct l2; [|discriminate]. split; [reflexivity|]. rewrite app_nil_r in Ex. subst x1. unfold zlen. lia.
    - right. destruct l2 as [|a l2]; [discriminate|]. destruct C as (C & Dy). exists (length l1), a, y. split; [reflexivity|]. subst l xs.
      split; [rewrite nth_error_app2, Nat.sub_diag by lia; reflexivity|]. split; [rewrite L1, nth_error_app2, Nat.sub_diag by lia; reflexivity|]. split.
      + rewrite firstn_app, firstn_all2 by lia. rewrite L1. replace (Datatypes.S (length x1) - length x1)%nat with 1%nat by lia. cbn [firstn].
        destruct x1 as [|z x1].
        * cbn [counted length app] in *. unfold zlen. cbn [length visible filter]. lia.
        * cbn [app counted] in *. rewrite visible_app. destruct Dy as [|Dy]; [discriminate|]. cbn [visible filter]. rewrite Dy. cbn [negb]. unfold zlen. cbn [length] in *. rewrite app_length. cbn [length]. fold (visible x1). lia.
      + rewrite L1. destruct Dy as [->|Dy]; [left; reflexivity|right; auto].
  Qed.
  Lemma item_at_0 : forall d off, (off <= 0)%Z -> item_at d off = Ok None.
  Proof. intros. unfold item_at. destruct (Z.leb_spec off 0); [auto|lia]. Qed.

  Lemma nth_id : forall d l xs n, holds_at d l xs -> forall (a : nat), nth_error l n = Some a -> exists x e, nth_error (d_heap d) a = Some x /\ nth_error xs n = Some e /\ e = entry_of x.
  Proof.
    intros d l xs n (L & E) a A. pose proof (ents_nth _ _ _ n E) as N. rewrite A in N. cbn [option_map] in N. destruct (nth_error xs n) as [e|]; [|discriminate]. cbn [option_map] in N. injection N as N.
    destruct (nth_error (d_heap d) a) as [x|]; [|discriminate]. cbn [option_map] in N. injection N as N. exists x, e. auto.
  Qed.

  (** ** LocalInsert *)
  Definition id_at (xs : list (entry V)) (n : nat) : option ident := option_map e_id (nth_error xs n).
  Definition left_id (xs : list (entry V)) (n : nat) : option ident := match n with O => None | S k => id_at xs k end.
  Lemma local_place : forall d l xs n left c off, holds_at d l xs -> (n <= length xs)%nat -> item_at d off = Ok left -> left = last_of (firstn n l) -> (left = None -> (off <= 0)%Z) ->
    let e := mkE (d_producer d, d_clock d) (left_id xs n) (id_at xs n) c false in
    local_insert d off c = Ok (with_clock (placed d l n e) ((d_clock d + 1) mod two64)%N, Some (length (d_heap d))).
  Proof.
    intros d l xs n left c off H Hn IA Lf Off e. pose proof H as ((q & S & ND & AL) & E). pose proof (ents_length _ _ _ E) as Len.
    unfold local_insert. rewrite IA. cbn [bind].
    replace (negb (is_some left) && (0 <? off)%Z) with false.
    2:{ destruct left; [reflexivity|]. cbn [is_some negb andb]. symmetry. apply Z.ltb_ge. auto. }
    rewrite <- (firstn_skipn n l) in S. destruct (linked_cut _ _ _ _ _ S) as (S1 & S2).
    assert (FS : first_of (skipn n l) = nth_error l n) by apply first_of_skipn.
    assert (Rt : (match left with Some a => do y <- deref (d_heap d) a; Ok (it_right y) | None => Ok (d_start d) end) = Ok (first_of (skipn n l))).
    { destruct left as [a|].
      - destruct (firstn n l) as [|b pre] using rev_ind; [discriminate|]. rewrite last_of_snoc in Lf. injection Lf as <-. apply seg_snoc in S1. destruct S1 as (q' & y & _ & Y & _ & _ & R).
        unfold deref. rewrite Y. cbn [bind]. now rewrite R.
      - assert (firstn n l = []) by (destruct (firstn n l) as [|b pre] using rev_ind; [auto|rewrite last_of_snoc in Lf; discriminate]). rewrite H0 in S1. destruct S1 as (_ & ->). reflexivity. }
    rewrite Rt. cbn [bind].
    assert (Li : (match left with Some a => do y <- deref (d_heap d) a; Ok (Some (it_id y)) | None => Ok None end) = Ok (left_id xs n)).
    { destruct n as [|k].
      - rewrite firstn_O in Lf. cbn [last_of rev] in Lf. subst left. reflexivity.
      - rewrite last_of_firstn in Lf by lia. subst left. destruct (nth_error l k) as [a|] eqn:A; [|apply nth_error_None in A; lia].
        destruct (nth_id _ _ _ _ H a A) as (x & y & X & Y & ->). unfold deref. rewrite X. cbn [bind left_id]. unfold id_at. rewrite Y. reflexivity. }
    rewrite Li. cbn [bind].
    assert (Ri : (match first_of (skipn n l) with Some r => do y <- deref (d_heap d) r; Ok (Some (it_id y)) | None => Ok None end) = Ok (id_at xs n)).
    { rewrite FS. destruct (nth_error l n) as [a|] eqn:A.
      - destruct (nth_id _ _ _ _ H a A) as (x & y & X & Y & ->). unfold deref. rewrite X. cbn [bind]. unfold id_at. rewrite Y. reflexivity.
      - unfold id_at. apply nth_error_None in A. replace (nth_error xs n) with (@None (entry V)); [reflexivity|]. symmetry. apply nth_error_None. lia. }
    rewrite Ri. cbn [bind]. f_equal. f_equal. unfold with_clock, placed. cbn [d_producer d_start d_heap].
    f_equal.
    - subst left. destruct (firstn n l) as [|b pre] using rev_ind; [reflexivity|]. rewrite last_of_snoc. destruct pre; reflexivity.
    - unfold spliced. rewrite upd_last. rewrite <- Lf. reflexivity.
  Qed.
End Ops.
