(** Proofs about the model of pkg/log. *)
From Coq Require Import String Ascii Permutation.
From Verif Require Import Base LogModel LogSpec.
Local Open Scope string_scope.

(** ** Maps *)

Lemma mget_mset m k v x : mget (mset m k v) x = if k =? x then Some v else mget m x.
Proof.
  induction m as [|[a w] r IH]; cbn [mset mget].
  - reflexivity.
  - destruct (a =? k) eqn:E; cbn [mget].
    + apply String.eqb_eq in E; subst a. destruct (k =? x); reflexivity.
    + rewrite IH. destruct (a =? x) eqn:E2; [|reflexivity].
      apply String.eqb_eq in E2; subst a. destruct (k =? x) eqn:E3; [|reflexivity].
      apply String.eqb_eq in E3; subst k. rewrite String.eqb_refl in E; discriminate.
Qed.

Lemma mget_in m k : (exists v, mget m k = Some v) <-> In k (map fst m).
Proof.
  induction m as [|[a w] r IH]; cbn [mget map fst].
  - split; [intros [v H]; discriminate|intros []].
  - destruct (a =? k) eqn:E.
    + apply String.eqb_eq in E; subst a. split; [intros _; left; reflexivity|intros _; eauto].
    + apply String.eqb_neq in E. rewrite IH. split; [right; assumption|intros [H|H]; [contradiction|assumption]].
Qed.

Lemma mget_none m k : mget m k = None <-> ~ In k (map fst m).
Proof.
  rewrite <- mget_in. destruct (mget m k); split; intro H; try congruence; try (intros [v' H']; congruence).
  exfalso; apply H; eauto.
Qed.

Lemma mset_keys m k v : map fst (mset m k v) = map fst m \/ (map fst (mset m k v) = map fst m ++ [k] /\ ~ In k (map fst m))%list.
Proof.
  induction m as [|[a w] r IH]; cbn [mset map fst].
  - right; split; [reflexivity|intros []].
  - destruct (a =? k) eqn:E; cbn [map fst].
    + left; reflexivity.
    + apply String.eqb_neq in E. destruct IH as [IH|[IH N]]; rewrite IH.
      * left; reflexivity.
      * right; split; [reflexivity|]. intros [H|H]; contradiction.
Qed.

Lemma nodup_snoc {A} (l : list A) x : NoDup l -> ~ In x l -> NoDup (l ++ [x]).
Proof.
  intros H1 H2. apply (Permutation_NoDup (Permutation_cons_append l x)). constructor; assumption.
Qed.

Lemma mset_nodup m k v : NoDup (map fst m) -> NoDup (map fst (mset m k v)).
Proof.
  intro H. destruct (mset_keys m k v) as [->|[-> N]]; [exact H|apply nodup_snoc; assumption].
Qed.

Lemma mdel_nodup m k : NoDup (map fst m) -> NoDup (map fst (mdel m k)).
Proof.
  induction m as [|[a w] r IH]; cbn [mdel filter map fst]; intro H; [constructor|].
  inversion H as [|? ? N H']; subst. destruct (a =? k); cbn [negb]; [apply IH; exact H'|].
  cbn [map fst]; constructor; [|apply IH; exact H'].
  intro C; apply N. apply in_map_iff in C. destruct C as [[b u] [Hb Hi]]. cbn [fst] in Hb; subst b.
  apply filter_In in Hi. apply in_map_iff; exists (a, u); split; [reflexivity|apply Hi].
Qed.

Lemma mget_mdel m k x : mget (mdel m k) x = if k =? x then None else mget m x.
Proof.
  induction m as [|[a w] r IH]; cbn [mdel filter mget fst].
  - destruct (k =? x); reflexivity.
  - fold (mdel r k). destruct (a =? k) eqn:E; cbn [negb].
    + rewrite IH. apply String.eqb_eq in E; subst a. destruct (k =? x); reflexivity.
    + cbn [mget]. rewrite IH. destruct (a =? x) eqn:E2; [|reflexivity].
      apply String.eqb_eq in E2; subst a. rewrite String.eqb_sym, E. reflexivity.
Qed.

Lemma merge_into_nodup m : forall f, NoDup (map fst f) -> NoDup (map fst (merge_into f m)).
Proof.
  unfold merge_into. induction m as [|[a w] r IH]; intros f H; cbn [fold_left fst snd]; [exact H|].
  apply IH, mset_nodup, H.
Qed.

(** the pairs of a list one after the other: the last one with a name counts *)
Lemma mget_merge_lit m : forall f k, mget (merge_into f m) k = over (literal m) (mget f) k.
Proof.
  unfold merge_into, over. induction m as [|[a w] r IH]; intros f k; cbn [fold_left fst snd literal]; [reflexivity|].
  rewrite IH, mget_mset. unfold over, single. destruct (literal r k); [reflexivity|].
  destruct (a =? k); reflexivity.
Qed.

Lemma literal_mget m k : NoDup (map fst m) -> literal m k = mget m k.
Proof.
  induction m as [|[a w] r IH]; cbn [literal mget map fst]; intro H; [reflexivity|].
  inversion H as [|? ? N H']; subst. unfold over, single. rewrite (IH H').
  destruct (a =? k) eqn:E.
  - apply String.eqb_eq in E; subst a. apply mget_none in N. rewrite N. reflexivity.
  - destruct (mget r k); reflexivity.
Qed.

Lemma mget_merge m f k : NoDup (map fst m) -> mget (merge_into f m) k = over (mget m) (mget f) k.
Proof. intro H. rewrite mget_merge_lit. unfold over. rewrite (literal_mget m k H). reflexivity. Qed.

Lemma merge_all ms : Forall (fun m => NoDup (map fst m)) ms ->
  forall f k, mget (fold_left merge_into ms f) k = over (latest ms) (mget f) k.
Proof.
  induction 1 as [|m r Hm Hr IH]; intros f k; cbn [fold_left latest]; [reflexivity|].
  rewrite IH. unfold over. destruct (latest r k); [reflexivity|]. rewrite (mget_merge m f k Hm). reflexivity.
Qed.

Lemma merge_all_nodup ms : forall f, NoDup (map fst f) -> NoDup (map fst (fold_left merge_into ms f)).
Proof.
  induction ms as [|m r IH]; intros f H; cbn [fold_left]; [exact H|]. apply IH, merge_into_nodup, H.
Qed.

Lemma latest_snoc ms m k : latest (ms ++ [m]) k = over (mget m) (latest ms) k.
Proof.
  induction ms as [|x r IH]; cbn [app latest].
  - unfold over, no_fields. destruct (mget m k); reflexivity.
  - unfold over in *. rewrite IH. destruct (mget m k); [reflexivity|]. destruct (latest r k); reflexivity.
Qed.

Lemma latest_ext (g g' : nat -> fmap) ids k :
  (forall i, In i ids -> mget (g' i) k = mget (g i) k) -> latest (map g' ids) k = latest (map g ids) k.
Proof.
  induction ids as [|i r IH]; cbn [map latest]; intro H; [reflexivity|].
  unfold over. rewrite IH by (intros; apply H; right; assumption). rewrite (H i) by (left; reflexivity). reflexivity.
Qed.

Lemma forall2_length {A B} (P : A -> B -> Prop) l l' : Forall2 P l l' -> List.length l = List.length l'.
Proof. induction 1; cbn [List.length]; congruence. Qed.

(** ** Slices *)

Lemma lput_len {A} (l : list A) i x : List.length (lput l i x) = List.length l.
Proof. revert i; induction l as [|y l IH]; intros [|i]; cbn [lput List.length]; auto. Qed.

Lemma nth_lput {A} (l : list A) i j x d : nth j (lput l i x) d = if (j =? i)%nat && (i <? List.length l)%nat then x else nth j l d.
Proof.
  revert i j; induction l as [|y l IH]; intros i j.
  - cbn [lput List.length]. destruct i, j; cbn [Nat.eqb Nat.ltb Nat.leb andb nth]; rewrite ?andb_false_r; reflexivity.
  - destruct i, j; cbn [lput nth Nat.eqb andb List.length]; try reflexivity.
    rewrite IH. reflexivity.
Qed.

Lemma nth_error_lput {A} (l : list A) i j x : nth_error (lput l i x) j =
  if (j =? i)%nat && (i <? List.length l)%nat then Some x else nth_error l j.
Proof.
  revert i j; induction l as [|y l IH]; intros i j.
  - cbn [lput List.length]. destruct i, j; cbn [Nat.eqb Nat.ltb Nat.leb andb nth_error]; rewrite ?andb_false_r; reflexivity.
  - destruct i, j; cbn [lput nth_error Nat.eqb andb List.length]; try reflexivity.
    rewrite IH. reflexivity.
Qed.

Lemma lput_app {A} (l : list A) x y : lput (l ++ [x]) (List.length l) y = (l ++ [y])%list.
Proof. induction l as [|a l IH]; cbn [app lput List.length]; [reflexivity|rewrite IH; reflexivity]. Qed.

Definition sl_ok (s : lst) (sl : lslice) : Prop :=
  (ls_arr sl < List.length (l_arrs s))%nat /\ (ls_len sl <= List.length (larr s (ls_arr sl)))%nat.

Definition arrs_ext (s s' : lst) : Prop := exists t, l_arrs s' = (l_arrs s ++ t)%list.

Lemma arrs_ext_refl s : arrs_ext s s.
Proof. exists []. symmetry; apply app_nil_r. Qed.

Lemma arrs_ext_trans a b c : arrs_ext a b -> arrs_ext b c -> arrs_ext a c.
Proof. intros [t H] [u H']. exists (t ++ u)%list. rewrite H', H, app_assoc. reflexivity. Qed.

Lemma arrs_ext_ok s s' sl : arrs_ext s s' -> sl_ok s sl -> sl_ok s' sl /\ sl_list s' sl = sl_list s sl.
Proof.
  intros [t H] [H1 H2]. unfold sl_ok, sl_list, larr in *. rewrite H, app_length, app_nth1 by exact H1.
  split; [split; [lia|exact H2]|reflexivity].
Qed.

  Definition slices_ok (s : lst) : Prop := (0 < List.length (l_arrs s))%nat /\ forall e, In e (l_ents s) -> sl_ok s (en_list e).

  Lemma lent_ok s e : slices_ok s -> sl_ok s (en_list (lent s e)).
  Proof.
    intros [H0 H]. unfold lent. destruct (nth_in_or_default e (l_ents s) nil_entry) as [Hi| ->]; [apply H, Hi|].
    split; cbn [nil_entry en_list ls_arr ls_len]; lia.
  Qed.

Section Slices.
  Variable room : nat -> nat.

  (** appending to a slice whose array is the last one changes no other array *)
  Lemma append_last s0 s sl xs s' sl' :
    sl_append room s sl xs = (s', sl') -> sl_ok s sl ->
    (exists t, l_arrs s = (l_arrs s0 ++ t)%list) -> (List.length (l_arrs s0) <= ls_arr sl)%nat ->
    sl_ok s' sl' /\ sl_list s' sl' = (sl_list s sl ++ xs)%list /\ (List.length (l_arrs s0) <= ls_arr sl')%nat /\
    (exists t, l_arrs s' = (l_arrs s0 ++ t)%list) /\
    l_maps s' = l_maps s /\ l_ents s' = l_ents s /\ l_level s' = l_level s /\ l_out s' = l_out s /\ l_over s' = l_over s.
  Proof.
    unfold sl_append. intros H [K1 K2] [t Ht] L.
    assert (F : List.length (firstn (ls_len sl) (larr s (ls_arr sl))) = ls_len sl) by (rewrite firstn_length; lia).
    destruct (_ <=? _)%nat eqn:E.
    - apply Nat.leb_le in E. injection H as <- <-.
      assert (La : larr (set_arrs s (lput (l_arrs s) (ls_arr sl) (firstn (ls_len sl) (larr s (ls_arr sl)) ++ xs ++
               skipn (ls_len sl + List.length xs) (larr s (ls_arr sl)))%list)) (ls_arr sl) =
               (firstn (ls_len sl) (larr s (ls_arr sl)) ++ xs ++ skipn (ls_len sl + List.length xs) (larr s (ls_arr sl)))%list).
      { unfold larr, set_arrs; cbn [l_arrs]. rewrite nth_lput, Nat.eqb_refl. apply Nat.ltb_lt in K1. rewrite K1. reflexivity. }
      split; [|split; [|split; [exact L|split; [|repeat split]]]].
      + split; cbn [ls_arr ls_len]; [unfold set_arrs; cbn [l_arrs]; rewrite lput_len; exact K1|].
        rewrite La, !app_length, F. lia.
      + unfold sl_list; cbn [ls_arr ls_len]. rewrite La, app_assoc, firstn_app, app_length, F.
        rewrite firstn_all2 by (rewrite app_length, F; lia).
        replace (_ - _)%nat with 0%nat by lia. cbn [firstn]. apply app_nil_r.
      + exists (lput t (ls_arr sl - List.length (l_arrs s0)) (firstn (ls_len sl) (larr s (ls_arr sl)) ++ xs ++
               skipn (ls_len sl + List.length xs) (larr s (ls_arr sl)))%list).
        unfold set_arrs; cbn [l_arrs]. generalize (firstn (ls_len sl) (larr s (ls_arr sl)) ++ xs ++
               skipn (ls_len sl + List.length xs) (larr s (ls_arr sl)))%list as y. intro y. rewrite Ht.
        clear - L. revert L. generalize (ls_arr sl) as i. generalize (l_arrs s0) as l.
        induction l as [|a l IH]; intros i L; cbn [app List.length] in *; [rewrite Nat.sub_0_r; reflexivity|].
        destruct i as [|i]; [lia|]. cbn [lput Nat.sub]. rewrite IH by lia. reflexivity.
    - injection H as <- <-.
      assert (La : larr (set_arrs s (l_arrs s ++ [firstn (ls_len sl) (larr s (ls_arr sl)) ++ xs ++ repeat 0 (room (ls_len sl + List.length xs))])%list)
                        (List.length (l_arrs s)) = (firstn (ls_len sl) (larr s (ls_arr sl)) ++ xs ++ repeat 0 (room (ls_len sl + List.length xs)))%list%nat).
      { unfold larr, set_arrs; cbn [l_arrs]. rewrite app_nth2 by lia. rewrite Nat.sub_diag. reflexivity. }
      split; [|split; [|split; [|split; [|repeat split]]]]; cbn [ls_arr ls_len].
      + split; cbn [ls_arr ls_len]; [unfold set_arrs; cbn [l_arrs]; rewrite app_length; cbn [List.length]; lia|].
        rewrite La, !app_length, F. lia.
      + unfold sl_list; cbn [ls_arr ls_len]. rewrite La, app_assoc, firstn_app, app_length, F.
        rewrite firstn_all2 by (rewrite app_length, F; lia).
        replace (_ - _)%nat with 0%nat by lia. cbn [firstn]. apply app_nil_r.
      + rewrite Ht, app_length; lia.
      + unfold set_arrs; cbn [l_arrs]. rewrite Ht. rewrite <- app_assoc. eexists; reflexivity.
  Qed.

  Lemma with_fields_spec s e m : slices_ok s -> exists f2 s2,
    with_fields room s e m = (add_ent s2 (mkEn None 0 "" 0 f2), List.length (l_ents s)) /\
    sl_ok s2 f2 /\ sl_list s2 f2 = (sl_list s (en_list (lent s e)) ++ [m])%list /\ arrs_ext s s2 /\
    l_maps s2 = l_maps s /\ l_ents s2 = l_ents s /\ l_level s2 = l_level s /\ l_out s2 = l_out s /\ l_over s2 = l_over s.
  Proof.
    intro H. unfold with_fields.
    set (s0 := set_arrs s (l_arrs s ++ [[]])%list). set (f0 := mkLS (List.length (l_arrs s)) 0).
    assert (E0 : arrs_ext s s0) by (exists [[]]; reflexivity).
    assert (K0 : sl_ok s0 f0).
    { split; subst s0 f0; unfold larr; cbn [set_arrs l_arrs ls_arr ls_len]; [rewrite app_length; cbn [List.length]; lia|lia]. }
    destruct (arrs_ext_ok _ _ _ E0 (lent_ok s e H)) as [_ E1].
    destruct (sl_append room s0 f0 (sl_list s0 (en_list (lent s e)))) as [s1 f1] eqn:A1.
    destruct (append_last s s0 f0 _ s1 f1 A1 K0 E0 (Nat.le_refl _)) as [K1 [L1 [B1 [E2 [M1 [N1 [P1 [Q1 R1]]]]]]]].
    change (l_maps s0) with (l_maps s) in M1. change (l_ents s0) with (l_ents s) in N1.
    change (l_level s0) with (l_level s) in P1. change (l_out s0) with (l_out s) in Q1. change (l_over s0) with (l_over s) in R1.
    destruct (sl_append room s1 f1 [m]) as [s2 f2] eqn:A2.
    destruct (append_last s s1 f1 _ s2 f2 A2 K1 E2 B1) as [K2 [L2 [B2 [E3 [M2 [N2 [P2 [Q2 R2]]]]]]]].
    exists f2, s2. split; [|split; [exact K2|split; [|split; [exact E3|repeat split; congruence]]]].
    - rewrite N2, N1. reflexivity.
    - rewrite L2, L1, E1. reflexivity.
  Qed.
End Slices.

(** ** Entries as values *)

Section Refine.
  Variable room : nat -> nat.

  Definition okmap (s : lst) (v : vst) (m : nat) (f : flds) : Prop :=
    (m < List.length (l_maps s))%nat /\ v_given v m = true /\ forall k, mget (lmap s m) k = f k.

  Record Rent (s : lst) (v : vst) (e : entry) (x : vent) : Prop := {
    re_msg : en_msg e = v_msg x;
    re_start : en_start e = v_start x;
    re_sl : sl_ok s (en_list e);
    re_ids : forall i, In i (sl_list s (en_list e)) -> (i < List.length (l_maps s))%nat /\ v_given v i = true;
    re_flds : forall k, latest (map (lmap s) (sl_list s (en_list e))) k = v_flds x k;
    re_own : match en_fields e, v_own x with
             | None, None => True
             | Some m, Some f => okmap s v m f
             | _, _ => False
             end }.

  Record R (s : lst) (v : vst) : Prop := {
    R_arr : (0 < List.length (l_arrs s))%nat;
    R_over : l_over s = v_over v;
    R_level : l_level s = v_level v;
    R_out : Forall2 same_record (l_out s) (v_out v);
    R_maps : Forall2 (fun m fb => NoDup (map fst m) /\ forall k, mget m k = fst fb k) (l_maps s) (v_maps v);
    R_ents : Forall2 (Rent s v) (l_ents s) (v_ents v) }.

  (** maps that have been given away stay as they are *)
  Definition keeps (s : lst) (v : vst) (s' : lst) (v' : vst) : Prop :=
    arrs_ext s s' /\
    forall i, (i < List.length (l_maps s))%nat -> v_given v i = true ->
      (i < List.length (l_maps s'))%nat /\ v_given v' i = true /\ forall k, mget (lmap s' i) k = mget (lmap s i) k.

  Lemma Rent_keeps s v s' v' e x : keeps s v s' v' -> Rent s v e x -> Rent s' v' e x.
  Proof.
    intros [A K] [H1 H2 H3 H4 H5 H6]. destruct (arrs_ext_ok _ _ _ A H3) as [O L].
    constructor; [exact H1|exact H2|exact O| | |].
    - intros i Hi. rewrite L in Hi. destruct (H4 i Hi) as [Hl Hg]. destruct (K i Hl Hg) as [K1 [K2 _]]. split; assumption.
    - intro k. rewrite L, <- H5. apply latest_ext. intros i Hi. destruct (H4 i Hi) as [Hl Hg]. apply (K i Hl Hg).
    - destruct (en_fields e) as [m|], (v_own x) as [f|]; try exact H6.
      destruct H6 as [Hl [Hg Hm]]. destruct (K m Hl Hg) as [K1 [K2 K3]].
      split; [exact K1|split; [exact K2|]]. intro k. rewrite K3. apply Hm.
  Qed.

  Lemma R_len s v : R s v -> List.length (l_maps s) = List.length (v_maps v) /\ List.length (l_ents s) = List.length (v_ents v).
  Proof. intros H. split; [eapply forall2_length; apply (R_maps _ _ H)|eapply forall2_length; apply (R_ents _ _ H)]. Qed.

  Lemma R_slices s v : R s v -> slices_ok s.
  Proof.
    intro H. split; [apply (R_arr _ _ H)|]. intros e He.
    destruct (In_nth _ _ nil_entry He) as [i [Hi <-]].
    pose proof (R_ents _ _ H) as F. clear - F He.
    revert He. generalize (nth i (l_ents s) nil_entry) as e. intros e He.
    induction F as [|a b l l' Hab F IH]; [destruct He|]. destruct He as [<-|He]; [apply (re_sl _ _ _ _ Hab)|apply IH, He].
  Qed.

  Lemma R_lmap s v m : R s v -> NoDup (map fst (lmap s m)) /\ forall k, mget (lmap s m) k = vmap_of v m k.
  Proof.
    intro H. pose proof (R_maps _ _ H) as F. unfold lmap, vmap_of. revert m.
    induction F as [|a b l l' Hab F IH]; intros [|m]; cbn [nth]; try (split; [constructor|reflexivity]); [exact Hab|apply IH].
  Qed.

  Lemma R_blank s v : R s v -> Rent s v nil_entry v_blank.
  Proof.
    intro H. constructor; cbn [nil_entry v_blank en_msg v_msg en_start v_start en_list en_fields v_own v_flds]; try reflexivity; try exact Logic.I.
    - split; cbn [ls_arr ls_len]; [apply (R_arr _ _ H)|lia].
    - intros i [].
  Qed.

  Lemma R_lent s v e : R s v -> Rent s v (lent s e) (vent_of v e).
  Proof.
    intro H. pose proof (R_ents _ _ H) as F. pose proof (R_blank s v H) as B. unfold lent, vent_of.
    generalize dependent e. induction F as [|a b l l' Hab F IH]; intros [|e]; cbn [nth]; try exact B; [exact Hab|apply IH].
  Qed.

  Lemma Rents_keeps s v s' v' : keeps s v s' v' -> Forall2 (Rent s v) (l_ents s) (v_ents v) -> Forall2 (Rent s' v') (l_ents s) (v_ents v).
  Proof. intros K F. induction F; constructor; [eapply Rent_keeps; eassumption|assumption]. Qed.

  Lemma forall2_impl {A B} (P Q : A -> B -> Prop) l l' : (forall a b, P a b -> Q a b) -> Forall2 P l l' -> Forall2 Q l l'.
  Proof. intros H F. induction F; constructor; auto. Qed.

  Lemma nth_lt_app {A} (l r : list A) i d : (i < List.length l)%nat -> nth i (l ++ r) d = nth i l d.
  Proof. intro. apply app_nth1. assumption. Qed.

  Lemma keeps_add s v m f b : R s v -> keeps s v (add_map s m) (v_add v f b).
  Proof.
    intro H. destruct (R_len _ _ H) as [L _]. split; [exists []; symmetry; apply app_nil_r|]. intros i Hi Hg.
    unfold v_given, lmap, add_map, v_add in *; cbn [l_maps v_maps]. rewrite app_length, !nth_lt_app by lia.
    split; [lia|split; [exact Hg|reflexivity]].
  Qed.

  Lemma R_add s v m f b : R s v -> NoDup (map fst m) -> (forall k, mget m k = f k) -> R (add_map s m) (v_add v f b).
  Proof.
    intros H N E. constructor.
    - apply (R_arr _ _ H).
    - apply (R_over _ _ H).
    - apply (R_level _ _ H).
    - apply (R_out _ _ H).
    - apply Forall2_app; [apply (R_maps _ _ H)|constructor; [split; [exact N|exact E]|constructor]].
    - apply (Rents_keeps s v); [apply keeps_add, H|apply (R_ents _ _ H)].
  Qed.

  Lemma forall2_lput {A B} (P : A -> B -> Prop) l l' i x y : Forall2 P l l' -> P x y -> Forall2 P (lput l i x) (lput l' i y).
  Proof. intros F H. revert i. induction F; intros [|i]; cbn [lput]; constructor; auto. Qed.

  Lemma R_set s v m f g : R s v -> v_given v m = false -> NoDup (map fst f) -> (forall k, mget f k = g k) ->
    R (set_map s m f) (v_change v m g (v_given v m)).
  Proof.
    intros H G N E. constructor; try apply H.
    - unfold set_map, v_change; cbn [l_maps v_maps]. apply forall2_lput; [apply (R_maps _ _ H)|split; [exact N|exact E]].
    - apply (Rents_keeps s v); [|apply (R_ents _ _ H)]. destruct (R_len _ _ H) as [L _].
      split; [exists []; symmetry; apply app_nil_r|]. intros i Hi Hg.
      assert (i <> m) by congruence. apply Nat.eqb_neq in H0.
      unfold v_given, lmap, set_map, v_change in *; cbn [l_maps v_maps]. rewrite lput_len, !nth_lput, H0. cbn [andb].
      split; [exact Hi|split; [exact Hg|reflexivity]].
  Qed.

  Lemma R_give s v m : R s v -> R s (v_change v m (vmap_of v m) true).
  Proof.
    intro H. constructor; try apply H.
    - unfold v_change; cbn [v_maps]. pose proof (R_maps _ _ H) as F. unfold vmap_of. revert m.
      induction F as [|a b l l' Hab F IH]; intros [|m]; cbn [lput nth]; constructor; auto.
    - apply (Rents_keeps s v); [|apply (R_ents _ _ H)].
      split; [exists []; symmetry; apply app_nil_r|]. intros i Hi Hg. split; [exact Hi|split; [|reflexivity]].
      unfold v_given, v_change in *; cbn [v_maps]. rewrite nth_lput. destruct (_ && _); [reflexivity|exact Hg].
  Qed.

  Lemma R_check s v b : R s v -> R s (v_check v b).
  Proof.
    intros [H1 H2 H3 H4 H5 H6]. constructor; try assumption.
    eapply forall2_impl; [|exact H6]. intros x y Hab. destruct Hab; constructor; assumption.
  Qed.

  (** deriving, with the message and the start set afterwards *)
  Definition retouch (s : lst) (e : nat) (msg : string) (start : Z) : lst :=
    let x := lent s e in
    mkL (l_maps s) (l_arrs s) (lput (l_ents s) e (mkEn (en_fields x) (en_level x) msg start (en_list x)))
        (l_level s) (l_out s) (l_over s).

  Lemma R_derive s v e m f msg start : R s v -> okmap s v m f ->
    snd (with_fields room s e m) = snd (v_derive v e f msg start) /\
    R (retouch (fst (with_fields room s e m)) (snd (with_fields room s e m)) msg start) (fst (v_derive v e f msg start)) /\
    (msg = "" -> start = 0%Z -> R (fst (with_fields room s e m)) (fst (v_derive v e f msg start))).
  Proof.
    intros H [M1 [M2 M3]].
    destruct (with_fields_spec room s e m (R_slices _ _ H)) as [f2 [s2 [-> [K [L [A [E1 [E2 [E3 [E4 E5]]]]]]]]]].
    cbn [fst snd v_derive]. split; [apply R_len, H|].
    assert (KP : keeps s v (add_ent s2 (mkEn None 0 "" 0 f2)) (v_entry v (mkVE (over f (v_flds (vent_of v e))) None msg start))).
    { split; [exact A|]. intros i Hi Hg. unfold lmap, add_ent; cbn [l_maps]. rewrite E1. split; [exact Hi|split; [exact Hg|reflexivity]]. }
    assert (RX : Rent (add_ent s2 (mkEn None 0 "" 0 f2)) (v_entry v (mkVE (over f (v_flds (vent_of v e))) None msg start))
                      (mkEn None 0 msg start f2) (mkVE (over f (v_flds (vent_of v e))) None msg start)).
    { pose proof (R_lent s v e H) as RE. constructor; cbn [en_msg v_msg en_start v_start en_list en_fields v_own v_flds]; try reflexivity; try exact Logic.I.
      - exact K.
      - intros i Hi. change (sl_list (add_ent s2 (mkEn None 0 "" 0 f2)) f2) with (sl_list s2 f2) in Hi. rewrite L in Hi.
        unfold add_ent; cbn [l_maps]. rewrite E1. apply in_app_or in Hi.
        destruct Hi as [Hi|[<-|[]]]; [apply (re_ids _ _ _ _ RE i Hi)|split; [exact M1|exact M2]].
      - intro k. change (sl_list (add_ent s2 (mkEn None 0 "" 0 f2)) f2) with (sl_list s2 f2). rewrite L, map_app.
        cbn [map]. rewrite latest_snoc. unfold over.
        assert (X : forall i, lmap (add_ent s2 (mkEn None 0 "" 0 f2)) i = lmap s i) by (intro i; unfold lmap, add_ent; cbn [l_maps]; rewrite E1; reflexivity).
        rewrite (map_ext _ _ X), X, M3. destruct (f k); [reflexivity|]. apply (re_flds _ _ _ _ RE). }
    assert (RR : R (retouch (add_ent s2 (mkEn None 0 "" 0 f2)) (List.length (l_ents s)) msg start)
                   (v_entry v (mkVE (over f (v_flds (vent_of v e))) None msg start))).
    { constructor; unfold retouch, add_ent, v_entry; cbn [l_arrs l_over v_over l_level v_level l_out v_out l_maps v_maps l_ents v_ents].
      - destruct A as [t ->]. rewrite app_length. pose proof (R_arr _ _ H). lia.
      - rewrite E5. apply (R_over _ _ H).
      - rewrite E3. apply (R_level _ _ H).
      - rewrite E4. apply (R_out _ _ H).
      - rewrite E1. apply (R_maps _ _ H).
      - rewrite E2. unfold lent; cbn [l_ents]. rewrite lput_app, app_nth2, Nat.sub_diag by lia. cbn [nth en_fields en_level en_list].
        apply Forall2_app.
        + apply (Rents_keeps s v); [exact KP|apply (R_ents _ _ H)].
        + constructor; [|constructor]. destruct RX; constructor; assumption. }
    split; [exact RR|]. intros -> ->.
    destruct RR as [R1 R2 R3 R4 R5 R6]. constructor; try assumption.
    revert R6. unfold retouch, add_ent, lent; cbn [l_ents]. rewrite E2, lput_app, app_nth2, Nat.sub_diag by lia. cbn [nth en_fields en_level en_list].
    intro F. eapply forall2_impl; [|exact F]. intros a b Hab. destruct Hab; constructor; assumption.
  Qed.

  Lemma R_one s v e k x : R s v ->
    snd (with_field room s e k x) = snd (v_derive_one v e k x) /\ R (fst (with_field room s e k x)) (fst (v_derive_one v e k x)).
  Proof.
    intro H. unfold with_field, v_derive_one.
    assert (H' : R (add_map s [(k, x)]) (v_add v (single k x) true)).
    { apply R_add; [exact H|repeat constructor; intros []|reflexivity]. }
    destruct (R_derive _ _ e (List.length (l_maps s)) (single k x) "" 0 H') as [A [_ B]].
    - destruct (R_len _ _ H) as [L _]. unfold okmap, lmap, v_given, add_map, v_add; cbn [l_maps v_maps].
      rewrite app_length, L, app_nth2, Nat.sub_diag by lia. split; [cbn [List.length]; lia|split; [reflexivity|]].
      rewrite <- L, app_nth2, Nat.sub_diag by lia. reflexivity.
    - split; [exact A|apply B; reflexivity].
  Qed.

  Lemma v_ok_change v m f b : v_ok (v_change v m f b) = v_ok v.
  Proof. reflexivity. Qed.

  Lemma R_given_map s v e m : R s v -> v_ok (fst (v_derive_map v e m)) = true ->
    snd (with_fields room s e m) = snd (v_derive_map v e m) /\ R (fst (with_fields room s e m)) (fst (v_derive_map v e m)).
  Proof.
    intros H O. unfold v_derive_map in *.
    set (v1 := v_check v (m <? List.length (v_maps v))%nat) in *.
    assert (Hm : (m < List.length (v_maps v))%nat).
    { apply Nat.ltb_lt. cbn in O. apply andb_true_iff in O. apply O. }
    assert (H1 : R s (v_change v1 m (vmap_of v m) true)).
    { change (vmap_of v m) with (vmap_of v1 m). apply R_give, R_check, H. }
    destruct (R_derive s _ e m (vmap_of v m) "" 0 H1) as [A [_ B]].
    - destruct (R_len _ _ H) as [L _]. split; [lia|split].
      + unfold v_given, v_change, v1, v_check; cbn [v_maps]. rewrite nth_lput, Nat.eqb_refl. apply Nat.ltb_lt in Hm. rewrite Hm. reflexivity.
      + apply (R_lmap s v m H).
    - split; [exact A|apply B; reflexivity].
  Qed.

  Lemma R_log s v level e msg now : R s v -> R (log s level e msg now) (v_log v level e msg now).
  Proof.
    intro H. unfold log, v_log. rewrite <- (R_level _ _ H).
    rewrite Z.leb_antisym. destruct (level <? l_level s)%Z; cbn [negb]; [exact H|].
    pose proof (R_lent s v e H) as RE.
    assert (G : forall k, mget (merged s e) k = v_flds (vent_of v e) k).
    { intro k. unfold merged. rewrite merge_all.
      - unfold over. rewrite (re_flds _ _ _ _ RE). destruct (v_flds (vent_of v e) k); reflexivity.
      - apply Forall_forall. intros m Hm. apply in_map_iff in Hm. destruct Hm as [i [<- _]]. apply (R_lmap s v i H). }
    assert (N : NoDup (map fst (merged s e))) by (apply merge_all_nodup; constructor).
    pose proof (R_add s v (merged s e) (v_flds (vent_of v e)) true H N G) as H'.
    destruct (R_len _ _ H) as [L _].
    constructor; try apply H'.
    - reflexivity.
    - cbn [l_out v_out]. apply Forall2_app; [apply (R_out _ _ H)|].
      constructor; [|constructor]. unfold same_record; cbn [fst snd r_level r_time r_msg]. auto.
    - cbn [l_ents v_ents v_entry v_add]. apply Forall2_app.
      + destruct H' as [_ _ _ _ _ F]. eapply forall2_impl; [|exact F]. intros a b Hab. destruct Hab; constructor; assumption.
      + constructor; [|constructor].
        constructor; cbn [en_msg v_msg en_start v_start en_list en_fields v_own v_flds]; try reflexivity.
        * split; cbn [ls_arr ls_len]; [apply (R_arr _ _ H)|lia].
        * intros i [].
        * unfold okmap, lmap, v_given; cbn [l_maps v_maps v_entry v_add].
          rewrite app_length, L, app_nth2, Nat.sub_diag by lia. split; [cbn [List.length]; lia|split; [reflexivity|]].
          rewrite <- L, app_nth2, Nat.sub_diag by lia. exact G.
  Qed.

  Lemma v_ok_log v level e msg now : v_ok (v_log v level e msg now) = v_ok v.
  Proof. unfold v_log. destruct (_ <=? _)%Z; reflexivity. Qed.

  Lemma R_error s v e err : R s v -> v_ok (fst (v_error v e err)) = true ->
    snd (with_error room s e err) = snd (v_error v e err) /\ R (fst (with_error room s e err)) (fst (v_error v e err)).
  Proof.
    intros H O. destruct err as [r|]; [|split; [reflexivity|exact H]]. unfold with_error, v_error in *.
    destruct (R_one s v e "error" (FStr (er_text r)) H) as [A1 B1].
    destruct (with_field room s e "error" (FStr (er_text r))) as [s1 e1].
    destruct (v_derive_one v e "error" (FStr (er_text r))) as [v1 e1']. cbn [fst snd] in A1, B1; subst e1'.
    assert (X : exists s2 e2 v2, match er_source r with Some p => with_field room s1 e1 "source" (FStr p) | None => (s1, e1) end = (s2, e2) /\
                match er_source r with Some p => v_derive_one v1 e1 "source" (FStr p) | None => (v1, e1) end = (v2, e2) /\ R s2 v2).
    { destruct (er_source r) as [p|]; [|exists s1, e1, v1; auto].
      destruct (R_one s1 v1 e1 "source" (FStr p) B1) as [A2 B2].
      destruct (with_field room s1 e1 "source" (FStr p)) as [s2 e2].
      destruct (v_derive_one v1 e1 "source" (FStr p)) as [v2 e2']. cbn [fst snd] in A2, B2; subst e2'.
      exists s2, e2, v2; auto. }
    destruct X as [s2 [e2 [v2 [X1 [X2 X3]]]]]. rewrite X1, X2 in *.
    destruct (er_fields r) as [m|]; [|split; [reflexivity|exact X3]].
    apply R_given_map; assumption.
  Qed.

  Lemma R_stop s v e err now : R s v -> v_ok (vstep v (OStop e err now)) = true -> v_over v = false ->
    R (stop room s e err now) (vstep v (OStop e err now)).
  Proof.
    intros H O V. unfold vstep in *. rewrite V in *. unfold stop, with_duration.
    pose proof (R_lent s v e H) as RE. rewrite (re_start _ _ _ _ RE), (re_msg _ _ _ _ RE).
    destruct (R_one s v e "duration" (FInt (Z.quot (now - v_start (vent_of v e)) 1000000)) H) as [A1 B1].
    destruct (with_field room s e "duration" _) as [s1 e1].
    destruct (v_derive_one v e "duration" _) as [v1 e1']. cbn [fst snd] in A1, B1; subst e1'.
    destruct err as [r|]; [|apply R_log, B1].
    assert (O2 : v_ok (fst (v_error v1 e1 (Some r))) = true).
    { destruct (v_error v1 e1 (Some r)) as [v2 e2]. rewrite v_ok_log in O. exact O. }
    destruct (R_error s1 v1 e1 (Some r) B1 O2) as [A2 B2].
    destruct (with_error room s1 e1 (Some r)) as [s2 e2]. destruct (v_error v1 e1 (Some r)) as [v2 e2'].
    cbn [fst snd] in A2, B2; subst e2'. apply R_log, B2.
  Qed.

  Lemma R_trace s v e msg now start : R s v -> v_over v = false ->
    R (fst (trace room s e msg now start)) (vstep v (OTrace e msg now start)).
  Proof.
    intros H V. unfold vstep. rewrite V. unfold trace.
    pose proof (R_lent s v e H) as RE. pose proof (R_log s v 1 e msg now H) as H1.
    assert (KE : forall e', (e' < List.length (l_ents s))%nat -> vent_of (v_log v 1 e msg now) e' = vent_of v e').
    { intros e' He. unfold v_log. destruct (_ <=? _)%Z; [|reflexivity]. unfold vent_of; cbn [v_ents v_entry v_add].
      apply app_nth1. destruct (R_len _ _ H) as [_ <-]. exact He. }
    pose proof (re_own _ _ _ _ RE) as OW.
    destruct (en_fields (lent s e)) as [m|] eqn:EF, (v_own (vent_of v e)) as [f|] eqn:EV; try contradiction.
    - assert (OM : okmap (log s 1 e msg now) (v_log v 1 e msg now) m f).
      { destruct OW as [O1 [O2 O3]]. destruct (R_len _ _ H) as [L _]. unfold log, v_log. rewrite <- (R_level _ _ H), Z.leb_antisym.
        destruct (1 <? l_level s)%Z; cbn [negb]; [split; [exact O1|split; [exact O2|exact O3]]|].
        unfold okmap, lmap, v_given in *; cbn [l_maps v_maps v_entry v_add]. rewrite app_length, !nth_lt_app by lia.
        split; [lia|split; [exact O2|exact O3]]. }
      destruct (R_derive _ _ e m f msg start H1 OM) as [_ [B _]].
      destruct (with_fields room (log s 1 e msg now) e m) as [s3 v3]. exact B.
    - assert (H2 : R (add_map (log s 1 e msg now) []) (v_add (v_log v 1 e msg now) no_fields true)) by (apply R_add; [exact H1|constructor|reflexivity]).
      assert (OM : okmap (add_map (log s 1 e msg now) []) (v_add (v_log v 1 e msg now) no_fields true) (List.length (l_maps (log s 1 e msg now))) no_fields).
      { destruct (R_len _ _ H1) as [L _]. unfold okmap, lmap, v_given, add_map, v_add; cbn [l_maps v_maps].
        rewrite app_length, L, app_nth2, Nat.sub_diag by lia. split; [cbn [List.length]; lia|split; [reflexivity|]].
        rewrite <- L, app_nth2, Nat.sub_diag by lia. reflexivity. }
      destruct (R_derive _ _ e _ no_fields msg start H2 OM) as [_ [B _]].
      destruct (with_fields room (add_map (log s 1 e msg now) []) e _) as [s3 v3]. exact B.
  Qed.

  Lemma R_step s v o : R s v -> v_ok (vstep v o) = true -> R (lstep room s o) (vstep v o).
  Proof.
    intros H O. unfold lstep. rewrite (R_over _ _ H). destruct (v_over v) eqn:V; [unfold vstep; rewrite V; exact H|].
    destruct o.
    - unfold vstep; rewrite V. apply R_add; [exact H|apply merge_into_nodup; constructor|].
      intro k. rewrite mget_merge_lit. unfold over. destruct (literal kvs k); reflexivity.
    - unfold vstep in *; rewrite V in *. rewrite v_ok_change in O. cbn in O. apply andb_true_iff in O. destruct O as [_ O].
      apply negb_true_iff in O.
      destruct (R_lmap s v m H) as [N E].
      refine (R_set s (v_check v (negb (v_given v m))) m _ _ (R_check _ _ _ H) O (mset_nodup _ _ _ N) _).
      intro x. rewrite mget_mset, E. unfold over, single. destruct (k =? x); reflexivity.
    - unfold vstep in *; rewrite V in *. rewrite v_ok_change in O. cbn in O. apply andb_true_iff in O. destruct O as [_ O].
      apply negb_true_iff in O.
      destruct (R_lmap s v m H) as [N E].
      refine (R_set s (v_check v (negb (v_given v m))) m _ _ (R_check _ _ _ H) O (mdel_nodup _ _ N) _).
      intro x. rewrite mget_mdel, E. reflexivity.
    - unfold vstep; rewrite V. pose proof (R_blank s v H) as B. constructor; try apply H.
      unfold add_ent, v_entry; cbn [l_ents v_ents]. apply Forall2_app.
      + eapply forall2_impl; [|apply (R_ents _ _ H)]. intros a b Hab. destruct Hab; constructor; assumption.
      + constructor; [|constructor]. destruct B; constructor; assumption.
    - unfold vstep in *; rewrite V in *. apply R_given_map; assumption.
    - unfold vstep; rewrite V. apply R_one, H.
    - unfold vstep; rewrite V. apply R_one, H.
    - unfold vstep in *; rewrite V in *. apply R_error; assumption.
    - unfold vstep; rewrite V. destruct H as [H1 H2 H3 H4 H5 H6]. constructor; try assumption; [cbn; congruence|reflexivity|].
      eapply forall2_impl; [|exact H6]. intros a b Hab. destruct Hab; constructor; assumption.
    - unfold vstep; rewrite V. apply R_log, H.
    - apply R_trace; assumption.
    - apply R_stop; assumption.
    - unfold vstep; rewrite V. pose proof (R_log s v 4 e msg now H) as [H1 H2 H3 H4 H5 H6]. constructor; try assumption; [reflexivity|].
      eapply forall2_impl; [|exact H6]. intros a b Hab. destruct Hab; constructor; assumption.
  Qed.

  Lemma v_ok_derive_map v e m : v_ok (fst (v_derive_map v e m)) = true -> v_ok v = true.
  Proof. cbn. intro H. apply andb_true_iff in H. apply H. Qed.

  Lemma v_ok_error v e err : v_ok (fst (v_error v e err)) = true -> v_ok v = true.
  Proof.
    destruct err as [r|]; [|auto]. unfold v_error. cbn [v_derive_one v_derive]. destruct (er_source r); destruct (er_fields r); cbn.
    all: try (intro H; apply andb_true_iff in H; apply H). all: auto.
  Qed.

  Lemma v_ok_step v o : v_ok (vstep v o) = true -> v_ok v = true.
  Proof.
    unfold vstep. destruct (v_over v); [auto|]. destruct o; cbn [fst v_derive_one v_derive v_add v_entry v_ok]; auto.
    - cbn. intro H. apply andb_true_iff in H. apply H.
    - cbn. intro H. apply andb_true_iff in H. apply H.
    - apply v_ok_derive_map.
    - apply v_ok_error.
    - rewrite v_ok_log; auto.
    - destruct (v_own _); cbn [fst v_entry v_add v_ok v_derive]; rewrite v_ok_log; auto.
    - destruct err as [r|]; [|rewrite v_ok_log; auto].
      destruct (v_error _ _ (Some r)) as [v2 e2] eqn:E. rewrite v_ok_log. intro H.
      assert (X : v_ok (fst (v_error (v_entry (v_add v (single "duration" (FInt (Z.quot (now - v_start (vent_of v e)) 1000000))) true)
             (mkVE (over (single "duration" (FInt (Z.quot (now - v_start (vent_of v e)) 1000000))) (v_flds (vent_of (v_add v (single "duration" (FInt (Z.quot (now - v_start (vent_of v e)) 1000000))) true) e))) None "" 0))
             (List.length (v_ents (v_add v (single "duration" (FInt (Z.quot (now - v_start (vent_of v e)) 1000000))) true))) (Some r))) = true)
        by (unfold v_entry, v_add in *; cbn [v_maps v_ents v_level v_out v_over v_ok] in *; rewrite E; exact H).
      apply v_ok_error in X. exact X.
    - cbn [v_ok]. rewrite v_ok_log; auto.
  Qed.

  Lemma v_ok_run l : forall v, v_ok (vrun v l) = true -> v_ok v = true.
  Proof.
    unfold vrun. induction l as [|o r IH]; intros v H; cbn [fold_left] in H; [exact H|]. apply (v_ok_step v o), IH, H.
  Qed.

  Lemma R_run l : forall s v, R s v -> v_ok (vrun v l) = true -> R (lrun room s l) (vrun v l).
  Proof.
    unfold lrun, vrun. induction l as [|o r IH]; intros s v H O; cbn [fold_left] in *; [exact H|].
    apply IH; [|exact O]. apply R_step; [exact H|]. apply (v_ok_run r), O.
  Qed.

  Lemma R_new level : R (l_new level) (v_new level).
  Proof. constructor; try reflexivity; try constructor. Qed.
End Refine.

(** ** What has been given to an entry stays *)

Section Stays.
  Variable room : nat -> nat.

  Definition ids (s : lst) (e : nat) : list nat := sl_list s (en_list (lent s e)).

  (** all slices are sound and the lists of the entries stay *)
  Definition stays (s s' : lst) : Prop :=
    slices_ok s' /\ (List.length (l_ents s) <= List.length (l_ents s'))%nat /\ arrs_ext s s' /\
    forall e, (e < List.length (l_ents s))%nat -> en_list (lent s' e) = en_list (lent s e).

  Lemma stays_ids s s' e : slices_ok s -> stays s s' -> (e < List.length (l_ents s))%nat -> ids s' e = ids s e.
  Proof.
    intros O [_ [_ [A K]]] He. unfold ids. rewrite (K e He).
    apply (arrs_ext_ok s s' _ A (lent_ok s e O)).
  Qed.

  Lemma stays_refl s : slices_ok s -> stays s s.
  Proof. intro H. split; [exact H|split; [lia|split; [apply arrs_ext_refl|reflexivity]]]. Qed.

  Lemma stays_trans a b c : stays a b -> stays b c -> stays a c.
  Proof.
    intros [A1 [A2 [A3 A4]]] [B1 [B2 [B3 B4]]]. split; [exact B1|split; [lia|split; [eapply arrs_ext_trans; eassumption|]]].
    intros e He. rewrite B4, A4 by lia. reflexivity.
  Qed.

  (** a change that adds entries with sound slices *)
  Lemma stays_add s s' es : slices_ok s -> arrs_ext s s' -> l_ents s' = (l_ents s ++ es)%list ->
    (forall e, In e es -> sl_ok s' (en_list e)) -> stays s s'.
  Proof.
    intros [H0 H] A E K. split; [split|split; [rewrite E, app_length; lia|split; [exact A|]]].
    - destruct A as [t ->]. rewrite app_length. lia.
    - intros e He. rewrite E in He. apply in_app_or in He. destruct He as [He|He]; [|apply K, He].
      apply (arrs_ext_ok s s' _ A (H e He)).
    - intros e He. unfold lent. rewrite E, app_nth1 by exact He. reflexivity.
  Qed.

  Lemma stays_with s e m : slices_ok s -> stays s (fst (with_fields room s e m)).
  Proof.
    intro H. destruct (with_fields_spec room s e m H) as [f2 [s2 [-> [K [L [A [E1 [E2 [E3 [E4 E5]]]]]]]]]].
    cbn [fst]. apply (stays_add s _ [mkEn None 0 "" 0 f2]); [exact H|exact A| |].
    - unfold add_ent; cbn [l_ents]. rewrite E2. reflexivity.
    - intros x [<-|[]]. exact K.
  Qed.

  Lemma stays_map s m : slices_ok s -> stays s (add_map s m).
  Proof.
    intro H. apply (stays_add s _ []); [exact H|exists []; symmetry; apply app_nil_r|symmetry; apply app_nil_r|intros x []].
  Qed.

  Lemma stays_field s e k v : slices_ok s -> stays s (fst (with_field room s e k v)).
  Proof.
    intro H. unfold with_field. pose proof (stays_map s [(k, v)] H) as X.
    eapply stays_trans; [exact X|apply stays_with, X].
  Qed.

  Lemma stays_error s e err : slices_ok s -> stays s (fst (with_error room s e err)).
  Proof.
    intro H. destruct err as [r|]; [|apply stays_refl, H]. unfold with_error.
    pose proof (stays_field s e "error" (FStr (er_text r)) H) as X1.
    destruct (with_field room s e "error" _) as [s1 e1]. cbn [fst] in X1.
    assert (X2 : stays s1 (fst match er_source r with Some p => with_field room s1 e1 "source" (FStr p) | None => (s1, e1) end)).
    { destruct (er_source r); [apply stays_field, X1|apply stays_refl, X1]. }
    destruct (match er_source r with Some p => _ | None => _ end) as [s2 e2]. cbn [fst] in X2.
    eapply stays_trans; [exact X1|]. eapply stays_trans; [exact X2|].
    destruct (er_fields r); [apply stays_with, X2|apply stays_refl, X2].
  Qed.

  Lemma stays_log s level e msg now : slices_ok s -> stays s (log s level e msg now).
  Proof.
    intro H. unfold log. destruct (_ <? _)%Z; [apply stays_refl, H|].
    eapply stays_add; [exact H|exists []; symmetry; apply app_nil_r|reflexivity|].
    intros x [<-|[]]. split; cbn [ls_arr ls_len en_list l_arrs]; [apply H|lia].
  Qed.

  Lemma stays_retouch s e msg start : slices_ok s -> stays s (retouch s e msg start).
  Proof.
    intro H.
    assert (X : forall i, en_list (lent (retouch s e msg start) i) = en_list (lent s i)).
    { intro i. unfold retouch, lent; cbn [l_ents]. rewrite nth_lput. destruct (_ && _) eqn:E; [|reflexivity].
      apply andb_true_iff in E. destruct E as [E _]. apply Nat.eqb_eq in E; subst i. reflexivity. }
    split; [split; [apply H|]|split; [unfold retouch; cbn [l_ents]; rewrite lput_len; lia|split; [exists []; symmetry; apply app_nil_r|intros i _; apply X]]].
    intros x Hx. destruct (In_nth _ _ nil_entry Hx) as [i [Hi <-]].
    change (nth i (l_ents (retouch s e msg start)) nil_entry) with (lent (retouch s e msg start) i). rewrite X.
    apply (lent_ok s i H).
  Qed.

  Lemma stays_same s s' : slices_ok s -> l_arrs s' = l_arrs s -> l_ents s' = l_ents s -> stays s s'.
  Proof.
    intros H A E. apply (stays_add s _ []); [exact H|exists []; rewrite A; symmetry; apply app_nil_r|rewrite E; symmetry; apply app_nil_r|intros x []].
  Qed.

  Lemma stays_step s o : slices_ok s -> stays s (lstep room s o).
  Proof.
    intro H. unfold lstep. destruct (l_over s); [apply stays_refl, H|]. destruct o.
    - apply stays_map, H.
    - apply stays_same; [exact H|reflexivity|reflexivity].
    - apply stays_same; [exact H|reflexivity|reflexivity].
    - eapply stays_add; [exact H|exists []; symmetry; apply app_nil_r|reflexivity|].
      intros x [<-|[]]. split; cbn [ls_arr ls_len en_list nil_entry]; [apply H|lia].
    - apply stays_with, H.
    - apply stays_field, H.
    - apply stays_field, H.
    - apply stays_error, H.
    - apply stays_same; [exact H|reflexivity|reflexivity].
    - apply stays_log, H.
    - unfold trace. pose proof (stays_log s 1 e msg now H) as X1.
      assert (X2 : stays (log s 1 e msg now) (fst match en_fields (lent s e) with
                   | Some m => (log s 1 e msg now, m)
                   | None => (add_map (log s 1 e msg now) [], List.length (l_maps (log s 1 e msg now))) end)).
      { destruct (en_fields _); [apply stays_refl, X1|apply stays_map, X1]. }
      destruct (match en_fields (lent s e) with Some m => _ | None => _ end) as [s2 m]. cbn [fst] in X2.
      pose proof (stays_with s2 e m (proj1 X2)) as X3. destruct (with_fields room s2 e m) as [s3 v]. cbn [fst] in *.
      eapply stays_trans; [exact X1|]. eapply stays_trans; [exact X2|]. eapply stays_trans; [exact X3|].
      apply (stays_retouch s3 v msg start), X3.
    - unfold stop, with_duration. match goal with |- context [with_field room s e ?k ?v] => pose proof (stays_field s e k v H) as X1; destruct (with_field room s e k v) as [s1 e1] end.
      cbn [fst] in X1. destruct err as [r|]; [|eapply stays_trans; [exact X1|apply stays_log, X1]].
      pose proof (stays_error s1 e1 (Some r) (proj1 X1)) as X2. destruct (with_error room s1 e1 (Some r)) as [s2 e2]. cbn [fst] in X2.
      eapply stays_trans; [exact X1|]. eapply stays_trans; [exact X2|apply stays_log, X2].
    - eapply stays_trans; [apply (stays_log s 4 e msg now), H|].
      apply stays_same; [apply (stays_log s 4 e msg now), H|reflexivity|reflexivity].
  Qed.

  Lemma stays_run l : forall s, slices_ok s -> stays s (lrun room s l).
  Proof.
    unfold lrun. induction l as [|o r IH]; intros s H; cbn [fold_left]; [apply stays_refl, H|].
    pose proof (stays_step s o H) as X. eapply stays_trans; [exact X|apply IH, X].
  Qed.

  Lemma slices_new level : slices_ok (l_new level).
  Proof. split; [cbn; lia|intros e []]. Qed.

  (** maps stay maps *)
  Definition maps_ok (s : lst) : Prop := Forall (fun m => NoDup (map fst m)) (l_maps s).

  Lemma lmap_ok s m : maps_ok s -> NoDup (map fst (lmap s m)).
  Proof.
    unfold maps_ok, lmap. intro H. destruct (nth_in_or_default m (l_maps s) []) as [Hi| ->]; [|constructor].
    rewrite Forall_forall in H. apply H, Hi.
  Qed.

  Lemma maps_ok_add s m : maps_ok s -> NoDup (map fst m) -> maps_ok (add_map s m).
  Proof. intros H N. apply Forall_app; split; [exact H|constructor; [exact N|constructor]]. Qed.

  Lemma maps_ok_with s e m : slices_ok s -> maps_ok s -> maps_ok (fst (with_fields room s e m)).
  Proof.
    intros O H. destruct (with_fields_spec room s e m O) as [f2 [s2 [-> [K [L [A [E1 _]]]]]]].
    cbn [fst]. unfold maps_ok, add_ent; cbn [l_maps]. rewrite E1. exact H.
  Qed.

  Lemma maps_ok_field s e k v : slices_ok s -> maps_ok s -> maps_ok (fst (with_field room s e k v)).
  Proof.
    intros O H. apply maps_ok_with; [apply stays_map, O|apply maps_ok_add; [exact H|repeat constructor; intros []]].
  Qed.

  Lemma maps_ok_error s e err : slices_ok s -> maps_ok s -> maps_ok (fst (with_error room s e err)).
  Proof.
    intros O H. destruct err as [r|]; [|exact H]. unfold with_error.
    pose proof (stays_field s e "error" (FStr (er_text r)) O) as O1.
    pose proof (maps_ok_field s e "error" (FStr (er_text r)) O H) as X1.
    destruct (with_field room s e "error" _) as [s1 e1]. cbn [fst] in X1, O1.
    assert (X2 : slices_ok (fst match er_source r with Some p => with_field room s1 e1 "source" (FStr p) | None => (s1, e1) end) /\
                 maps_ok (fst match er_source r with Some p => with_field room s1 e1 "source" (FStr p) | None => (s1, e1) end)).
    { destruct (er_source r); [split; [apply stays_field, O1|apply maps_ok_field; [apply O1|exact X1]]|split; [apply O1|exact X1]]. }
    destruct (match er_source r with Some p => _ | None => _ end) as [s2 e2]. cbn [fst] in X2. destruct X2 as [O2 X2].
    destruct (er_fields r); [apply maps_ok_with; assumption|exact X2].
  Qed.

  Lemma maps_ok_log s level e msg now : maps_ok s -> maps_ok (log s level e msg now).
  Proof.
    intro H. unfold log. destruct (_ <? _)%Z; [exact H|]. apply Forall_app; split; [exact H|].
    constructor; [apply merge_all_nodup; constructor|constructor].
  Qed.

  Lemma forall_lput {A} (P : A -> Prop) l i x : Forall P l -> P x -> Forall P (lput l i x).
  Proof. intros F H. revert i. induction F; intros [|i]; cbn [lput]; constructor; auto. Qed.

  Lemma maps_ok_step s o : slices_ok s -> maps_ok s -> maps_ok (lstep room s o).
  Proof.
    intros O H. unfold lstep. destruct (l_over s); [exact H|]. destruct o.
    - apply maps_ok_add; [exact H|apply merge_into_nodup; constructor].
    - apply forall_lput; [exact H|apply mset_nodup, lmap_ok, H].
    - apply forall_lput; [exact H|apply mdel_nodup, lmap_ok, H].
    - exact H.
    - apply maps_ok_with; assumption.
    - apply maps_ok_field; assumption.
    - apply maps_ok_field; assumption.
    - apply maps_ok_error; assumption.
    - exact H.
    - apply maps_ok_log, H.
    - unfold trace. pose proof (maps_ok_log s 1 e msg now H) as X1. pose proof (stays_log s 1 e msg now O) as O1.
      assert (X2 : slices_ok (fst match en_fields (lent s e) with
                   | Some m => (log s 1 e msg now, m)
                   | None => (add_map (log s 1 e msg now) [], List.length (l_maps (log s 1 e msg now))) end) /\
                   maps_ok (fst match en_fields (lent s e) with
                   | Some m => (log s 1 e msg now, m)
                   | None => (add_map (log s 1 e msg now) [], List.length (l_maps (log s 1 e msg now))) end)).
      { destruct (en_fields _); [split; [apply O1|exact X1]|split; [apply stays_map, O1|apply maps_ok_add; [exact X1|constructor]]]. }
      destruct (match en_fields (lent s e) with Some m => _ | None => _ end) as [s2 m]. cbn [fst] in X2. destruct X2 as [O2 X2].
      pose proof (maps_ok_with s2 e m O2 X2) as X3. destruct (with_fields room s2 e m) as [s3 v]. exact X3.
    - unfold stop, with_duration. match goal with |- context [with_field room s e ?k ?v] => pose proof (maps_ok_field s e k v O H) as X1; pose proof (stays_field s e k v O) as O1; destruct (with_field room s e k v) as [s1 e1] end.
      cbn [fst] in X1, O1. destruct err as [r|]; [|apply maps_ok_log, X1].
      pose proof (maps_ok_error s1 e1 (Some r) (proj1 O1) X1) as X2. destruct (with_error room s1 e1 (Some r)) as [s2 e2]. apply maps_ok_log, X2.
    - apply (maps_ok_log s 4 e msg now), H.
  Qed.

  Lemma maps_ok_run l : forall s, slices_ok s -> maps_ok s -> maps_ok (lrun room s l).
  Proof.
    unfold lrun. induction l as [|o r IH]; intros s O H; cbn [fold_left]; [exact H|].
    apply IH; [apply stays_step, O|apply maps_ok_step; assumption].
  Qed.
End Stays.

(** ** Names *)

Lemma slt_trans a b c : slt a b -> slt b c -> slt a c.
Proof.
  unfold slt. revert b c; induction a as [|x a IH]; intros [|y b] [|z c]; cbn [String.compare]; try congruence.
  intros H1 H2. unfold Ascii.compare in *.
  destruct (N.compare (N_of_ascii x) (N_of_ascii y)) eqn:E1; try congruence;
  destruct (N.compare (N_of_ascii y) (N_of_ascii z)) eqn:E2; try congruence.
  - apply N.compare_eq in E1, E2. rewrite E1, E2, N.compare_refl. eapply IH; eassumption.
  - apply N.compare_eq in E1. rewrite E1, E2. reflexivity.
  - apply N.compare_eq in E2. rewrite <- E2, E1. reflexivity.
  - rewrite N.compare_lt_iff in E1, E2. assert (E : (N_of_ascii x < N_of_ascii z)%N) by lia.
    apply N.compare_lt_iff in E. rewrite E. reflexivity.
Qed.

Lemma slt_irrefl a : ~ slt a a.
Proof.
  unfold slt. induction a as [|x a IH]; cbn [String.compare]; [congruence|].
  unfold Ascii.compare. rewrite N.compare_refl. exact IH.
Qed.

Lemma slt_total a b : a <> b -> String.leb a b = false -> slt b a.
Proof.
  unfold String.leb, slt. intros N H. rewrite String.compare_antisym. destruct (String.compare a b) eqn:E; try discriminate.
  reflexivity.
Qed.

Lemma slt_leb a b : a <> b -> String.leb a b = true -> slt a b.
Proof.
  unfold String.leb, slt. intros N H. destruct (String.compare a b) eqn:E; try discriminate; [|reflexivity].
  apply String.compare_eq_iff in E. contradiction.
Qed.

Lemma sinsert_in x l y : In y (sinsert x l) <-> y = x \/ In y l.
Proof.
  induction l as [|z r IH]; cbn [sinsert].
  - cbn. intuition congruence.
  - destruct (String.leb x z); cbn [In]; [intuition congruence|]. rewrite IH. intuition congruence.
Qed.

Lemma sinsert_inc x l : increasing l -> ~ In x l -> increasing (sinsert x l).
Proof.
  induction 1 as [|z r Hz Hr IH]; intro N; cbn [sinsert].
  - constructor; [intros y []|constructor].
  - destruct (String.leb x z) eqn:E.
    + assert (XZ : slt x z) by (apply slt_leb; [intro; subst; apply N; left; reflexivity|exact E]).
      constructor; [|constructor; assumption]. intros y [<-|Hy]; [exact XZ|]. eapply slt_trans; [exact XZ|apply Hz, Hy].
    + constructor.
      * intros y Hy. apply sinsert_in in Hy. destruct Hy as [->|Hy]; [|apply Hz, Hy].
        apply slt_total; [intro; subst; apply N; left; reflexivity|exact E].
      * apply IH. intro C; apply N; right; exact C.
Qed.

Lemma sort_in l x : In x (sort_strings l) <-> In x l.
Proof.
  unfold sort_strings. induction l as [|y r IH]; cbn [fold_right In]; [tauto|]. rewrite sinsert_in, IH. intuition congruence.
Qed.

Lemma sort_inc l : NoDup l -> increasing (sort_strings l).
Proof.
  unfold sort_strings. induction 1 as [|y r N H IH]; cbn [fold_right]; [constructor|].
  apply sinsert_inc; [exact IH|]. intro C. apply N. apply (sort_in r y). exact C.
Qed.

Lemma increasing_unique l : increasing l -> forall l', increasing l' -> (forall x, In x l <-> In x l') -> l = l'.
Proof.
  induction 1 as [|x r Hx Hr IH]; intros l' H' E.
  - destruct l' as [|y r']; [reflexivity|]. destruct (proj2 (E y)); left; reflexivity.
  - destruct H' as [|y r' Hy Hr']; [destruct (proj1 (E x)); left; reflexivity|].
    assert (x = y).
    { destruct (proj1 (E x) (or_introl eq_refl)) as [->|Hi]; [reflexivity|].
      destruct (proj2 (E y) (or_introl eq_refl)) as [->|Hj]; [reflexivity|].
      exfalso. apply (slt_irrefl x). eapply slt_trans; [apply Hx, Hj|apply Hy, Hi]. }
    subst y. f_equal. apply IH; [exact Hr'|]. intro z. split; intro Hz.
    + destruct (proj1 (E z) (or_intror Hz)) as [<-|Hi]; [|exact Hi]. exfalso; apply (slt_irrefl x), Hx, Hz.
    + destruct (proj2 (E z) (or_intror Hz)) as [<-|Hi]; [|exact Hi]. exfalso; apply (slt_irrefl x), Hy, Hz.
Qed.

Lemma sapp_assoc a b c : ((a ++ b) ++ c)%string = (a ++ b ++ c)%string.
Proof. induction a as [|x a IH]; cbn [String.append]; [reflexivity|rewrite IH; reflexivity]. Qed.

(** ** Levels *)

Lemma lower_same a b : (97 <= N_of_ascii a <= 122)%N -> lower_char b = a <-> same_letter a b.
Proof.
  intro Ha. unfold lower_char, same_letter. pose proof (N_ascii_bounded b) as Bb.
  destruct ((65 <=? N_of_ascii b)%N && (N_of_ascii b <=? 90)%N) eqn:E.
  - apply andb_true_iff in E. destruct E as [E1 E2]. apply N.leb_le in E1, E2. split.
    + intros <-. right. rewrite N_ascii_embedding in * by lia. lia.
    + intros [->|[_ H]]; [lia|]. rewrite H. replace (_ - 32 + 32)%N with (N_of_ascii a) by lia. apply ascii_N_embedding.
  - split; [intros ->; left; reflexivity|]. intros [->|[_ H]]; [reflexivity|].
    apply andb_false_iff in E. destruct E as [E|E]; apply N.leb_gt in E; lia.
Qed.

Fixpoint small_word (w : string) : bool :=
  match w with EmptyString => true | String c r => (97 <=? N_of_ascii c)%N && (N_of_ascii c <=? 122)%N && small_word r end.

Lemma lower_word w : small_word w = true -> forall s, lower_ascii s = w <-> same_word w s.
Proof.
  induction w as [|a w IH]; intros H s.
  - destruct s; cbn [lower_ascii]; split; intro K; try constructor; try congruence; inversion K.
  - cbn [small_word] in H. apply andb_true_iff in H. destruct H as [H1 H2].
    apply andb_true_iff in H1. destruct H1 as [H0 H1]. apply N.leb_le in H0, H1.
    destruct s as [|b s]; cbn [lower_ascii].
    + split; intro K; [congruence|inversion K].
    + split.
      * intro K. injection K as K1 K2. constructor; [apply lower_same; [lia|exact K1]|apply IH; assumption].
      * intro K. inversion K; subst. f_equal; [apply lower_same; [lia|assumption]|apply IH; assumption].
Qed.

Lemma assoc_in t s l : NoDup (map fst t) -> assoc t s = Some l <-> In (s, l) t.
Proof.
  induction t as [|[a v] r IH]; cbn [assoc map fst In]; intro H; [split; [discriminate|intros []]|].
  inversion H as [|? ? N H']; subst. destruct (a =? s) eqn:E.
  - apply String.eqb_eq in E; subst a. split; [intro K; injection K as ->; left; reflexivity|].
    intros [K|K]; [congruence|]. exfalso; apply N. apply in_map_iff. exists (s, l); auto.
  - apply String.eqb_neq in E. rewrite (IH H'). split; [right; assumption|]. intros [K|K]; [congruence|exact K].
Qed.

(** ** Lines *)

Section Lines.
  Variable calls : list (nat * list string).
  Hypothesis one : forall c, In c calls -> fst c = 0%nat.

  Record J (s : tx) (done : list nat) (part : list string) : Prop := {
    J_nodup : NoDup done;
    J_done : forall i, In i done <-> ended s i;
    J_out : t_out s = (List.concat (map (line calls) done) ++ part)%list;
    J_len : List.length (t_st s) = List.length calls;
    J_lock : (t_lock s = [false] /\ part = [] /\ forall i r, nth_error (t_st s) i <> Some (THold r)) \/
             (t_lock s = [true] /\ exists i left, nth_error (t_st s) i = Some (THold left) /\
                line calls i = (part ++ left)%list /\ forall j r, nth_error (t_st s) j = Some (THold r) -> j = i) }.

  Lemma J_step s i s' done part : J s done part -> tstep calls s i = Some s' -> exists done' part', J s' done' part'.
  Proof.
    intros H T. unfold tstep in T.
    destruct (nth_error calls i) as [[h ws]|] eqn:EC; [|discriminate].
    assert (Hh : h = 0%nat) by (apply (one (h, ws)), (nth_error_In _ _ EC)). subst h.
    assert (LN : line calls i = ws) by (unfold line; rewrite (nth_error_nth _ _ _ EC); reflexivity).
    assert (IL : (i < List.length (t_st s))%nat) by (rewrite (J_len _ _ _ H); apply nth_error_Some; congruence).
    destruct (nth_error (t_st s) i) as [[|left|]|] eqn:ES; try discriminate.
    - destruct (nth_error (t_lock s) 0) as [[|]|] eqn:EL; try discriminate. injection T as <-.
      destruct (J_lock _ _ _ H) as [[K1 [K2 K3]]|[K1 _]]; [|rewrite K1 in EL; discriminate].
      exists done, []. constructor; cbn [t_out t_st t_lock].
      + apply (J_nodup _ _ _ H).
      + intro j. rewrite (J_done _ _ _ H). unfold ended; cbn [t_st]. rewrite nth_error_lput.
        apply Nat.ltb_lt in IL. rewrite IL. destruct (j =? i)%nat eqn:E; cbn [andb]; [|reflexivity].
        apply Nat.eqb_eq in E; subst j. rewrite ES. split; discriminate.
      + rewrite (J_out _ _ _ H), K2. reflexivity.
      + rewrite lput_len. apply (J_len _ _ _ H).
      + right. rewrite K1. split; [reflexivity|]. exists i, ws. rewrite nth_error_lput, Nat.eqb_refl. apply Nat.ltb_lt in IL. rewrite IL.
        split; [reflexivity|split; [exact LN|]]. intros j r Hj. rewrite nth_error_lput, IL in Hj.
        destruct (j =? i)%nat eqn:E; [apply Nat.eqb_eq in E; exact E|]. cbn [andb] in Hj. exfalso; apply (K3 j r Hj).
    - destruct (J_lock _ _ _ H) as [[_ [_ K]]|[K1 [i' [l' [K2 [K3 K4]]]]]]; [exfalso; apply (K i left ES)|].
      assert (i = i') by (apply (K4 i left ES)). subst i'. rewrite ES in K2. injection K2 as <-.
      destruct left as [|w left].
      + injection T as <-. exists (done ++ [i])%list, []. constructor; cbn [t_out t_st t_lock].
        * apply nodup_snoc; [apply (J_nodup _ _ _ H)|]. rewrite (J_done _ _ _ H). unfold ended. rewrite ES. discriminate.
        * intro j. rewrite in_app_iff, (J_done _ _ _ H). unfold ended; cbn [t_st In]. rewrite nth_error_lput.
          apply Nat.ltb_lt in IL. rewrite IL. destruct (j =? i)%nat eqn:E; cbn [andb].
          -- apply Nat.eqb_eq in E; subst j. split; [reflexivity|auto].
          -- apply Nat.eqb_neq in E. split; [intros [X|[X|[]]]; [exact X|congruence]|auto].
        * rewrite (J_out _ _ _ H), map_app, concat_app. cbn [map List.concat]. rewrite K3, !app_nil_r. reflexivity.
        * rewrite lput_len. apply (J_len _ _ _ H).
        * left. rewrite K1. split; [reflexivity|split; [reflexivity|]]. intros j r Hj. rewrite nth_error_lput in Hj.
          apply Nat.ltb_lt in IL. rewrite IL in Hj. destruct (j =? i)%nat eqn:E; cbn [andb] in Hj; [discriminate|].
          apply Nat.eqb_neq in E. apply E, (K4 j r Hj).
      + injection T as <-. exists done, (part ++ [w])%list. constructor; cbn [t_out t_st t_lock].
        * apply (J_nodup _ _ _ H).
        * intro j. rewrite (J_done _ _ _ H). unfold ended; cbn [t_st]. rewrite nth_error_lput.
          apply Nat.ltb_lt in IL. rewrite IL. destruct (j =? i)%nat eqn:E; cbn [andb]; [|reflexivity].
          apply Nat.eqb_eq in E; subst j. rewrite ES. split; discriminate.
        * rewrite (J_out _ _ _ H), app_assoc. reflexivity.
        * rewrite lput_len. apply (J_len _ _ _ H).
        * right. split; [exact K1|]. exists i, left. rewrite nth_error_lput, Nat.eqb_refl. apply Nat.ltb_lt in IL. rewrite IL.
          split; [reflexivity|split; [rewrite K3, <- app_assoc; reflexivity|]]. intros j r Hj. rewrite nth_error_lput, IL in Hj.
          destruct (j =? i)%nat eqn:E; [apply Nat.eqb_eq in E; exact E|]. cbn [andb] in Hj. apply (K4 j r Hj).
  Qed.

  Lemma J_run sched : forall s s' done part, J s done part -> trun calls s sched = Some s' -> exists done' part', J s' done' part'.
  Proof.
    induction sched as [|i r IH]; intros s s' done part H T; cbn [trun] in T; [injection T as <-; eauto|].
    destruct (tstep calls s i) as [s1|] eqn:E; [|discriminate].
    destruct (J_step s i s1 done part H E) as [d [p H1]]. apply (IH s1 s' d p H1 T).
  Qed.

  Lemma wait_all i t : nth_error (map (fun _ : nat * list string => TWait) calls) i = Some t -> t = TWait.
  Proof. intro H. apply nth_error_In in H. apply in_map_iff in H. destruct H as [x [<- _]]. reflexivity. Qed.

  Lemma J_start : J (t_start calls 1) [] [].
  Proof.
    constructor; cbn [t_start t_out t_st t_lock repeat].
    - constructor.
    - intro i. split; [intros []|]. intro H. unfold ended in H. apply wait_all in H. discriminate.
    - reflexivity.
    - apply map_length.
    - left. split; [reflexivity|split; [reflexivity|]]. intros i r H. apply wait_all in H. discriminate.
  Qed.
End Lines.
