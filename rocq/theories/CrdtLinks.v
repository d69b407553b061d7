(** Lemmas about the links of a shared document. *)
From Verif Require Import Base PrimModel HeapModel HeapProofs CrdtModel CrdtSpec.

Lemma id_eqb_iff : forall a b, id_eqb a b = true <-> a = b.
Proof. intros [a1 a2] [b1 b2]. unfold id_eqb. cbn [fst snd]. rewrite andb_true_iff, !N.eqb_eq. split; [intros [-> ->]; reflexivity|intros E; inversion E; auto]. Qed.
Lemma id_eqb_refl : forall a, id_eqb a a = true. Proof. intros. now apply id_eqb_iff. Qed.
Lemma oid_eqb_iff : forall a b, oid_eqb a b = true <-> a = b.
Proof. intros [a|] [b|]; cbn [oid_eqb]; try rewrite id_eqb_iff; split; intros E; try congruence; try (now inversion E); auto. Qed.
Lemma ptr_eqb_iff : forall a b, ptr_eqb a b = true <-> a = b.
Proof. intros [a|] [b|]; cbn [ptr_eqb]; try rewrite Nat.eqb_eq; split; intros E; try congruence; try (now inversion E); auto. Qed.
Lemma mem_iff : forall x l, mem x l = true <-> In x l.
Proof. intros. unfold mem. rewrite existsb_exists. split; [intros (y & Y & E); apply id_eqb_iff in E; now subst|intros; exists x; split; [auto|apply id_eqb_refl]]. Qed.

Lemma nodup_app : forall {A} (a b : list A), NoDup (a ++ b) -> NoDup a /\ NoDup b.
Proof.
  intros A; induction a as [|x a IH]; intros b N; cbn [app] in N; [split; [constructor|auto]|]. inversion N; subst.
  destruct (IH _ H2). split; [constructor; [rewrite in_app_iff in H1; tauto|auto]|auto].
Qed.

Section Links.
  Context {V : Type}.
  Implicit Types (h : list (item V)) (d : doc V).

  Lemma upd_length : forall h a f, length (upd h a f) = length h.
  Proof. intros. unfold upd. destruct (nth_error h a); [apply set_nth_length|auto]. Qed.
  Lemma upd_nth : forall h a f b, nth_error (upd h a f) b = if (b =? a)%nat then option_map f (nth_error h a) else nth_error h b.
  Proof.
    intros. unfold upd. destruct (nth_error h a) as [x|] eqn:E.
    - rewrite nth_set_nth; [reflexivity|]. apply nth_error_Some. congruence.
    - destruct (b =? a)%nat eqn:F; [|auto]. apply Nat.eqb_eq in F. subst. now rewrite E.
  Qed.
  Lemma upd_same : forall h a f x, nth_error h a = Some x -> nth_error (upd h a f) a = Some (f x).
  Proof. intros. rewrite upd_nth, Nat.eqb_refl, H. reflexivity. Qed.
  Lemma upd_other : forall h a f b, b <> a -> nth_error (upd h a f) b = nth_error h b.
  Proof. intros. rewrite upd_nth. destruct (b =? a)%nat eqn:F; [apply Nat.eqb_eq in F; contradiction|auto]. Qed.

  Lemma seg_app : forall h l1 l2 p c q e, seg h p c (l1 ++ l2) q e <-> exists q' e', seg h p c l1 q' e' /\ seg h q' e' l2 q e.
  Proof.
    intros h; induction l1 as [|a l1 IH]; intros l2 p c q e; cbn [app seg].
    - split; [intros S; exists p, c; auto|intros (q' & e' & (<- & <-) & S); auto].
    - split.
      + intros (C & x & X & L & S). apply IH in S. destruct S as (q' & e' & S1 & S2). exists q', e'. split; [split; [auto|exists x; auto]|auto].
      + intros (q' & e' & (C & x & X & L & S1) & S2). split; [auto|]. exists x. split; [auto|]. split; [auto|]. apply IH. eauto.
  Qed.
  Lemma seg_frame : forall h h' l p c q e, (forall a, In a l -> nth_error h' a = nth_error h a) -> seg h p c l q e -> seg h' p c l q e.
  Proof.
    intros h h'; induction l as [|a l IH]; intros p c q e F S; cbn [seg] in *; [auto|].
    destruct S as (C & x & X & L & S). split; [auto|]. exists x. rewrite F by now left. split; [auto|]. split; [auto|]. apply IH; [intros; apply F; now right|auto].
  Qed.
  Lemma seg_alloc : forall h l p c q e, seg h p c l q e -> forall a, In a l -> (a < length h)%nat.
  Proof.
    intros h; induction l as [|a l IH]; intros p c q e S b I; [destruct I|]. destruct S as (C & x & X & L & S).
    destruct I as [<-|I]; [apply nth_error_Some; congruence|eauto].
  Qed.
  Lemma seg_last : forall h l p c q e, seg h p c l q e -> q = match rev l with [] => p | a :: _ => Some a end.
  Proof.
    intros h; induction l as [|a l IH]; intros p c q e S; cbn [seg rev] in *; [destruct S; auto|].
    destruct S as (C & x & X & L & S). apply IH in S. destruct (rev l); cbn [app] in *; auto.
  Qed.
  Lemma seg_snoc : forall h l a p c q e, seg h p c (l ++ [a]) q e <-> exists q' x, seg h p c l q' (Some a) /\ nth_error h a = Some x /\ it_left x = q' /\ q = Some a /\ it_right x = e.
  Proof.
    intros. rewrite seg_app. cbn [seg]. split.
    - intros (q' & e' & S & (E & x & X & L & (Q & R))). subst. exists (it_left x), x. repeat (split; [auto|]). auto.
    - intros (q' & x & S & X & L & Q & R). exists q', (Some a). split; [auto|]. split; [auto|]. exists x. auto.
  Qed.
  Lemma seg_upd_notin : forall h a f l p c q e, ~ In a l -> seg h p c l q e -> seg (upd h a f) p c l q e.
  Proof. intros. eapply seg_frame; [|eauto]. intros. apply upd_other. congruence. Qed.
  Lemma seg_grow : forall h x l p c q e, seg h p c l q e -> seg (h ++ [x]) p c l q e.
  Proof. intros. eapply seg_frame; [|eauto]. intros. apply nth_error_app1. eapply seg_alloc; eauto. Qed.

  (** changing the links around a gap *)
  Lemma seg_reright : forall h l a p c q e n, NoDup (l ++ [a]) -> seg h p c (l ++ [a]) q e -> seg (upd h a (with_right n)) p c (l ++ [a]) q n.
  Proof.
    intros h l a p c q e n N S. apply seg_snoc in S. destruct S as (q' & x & S & X & L & Q & R). apply seg_snoc. exists q', (with_right n x).
    split; [apply seg_upd_notin; [|auto]|].
    - apply NoDup_remove_2 in N. now rewrite app_nil_r in N.
    - split; [now apply upd_same|]. auto.
  Qed.
  Lemma seg_releft : forall h l a p q e n, NoDup (a :: l) -> seg h p (Some a) (a :: l) q e -> seg (upd h a (with_left n)) n (Some a) (a :: l) q e.
  Proof.
    intros h l a p q e n N S. inversion N; subst. destruct S as (C & x & X & L & S). split; [auto|]. exists (with_left n x). split; [now apply upd_same|]. split; [reflexivity|].
    cbn [with_left with_links it_right]. now apply seg_upd_notin.
  Qed.

  Definition last_of (l : list nat) : option nat := match rev l with [] => None | a :: _ => Some a end.
  Definition first_of (l : list nat) : option nat := match l with [] => None | a :: _ => Some a end.
  Lemma seg_first : forall h l p c q, seg h p c l q None -> c = first_of l.
  Proof. intros h [|a l] p c q S; destruct S as [? S]; auto. Qed.
  Lemma last_of_snoc : forall l a, last_of (l ++ [a]) = Some a.
  Proof. intros. unfold last_of. now rewrite rev_app_distr. Qed.

  (** the links around a cut *)
  Lemma linked_cut : forall h c pre post q, seg h None c (pre ++ post) q None ->
    seg h None c pre (last_of pre) (first_of post) /\ seg h (last_of pre) (first_of post) post q None.
  Proof.
    intros h c pre post q S. apply seg_app in S. destruct S as (q' & e' & S1 & S2). pose proof (seg_last _ _ _ _ _ _ S1) as E. pose proof (seg_first _ _ _ _ _ S2) as F.
    unfold last_of. destruct (rev pre); subst; auto.
  Qed.

  (** putting an item, already in the heap but not in the list, between [pre] and [post] *)
  Definition spliced (h : list (item V)) (i : nat) (pre post : list nat) : list (item V) :=
    let h1 := upd h i (with_links (last_of pre) (first_of post)) in
    let h2 := match last_of pre with Some l => upd h1 l (with_right (Some i)) | None => h1 end in
    match first_of post with Some r => upd h2 r (with_left (Some i)) | None => h2 end.

  Lemma spliced_seg : forall h i c pre post q x, seg h None c (pre ++ post) q None -> NoDup (pre ++ i :: post) -> nth_error h i = Some x ->
    exists q', seg (spliced h i pre post) None (match pre with [] => Some i | _ => c end) (pre ++ i :: post) q' None.
  Proof.
    intros h i c pre post q x S N X. destruct (linked_cut _ _ _ _ _ S) as (S1 & S2).
    assert (Ni : ~ In i (pre ++ post)) by (now apply NoDup_remove_2 in N).
    assert (Nd : NoDup (pre ++ post)) by (now apply NoDup_remove_1 in N).
    set (h1 := upd h i (with_links (last_of pre) (first_of post))).
    assert (X1 : nth_error h1 i = Some (with_links (last_of pre) (first_of post) x)) by now apply upd_same.
    assert (S1' : seg h1 None c pre (last_of pre) (first_of post)) by (apply seg_upd_notin; [rewrite in_app_iff in Ni; tauto|auto]).
    assert (S2' : seg h1 (last_of pre) (first_of post) post q None) by (apply seg_upd_notin; [rewrite in_app_iff in Ni; tauto|auto]).
    set (h2 := match last_of pre with Some l => upd h1 l (with_right (Some i)) | None => h1 end).
    assert (A : seg h2 None (match pre with [] => Some i | _ => c end) pre (last_of pre) (Some i) /\ seg h2 (last_of pre) (first_of post) post q None
                /\ nth_error h2 i = Some (with_links (last_of pre) (first_of post) x)).
    { destruct pre as [|a pre] using rev_ind; [subst h2; cbn [last_of rev app seg]; auto|]. clear IHpre. subst h2. rewrite last_of_snoc in *.
      split; [|split].
      - replace (match pre ++ [a] with [] => Some i | _ :: _ => c end) with c by (destruct pre; reflexivity).
        eapply seg_reright; [|eauto]. exact (proj1 (nodup_app _ _ Nd)).
      - apply seg_upd_notin; [|auto]. intros I. rewrite <- app_assoc in Nd. apply NoDup_remove_2 in Nd. apply Nd. apply in_or_app. now right.
      - rewrite upd_other; [auto|]. intros ->. apply Ni. rewrite !in_app_iff. left. right. now left. }
    destruct A as (A1 & A2 & A3). unfold spliced. fold h1. fold h2.
    destruct post as [|r post]; cbn [first_of] in *.
    - eexists. rewrite seg_snoc. exists (last_of pre). eexists. split; [exact A1|]. split; [exact A3|]. auto.
    - exists q. rewrite seg_app. exists (last_of pre), (Some i).
      assert (Nr : NoDup (r :: post)) by (exact (proj2 (nodup_app _ _ Nd))).
      split; [apply seg_upd_notin; [|auto]|].
      + intros I. apply NoDup_remove_2 in Nd. apply Nd. apply in_or_app. now left.
      + cbn [seg]. split; [auto|]. eexists. rewrite upd_other; [|intros ->; apply Ni; apply in_or_app; right; now left]. split; [exact A3|]. split; [reflexivity|].
        cbn [with_links it_right]. apply (seg_releft h2 post r (last_of pre) q None (Some i) Nr A2).
  Qed.
  Lemma entry_links : forall l r (x : item V), entry_of (with_links l r x) = entry_of x. Proof. reflexivity. Qed.
  Lemma upd_entry : forall h a f, (forall x, entry_of (f x) = entry_of x) -> forall b, option_map entry_of (nth_error (upd h a f) b) = option_map entry_of (nth_error h b).
  Proof.
    intros h a f E b. rewrite upd_nth. destruct (b =? a)%nat eqn:F; [|auto]. apply Nat.eqb_eq in F. subst. destruct (nth_error h a); cbn [option_map]; [now rewrite E|auto].
  Qed.
  Lemma spliced_length : forall h i pre post, length (spliced h i pre post) = length h.
  Proof. intros. unfold spliced. destruct (last_of pre), (first_of post); rewrite ?upd_length; auto. Qed.
  Lemma spliced_entry : forall h i pre post b, option_map entry_of (nth_error (spliced h i pre post) b) = option_map entry_of (nth_error h b).
  Proof. intros. unfold spliced. destruct (last_of pre), (first_of post); rewrite ?upd_entry by reflexivity; auto. Qed.

  (** the joining step is such a splice *)
  Lemma join_spliced : forall d i pre post q x, seg (d_heap d) None (d_start d) (pre ++ post) q None -> ~ In i (pre ++ post) -> nth_error (d_heap d) i = Some x ->
    join_after d i (last_of pre) = Ok (mkDoc (d_producer d) (d_clock d) (match pre with [] => Some i | _ => d_start d end) (spliced (d_heap d) i pre post)).
  Proof.
    intros d i pre post q x S Ni X. destruct (linked_cut _ _ _ _ _ S) as (S1 & S2). unfold join_after, spliced.
    destruct pre as [|a pre] using rev_ind.
    - cbn [last_of rev]. destruct S1 as (_ & ->). reflexivity.
    - clear IHpre. rewrite last_of_snoc in *. apply seg_snoc in S1. destruct S1 as (q' & y & S1 & Y & L & Q & R). unfold deref. rewrite Y. cbn [bind]. rewrite R.
      replace (match pre ++ [a] with [] => Some i | _ :: _ => d_start d end) with (d_start d) by (destruct pre; reflexivity). reflexivity.
  Qed.
End Links.
