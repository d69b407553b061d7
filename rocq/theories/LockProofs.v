(** Proofs about locks. *)
From Verif Require Import Base LockModel LockSpec.

Definition held : Type := list (lk * bool).

(** Code that takes locks in increasing order and gives them back in the opposite order, from the
    locks held before to the locks held afterwards.  Code others wait for ([hi]) does not take the
    locks that those who wait may hold. *)
Definition above (l : lk) (h : held) : Prop := forall x, In x h -> (lk_num (fst x) < lk_num l)%nat.
Definition low (h : held) : Prop := forall x, In x h -> (lk_num (fst x) <= 1)%nat.
Definition allowed (hi : bool) (l : lk) : Prop := hi = true -> (2 <= lk_num l)%nat.

Inductive path : bool -> held -> list lop -> held -> Prop :=
| p_nil hi h : path hi h [] h
| p_acq hi l h r h' : above l h -> allowed hi l -> path hi ((l, true) :: h) r h' -> path hi h (OAcq l :: r) h'
| p_want hi l h r h' : above l h -> allowed hi l -> path hi ((l, true) :: h) r h' -> path hi h (OWant l :: r) h'
| p_racq hi l h r h' : above l h -> allowed hi l -> path hi ((l, false) :: h) r h' -> path hi h (ORAcq l :: r) h'
| p_rel hi l h r h' : path hi h r h' -> path hi ((l, true) :: h) (ORel l :: r) h'
| p_rrel hi l h r h' : path hi h r h' -> path hi ((l, false) :: h) (ORRel l :: r) h'
| p_push hi d h r h' : path hi h r h' -> path hi h (OPush d :: r) h'
| p_go hi p h r h' : path false [] p [] -> path hi h r h' -> path hi h (OGo p :: r) h'
| p_call hi p h r h' : path true [] p [] -> low h -> path hi h r h' -> path hi h (OCall p :: r) h'.

Lemma path_weaken hi h c h' : path hi h c h' -> path false h c h'.
Proof. induction 1; constructor; try assumption; intro; discriminate. Qed.

Lemma path_app hi h a h1 b h2 : path hi h a h1 -> path hi h1 b h2 -> path hi h (a ++ b) h2.
Proof. induction 1; intro B; cbn [app]; [exact B|constructor; auto..]. Qed.

Lemma path_lock hi l h c : above l h -> allowed hi l -> path hi ((l, true) :: h) c ((l, true) :: h) -> path hi h (lock_ l c) h.
Proof. intros A L P. constructor; [exact A|exact L|]. eapply path_app; [exact P|repeat constructor]. Qed.

Lemma path_rlock hi l h c : above l h -> allowed hi l -> path hi ((l, false) :: h) c ((l, false) :: h) -> path hi h (rlock l c) h.
Proof. intros A L P. constructor; [exact A|exact L|]. eapply path_app; [exact P|repeat constructor]. Qed.

Lemma path_push hi d n h : path hi h (repeat (OPush d) n) h.
Proof. induction n; cbn [repeat]; constructor; assumption. Qed.

Lemma path_flat {A} hi (f : A -> list lop) l h : (forall x, In x l -> path hi h (f x) h) -> path hi h (flat_map f l) h.
Proof.
  induction l as [|x r IH]; cbn [flat_map]; intro H; [constructor|].
  eapply path_app; [apply H; left; reflexivity|apply IH; intros y Hy; apply H; right; exact Hy].
Qed.

Lemma path_end hi h h' : path hi h [] h' -> h = h'.
Proof. inversion 1. reflexivity. Qed.

Ltac ok := first [intro; cbn; lia | intro; discriminate | cbn; lia].

(** what is held in the places *)
Definition fits (p : place) (h : held) : Prop :=
  match p with
  | Alone => h = []
  | InTree => forall x, In x h -> (lk_num (fst x) <= 0)%nat
  | InUpdate => forall x, In x h -> (lk_num (fst x) <= 1)%nat
  | InCallback => forall x, In x h -> (lk_num (fst x) <= 3)%nat
  end.

Lemma fits_above p h l : fits p h -> (3 < lk_num l)%nat -> above l h.
Proof. destruct p; cbn [fits]; intros F L x Hx; [subst h; destruct Hx|specialize (F x Hx); lia..]. Qed.

Lemma fits_above_low p h l : p <> InCallback -> fits p h -> (1 < lk_num l)%nat -> above l h.
Proof. destruct p; cbn [fits]; intros N F L x Hx; [subst h; destruct Hx|specialize (F x Hx); lia|specialize (F x Hx); lia|congruence]. Qed.

Lemma above_cons l x h : above l h -> (lk_num (fst x) < lk_num l)%nat -> above l (x :: h).
Proof. intros A L y [<-|Hy]; [exact L|apply A, Hy]. Qed.

Section Ind.
  Variable P : call -> Prop.
  Definition parts (c : call) : Prop := match c with
    | KResult _ cbs => Forall (Forall P) cbs
    | KInterest _ l | KTreeInterest _ _ l | KTreeAttach _ _ l | KTreeDetach _ _ l | KRLock _ l | KMove _ l | KSvInterest _ _ l
    | KFetch _ _ l | KGo l => Forall P l
    | _ => True
    end.
  Hypothesis Hflat : forall c, parts c -> P c.

  Fixpoint call_ind2 (c : call) : P c :=
    let all := fix all (l : list call) : Forall P l :=
      match l with [] => Forall_nil _ | x :: r => Forall_cons _ (call_ind2 x) (all r) end in
    Hflat c match c as c0 return parts c0 with
    | KResult _ cbs => (fix all2 (l : list (list call)) : Forall (Forall P) l :=
        match l with [] => Forall_nil _ | x :: r => Forall_cons _ (all x) (all2 r) end) cbs
    | KInterest _ l | KTreeInterest _ _ l | KTreeAttach _ _ l | KTreeDetach _ _ l | KRLock _ l | KMove _ l | KSvInterest _ _ l
    | KFetch _ _ l | KGo l => all l
    | _ => Logic.I
    end.
End Ind.

Lemma path_nil_lock hi l h : above l h -> allowed hi l -> path hi h (lock_ l []) h.
Proof. intros A L. apply path_lock; [exact A|exact L|constructor]. Qed.

Lemma path_express hi e h : above (LPit e) h -> path hi h (express_ops e) h.
Proof.
  intro A. unfold express_ops. eapply path_app.
  - apply path_lock; [exact A|ok|]. apply path_nil_lock; [|ok]. apply above_cons; [|cbn; lia].
    intros x Hx. specialize (A x Hx). cbn in *; lia.
  - apply path_nil_lock; [|ok]. intros x Hx. specialize (A x Hx). cbn in *; lia.
Qed.

Lemma path_need hi s e h : above (LPit e) h -> path hi h (need_ops s e) h.
Proof.
  intro A. unfold need_ops. eapply path_app; [|apply path_express, A].
  apply path_rlock; [|ok|constructor]. intros x Hx. specialize (A x Hx). cbn in *; lia.
Qed.

Lemma path_sv y e h : above (LSvs y) h -> path false h (lock_ (LSvs y) [OGo (sv_send_ops y e)]) h.
Proof.
  intro A. apply path_lock; [exact A|ok|]. constructor; [|constructor]. unfold sv_send_ops.
  eapply path_app; [apply path_nil_lock; [intros x []|ok]|apply path_express; intros x []].
Qed.

Lemma fits_sv y p h : match p with Alone | InTree => true | _ => false end = true -> fits p h -> above (LSvs y) h.
Proof.
  destruct p; try discriminate; cbn [fits]; intros _ F x Hx; [subst h; destruct Hx|specialize (F x Hx); cbn; lia].
Qed.

Lemma fits_low p h : p <> InCallback -> fits p h -> low h.
Proof.
  destruct p; cbn [fits]; intros N F x Hx; [subst h; destruct Hx|specialize (F x Hx); lia|specialize (F x Hx); lia|congruence].
Qed.

Definition hi_of (p : place) : bool := match p with Alone | InTree => false | _ => true end.

Lemma path_result e : path true [] (lock_ (LPit e) (lock_ (LTimer e) [])) [].
Proof.
  apply path_lock; [intros x []|ok|]. apply path_nil_lock; [|ok]. intros x [<-|[]]. cbn; lia.
Qed.

Lemma rules_path c : forall p h, rules p c = true -> fits p h -> path (hi_of p) h (ops c) h.
Proof.
  assert (FA : forall hi p h l, fits p h -> (3 < lk_num l)%nat -> path hi h (lock_ l []) h).
  { intros hi p h l F L. apply path_nil_lock; [apply (fits_above p h l F L)|intro; lia]. }
  assert (UP : forall p h c, path (hi_of p) h c h -> path false h c h).
  { intros p h c0 P. apply (path_weaken (hi_of p)), P. }
  induction c as [c IH] using call_ind2; intros p h R F.
  assert (FL : forall l q h', Forall (fun c => forall p h, rules p c = true -> fits p h -> path (hi_of p) h (ops c) h) l ->
               forallb (rules q) l = true -> fits q h' -> path (hi_of q) h' (flat_map ops l) h').
  { intros l q h' HF HR HFit. apply path_flat. intros x Hx. rewrite Forall_forall in HF. rewrite forallb_forall in HR.
    apply (HF x Hx q); [apply HR, Hx|exact HFit]. }
  assert (AD : forall d, p <> InCallback -> above (LData d) h) by (intros d N; apply (fits_above_low p); [exact N|exact F|cbn; lia]).
  assert (AP : forall e, p <> InCallback -> above (LPit e) h) by (intros e N; apply (fits_above_low p); [exact N|exact F|cbn; lia]).
  assert (B : forall d, p <> InCallback -> forall l, (2 < lk_num l)%nat -> above l ((LData d, true) :: h)).
  { intros d N l L x [<-|Hx]; [cbn; lia|]. specialize (AD d N x Hx). cbn in AD; lia. }
  destruct c; cbn [rules] in R; cbn [ops]; cbn [parts] in IH.
  - apply path_express, AP. destruct p; congruence.
  - apply (FA _ p); [exact F|cbn; lia].
  - apply (FA _ p); [exact F|cbn; lia].
  - apply (FA _ p); [exact F|cbn; lia].
  - assert (A : above (LPit e) h) by (apply AP; destruct p; congruence).
    assert (R' : forallb (forallb (rules InCallback)) cbs = true) by (destruct p; congruence).
    apply path_lock; [exact A|ok|]. apply path_flat. intros cb Hcb.
    assert (FI : fits InCallback ((LPit e, true) :: h)).
    { intros x [<-|Hx]; [cbn; lia|]. specialize (A x Hx). cbn in *; lia. }
    eapply path_app; [apply (FA _ InCallback); [exact FI|cbn; lia]|].
    rewrite Forall_forall in IH. rewrite forallb_forall in R'.
    assert (Q : path true ((LPit e, true) :: h) (flat_map ops cb) ((LPit e, true) :: h)).
    { apply (FL cb InCallback); [apply IH, Hcb|apply R', Hcb|exact FI]. }
    destruct (hi_of p); [exact Q|apply path_weaken in Q; exact Q].
  - eapply path_app; [apply (FA _ p); [exact F|cbn; lia]|]. apply (FL h0 p); [exact IH|destruct p; congruence|exact F].
  - destruct p; try congruence. cbn [fits] in F; subst h. eapply path_app; [apply (FA _ Alone); [reflexivity|cbn; lia]|].
    apply path_rlock; [intros x []|ok|]. apply (FL h0 InTree); [exact IH|exact R|]. intros x [<-|[]]; cbn; lia.
  - destruct p; try congruence. cbn [fits] in F; subst h. apply path_lock; [intros x []|ok|].
    eapply path_app; [apply (FL ls InTree); [exact IH|exact R|intros x [<-|[]]; cbn; lia]|].
    apply path_nil_lock; [|ok]. intros x [<-|[]]; cbn; lia.
  - destruct p; try congruence. cbn [fits] in F; subst h. apply path_lock; [intros x []|ok|].
    eapply path_app; [apply path_nil_lock; [intros x [<-|[]]; cbn; lia|ok]|].
    apply (FL ls InTree); [exact IH|exact R|intros x [<-|[]]; cbn; lia].
  - destruct p; try congruence. cbn [fits] in F; subst h. apply path_nil_lock; [intros x []|ok].
  - destruct p; try congruence. cbn [fits] in F; subst h. apply path_rlock; [intros x []|ok|].
    apply (FL c InTree); [exact IH|exact R|intros x [<-|[]]; cbn; lia].
  - apply path_rlock; [apply (fits_above p); [exact F|cbn; lia]|ok|constructor].
  - apply (FA _ p); [exact F|cbn; lia].
  - assert (N : p <> InCallback) by (destruct p; congruence). specialize (fun d => B d N).
    apply path_lock; [exact (AD _ N)|ok|]. eapply path_app; [apply path_push|].
    eapply path_app; apply path_nil_lock; solve [apply B; cbn; lia | ok].
  - assert (N : p <> InCallback) by (destruct p; congruence). specialize (fun d => B d N).
    apply path_lock; [exact (AD _ N)|ok|]. eapply path_app; [apply path_need, B; cbn; lia|].
    eapply path_app; apply path_nil_lock; solve [apply B; cbn; lia | ok].
  - assert (N : p <> InCallback) by (destruct p; congruence). specialize (fun d => B d N).
    apply path_lock; [exact (AD _ N)|ok|].
    eapply path_app; [apply path_nil_lock; [apply B; cbn; lia|ok]|apply path_need, B; cbn; lia].
  - assert (N : p <> InCallback) by (destruct p; congruence). specialize (fun d => B d N).
    apply path_lock; [exact (AD _ N)|ok|]. apply path_nil_lock; [apply B; cbn; lia|ok].
  - assert (N : p <> InCallback) by (destruct p; congruence). specialize (fun d => B d N).
    apply path_lock; [exact (AD _ N)|ok|]. apply path_nil_lock; [apply B; cbn; lia|ok].
  - destruct p; try discriminate; apply path_sv; eapply fits_sv; try exact F; reflexivity.
  - destruct p; try discriminate; (apply path_nil_lock; [eapply fits_sv; [|exact F]; reflexivity|ok]).
  - destruct p; try discriminate; apply path_sv; eapply fits_sv; try exact F; reflexivity.
  - eapply path_app; [apply (FA _ p); [exact F|cbn; lia]|]. constructor; [|constructor].
    apply path_lock; [intros x []|ok|].
    assert (Q : path true [(LSvs y, true)] (flat_map ops ups) [(LSvs y, true)]).
    { apply (FL ups InUpdate); [exact IH|destruct p; congruence|]. intros x [<-|[]]; cbn; lia. }
    apply path_weaken in Q. exact Q.
  - assert (N : p <> InCallback) by (destruct p; congruence).
    eapply path_app; [apply path_express, AP, N|]. constructor; [apply path_result|apply (fits_low p); assumption|constructor].
  - assert (N : p <> InCallback) by (destruct p; congruence).
    eapply path_app; [apply path_need, AP, N|]. constructor; [|apply (fits_low p); assumption|constructor].
    eapply path_app; [apply path_result|].
    eapply path_app; [apply (FL v InUpdate); [exact IH|destruct p; congruence|intros x []]|].
    apply path_nil_lock; [intros x []|ok].
  - eapply path_app; [apply (FA _ p); [exact F|cbn; lia]|].
    eapply path_app; [apply (FL fs p); [exact IH|destruct p; congruence|exact F]|apply (FA _ p); [exact F|cbn; lia]].
  - discriminate.
  - constructor; [|constructor]. apply (FL c Alone); [exact IH|exact R|reflexivity].
Qed.

Lemma program_path l : forallb (rules Alone) l = true -> path false [] (program l) [].
Proof.
  intro H. apply path_flat. intros x Hx. rewrite forallb_forall in H. apply (rules_path x Alone); [apply H, Hx|reflexivity].
Qed.

(** ** Steps *)

Definition gpath (hi : bool) (g : gr) : Prop :=
  match g_code g with
  | OJoin _ :: r => low (g_held g) /\ path hi (g_held g) r []
  | c => path hi (g_held g) c []
  end.

(** every goroutine goes a path; whoever is waited for is one of the later ones, and high *)
Definition fine (s : lst) : Prop :=
  (forall i g, nth_error (l_gs s) i = Some g -> gpath false g) /\
  (forall i g j r, nth_error (l_gs s) i = Some g -> g_code g = OJoin j :: r ->
     (i < j)%nat /\ exists g', nth_error (l_gs s) j = Some g' /\ gpath true g').

Lemma in_gput l i g x : In x (gput l i g) -> x = g \/ In x l.
Proof.
  revert i; induction l as [|y r IH]; intros [|i]; cbn [gput]; intro H; try destruct H as [H|H]; try (destruct H; fail).
  - left; symmetry; exact H.
  - right; right; assumption.
  - subst; right; left; reflexivity.
  - destruct (IH _ H) as [->|K]; [left; reflexivity|right; right; exact K].
Qed.

Lemma lk_eqb_eq a b : lk_eqb a b = true <-> a = b.
Proof. unfold lk_eqb. rewrite andb_true_iff, !Nat.eqb_eq. destruct a, b; cbn; split; try (intros [? ?]; congruence); intro H; split; congruence. Qed.

Lemma lk_eqb_refl l : lk_eqb l l = true.
Proof. apply lk_eqb_eq. reflexivity. Qed.

Lemma path_gpath hi h c : path hi h c [] -> gpath hi (mkG h c).
Proof. intro P. unfold gpath; cbn [g_code g_held]. destruct c as [|[] r]; try exact P. inversion P. Qed.

Lemma gpath_weaken hi g : gpath hi g -> gpath false g.
Proof.
  unfold gpath. destruct (g_code g) as [|[] r]; try apply path_weaken. intros [A B]. split; [exact A|]. apply (path_weaken hi), B.
Qed.

(** what a step of goroutine [i] does *)
Lemma gstep_inv cap s i s' : gstep cap s i = Some s' ->
  exists g g' ext, nth_error (l_gs s) i = Some g /\ l_gs s' = gput (l_gs s) i g' ++ ext
    /\ (forall hi, gpath hi g -> gpath hi g')
    /\ (forall hi, gpath hi g -> ext = [] \/ exists p, ext = [mkG [] p] /\ path false [] p [])
    /\ (forall hi j r, gpath hi g -> g_code g' = OJoin j :: r -> j = List.length (l_gs s) /\ exists p, ext = [mkG [] p] /\ path true [] p []).
Proof.
  unfold gstep. destruct (nth_error (l_gs s) i) as [g|] eqn:E; [|discriminate]. intro H.
  assert (ONE : forall h c, l_gs s' = gput (l_gs s) i (mkG h c) -> (forall hi, gpath hi g -> path hi h c []) ->
    exists g0 g' ext, Some g = Some g0 /\ l_gs s' = gput (l_gs s) i g' ++ ext
    /\ (forall hi, gpath hi g0 -> gpath hi g')
    /\ (forall hi, gpath hi g0 -> ext = [] \/ exists p, ext = [mkG [] p] /\ path false [] p [])
    /\ (forall hi j r, gpath hi g0 -> g_code g' = OJoin j :: r -> j = List.length (l_gs s) /\ exists p, ext = [mkG [] p] /\ path true [] p [])).
  { intros h c H1 H2. exists g, (mkG h c), []. split; [reflexivity|split; [rewrite app_nil_r; exact H1|split; [|split]]].
    - intros hi P. apply path_gpath, H2, P.
    - left; reflexivity.
    - intros hi j r P Q. cbn [g_code] in Q. subst c. specialize (H2 hi P). inversion H2. }
  destruct g as [h c]; cbn [g_held g_code] in *.
  destruct c as [|o r]; [discriminate|].
  assert (PP : forall hi, gpath hi (mkG h (o :: r)) -> match o with OJoin _ => path hi h r [] | _ => path hi h (o :: r) [] end).
  { intros hi P. unfold gpath in P; cbn [g_code g_held] in P. destruct o; try exact P. apply P. }
  destruct o as [l|l|l|l|l|d|d|p|p|j].
  - injection H as <-. apply (ONE h (OWant l :: r)); [reflexivity|]. intros hi P. apply PP in P. inversion P; subst. constructor; assumption.
  - destruct (existsb _ _); [discriminate|]. injection H as <-. apply (ONE ((l, true) :: h) r); [reflexivity|].
    intros hi P. apply PP in P. inversion P; subst. assumption.
  - injection H as <-. apply (ONE (drop l true h) r); [reflexivity|].
    intros hi P. apply PP in P. inversion P; subst. cbn [drop]. rewrite lk_eqb_refl. assumption.
  - destruct (_ || _); [discriminate|]. injection H as <-. apply (ONE ((l, false) :: h) r); [reflexivity|].
    intros hi P. apply PP in P. inversion P; subst. assumption.
  - injection H as <-. apply (ONE (drop l false h) r); [reflexivity|].
    intros hi P. apply PP in P. inversion P; subst. cbn [drop]. rewrite lk_eqb_refl. assumption.
  - destruct (_ <? _)%nat; [|discriminate]. injection H as <-. apply (ONE h r); [reflexivity|].
    intros hi P. apply PP in P. inversion P; subst. assumption.
  - destruct (take d (l_ch s)); [|discriminate]. injection H as <-. apply (ONE h r); [reflexivity|].
    intros hi P. apply PP in P. inversion P.
  - injection H as <-. exists (mkG h (OGo p :: r)), (mkG h r), [mkG [] p]. split; [reflexivity|split; [reflexivity|split; [|split]]].
    + intros hi P. apply PP in P. inversion P; subst. apply path_gpath. assumption.
    + intros hi P. apply PP in P. inversion P; subst. right. exists p. auto.
    + intros hi j r' P Q. cbn [g_code] in Q. subst r. apply PP in P. inversion P as [| | | | | | |? ? ? ? ? ? X|]; subst. inversion X.
  - injection H as <-. exists (mkG h (OCall p :: r)), (mkG h (OJoin (List.length (l_gs s)) :: r)), [mkG [] p].
    split; [reflexivity|split; [reflexivity|split; [|split]]].
    + intros hi P. apply PP in P. inversion P; subst. unfold gpath; cbn [g_code g_held]. split; assumption.
    + intros hi P. apply PP in P. inversion P; subst. right. exists p. split; [reflexivity|]. apply (path_weaken true). assumption.
    + intros hi j r' P Q. cbn [g_code] in Q. injection Q as <- <-. apply PP in P. inversion P; subst. split; [reflexivity|]. exists p. auto.
  - destruct (nth_error (l_gs s) j) as [g'|]; [|discriminate]. destruct (g_code g'); [|discriminate]. injection H as <-.
    apply (ONE h r); [reflexivity|]. intros hi P. apply PP in P. exact P.
Qed.

Lemma nth_gput gs i j g : nth_error (gput gs i g) j = if (j =? i)%nat && (i <? List.length gs)%nat then Some g else nth_error gs j.
Proof.
  revert i j; induction gs as [|y l IH]; intros i j.
  - cbn [gput List.length]. destruct i, j; cbn [Nat.eqb Nat.ltb Nat.leb andb nth_error]; rewrite ?andb_false_r; reflexivity.
  - destruct i, j; cbn [gput nth_error Nat.eqb andb List.length]; try reflexivity.
    rewrite IH. reflexivity.
Qed.

Lemma gput_length gs i g : List.length (gput gs i g) = List.length gs.
Proof. revert i; induction gs as [|x r IH]; intros [|i]; cbn [gput List.length]; try reflexivity. rewrite IH. reflexivity. Qed.

Lemma fine_step cap s e s' : fine s -> lstep cap s e = Some s' -> fine s'.
Proof.
  intros F H. destruct e as [i|d]; cbn [lstep] in H; [|destruct (take d (l_ch s)); [injection H as <-; exact F|discriminate]].
  destruct (gstep_inv cap s i s' H) as [g [g' [ext [E [L [K [X J]]]]]]]. destruct F as [F1 F2].
  pose proof (F1 i g E) as P.
  assert (IL : (i < List.length (l_gs s))%nat) by (apply nth_error_Some; congruence).
  assert (OLD : forall a, (a < List.length (l_gs s))%nat -> nth_error (l_gs s') a = if (a =? i)%nat then Some g' else nth_error (l_gs s) a).
  { intros a La. rewrite L, nth_error_app1 by (rewrite gput_length; exact La). rewrite nth_gput.
    apply Nat.ltb_lt in IL. rewrite IL, andb_true_r. reflexivity. }
  assert (NEW : forall a ga, (List.length (l_gs s) <= a)%nat -> nth_error (l_gs s') a = Some ga -> nth_error ext (a - List.length (l_gs s)) = Some ga).
  { intros a ga La Ea. rewrite L, nth_error_app2 in Ea by (rewrite gput_length; exact La). rewrite gput_length in Ea. exact Ea. }
  split.
  - intros a ga Ea. destruct (Nat.lt_ge_cases a (List.length (l_gs s))) as [La|La].
    + rewrite (OLD a La) in Ea. destruct (a =? i)%nat; [injection Ea as <-; apply K, P|apply (F1 a ga Ea)].
    + apply (NEW a ga La) in Ea. destruct (X false P) as [->|[p [-> Hp]]]; [destruct (a - _)%nat; discriminate|].
      destruct (a - _)%nat as [|k]; cbn in Ea; [injection Ea as <-; apply path_gpath, Hp|destruct k; discriminate].
  - intros a ga j r Ea Ec. destruct (Nat.lt_ge_cases a (List.length (l_gs s))) as [La|La].
    + rewrite (OLD a La) in Ea. destruct (a =? i)%nat eqn:Q.
      * apply Nat.eqb_eq in Q; subst a. injection Ea as <-. destruct (J false j r P Ec) as [-> [p [-> Hp]]].
        split; [exact IL|]. exists (mkG [] p). split; [|apply path_gpath, Hp].
        rewrite L, nth_error_app2 by (rewrite gput_length; lia). rewrite gput_length, Nat.sub_diag. reflexivity.
      * destruct (F2 a ga j r Ea Ec) as [Lj [gj [Ej Pj]]]. split; [exact Lj|].
        assert (Hj : (j < List.length (l_gs s))%nat) by (apply nth_error_Some; congruence). rewrite (OLD j Hj).
        destruct (j =? i)%nat eqn:Q2; [|eauto]. apply Nat.eqb_eq in Q2; subst j. exists g'. split; [reflexivity|]. apply K. congruence.
    + exfalso. apply (NEW a ga La) in Ea. destruct (X false P) as [->|[p [-> Hp]]]; [destruct (a - _)%nat; discriminate|].
      destruct (a - _)%nat as [|k]; cbn in Ea; [injection Ea as <-|destruct k; discriminate]. cbn [g_code] in Ec. subst p. inversion Hp.
Qed.

(** ** Somebody can go on *)

(** a goroutine that holds the greatest lock of all *)
Lemma greatest (gs : list gr) : (exists g, In g gs /\ g_held g <> []) ->
  exists g x, In g gs /\ In x (g_held g) /\ forall g' x', In g' gs -> In x' (g_held g') -> (lk_num (fst x') <= lk_num (fst x))%nat.
Proof.
  set (hs := flat_map (fun g => map (fun x => (x, g)) (g_held g)) gs).
  assert (HI : forall x g, In (x, g) hs <-> In g gs /\ In x (g_held g)).
  { intros x g. unfold hs. rewrite in_flat_map. split.
    - intros [g0 [H1 H2]]. apply in_map_iff in H2. destruct H2 as [x0 [H2 H3]]. injection H2 as <- <-. auto.
    - intros [H1 H2]. exists g. split; [exact H1|]. apply in_map_iff. exists x; auto. }
  intros [g [Hg Hn]]. destruct (g_held g) as [|x0 t] eqn:Eg; [congruence|].
  assert (H0 : In (x0, g) hs) by (apply HI; split; [exact Hg|rewrite Eg; left; reflexivity]).
  assert (M : exists x g', In (x, g') hs /\ forall y g2, In (y, g2) hs -> (lk_num (fst y) <= lk_num (fst x))%nat).
  { clear - H0. induction hs as [|[y gy] r IH]; [destruct H0|].
    destruct r as [|z r'].
    - exists y, gy. split; [left; reflexivity|]. intros y' g2 [H|[]]. injection H as <- <-. lia.
    - assert (Z : exists x g', In (x, g') (z :: r') /\ forall y g2, In (y, g2) (z :: r') -> (lk_num (fst y) <= lk_num (fst x))%nat).
      { destruct H0 as [H0|H0]; [|apply IH, H0]. clear H0.
        clear IH. revert z. induction r' as [|w r' IH]; intros [a ga].
        - exists a, ga. split; [left; reflexivity|]. intros y' g2 [H|[]]. injection H as <- <-. lia.
        - destruct (IH w) as [x [g' [I M]]]. destruct (Nat.le_gt_cases (lk_num (fst a)) (lk_num (fst x))).
          + exists x, g'. split; [right; exact I|]. intros y' g2 [K|K]; [injection K as <- <-; lia|apply (M y' g2 K)].
          + exists a, ga. split; [left; reflexivity|]. intros y' g2 [K|K]; [injection K as <- <-; lia|]. specialize (M y' g2 K). lia. }
      destruct Z as [x [g' [I M]]]. destruct (Nat.le_gt_cases (lk_num (fst y)) (lk_num (fst x))).
      + exists x, g'. split; [right; exact I|]. intros y' g2 [K|K]; [injection K as <- <-; lia|apply (M y' g2 K)].
      + exists y, gy. split; [left; reflexivity|]. intros y' g2 [K|K]; [injection K as <- <-; lia|]. specialize (M y' g2 K). lia. }
  destruct M as [x [g' [I M]]]. apply HI in I. destruct I as [I1 I2]. exists g', x. split; [exact I1|split; [exact I2|]].
  intros g2 x' H1 H2. apply (M x' g2). apply HI. auto.
Qed.

Lemma holds_in l g : holds l g = true <-> exists x, In x (g_held g) /\ fst x = l.
Proof.
  unfold holds. rewrite existsb_exists. split; intros [x [H1 H2]]; exists x; (split; [exact H1|]).
  - apply lk_eqb_eq, H2.
  - apply lk_eqb_eq, H2.
Qed.

(** a goroutine whose next lock nobody holds can go on, or somebody else who wants it can *)
Lemma free_step cap s i g l : (0 < cap)%nat -> nth_error (l_gs s) i = Some g ->
  (forall g', In g' (l_gs s) -> holds l g' = false) ->
  (exists r, g_code g = OWant l :: r \/ g_code g = ORAcq l :: r) -> goes_on cap s.
Proof.
  intros C E N [r Hr].
  assert (X : existsb (holds l) (l_gs s) = false).
  { destruct (existsb (holds l) (l_gs s)) eqn:Q; [|reflexivity]. apply existsb_exists in Q. destruct Q as [g' [I H]].
    rewrite (N g' I) in H. discriminate. }
  assert (W : forall j gj rj, nth_error (l_gs s) j = Some gj -> g_code gj = OWant l :: rj -> goes_on cap s).
  { intros j gj rj Ej Ec. exists (inl j). cbn [lstep]. unfold gstep. rewrite Ej, Ec, X. eauto. }
  destruct Hr as [Hr|Hr]; [apply (W i g r E Hr)|].
  destruct (existsb (wants l) (l_gs s)) eqn:Q.
  - apply existsb_exists in Q. destruct Q as [gj [I H]]. apply In_nth_error in I. destruct I as [j Ej].
    unfold wants in H. destruct (g_code gj) as [|[]rj] eqn:Ec; try discriminate. apply lk_eqb_eq in H; subst l0.
    apply (W j gj rj Ej Ec).
  - assert (Y : existsb (holds_w l) (l_gs s) = false).
    { destruct (existsb (holds_w l) (l_gs s)) eqn:Q2; [|reflexivity]. apply existsb_exists in Q2. destruct Q2 as [g' [I H]].
      assert (Z : holds l g' = true).
      { unfold holds_w in H. unfold holds. apply existsb_exists in H. destruct H as [x [Hx Hx2]]. apply andb_true_iff in Hx2.
        apply existsb_exists. exists x. split; [exact Hx|apply Hx2]. }
      rewrite (N g' I) in Z. discriminate. }
    exists (inl i). cbn [lstep]. unfold gstep. rewrite E, Hr, Y, Q. cbn [orb]. eauto.
Qed.

Lemma take_none d c : take d c = None -> in_chan d c = 0%nat.
Proof.
  unfold in_chan. induction c as [|x r IH]; cbn [take filter]; [reflexivity|].
  destruct (d =? x)%nat; [discriminate|]. destruct (take d r); [discriminate|]. exact IH.
Qed.

Lemma take_length d c c' : take d c = Some c' -> List.length c = S (List.length c').
Proof.
  revert c'. induction c as [|x r IH]; cbn [take]; intros c' H; [discriminate|].
  destruct (d =? x)%nat; [injection H as <-; reflexivity|]. destruct (take d r) as [r'|]; [|discriminate].
  injection H as <-. cbn [List.length]. rewrite (IH r' eq_refl). reflexivity.
Qed.

Lemma any_step cap s i g hi : (0 < cap)%nat -> nth_error (l_gs s) i = Some g -> path hi (g_held g) (g_code g) [] -> g_code g <> [] ->
  (forall l g', In g' (l_gs s) -> above l (g_held g) -> allowed hi l -> holds l g' = false) -> goes_on cap s.
Proof.
  intros C E P NE N.
  destruct (g_code g) as [|o r] eqn:Ec; [congruence|]. destruct o as [l|l|l|l|l|d|d|p|p|j].
  - exists (inl i). cbn [lstep]. unfold gstep. rewrite E, Ec. eauto.
  - apply (free_step cap s i g l C E); [|exists r; left; exact Ec]. intros g' I. inversion P; subst; apply N; assumption.
  - exists (inl i). cbn [lstep]. unfold gstep. rewrite E, Ec. eauto.
  - apply (free_step cap s i g l C E); [|exists r; right; exact Ec]. intros g' I. inversion P; subst; apply N; assumption.
  - exists (inl i). cbn [lstep]. unfold gstep. rewrite E, Ec. eauto.
  - destruct (in_chan d (l_ch s) <? cap)%nat eqn:Q.
    + exists (inl i). cbn [lstep]. unfold gstep. rewrite E, Ec, Q. eauto.
    + apply Nat.ltb_ge in Q. exists (inr d). cbn [lstep]. destruct (take d (l_ch s)) eqn:T; [eauto|].
      apply take_none in T. lia.
  - inversion P.
  - exists (inl i). cbn [lstep]. unfold gstep. rewrite E, Ec. eauto.
  - exists (inl i). cbn [lstep]. unfold gstep. rewrite E, Ec. eauto.
  - inversion P.
Qed.

(** if nobody holds one of the locks that are not low, somebody who is waited for can go on *)
Lemma high_step cap s : (0 < cap)%nat -> fine s ->
  (forall l g', (2 <= lk_num l)%nat -> In g' (l_gs s) -> holds l g' = false) ->
  forall n j g, (List.length (l_gs s) - j <= n)%nat -> nth_error (l_gs s) j = Some g -> gpath true g -> g_code g <> [] -> goes_on cap s.
Proof.
  intros C [F1 F2] N. induction n as [|n IH]; intros j g Ln E P NE.
  - assert ((j < List.length (l_gs s))%nat) by (apply nth_error_Some; congruence). lia.
  - assert (D : (exists k r, g_code g = OJoin k :: r) \/ path true (g_held g) (g_code g) []).
    { unfold gpath in P. destruct (g_code g) as [|[] r]; try (right; exact P). left; eauto. }
    destruct D as [[k [r Ec]]|D].
    + destruct (F2 j g k r E Ec) as [Lk [g' [E' P']]].
      destruct (g_code g') as [|o r'] eqn:Q.
      * exists (inl j). cbn [lstep]. unfold gstep. rewrite E, Ec, E', Q. eauto.
      * apply (IH k g'); [|exact E'|exact P'|congruence].
        assert ((k < List.length (l_gs s))%nat) by (apply nth_error_Some; congruence). lia.
    + apply (any_step cap s j g true C E D NE). intros l g' I A L. apply N; [apply L; reflexivity|exact I].
Qed.

Lemma join_step cap s i g j r : (0 < cap)%nat -> fine s ->
  (forall l g', (2 <= lk_num l)%nat -> In g' (l_gs s) -> holds l g' = false) ->
  nth_error (l_gs s) i = Some g -> g_code g = OJoin j :: r -> goes_on cap s.
Proof.
  intros C F N E Ec. destruct F as [F1 F2]. destruct (F2 i g j r E Ec) as [Lj [g' [E' P']]].
  destruct (g_code g') as [|o r'] eqn:Q.
  - exists (inl i). cbn [lstep]. unfold gstep. rewrite E, Ec, E', Q. eauto.
  - apply (high_step cap s C (conj F1 F2) N (List.length (l_gs s)) j g'); [lia|exact E'|exact P'|congruence].
Qed.

Lemma progress cap s : (0 < cap)%nat -> fine s -> all_done s \/ goes_on cap s.
Proof.
  intros C F.
  assert (D : (exists g, In g (l_gs s) /\ g_held g <> []) \/ forall g, In g (l_gs s) -> g_held g = []).
  { clear. induction (l_gs s) as [|g r IH]; [right; intros g []|].
    destruct (g_held g) as [|x t] eqn:E.
    - destruct IH as [[g' [I H]]|IH]; [left; exists g'; split; [right; exact I|exact H]|].
      right. intros g' [<-|I]; [exact E|apply IH, I].
    - left. exists g. split; [left; reflexivity|congruence]. }
  assert (J : forall g, gpath false g -> (exists k r, g_code g = OJoin k :: r /\ low (g_held g)) \/ path false (g_held g) (g_code g) []).
  { intros g P. unfold gpath in P. destruct (g_code g) as [|[] r]; try (right; exact P). left. exists j, r. split; [reflexivity|apply P]. }
  destruct D as [D|D].
  - right. destruct (greatest _ D) as [g [x [I [Hx M]]]]. destruct (In_nth_error _ _ I) as [i E].
    pose proof (proj1 F i g E) as P. destruct (J g P) as [[k [r [Ec Lw]]]|P'].
    + apply (join_step cap s i g k r C F); [|exact E|exact Ec].
      intros l g' L I'. destruct (holds l g') eqn:Q; [|reflexivity]. apply holds_in in Q. destruct Q as [x' [Hx' <-]].
      specialize (M g' x' I' Hx'). specialize (Lw x Hx). lia.
    + apply (any_step cap s i g false C E P').
      * intro Q. rewrite Q in P'. apply path_end in P'. rewrite P' in Hx. destruct Hx.
      * intros l g' I' A _. destruct (holds l g') eqn:Q; [|reflexivity]. apply holds_in in Q. destruct Q as [x' [Hx' <-]].
        specialize (A x Hx). specialize (M g' x' I' Hx'). lia.
  - assert (NH : forall l g', In g' (l_gs s) -> holds l g' = false).
    { intros l g' I'. destruct (holds l g') eqn:Q; [|reflexivity].
      apply holds_in in Q. destruct Q as [x [Hx _]]. rewrite (D g' I') in Hx. destruct Hx. }
    assert (DD : (exists i g, nth_error (l_gs s) i = Some g /\ g_code g <> []) \/ forall g, In g (l_gs s) -> g_code g = []).
    { clear. induction (l_gs s) as [|g r IH]; [right; intros g []|].
      destruct (g_code g) as [|x t] eqn:E.
      - destruct IH as [[i [g' [I H]]]|IH]; [left; exists (S i), g'; split; [exact I|exact H]|].
        right. intros g' [<-|I]; [exact E|apply IH, I].
      - left. exists 0%nat, g. split; [reflexivity|congruence]. }
    destruct DD as [[i [g [E NE]]]|DD].
    + right. destruct (J g (proj1 F i g E)) as [[k [r [Ec Lw]]]|P'].
      * apply (join_step cap s i g k r C F); [|exact E|exact Ec]. intros l g' _ I'. apply NH, I'.
      * apply (any_step cap s i g false C E P' NE). intros l g' I' _ _. apply NH, I'.
    + left. intros g I. split; [apply DD, I|apply D, I].
Qed.

(** ** There is an end *)

Definition csum (c : list lop) : nat := fold_right (fun o m => lsize o + m)%nat 0%nat c.

Lemma lsize_call p : lsize (OCall p) = S (S (csum p)).
Proof. reflexivity. Qed.

Lemma lsize_go p : lsize (OGo p) = S (csum p).
Proof.
  reflexivity.
Qed.

Lemma lsize_pos o : (1 <= lsize o)%nat.
Proof. destruct o; cbn [lsize]; lia. Qed.

Lemma total_eq s : total s = (fold_right (fun g n => csum (g_code g) + n) 0 (l_gs s) + List.length (l_ch s))%nat.
Proof.
  unfold total. fold (@csum). change (fun (g : gr) (n : nat) => (fold_right (fun o m => lsize o + m) 0 (g_code g) + n)%nat) with (fun (g : gr) n => (csum (g_code g) + n)%nat).
  induction (l_gs s) as [|g r IH]; cbn [fold_right]; [reflexivity|]. rewrite IH. lia.
Qed.

Lemma sum_gput gs i g g' : nth_error gs i = Some g ->
  (fold_right (fun g n => csum (g_code g) + n) 0 (gput gs i g') + csum (g_code g) =
   fold_right (fun g n => csum (g_code g) + n) 0 gs + csum (g_code g'))%nat.
Proof.
  revert i; induction gs as [|x r IH]; intros [|i] E; cbn [nth_error] in E; try discriminate; cbn [gput fold_right].
  - injection E as ->. lia.
  - specialize (IH i E). lia.
Qed.

Lemma sum_app gs gs' : (fold_right (fun g n => csum (g_code g) + n) 0 (gs ++ gs') =
  fold_right (fun g n => csum (g_code g) + n) 0 gs + fold_right (fun g n => csum (g_code g) + n) 0 gs')%nat.
Proof. induction gs as [|x r IH]; cbn [app fold_right]; [reflexivity|]. rewrite IH. lia. Qed.

Lemma total_step cap s e s' : lstep cap s e = Some s' -> (total s' < total s)%nat.
Proof.
  rewrite !total_eq. intro H. destruct e as [i|d]; cbn [lstep] in H.
  - unfold gstep in H. destruct (nth_error (l_gs s) i) as [g|] eqn:E; [|discriminate].
    destruct g as [h c]. cbn [g_code g_held] in H.
    destruct c as [|o r]; [discriminate|].
    assert (K : forall h' c', (fold_right (fun g n => csum (g_code g) + n) 0 (gput (l_gs s) i (mkG h' c')) + csum (o :: r) =
                fold_right (fun g n => csum (g_code g) + n) 0 (l_gs s) + csum c')%nat).
    { intros h' c'. apply (sum_gput _ _ _ (mkG h' c') E). }
    change (csum (o :: r)) with (lsize o + csum r)%nat in K. pose proof (lsize_pos o) as L.
    destruct o as [l|l|l|l|l|d|d|p|p|j].
    + injection H as <-. cbn [l_gs l_ch]. specialize (K h (OWant l :: r)). change (csum (OWant l :: r)) with (1 + csum r)%nat in K. cbn [lsize] in K. lia.
    + destruct (existsb _ _); [discriminate|]. injection H as <-. cbn [l_gs l_ch]. specialize (K ((l, true) :: h) r). lia.
    + injection H as <-. cbn [l_gs l_ch]. specialize (K (drop l true h) r). lia.
    + destruct (_ || _); [discriminate|]. injection H as <-. cbn [l_gs l_ch]. specialize (K ((l, false) :: h) r). lia.
    + injection H as <-. cbn [l_gs l_ch]. specialize (K (drop l false h) r). lia.
    + destruct (_ <? _)%nat; [|discriminate]. injection H as <-. cbn [l_gs l_ch]. cbn [List.length]. specialize (K h r). cbn [lsize] in K. lia.
    + destruct (take d (l_ch s)) as [c|] eqn:T; [|discriminate]. injection H as <-. apply take_length in T. cbn [l_gs l_ch]. specialize (K h r). lia.
    + injection H as <-. cbn [l_gs l_ch]. rewrite sum_app. cbn [fold_right g_code]. specialize (K h r). rewrite lsize_go in K. lia.
    + injection H as <-. cbn [l_gs l_ch]. rewrite sum_app. cbn [fold_right g_code]. specialize (K h (OJoin (List.length (l_gs s)) :: r)).
      change (csum (OJoin (List.length (l_gs s)) :: r)) with (1 + csum r)%nat in K. rewrite lsize_call in K. lia.
    + destruct (nth_error (l_gs s) j) as [g'|]; [|discriminate]. destruct (g_code g'); [|discriminate].
      injection H as <-. cbn [l_gs l_ch]. specialize (K h r). lia.
  - destruct (take d (l_ch s)) as [c|] eqn:T; [|discriminate]. injection H as <-. apply take_length in T. cbn [l_gs l_ch]. lia.
Qed.

(** ** Locks exclude *)

(** nobody else holds a lock that somebody holds for writing *)
Definition exclusive (s : lst) : Prop := forall i j gi gj l w,
  nth_error (l_gs s) i = Some gi -> nth_error (l_gs s) j = Some gj ->
  In (l, true) (g_held gi) -> In (l, w) (g_held gj) -> i = j.

Lemma drop_in l w h x : In x (drop l w h) -> In x h.
Proof.
  induction h as [|[a b] r IH]; cbn [drop]; [intros []|]. destruct (_ && _); [right; assumption|].
  intros [<-|H]; [left; reflexivity|right; apply IH, H].
Qed.

Lemma exclusive_step cap s e s' : exclusive s -> lstep cap s e = Some s' -> exclusive s'.
Proof.
  intros X H. destruct e as [i|d]; cbn [lstep] in H; [|destruct (take d (l_ch s)); [injection H as <-; exact X|discriminate]].
  unfold gstep in H. destruct (nth_error (l_gs s) i) as [g|] eqn:E; [|discriminate].
  assert (IL : (i < List.length (l_gs s))%nat) by (apply nth_error_Some; congruence).
  assert (SUB : forall c h' n, (forall x, In x h' -> In x (g_held g)) -> exclusive (mkL (gput (l_gs s) i (mkG h' c)) n)).
  { intros c h' n S a b ga gb l w Ea Eb Ha Hb. cbn [l_gs] in Ea, Eb. rewrite nth_gput in Ea, Eb.
    apply Nat.ltb_lt in IL. rewrite IL in Ea, Eb. rewrite !andb_true_r in Ea, Eb.
    assert (A : exists g', nth_error (l_gs s) a = Some g' /\ In (l, true) (g_held g')).
    { destruct (a =? i)%nat eqn:Q; [apply Nat.eqb_eq in Q; subst a; injection Ea as <-; exists g; split; [exact E|apply S, Ha]|eauto]. }
    assert (B : exists g', nth_error (l_gs s) b = Some g' /\ In (l, w) (g_held g')).
    { destruct (b =? i)%nat eqn:Q; [apply Nat.eqb_eq in Q; subst b; injection Eb as <-; exists g; split; [exact E|apply S, Hb]|eauto]. }
    destruct A as [g1 [A1 A2]], B as [g2 [B1 B2]]. apply (X a b g1 g2 l w A1 B1 A2 B2). }
  assert (NEW : forall c l0 w0 n, (forall g', In g' (l_gs s) -> forall w, In (l0, w) (g_held g') -> w0 = false /\ w = false) ->
            exclusive (mkL (gput (l_gs s) i (mkG ((l0, w0) :: g_held g) c)) n)).
  { intros c l0 w0 n F a b ga gb l w Ea Eb Ha Hb. cbn [l_gs] in Ea, Eb. rewrite nth_gput in Ea, Eb.
    apply Nat.ltb_lt in IL. rewrite IL in Ea, Eb. rewrite !andb_true_r in Ea, Eb.
    destruct (a =? i)%nat eqn:Qa, (b =? i)%nat eqn:Qb.
    - apply Nat.eqb_eq in Qa, Qb. congruence.
    - apply Nat.eqb_eq in Qa; subst a. injection Ea as <-. cbn [g_held] in Ha. destruct Ha as [Ha|Ha].
      + injection Ha as -> ->. destruct (F gb (nth_error_In _ _ Eb) w Hb). discriminate.
      + apply (X i b g gb l w E Eb Ha Hb).
    - apply Nat.eqb_eq in Qb; subst b. injection Eb as <-. cbn [g_held] in Hb. destruct Hb as [Hb|Hb].
      + injection Hb as -> ->. destruct (F ga (nth_error_In _ _ Ea) true Ha). discriminate.
      + apply (X a i ga g l w Ea E Ha Hb).
    - apply (X a b ga gb l w Ea Eb Ha Hb). }
  assert (EXT : forall c p n, exclusive (mkL (gput (l_gs s) i (mkG (g_held g) c) ++ [mkG [] p]) n)).
  { intros c p n. assert (Y : exclusive (mkL (gput (l_gs s) i (mkG (g_held g) c)) n)) by (apply SUB; auto).
    intros a b ga gb l w Ea Eb Ha Hb. cbn [l_gs] in Ea, Eb.
    assert (Z : forall a ga x, nth_error (gput (l_gs s) i (mkG (g_held g) c) ++ [mkG [] p]) a = Some ga -> In x (g_held ga) ->
                nth_error (gput (l_gs s) i (mkG (g_held g) c)) a = Some ga).
    { intros a0 g0 x E0 I0. destruct (Nat.lt_ge_cases a0 (List.length (gput (l_gs s) i (mkG (g_held g) c)))) as [L|L].
      - rewrite nth_error_app1 in E0 by exact L. exact E0.
      - rewrite nth_error_app2 in E0 by exact L. destruct (a0 - _)%nat as [|k]; cbn in E0; [injection E0 as <-; destruct I0|destruct k; discriminate]. }
    apply (Y a b ga gb l w (Z _ _ _ Ea Ha) (Z _ _ _ Eb Hb) Ha Hb). }
  destruct (g_code g) as [|[l|l|l|l|l|d|d|p|p|j] r]; [discriminate| | | | | | | | | |].
  - injection H as <-. apply SUB; auto.
  - destruct (existsb _ _) eqn:Q; [discriminate|]. injection H as <-. apply NEW. intros g' I w Hw. exfalso.
    assert (Z : existsb (holds l) (l_gs s) = true); [|congruence]. apply existsb_exists. exists g'. split; [exact I|].
    apply holds_in. exists (l, w). auto.
  - injection H as <-. apply SUB. intros x Hx. apply (drop_in l true), Hx.
  - destruct (existsb (holds_w l) (l_gs s)) eqn:Q; [discriminate|]. destruct (existsb (wants l) (l_gs s)); [discriminate|].
    injection H as <-. apply NEW. intros g' I w Hw. split; [reflexivity|]. destruct w; [|reflexivity]. exfalso.
    assert (Z : existsb (holds_w l) (l_gs s) = true); [|congruence]. apply existsb_exists. exists g'. split; [exact I|].
    unfold holds_w. apply existsb_exists. exists (l, true). split; [exact Hw|]. cbn [fst snd]. rewrite andb_true_r. apply lk_eqb_eq. reflexivity.
  - injection H as <-. apply SUB. intros x Hx. apply (drop_in l false), Hx.
  - destruct (_ <? _)%nat; [|discriminate]. injection H as <-. apply SUB; auto.
  - destruct (take d (l_ch s)); [|discriminate]. injection H as <-. apply SUB; auto.
  - injection H as <-. apply EXT.
  - injection H as <-. apply EXT.
  - destruct (nth_error (l_gs s) j) as [g'|]; [|discriminate]. destruct (g_code g'); [|discriminate].
    injection H as <-. apply SUB; auto.
Qed.

Lemma run_all cap sched : forall s s', fine s -> exclusive s -> lrun cap s sched = Some s' ->
  fine s' /\ exclusive s' /\ (List.length sched + total s' <= total s)%nat.
Proof.
  induction sched as [|e r IH]; intros s s' F X H; cbn [lrun] in H; [injection H as <-; cbn; auto with arith|].
  destruct (lstep cap s e) as [s1|] eqn:E; [|discriminate].
  pose proof (total_step cap s e s1 E) as T.
  destruct (IH s1 s' (fine_step _ _ _ _ F E) (exclusive_step _ _ _ _ X E) H) as [A [B C]].
  split; [exact A|split; [exact B|]]. cbn [List.length]. lia.
Qed.

Lemma starting_fine gs : (forall l, In l gs -> forallb (rules Alone) l = true) -> fine (starting gs).
Proof.
  intro H.
  assert (K : forall i g, nth_error (l_gs (starting gs)) i = Some g -> exists l, In l gs /\ g = mkG [] (program l)).
  { intros i g E. apply nth_error_In in E. unfold starting in E; cbn [l_gs] in E. apply in_map_iff in E. destruct E as [l [<- I]]. eauto. }
  split.
  - intros i g E. destruct (K i g E) as [l [I ->]]. apply path_gpath, program_path, H, I.
  - intros i g j r E Ec. destruct (K i g E) as [l [I ->]]. cbn [g_code] in Ec. pose proof (program_path l (H l I)) as P. rewrite Ec in P. inversion P.
Qed.

Lemma starting_exclusive gs : exclusive (starting gs).
Proof.
  intros i j gi gj l w Ei _ Hi _. unfold starting in Ei; cbn [l_gs] in Ei. apply nth_error_In in Ei.
  apply in_map_iff in Ei. destruct Ei as [c [<- _]]. destruct Hi.
Qed.
