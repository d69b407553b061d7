From Coq Require Import Permutation.
From Verif Require Import Base BaseProofs NameModel NameProofs OrderProofs PatternProofs SchemaModel SchemaSpec SchemaProofs PolModel PolSpec.

Lemma ev_eqb_eq : forall a b, ev_eqb a b = true <-> a = b.
Proof. intros a b. unfold ev_eqb. destruct (ev_eq_dec a b); split; congruence. Qed.
Lemma ev_eqb_refl : forall a, ev_eqb a a = true.
Proof. intros. apply ev_eqb_eq. reflexivity. Qed.
Lemma ev_eqb_neq : forall a b, a <> b -> ev_eqb a b = false.
Proof. intros a b N. destruct (ev_eqb a b) eqn:E; [|reflexivity]. apply ev_eqb_eq in E. contradiction. Qed.

Lemma n_get_add : forall d f l g, n_get (n_add d f l) g = if ev_eqb f g then option_map (fun x => x ++ l) (n_get d f) else n_get d g.
Proof.
  unfold n_get. induction d as [|[h x] d IH]; intros f l g; cbn [n_add find fst].
  - destruct (ev_eqb f g); reflexivity.
  - destruct (ev_eqb h f) eqn:HF.
    + apply ev_eqb_eq in HF. subst h. cbn [find fst]. destruct (ev_eqb f g); reflexivity.
    + cbn [find fst]. destruct (ev_eqb h g) eqn:HG; cbn [option_map snd].
      * apply ev_eqb_eq in HG. subst h. destruct (ev_eqb f g) eqn:FG; [|reflexivity]. apply ev_eqb_eq in FG. subst. rewrite ev_eqb_refl in HF. discriminate.
      * apply IH.
Qed.

Lemma add_nil_map : forall (o : option (list lst)), option_map (fun x => x ++ []) o = o.
Proof. destruct o; cbn [option_map]; [rewrite app_nil_r|]; reflexivity. Qed.

Lemma here_get : forall j p d d', apply_here j p d = Ok d' -> forall f, n_get d' f = option_map (fun x => x ++ map (LPol j) (tells p f)) (n_get d f).
Proof.
  intros j p d d' H f.
  assert (K : forall d0 g h d1, add_must d0 g h = Ok d1 -> d1 = n_add d0 g [h]) by (intros d0 g h d1 E; unfold add_must in E; destruct (n_get d0 g); [injection E as <-; reflexivity|discriminate]).
  destruct p as [[|] m| | |key|key|ks|ks path]; cbn [apply_here] in H.
  - apply K in H. subst d'. rewrite n_get_add. destruct f; cbn [tells map]; try rewrite add_nil_map; reflexivity.
  - injection H as <-. destruct f; cbn [tells map]; rewrite add_nil_map; reflexivity.
  - apply K in H. subst d'. unfold add_if. rewrite !n_get_add. destruct f; cbn [tells map]; try rewrite add_nil_map; reflexivity.
  - injection H as <-. unfold add_if. rewrite !n_get_add. destruct f; cbn [tells map]; try rewrite add_nil_map; reflexivity.
  - destruct key; [discriminate|]. apply K in H. subst d'. unfold add_if. rewrite !n_get_add. destruct f; cbn [tells map]; try rewrite add_nil_map; reflexivity.
  - destruct key; [discriminate|]. destruct (add_must (add_if d EvIntSigner (LPol j HGetIntSigner)) EvValInt (LPol j HValInt)) as [d1| | |] eqn:E; try discriminate. cbn [bind] in H.
    apply K in E, H. subst d' d1. unfold add_if. rewrite !n_get_add. destruct f; cbn [tells map]; try rewrite add_nil_map; reflexivity.
  - injection H as <-. unfold add_if. rewrite !n_get_add. destruct f; cbn [tells map]; try rewrite add_nil_map; reflexivity.
  - apply K in H. subst d'. unfold add_if. rewrite !n_get_add. destruct f; cbn [tells map]; try rewrite add_nil_map; reflexivity.
Qed.

Lemma must_ok : forall d f l, (exists d', add_must d f l = Ok d') <-> n_get d f <> None.
Proof. intros d f l. unfold add_must. destruct (n_get d f); split; intros; eauto; try congruence. destruct H; discriminate. Qed.
Lemma n_add_has : forall d f l g, n_get (n_add d f l) g <> None <-> n_get d g <> None.
Proof. intros d f l g. rewrite n_get_add. destruct (ev_eqb f g) eqn:E; [|tauto]. apply ev_eqb_eq in E. subst. destruct (n_get d g); cbn [option_map]; split; congruence. Qed.

Lemma here_ok : forall j p d, (exists d', apply_here j p d = Ok d') <-> usable p /\ forall f, In f (needs p) -> n_get d f <> None.
Proof.
  intros j p d. destruct p as [[|] m| | |key|key|ks|ks path]; cbn [apply_here usable needs].
  - rewrite must_ok. split; [intros H; split; [auto|intros f [<-|[]]; auto]|intros [_ H]; apply H; left; auto].
  - split; [intros _; split; [auto|intros f []]|eauto].
  - rewrite must_ok. unfold add_if. rewrite n_add_has. split; [intros H; split; [auto|intros f [<-|[]]; auto]|intros [_ H]; apply H; left; auto].
  - split; [intros _; split; [auto|intros f []]|eauto].
  - destruct key as [|b key]; [split; [intros [? H]; discriminate|intros [H _]; congruence]|].
    rewrite must_ok. unfold add_if. rewrite n_add_has. split; [intros H; split; [discriminate|intros f [<-|[]]; auto]|intros [_ H]; apply H; left; auto].
  - destruct key as [|b key]; [split; [intros [? H]; discriminate|intros [H _]; congruence]|]. split.
    + intros [d' H]. split; [discriminate|]. destruct (add_must (add_if d EvIntSigner (LPol j HGetIntSigner)) EvValInt (LPol j HValInt)) as [d1| | |] eqn:E; try discriminate. cbn [bind] in H.
      assert (A : n_get d EvValInt <> None) by (apply -> (n_add_has d EvIntSigner [LPol j HGetIntSigner]); apply (must_ok _ _ (LPol j HValInt)); exists d1; exact E).
      assert (D1 : d1 = n_add (add_if d EvIntSigner (LPol j HGetIntSigner)) EvValInt [LPol j HValInt]) by (unfold add_must in E; destruct (n_get _ EvValInt); [injection E as <-; reflexivity|discriminate]).
      assert (B : n_get d EvAttach <> None) by (apply -> (n_add_has d EvIntSigner [LPol j HGetIntSigner]); apply -> (n_add_has (add_if d EvIntSigner (LPol j HGetIntSigner)) EvValInt [LPol j HValInt]); rewrite <- D1; apply (must_ok _ _ (LPol j HAttach)); exists d'; exact H).
      intros f [<-|[<-|[]]]; auto.
    + intros [_ H]. assert (A : n_get (add_if d EvIntSigner (LPol j HGetIntSigner)) EvValInt <> None) by (apply n_add_has; apply H; left; auto).
      unfold add_must at 1. destruct (n_get (add_if d EvIntSigner (LPol j HGetIntSigner)) EvValInt); [|congruence]. cbn [bind]. apply must_ok. apply n_add_has, n_add_has, H. right; left; auto.
  - split; [intros _; split; [auto|intros f []]|eauto].
  - rewrite must_ok. unfold add_if. rewrite !n_add_has. split; [intros H; split; [auto|intros f [<-|[]]; auto]|intros [_ H]; apply H; left; auto].
Qed.

(** ** a change of a subtree *)
Section Change.
  Variable D : Type.

  Lemma change_ok : forall p (g : stree D -> res (stree D)) t, (exists t', change_at p g t = Ok t') <-> exists u u', at_path p t = Some u /\ g u = Ok u'.
  Proof.
    induction p as [|e p IH]; intros g t; cbn [change_at at_path].
    - split; [intros [t' H]; eauto|intros (u & u' & E & H); injection E as ->; eauto].
    - destruct (find_edge _ (s_chd t)) as [[x c]|] eqn:F.
      + rewrite <- IH. split; intros [t' H].
        * destruct (change_at p g c) as [c'| | |]; try discriminate. eauto.
        * rewrite H. cbn [bind]. eauto.
      + split; [intros [? H]; discriminate|intros (u & u' & H & _); discriminate].
  Qed.

  Lemma change_at_ok : forall p (g : stree D -> res (stree D)) t t', change_at p g t = Ok t' -> exists u u', at_path p t = Some u /\ g u = Ok u'
    /\ (forall s, at_path (p ++ s) t' = at_path s u')
    /\ (forall q, np_is_prefix p q = false -> option_map s_desc (at_path q t') = option_map s_desc (at_path q t)).
  Proof.
    induction p as [|e p IH]; intros g t t' H; cbn [change_at at_path app] in *.
    - exists t, t'. split; [auto|]. split; [auto|]. split; [auto|]. intros q N. exfalso. rewrite (proj2 (np_is_prefix_iff [] q)) in N; [discriminate|exists q; reflexivity].
    - destruct (find_edge _ (s_chd t)) as [[x c]|] eqn:F; [|discriminate]. destruct (change_at p g c) as [c'| | |] eqn:E; try discriminate. injection H as <-.
      destruct (IH g c c' E) as (u & u' & A & G & B & C). exists u, u'. pose proof (find_first _ _ _ _ _ F) as [Fx _]. apply pat_equal_eq in Fx. subst x.
      split; [auto|]. split; [auto|]. split.
      + intros s. cbn [s_chd]. rewrite (find_set _ (fun y => pat_equal y e) e c' (s_chd t) c e F), F, !eqb_same. apply B.
      + intros [|f q] N; [reflexivity|]. rewrite prefix_cons in N. cbn [at_path s_chd]. rewrite (find_set _ (fun y => pat_equal y f) e c' (s_chd t) c e F).
        destruct (pat_equal e f) eqn:EF; [|reflexivity]. apply pat_equal_eq in EF. subst f. rewrite F, eqb_same. cbn [andb] in N. apply C; auto.
  Qed.

  Lemma at_app : forall p q (t : stree D), at_path (p ++ q) t = match at_path p t with Some u => at_path q u | None => None end.
  Proof. induction p as [|e p IH]; intros q t; cbn [app at_path]; [reflexivity|]. destruct (find_edge _ (s_chd t)) as [[x c]|]; auto. Qed.
End Change.

Lemma find_map : forall (f : pat -> bool) (g : etree -> etree) l, find_edge f (map (fun x => (fst x, g (snd x))) l) = option_map (fun x => (fst x, g (snd x))) (find_edge f l).
Proof. intros f g l. unfold find_edge. induction l as [|[e c] l IH]; cbn [map find fst snd]; [reflexivity|]. destruct (f e); [reflexivity|]. exact IH. Qed.

Lemma at_all : forall j p q t, at_path q (apply_all j p t) = option_map (apply_all j p) (at_path q t).
Proof.
  intros j p. induction q as [|e q IH]; intros t; [reflexivity|]. destruct t as [d c]. cbn [apply_all at_path s_chd]. rewrite find_map. destruct (find_edge _ c) as [[x u]|]; cbn [option_map fst snd]; [apply IH|reflexivity].
Qed.

Lemma deep_here : forall j p d, whole_subtree p = true -> exists d', apply_here j p d = Ok d'.
Proof. intros j p d W. destruct p; try discriminate; cbn [apply_here]; eauto. Qed.

Lemma all_listens : forall j p q t f, whole_subtree p = true -> listens (apply_all j p t) q f = option_map (fun x => x ++ map (LPol j) (tells p f)) (listens t q f).
Proof.
  intros j p q t f W. unfold listens. rewrite at_all. destruct (at_path q t) as [[d c]|]; cbn [option_map]; [|reflexivity]. cbn [apply_all s_desc].
  destruct (deep_here j p d W) as [d' E]. rewrite E. apply (here_get j p d d' E).
Qed.

Lemma shallow : forall j p t, whole_subtree p = false -> apply_policy j p t = (do d' <- apply_here j p (s_desc t); Ok (SNode d' (s_chd t))).
Proof. intros j [] t W; try discriminate; reflexivity. Qed.
Lemma deep : forall j p t, whole_subtree p = true -> apply_policy j p t = Ok (apply_all j p t).
Proof. intros j [] t W; try discriminate; reflexivity. Qed.

Lemma np_skip : forall p q, np_is_prefix p q = true -> exists s, q = p ++ s.
Proof. intros p q H. apply np_is_prefix_iff in H. exact H. Qed.
Lemma prefix_of_app : forall p s, np_is_prefix (p ++ s) p = match s with [] => true | _ => false end.
Proof.
  intros p s. destruct s as [|e s]; [rewrite app_nil_r; apply np_prefix_refl|]. destruct (np_is_prefix (p ++ e :: s) p) eqn:E; [|reflexivity].
  apply np_skip in E. destruct E as [z E]. apply (f_equal (@length pat)) in E. rewrite !app_length in E. cbn in E. lia.
Qed.
Lemma prefix_app_self : forall p s, np_is_prefix p (p ++ s) = true.
Proof. intros. apply np_is_prefix_iff. eauto. Qed.

Lemma listens_desc : forall t t' q f, option_map s_desc (at_path q t') = option_map s_desc (at_path q t) -> listens t' q f = listens t q f.
Proof. intros t t' q f H. unfold listens. destruct (at_path q t'), (at_path q t); cbn [option_map] in H; try discriminate; [injection H as E; rewrite E|]; reflexivity. Qed.

Lemma one_policy : forall j p pol t t', change_at p (apply_policy j pol) t = Ok t' -> forall q f,
  listens t' q f = option_map (fun x => x ++ (if concerns p pol q then map (LPol j) (tells pol f) else [])) (listens t q f)
  /\ (at_path q t' = None <-> at_path q t = None).
Proof.
  intros j p pol t t' H q f. destruct (change_at_ok _ _ _ _ _ H) as (u & u' & A & G & B & C). unfold concerns. destruct (np_is_prefix p q) eqn:P.
  - apply np_skip in P. destruct P as [s ->]. destruct (whole_subtree pol) eqn:W.
    + rewrite (deep _ _ _ W) in G. injection G as <-. split.
      * pose proof (all_listens j pol s u f W) as L. unfold listens in *. rewrite B, at_app, A. exact L.
      * rewrite B, at_app, A, at_all. destruct (at_path s u); cbn [option_map]; split; intros Z; try discriminate Z; reflexivity.
    + rewrite (shallow _ _ _ W) in G. destruct (apply_here j pol (s_desc u)) as [d'| | |] eqn:E; try discriminate. injection G as <-. rewrite prefix_of_app. destruct s as [|e s]; cbn [andb].
      * split; [|rewrite B, at_app, A; cbn [at_path]; split; congruence]. unfold listens. rewrite B, at_app, A. cbn [at_path s_desc]. apply (here_get j pol _ _ E).
      * split; [|rewrite B, at_app, A; cbn [at_path s_chd]; split; auto]. rewrite add_nil_map. unfold listens. rewrite B, at_app, A. reflexivity.
  - assert (X : (if whole_subtree pol then false else false && np_is_prefix q p) = false) by (destruct (whole_subtree pol); reflexivity). rewrite X, add_nil_map. split; [apply listens_desc; auto|].
    specialize (C q P). destruct (at_path q t'), (at_path q t); cbn [option_map] in C; split; intros; try discriminate; reflexivity.
Qed.

Lemma policies_listen : forall pols j t t', inst_policies j pols t = Ok t' -> forall q f,
  listens t' q f = option_map (fun x => x ++ told j pols q f) (listens t q f) /\ (at_path q t' = None <-> at_path q t = None).
Proof.
  induction pols as [|[p pol] l IH]; intros j t t' H q f; cbn [inst_policies told] in *.
  - injection H as <-. rewrite add_nil_map. split; [reflexivity|tauto].
  - destruct (change_at p (apply_policy j pol) t) as [t1| | |] eqn:E; try discriminate. cbn [bind] in H. destruct (IH _ _ _ H q f) as [L1 A1]. destruct (one_policy _ _ _ _ _ E q f) as [L2 A2].
    split; [|tauto]. rewrite L1, L2. destruct (listens t q f); cbn [option_map]; [rewrite app_assoc|]; reflexivity.
Qed.

Lemma policy_ok : forall j pol u, (exists u', apply_policy j pol u = Ok u') <-> usable pol /\ forall f, In f (needs pol) -> n_get (s_desc u) f <> None.
Proof.
  intros j pol u. destruct (whole_subtree pol) eqn:W.
  - rewrite (deep _ _ _ W). rewrite <- (here_ok j). split; [intros _; apply deep_here; auto|eauto].
  - rewrite (shallow _ _ _ W), <- (here_ok j). split; intros [x H].
    + destruct (apply_here j pol (s_desc u)); try discriminate. eauto.
    + rewrite H. cbn [bind]. eauto.
Qed.

Lemma change_appliable : forall j p pol t, (exists t', change_at p (apply_policy j pol) t = Ok t') <-> appliable t (p, pol).
Proof.
  intros j p pol t. rewrite change_ok. unfold appliable, listens. cbn [fst snd]. split.
  - intros (u & u' & A & G). destruct (proj1 (policy_ok j pol u)) as [U N]; [eauto|]. rewrite A. split; [discriminate|]. auto.
  - intros (A & U & N). destruct (at_path p t) as [u|]; [|congruence]. destruct (proj2 (policy_ok j pol u)) as [u' G]; [auto|]. eauto.
Qed.

Lemma policies_ok : forall pols j t, (exists t', inst_policies j pols t = Ok t') <-> Forall (appliable t) pols.
Proof.
  induction pols as [|[p pol] l IH]; intros j t; cbn [inst_policies].
  - split; [intros; constructor|eauto].
  - assert (SAME : forall t1, change_at p (apply_policy j pol) t = Ok t1 -> forall x, appliable t1 x <-> appliable t x).
    { intros t1 E x. unfold appliable. destruct (one_policy _ _ _ _ _ E (fst x) EvAttach) as [_ A]. rewrite A.
      assert (L : forall f, listens t1 (fst x) f <> None <-> listens t (fst x) f <> None).
      { intros f. destruct (one_policy _ _ _ _ _ E (fst x) f) as [L _]. rewrite L. destruct (listens t (fst x) f); cbn [option_map]; split; congruence. }
      split; intros (X & Y & Z); (split; [auto|]; split; [auto|]); intros f I; apply L; auto. }
    split.
    + intros [t' H]. destruct (change_at p (apply_policy j pol) t) as [t1| | |] eqn:E; try discriminate. cbn [bind] in H. constructor; [apply (change_appliable j); eauto|].
      assert (F : Forall (appliable t1) l) by (apply (IH (S j)); eauto). eapply Forall_impl; [|exact F]. intros x. apply SAME; auto.
    + intros F. inversion F as [|? ? F1 F2]; subst. apply (change_appliable j) in F1. destruct F1 as [t1 E]. rewrite E. cbn [bind]. apply IH. eapply Forall_impl; [|exact F2]. intros x. apply SAME; auto.
Qed.

Lemma change_res : forall D p (g : stree D -> res (stree D)) t, (forall u, (exists u', g u = Ok u') \/ g u = Panic) -> (exists t', change_at p g t = Ok t') \/ change_at p g t = Panic.
Proof.
  intros D p g. induction p as [|e p IH]; intros t G; cbn [change_at]; [apply G|]. destruct (find_edge _ (s_chd t)) as [[x c]|]; [|auto]. destruct (IH c G) as [[c' E]|E]; rewrite E; cbn [bind]; eauto.
Qed.
Lemma must_res : forall d f l, (exists d', add_must d f l = Ok d') \/ add_must d f l = Panic.
Proof. intros. unfold add_must. destruct (n_get d f); eauto. Qed.
Lemma here_res : forall j p d, (exists d', apply_here j p d = Ok d') \/ apply_here j p d = Panic.
Proof.
  intros j p d. destruct p as [[|] m| | |key|key|ks|ks path]; cbn [apply_here]; try apply must_res; eauto.
  - destruct key; [auto|]. apply must_res.
  - destruct key; [auto|]. destruct (must_res (add_if d EvIntSigner (LPol j HGetIntSigner)) EvValInt (LPol j HValInt)) as [[d1 E]|E]; rewrite E; cbn [bind]; [apply must_res|auto].
Qed.
Lemma policy_res : forall j pol u, (exists u', apply_policy j pol u = Ok u') \/ apply_policy j pol u = Panic.
Proof.
  intros j pol u. destruct (whole_subtree pol) eqn:W; [rewrite (deep _ _ _ W); eauto|]. rewrite (shallow _ _ _ W). destruct (here_res j pol (s_desc u)) as [[d E]|E]; rewrite E; cbn [bind]; eauto.
Qed.
Lemma policies_res : forall pols j t, (exists t', inst_policies j pols t = Ok t') \/ inst_policies j pols t = Panic.
Proof.
  induction pols as [|[p pol] l IH]; intros j t; cbn [inst_policies]; [eauto|]. destruct (change_res _ p (apply_policy j pol) t (policy_res j pol)) as [[t1 E]|E]; rewrite E; cbn [bind]; auto.
Qed.

(** ** events of nodes *)

Lemma lookup_in : forall A (l : list (buf * A)) k v, lookup l k = Some v -> In (k, v) l.
Proof.
  intros A l k v H. unfold lookup in H. destruct (find _ l) as [[k' v']|] eqn:F; [|discriminate]. injection H as <-. apply List.find_some in F. destruct F as [I E]. cbn [fst] in E. apply bytes_eqb_eq in E. subst. exact I.
Qed.

Lemma callbacks_named : forall env names l, callbacks env names = Ok l -> named env names (map LCb l).
Proof.
  intros env names. induction names as [|x names IH]; intros l H; cbn [callbacks] in H; [injection H as <-; constructor|].
  destruct (env x) as [c|] eqn:E; [|discriminate]. destruct (callbacks env names) as [r| | |]; try discriminate. injection H as <-. cbn [map]. constructor; auto.
Qed.
Lemma named_callbacks : forall env names l, named env names l -> exists r, callbacks env names = Ok r /\ l = map LCb r.
Proof. intros env names l H. induction H as [|x c names l E H (r & C & ->)]; cbn [callbacks]; [exists []; auto|]. rewrite E, C. cbn [bind]. exists (c :: r). auto. Qed.

Lemma lookup_cons : forall A (k : buf) (v : A) l x, lookup ((k, v) :: l) x = if bytes_eqb k x then Some v else lookup l x.
Proof. intros. unfold lookup. cbn [find fst]. destruct (bytes_eqb k x); reflexivity. Qed.
Lemma lookup_none : forall A (l : list (buf * A)) k, ~ In k (map fst l) -> lookup l k = None.
Proof.
  intros A l k N. destruct (lookup l k) eqn:E; [|reflexivity]. exfalso. apply N. apply lookup_in in E. apply in_map_iff. exists (k, a). auto.
Qed.

Lemma set_events_get : forall env c evs d d', NoDup (map fst evs) -> (forall k k' f, lookup (c_events c) k = Some f -> lookup (c_events c) k' = Some f -> k = k') ->
  set_events env c evs d = Ok d' ->
  (forall k f, lookup (c_events c) k = Some f -> match lookup evs k with
     | Some names => exists own l, n_get d f = Some own /\ named env names l /\ n_get d' f = Some (own ++ l)
     | None => n_get d' f = n_get d f end)
  /\ (forall f, (forall k, lookup (c_events c) k <> Some f) -> n_get d' f = n_get d f).
Proof.
  intros env c. induction evs as [|[k names] evs IH]; intros d d' ND INJ H; cbn [set_events] in H.
  - injection H as <-. split; [intros k f E; reflexivity|auto].
  - cbn [map fst] in ND. inversion ND as [|? ? NI ND']; subst. destruct (callbacks env names) as [cbs| | |] eqn:CB; try discriminate. cbn [bind] in H.
    destruct (lookup (c_events c) k) as [f0|] eqn:LK; [|discriminate]. destruct (n_get d f0) as [own|] eqn:G; [|discriminate].
    destruct (IH _ _ ND' INJ H) as [P1 P2]. split.
    + intros k' f E. rewrite lookup_cons. destruct (bytes_eqb k k') eqn:KK.
      * apply bytes_eqb_eq in KK. subst k'. rewrite LK in E. injection E as <-. specialize (P1 k f0 LK). rewrite (lookup_none _ _ _ NI) in P1. exists own, (map LCb cbs).
        split; [auto|]. split; [apply callbacks_named; auto|]. rewrite P1, n_get_add, ev_eqb_refl, G. reflexivity.
      * assert (NF : f0 <> f) by (intros ->; rewrite (INJ k k' f LK E), (proj2 (bytes_eqb_eq k' k') eq_refl) in KK; discriminate).
        specialize (P1 k' f E). rewrite n_get_add, (ev_eqb_neq _ _ NF) in P1. exact P1.
    + intros f NK. rewrite (P2 f NK), n_get_add. rewrite ev_eqb_neq; [reflexivity|]. intros ->. apply (NK k). exact LK.
Qed.

Lemma set_events_ok : forall env c evs d, (forall k f, lookup (c_events c) k = Some f -> n_get d f <> None) ->
  ((exists d', set_events env c evs d = Ok d') <-> forall k names, In (k, names) evs -> lookup (c_events c) k <> None /\ forall x, In x names -> env x <> None).
Proof.
  intros env c. assert (CB : forall names, (exists r, callbacks env names = Ok r) <-> forall x, In x names -> env x <> None).
  { induction names as [|x names IH]; cbn [callbacks]; [split; [intros _ x []|eauto]|]. destruct (env x) as [n|] eqn:E.
    - split.
      + intros [r H]. destruct (callbacks env names) as [r'| | |]; try discriminate. intros y [<-|I]; [congruence|]. apply IH; eauto.
      + intros H. destruct (proj2 IH) as [r R]; [intros; apply H; right; auto|]. rewrite R. cbn [bind]. eauto.
    - split; [intros [? H]; discriminate|]. intros H. exfalso. apply (H x); [left; auto|auto]. }
  induction evs as [|[k names] evs IH]; intros d HAS; cbn [set_events].
  - split; [intros _ k names []|eauto].
  - split.
    + intros [d' H]. destruct (callbacks env names) as [cbs| | |] eqn:C; try discriminate. cbn [bind] in H. destruct (lookup (c_events c) k) as [f|] eqn:L; [|discriminate].
      destruct (n_get d f) eqn:G; [|discriminate]. intros k' names' [E|I].
      * injection E as <- <-. split; [congruence|]. apply CB. eauto.
      * revert k' names' I. apply (IH (n_add d f (map LCb cbs))); [|eauto]. intros k' f' E. apply n_add_has. eauto.
    + intros H. destruct (H k names (or_introl eq_refl)) as [LK EN]. apply CB in EN. destruct EN as [cbs C]. rewrite C. cbn [bind].
      destruct (lookup (c_events c) k) as [f|] eqn:L; [|congruence]. destruct (n_get d f) eqn:G; [|exfalso; apply (HAS k f L G)].
      apply IH; [intros k' f' E; apply n_add_has; eauto|]. intros k' names' I. apply H. right. auto.
Qed.

Section Nodes.
  Variable register : buf -> option eclass.
  Variable base : ndesc.
  Variable env : buf -> option N.
  Let tdesc := tree_desc ndesc.

  Lemma put_keeps : forall p new r r' q d, put_tree base p new r = Ok r' -> tdesc r q = Some d -> tdesc r' q = Some d.
  Proof.
    intros p new r r' q d H T. unfold tdesc in *. rewrite (put_tree_at _ _ _ _ _ _ H). destruct (np_is_prefix p q) eqn:P.
    - exfalso. apply np_skip in P. destruct P as [s ->]. destruct r as [t|]; [|discriminate T]. cbn [tree_desc] in T. unfold desc_at in T. rewrite at_app in T. destruct p as [|e p]; [discriminate|].
      unfold put_tree in H. assert (X : at_path (e :: p) t <> None) by (destruct (at_path (e :: p) t); [discriminate|discriminate T]).
      rewrite (put_panics _ _ _ _ _ X) in H. discriminate.
    - rewrite T. destruct (np_is_prefix q p); reflexivity.
  Qed.

  Lemma nodes_keep : forall l r r' q d, inst_nodes register base env l r = Ok r' -> tdesc r q = Some d -> tdesc r' q = Some d.
  Proof.
    induction l as [|[p [cls evs]] l IH]; intros r r' q d H T; cbn [inst_nodes] in H; [injection H as <-; auto|].
    destruct (one_node register env cls evs) as [new| | |]; try discriminate. cbn [bind] in H. destruct (put_tree base p new r) as [r1| | |] eqn:P; try discriminate. cbn [bind] in H.
    apply (IH r1 r'); auto. apply (put_keeps p new r r1); auto.
  Qed.

  Lemma put_new : forall p new r r' q, put_tree base p new r = Ok r' -> tdesc r' (p ++ q) = desc_at q new.
  Proof.
    intros p new r r' q H. unfold tdesc. rewrite (put_tree_at _ _ _ _ _ _ H), prefix_app_self. f_equal. clear. induction p; cbn; auto.
  Qed.

  (** every node described is there, with the tree of its class *)
  Lemma nodes_there : forall l r r' p cls evs, inst_nodes register base env l r = Ok r' -> In (p, (cls, evs)) l ->
    exists new, one_node register env cls evs = Ok new /\ forall q d, desc_at q new = Some d -> tdesc r' (p ++ q) = Some d.
  Proof.
    induction l as [|[p [cls evs]] l IH]; intros r r' p0 cls0 evs0 H I; [contradiction|]. cbn [inst_nodes] in H.
    destruct (one_node register env cls evs) as [new| | |] eqn:O; try discriminate. cbn [bind] in H. destruct (put_tree base p new r) as [r1| | |] eqn:P; try discriminate. cbn [bind] in H.
    destruct I as [E|I]; [|apply (IH r1 r'); auto]. injection E as <- <- <-. exists new. split; [auto|]. intros q d Q. apply (nodes_keep l r1 r'); auto. rewrite (put_new _ _ _ _ q P). exact Q.
  Qed.

  (** and there are no others, except base nodes on the way *)
  Lemma nodes_only : forall l r r' q d, inst_nodes register base env l r = Ok r' -> tdesc r' q = Some d ->
    tdesc r q = Some d \/ d = base \/ exists p cls evs new s, In (p, (cls, evs)) l /\ one_node register env cls evs = Ok new /\ q = p ++ s /\ desc_at s new = Some d.
  Proof.
    induction l as [|[p [cls evs]] l IH]; intros r r' q d H T; cbn [inst_nodes] in H; [injection H as <-; auto|].
    destruct (one_node register env cls evs) as [new| | |] eqn:O; try discriminate. cbn [bind] in H. destruct (put_tree base p new r) as [r1| | |] eqn:P; try discriminate. cbn [bind] in H.
    destruct (IH _ _ _ _ H T) as [T1|[E|(p' & cls' & evs' & new' & s & I & O' & Q & DA)]].
    - unfold tdesc in T1. rewrite (put_tree_at _ _ _ _ _ _ P) in T1. destruct (np_is_prefix p q) eqn:PQ.
      + apply np_skip in PQ. destruct PQ as [s ->]. right. right. exists p, cls, evs, new, s. split; [left; auto|]. split; [auto|]. split; [auto|]. rewrite <- T1. f_equal. clear. induction p; cbn; auto.
      + destruct (np_is_prefix q p); [|auto]. unfold tdesc. destruct (tree_desc ndesc r q) eqn:TR; injection T1 as <-; auto.
    - auto.
    - right. right. exists p', cls', evs', new', s. split; [right; auto|]. auto.
  Qed.

  Lemma one_node_described : forall cls evs c new, register cls = Some c -> good_class c -> NoDup (map fst evs) -> one_node register env cls evs = Ok new ->
    described env c evs (s_desc new) /\ s_chd new = s_chd (c_new c).
  Proof.
    intros cls evs c new R [INJ HAS] ND H. unfold one_node in H. rewrite R in H. destruct (set_events env c evs (s_desc (c_new c))) as [d| | |] eqn:S; try discriminate. injection H as <-. cbn [s_desc s_chd].
    split; [|reflexivity]. destruct (set_events_get _ _ _ _ _ ND INJ S) as [P1 P2]. split; [|exact P2].
    intros k f own L G. specialize (P1 k f L). destruct (lookup evs k) as [names|].
    - destruct P1 as (own' & l & G' & NM & E). rewrite G in G'. injection G' as <-. eauto.
    - rewrite P1. exact G.
  Qed.
  Lemma one_node_ok : forall cls evs, (forall c, register cls = Some c -> good_class c) ->
    ((exists new, one_node register env cls evs = Ok new) <-> exists c, register cls = Some c /\ forall k names, In (k, names) evs -> lookup (c_events c) k <> None /\ forall x, In x names -> env x <> None).
  Proof.
    intros cls evs G. unfold one_node. destruct (register cls) as [c|] eqn:R.
    - destruct (G c eq_refl) as [_ HAS]. pose proof (set_events_ok env c evs (s_desc (c_new c)) HAS) as S. split.
      + intros [new H]. exists c. split; [auto|]. apply S. destruct (set_events env c evs (s_desc (c_new c))); try discriminate. eauto.
      + intros (c' & E & H). injection E as <-. apply S in H. destruct H as [d E]. rewrite E. cbn [bind]. eauto.
    - split; [intros [? H]; discriminate|intros (c & E & _); discriminate].
  Qed.
End Nodes.

(** ** the classes of the library *)
Definition good_classb (c : eclass) : bool :=
  forallb (fun x => match n_get (s_desc (c_new c)) (snd x) with Some _ => true | None => false end) (c_events c)
  && forallb (fun x => forallb (fun y => negb (ev_eqb (snd x) (snd y)) || bytes_eqb (fst x) (fst y)) (c_events c)) (c_events c).
Lemma good_classb_ok : forall c, good_classb c = true -> good_class c.
Proof.
  intros c H. unfold good_classb in H. apply andb_prop in H. destruct H as [A B]. rewrite forallb_forall in A, B. split.
  - intros k k' f L L'. apply lookup_in in L, L'. specialize (B _ L). rewrite forallb_forall in B. specialize (B _ L'). cbn [fst snd] in B. rewrite ev_eqb_refl in B. cbn [negb orb] in B. apply bytes_eqb_eq in B. exact B.
  - intros k f L E. apply lookup_in in L. specialize (A _ L). cbn [snd] in A. rewrite E in A. discriminate.
Qed.
Lemma registered_good : forall cls c, registered cls = Some c -> good_class c.
Proof.
  intros cls c H. apply lookup_in in H. apply good_classb_ok. assert (F : forallb (fun x => good_classb (snd x)) all_classes = true) by (vm_compute; reflexivity).
  rewrite forallb_forall in F. exact (F _ H).
Qed.

(** ** nodes and policies together *)
Section Inst.
  Variable register : buf -> option eclass.
  Variable base : ndesc.
  Variable env : buf -> option N.

  Lemma inst_parts : forall nodes pols t, inst register base env nodes pols = Ok (Some t) ->
    exists t0, inst_nodes register base env nodes None = Ok (Some t0) /\ inst_policies 0 pols t0 = Ok t.
  Proof.
    intros nodes pols t H. unfold inst in H. destruct (inst_nodes register base env nodes None) as [[t0|]| | |] eqn:E; try discriminate; cbn [bind] in H.
    - exists t0. split; [reflexivity|]. destruct pols; [injection H as <-; reflexivity|]. destruct (inst_policies 0 (p :: pols) t0) as [t1| | |]; try discriminate. injection H as <-. reflexivity.
    - destruct pols; discriminate.
  Qed.
  Lemma listens_tdesc : forall t q f, listens t q f = match tree_desc ndesc (Some t) q with Some d => n_get d f | None => None end.
  Proof. intros. unfold listens, tree_desc, desc_at. destruct (at_path q t); reflexivity. Qed.

  Lemma inst_node : forall nodes pols t p cls evs c, inst register base env nodes pols = Ok (Some t) -> In (p, (cls, evs)) nodes ->
    register cls = Some c -> good_class c -> NoDup (map fst evs) ->
    forall k f own, lookup (c_events c) k = Some f -> n_get (s_desc (c_new c)) f = Some own ->
    exists l, match lookup evs k with Some names => named env names l | None => l = [] end /\ listens t p f = Some (own ++ l ++ told 0 pols p f).
  Proof.
    intros nodes pols t p cls evs c H I R G ND k f own L OWN. destruct (inst_parts _ _ _ H) as (t0 & E0 & E1). destruct (nodes_there _ _ _ _ _ _ _ _ _ E0 I) as (new & O & TH).
    destruct (one_node_described _ _ _ _ _ _ R G ND O) as [[D1 D2] _]. specialize (TH [] (s_desc new) eq_refl). rewrite app_nil_r in TH. destruct (policies_listen _ _ _ _ E1 p f) as [PL _]. rewrite (listens_tdesc t0), TH in PL.
    specialize (D1 k f own L OWN). destruct (lookup evs k) as [names|].
    - destruct D1 as (l & NM & GD). exists l. split; [exact NM|]. rewrite PL, GD. cbn [option_map]. rewrite <- app_assoc. reflexivity.
    - exists []. split; [reflexivity|]. rewrite PL, D1. reflexivity.
  Qed.
  Lemma chd_desc : forall (a b : etree) e q, s_chd a = s_chd b -> desc_at (e :: q) a = desc_at (e :: q) b.
  Proof. intros a b e q H. unfold desc_at. cbn [at_path]. rewrite H. reflexivity. Qed.
  Lemma inst_inner : forall nodes pols t p cls evs c, inst register base env nodes pols = Ok (Some t) -> In (p, (cls, evs)) nodes ->
    register cls = Some c -> good_class c -> NoDup (map fst evs) ->
    forall e q d f, desc_at (e :: q) (c_new c) = Some d -> listens t (p ++ e :: q) f = option_map (fun x => x ++ told 0 pols (p ++ e :: q) f) (n_get d f).
  Proof.
    intros nodes pols t p cls evs c H I R G ND e q d f DA. destruct (inst_parts _ _ _ H) as (t0 & E0 & E1). destruct (nodes_there _ _ _ _ _ _ _ _ _ E0 I) as (new & O & TH).
    destruct (one_node_described _ _ _ _ _ _ R G ND O) as [_ CH]. rewrite <- (chd_desc new (c_new c) e q CH) in DA. apply TH in DA. destruct (policies_listen _ _ _ _ E1 (p ++ e :: q) f) as [PL _]. rewrite (listens_tdesc t0), DA in PL. exact PL.
  Qed.
  Lemma inst_others : forall nodes pols t q, inst register base env nodes pols = Ok (Some t) -> at_path q t <> None ->
    (forall f, listens t q f = option_map (fun x => x ++ told 0 pols q f) (n_get base f))
    \/ exists p cls evs c s, In (p, (cls, evs)) nodes /\ register cls = Some c /\ q = p ++ s /\ at_path s (c_new c) <> None.
  Proof.
    intros nodes pols t q H A. destruct (inst_parts _ _ _ H) as (t0 & E0 & E1). pose proof (fun f => policies_listen _ _ _ _ E1 q f) as PL.
    destruct (tree_desc ndesc (Some t0) q) as [d|] eqn:T.
    - destruct (nodes_only _ _ _ _ _ _ _ _ E0 T) as [X|[->|(p & cls & evs & new & s & I & O & -> & DA)]].
      + discriminate X.
      + left. intros f. destruct (PL f) as [P _]. rewrite (listens_tdesc t0), T in P. exact P.
      + right. unfold one_node in O. destruct (register cls) as [c|] eqn:R; [|discriminate]. exists p, cls, evs, c, s. split; [auto|]. split; [auto|]. split; [auto|].
        destruct (set_events env c evs (s_desc (c_new c))) as [d'| | |]; try discriminate. injection O as <-. destruct s as [|e s]; [discriminate|]. rewrite (chd_desc _ (c_new c)) in DA by reflexivity. unfold desc_at in DA. destruct (at_path (e :: s) (c_new c)); [discriminate|discriminate DA].
    - exfalso. apply A. apply (PL EvAttach). unfold tree_desc, desc_at in T. destruct (at_path q t0); [discriminate|reflexivity].
  Qed.

  Lemma callbacks_res : forall names, (exists l, callbacks env names = Ok l) \/ callbacks env names = Panic.
  Proof. induction names as [|x names [[l E]|E]]; cbn [callbacks]; eauto; destruct (env x); auto; rewrite E; cbn [bind]; eauto. Qed.
  Lemma set_events_res : forall c evs d, (exists d', set_events env c evs d = Ok d') \/ set_events env c evs d = Panic.
  Proof.
    intros c. induction evs as [|[k names] evs IH]; intros d; cbn [set_events]; [eauto|]. destruct (callbacks_res names) as [[l E]|E]; rewrite E; cbn [bind]; [|auto]. destruct (lookup (c_events c) k); [|auto]. destruct (n_get d e); auto.
  Qed.
  Lemma put_node_res : forall p new (t : etree), (exists t', put_node base p new t = Ok t') \/ put_node base p new t = Panic.
  Proof.
    induction p as [|e p IH]; intros new t; cbn [put_node]; [auto|]. destruct (find_edge _ (s_chd t)) as [[x u]|].
    - destruct (IH new u) as [[u' E]|E]; rewrite E; cbn [bind]; eauto.
    - destruct p as [|e' p]; [eauto|]. destruct (IH new (SNode base [])) as [[u' E]|E]; rewrite E; cbn [bind]; eauto.
  Qed.
  Lemma inst_nodes_res : forall l r, (exists r', inst_nodes register base env l r = Ok r') \/ inst_nodes register base env l r = Panic.
  Proof.
    induction l as [|[p [cls evs]] l IH]; intros r; cbn [inst_nodes]; [eauto|]. assert (O : (exists new, one_node register env cls evs = Ok new) \/ one_node register env cls evs = Panic).
    { unfold one_node. destruct (register cls) as [c|]; [|auto]. destruct (set_events_res c evs (s_desc (c_new c))) as [[d E]|E]; rewrite E; cbn [bind]; eauto. }
    destruct O as [[new O]|O]; rewrite O; cbn [bind]; [|auto]. assert (P : (exists r', put_tree base p new r = Ok r') \/ put_tree base p new r = Panic).
    { destruct p as [|e p]; cbn [put_tree]; [destruct r; eauto|]. match goal with |- context [bind (put_node base _ _ ?X) _] => destruct (put_node_res (e :: p) new X) as [[t E]|E] end; rewrite E; cbn [bind]; eauto. }
    destruct P as [[r' P]|P]; rewrite P; cbn [bind]; auto.
  Qed.
  Lemma inst_res : forall nodes pols, (exists r, inst register base env nodes pols = Ok r) \/ inst register base env nodes pols = Panic.
  Proof.
    intros nodes pols. unfold inst. destruct (inst_nodes_res nodes None) as [[[t|] E]|E]; rewrite E; cbn [bind]; auto; destruct pols as [|x pols]; eauto.
    destruct (policies_res (x :: pols) 0 t) as [[t' E1]|E1]; rewrite E1; cbn [bind]; eauto.
  Qed.

  (** order *)
  Lemma inst_nodes_inst : forall l news, Forall2 (fun x y => fst x = fst y /\ one_node register env (fst (snd x)) (snd (snd x)) = Ok (snd y)) l news ->
    forall r, inst_nodes register base env l r = instantiate base news r.
  Proof.
    induction 1 as [|[p [cls evs]] [p' new] l news [E O] F IH]; intros r; cbn [inst_nodes instantiate]; [reflexivity|]. cbn [fst snd] in E, O. subst p'. rewrite O. cbn [bind]. destruct (put_tree base p new r); cbn [bind]; auto.
  Qed.
  Lemma forall2_perm : forall A B (R : A -> B -> Prop) l l', Permutation l l' -> forall m, Forall2 R l m -> exists m', Permutation m m' /\ Forall2 R l' m'.
  Proof.
    induction 1 as [|x l l' P IH|x y l|l l' l'' P IH P' IH']; intros m F.
    - inversion F; subst. exists []. auto.
    - inversion F as [|? z ? m0 R1 F1]; subst. destruct (IH m0 F1) as (m' & PM & FM). exists (z :: m'). auto.
    - inversion F as [|? z ? m0 R1 F1]; subst. inversion F1 as [|? z2 ? m1 R2 F2]; subst. exists (z2 :: z :: m1). split; [apply perm_swap|]. auto.
    - destruct (IH m F) as (m1 & P1 & F1). destruct (IH' m1 F1) as (m2 & P2 & F2). exists m2. split; [eapply perm_trans; eauto|auto].
  Qed.
  Lemma at_tdesc : forall t q, at_path q t = None <-> tree_desc ndesc (Some t) q = None.
  Proof. intros. unfold tree_desc, desc_at. destruct (at_path q t); cbn [option_map]; split; intros Z; try discriminate Z; reflexivity. Qed.

  Lemma inst_order : forall nodes nodes' pols t, prefix_free (map fst nodes) -> Permutation nodes nodes' -> inst register base env nodes pols = Ok (Some t) ->
    exists t', inst register base env nodes' pols = Ok (Some t') /\ (forall q, at_path q t = None <-> at_path q t' = None) /\ forall q f, listens t' q f = listens t q f.
  Proof.
    intros nodes nodes' pols t PF PM H. destruct (inst_parts _ _ _ H) as (t0 & E0 & E1).
    assert (NEWS : forall l r r', inst_nodes register base env l r = Ok r' -> exists news, Forall2 (fun x y => fst x = fst y /\ one_node register env (fst (snd x)) (snd (snd x)) = Ok (snd y)) l news).
    { induction l as [|[p [cls evs]] l IH]; intros r r' E; cbn [inst_nodes] in E; [exists []; constructor|]. destruct (one_node register env cls evs) as [new| | |] eqn:O; try discriminate. cbn [bind] in E.
      destruct (put_tree base p new r) as [r1| | |]; try discriminate. cbn [bind] in E. destruct (IH _ _ E) as [news F]. exists ((p, new) :: news). constructor; [cbn [fst snd]; auto|exact F]. }
    destruct (NEWS _ _ _ E0) as [news F]. assert (MF : map fst nodes = map fst news) by (clear -F; induction F as [|x y l m [E _] F IH]; cbn [map]; [reflexivity|f_equal; [exact E|exact IH]]).
    destruct (forall2_perm _ _ _ _ _ PM _ F) as (news' & PM' & F'). rewrite MF in PF. destruct (inst_perm ndesc base news news' PF PM') as (r & r' & I1 & I2 & SAME).
    rewrite (inst_nodes_inst _ _ F) in E0. pose proof (eq_trans (eq_sym E0) I1) as X0. injection X0 as <-. pose proof (eq_trans (inst_nodes_inst _ _ F' None) I2) as X1. clear I2. rename X1 into I2.
    destruct r' as [t0'|].
    2: { exfalso. specialize (SAME []). cbn in SAME. discriminate. }
    assert (L0 : forall q f, listens t0' q f = listens t0 q f) by (intros; rewrite !listens_tdesc, SAME; reflexivity).
    assert (A0 : forall q, at_path q t0' = None <-> at_path q t0 = None) by (intros; rewrite !at_tdesc, SAME; tauto).
    assert (OKP : exists t', inst_policies 0 pols t0' = Ok t').
    { apply policies_ok. assert (Forall (appliable t0) pols) by (apply (policies_ok pols 0 t0); eauto). rewrite Forall_forall in *. intros x I. specialize (H0 x I). destruct H0 as (Q1 & Q2 & Q3). split; [rewrite A0; auto|]. split; [auto|]. intros f J. rewrite L0. auto. }
    destruct OKP as [t' E1']. exists t'. split; [|split].
    - unfold inst. rewrite I2. cbn [bind]. destruct pols as [|x pols]; [injection E1' as <-; reflexivity|]. rewrite E1'. reflexivity.
    - intros q. rewrite (proj2 (policies_listen _ _ _ _ E1 q EvAttach)), (proj2 (policies_listen _ _ _ _ E1' q EvAttach)), A0. tauto.
    - intros q f. rewrite (proj1 (policies_listen _ _ _ _ E1 q f)), (proj1 (policies_listen _ _ _ _ E1' q f)), L0. reflexivity.
  Qed.
End Inst.
