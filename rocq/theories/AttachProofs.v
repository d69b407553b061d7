From Verif Require Import Base BaseProofs NameModel NameProofs OrderProofs PatternProofs SchemaModel SchemaSpec SchemaProofs TrieModel TrieSpec TrieProofs FibModel FibSpec FibProofs PolModel PolSpec PolProofs AttachModel AttachSpec.

Definition etree_ind2 (P : etree -> Prop) (H : forall d c, (forall e u, In (e, u) c -> P u) -> P (SNode d c)) : forall t, P t :=
  fix go (t : etree) : P t :=
    match t with
    | SNode d c => H d c ((fix kids (l : list (pat * etree)) : forall e u, In (e, u) l -> P u :=
        match l with
        | [] => fun e u I => False_ind _ I
        | x :: l' => fun e u I => match I with
                                  | or_introl E => eq_ind (snd x) P (go (snd x)) u (f_equal snd E)
                                  | or_intror I' => kids l' e u I'
                                  end
        end) c)
    end.

(** ** listeners *)
Section Node.
  Variable root : etree.
  Variable prefix : name.
  Variable pols : nat -> policy.
  Variable w : answers.

  Definition steps (q : list pat) (l : lst) : list seen := SCall q l :: route_of prefix pols q l.

  Lemma call_steps : forall q n l a s, call_attach root prefix pols w q n l = (a, s) -> a <> APanic ->
    s = steps q l /\ a = match l with LPol _ _ => ANone | _ => w q n end.
  Proof.
    intros q n l a s H NP. unfold steps. destruct l as [c|h|j h]; cbn [call_attach route_of] in *; try (injection H as <- <-; auto; fail).
    destruct h; try (injection H as <- <-; auto; fail).
    destruct (pols j) as [reg m| | |key|key|ks|ks path]; try (injection H as <- <-; auto; fail).
    - destruct (apply_match prefix q m) as [nm|]; injection H as <- <-; [|congruence]. destruct (w q n); try congruence; auto.
    - destruct ks; injection H as <- <-; [auto|congruence].
    - destruct ks; [|injection H as <- <-; congruence]. destruct (at_path path root); injection H as <- <-; [auto|congruence].
  Qed.

  Lemma node_steps : forall ls q n s, node_attach root prefix pols w q n ls = (true, s) -> s = flat_map (steps q) (upto (w q) n ls).
  Proof.
    induction ls as [|l ls IH]; intros q n s H; cbn [node_attach upto flat_map] in *; [injection H as <-; reflexivity|].
    destruct (call_attach root prefix pols w q n l) as [a s1] eqn:C. destruct a; try discriminate.
    - destruct (call_steps _ _ _ _ _ C) as [-> A]; [discriminate|]. destruct (node_attach root prefix pols w q (S n) ls) as [ok s'] eqn:N. injection H as -> <-. apply IH in N. subst s'.
      destruct l; try rewrite <- A; reflexivity.
    - injection H as <-. destruct (call_steps _ _ _ _ _ C) as [-> A]; [discriminate|]. destruct l; try discriminate A; rewrite <- A; cbn [flat_map]; rewrite app_nil_r; reflexivity.
  Qed.

  Lemma node_works : forall ls q n, (forall k l, nth_error ls k = Some l -> works root pols w q (n + k) l) -> exists s, node_attach root prefix pols w q n ls = (true, s).
  Proof.
    induction ls as [|l ls IH]; intros q n H; cbn [node_attach]; [eauto|].
    assert (W := H O l eq_refl). rewrite Nat.add_0_r in W.
    assert (NEXT : exists s, node_attach root prefix pols w q (S n) ls = (true, s)).
    { apply IH. intros k l' E. specialize (H (S k) l' E). replace (S n + k)%nat with (n + S k)%nat by lia. exact H. }
    destruct NEXT as [s' NEXT].
    assert (A : exists a s, call_attach root prefix pols w q n l = (a, s) /\ (a = ANone \/ a = AErr)).
    { destruct l as [c|h|j h]; cbn [call_attach works] in *; try (do 2 eexists; split; [reflexivity|tauto]; fail).
      destruct h; try (do 2 eexists; split; [reflexivity|tauto]; fail).
      destruct (pols j) as [reg m| | |key|key|ks|ks path]; try (do 2 eexists; split; [reflexivity|tauto]; fail).
      - destruct W as [W1 W2]. destruct (proj2 (apply_iff prefix q m) W1) as [nm E]. rewrite E, W2. eauto.
      - subst ks. eauto.
      - destruct W as [-> W]. destruct (at_path path root); [eauto|congruence]. }
    destruct A as (a & s & E & [-> | ->]); rewrite E; [|eauto]. rewrite NEXT. eauto.
  Qed.

  Lemma attach_steps : forall t q s, on_attach root prefix pols w q t = (true, s) ->
    s = flat_map (fun x => flat_map (steps (fst x)) (upto (w (fst x)) 0 (attach_listeners (snd x)))) (post_order q t).
  Proof.
    induction t as [d c IH] using etree_ind2. intros q s H. cbn [on_attach post_order] in *.
    match type of H with (let '(_, _) := ?k c in _) = _ => set (kids := k) in H end.
    assert (K : forall l s0, (forall e u, In (e, u) l -> In (e, u) c) -> kids l = (true, s0) ->
      s0 = flat_map (fun x => flat_map (steps (fst x)) (upto (w (fst x)) 0 (attach_listeners (snd x)))) (flat_map (fun x => post_order (q ++ [fst x]) (snd x)) l)).
    { induction l as [|[e u] l IHl]; intros s0 IN E; cbn [flat_map fst snd].
      - injection E as <-. reflexivity.
      - cbn in E. destruct (on_attach root prefix pols w (q ++ [e]) u) as [ok1 s1] eqn:O1. destruct ok1; [|discriminate]. fold kids in E. destruct (kids l) as [ok2 s2] eqn:K2. injection E as -> <-.
        rewrite flat_map_app. f_equal; [apply (IH e u); [apply IN; left; auto|auto]|apply IHl; auto]. intros; apply IN; right; auto. }
    destruct (kids c) as [ok s1] eqn:KC. destruct ok; [|discriminate]. destruct (node_attach root prefix pols w q 0 (attach_listeners d)) as [ok' s'] eqn:N. injection H as -> <-.
    rewrite flat_map_app. f_equal; [apply K; auto|]. cbn [flat_map fst snd]. rewrite app_nil_r. apply node_steps. exact N.
  Qed.

  Lemma attach_works : forall t q, (forall x, In x (post_order q t) -> forall k l, nth_error (attach_listeners (snd x)) k = Some l -> works root pols w (fst x) k l) ->
    exists s, on_attach root prefix pols w q t = (true, s).
  Proof.
    induction t as [d c IH] using etree_ind2. intros q H. cbn [on_attach post_order] in *.
    match goal with |- exists s, (let '(_, _) := ?k c in _) = _ => set (kids := k) end.
    assert (K : forall l, (forall e u, In (e, u) l -> In (e, u) c) -> exists s0, kids l = (true, s0)).
    { induction l as [|[e u] l IHl]; intros IN; [exists []; reflexivity|]. cbn. fold kids. destruct (IH e u (IN e u (or_introl eq_refl)) (q ++ [e])) as [s1 E1].
      - intros x I. apply H. apply in_or_app. left. apply in_flat_map. exists (e, u). split; [apply IN; left; auto|exact I].
      - rewrite E1. destruct IHl as [s2 E2]; [intros; apply IN; right; auto|]. rewrite E2. eauto. }
    destruct (K c) as [s0 E]; [auto|]. rewrite E. destruct (node_works (attach_listeners d) q 0) as [s' E'].
    - intros k l NE. apply (H (q, d)); [apply in_or_app; right; left; auto|]. exact NE.
    - rewrite E'. eauto.
  Qed.

  Lemma detach_node_steps : forall ls q n s, node_detach w q n ls = (true, s) -> s = map (SCall q) ls.
  Proof.
    induction ls as [|l ls IH]; intros q n s H; cbn [node_detach map] in *; [injection H as <-; reflexivity|].
    destruct (node_detach w q (S n) ls) as [ok s'] eqn:N. destruct (w q n); try discriminate; injection H as -> <-; f_equal; eapply IH; eauto.
  Qed.
  Lemma detach_node_works : forall ls q n, (forall k, w q k <> APanic) -> exists s, node_detach w q n ls = (true, s).
  Proof.
    induction ls as [|l ls IH]; intros q n H; cbn [node_detach]; [eauto|]. destruct (IH q (S n) H) as [s E]. rewrite E. specialize (H n). destruct (w q n); try congruence; eauto.
  Qed.
  Lemma detach_steps : forall t q s, on_detach w q t = (true, s) -> s = flat_map (fun x => map (SCall (fst x)) (detach_listeners (snd x))) (pre_order q t).
  Proof.
    induction t as [d c IH] using etree_ind2. intros q s H. cbn [on_detach pre_order] in *.
    destruct (node_detach w q 0 (detach_listeners d)) as [ok s0] eqn:N. destruct ok; [|discriminate]. apply detach_node_steps in N. subst s0.
    match type of H with (let '(_, _) := ?k c in _) = _ => set (kids := k) in H end.
    assert (K : forall l s0, (forall e u, In (e, u) l -> In (e, u) c) -> kids l = (true, s0) ->
      s0 = flat_map (fun x => map (SCall (fst x)) (detach_listeners (snd x))) (flat_map (fun x => pre_order (q ++ [fst x]) (snd x)) l)).
    { induction l as [|[e u] l IHl]; intros s0 IN E; cbn [flat_map fst snd].
      - injection E as <-. reflexivity.
      - cbn in E. destruct (on_detach w (q ++ [e]) u) as [ok1 s1] eqn:O1. destruct ok1; [|discriminate]. fold kids in E. destruct (kids l) as [ok2 s2] eqn:K2. injection E as -> <-.
        rewrite flat_map_app. f_equal; [apply (IH e u); [apply IN; left; auto|auto]|apply IHl; auto]. intros; apply IN; right; auto. }
    destruct (kids c) as [ok' s'] eqn:KC. injection H as -> <-. cbn [flat_map fst snd]. f_equal. apply K; auto.
  Qed.
  Lemma detach_works : forall t q, (forall p k, w p k <> APanic) -> exists s, on_detach w q t = (true, s).
  Proof.
    induction t as [d c IH] using etree_ind2. intros q H. cbn [on_detach]. destruct (detach_node_works (detach_listeners d) q 0 (H q)) as [s E]. rewrite E.
    match goal with |- exists s, (let '(_, _) := ?k c in _) = _ => set (kids := k) end.
    assert (K : forall l, (forall e u, In (e, u) l -> In (e, u) c) -> exists s0, kids l = (true, s0)).
    { induction l as [|[e u] l IHl]; intros IN; [exists []; reflexivity|]. cbn. fold kids. destruct (IH e u (IN e u (or_introl eq_refl)) (q ++ [e]) H) as [s1 E1].
      rewrite E1. destruct IHl as [s2 E2]; [intros; apply IN; right; auto|]. rewrite E2. eauto. }
    destruct (K c) as [s0 E0]; [auto|]. rewrite E0. eauto.
  Qed.
End Node.

(** ** the order of the nodes *)

Lemma find_in : forall (c : list (pat * etree)) e u, NoDup (map fst c) -> (find_edge (fun x => pat_equal x e) c = Some (e, u) <-> In (e, u) c).
Proof.
  intros c e u. unfold find_edge. induction c as [|[x y] c IH]; intros ND; cbn [find fst In map] in *; [split; [discriminate|tauto]|]. inversion ND as [|? ? NI ND']; subst. destruct (pat_equal x e) eqn:E.
  - apply pat_equal_eq in E. subst x. split; [intros H; injection H as <-; auto|]. intros [H|H]; [injection H as <-; auto|]. exfalso. apply NI. apply in_map_iff. exists (e, u). auto.
  - rewrite (IH ND'). split; [auto|]. intros [H|H]; [|auto]. injection H as -> ->. rewrite eqb_same in E. discriminate.
Qed.
Lemma find_fst : forall (c : list (pat * etree)) e x u, find_edge (fun y => pat_equal y e) c = Some (x, u) -> x = e.
Proof. intros c e x u H. apply find_first in H. destruct H as [H _]. apply pat_equal_eq in H. exact H. Qed.

Lemma post_nodes : forall t, plain_tree t -> forall q x, In x (post_order q t) <-> exists s u, at_path s t = Some u /\ x = (q ++ s, s_desc u).
Proof.
  induction t as [d c IH] using etree_ind2. intros PL q x. inversion PL as [? ? ND KID]; subst. cbn [post_order]. rewrite in_app_iff, in_flat_map. split.
  - intros [([e u] & I & H)|[<-|[]]].
    + cbn [fst snd] in H. apply (IH e u I (KID e u I)) in H. destruct H as (s & v & A & ->). exists (e :: s), v. split; [|rewrite <- app_assoc; reflexivity]. cbn [at_path s_chd].
      rewrite (proj2 (find_in c e u ND) I). exact A.
    + exists [], (SNode d c). rewrite app_nil_r. split; reflexivity.
  - intros ([|e s] & u & A & ->).
    + injection A as <-. rewrite app_nil_r. right. left. reflexivity.
    + cbn [at_path s_chd] in A. destruct (find_edge (fun x => pat_equal x e) c) as [[x v]|] eqn:F; [|discriminate]. pose proof (find_fst _ _ _ _ F). subst x. apply find_in in F; [|auto].
      left. exists (e, v). split; [auto|]. cbn [fst snd]. apply (IH e v F (KID e v F)). exists s, u. split; [auto|]. rewrite <- app_assoc. reflexivity.
Qed.
Lemma pre_nodes : forall t, plain_tree t -> forall q x, In x (pre_order q t) <-> exists s u, at_path s t = Some u /\ x = (q ++ s, s_desc u).
Proof.
  induction t as [d c IH] using etree_ind2. intros PL q x. inversion PL as [? ? ND KID]; subst. cbn [pre_order In]. rewrite in_flat_map. split.
  - intros [<-|([e u] & I & H)].
    + exists [], (SNode d c). rewrite app_nil_r. split; reflexivity.
    + cbn [fst snd] in H. apply (IH e u I (KID e u I)) in H. destruct H as (s & v & A & ->). exists (e :: s), v. split; [|rewrite <- app_assoc; reflexivity]. cbn [at_path s_chd].
      rewrite (proj2 (find_in c e u ND) I). exact A.
  - intros ([|e s] & u & A & ->).
    + injection A as <-. rewrite app_nil_r. left. reflexivity.
    + cbn [at_path s_chd] in A. destruct (find_edge (fun x => pat_equal x e) c) as [[x v]|] eqn:F; [|discriminate]. pose proof (find_fst _ _ _ _ F). subst x. apply find_in in F; [|auto].
      right. exists (e, v). split; [auto|]. cbn [fst snd]. apply (IH e v F (KID e v F)). exists s, u. split; [auto|]. rewrite <- app_assoc. reflexivity.
Qed.

Lemma nodup_app : forall A (a b : list A), NoDup a -> NoDup b -> (forall x, In x a -> ~ In x b) -> NoDup (a ++ b).
Proof. induction a as [|x a IH]; intros b NA NB D; [auto|]. inversion NA; subst. cbn [app]. constructor; [|apply IH; auto]. rewrite in_app_iff. intros [I|I]; [auto|]. apply (D x); [left; auto|auto]. intros y I. apply D. right. auto. Qed.
Lemma nodup_flat : forall A B (f : A -> list B) (l : list A), (forall x, In x l -> NoDup (f x)) -> (forall l1 x l2 y l3, l = l1 ++ x :: l2 ++ y :: l3 -> forall z, In z (f x) -> ~ In z (f y)) -> NoDup (flat_map f l).
Proof.
  intros A B f. induction l as [|x l IH]; intros N D; cbn [flat_map]; [constructor|]. apply nodup_app; [apply N; left; auto|apply IH|].
  - intros y I. apply N. right. auto.
  - intros l1 y l2 z l3 E. apply (D (x :: l1) y l2 z l3). rewrite E. reflexivity.
  - intros z I J. apply in_flat_map in J. destruct J as (y & Iy & J). apply in_split in Iy. destruct Iy as (l2 & l3 & E). apply (D [] x l2 y l3) with (z := z); auto. rewrite E. reflexivity.
Qed.

Lemma flat_map_map : forall A B C (f : A -> list B) (g : B -> C) l, map g (flat_map f l) = flat_map (fun x => map g (f x)) l.
Proof. intros. induction l as [|x l IH]; cbn [flat_map map]; [reflexivity|]. rewrite map_app, IH. reflexivity. Qed.

Lemma app_inj : forall (q : list pat) a b, q ++ a = q ++ b -> a = b.
Proof. intros q a b H. apply app_inv_head in H. exact H. Qed.

Lemma kids_disjoint : forall (c : list (pat * etree)) l1 x l2 y l3, NoDup (map fst c) -> c = l1 ++ x :: l2 ++ y :: l3 -> fst x <> fst y.
Proof.
  intros c l1 x l2 y l3 ND ->. rewrite map_app in ND. cbn [map] in ND. apply NoDup_remove_2 in ND. intros E. apply ND. rewrite E. apply in_or_app. right. rewrite map_app. apply in_or_app. right. left. reflexivity.
Qed.

Lemma post_nodup : forall t, plain_tree t -> forall q, NoDup (map fst (post_order q t)).
Proof.
  induction t as [d c IH] using etree_ind2. intros PL q. inversion PL as [? ? ND KID]; subst. cbn [post_order]. rewrite map_app. apply nodup_app.
  - rewrite flat_map_map. apply nodup_flat.
    + intros [e u] I. apply (IH e u I (KID e u I)).
    + intros l1 x l2 y l3 E z I J. apply in_map_iff in I, J. destruct I as (a & <- & I), J as (b & E2 & J). destruct x as [e u], y as [e' u']. cbn [fst snd] in *.
      assert (IX : In (e, u) c) by (rewrite E; apply in_or_app; right; left; auto). assert (IY : In (e', u') c) by (rewrite E; apply in_or_app; right; right; apply in_or_app; right; left; auto).
      apply (post_nodes u (KID e u IX)) in I. apply (post_nodes u' (KID e' u' IY)) in J. destruct I as (s & v & _ & ->), J as (s' & v' & _ & ->). cbn [fst] in E2.
      rewrite <- !app_assoc in E2. apply app_inj in E2. injection E2 as E3 _. apply (kids_disjoint c l1 (e, u) l2 (e', u') l3 ND E). cbn [fst]. auto.
  - constructor; [intros []|constructor].
  - intros z I [E|[]]. cbn [fst] in E. subst z. apply in_map_iff in I. destruct I as (x & E & I). apply in_flat_map in I. destruct I as ([e u] & IE & I). cbn [fst snd] in I.
    apply (post_nodes u (KID e u IE)) in I. destruct I as (s & v & _ & ->). cbn [fst] in E. rewrite <- app_assoc in E. rewrite <- (app_nil_r q) in E at 2. apply app_inj in E. discriminate.
Qed.

(** a node comes after the nodes below it *)
Lemma post_after : forall t, plain_tree t -> forall q s u e s' u', at_path s t = Some u -> at_path (s ++ e :: s') t = Some u' ->
  exists l1 l2 l3, post_order q t = l1 ++ (q ++ s ++ e :: s', s_desc u') :: l2 ++ (q ++ s, s_desc u) :: l3.
Proof.
  induction t as [d c IH] using etree_ind2. intros PL q s u e s' u' A B. inversion PL as [? ? ND KID]; subst. cbn [post_order]. destruct s as [|f s].
  - injection A as <-. assert (I : In (q ++ e :: s', s_desc u') (post_order q (SNode d c))) by (apply (post_nodes _ PL); exists (e :: s'), u'; auto).
    cbn [post_order] in I. apply in_app_or in I. destruct I as [I|[E|[]]].
    + apply in_split in I. destruct I as (l1 & l2 & E). exists l1, l2, []. rewrite app_nil_r. cbn [app]. rewrite E. rewrite <- app_assoc. reflexivity.
    + exfalso. injection E as E _. rewrite <- (app_nil_r q) in E at 1. apply app_inj in E. discriminate.
  - cbn [at_path app s_chd] in A, B. destruct (find_edge (fun x => pat_equal x f) c) as [[x v]|] eqn:F; [|discriminate]. pose proof (find_fst _ _ _ _ F). subst x. apply find_in in F; [|auto].
    destruct (IH f v F (KID f v F) (q ++ [f]) s u e s' u' A B) as (l1 & l2 & l3 & E). apply in_split in F. destruct F as (c1 & c2 & ->).
    rewrite flat_map_app. cbn [flat_map fst snd]. rewrite E. rewrite <- !app_assoc. cbn [app].
    exists (flat_map (fun x => post_order (q ++ [fst x]) (snd x)) c1 ++ l1), l2, (l3 ++ flat_map (fun x => post_order (q ++ [fst x]) (snd x)) c2 ++ [(q, d)]). repeat (rewrite <- ?app_assoc; cbn [app]). reflexivity.
Qed.

Lemma pre_nodup : forall t, plain_tree t -> forall q, NoDup (map fst (pre_order q t)).
Proof.
  induction t as [d c IH] using etree_ind2. intros PL q. inversion PL as [? ? ND KID]; subst. cbn [pre_order map fst]. constructor.
  - intros I. apply in_map_iff in I. destruct I as (x & E & I). apply in_flat_map in I. destruct I as ([e u] & IE & I). cbn [fst snd] in I.
    apply (pre_nodes u (KID e u IE)) in I. destruct I as (s & v & _ & ->). cbn [fst] in E. rewrite <- app_assoc in E. rewrite <- (app_nil_r q) in E at 2. apply app_inj in E. discriminate.
  - rewrite flat_map_map. apply nodup_flat.
    + intros [e u] I. apply (IH e u I (KID e u I)).
    + intros l1 x l2 y l3 E z I J. apply in_map_iff in I, J. destruct I as (a & <- & I), J as (b & E2 & J). destruct x as [e u], y as [e' u']. cbn [fst snd] in *.
      assert (IX : In (e, u) c) by (rewrite E; apply in_or_app; right; left; auto). assert (IY : In (e', u') c) by (rewrite E; apply in_or_app; right; right; apply in_or_app; right; left; auto).
      apply (pre_nodes u (KID e u IX)) in I. apply (pre_nodes u' (KID e' u' IY)) in J. destruct I as (s & v & _ & ->), J as (s' & v' & _ & ->). cbn [fst] in E2.
      rewrite <- !app_assoc in E2. apply app_inj in E2. injection E2 as E3 _. apply (kids_disjoint c l1 (e, u) l2 (e', u') l3 ND E). cbn [fst]. auto.
Qed.
Lemma pre_before : forall t, plain_tree t -> forall q s u e s' u', at_path s t = Some u -> at_path (s ++ e :: s') t = Some u' ->
  exists l1 l2 l3, pre_order q t = l1 ++ (q ++ s, s_desc u) :: l2 ++ (q ++ s ++ e :: s', s_desc u') :: l3.
Proof.
  induction t as [d c IH] using etree_ind2. intros PL q s u e s' u' A B. inversion PL as [? ? ND KID]; subst. cbn [pre_order]. destruct s as [|f s].
  - injection A as <-. assert (I : In (q ++ e :: s', s_desc u') (pre_order q (SNode d c))) by (apply (pre_nodes _ PL); exists (e :: s'), u'; auto).
    cbn [pre_order] in I. destruct I as [E|I].
    + exfalso. injection E as E _. rewrite <- (app_nil_r q) in E at 1. apply app_inj in E. discriminate.
    + apply in_split in I. destruct I as (l1 & l2 & E). exists [], l1, l2. rewrite app_nil_r. cbn [app]. rewrite E. reflexivity.
  - cbn [at_path app s_chd] in A, B. destruct (find_edge (fun x => pat_equal x f) c) as [[x v]|] eqn:F; [|discriminate]. pose proof (find_fst _ _ _ _ F). subst x. apply find_in in F; [|auto].
    destruct (IH f v F (KID f v F) (q ++ [f]) s u e s' u' A B) as (l1 & l2 & l3 & E). apply in_split in F. destruct F as (c1 & c2 & ->).
    rewrite flat_map_app. cbn [flat_map fst snd]. rewrite E.
    exists ((q, d) :: flat_map (fun x => pre_order (q ++ [fst x]) (snd x)) c1 ++ l1), l2, (l3 ++ flat_map (fun x => pre_order (q ++ [fst x]) (snd x)) c2). repeat (rewrite <- ?app_assoc; cbn [app]). reflexivity.
Qed.

(** the edges on a path are edges of the tree *)
Fixpoint edges (t : etree) : list pat := let 'SNode _ c := t in flat_map (fun x => fst x :: edges (snd x)) c.
Lemma at_path_edges : forall q t u, at_path q t = Some u -> forall e, In e q -> In e (edges t).
Proof.
  induction q as [|e q IH]; intros [d c] u A x I; [destruct I|]. cbn [at_path s_chd] in A. destruct (find_edge (fun x => pat_equal x e) c) as [[y v]|] eqn:F; [|discriminate]. pose proof (find_fst _ _ _ _ F). subst y.
  apply List.find_some in F. destruct F as [F _]. cbn [edges]. apply in_flat_map. exists (e, v). split; [exact F|]. cbn [fst snd]. destruct I as [<-|I]; [left; reflexivity|right]. exact (IH v u A x I).
Qed.

(** trees of the code have different edges *)
Lemma set_edge_fst : forall e (u : etree) c, map fst (set_edge e u c) = map fst c.
Proof. intros e u. induction c as [|[x y] c IH]; cbn [set_edge map fst]; [reflexivity|]. destruct (pat_equal x e); cbn [map fst]; [reflexivity|f_equal; exact IH]. Qed.
Lemma set_edge_in : forall e (u : etree) c x v, In (x, v) (set_edge e u c) -> v = u \/ In (x, v) c.
Proof.
  intros e u. induction c as [|[x y] c IH]; intros z v I; cbn [set_edge] in I; [contradiction|]. destruct (pat_equal x e); destruct I as [E|I]; try (right; right; exact I); try (injection E as <- <-; auto; fail).
  - right. left. exact E.
  - destruct (IH z v I) as [->|J]; [auto|right; right; auto].
Qed.
Lemma put_plain : forall base p new t t', plain_tree t -> plain_tree new -> put_node base p new t = Ok t' -> plain_tree t'.
Proof.
  intros base. induction p as [|e p IH]; intros new t t' PT PN H; cbn [put_node] in H; [discriminate|]. destruct PT as [d c ND KID]. cbn [s_chd s_desc] in H. destruct (find_edge _ c) as [[x u]|] eqn:F.
  - pose proof (find_fst _ _ _ _ F). subst x. apply find_in in F; [|auto]. destruct (put_node base p new u) as [u'| | |] eqn:P; try discriminate. injection H as <-.
    constructor; [rewrite set_edge_fst; auto|]. intros z v I. apply set_edge_in in I. destruct I as [->|I]; [apply (IH new u); auto; eapply KID; eauto|eapply KID; eauto].
  - assert (X : exists u', t' = SNode d (c ++ [(e, u')]) /\ plain_tree u').
    { destruct p as [|e' p]; [injection H as <-; eauto|]. destruct (put_node base (e' :: p) new (SNode base [])) as [u'| | |] eqn:P; try discriminate. injection H as <-. exists u'. split; [auto|].
      apply (IH new (SNode base [])); auto. constructor; [constructor|intros ? ? []]. }
    destruct X as (u' & -> & PU). constructor.
    + rewrite map_app. cbn [map fst]. apply nodup_app; [auto|constructor; [intros []|constructor]|]. intros x I [E|[]]. subst x. apply in_map_iff in I. destruct I as ([x v] & E & I). cbn [fst] in E. subst x.
      apply (find_in c e v ND) in I. rewrite I in F. discriminate.
    + intros z v I. apply in_app_or in I. destruct I as [I|[E|[]]]; [eapply KID; eauto|]. injection E as <- <-. auto.
Qed.
Lemma put_tree_plain : forall base p new r r', (forall t, r = Some t -> plain_tree t) -> plain_tree new -> put_tree base p new r = Ok r' -> forall t, r' = Some t -> plain_tree t.
Proof.
  intros base p new r r' PR PN H t ->. destruct p as [|e p]; cbn [put_tree] in H; [destruct r; [discriminate|]; injection H as <-; exact PN|].
  match type of H with bind ?X _ = _ => destruct X as [t'| | |] eqn:P end; try discriminate. cbn [bind] in H. injection H as <-. eapply put_plain; [|exact PN|exact P].
  destruct r; [auto|]. constructor; [constructor|intros ? ? []].
Qed.
Lemma all_plain : forall j pol t, plain_tree t -> plain_tree (apply_all j pol t).
Proof.
  intros j pol. induction t as [d c IH] using etree_ind2. intros PL. inversion PL as [? ? ND KID]; subst. cbn [apply_all]. constructor.
  - rewrite map_map. cbn [fst]. exact ND.
  - intros e u I. apply in_map_iff in I. destruct I as ([e' u'] & E & I). cbn [fst snd] in E. injection E as <- <-. apply (IH e' u' I). eapply KID; eauto.
Qed.
Lemma policy_plain : forall j pol t t', plain_tree t -> apply_policy j pol t = Ok t' -> plain_tree t'.
Proof.
  intros j pol t t' PL H. destruct (whole_subtree pol) eqn:W.
  - rewrite (deep _ _ _ W) in H. injection H as <-. apply all_plain. auto.
  - rewrite (shallow _ _ _ W) in H. destruct (apply_here j pol (s_desc t)) as [d'| | |]; try discriminate. injection H as <-. destruct PL as [d c ND KID]. constructor; auto.
Qed.
Lemma change_plain : forall p (g : etree -> res etree) t t', (forall u u', plain_tree u -> g u = Ok u' -> plain_tree u') -> plain_tree t -> change_at p g t = Ok t' -> plain_tree t'.
Proof.
  induction p as [|e p IH]; intros g t t' G PL H; cbn [change_at] in H; [eauto|]. destruct PL as [d c ND KID]. cbn [s_chd s_desc] in H. destruct (find_edge _ c) as [[x u]|] eqn:F; [|discriminate].
  pose proof (find_fst _ _ _ _ F). subst x. apply find_in in F; [|auto]. destruct (change_at p g u) as [u'| | |] eqn:P; try discriminate. injection H as <-.
  constructor; [rewrite set_edge_fst; auto|]. intros z v I. apply set_edge_in in I. destruct I as [->|I]; [apply (IH g u); auto; eapply KID; eauto|eapply KID; eauto].
Qed.
Lemma policies_plain : forall pols j t t', plain_tree t -> inst_policies j pols t = Ok t' -> plain_tree t'.
Proof.
  induction pols as [|[p pol] l IH]; intros j t t' PL H; cbn [inst_policies] in H; [injection H as <-; auto|]. destruct (change_at p (apply_policy j pol) t) as [t1| | |] eqn:E; try discriminate. cbn [bind] in H.
  apply (IH (S j) t1 t'); auto. eapply change_plain; [|exact PL|exact E]. intros u u'. apply policy_plain.
Qed.
Lemma nodes_plain : forall register base env l r r', (forall k c, register k = Some c -> plain_tree (c_new c)) -> (forall t, r = Some t -> plain_tree t) ->
  inst_nodes register base env l r = Ok r' -> forall t, r' = Some t -> plain_tree t.
Proof.
  intros register base env. induction l as [|[p [cls evs]] l IH]; intros r r' RP PR H; cbn [inst_nodes] in H; [injection H as <-; auto|].
  destruct (one_node register env cls evs) as [new| | |] eqn:O; try discriminate. cbn [bind] in H. destruct (put_tree base p new r) as [r1| | |] eqn:P; try discriminate. cbn [bind] in H.
  apply (IH r1 r'); auto. eapply put_tree_plain; [exact PR| |exact P]. unfold one_node in O. destruct (register cls) as [c|] eqn:R; [|discriminate].
  destruct (set_events env c evs (s_desc (c_new c))) as [d| | |]; try discriminate. injection O as <-. apply RP in R. destruct (c_new c). inversion R; subst. constructor; auto.
Qed.

Fixpoint plainb (t : etree) : bool :=
  let 'SNode _ c := t in
  (fix nd (l : list (pat * etree)) : bool := match l with [] => true | (e, u) :: l' => negb (existsb (fun y => pat_equal (fst y) e) l') && plainb u && nd l' end) c.
Lemma plainb_ok : forall t, plainb t = true -> plain_tree t.
Proof.
  induction t as [d c IH] using etree_ind2. intros H. cbn [plainb] in H. match type of H with ?k c = true => set (nd := k) in H end.
  assert (K : forall l, (forall e u, In (e, u) l -> In (e, u) c) -> nd l = true -> NoDup (map fst l) /\ forall e u, In (e, u) l -> plain_tree u).
  { induction l as [|[e u] l IHl]; intros IN E; [split; [constructor|intros ? ? []]|]. cbn in E. fold nd in E. apply andb_prop in E. destruct E as [E E3]. apply andb_prop in E. destruct E as [E1 E2].
    destruct IHl as [A B]; [intros; apply IN; right; auto|auto|]. split.
    - cbn [map fst]. constructor; [|auto]. intros I. apply in_map_iff in I. destruct I as (y & <- & I). apply negb_true_iff in E1. assert (X : existsb (fun z => pat_equal (fst z) (fst y)) l = true) by (apply existsb_exists; exists y; split; [auto|apply eqb_same]). congruence.
    - intros e' u' [Q|I]; [injection Q as <- <-; apply (IH e u); auto; apply IN; left; auto|eapply B; eauto]. }
  destruct (K c) as [A B]; [auto|auto|]. constructor; auto.
Qed.
Lemma registered_plain : forall k c, registered k = Some c -> plain_tree (c_new c).
Proof.
  intros k c H. apply lookup_in in H. apply plainb_ok. assert (F : forallb (fun x => plainb (c_new (snd x))) all_classes = true) by (vm_compute; reflexivity). rewrite forallb_forall in F. exact (F _ H).
Qed.

(** ** histories *)

Definition Inv_sys (trees : nat -> tst) (o : owns) (y : sys) : Prop :=
  FInv nat (y_fib y)
  /\ (forall q i, tab nat (y_fib y) q = Some i <-> exists p, o i = Some p /\ keys p = q)
  /\ (forall i p, o i = Some p -> t_eng (y_tree y i) = true /\ t_on (y_tree y i) = true /\ t_pref (y_tree y i) = p /\ p <> [])
  /\ (forall i j p q, o i = Some p -> o j = Some q -> i <> j -> ~ clash p q)
  /\ (forall i, t_root (y_tree y i) = t_root (trees i)).

Lemma set_same : forall v i t, set_tree v i t i = t.
Proof. intros. unfold set_tree. rewrite Nat.eqb_refl. reflexivity. Qed.
Lemma set_other : forall v i t j, j <> i -> set_tree v i t j = v j.
Proof. intros. unfold set_tree. destruct (Nat.eqb_spec j i); [congruence|reflexivity]. Qed.
Lemma own_same : forall o i p, own_set o i p i = p.
Proof. intros. unfold own_set. rewrite Nat.eqb_refl. reflexivity. Qed.
Lemma own_other : forall o i p j, j <> i -> own_set o i p j = o j.
Proof. intros. unfold own_set. destruct (Nat.eqb_spec j i); [congruence|reflexivity]. Qed.

Lemma inv_trees : forall trees o y i t, Inv_sys trees o y -> o i = None -> t_root t = t_root (trees i) -> Inv_sys trees o (mkSys (y_fib y) (set_tree (y_tree y) i t)).
Proof.
  intros trees o y i t (FI & TB & OW & CL & RT) ON R. split; [exact FI|]. split; [exact TB|]. split; [|split; [exact CL|]]; cbn [y_tree].
  - intros j p E. rewrite set_other by congruence. apply OW. exact E.
  - intros j. destruct (Nat.eq_dec j i) as [->|NE]; [rewrite set_same; auto|rewrite set_other by auto; auto].
Qed.

Lemma prefix_refl : forall (p : path), prefix p p.
Proof. intros p. exists []. symmetry. apply app_nil_r. Qed.

Lemma step_right : forall trees o y op, Inv_sys trees o y -> legal1 o op ->
  exists y' out, l_step y op = Ok (y', out) /\ right trees o op out /\ Inv_sys trees (own_next o op out) y'.
Proof.
  intros trees o y op IV LG. pose proof IV as (FI & TB & OW & CL & RT). destruct op as [i p w|i w|n|i n]; cbn [l_step legal1] in *.
  - destruct LG as [ON NE]. unfold do_attach. destruct (on_attach _ _ _ _ _ _) as [ok s] eqn:OA. destruct ok.
    + destruct (attach_ok nat (y_fib y) p i FI) as (f' & b & E & FI' & SP). rewrite E. cbn [bind fst snd]. destruct b.
      * do 2 eexists. split; [reflexivity|]. inversion SP as [? ? ? NR SET OTH| | | | | |]; subst. cbn [right own_next].
        assert (NC : forall j q, o j = Some q -> ~ clash q p).
        { intros j q Oj C. apply (NR (keys q)); [|exact C]. rewrite (proj2 (TB (keys q) j)); [discriminate|eauto]. }
        split; [exact NC|]. split; [exact FI'|]. cbn [y_fib y_tree]. split; [|split; [|split]].
        -- intros q j. destruct (list_eq_dec (list_eq_dec N.eq_dec) q (keys p)) as [->|NQ].
           ++ rewrite SET. split.
              ** intros X. injection X as <-. exists p. rewrite own_same. auto.
              ** intros (q & Oj & KQ). destruct (Nat.eq_dec j i) as [->|NJ]; [reflexivity|]. rewrite own_other in Oj by auto. exfalso. apply (NC j q Oj). left. unfold under. rewrite KQ. apply prefix_refl.
           ++ rewrite (OTH q NQ), TB. split; intros (r & Oj & KQ); exists r.
              ** split; [|auto]. rewrite own_other; [auto|]. intros ->. congruence.
              ** split; [|auto]. destruct (Nat.eq_dec j i) as [->|NJ]; [rewrite own_same in Oj; congruence|]. rewrite own_other in Oj by auto. exact Oj.
        -- intros j q Oj. destruct (Nat.eq_dec j i) as [->|NJ]; [rewrite own_same in Oj; injection Oj as <-; rewrite set_same; cbn; auto|]. rewrite own_other in Oj by auto. rewrite set_other by auto. apply OW. exact Oj.
        -- intros j k q r Oj Ok NJK. destruct (Nat.eq_dec j i) as [->|NJ]; [rewrite own_same in Oj; injection Oj as <-|rewrite own_other in Oj by auto]; (destruct (Nat.eq_dec k i) as [->|NK]; [rewrite own_same in Ok; injection Ok as <-|rewrite own_other in Ok by auto]).
           ++ congruence.
           ++ intros [C|C]; apply (NC k r Ok); [right|left]; exact C.
           ++ apply (NC j q Oj).
           ++ apply (CL j k q r); auto.
        -- intros j. destruct (Nat.eq_dec j i) as [->|NJ]; [rewrite set_same; cbn; auto|rewrite set_other by auto; auto].
      * do 2 eexists. split; [reflexivity|]. inversion SP as [|? ? q ? TQ REL SAME| | | | |]; subst. cbn [right own_next]. split.
        -- destruct (tab nat (y_fib y) q) as [j|] eqn:TJ; [|congruence]. apply TB in TJ. destruct TJ as (r & Oj & <-). exists j, r. split; [auto|exact REL].
        -- assert (IV' : Inv_sys trees o (mkSys f' (y_tree y))).
           { split; [exact FI'|]. cbn [y_fib y_tree]. split; [intros r j; rewrite SAME; apply TB|]. auto. }
           apply (inv_trees trees o (mkSys f' (y_tree y)) i (mkT (t_root (y_tree y i)) (t_pols (y_tree y i)) p (t_eng (y_tree y i)) true) IV' ON). cbn. apply RT.
    + do 2 eexists. split; [reflexivity|]. split; [exact Logic.I|]. cbn [own_next]. apply inv_trees; [exact IV|exact ON|]. cbn. apply RT.
  - destruct (o i) as [p|] eqn:Oi; [|congruence]. destruct (OW i p Oi) as (E1 & E2 & E3 & NE). unfold do_detach. rewrite E1, E3. destruct (detach_ok nat (y_fib y) p FI) as (f' & b & E & FI' & SP). rewrite E. cbn [bind fst snd].
    assert (TB' : forall q j, tab nat f' q = Some j <-> exists r, own_set o i None j = Some r /\ keys r = q).
    { assert (GONE : forall q, prefix (keys p) q -> tab nat f' q = None).
      { inversion SP as [| |? ? ? ? ? ? G _|? ? ? NONE SAME|? R G| |]; subst; [exact G| |congruence]. intros q PQ. rewrite SAME. apply NONE. exact PQ. }
      assert (KEEP : forall q, ~ prefix (keys p) q -> tab nat f' q = tab nat (y_fib y) q).
      { inversion SP as [| |? ? ? ? ? ? _ K|? ? ? NONE SAME|? R G| |]; subst; [exact K|auto|congruence]. }
      intros q j. split.
      - intros T. assert (NP : ~ prefix (keys p) q) by (intros PQ; rewrite (GONE q PQ) in T; discriminate). rewrite (KEEP q NP) in T. apply TB in T. destruct T as (r & Oj & <-). exists r. split; [|auto].
        rewrite own_other; [auto|]. intros ->. rewrite Oi in Oj. injection Oj as <-. apply NP. apply prefix_refl.
      - intros (r & Oj & <-). destruct (Nat.eq_dec j i) as [->|NJ]; [rewrite own_same in Oj; discriminate|]. rewrite own_other in Oj by auto. rewrite KEEP; [apply TB; eauto|]. intros PQ. apply (CL i j p r Oi Oj); [auto|]. left. exact PQ. }
    assert (IV' : Inv_sys trees (own_set o i None) (mkSys f' (y_tree y))).
    { split; [exact FI'|]. cbn [y_fib y_tree]. split; [exact TB'|]. split; [|split; [|exact RT]].
      - intros j r Oj. destruct (Nat.eq_dec j i) as [->|NJ]; [rewrite own_same in Oj; discriminate|]. rewrite own_other in Oj by auto. apply OW. exact Oj.
      - intros j k q r Oj Ok NJK. destruct (Nat.eq_dec j i) as [->|NJ]; [rewrite own_same in Oj; discriminate|]. destruct (Nat.eq_dec k i) as [->|NK]; [rewrite own_same in Ok; discriminate|]. rewrite own_other in Oj, Ok by auto. apply (CL j k); auto. }
    destruct (on_detach w [] (t_root (y_tree y i))) as [ok s]. destruct ok; (do 2 eexists; split; [reflexivity|]; split; [exact Logic.I|]); cbn [own_next]; [|exact IV'].
    apply (inv_trees trees (own_set o i None) (mkSys f' (y_tree y)) i (mkT (t_root (y_tree y i)) (t_pols (y_tree y i)) p true false) IV'); [apply own_same|]. cbn. apply RT.
  - destruct (match_ok nat (y_fib y) n FI) as (v & E & SP). rewrite E. cbn [bind]. do 2 eexists. split; [reflexivity|]. cbn [own_next]. split; [|exact IV]. destruct v as [i|]; cbn [right].
    + inversion SP as [| | | | |? ? p ? TP PR|]; subst. apply TB in TP. destruct TP as (r & Oi & <-). exists r. auto.
    + inversion SP as [| | | | | |? ? NONE]; subst. intros i p Oi U. specialize (NONE (keys p) U). rewrite (proj2 (TB (keys p) i)) in NONE; [discriminate|eauto].
  - destruct (o i) as [p|] eqn:Oi; [|congruence]. destruct (OW i p Oi) as (E1 & E2 & E3 & NE). do 2 eexists. split; [reflexivity|]. cbn [own_next]. split; [|exact IV]. cbn [right]. intros r R. rewrite Oi in R. injection R as <-. rewrite E2, E3, RT. reflexivity.
Qed.

Lemma step_there : forall y op, FInv nat (y_fib y) -> exists y' out, l_step y op = Ok (y', out) /\ FInv nat (y_fib y').
Proof.
  intros y [i p w|i w|n|i n] FI; cbn [l_step].
  - unfold do_attach. destruct (on_attach _ _ _ _ _ _) as [ok s]. destruct ok; [|eauto]. destruct (attach_ok nat (y_fib y) p i FI) as (f' & b & E & FI' & _). rewrite E. cbn [bind fst snd]. destruct b; do 2 eexists; split; try reflexivity; exact FI'.
  - unfold do_detach. destruct (t_eng (y_tree y i)); [|eauto]. destruct (detach_ok nat (y_fib y) (t_pref (y_tree y i)) FI) as (f' & b & E & FI' & _). rewrite E. cbn [bind fst snd].
    destruct (on_detach w [] (t_root (y_tree y i))) as [ok s]. destruct ok; do 2 eexists; split; try reflexivity; exact FI'.
  - destruct (match_ok nat (y_fib y) n FI) as (v & E & _). rewrite E. cbn [bind]. eauto.
  - eauto.
Qed.

Lemma run_there : forall ops y, FInv nat (y_fib y) -> exists y' outs, l_run y ops = Ok (y', outs) /\ length outs = length ops.
Proof.
  induction ops as [|op ops IH]; intros y FI; cbn [l_run]; [do 2 eexists; split; reflexivity|]. destruct (step_there y op FI) as (y1 & out & E & FI1). rewrite E. cbn [bind fst snd].
  destruct (IH y1 FI1) as (y2 & outs & E2 & L). rewrite E2. cbn [bind fst snd]. do 2 eexists. split; [reflexivity|]. cbn [length]. congruence.
Qed.
Lemma run_right : forall trees ops o y y' outs, Inv_sys trees o y -> l_run y ops = Ok (y', outs) -> legal o ops outs -> all_right trees o ops outs.
Proof.
  intros trees. induction ops as [|op ops IH]; intros o y y' outs IV R LG; cbn [l_run] in R; [injection R as <- <-; exact Logic.I|].
  destruct outs as [|out outs]; [destruct (l_step y op) as [r| | |]; try discriminate; cbn [bind] in R; destruct (l_run (fst r) ops); discriminate|].
  cbn [legal] in LG. destruct LG as [L1 L2]. destruct (step_right trees o y op IV L1) as (y1 & out1 & E & RT & IV1). rewrite E in R. cbn [bind fst snd] in R. destruct (l_run y1 ops) as [[y2 outs2]| | |] eqn:R2; try discriminate. cbn [bind fst snd] in R.
  injection R as <- <- <-. cbn [all_right]. split; [exact RT|]. apply (IH _ y1 y2); auto.
Qed.
Lemma new_inv_sys : forall trees, Inv_sys trees nobody (sys_new trees).
Proof.
  intros trees. split; [apply fib_new_inv|]. unfold sys_new. cbn [y_fib y_tree]. split; [|split; [|split]]; try discriminate; auto.
  intros q i. rewrite tab_new. split; [discriminate|]. intros (p & X & _). discriminate.
Qed.
