(** Properties of nodes: proofs. *)
From Coq Require Import String Permutation.
From Verif Require Import Base BaseProofs NameModel NameProofs OrderProofs PatternProofs PrimModel TextModel SchemaModel SchemaSpec SchemaProofs AttrModel AttrSpec.

(** ** Floating point *)
Lemma f_trunc_is : forall f n, (0 <= n)%Z -> f_is f n -> f_trunc f = n.
Proof.
  intros [m e] n P H. unfold f_is, f_trunc in *. cbn [f_man f_exp] in *. destruct (0 <=? e)%Z eqn:E.
  - rewrite Z.max_r in H by lia. rewrite (Z.max_l 0 (- e)) in H by lia. lia.
  - rewrite Z.max_l in H by lia. rewrite (Z.max_r 0 (- e)) in H by lia. rewrite Z.pow_0_r, Z.mul_1_r in H. subst m. apply Z.quot_mul.
    assert (0 < 2 ^ (- e))%Z by (apply Z.pow_pos_nonneg; lia). lia.
Qed.

Lemma round_exact : forall a k, (0 <= k)%Z -> round_even (a * 2 ^ k) k = a.
Proof.
  intros a k K. unfold round_even. destruct (k <=? 0)%Z eqn:E.
  - replace k with 0%Z by lia. rewrite Z.pow_0_r. lia.
  - assert (0 < 2 ^ k)%Z by (apply Z.pow_pos_nonneg; lia). rewrite Z.div_mul by lia. rewrite Z.mod_mul by lia.
    assert (0 < 2 ^ (k - 1))%Z by (apply Z.pow_pos_nonneg; lia). destruct (0 <? 2 ^ (k - 1))%Z eqn:G; [reflexivity|lia].
Qed.

Lemma pow_pos : forall k, (0 <= k)%Z -> (0 < 2 ^ k)%Z.
Proof. intros. apply Z.pow_pos_nonneg; lia. Qed.

(** an integer number of milliseconds is exact as long as it fits *)
Lemma f_mul_ms : forall p f n, (6 < p)%Z -> (0 <= n)%Z -> f_is f n -> (n * 15625 < 2 ^ p)%Z -> f_trunc (f_mul p f ms) = (n * ms)%Z.
Proof.
  intros p [m e] n P N H B. apply f_trunc_is; [unfold ms; lia|].
  unfold f_is in H. cbn [f_man f_exp] in H.
  unfold f_mul. cbn [f_man f_exp]. set (k := Z.max 0 (Z.log2 (Z.abs (m * ms)) + 1 - p)).
  assert (M0 : (0 <= m)%Z).
  { assert (0 < 2 ^ Z.max 0 e)%Z by (apply pow_pos; lia). assert (0 < 2 ^ Z.max 0 (- e))%Z by (apply pow_pos; lia). nia. }
  destruct (Z.eq_dec m 0) as [->|MN].
  { assert (n = 0)%Z as ->. { assert (0 < 2 ^ Z.max 0 (- e))%Z by (apply pow_pos; lia). nia. }
    unfold f_is. cbn [f_man f_exp]. subst k. change (Z.abs (0 * ms)) with 0%Z. change (Z.log2 0) with 0%Z. rewrite Z.max_l by lia. unfold round_even.
    change (0 <=? 0)%Z with true. cbn iota. lia. }
  (* the bits below *)
  assert (exists j a, (0 <= j)%Z /\ (m * ms = a * 2 ^ j)%Z /\ (0 < a < 2 ^ p)%Z) as (j & a & J & A & AB).
  { destruct (Z.le_gt_cases 0 e) as [E|E].
    - rewrite Z.max_r in H by lia. rewrite (Z.max_l 0 (- e)) in H by lia. rewrite Z.pow_0_r, Z.mul_1_r in H. exists 6%Z, (m * 15625)%Z.
      split; [lia|]. split; [unfold ms; change (2 ^ 6)%Z with 64%Z; lia|]. assert (1 <= 2 ^ e)%Z by (pose proof (pow_pos e E); lia). nia.
    - rewrite Z.max_l in H by lia. rewrite (Z.max_r 0 (- e)) in H by lia. rewrite Z.pow_0_r, Z.mul_1_r in H. exists (6 - e)%Z, (n * 15625)%Z.
      split; [lia|]. split; [|nia]. subst m. replace (6 - e)%Z with (6 + - e)%Z by lia. rewrite Z.pow_add_r by lia. change (2 ^ 6)%Z with 64%Z. unfold ms. lia. }
  assert (KJ : (k <= j)%Z).
  { assert (L : (Z.log2 (Z.abs (m * ms)) < p + j)%Z).
    { rewrite A. rewrite Z.abs_eq by (pose proof (pow_pos j J); nia). apply Z.log2_lt_pow2; [pose proof (pow_pos j J); nia|]. rewrite Z.pow_add_r by lia.
      pose proof (pow_pos j J). nia. }
    subst k. lia. }
  assert (K0 : (0 <= k)%Z) by (subst k; lia).
  assert (R : (m * ms = a * 2 ^ (j - k) * 2 ^ k)%Z). { rewrite <- Z.mul_assoc. rewrite <- Z.pow_add_r by lia. replace (j - k + k)%Z with j by lia. exact A. }
  rewrite R. rewrite round_exact by exact K0.
  unfold f_is. cbn [f_man f_exp]. clearbody k.
  (* multiply by 2^k * 2^(max 0 e) on both sides *)
  assert (E1 : (a * 2 ^ (j - k) * 2 ^ k * 2 ^ Z.max 0 e = n * ms * 2 ^ Z.max 0 (- e))%Z).
  { rewrite <- R. rewrite <- Z.mul_assoc, (Z.mul_comm ms), Z.mul_assoc. rewrite H. lia. }
  destruct (Z.le_gt_cases 0 e) as [E|E].
  - rewrite (Z.max_r 0 e) in E1 by lia. rewrite (Z.max_l 0 (- e)) in E1 by lia. rewrite (Z.max_r 0 (e + k)) by lia. rewrite (Z.max_l 0 (- (e + k))) by lia.
    rewrite Z.pow_add_r by lia. rewrite <- E1. lia.
  - rewrite (Z.max_l 0 e) in E1 by lia. rewrite (Z.max_r 0 (- e)) in E1 by lia. rewrite Z.pow_0_r, Z.mul_1_r in E1. destruct (Z.le_gt_cases 0 (e + k)) as [F|F].
    + rewrite (Z.max_r 0 (e + k)) by lia. rewrite (Z.max_l 0 (- (e + k))) by lia. rewrite Z.pow_0_r, Z.mul_1_r.
      replace k with ((e + k) + - e)%Z in E1 at 2 by lia. rewrite Z.pow_add_r in E1 by lia. pose proof (pow_pos (- e)). nia.
    + rewrite (Z.max_l 0 (e + k)) by lia. rewrite (Z.max_r 0 (- (e + k))) by lia. rewrite Z.pow_0_r, Z.mul_1_r.
      replace (- e)%Z with (- (e + k) + k)%Z in E1 by lia. rewrite Z.pow_add_r in E1 by lia. pose proof (pow_pos k K0). nia.
Qed.

Lemma np_equal_same : forall p, np_equal p p = true.
Proof.
  intros p. unfold np_equal. rewrite Nat.eqb_refl. cbn [negb]. induction p as [|e p IH]; [reflexivity|]. cbn [np_all_equal]. rewrite (proj2 (pat_equal_eq e e) eq_refl), IH. reflexivity.
Qed.

(** ** Trees *)
Lemma at_app : forall p q (t : anode), at_path (p ++ q) t = match at_path p t with Some u => at_path q u | None => None end.
Proof.
  induction p as [|e p IH]; intros q t; [reflexivity|]. cbn [app at_path]. destruct (find_edge _ (s_chd t)) as [[x c]|]; [apply IH|reflexivity].
Qed.

Lemma set_edge_same : forall e (c : anode) l x, find_edge (fun y => pat_equal y e) l = Some (x, c) -> set_edge e c l = l.
Proof.
  intros e c l x. induction l as [|[a b] l IH]; cbn [find_edge find set_edge fst]; [discriminate|]. destruct (pat_equal a e) eqn:E.
  - intros H. injection H as <- <-. reflexivity.
  - intros H. f_equal. apply IH. exact H.
Qed.

Lemma set_at_same : forall p u (t : anode), at_path p t = Some u -> set_at p u t = t.
Proof.
  induction p as [|e p IH]; intros u t; cbn [at_path set_at]; [intros H; injection H as <-; reflexivity|].
  destruct (find_edge _ (s_chd t)) as [[x c]|] eqn:F; [|discriminate]. intros H. rewrite (IH _ _ H). rewrite (set_edge_same _ _ _ _ F). destruct t; reflexivity.
Qed.

Lemma set_at_app : forall p q u w (t : anode), at_path p t = Some u -> set_at (p ++ q) w t = set_at p (set_at q w u) t.
Proof.
  induction p as [|e p IH]; intros q u w t; cbn [app at_path set_at]; [intros H; injection H as <-; reflexivity|].
  destruct (find_edge _ (s_chd t)) as [[x c]|] eqn:F; [|discriminate]. intros H. rewrite (IH _ _ _ _ H). reflexivity.
Qed.

Lemma find_edge_set : forall e e' (c' : anode) l c x, find_edge (fun y => pat_equal y e) l = Some (x, c) ->
  find_edge (fun y => pat_equal y e') (set_edge e c' l) = if pat_equal e e' then Some (x, c') else find_edge (fun y => pat_equal y e') l.
Proof.
  intros e e' c' l c x. induction l as [|[a b] l IH]; cbn [find_edge find set_edge fst]; [discriminate|]. destruct (pat_equal a e) eqn:E.
  - intros H. injection H as <- <-. apply pat_equal_eq in E. subst a. cbn [find fst]. destruct (pat_equal e e'); reflexivity.
  - intros H. cbn [find fst]. destruct (pat_equal a e') eqn:G; [|apply IH; exact H]. destruct (pat_equal e e') eqn:G2; [|reflexivity].
    apply pat_equal_eq in G, G2. subst. rewrite (proj2 (pat_equal_eq e' e') eq_refl) in E. discriminate.
Qed.

Lemma at_set_here : forall p u w (t : anode), at_path p t = Some u -> at_path p (set_at p w t) = Some w.
Proof.
  induction p as [|e p IH]; intros u w t; cbn [at_path set_at]; [reflexivity|]. destruct (find_edge _ (s_chd t)) as [[x c]|] eqn:F; [|discriminate].
  intros H. cbn [at_path s_chd]. rewrite (find_edge_set _ _ _ _ _ _ F). rewrite (proj2 (pat_equal_eq e e) eq_refl). eapply IH. exact H.
Qed.

Lemma desc_set_other : forall p u o (t : anode) q, at_path p t = Some u -> q <> p -> desc_at q (set_at p (with_obj u o) t) = desc_at q t.
Proof.
  induction p as [|e p IH]; intros u o t q; cbn [at_path set_at].
  - intros H N. injection H as <-. destruct q as [|e' q]; [contradiction|]. unfold desc_at. cbn [at_path with_obj s_chd]. reflexivity.
  - destruct (find_edge _ (s_chd t)) as [[x c]|] eqn:F; [|discriminate]. intros H N. destruct q as [|e' q]; [reflexivity|].
    unfold desc_at. cbn [at_path s_chd]. rewrite (find_edge_set _ _ _ _ _ _ F). destruct (pat_equal e e') eqn:G; [|reflexivity].
    apply pat_equal_eq in G. subst e'. rewrite F. apply (IH u o c q H). intros ->. contradiction.
Qed.
Lemma desc_set_here : forall p u o (t : anode), at_path p t = Some u -> desc_at p (set_at p (with_obj u o) t) = Some (mkA (cls u) o).
Proof. intros p u o t H. unfold desc_at. rewrite (at_set_here _ _ _ _ H). reflexivity. Qed.

(** ** Fields *)
Lemma f_get_set_same : forall o f ty w0 w, f_get o f = Some (ty, w0) -> f_get (f_set o f w) f = Some (ty, w).
Proof.
  unfold f_get. induction o as [|[x [t v]] o IH]; intros f ty w0 w; cbn [find f_set fst option_map]; [discriminate|].
  destruct (bytes_eqb x f) eqn:E; cbn [find fst option_map snd]; rewrite E.
  - intros H. injection H as -> ->. reflexivity.
  - apply IH.
Qed.
Lemma f_get_set_other : forall o f g w, f <> g -> f_get (f_set o f w) g = f_get o g.
Proof.
  unfold f_get. induction o as [|[x [t v]] o IH]; intros f g w N; cbn [find f_set fst option_map]; [reflexivity|].
  destruct (bytes_eqb x f) eqn:E; cbn [find fst option_map snd].
  - destruct (bytes_eqb x g) eqn:G; [|reflexivity]. apply bytes_eqb_eq in E, G. congruence.
  - destruct (bytes_eqb x g); [reflexivity|]. apply IH. exact N.
Qed.
Lemma f_set_types : forall o f w, map (fun e => (fst e, fst (snd e))) (f_set o f w) = map (fun e => (fst e, fst (snd e))) o.
Proof.
  induction o as [|[x [t v]] o IH]; intros f w; cbn [f_set map fst snd]; [reflexivity|]. destruct (bytes_eqb x f); cbn [map fst snd]; [reflexivity|]. rewrite IH. reflexivity.
Qed.
Lemma f_set_comm : forall o f g v w, f <> g -> f_set (f_set o f v) g w = f_set (f_set o g w) f v.
Proof.
  induction o as [|[x [t y]] o IH]; intros f g v w N; cbn [f_set]; [reflexivity|].
  destruct (bytes_eqb x f) eqn:E; destruct (bytes_eqb x g) eqn:G; cbn [f_set]; rewrite ?E, ?G; try reflexivity.
  - apply bytes_eqb_eq in E, G. congruence.
  - rewrite IH by exact N. reflexivity.
Qed.

(** ** Where a property is kept *)
Fixpoint locate (n : nat) (t : anode) (k : buf) : option (list pat * buf * pdesc) :=
  match n with
  | O => None
  | S n => match c_get (cls t) k with
           | None => None
           | Some (PSub path p) => match at_path path t with
                                   | Some u => match locate n u p with Some (q, f, d) => Some (path ++ q, f, d) | None => None end
                                   | None => None
                                   end
           | Some d => match field_of d with Some f => Some ([], f, d) | None => None end
           end
  end.
Definition slot (t : anode) (p : list pat) (f : buf) : option (gtype * aval) :=
  match desc_at p t with Some a => f_get (a_obj a) f | None => None end.

Lemma desc_sub : forall p q (t u : anode), at_path p t = Some u -> desc_at q u = desc_at (p ++ q) t.
Proof. intros p q t u H. unfold desc_at. rewrite at_app, H. reflexivity. Qed.

Lemma get_locate : forall n t k p f d, locate n t k = Some (p, f, d) -> get_prop n t k = Ok (view d (option_map snd (slot t p f))).
Proof.
  induction n as [|n IH]; intros t k p f d; cbn [locate get_prop]; [discriminate|]. destruct (c_get (cls t) k) as [d0|]; [|discriminate].
  destruct d0; cbn [field_of]; try (intros H; injection H as <- <- <-; reflexivity).
  destruct (at_path path t) as [u|] eqn:A; [|discriminate]. destruct (locate n u p0) as [[[q f'] d']|] eqn:L; [|discriminate]. intros H. injection H as <- <- <-.
  rewrite (IH _ _ _ _ _ L). unfold slot. rewrite (desc_sub _ _ _ _ A). reflexivity.
Qed.

Definition no_field (d : pdesc) : aerr := match d with PDefault _ => ENotSupported | _ => EInvalid end.

Section Set_.
  Variable fi : flt -> Z.
  Variable fu : flt -> N.

  Lemma set_locate : forall n t k v p f d, locate n t k = Some (p, f, d) -> exists u, at_path p t = Some u /\
    set_prop fi fu n t k v = match f_get (obj u) f with
                             | None => Ok (Some (no_field d), t)
                             | Some (ty, _) => match conv fi fu d ty v with
                                               | Some w => Ok (None, set_at p (with_obj u (f_set (obj u) f w)) t)
                                               | None => Ok (Some EInvalid, t)
                                               end
                             end.
  Proof.
    induction n as [|n IH]; intros t k v p f d; cbn [locate set_prop]; [discriminate|]. destruct (c_get (cls t) k) as [d0|]; [|discriminate].
    destruct d0; cbn [field_of]; try (intros H; injection H as <- <- <-; exists t; split; [reflexivity|]; cbn [set_at no_field]; reflexivity).
    destruct (at_path path t) as [u|] eqn:A; [|discriminate]. destruct (locate n u p0) as [[[q f'] d']|] eqn:L; [|discriminate]. intros H. injection H as <- <- <-.
    destruct (IH _ _ v _ _ _ L) as (w & W & E). exists w. split; [rewrite at_app, A; exact W|]. rewrite E.
    destruct (f_get (obj w) f') as [[ty w0]|]; [|rewrite (set_at_same _ _ _ A); reflexivity].
    destruct (conv fi fu d' ty v) as [x|]; [|rewrite (set_at_same _ _ _ A); reflexivity]. rewrite (set_at_app _ _ _ _ _ A). reflexivity.
  Qed.

  Lemma set_inv : forall n t k v e t', set_prop fi fu n t k v = Ok (e, t') ->
    (e <> None /\ t' = t) \/
    (e = None /\ exists p u f d ty w0 w, locate n t k = Some (p, f, d) /\ at_path p t = Some u /\ f_get (obj u) f = Some (ty, w0) /\
       conv fi fu d ty v = Some w /\ t' = set_at p (with_obj u (f_set (obj u) f w)) t).
  Proof.
    intros n t k v e t' H. destruct (locate n t k) as [[[p f] d]|] eqn:L.
    - destruct (set_locate _ _ _ v _ _ _ L) as (u & A & E). rewrite E in H. destruct (f_get (obj u) f) as [[ty w0]|] eqn:G; [|injection H as <- <-; left; split; [discriminate|reflexivity]].
      destruct (conv fi fu d ty v) as [w|] eqn:C; injection H as <- <-; [|left; split; [discriminate|reflexivity]].
      right. split; [reflexivity|]. exists p, u, f, d, ty, w0, w. auto 6.
    - left. revert t k v e t' H L. induction n as [|n IH]; intros t k v e t' H L; cbn [locate set_prop] in *; [discriminate|].
      destruct (c_get (cls t) k) as [d0|]; [|discriminate]. destruct d0; cbn [field_of] in *; try discriminate.
      destruct (at_path path t) as [u|] eqn:A; [|injection H as <- <-; split; [discriminate|reflexivity]].
      destruct (locate n u p) as [[[q f'] d']|] eqn:L'; [discriminate|]. destruct (set_prop fi fu n u p v) as [[e' u']| | |] eqn:S; try discriminate.
      + injection H as <- <-. destruct (IH _ _ _ _ _ S L') as [N ->]. split; [exact N|]. apply (set_at_same _ _ _ A).
      + injection H as <- <-. split; [discriminate|reflexivity].
  Qed.

  (** ** Shapes *)
  Definition erase (a : adesc) : class * list (buf * gtype) := (a_class a, map (fun e => (fst e, fst (snd e))) (a_obj a)).
  Definition same_shape (t t' : anode) : Prop := forall q, option_map erase (desc_at q t) = option_map erase (desc_at q t').

  Lemma path_dec : forall (p q : list pat), {p = q} + {p <> q}.
  Proof. apply list_eq_dec. intros x y. destruct (pat_equal x y) eqn:E; [left; apply pat_equal_eq; exact E|right; intros ->; rewrite (proj2 (pat_equal_eq y y) eq_refl) in E; discriminate]. Qed.

  Lemma set_shape : forall n t k v e t', set_prop fi fu n t k v = Ok (e, t') -> same_shape t t'.
  Proof.
    intros n t k v e t' H. destruct (set_inv _ _ _ _ _ _ H) as [[_ ->]|(_ & p & u & f & d & ty & w0 & w & _ & A & G & _ & ->)]; [intros q; reflexivity|].
    intros q. destruct (path_dec q p) as [->|N]; [|rewrite desc_set_other by assumption; reflexivity].
    rewrite (desc_set_here _ _ _ _ A). unfold desc_at. rewrite A. cbn [option_map]. unfold erase. cbn [a_class a_obj]. rewrite f_set_types. reflexivity.
  Qed.

  Lemma f_get_types : forall o o' f, map (fun e => (fst e, fst (snd e))) o = map (fun e => (fst e, fst (snd e))) o' ->
    option_map fst (f_get o f) = option_map (B := gtype) fst (f_get o' f).
  Proof.
    unfold f_get. induction o as [|[x [t v]] o IH]; intros [|[x' [t' v']] o'] f; cbn [map fst snd]; try discriminate; [reflexivity|].
    intros H. injection H as -> -> H. cbn [find fst]. destruct (bytes_eqb x' f); [reflexivity|]. apply IH. exact H.
  Qed.

  Lemma shape_slot : forall t t' p f, same_shape t t' -> option_map fst (slot t p f) = option_map fst (slot t' p f).
  Proof.
    intros t t' p f S. specialize (S p). unfold slot. destruct (desc_at p t) as [a|]; destruct (desc_at p t') as [b|]; cbn [option_map] in S; try discriminate; [|reflexivity].
    unfold erase in S. injection S as _ S. apply f_get_types. exact S.
  Qed.

  Lemma shape_locate : forall n t t' k, same_shape t t' -> locate n t k = locate n t' k.
  Proof.
    induction n as [|n IH]; intros t t' k S; cbn [locate]; [reflexivity|].
    assert (C : cls t = cls t'). { specialize (S []). unfold desc_at in S. cbn [at_path option_map] in S. unfold erase in S. injection S as S _. exact S. }
    rewrite C. destruct (c_get (cls t') k) as [d|]; [|reflexivity]. destruct d; try reflexivity.
    assert (P : option_map erase (desc_at path t) = option_map erase (desc_at path t')) by apply S. unfold desc_at in P.
    destruct (at_path path t) as [u|] eqn:A; destruct (at_path path t') as [u'|] eqn:A'; cbn [option_map] in P; try discriminate; [|reflexivity].
    rewrite (IH u u' p); [reflexivity|]. intros q. rewrite (desc_sub _ _ _ _ A), (desc_sub _ _ _ _ A'). apply S.
  Qed.

  Lemma configured_shape : forall t0 t, configured fi fu t0 t -> same_shape t0 t.
  Proof. intros t0 t H. induction H as [|n t k v e t' H IH S]; [intros q; reflexivity|]. intros q. rewrite IH. apply (set_shape _ _ _ _ _ _ S). Qed.

  Lemma locate_more : forall n m t k r, locate n t k = Some r -> (n <= m)%nat -> locate m t k = Some r.
  Proof.
    induction n as [|n IH]; intros m t k r; cbn [locate]; [discriminate|]. intros H L. destruct m as [|m]; [lia|]. cbn [locate].
    destruct (c_get (cls t) k) as [d|]; [|discriminate]. destruct d; try exact H. destruct (at_path path t) as [u|]; [|discriminate].
    destruct (locate n u p) as [r'|] eqn:E; [|discriminate]. rewrite (IH _ _ _ _ E) by lia. exact H.
  Qed.

  (** reading a field after writing one *)
  Lemma slot_here : forall p u f ty w0 w (t : anode), at_path p t = Some u -> f_get (obj u) f = Some (ty, w0) ->
    slot (set_at p (with_obj u (f_set (obj u) f w)) t) p f = Some (ty, w).
  Proof. intros p u f ty w0 w t A G. unfold slot. rewrite (desc_set_here _ _ _ _ A). cbn [a_obj]. eapply f_get_set_same. exact G. Qed.
  Lemma slot_other : forall p u f w (t : anode) q g, at_path p t = Some u -> (p, f) <> (q, g) ->
    slot (set_at p (with_obj u (f_set (obj u) f w)) t) q g = slot t q g.
  Proof.
    intros p u f w t q g A N. unfold slot. destruct (path_dec q p) as [->|M]; [|rewrite desc_set_other by assumption; reflexivity].
    rewrite (desc_set_here _ _ _ _ A). cbn [a_obj]. unfold desc_at. rewrite A. cbn [option_map]. apply f_get_set_other. intros ->. contradiction.
  Qed.

  (** ** The classes *)
  Definition kind_ok (m : meaning) (d : pdesc) (ty : gtype) : bool :=
    match m, d, ty with
    | MBool, PDefault _, GBool | MUint, PDefault _, GU64 | MMs, PTime _, GDur | MText, PDefault _, GStr | MBytes, PDefault _, GBytes
    | MCType, PDefault _, GCType | MMatching, PMatching _, GMatch | MName, PName _, GName | MMap, PDefault _, GMap => true
    | MStore, PDefault _, GOther 0 => true
    | _, _, _ => false
    end.
  Definition prop_ok (t : anode) (e : buf * meaning) : bool :=
    match locate 2 t (fst e) with
    | Some (p, f, d) => match slot t p f with Some (ty, _) => kind_ok (snd e) d ty | None => false end
    | None => false
    end.
  Definition loc_eqb (a b : option (list pat * buf * pdesc)) : bool :=
    match a, b with
    | Some (p, f, _), Some (q, g, _) => np_equal p q && bytes_eqb f g
    | _, _ => false
    end.
  Fixpoint apart (t : anode) (l : list (buf * meaning)) : bool :=
    match l with
    | [] => true
    | e :: l' => forallb (fun e' => negb (loc_eqb (locate 2 t (fst e)) (locate 2 t (fst e')))) l' && apart t l'
    end.
  Lemma classes_ok : forallb (fun c => forallb (prop_ok (fst c)) (snd c) && apart (fst c) (snd c)) (configurable fi fu) = true.
  Proof. vm_compute. reflexivity. Qed.

  Definition covered (c : anode * list (buf * meaning)) : bool :=
    forallb (fun e => existsb (fun x => bytes_eqb (fst x) (fst e)) (snd c)) (cls (fst c)).
  Lemma classes_covered : forallb covered (configurable fi fu) = true.
  Proof. vm_compute. reflexivity. Qed.

  Lemma c_get_in : forall c k d, c_get c k = Some d -> In (k, d) c.
  Proof.
    unfold c_get. intros c k d H. destruct (find _ c) as [[k' d']|] eqn:F; [|discriminate]. injection H as <-. apply List.find_some in F. destruct F as [I E].
    cbn [fst] in E. apply bytes_eqb_eq in E. subst. exact I.
  Qed.

  Section OneClass.
    Variables (t0 : anode) (props : list (buf * meaning)).
    Hypothesis IN : In (t0, props) (configurable fi fu).

    Lemma props_ok : forall k m, In (k, m) props -> prop_ok t0 (k, m) = true.
    Proof.
      intros k m I. pose proof classes_ok as C. rewrite forallb_forall in C. specialize (C _ IN). apply andb_prop in C. destruct C as [C _]. cbn [fst snd] in C.
      rewrite forallb_forall in C. apply C. exact I.
    Qed.

    Lemma props_where : forall t n k m, configured fi fu t0 t -> (2 <= n)%nat -> In (k, m) props -> exists p f d ty w0,
      locate n t k = Some (p, f, d) /\ locate 2 t0 k = Some (p, f, d) /\ slot t p f = Some (ty, w0) /\ option_map fst (slot t0 p f) = Some ty /\ kind_ok m d ty = true.
    Proof.
      intros t n k m C N I. pose proof (props_ok _ _ I) as P. unfold prop_ok in P. cbn [fst snd] in P. destruct (locate 2 t0 k) as [[[p f] d]|] eqn:L; [|discriminate].
      destruct (slot t0 p f) as [[ty w]|] eqn:S; [|discriminate]. pose proof (configured_shape _ _ C) as SH. pose proof (shape_slot _ _ p f SH) as SS. rewrite S in SS. cbn [option_map fst] in SS.
      destruct (slot t p f) as [[ty' w0]|] eqn:S'; [|discriminate]. cbn [option_map fst] in SS. injection SS as <-.
      exists p, f, d, ty, w0. rewrite S. repeat split; auto. apply (locate_more 2); [|exact N]. rewrite <- (shape_locate 2 _ _ k SH). exact L.
    Qed.

    Lemma apart_spec : forall l, apart t0 l = true -> forall k m k' m' p f d d', In (k, m) l -> In (k', m') l -> k <> k' ->
      locate 2 t0 k = Some (p, f, d) -> locate 2 t0 k' = Some (p, f, d') -> False.
    Proof.
      induction l as [|[x y] l IH]; cbn [apart]; [intros _ ? ? ? ? ? ? ? ? []|]. intros A k m k' m' p f d d' I I' N L L'. apply andb_prop in A. destruct A as [A A'].
      rewrite forallb_forall in A. assert (LE : forall a b, locate 2 t0 a = Some (p, f, d) -> locate 2 t0 b = Some (p, f, d') -> loc_eqb (locate 2 t0 a) (locate 2 t0 b) = true /\ loc_eqb (locate 2 t0 b) (locate 2 t0 a) = true).
      { intros a b -> ->. cbn [loc_eqb]. rewrite bytes_eqb_refl. rewrite np_equal_same. split; reflexivity. }
      destruct (LE k k' L L') as [E1 E2]. destruct I as [I|I]; destruct I' as [I'|I'].
      - injection I as -> ->. injection I' as -> ->. contradiction.
      - injection I as -> ->. specialize (A _ I'). cbn [fst] in A. rewrite E1 in A. discriminate.
      - injection I' as -> ->. specialize (A _ I). cbn [fst] in A. rewrite E2 in A. discriminate.
      - apply (IH A' k m k' m' p f d d'); assumption.
    Qed.
    Lemma props_apart : forall k m k' m' p f d p' f' d', In (k, m) props -> In (k', m') props -> k <> k' ->
      locate 2 t0 k = Some (p, f, d) -> locate 2 t0 k' = Some (p', f', d') -> (p, f) <> (p', f').
    Proof.
      intros k m k' m' p f d p' f' d' I I' N L L' E. injection E as -> ->. pose proof classes_ok as C. rewrite forallb_forall in C. specialize (C _ IN). apply andb_prop in C. destruct C as [_ C]. cbn [fst snd] in C.
      exact (apart_spec _ C _ _ _ _ _ _ _ _ I I' N L L').
    Qed.

    (** only the listed properties can be set *)
    Lemma only_props : forall t n k v e t', configured fi fu t0 t -> set_prop fi fu n t k v = Ok (e, t') -> exists m, In (k, m) props.
    Proof.
      intros t n k v e t' C H. assert (E : cls t0 = cls t). { pose proof (configured_shape _ _ C []) as S. unfold desc_at in S. cbn [at_path option_map] in S. unfold erase in S. injection S as S _. exact S. }
      destruct n as [|n]; cbn [set_prop] in H; [discriminate|]. rewrite <- E in H. destruct (c_get (cls t0) k) as [d|] eqn:G; [|discriminate]. apply c_get_in in G.
      pose proof classes_covered as CC. rewrite forallb_forall in CC. specialize (CC _ IN). unfold covered in CC. cbn [fst snd] in CC. rewrite forallb_forall in CC. specialize (CC _ G). cbn [fst] in CC.
      rewrite existsb_exists in CC. destruct CC as ([k' m] & I & Q). cbn [fst] in Q. apply bytes_eqb_eq in Q. subst k'. exists m. exact I.
    Qed.

    (** what Set does in any state *)
    Lemma set_spec : forall t n k m v, configured fi fu t0 t -> (2 <= n)%nat -> In (k, m) props -> exists p f d ty w0 u,
      locate n t k = Some (p, f, d) /\ locate 2 t0 k = Some (p, f, d) /\ option_map fst (slot t0 p f) = Some ty /\ kind_ok m d ty = true /\ at_path p t = Some u /\ f_get (obj u) f = Some (ty, w0) /\
      set_prop fi fu n t k v = match conv fi fu d ty v with
                               | Some w => Ok (None, set_at p (with_obj u (f_set (obj u) f w)) t)
                               | None => Ok (Some EInvalid, t)
                               end.
    Proof.
      intros t n k m v C N I. destruct (props_where _ _ _ _ C N I) as (p & f & d & ty & w0 & L & L0 & S & S0 & K). destruct (set_locate n t k v p f d L) as (u & A & E).
      assert (G : f_get (obj u) f = Some (ty, w0)). { unfold slot, desc_at in S. rewrite A in S. cbn [option_map] in S. exact S. }
      rewrite G in E. exists p, f, d, ty, w0, u. auto 8.
    Qed.

    Lemma set_then_get : forall t n k m v t', configured fi fu t0 t -> (2 <= n)%nat -> In (k, m) props -> set_prop fi fu n t k v = Ok (None, t') ->
      exists p f d ty w, locate 2 t0 k = Some (p, f, d) /\ option_map fst (slot t0 p f) = Some ty /\ kind_ok m d ty = true /\ conv fi fu d ty v = Some w /\ get_prop n t' k = Ok (view d (Some w)).
    Proof.
      intros t n k m v t' C N I H. destruct (set_spec t n k m v C N I) as (p & f & d & ty & w0 & u & L & L0 & S0 & K & A & G & E). rewrite E in H.
      destruct (conv fi fu d ty v) as [w|] eqn:W; [|discriminate]. injection H as <-. exists p, f, d, ty, w. repeat split; auto.
      assert (L' : locate n (set_at p (with_obj u (f_set (obj u) f w)) t) k = Some (p, f, d)).
      { rewrite <- (shape_locate n t); [exact L|]. apply (set_shape n t k v None). exact E. }
      rewrite (get_locate _ _ _ _ _ _ L'). rewrite (slot_here _ _ _ _ _ w _ A G). reflexivity.
    Qed.

    Lemma set_frame : forall t n k v e t' k' m', configured fi fu t0 t -> (2 <= n)%nat -> set_prop fi fu n t k v = Ok (e, t') -> In (k', m') props -> k' <> k \/ e <> None ->
      get_prop n t' k' = get_prop n t k'.
    Proof.
      intros t n k v e t' k' m' C N H I' D. destruct (set_inv _ _ _ _ _ _ H) as [[_ ->]|(-> & _)]; [reflexivity|]. destruct D as [D|D]; [|contradiction].
      destruct (only_props _ _ _ _ _ _ C H) as (m & I). destruct (set_spec t n k m v C N I) as (p & f & d & ty & w0 & u & L & L0 & S0 & K & A & G & E).
      destruct (props_where _ _ _ _ C N I') as (p' & f' & d' & ty' & w0' & L' & L0' & S' & _). pose proof H as HS. rewrite E in H. destruct (conv fi fu d ty v) as [w|]; [|discriminate]. injection H as <-.
      rewrite (get_locate _ _ _ _ _ _ L'). assert (LL : locate n (set_at p (with_obj u (f_set (obj u) f w)) t) k' = Some (p', f', d')).
      { rewrite <- (shape_locate n t); [exact L'|]. apply (set_shape n t k v None). exact HS. }
      rewrite (get_locate _ _ _ _ _ _ LL). rewrite slot_other; [reflexivity|exact A|]. apply (props_apart k m k' m' p f d p' f' d'); auto.
    Qed.

    (** whether a value is accepted does not depend on the history *)
    Lemma stateless : forall t t' n k v t1, configured fi fu t0 t -> configured fi fu t0 t' -> (2 <= n)%nat -> set_prop fi fu n t k v = Ok (None, t1) ->
      exists t1', set_prop fi fu n t' k v = Ok (None, t1') /\ get_prop n t1' k = get_prop n t1 k.
    Proof.
      intros t t' n k v t1 C C' N H. destruct (only_props _ _ _ _ _ _ C H) as (m & I). destruct (set_then_get _ _ _ _ _ _ C N I H) as (p & f & d & ty & w & L0 & S0 & K & W & E).
      destruct (set_spec t' n k m v C' N I) as (p' & f' & d' & ty' & w0 & u & L & L0' & S0' & K' & A & G & E'). rewrite L0 in L0'. injection L0' as <- <- <-.
      rewrite S0 in S0'. injection S0' as <-. rewrite W in E'. eexists. split; [exact E'|]. destruct (set_then_get _ _ _ _ _ _ C' N I E') as (p2 & f2 & d2 & ty2 & w2 & L2 & S2 & K2 & W2 & E2).
      rewrite L0 in L2. injection L2 as <- <- <-. rewrite S0 in S2. injection S2 as <-. rewrite W in W2. injection W2 as <-. congruence.
    Qed.

    Lemma sets_configured : forall n t l t', sets fi fu n t l t' -> configured fi fu t0 t -> configured fi fu t0 t'.
    Proof. intros n t l t' H. induction H; [auto|]. intros C. apply IHsets. econstructor; eassumption. Qed.

    Definition accepts (n : nat) (t : anode) (k : buf) (v : aval) : Prop := exists t', set_prop fi fu n t k v = Ok (None, t').

    Lemma accepts_any : forall n t t' k v, configured fi fu t0 t -> configured fi fu t0 t' -> (2 <= n)%nat -> accepts n t k v -> accepts n t' k v.
    Proof. intros n t t' k v C C' N (t1 & H). destruct (stateless t t' n k v t1 C C' N H) as (t1' & H' & _). exists t1'. exact H'. Qed.

    Lemma history_none : forall n l t t' k m, configured fi fu t0 t -> (2 <= n)%nat -> In (k, m) props -> sets fi fu n t l t' ->
      (forall v, In (k, v) l -> ~ accepts n t k v) -> get_prop n t' k = get_prop n t k.
    Proof.
      intros n l t t' k m C N I H. induction H as [t|t k' v e t1 l t2 S H IH]; intros A; [reflexivity|].
      assert (C1 : configured fi fu t0 t1) by (econstructor; eassumption). rewrite IH; [|exact C1|].
      - apply (set_frame t n k' v e t1 k m C N S I). destruct (list_eq_dec N.eq_dec k k') as [->|D]; [|left; exact D]. right. intros ->. apply (A v); [left; reflexivity|]. exists t1. exact S.
      - intros v' J B. apply (A v'); [right; exact J|]. apply (accepts_any n t1 t k v' C1 C N B).
    Qed.

    Lemma sets_app : forall n l1 l2 t t', sets fi fu n t (l1 ++ l2) t' -> exists t1, sets fi fu n t l1 t1 /\ sets fi fu n t1 l2 t'.
    Proof.
      induction l1 as [|[k v] l1 IH]; intros l2 t t' H; [exists t; split; [constructor|exact H]|]. cbn [app] in H. inversion H as [|? ? ? e t1 ? ? S H']. subst.
      destruct (IH _ _ _ H') as (t2 & H1 & H2). exists t2. split; [econstructor; eassumption|exact H2].
    Qed.

    Lemma history_last : forall n l1 l2 t t' k v t1, configured fi fu t0 t -> (2 <= n)%nat -> sets fi fu n t (l1 ++ (k, v) :: l2) t' ->
      set_prop fi fu n t k v = Ok (None, t1) -> (forall v', In (k, v') l2 -> ~ accepts n t k v') -> get_prop n t' k = get_prop n t1 k.
    Proof.
      intros n l1 l2 t t' k v t1 C N H S A. destruct (only_props _ _ _ _ _ _ C S) as (m & I). destruct (sets_app _ _ _ _ _ H) as (ta & H1 & H2). inversion H2 as [|? ? ? e tb ? ? Sa H3]. subst.
      pose proof (sets_configured _ _ _ _ H1 C) as Ca. destruct (stateless t ta n k v t1 C Ca N S) as (tb' & Sb & G). rewrite Sb in Sa. injection Sa as <- <-.
      rewrite <- G. apply (history_none n l2 tb' t' k m); [econstructor; eassumption|exact N|exact I|exact H3|]. intros v' J B. apply (A v' J). apply (accepts_any n tb' t k v'); [econstructor; eassumption|exact C|exact N|exact B].
    Qed.

    (** ** Attributes *)
    Lemma attrs_sets : forall n d t t', set_attrs fi fu n t d = Ok t' -> sets fi fu n t d t'.
    Proof.
      induction d as [|[k v] d IH]; intros t t'; cbn [set_attrs]; [intros H; injection H as <-; constructor|]. destruct (set_prop fi fu n t k v) as [[[e|] t1]| | |] eqn:S; try discriminate.
      intros H. econstructor; [exact S|]. apply IH. exact H.
    Qed.
    Lemma attrs_accept : forall n d t, configured fi fu t0 t -> (2 <= n)%nat ->
      ((exists t', set_attrs fi fu n t d = Ok t') <-> forall k v, In (k, v) d -> accepts n t k v).
    Proof.
      induction d as [|[k v] d IH]; intros t C N; cbn [set_attrs]; [split; [intros _ ? ? []|intros _; exists t; reflexivity]|]. split.
      - intros (t' & H). destruct (set_prop fi fu n t k v) as [[[e|] t1]| | |] eqn:S; try discriminate. assert (C1 : configured fi fu t0 t1) by (econstructor; eassumption).
        intros k' v' [E|J]; [injection E as <- <-; exists t1; exact S|]. apply (accepts_any n t1 t); auto. apply (proj1 (IH t1 C1 N)); [exists t'; exact H|exact J].
      - intros A. destruct (A k v (or_introl eq_refl)) as (t1 & S). rewrite S. assert (C1 : configured fi fu t0 t1) by (econstructor; eassumption).
        apply (proj2 (IH t1 C1 N)). intros k' v' J. apply (accepts_any n t t1); auto. apply A. right. exact J.
    Qed.
    Lemma attrs_get : forall n d t t' k v t1, configured fi fu t0 t -> (2 <= n)%nat -> NoDup (map fst d) -> set_attrs fi fu n t d = Ok t' -> In (k, v) d ->
      set_prop fi fu n t k v = Ok (None, t1) -> get_prop n t' k = get_prop n t1 k.
    Proof.
      intros n d t t' k v t1 C N D H I S. destruct (in_split _ _ I) as (l1 & l2 & ->). apply (history_last n l1 l2 t t' k v t1 C N (attrs_sets _ _ _ _ H) S).
      intros v' J _. rewrite map_app in D. cbn [map fst] in D. apply NoDup_remove_2 in D. apply D. apply in_or_app. right. apply in_map_iff. exists (k, v'). split; [reflexivity|exact J].
    Qed.
    Lemma attrs_other : forall n d t t' k m, configured fi fu t0 t -> (2 <= n)%nat -> In (k, m) props -> ~ In k (map fst d) -> set_attrs fi fu n t d = Ok t' -> get_prop n t' k = get_prop n t k.
    Proof.
      intros n d t t' k m C N I X H. apply (history_none n d t t' k m C N I (attrs_sets _ _ _ _ H)). intros v J. exfalso. apply X. apply in_map_iff. exists (k, v). split; [reflexivity|exact J].
    Qed.
    Lemma attrs_perm : forall n d d' t t1, configured fi fu t0 t -> (2 <= n)%nat -> NoDup (map fst d) -> Permutation d d' -> set_attrs fi fu n t d = Ok t1 ->
      exists t2, set_attrs fi fu n t d' = Ok t2 /\ forall k m, In (k, m) props -> get_prop n t2 k = get_prop n t1 k.
    Proof.
      intros n d d' t t1 C N D P H. pose proof (proj1 (attrs_accept n d t C N) (ex_intro _ _ H)) as A.
      assert (A' : forall k v, In (k, v) d' -> accepts n t k v) by (intros k v J; apply A; apply (Permutation_in _ (Permutation_sym P)); exact J).
      destruct (proj2 (attrs_accept n d' t C N) A') as (t2 & H2). exists t2. split; [exact H2|]. intros k m I.
      assert (D' : NoDup (map fst d')) by (eapply Permutation_NoDup; [apply Permutation_map; exact P|exact D]).
      destruct (in_dec (list_eq_dec N.eq_dec) k (map fst d)) as [J|J].
      - apply in_map_iff in J. destruct J as ([k' v] & E & J). cbn [fst] in E. subst k'. destruct (A _ _ J) as (t3 & S).
        rewrite (attrs_get n d t t1 k v t3 C N D H J S). apply (attrs_get n d' t t2 k v t3 C N D' H2); [|exact S]. apply (Permutation_in _ P). exact J.
      - rewrite (attrs_other n d t t1 k m C N I J H). apply (attrs_other n d' t t2 k m C N I); [|exact H2]. intros J'. apply J. apply (Permutation_in _ (Permutation_map fst (Permutation_sym P))). exact J'.
    Qed.

    (** ** Legal values *)
    Lemma wrap_small : forall z, (0 <= z < Ztwo63)%Z -> wrap64 z = z.
    Proof. intros z H. unfold wrap64, Ztwo63, Ztwo64 in *. rewrite Z.mod_small by lia. lia. Qed.
    Lemma to_u64_N : forall n, (n < two64)%N -> to_u64 (Z.of_N n) = n.
    Proof. intros n H. unfold to_u64, Ztwo64, two64 in *. rewrite Z.mod_small by lia. lia. Qed.
    Lemma ms_view : forall n, (Z.of_N n * ms < Ztwo63)%Z -> to_u64 (Z.quot (Z.of_N n * ms) ms) = n.
    Proof. intros n H. rewrite Z.quot_mul by (unfold ms; lia). apply to_u64_N. unfold ms, Ztwo63, two64 in *. lia. Qed.
    Lemma small_to_int : forall n, (Z.of_N n * ms < Ztwo63)%Z -> to_int n = Z.of_N n.
    Proof. intros n H. unfold to_int, ms, Ztwo63, two63 in *. destruct (n <? 9223372036854775808)%N eqn:E; [reflexivity|lia]. Qed.
    Lemma f_ms : forall p f n, (6 < p)%Z -> (p <= 53)%Z -> f_is f (Z.of_N n) -> (Z.of_N n * 15625 < 2 ^ p)%Z ->
      f_int64 fi (f_mul p f ms) = (Z.of_N n * ms)%Z /\ (Z.of_N n * ms < Ztwo63)%Z.
    Proof.
      intros p f n P P' F B. assert (2 ^ p <= 2 ^ 53)%Z by (apply Z.pow_le_mono_r; lia). change (2 ^ 53)%Z with 9007199254740992%Z in *.
      assert (R : (Z.of_N n * ms < Ztwo63)%Z) by (unfold ms, Ztwo63; lia). split; [|exact R]. unfold f_int64. rewrite (f_mul_ms p f (Z.of_N n)) by (auto; lia).
      destruct ((- Ztwo63 <=? Z.of_N n * ms) && (Z.of_N n * ms <? Ztwo63))%Z eqn:E; [reflexivity|]. unfold Ztwo63, ms in *. lia.
    Qed.
    Lemma match_conv : forall d m, match_of d m -> conv_matching d = Some m.
    Proof. intros d m H. induction H; cbn [conv_matching]; [reflexivity|..]; rewrite ?H, ?IHmatch_of; reflexivity. Qed.

    Lemma legal_conv : forall m d ty v w, kind_ok m d ty = true -> legal m v w -> exists x, conv fi fu d ty v = Some x /\ view d (Some x) = w.
    Proof.
      intros m d ty v w K L. destruct L; destruct d; try discriminate K; destruct ty as [| | | | | | | | |ty]; try discriminate K; cbn [conv conv_default conv_time conv_name assign].
      all: try (eexists; split; reflexivity).
      - eexists; split; [reflexivity|]. cbn [view]. unfold f_uint64. rewrite (f_trunc_is f (Z.of_N n)) by (auto; lia).
        destruct ((0 <=? Z.of_N n) && (Z.of_N n <? Ztwo64))%Z eqn:E; [rewrite N2Z.id; reflexivity|]. unfold Ztwo64, two64 in *. lia.
      - eexists; split; [reflexivity|]. cbn [view]. rewrite small_to_int by exact H. rewrite wrap_small by (unfold ms in *; lia). rewrite ms_view by exact H. reflexivity.
      - eexists; split; [reflexivity|]. cbn [view]. rewrite small_to_int by exact H. rewrite wrap_small by (unfold ms in *; lia). rewrite ms_view by exact H. reflexivity.
      - eexists; split; [reflexivity|]. cbn [view]. rewrite wrap_small by (unfold ms in *; lia). rewrite ms_view by exact H. reflexivity.
      - eexists; split; [reflexivity|]. cbn [view]. rewrite wrap_small by (unfold ms in *; lia). rewrite ms_view by exact H. reflexivity.
      - eexists; split; [reflexivity|]. cbn [view]. destruct (f_ms 53 f n) as [-> R]; try assumption; try lia. rewrite ms_view by exact R. reflexivity.
      - eexists; split; [reflexivity|]. cbn [view]. destruct (f_ms 24 f n) as [-> R]; try assumption; try lia. rewrite ms_view by exact R. reflexivity.
      - rewrite (match_conv _ _ H). eexists; split; reflexivity.
      - destruct ty; [|discriminate K]. eexists; split; reflexivity.
    Qed.

    Lemma type_conv : forall m d ty v x, kind_ok m d ty = true -> conv fi fu d ty v = Some x -> right_type m v.
    Proof.
      intros m d ty v x K C. destruct m; destruct d; try discriminate K; destruct ty as [| | | | | | | | |ty]; try discriminate K; destruct v; cbn [conv conv_default conv_time conv_name assign right_type] in *; try discriminate C; eauto 8.
      destruct ty; [|discriminate K]. destruct (0 =? t)%N eqn:E; [|discriminate C]. apply N.eqb_eq in E. subst t. eauto.
    Qed.

    Lemma set_legal : forall t n k m v w, configured fi fu t0 t -> (2 <= n)%nat -> In (k, m) props -> legal m v w ->
      exists t', set_prop fi fu n t k v = Ok (None, t') /\ get_prop n t' k = Ok w.
    Proof.
      intros t n k m v w C N I L. destruct (set_spec t n k m v C N I) as (p & f & d & ty & w0 & u & LL & L0 & S0 & K & A & G & E). destruct (legal_conv _ _ _ _ _ K L) as (x & X & V). rewrite X in E.
      eexists. split; [exact E|]. destruct (set_then_get _ _ _ _ _ _ C N I E) as (p2 & f2 & d2 & ty2 & w2 & L2 & S2 & K2 & W2 & E2). rewrite E2. rewrite L0 in L2. injection L2 as <- <- <-. rewrite S0 in S2. injection S2 as <-. rewrite X in W2. injection W2 as <-. rewrite V. reflexivity.
    Qed.
    Lemma set_type : forall t n k m v t', configured fi fu t0 t -> (2 <= n)%nat -> In (k, m) props -> set_prop fi fu n t k v = Ok (None, t') -> right_type m v.
    Proof. intros t n k m v t' C N I H. destruct (set_then_get _ _ _ _ _ _ C N I H) as (p & f & d & ty & w & _ & _ & K & W & _). apply (type_conv _ _ _ _ _ K W). Qed.
    Lemma set_returns : forall t n k m v, configured fi fu t0 t -> (2 <= n)%nat -> In (k, m) props -> exists e t', set_prop fi fu n t k v = Ok (e, t').
    Proof. intros t n k m v C N I. destruct (set_spec t n k m v C N I) as (p & f & d & ty & w0 & u & _ & _ & _ & _ & _ & _ & E). rewrite E. destruct (conv fi fu d ty v); eauto. Qed.
  End OneClass.
End Set_.
