From Coq Require Import Permutation.
From Verif Require Import Base BaseProofs NameModel NameProofs OrderProofs PatternProofs SchemaModel SchemaSpec.

Lemma plain_dec : forall c, {plain c} + {~ plain c}.
Proof.
  intros c. destruct (N.eq_dec (ctyp c) TypeParametersSha256Digest) as [A|A]; [right; intros [B _]; contradiction|].
  destruct (N.eq_dec (ctyp c) TypeImplicitSha256Digest) as [B|B]; [right; intros [_ C]; contradiction|]. left. split; auto.
Qed.
Lemma plain_no : forall c, plain c -> (ctyp c =? TypeParametersSha256Digest)%N = false /\ (ctyp c =? TypeImplicitSha256Digest)%N = false.
Proof. intros c [A B]. split; apply N.eqb_neq; auto. Qed.

Lemma common_prefix : forall A (a b s t : list A), a ++ s = b ++ t -> (exists z, a = b ++ z) \/ (exists z, b = a ++ z).
Proof.
  intros A. induction a as [|x a IH]; intros b s t E; [right; exists b; reflexivity|]. destruct b as [|y b]; [left; exists (x :: a); reflexivity|].
  cbn [app] in E. injection E as <- E. destruct (IH b s t E) as [[z ->]|[z ->]]; [left|right]; exists z; reflexivity.
Qed.

Section P.
  Variable D : Type.
  Implicit Types (t u : stree D).

  Definition strip (n : name) (m : matching) : name * matching :=
    let '(n, m) := match n with c :: r => if (ctyp c =? TypeParametersSha256Digest)%N then (r, mset m tag_params (cval c)) else (n, m) | [] => (n, m) end in
    match n with c :: r => if (ctyp c =? TypeImplicitSha256Digest)%N then (r, mset m tag_digest (cval c)) else (n, m) | [] => (n, m) end.

  (** the definition as it stands in the code *)
  Lemma cm_eq : forall n t m, continue_match n t m =
    match strip n m with
    | ([], m') => Some ([], t, m')
    | (c :: n', m') => into c (continue_match n') t m'
    end.
  Proof.
    intros n t m. unfold strip. destruct n as [|c n]; [reflexivity|]. cbn [continue_match].
    destruct (ctyp c =? TypeParametersSha256Digest)%N eqn:E1.
    - destruct n as [|c1 n2]; [reflexivity|]. destruct (ctyp c1 =? TypeImplicitSha256Digest)%N; [destruct n2|]; reflexivity.
    - destruct (ctyp c =? TypeImplicitSha256Digest)%N; [destruct n|]; reflexivity.
  Qed.

  Lemma find_first : forall (f : pat -> bool) (l : list (pat * stree D)) e c, find_edge f l = Some (e, c) ->
    f e = true /\ exists l1 l2, l = l1 ++ (e, c) :: l2 /\ forall a, In a l1 -> f (fst a) = false.
  Proof.
    intros f l e c. induction l as [|[x y] l IH]; cbn [find_edge find fst]; [discriminate|]. destruct (f x) eqn:E.
    - intros H. inversion H; subst. split; [auto|]. exists [], l. split; [reflexivity|]. intros a [].
    - intros H. destruct (IH H) as (A & l1 & l2 & -> & B). split; [auto|]. exists ((x, y) :: l1), l2. split; [reflexivity|].
      intros a [<-|I]; [auto|apply B; auto].
  Qed.
  Lemma find_some : forall (f : pat -> bool) (l1 l2 : list (pat * stree D)) e c, (forall a, In a l1 -> f (fst a) = false) -> f e = true ->
    find_edge f (l1 ++ (e, c) :: l2) = Some (e, c).
  Proof.
    intros f l1 l2 e c A B. induction l1 as [|[x y] l1 IH]; cbn [find_edge find app fst].
    - rewrite B. reflexivity.
    - pose proof (A (x, y) (or_introl eq_refl)) as X. cbn [fst] in X. rewrite X. apply IH. intros a I. apply A. right. auto.
  Qed.

  Lemma strip_split : forall n m n' m', strip n m = (n', m') -> exists d, n = d ++ n' /\ Forall (fun c => ~ plain c) d.
  Proof.
    intros n m n' m' H. unfold strip in H.
    assert (P : forall c, (ctyp c =? TypeParametersSha256Digest)%N = true -> ~ plain c) by (intros c E [X _]; apply N.eqb_eq in E; contradiction).
    assert (Q : forall c, (ctyp c =? TypeImplicitSha256Digest)%N = true -> ~ plain c) by (intros c E [_ X]; apply N.eqb_eq in E; contradiction).
    destruct n as [|c n]; [inversion H; exists []; auto|].
    destruct (ctyp c =? TypeParametersSha256Digest)%N eqn:E1.
    - destruct n as [|c1 n]; [inversion H; subst; exists [c]; auto|]. destruct (ctyp c1 =? TypeImplicitSha256Digest)%N eqn:E2; inversion H; subst; [exists [c; c1]|exists [c]]; auto.
    - destruct (ctyp c =? TypeImplicitSha256Digest)%N eqn:E2; inversion H; subst; [exists [c]|exists []]; auto.
  Qed.
  Lemma covers_app : forall d p n, Forall (fun c => ~ plain c) d -> covers p n -> covers p (d ++ n).
  Proof. intros d p n H C. induction H; cbn [app]; auto. constructor; auto. Qed.

  Lemma cm_sound : forall k n t m p u m', (length n <= k)%nat -> continue_match n t m = Some (p, u, m') -> leads t p u /\ covers p n.
  Proof.
    induction k as [|k IH]; intros n t m p u m' L H; rewrite cm_eq in H; destruct (strip n m) as [n' m1] eqn:S; apply strip_split in S; destruct S as (d & -> & F);
      (destruct n' as [|c n']; [inversion H; subst; split; [constructor|apply covers_app; [auto|constructor]]|]).
    - rewrite app_length in L. cbn in L. lia.
    - unfold into in H. destruct (find_edge _ _) as [[e t']|] eqn:FE; [|discriminate]. destruct (continue_match n' t' _) as [[[p' u'] m2]|] eqn:C; [|discriminate].
      inversion H; subst. apply find_first in FE. destruct FE as (A & l1 & l2 & E & _). rewrite app_length in L. cbn [length] in L.
      apply IH in C; [|lia]. destruct C as [C1 C2]. split.
      + eapply LdChild; [|eauto]. rewrite E. apply in_app_iff. right. left. reflexivity.
      + apply covers_app; auto. apply CovEdge; auto.
  Qed.

  (** names with digests at the end only *)
  Definition tail_match (pv dv : option buf) (m : matching) : matching :=
    let m1 := match pv with Some v => mset m tag_params v | None => m end in
    match dv with Some v => mset m1 tag_digest v | None => m1 end.
  Fixpoint path_match (p : list pat) (n : name) (m : matching) : matching :=
    match p, n with e :: p', c :: n' => path_match p' n' (pat_match e c m) | _, _ => m end.

  Lemma strip_plain : forall c n m, plain c -> strip (c :: n) m = (c :: n, m).
  Proof. intros c n m H. destruct (plain_no c H) as [A B]. unfold strip. rewrite A, B. reflexivity. Qed.
  Lemma strip_tail : forall pv dv m, strip (digests pv dv) m = ([], tail_match pv dv m).
  Proof. intros [v|] [w|] m; reflexivity. Qed.

  Lemma cm_tail : forall pv dv n t m, Forall plain n ->
    forall p u m', continue_match (n ++ digests pv dv) t m = Some (p, u, m') <-> leftmost t p n u /\ m' = tail_match pv dv (path_match p n m).
  Proof.
    intros pv dv. induction n as [|c n IH]; intros t m F p u m'; cbn [app]; rewrite cm_eq.
    - rewrite strip_tail. split; [intros H; inversion H; subst; split; [constructor|reflexivity]|intros [H ->]; inversion H; subst; reflexivity].
    - inversion F as [|? ? Pc Fn]; subst. rewrite strip_plain by auto. unfold into. split.
      + intros H. destruct (find_edge _ _) as [[e t']|] eqn:FE; [|discriminate]. destruct (continue_match _ t' _) as [[[p' u'] m2]|] eqn:C; [|discriminate]. inversion H; subst.
        apply find_first in FE. destruct FE as (A & l1 & l2 & E & B). apply IH in C; auto. destruct C as [C1 ->]. split; [|reflexivity]. econstructor; eauto.
      + intros [H ->]. inversion H as [|? l1 e c' l2 p' x n' ? E A B L]; subst. rewrite E, find_some by auto.
        rewrite (proj2 (IH c' (pat_match e c m) Fn p' u (tail_match pv dv (path_match p' n (pat_match e c m))))); [reflexivity|]. auto.
  Qed.

  Lemma leftmost_leads : forall t p n u, leftmost t p n u -> leads t p u.
  Proof. intros t p n u H. induction H as [|t l1 e c l2 p x n u E A B L IH]; [constructor|]. eapply LdChild; [|eauto]. rewrite E. apply in_app_iff. right. left. reflexivity. Qed.
  Lemma leftmost_matches : forall t p n u, leftmost t p n u -> matches p n.
  Proof. intros t p n u H. induction H; constructor; auto. Qed.

  Lemma skip_prefix : forall (a b : name), skipn (length a) (a ++ b) = b.
  Proof. induction a; cbn; auto. Qed.

  Lemma match_iff : forall prefix t r pv dv x, Forall plain r ->
    (match_name prefix t (prefix ++ r ++ digests pv dv) = Some x <->
     leftmost t (m_path x) r (m_node x) /\ m_match x = tail_match pv dv (path_match (m_path x) r []) /\ m_name x = prefix ++ r ++ digests pv dv).
  Proof.
    intros prefix t r pv dv x F. unfold match_name.
    assert (E : is_prefix prefix (prefix ++ r ++ digests pv dv) = true) by (apply is_prefix_iff; eauto). rewrite E. cbn [negb]. rewrite skip_prefix.
    destruct x as [p u m n]. cbn [m_path m_node m_match m_name]. split.
    - intros H. destruct (continue_match _ t []) as [[[p' u'] m']|] eqn:C; [|discriminate]. inversion H; subst. apply cm_tail in C; auto. tauto.
    - intros (H1 & H2 & H3). rewrite (proj2 (cm_tail pv dv r t [] F p u m)) by auto. subst n. reflexivity.
  Qed.

  Lemma path_np : forall p n m, matches p n -> np_match p n m = Ok (path_match p n m).
  Proof. intros p n m H. revert m. induction H; intros m; cbn [np_match path_match]; auto. Qed.

  Lemma tail_get : forall pv dv m tag, mget (tail_match pv dv m) tag =
    if bytes_eqb tag_digest tag then (match dv with Some v => Some v | None => mget m tag end)
    else if bytes_eqb tag_params tag then (match pv with Some v => Some v | None => mget m tag end) else mget m tag.
  Proof.
    intros pv dv m tag. unfold tail_match. destruct dv as [v|], pv as [w|]; cbn [mset mget];
      destruct (bytes_eqb tag_digest tag) eqn:E1, (bytes_eqb tag_params tag) eqn:E2; try reflexivity.
    apply bytes_eqb_eq in E1, E2. subst. discriminate E2.
  Qed.

  Lemma np_from_ext : forall p m1 m2, (forall ty tag, In (PVar ty tag) p -> mget m1 tag = mget m2 tag) -> np_from_matching p m1 = np_from_matching p m2.
  Proof.
    induction p as [|e p IH]; intros m1 m2 H; cbn [np_from_matching]; [reflexivity|].
    assert (E : pat_from_matching e m1 = pat_from_matching e m2). { destruct e as [c|t tag]; [reflexivity|]. cbn. rewrite (H t tag (or_introl eq_refl)). reflexivity. }
    rewrite E, (IH m1 m2); [reflexivity|]. intros. eapply H. right. eauto.
  Qed.

  Lemma tail_own : forall p pv dv m ty tag, own_tags p -> In (PVar ty tag) p -> mget (tail_match pv dv m) tag = mget m tag.
  Proof.
    intros p pv dv m t tag [O1 O2] I. rewrite tail_get. destruct (bytes_eqb tag_digest tag) eqn:E1.
    - apply bytes_eqb_eq in E1. subst. exfalso. apply O2. exists t. auto.
    - destruct (bytes_eqb tag_params tag) eqn:E2; [|reflexivity]. apply bytes_eqb_eq in E2. subst. exfalso. apply O1. exists t. auto.
  Qed.

  Lemma path_get_other : forall p n m tag, matches p n -> ~ has_tag p tag -> mget (path_match p n m) tag = mget m tag.
  Proof.
    intros p n m tag H. revert m. induction H as [|e c p n E M IH]; intros m N; cbn [path_match]; [reflexivity|].
    rewrite IH by (intros [t I]; apply N; exists t; right; auto). destruct e as [x|t tg]; cbn [pat_match]; [reflexivity|]. cbn [mset mget].
    destruct (bytes_eqb tg tag) eqn:E1; [|reflexivity]. apply bytes_eqb_eq in E1. subst. exfalso. apply N. exists t. left. reflexivity.
  Qed.

  Lemma match_apply : forall prefix t r pv dv x, Forall plain r -> match_name prefix t (prefix ++ r ++ digests pv dv) = Some x ->
    tags_consistent (m_path x) r -> own_tags (m_path x) ->
    apply_match prefix (m_path x) (m_match x) = Some (prefix ++ r ++ digests pv dv)
    /\ (forall i ty tag c, nth_error (m_path x) i = Some (PVar ty tag) -> nth_error r i = Some c -> mget (m_match x) tag = Some (cval c)).
  Proof.
    intros prefix t r pv dv x F H TC O. apply match_iff in H; auto. destruct H as (L & -> & N). apply leftmost_matches in L.
    destruct (np_match_get (m_path x) r [] L TC) as (m' & E & G & _). rewrite path_np in E by auto. inversion E; subst m'; clear E.
    assert (G' : forall i ty tag c, nth_error (m_path x) i = Some (PVar ty tag) -> nth_error r i = Some c -> mget (tail_match pv dv (path_match (m_path x) r [])) tag = Some (cval c)).
    { intros i ty tag c I J. rewrite (tail_own (m_path x) pv dv _ ty tag O) by (eapply nth_error_In; eauto). eauto. }
    split; [|exact G']. unfold apply_match. rewrite (np_from_matching_ok (m_path x) r _ L G').
    rewrite !tail_get. rewrite (proj2 (bytes_eqb_eq tag_digest tag_digest) eq_refl), (proj2 (bytes_eqb_eq tag_params tag_params) eq_refl).
    change (bytes_eqb tag_digest tag_params) with false. cbv iota.
    destruct O as [O1 O2]. rewrite !path_get_other by auto. cbn [mget]. unfold digests. destruct pv, dv; reflexivity.
  Qed.

  Lemma np_from_total : forall p m, (forall ty tag, In (PVar ty tag) p -> mget m tag <> None) -> exists n, np_from_matching p m = Ok n.
  Proof.
    induction p as [|e p IH]; intros m H; cbn [np_from_matching]; [eauto|].
    destruct (IH m) as [n E]; [intros; eapply H; right; eauto|]. rewrite E.
    destruct e as [c|t tag]; cbn [pat_from_matching bind]; [eauto|]. destruct (mget m tag) eqn:G; [cbn [bind]; eauto|]. exfalso. eapply H; [left; reflexivity|auto].
  Qed.
  Lemma np_from_needs : forall p m n ty tag, np_from_matching p m = Ok n -> In (PVar ty tag) p -> mget m tag <> None.
  Proof.
    induction p as [|e p IH]; intros m n t tag H I; [contradiction|]. cbn [np_from_matching] in H.
    destruct (pat_from_matching e m) as [c| | |] eqn:E; try discriminate. cbn [bind] in H. destruct (np_from_matching p m) as [n'| | |] eqn:E2; try discriminate.
    destruct I as [->|I]; [|eauto]. cbn in E. destruct (mget m tag); [discriminate|inversion E].
  Qed.

  Lemma apply_ok : forall prefix p m n, apply_match prefix p m = Some n ->
    exists r, np_from_matching p m = Ok r /\ n = prefix ++ r ++ digests (mget m tag_params) (mget m tag_digest) /\ matches p r /\ tags_consistent p r.
  Proof.
    intros prefix p m n H. unfold apply_match in H. destruct (np_from_matching p m) as [r| | |] eqn:E; inversion H; subst. exists r. split; [reflexivity|]. split; [reflexivity|]. eapply instantiate_then_match; eauto.
  Qed.

  Lemma apply_iff : forall prefix p m, (exists n, apply_match prefix p m = Some n) <-> forall ty tag, In (PVar ty tag) p -> mget m tag <> None.
  Proof.
    intros prefix p m. unfold apply_match. split.
    - intros [n H] t tag I. destruct (np_from_matching p m) eqn:E; try discriminate. eapply np_from_needs; eauto.
    - intros H. destruct (np_from_total p m H) as [n ->]. eauto.
  Qed.

  (** Refine continues a match *)
  Lemma strip_app : forall a b m, a <> [] -> plain (last a (mkComp 0 [])) -> forall a' m', strip a m = (a', m') -> strip (a ++ b) m = (a' ++ b, m') /\ a' <> [] /\ last a' (mkComp 0 []) = last a (mkComp 0 []).
  Proof.
    intros a b m NE L a' m' H. unfold strip in *. destruct a as [|c a]; [contradiction|]. cbn [app].
    assert (ONE : forall c x, plain (last [c] x) -> plain c) by (intros; auto).
    destruct (ctyp c =? TypeParametersSha256Digest)%N eqn:E1.
    - destruct a as [|c1 a]; [apply ONE in L; destruct (plain_no c L); congruence|]. cbn [app].
      destruct (ctyp c1 =? TypeImplicitSha256Digest)%N eqn:E2.
      + destruct a as [|c2 a]; [cbn in L; destruct (plain_no c1 L); congruence|]. inversion H; subst. split; [reflexivity|]. split; [discriminate|reflexivity].
      + inversion H; subst. split; [reflexivity|]. split; [discriminate|reflexivity].
    - destruct (ctyp c =? TypeImplicitSha256Digest)%N eqn:E2.
      + destruct a as [|c1 a]; [apply ONE in L; destruct (plain_no c L); congruence|]. inversion H; subst. split; [reflexivity|]. split; [discriminate|reflexivity].
      + inversion H; subst. split; [reflexivity|]. split; [discriminate|reflexivity].
  Qed.

  Lemma cm_app : forall k a b t m p u m', (length a <= k)%nat -> (a = [] \/ plain (last a (mkComp 0 []))) -> continue_match a t m = Some (p, u, m') ->
    continue_match (a ++ b) t m = match continue_match b u m' with Some (q, v, m2) => Some (p ++ q, v, m2) | None => None end.
  Proof.
    induction k as [|k IH]; intros a b t m p u m' L PL H.
    - destruct a; [|cbn in L; lia]. cbn in H. inversion H; subst. cbn [app]. destruct (continue_match b u m') as [[[q v] m2]|]; reflexivity.
    - destruct PL as [->|PL]; [cbn in H; inversion H; subst; cbn [app]; destruct (continue_match b u m') as [[[q v] m2]|]; reflexivity|].
      destruct a as [|c0 a0] eqn:EA; [cbn in H; inversion H; subst; cbn [app]; destruct (continue_match b u m') as [[[q v] m2]|]; reflexivity|]. rewrite <- EA in *.
      assert (NE : a <> []) by (rewrite EA; discriminate). clear EA c0 a0.
      rewrite cm_eq in H. destruct (strip a m) as [a' m1] eqn:S. pose proof (strip_split _ _ _ _ S) as (d & Ed & _).
      destruct (strip_app a b m NE PL a' m1 S) as (S2 & NE' & LA). rewrite cm_eq, S2. destruct a' as [|c a']; [contradiction|]. cbn [app].
      unfold into in *. destruct (find_edge _ _) as [[e t']|]; [|discriminate]. destruct (continue_match a' t' _) as [[[p' u'] m2]|] eqn:C; [|discriminate]. inversion H; subst p u' m2.
      assert (LE : (length a' <= k)%nat) by (rewrite Ed, app_length in L; cbn [length] in L; lia).
      rewrite (IH a' b t' _ p' u m' LE); [|destruct a' as [|c1 a']; [left; reflexivity|right; rewrite <- LA in PL; exact PL]|exact C].
      destruct (continue_match b u m') as [[[q v] m3]|]; reflexivity.
  Qed.

  Lemma refine_match : forall prefix t a b x, match_name prefix t (prefix ++ a) = Some x -> (a = [] \/ plain (last a (mkComp 0 []))) ->
    refine x (prefix ++ a ++ b) = Ok (match_name prefix t (prefix ++ a ++ b)).
  Proof.
    intros prefix t a b x H PL. unfold match_name in H. rewrite (proj2 (is_prefix_iff prefix (prefix ++ a))) in H by eauto. cbn [negb] in H. rewrite skip_prefix in H.
    destruct (continue_match a t []) as [[[p u] m]|] eqn:C; [|discriminate]. inversion H; subst x; clear H. unfold refine. cbn [m_name m_node m_match m_path].
    rewrite (proj2 (is_prefix_iff (prefix ++ a) (prefix ++ a ++ b))) by (exists b; rewrite app_assoc; reflexivity). cbn [negb].
    replace (skipn (length (prefix ++ a)) (prefix ++ a ++ b)) with b by (rewrite app_assoc; symmetry; apply skip_prefix).
    unfold match_name. rewrite (proj2 (is_prefix_iff prefix (prefix ++ a ++ b))) by eauto. cbn [negb]. rewrite skip_prefix, (cm_app _ a b t [] p u m (le_n _) PL C).
    destruct (continue_match b u m) as [[[q v] m2]|]; reflexivity.
  Qed.

  Lemma refine_digest : forall prefix t n d x, match_name prefix t (n ++ [mkComp TypeImplicitSha256Digest d]) = Some x -> 
    refine x n = Ok (Some (mkM (m_path x) (m_node x) (m_match x) n)).
  Proof.
    intros prefix t n d x H. unfold match_name in H. destruct (negb _); [discriminate|]. destruct (continue_match _ t []) as [[[p u] m]|]; [|discriminate]. inversion H; subst x; clear H.
    unfold refine. cbn [m_name m_path m_node m_match].
    assert (E : is_prefix (n ++ [mkComp TypeImplicitSha256Digest d]) n = false).
    { destruct (is_prefix _ _) eqn:E; [|reflexivity]. apply is_prefix_iff in E. destruct E as [s E]. apply (f_equal (@length comp)) in E. rewrite !app_length in E. cbn in E. lia. }
    rewrite E. cbn [negb]. rewrite rev_app_distr. cbn [rev app ctyp]. rewrite rev_involutive.
    change (negb (TypeImplicitSha256Digest =? TypeImplicitSha256Digest)%N) with false.
    assert (Q : name_equal n n = true) by (apply name_equal_iff; reflexivity). rewrite Q. reflexivity.
  Qed.

  (** ** PutNode and At *)
  Variable base : D.

  Lemma find_none_app : forall (f : pat -> bool) (l : list (pat * stree D)) x, find_edge f l = None -> find_edge f (l ++ [x]) = if f (fst x) then Some x else None.
  Proof.
    intros f l x H. induction l as [|a l IH]; cbn [find_edge find app] in *; [destruct (f (fst x)); reflexivity|]. destruct (f (fst a)); [discriminate|]. apply IH. exact H.
  Qed.
  Lemma find_some_app : forall (f : pat -> bool) (l : list (pat * stree D)) x y, find_edge f l = Some y -> find_edge f (l ++ [x]) = Some y.
  Proof.
    intros f l x y H. induction l as [|a l IH]; cbn [find_edge find app] in *; [discriminate|]. destruct (f (fst a)); [auto|]. apply IH. exact H.
  Qed.
  Lemma eqb_same : forall e, pat_equal e e = true.
  Proof. intros. apply pat_equal_eq. reflexivity. Qed.
  Lemma eqb_diff : forall x y, x <> y -> pat_equal x y = false.
  Proof. intros x y N. destruct (pat_equal x y) eqn:E; [|reflexivity]. apply pat_equal_eq in E. contradiction. Qed.

  (** [set_edge] changes the first child with an equal edge and no other search *)
  Lemma find_set : forall (f : pat -> bool) e c' (l : list (pat * stree D)) c0 x, find_edge (fun y => pat_equal y e) l = Some (x, c0) ->
    find_edge f (set_edge e c' l) = if f e then (match find_edge f l with Some (y, cy) => if pat_equal y e then Some (y, c') else Some (y, cy) | None => None end) else find_edge f l.
  Proof.
    intros f e c' l c0 x. induction l as [|[a b] l IH]; cbn [find_edge find set_edge fst]; [discriminate|]. destruct (pat_equal a e) eqn:E.
    - intros _. cbn [find fst]. apply pat_equal_eq in E. subst a. destruct (f e); [rewrite eqb_same|]; reflexivity.
    - intros H. cbn [find fst]. destruct (f a) eqn:Fa; [rewrite E; destruct (f e); reflexivity|]. apply IH. exact H.
  Qed.

  Lemma put_iff : forall p new t, (exists t', put_node base p new t = Ok t') <-> at_path p t = None.
  Proof.
    induction p as [|e p IH]; intros new t; cbn [put_node at_path]; [split; [intros [? H]; discriminate|discriminate]|].
    destruct (find_edge _ _) as [[x c]|] eqn:F.
    - rewrite <- (IH new). split; intros [t' H].
      + destruct (put_node base p new c) as [c'| | |]; try discriminate. eauto.
      + rewrite H. cbn [bind]. eauto.
    - split; [auto|]. intros _. destruct p as [|e' p]; [eauto|].
      destruct (proj2 (IH new (SNode base []))) as [c' E]; [reflexivity|]. rewrite E. cbn [bind]. eauto.
  Qed.
  Lemma put_panics : forall p new t, at_path p t <> None -> put_node base p new t = Panic.
  Proof.
    induction p as [|e p IH]; intros new t H; cbn [put_node at_path] in *; [reflexivity|]. destruct (find_edge _ _) as [[x c]|] eqn:F; [|contradiction]. rewrite IH by auto. reflexivity.
  Qed.

  Definition put_desc (p : list pat) (new t : stree D) (q : list pat) : option D :=
    if np_is_prefix p q then desc_at (skipn (length p) q) new
    else if np_is_prefix q p then Some (match desc_at q t with Some d => d | None => base end)
    else desc_at q t.

  Lemma prefix_cons : forall e p f q, np_is_prefix (e :: p) (f :: q) = pat_equal e f && np_is_prefix p q.
  Proof. intros. unfold np_is_prefix. cbn [length np_all_equal]. change (S (length q) <? S (length p))%nat with (length q <? length p)%nat. destruct (length q <? length p)%nat; [destruct (pat_equal e f); reflexivity|reflexivity]. Qed.

  Lemma at_put : forall p new t t', put_node base p new t = Ok t' -> forall q, desc_at q t' = put_desc p new t q.
  Proof.
    induction p as [|e p IH]; intros new t t' H q; cbn [put_node] in H; [discriminate|].
    destruct (find_edge _ _) as [[x c]|] eqn:F.
    - destruct (put_node base p new c) as [c'| | |] eqn:P; try discriminate. cbn [bind] in H. inversion H; subst t'; clear H. specialize (IH new c c' P).
      pose proof (find_first _ _ _ _ F) as [Fx _]. apply pat_equal_eq in Fx. subst x.
      unfold put_desc. destruct q as [|f q]; [reflexivity|]. rewrite !prefix_cons. unfold desc_at. cbn [at_path s_chd length skipn].
      rewrite (find_set (fun y => pat_equal y f) e c' (s_chd t) c e F). destruct (pat_equal e f) eqn:EF.
      + apply pat_equal_eq in EF. subst f. rewrite F, eqb_same. cbn [andb]. change (option_map s_desc (at_path q c')) with (desc_at q c'). rewrite IH. reflexivity.
      + cbn [andb]. rewrite (eqb_diff f e) by (intros ->; rewrite eqb_same in EF; discriminate). reflexivity.
    - assert (NEW : exists c', t' = SNode (s_desc t) (s_chd t ++ [(e, c')]) /\ forall q, desc_at q c' = put_desc p new (SNode base []) q).
      { destruct p as [|e' p]; [inversion H; subst; exists new; split; [reflexivity|intros; reflexivity]|].
        destruct (put_node base (e' :: p) new (SNode base [])) as [c'| | |] eqn:P; try discriminate. cbn [bind] in H. inversion H; subst. exists c'. split; [reflexivity|]. exact (IH new _ _ P). }
      destruct NEW as (c' & -> & N). unfold put_desc. destruct q as [|f q]; [reflexivity|]. rewrite !prefix_cons. unfold desc_at. cbn [at_path s_chd length skipn].
      destruct (pat_equal e f) eqn:EF.
      + apply pat_equal_eq in EF. subst f. rewrite (find_none_app _ _ _ F), F. cbn [fst]. rewrite eqb_same. cbn [andb]. change (option_map s_desc (at_path q c')) with (desc_at q c'). rewrite N. unfold put_desc.
        destruct (np_is_prefix p q); [reflexivity|]. cbn [option_map]. destruct (np_is_prefix q p) eqn:Q; destruct q as [|f q]; try reflexivity. discriminate Q.
      + cbn [andb]. rewrite (eqb_diff f e) by (intros ->; rewrite eqb_same in EF; discriminate). cbn [andb].
        destruct (find_edge (fun x => pat_equal x f) (s_chd t)) as [[y cy]|] eqn:G.
        * rewrite (find_some_app _ _ _ _ G). reflexivity.
        * rewrite (find_none_app _ _ _ G). cbn [fst]. rewrite EF. reflexivity.
  Qed.

  (** adding a node keeps the matches *)
  Lemma put_cm : forall k n p new t t' m q u m', (length n <= k)%nat -> put_node base p new t = Ok t' -> continue_match n t m = Some (q, u, m') ->
    exists u', continue_match n t' m = Some (q, u', m') /\ s_desc u' = s_desc u.
  Proof.
    induction k as [|k IH]; intros n p new t t' m q u m' L P H; rewrite cm_eq in H |- *; destruct (strip n m) as [n' m1] eqn:S; pose proof (strip_split _ _ _ _ S) as (d & Ed & _);
      (assert (DT : s_desc t' = s_desc t) by (destruct p as [|e p]; cbn [put_node] in P; [discriminate|]; destruct (find_edge _ _) as [[? ?]|]; [|destruct p]; try destruct (put_node _ _ _ _); inversion P; reflexivity));
      (destruct n' as [|c n']; [inversion H; subst; exists t'; auto|]).
    - rewrite Ed, app_length in L. cbn in L. lia.
    - assert (LE : (length n' <= k)%nat) by (rewrite Ed, app_length in L; cbn [length] in L; lia).
      unfold into in *. destruct (find_edge (fun e => pat_is_match e c) (s_chd t)) as [[e t1]|] eqn:F; [|discriminate].
      destruct (continue_match n' t1 _) as [[[q' u'] m2]|] eqn:C; [|discriminate]. inversion H; subst q u' m2; clear H.
      destruct p as [|e0 p]; cbn [put_node] in P; [discriminate|]. destruct (find_edge (fun x => pat_equal x e0) (s_chd t)) as [[x c0]|] eqn:G.
      + destruct (put_node base p new c0) as [c'| | |] eqn:P1; try discriminate. cbn [bind] in P. inversion P; subst t'; clear P. cbn [s_chd].
        rewrite (find_set _ e0 c' (s_chd t) c0 x G), F. destruct (pat_is_match e0 c) eqn:PM; [|rewrite C; eauto].
        destruct (pat_equal e e0) eqn:EE; [|rewrite C; eauto]. apply pat_equal_eq in EE. subst e0.
        pose proof (find_first _ _ _ _ F) as (_ & l1 & l2 & E1 & B1). 
        assert (t1 = c0). { rewrite E1, find_some in G; [inversion G; reflexivity| |apply eqb_same]. intros a I. apply eqb_diff. intros X. pose proof (B1 a I) as Y. cbv beta in Y. rewrite X, PM in Y. discriminate. }
        subst c0. destruct (IH n' p new t1 c' _ q' u m' LE P1 C) as (u2 & C2 & D2). rewrite C2. eauto.
      + assert (X : exists y, t' = SNode (s_desc t) (s_chd t ++ [(e0, y)])). { destruct p as [|e1 p]; [inversion P; eauto|]. destruct (put_node base (e1 :: p) new (SNode base [])); try discriminate. cbn [bind] in P. inversion P. eauto. }
        destruct X as [y ->]. cbn [s_chd]. rewrite (find_some_app _ _ _ _ F), C. eauto.
  Qed.

  Lemma put_match : forall prefix p new t t' n x, put_node base p new t = Ok t' -> match_name prefix t n = Some x ->
    exists y, match_name prefix t' n = Some y /\ m_path y = m_path x /\ m_match y = m_match x /\ s_desc (m_node y) = s_desc (m_node x).
  Proof.
    intros prefix p new t t' n x P H. unfold match_name in *. destruct (negb _); [discriminate|]. destruct (continue_match _ t []) as [[[q u] m]|] eqn:C; [|discriminate]. inversion H; subst x.
    destruct (put_cm _ _ p new t t' [] q u m (le_n _) P C) as (u' & C' & DU). rewrite C'. eexists. split; [reflexivity|]. auto.
  Qed.

  (** ** Instantiate *)
  Definition tree_desc (r : option (stree D)) (q : list pat) : option D := match r with Some t => desc_at q t | None => None end.

  Lemma put_tree_at : forall p new r r', put_tree base p new r = Ok r' -> forall q,
    tree_desc r' q = if np_is_prefix p q then desc_at (skipn (length p) q) new
                     else if np_is_prefix q p then Some (match tree_desc r q with Some d => d | None => base end) else tree_desc r q.
  Proof.
    intros p new r r' H q. destruct p as [|e p].
    - cbn in H. destruct r; inversion H; subst. reflexivity.
    - unfold put_tree in H. destruct (put_node base (e :: p) new _) as [t| | |] eqn:P; try discriminate. inversion H; subst r'. cbn [tree_desc].
      rewrite (at_put _ _ _ _ P). unfold put_desc. destruct r as [t0|]; [reflexivity|]. cbn [tree_desc].
      destruct (np_is_prefix (e :: p) q); [reflexivity|]. destruct q as [|f q]; [reflexivity|]. reflexivity.
  Qed.

  Lemma np_prefix_refl : forall p, np_is_prefix p p = true.
  Proof. intros. apply np_is_prefix_iff. exists []. rewrite app_nil_r. reflexivity. Qed.

  (** what [instantiate] makes: the result at every path *)
  Definition covered (l : list (list pat * stree D)) (q : list pat) : option D :=
    match find (fun e => np_is_prefix (fst e) q) l with
    | Some (p, new) => desc_at (skipn (length p) q) new
    | None => if existsb (fun e => np_is_prefix q (fst e)) l then Some base else None
    end.

  Lemma inst_ok : forall l r, prefix_free (map fst l) ->
    (forall p q, In p (map fst l) -> tree_desc r q <> None -> np_is_prefix p q = false) ->
    exists r', instantiate base l r = Ok r' /\ forall q, tree_desc r' q = match find (fun e => np_is_prefix (fst e) q) l with
      | Some (p, new) => desc_at (skipn (length p) q) new
      | None => match tree_desc r q with Some d => Some d | None => if existsb (fun e => np_is_prefix q (fst e)) l then Some base else None end end.
  Proof.
    induction l as [|[p new] l IH]; intros r PF H; cbn [map fst instantiate] in *.
    - exists r. split; [reflexivity|]. intros q. cbn. destruct (tree_desc r q); reflexivity.
    - inversion PF as [|? ? PF1 PF2]; subst.
      assert (P : exists r1, put_tree base p new r = Ok r1).
      { unfold put_tree. destruct p as [|e p].
        - destruct r as [t|]; [|eauto]. exfalso. assert (X : np_is_prefix [] [] = false); [|discriminate X]. apply H; [left; reflexivity|]. discriminate.
        - destruct (proj2 (put_iff (e :: p) new (match r with Some t => t | None => SNode base [] end))) as [t' E]; [|rewrite E; cbn [bind]; eauto].
          destruct r as [t|]; [|reflexivity]. destruct (at_path (e :: p) t) eqn:A; [|reflexivity]. exfalso.
          assert (X : np_is_prefix (e :: p) (e :: p) = false) by (apply H; [left; reflexivity|]; unfold tree_desc, desc_at; rewrite A; discriminate). rewrite np_prefix_refl in X. discriminate. }
      destruct P as [r1 P]. rewrite P. cbn [bind]. pose proof (put_tree_at _ _ _ _ P) as T.
      destruct (IH r1 PF2) as (r' & E & Q).
      { intros p' q I NN. rewrite T in NN. destruct (np_is_prefix p' q) eqn:E1; [|reflexivity]. exfalso.
        destruct (PF1 p' I) as [F1 F2]. pose proof E1 as E1'. apply np_is_prefix_iff in E1. destruct E1 as [s ->].
        destruct (np_is_prefix p (p' ++ s)) eqn:E2.
        - apply np_is_prefix_iff in E2. destruct E2 as [s' E2].
          assert (X : (exists z, p' = p ++ z) \/ (exists z, p = p' ++ z)).
          { exact (common_prefix _ _ _ _ _ E2). }
          destruct X as [X|X]; apply np_is_prefix_iff in X; congruence.
        - destruct (np_is_prefix (p' ++ s) p) eqn:E3.
          + apply np_is_prefix_iff in E3. destruct E3 as [s' E3]. rewrite <- app_assoc in E3. assert (X : np_is_prefix p' p = true) by (apply np_is_prefix_iff; eauto). congruence.
          + rewrite (H p' (p' ++ s)) in E1'; [discriminate|right; auto|auto]. }
      exists r'. split; [auto|]. intros q. rewrite Q, T. cbn [find fst existsb].
      destruct (np_is_prefix p q) eqn:E1.
      + destruct (find _ l) as [[p' new']|] eqn:FN.
        * apply List.find_some in FN. destruct FN as [I E2]. cbn [fst] in E2. exfalso. destruct (PF1 p') as [F1 F2]; [apply in_map_iff; exists (p', new'); auto|].
          apply np_is_prefix_iff in E1, E2. destruct E1 as [s1 E1], E2 as [s2 E2].
          assert (X : (exists z, p' = p ++ z) \/ (exists z, p = p' ++ z)).
          { rewrite E1 in E2. symmetry in E2. exact (common_prefix _ _ _ _ _ E2). }
          destruct X as [X|X]; apply np_is_prefix_iff in X; congruence.
        * destruct (desc_at _ new) eqn:DN; [reflexivity|]. destruct (existsb _ l) eqn:EX; [|reflexivity]. exfalso.
          apply existsb_exists in EX. destruct EX as ([p' new'] & I & E2). cbn [fst] in E2. destruct (PF1 p') as [F1 F2]; [apply in_map_iff; exists (p', new'); auto|].
          apply np_is_prefix_iff in E1, E2. destruct E1 as [s1 ->], E2 as [s2 ->]. rewrite <- app_assoc in F1. assert (X : np_is_prefix p (p ++ s1 ++ s2) = true) by (apply np_is_prefix_iff; eauto). congruence.
      + destruct (find _ l) as [[p' new']|] eqn:FN; [reflexivity|]. destruct (np_is_prefix q p) eqn:E2; cbn [orb]; [destruct (tree_desc r q); reflexivity|reflexivity].
  Qed.

  Lemma pf_perm : forall l l', Permutation l l' -> prefix_free l -> prefix_free l'.
  Proof.
    intros l l' H. induction H as [|x l l' H IH|x y l|l l' l'' H1 IH1 H2 IH2]; intros P; auto.
    - inversion P; subst. constructor; [|auto]. intros q I. apply H2. eapply Permutation_in; [apply Permutation_sym|]; eauto.
    - inversion P as [|? ? A B]; subst. inversion B as [|? ? C E]; subst. constructor; [|constructor].
      + intros q [<-|I]; [destruct (A x (or_introl eq_refl)); auto|auto].
      + intros q I. apply A. right. auto.
      + auto.
  Qed.
  Lemma pf_unique : forall (l : list (list pat * stree D)) x y q, prefix_free (map fst l) -> In x l -> In y l ->
    np_is_prefix (fst x) q = true -> np_is_prefix (fst y) q = true -> x = y.
  Proof.
    induction l as [|a l IH]; intros x y q P I J A B; [contradiction|]. cbn [map] in P. inversion P as [|? ? P1 P2]; subst.
    assert (X : forall z, In z l -> np_is_prefix (fst a) q = true -> np_is_prefix (fst z) q = true -> False).
    { intros z K E1 E2. destruct (P1 (fst z)) as [F1 F2]; [apply in_map; auto|]. apply np_is_prefix_iff in E1, E2. destruct E1 as [s1 E1], E2 as [s2 E2]. rewrite E1 in E2.
      destruct (common_prefix _ _ _ _ _ E2) as [Y|Y]; apply np_is_prefix_iff in Y; congruence. }
    destruct I as [<-|I], J as [<-|J]; [reflexivity|exfalso; eauto|exfalso; eauto|eauto].
  Qed.

  Lemma inst_perm : forall l l', prefix_free (map fst l) -> Permutation l l' ->
    exists r r', instantiate base l None = Ok r /\ instantiate base l' None = Ok r' /\ forall q, tree_desc r q = tree_desc r' q.
  Proof.
    intros l l' P H. assert (P' : prefix_free (map fst l')) by (eapply pf_perm; [apply Permutation_map; eauto|auto]).
    destruct (inst_ok l None P) as (r & E & Q); [intros; cbn in *; contradiction|]. destruct (inst_ok l' None P') as (r' & E' & Q'); [intros; cbn in *; contradiction|].
    exists r, r'. split; [auto|]. split; [auto|]. intros q. rewrite Q, Q'. cbn [tree_desc].
    assert (EX : existsb (fun e => np_is_prefix q (fst e)) l = existsb (fun e => np_is_prefix q (fst e)) l').
    { apply eq_true_iff_eq. rewrite !existsb_exists. split; intros (x & I & X); exists x; (split; [|auto]); [|apply Permutation_sym in H]; eapply Permutation_in; eauto. }
    rewrite EX. destruct (find _ l) as [x|] eqn:F, (find _ l') as [y|] eqn:F'; try reflexivity.
    - apply List.find_some in F, F'. destruct F as [F1 F2], F' as [G1 G2].
      assert (x = y) by (apply (pf_unique l x y q); auto; eapply Permutation_in; [apply Permutation_sym|]; eauto). subst. reflexivity.
    - exfalso. apply List.find_some in F. destruct F as [F1 F2]. rewrite (find_none _ _ F' x) in F2; [discriminate|]. eapply Permutation_in; eauto.
    - exfalso. apply List.find_some in F'. destruct F' as [F1 F2]. rewrite (find_none _ _ F y) in F2; [discriminate|]. eapply Permutation_in; [apply Permutation_sym|]; eauto.
  Qed.

  (** every node is there *)
  Lemma inst_at : forall l p new r, prefix_free (map fst l) -> In (p, new) l -> instantiate base l None = Ok r -> forall q, tree_desc r (p ++ q) = desc_at q new.
  Proof.
    intros l p new r P I E q. destruct (inst_ok l None P) as (r' & E' & Q); [intros; cbn in *; contradiction|]. rewrite E in E'. inversion E'; subst r'.
    rewrite Q. assert (PX : np_is_prefix p (p ++ q) = true) by (apply np_is_prefix_iff; eauto).
    destruct (find _ l) as [x|] eqn:F.
    - apply List.find_some in F. destruct F as [F1 F2]. assert (x = (p, new)) by (apply (pf_unique l x (p, new) (p ++ q)); auto). subst x.
      assert (SK : skipn (length p) (p ++ q) = q) by (clear; induction p; cbn; auto). rewrite SK. reflexivity.
    - apply (find_none _ _ F) in I. cbn [fst] in I. congruence.
  Qed.
End P.
