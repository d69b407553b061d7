(** Schema trees (pkg/schema). *)
From Coq Require Import Permutation.
From Verif Require Import Base BaseProofs NameModel NameProofs OrderProofs PatternProofs SchemaModel SchemaSpec SchemaProofs.

(** ** C36: matching names with a tree *)

(** the node found lies on the path returned, and the path fits the name, digests aside *)
Theorem C36_sound : forall D prefix (t : stree D) n x, match_name prefix t n = Some x ->
  m_name x = n /\ leads t (m_path x) (m_node x) /\ exists r, n = prefix ++ r /\ covers (m_path x) r.
Proof.
  intros D prefix t n x H. unfold match_name in H. destruct (is_prefix prefix n) eqn:P; [|discriminate]. cbn [negb] in H. apply is_prefix_iff in P. destruct P as [r ->]. rewrite skip_prefix in H.
  destruct (continue_match r t []) as [[[p u] m]|] eqn:C; inversion H; subst. cbn [m_name m_path m_node]. apply (cm_sound D _ _ _ _ _ _ _ (le_n _)) in C. destruct C. eauto.
Qed.
Print Assumptions C36_sound.

(** Exactly which node is found, for a name with digests at most at its end. *)
Theorem C36_exact : forall D prefix (t : stree D) r params digest, Forall plain r ->
  forall p u, (exists m, match_name prefix t (prefix ++ r ++ digests params digest) = Some (mkM p u m (prefix ++ r ++ digests params digest)))
    <-> leftmost t p r u.
Proof.
  intros D prefix t r pv dv F p u. split.
  - intros [m H]. apply match_iff in H; auto. cbn in H. tauto.
  - intros H. eexists. apply match_iff; auto. cbn. split; [auto|]. split; reflexivity.
Qed.
Print Assumptions C36_exact.

(** Instantiating the path with the matching gives back the name, and each variable has its component. *)
Theorem C36_match_apply : forall D prefix (t : stree D) r params digest x, Forall plain r ->
  match_name prefix t (prefix ++ r ++ digests params digest) = Some x ->
  tags_consistent (m_path x) r -> own_tags (m_path x) ->
  apply_match prefix (m_path x) (m_match x) = Some (prefix ++ r ++ digests params digest)
  /\ matches (m_path x) r
  /\ (forall i ty tag c, nth_error (m_path x) i = Some (PVar ty tag) -> nth_error r i = Some c -> mget (m_match x) tag = Some (cval c)).
Proof.
  intros D prefix t r pv dv x F H TC O. destruct (match_apply D prefix t r pv dv x F H TC O) as [A B]. split; [auto|]. split; [|auto].
  apply match_iff in H; auto. destruct H as [L _]. eapply leftmost_matches; eauto.
Qed.
Print Assumptions C36_match_apply.

(** Apply succeeds iff every variable of the path has a value ... *)
Theorem C36_apply_iff : forall prefix p m, (exists n, apply_match prefix p m = Some n) <-> forall ty tag, In (PVar ty tag) p -> mget m tag <> None.
Proof. exact apply_iff. Qed.
Print Assumptions C36_apply_iff.

(** ... and then the name fits the path, and ends with the digests of the matching *)
Theorem C36_apply : forall prefix p m n, apply_match prefix p m = Some n ->
  exists r, n = prefix ++ r ++ digests (mget m tag_params) (mget m tag_digest) /\ matches p r
    /\ forall i ty tag c, nth_error p i = Some (PVar ty tag) -> nth_error r i = Some c -> mget m tag = Some (cval c).
Proof.
  intros prefix p m n H. destruct (apply_ok prefix p m n H) as (r & E & -> & M & _). exists r. split; [reflexivity|]. split; [auto|].
  clear H M. revert r E. induction p as [|e p IH]; intros r E i ty tag c I J; [destruct i; discriminate|]. cbn [np_from_matching] in E.
  destruct (pat_from_matching e m) as [c0| | |] eqn:E1; try discriminate. cbn [bind] in E. destruct (np_from_matching p m) as [r'| | |] eqn:E2; try discriminate. inversion E; subst r.
  destruct i as [|i]; [|eapply IH; eauto]. cbn in I, J. inversion I; inversion J; subst. cbn in E1. destruct (mget m tag) eqn:G; inversion E1; subst; reflexivity.
Qed.
Print Assumptions C36_apply.

(** The name of an applied node is matched to this node, unless an earlier sibling fits too. *)
Theorem C36_apply_match : forall D prefix (t : stree D) p u m n r, apply_match prefix p m = Some n -> np_from_matching p m = Ok r ->
  Forall plain r -> leftmost t p r u -> exists x, match_name prefix t n = Some x /\ m_path x = p /\ m_node x = u.
Proof.
  intros D prefix t p u m n r A E F L. destruct (apply_ok prefix p m n A) as (r' & E' & -> & _). rewrite E in E'. inversion E'; subst r'.
  destruct (proj2 (C36_exact D prefix t r (mget m tag_params) (mget m tag_digest) F p u) L) as [m' H]. eexists. split; [exact H|]. split; reflexivity.
Qed.
Print Assumptions C36_apply_match.

(** Matching a longer name continues the match of its prefix: Refine agrees with Match. *)
Theorem C36_refine : forall D prefix (t : stree D) a b x, match_name prefix t (prefix ++ a) = Some x -> (a = [] \/ plain (last a (mkComp 0 []))) ->
  refine x (prefix ++ a ++ b) = Ok (match_name prefix t (prefix ++ a ++ b)).
Proof. exact refine_match. Qed.
Print Assumptions C36_refine.

Theorem C36_refine_digest : forall D prefix (t : stree D) n d x, match_name prefix t (n ++ [mkComp TypeImplicitSha256Digest d]) = Some x ->
  refine x n = Ok (Some (mkM (m_path x) (m_node x) (m_match x) n)).
Proof. exact refine_digest. Qed.
Print Assumptions C36_refine_digest.

Definition ca : comp := mkComp 8 [97%N].
Definition cb : comp := mkComp 8 [98%N].
Definition va : pat := PVar 8 [118%N].

(** No backtracking: a name may fit a path of the tree and yet match no node. *)
Theorem C36_complete_refuted : exists (t : stree nat) p u n, leads t p u /\ matches p n /\ Forall plain n /\ match_name [] t n = None.
Proof.
  exists (SNode 0%nat [(va, SNode 1%nat []); (PComp ca, SNode 2%nat [(PComp cb, SNode 3%nat [])])]), [PComp ca; PComp cb], (SNode 3%nat []), [ca; cb].
  split; [econstructor; [right; left; reflexivity|econstructor; [left; reflexivity|constructor]]|].
  split; [repeat constructor|]. split; [repeat constructor; discriminate|vm_compute; reflexivity].
Qed.
Print Assumptions C36_complete_refuted.

Example C36_example : let t := SNode 0%nat [(PComp ca, SNode 1%nat [(va, SNode 2%nat [])]); (va, SNode 3%nat [])] in
  let n := [mkComp 8 [110%N]; ca; mkComp 8 [5%N; 6%N]; mkComp 2 [7%N]] in
  exists x, match_name [mkComp 8 [110%N]] t n = Some x /\ s_desc (m_node x) = 2%nat /\ m_path x = [PComp ca; va] /\ own_tags (m_path x)
    /\ tags_consistent (m_path x) [ca; mkComp 8 [5%N; 6%N]] /\ apply_match [mkComp 8 [110%N]] (m_path x) (m_match x) = Some n.
Proof.
  eexists. split; [vm_compute; reflexivity|]. split; [reflexivity|]. split; [reflexivity|]. split.
  - split; intros (ty & [H|[H|[]]]); inversion H.
  - split; [|vm_compute; reflexivity]. intros i j ty u tag ci cj A B C E. cbn [m_path] in A, B.
    destruct i as [|[|[|i]]], j as [|[|[|j]]]; cbn in A, B, C, E; try discriminate; congruence.
Qed.

(** ** C54: building a tree *)

(** PutNode succeeds iff there is nothing at the path, and panics otherwise; afterwards the new
    subtree is there, missing nodes on the way are base nodes, and everything else is as before. *)
Theorem C54_put : forall D (base : D) p new t,
  ((exists t', put_node base p new t = Ok t') <-> at_path p t = None) /\ (at_path p t <> None -> put_node base p new t = Panic)
  /\ forall t', put_node base p new t = Ok t' ->
      (forall q, desc_at (p ++ q) t' = desc_at q new)
      /\ (forall q s, p = q ++ s -> s <> [] -> desc_at q t' = Some (match desc_at q t with Some d => d | None => base end))
      /\ (forall q, (forall s, q <> p ++ s) -> (forall s, p <> q ++ s) -> desc_at q t' = desc_at q t).
Proof.
  intros D base p new t. split; [apply put_iff|]. split; [apply put_panics|]. intros t' H. pose proof (at_put D base p new t t' H) as A. unfold put_desc in A.
  split; [|split].
  - intros q. rewrite A, (proj2 (np_is_prefix_iff p (p ++ q))) by eauto. f_equal. clear. induction p; cbn; auto.
  - intros q s E NE. rewrite A. destruct (np_is_prefix p q) eqn:X.
    + apply np_is_prefix_iff in X. destruct X as [z X]. exfalso. apply NE. rewrite E in X. apply (f_equal (@length pat)) in X. rewrite !app_length in X. destruct s; [reflexivity|]. cbn in X. lia.
    + rewrite (proj2 (np_is_prefix_iff q p)) by eauto. reflexivity.
  - intros q N1 N2. rewrite A. destruct (np_is_prefix p q) eqn:X; [apply np_is_prefix_iff in X; destruct X as [s ->]; exfalso; eapply N1; reflexivity|].
    destruct (np_is_prefix q p) eqn:Y; [apply np_is_prefix_iff in Y; destruct Y as [s ->]; exfalso; eapply N2; reflexivity|reflexivity].
Qed.
Print Assumptions C54_put.

(** Adding a node never changes what a name matched before. *)
Theorem C54_match_stable : forall D (base : D) prefix p new t t' n x, put_node base p new t = Ok t' -> match_name prefix t n = Some x ->
  exists y, match_name prefix t' n = Some y /\ m_path y = m_path x /\ m_match y = m_match x /\ s_desc (m_node y) = s_desc (m_node x).
Proof. exact put_match. Qed.
Print Assumptions C54_match_stable.

Example C54_example : let t := SNode 0%nat [(va, SNode 3%nat [])] in exists t', put_node 9%nat [PComp ca; va] (SNode 1%nat [(PComp cb, SNode 2%nat [])]) t = Ok t'
  /\ map (fun q => desc_at q t') [[]; [va]; [PComp ca]; [PComp ca; va]; [PComp ca; va; PComp cb]; [PComp cb]] = [Some 0; Some 3; Some 9; Some 1; Some 2; None]%nat.
Proof. eexists. split; vm_compute; reflexivity. Qed.

Ltac pf := repeat (first [apply PfNil | apply PfCons; [let q := fresh in let I := fresh in intros q I; cbn [In] in I; repeat (destruct I as [<-|I]; [split; reflexivity|]); destruct I|]]).

(** ** C55: a description determines the tree *)

(** Instantiate visits the nodes in the random order of Go's maps.  If no path is a prefix of another one, every order
    succeeds and gives the same nodes at the same paths. *)
Theorem C55_order_partial : forall D (base : D) l l', prefix_free (map fst l) -> Permutation l l' ->
  exists r r', instantiate base l None = Ok r /\ instantiate base l' None = Ok r'
    /\ (forall q, tree_desc D r q = tree_desc D r' q)
    /\ forall p new, In (p, new) l -> forall q, tree_desc D r (p ++ q) = desc_at q new.
Proof.
  intros D base l l' P H. destruct (inst_perm D base l l' P H) as (r & r' & A & B & C). exists r, r'. split; [auto|]. split; [auto|]. split; [auto|]. intros. eapply inst_at; eauto.
Qed.
Print Assumptions C55_order_partial.

(** Otherwise it depends on the order whether Instantiate panics ... *)
Theorem C55_panic_refuted : exists (l l' : list (list pat * stree nat)), Permutation l l' /\ (exists r, instantiate 9%nat l None = Ok r) /\ instantiate 9%nat l' None = Panic.
Proof.
  exists [([PComp ca], SNode 1%nat []); ([PComp ca; PComp cb], SNode 2%nat [])], [([PComp ca; PComp cb], SNode 2%nat []); ([PComp ca], SNode 1%nat [])].
  split; [apply perm_swap|]. split; [eexists|]; vm_compute; reflexivity.
Qed.
Print Assumptions C55_panic_refuted.

(** ... and which node a name matches *)
Theorem C55_match_refuted : exists (l l' : list (list pat * stree nat)) r r' n x x', prefix_free (map fst l) /\ Permutation l l' /\
  instantiate 9%nat l None = Ok (Some r) /\ instantiate 9%nat l' None = Ok (Some r') /\ match_name [] r n = Some x /\ match_name [] r' n = Some x' /\ m_path x <> m_path x'.
Proof.
  exists [([va], SNode 1%nat []); ([PComp ca], SNode 2%nat [])], [([PComp ca], SNode 2%nat []); ([va], SNode 1%nat [])]. do 2 eexists. exists [ca]. do 2 eexists.
  split; [cbn [map fst]; pf|]. split; [apply perm_swap|]. split; [vm_compute; reflexivity|]. split; [vm_compute; reflexivity|].
  split; [vm_compute; reflexivity|]. split; [vm_compute; reflexivity|]. cbn. discriminate.
Qed.
Print Assumptions C55_match_refuted.

Example C55_example : prefix_free [[PComp ca; va]; [PComp ca; PComp cb]; [va]].
Proof. pf. Qed.
