(** What users of a schema tree rely on. *)
From Verif Require Import Base NameModel SchemaModel.

(** an ordinary component, not a digest *)
Definition plain (c : comp) : Prop := ctyp c <> TypeParametersSha256Digest /\ ctyp c <> TypeImplicitSha256Digest.

(** digests at the end of a name *)
Definition digests (params digest : option buf) : name :=
  (match params with Some v => [mkComp TypeParametersSha256Digest v] | None => [] end)
  ++ (match digest with Some v => [mkComp TypeImplicitSha256Digest v] | None => [] end).

(** the path fits the name, digests aside *)
Inductive covers : list pat -> name -> Prop :=
| CovNil : covers [] []
| CovDigest : forall c p n, ~ plain c -> covers p n -> covers p (c :: n)
| CovEdge : forall e c p n, pat_is_match e c = true -> covers p n -> covers (e :: p) (c :: n).

(** the tags of the variables of a path *)
Definition has_tag (p : list pat) (tag : buf) : Prop := exists t, In (PVar t tag) p.
Definition own_tags (p : list pat) : Prop := ~ has_tag p tag_params /\ ~ has_tag p tag_digest.

Section Spec.
  Variable D : Type.

  (** the path leads from a node to a node *)
  Inductive leads : stree D -> list pat -> stree D -> Prop :=
  | LdHere : forall t, leads t [] t
  | LdChild : forall t e c p u, In (e, c) (s_chd t) -> leads c p u -> leads t (e :: p) u.

  (** the path leads along the name, and at every node no earlier child fits the component *)
  Inductive leftmost : stree D -> list pat -> name -> stree D -> Prop :=
  | LmHere : forall t, leftmost t [] [] t
  | LmChild : forall t l1 e c l2 p x n u, s_chd t = l1 ++ (e, c) :: l2 ->
      (forall a, In a l1 -> pat_is_match (fst a) x = false) -> pat_is_match e x = true ->
      leftmost c p n u -> leftmost t (e :: p) (x :: n) u.

  (** what is at a path *)
  Definition desc_at (p : list pat) (t : stree D) : option D := option_map s_desc (at_path p t).
End Spec.
Arguments leads {D}. Arguments leftmost {D}. Arguments desc_at {D}.

(** no path is a prefix of another *)
Inductive prefix_free : list (list pat) -> Prop :=
| PfNil : prefix_free []
| PfCons : forall p l, (forall q, In q l -> np_is_prefix p q = false /\ np_is_prefix q p = false) -> prefix_free l -> prefix_free (p :: l).
