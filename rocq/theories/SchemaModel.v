(** pkg/schema: the tree of patterns (base_node.go, tree.go, interface.go, representation.go).

    Nodes are pointers in the code.  Siblings have different edges (PutNode looks for an equal edge
    first), so a node is named here by its path below the root.  What a node does is its
    description [D]; desc.Create may put children below the node it creates, so a new node is a
    whole tree.  The locks of Tree are not modelled. *)
From Verif Require Import Base NameModel.

(** ParamShaNameConvention, DigestShaNameConvention, name_component.go 31-32 *)
Definition tag_params : buf := [112; 97; 114; 97; 109; 115; 45; 115; 104; 97; 50; 53; 54]%N.
Definition tag_digest : buf := [115; 104; 97; 50; 53; 54; 100; 105; 103; 101; 115; 116]%N.

Section Tree.
  Variable D : Type.
  (** the description of BaseNodeDesc *)
  Variable base : D.

  (** Node, base_node.go 20-41 *)
  Inductive stree : Type := SNode (d : D) (chd : list (pat * stree)).
  Definition s_desc (t : stree) : D := let 'SNode d _ := t in d.
  Definition s_chd (t : stree) : list (pat * stree) := let 'SNode _ c := t in c.

  (** the first child that satisfies a test, base_node.go 49-56, 126-131, 278-282, 297-301 *)
  Definition find_edge (f : pat -> bool) (l : list (pat * stree)) : option (pat * stree) := find (fun e => f (fst e)) l.

  (** ContinueMatch, base_node.go 114-133: the path from the node, the node reached and the matching.  At most
      one parameters digest and one implicit digest are taken off at each node. *)
  Definition into (c : comp) (k : stree -> matching -> option (list pat * stree * matching)) (t : stree) (m : matching) : option (list pat * stree * matching) :=
    match find_edge (fun e => pat_is_match e c) (s_chd t) with
    | Some (e, t') => match k t' (pat_match e c m) with
                      | Some (p, u, m') => Some (e :: p, u, m')
                      | None => None
                      end
    | None => None
    end.
  Fixpoint continue_match (n : name) (t : stree) (m : matching) {struct n} : option (list pat * stree * matching) :=
    match n with
    | [] => Some ([], t, m)
    | c :: n1 =>
        if (ctyp c =? TypeParametersSha256Digest)%N then
          let m1 := mset m tag_params (cval c) in
          match n1 with
          | [] => Some ([], t, m1)
          | c1 :: n2 =>
              if (ctyp c1 =? TypeImplicitSha256Digest)%N then
                let m2 := mset m1 tag_digest (cval c1) in
                match n2 with
                | [] => Some ([], t, m2)
                | c2 :: n3 => into c2 (continue_match n3) t m2
                end
              else into c1 (continue_match n2) t m1
          end
        else if (ctyp c =? TypeImplicitSha256Digest)%N then
          let m1 := mset m tag_digest (cval c) in
          match n1 with
          | [] => Some ([], t, m1)
          | c1 :: n2 => into c1 (continue_match n2) t m1
          end
        else into c (continue_match n1) t m
    end.

  (** MatchedNode, interface.go 92-96, with the path of the node below the root *)
  Record mnode : Type := mkM { m_path : list pat; m_node : stree; m_match : matching; m_name : name }.

  (** Match at the root of a tree attached at [prefix], base_node.go 88-111.  The panic of a tree that is not
      attached is not modelled. *)
  Definition match_name (prefix : name) (t : stree) (n : name) : option mnode :=
    if negb (is_prefix prefix n) then None
    else match continue_match (skipn (length prefix) n) t [] with
         | Some (p, u, m) => Some (mkM p u m n)
         | None => None
         end.

  (** Apply on the node at [p], base_node.go 147-193.  A digest is present if the matching has it (Go tests for
      a nil slice). *)
  Definition apply_match (prefix : name) (p : list pat) (m : matching) : option name :=
    match np_from_matching p m with
    | Ok n => Some (prefix ++ n
        ++ (match mget m tag_params with Some v => [mkComp TypeParametersSha256Digest v] | None => [] end)
        ++ (match mget m tag_digest with Some v => [mkComp TypeImplicitSha256Digest v] | None => [] end))
    | _ => None
    end.

  (** Refine, interface.go 365-389 *)
  Definition refine (x : mnode) (n : name) : res (option mnode) :=
    if negb (is_prefix (m_name x) n) then
      match rev (m_name x) with
      | [] => Panic
      | c :: r =>
          if negb (ctyp c =? TypeImplicitSha256Digest)%N || negb (name_equal (rev r) n) then Ok None
          else Ok (Some (mkM (m_path x) (m_node x) (m_match x) n))
      end
    else
      Ok (match continue_match (skipn (length (m_name x)) n) (m_node x) (m_match x) with
          | Some (p, u, m) => Some (mkM (m_path x ++ p) u m n)
          | None => None
          end).

  (** At, base_node.go 274-284 *)
  Fixpoint at_path (p : list pat) (t : stree) : option stree :=
    match p with
    | [] => Some t
    | e :: p' => match find_edge (fun x => pat_equal x e) (s_chd t) with
                 | Some (_, c) => at_path p' c
                 | None => None
                 end
    end.

  (** replaces the first child with an equal edge *)
  Fixpoint set_edge (e : pat) (c : stree) (l : list (pat * stree)) : list (pat * stree) :=
    match l with
    | [] => []
    | (x, y) :: l' => if pat_equal x e then (x, c) :: l' else (x, y) :: set_edge e c l'
    end.

  (** Node.PutNode, base_node.go 293-320; [new] is what desc.Create makes *)
  Fixpoint put_node (p : list pat) (new : stree) (t : stree) : res stree :=
    match p with
    | [] => Panic
    | e :: p' =>
        match find_edge (fun x => pat_equal x e) (s_chd t) with
        | Some (_, c) => do c' <- put_node p' new c; Ok (SNode (s_desc t) (set_edge e c' (s_chd t)))
        | None =>
            match p' with
            | _ :: _ => do c' <- put_node p' new (SNode base []); Ok (SNode (s_desc t) (s_chd t ++ [(e, c')]))
            | [] => Ok (SNode (s_desc t) (s_chd t ++ [(e, new)]))
            end
        end
    end.

  (** Tree.PutNode, tree.go 96-117; [None] is a tree without root *)
  Definition put_tree (p : list pat) (new : stree) (r : option stree) : res (option stree) :=
    match p with
    | [] => match r with None => Ok (Some new) | Some _ => Panic end
    | _ => do t <- put_node p new (match r with Some t => t | None => SNode base [] end); Ok (Some t)
    end.

  (** the first loop of Instantiate, representation.go 110-120, over the nodes in the order in which Go's
      map iteration, which is random, yields them *)
  Fixpoint instantiate (l : list (list pat * stree)) (r : option stree) : res (option stree) :=
    match l with
    | [] => Ok r
    | (p, new) :: l' => do r' <- put_tree p new r; instantiate l' r'
    end.
End Tree.
Arguments SNode {D}. Arguments s_desc {D}. Arguments s_chd {D}. Arguments find_edge {D}. Arguments into {D}. Arguments continue_match {D}.
Arguments mkM {D}. Arguments m_path {D}. Arguments m_node {D}. Arguments m_match {D}. Arguments m_name {D}.
Arguments match_name {D}. Arguments refine {D}. Arguments at_path {D}. Arguments set_edge {D}. Arguments put_node {D}. Arguments put_tree {D}. Arguments instantiate {D}.
