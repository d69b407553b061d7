(** pkg/schema: the events of nodes, policies, and the events and policies of a description (base_node.go 253-271,
    basic_policies.go, demosec/policies.go, representation.go 49-62, 105-178).

    The code finds the event of a node with reflect; a node has here the list of its events with their listeners.
    Listeners are fresh pointers (utils.IdPtr, representation.go 135 and 170), so an event is a list of what they
    point to (EvtModel has the pointers).  Attributes are in AttrModel: a policy is here what they made of it. *)
From Coq Require Import String.
From Verif Require Import Base NameModel SchemaModel AttrModel.

(** the fields that are events: BaseNodeImpl, base_node.go 337-341, ExpressPoint, expressing_point.go 33-47,
    LeafNode, leaf_node.go 13-21, SvsNode, svs/sync.go 36-60 *)
Inductive ev : Type :=
| EvAttach | EvDetach | EvInt | EvValInt | EvValData | EvSearch | EvSave | EvIntSigner | EvDataSigner | EvMissing.
Definition ev_eq_dec (a b : ev) : {a = b} + {a <> b}.
Proof. decide equality. Defined.
Definition ev_eqb (a b : ev) : bool := if ev_eq_dec a b then true else false.

(** the methods that policies and nodes add as listeners *)
Inductive hand : Type := HAttach | HDetach | HGetDataSigner | HValData | HSearch | HSave | HGetIntSigner | HValInt | HSyncInt.
(** a callback of the environment, a method of a node, a method of the policy number [j] *)
Inductive lst : Type := LCb (c : N) | LOwn (h : hand) | LPol (j : nat) (h : hand).

(** a node: its events *)
Definition ndesc : Type := list (ev * list lst).
Definition n_get (d : ndesc) (f : ev) : option (list lst) := option_map snd (find (fun e => ev_eqb (fst e) f) d).
(** the event exists and gets listeners *)
Fixpoint n_add (d : ndesc) (f : ev) (l : list lst) : ndesc :=
  match d with
  | [] => []
  | (g, x) :: d' => if ev_eqb g f then (g, x ++ l) :: d' else (g, x) :: n_add d' f l
  end.
(** GetEvent and Add, base_node.go 254-259: nothing if there is no such event *)
Definition add_if (d : ndesc) (f : ev) (l : lst) : ndesc := n_add d f [l].
(** AddEventListener, base_node.go 263-265: the method of a nil EventTarget panics.  The same for policies that
    insist on an event. *)
Definition add_must (d : ndesc) (f : ev) (l : lst) : res ndesc :=
  match n_get d f with Some _ => Ok (n_add d f [l]) | None => Panic end.

Inductive policy : Type :=
| PRegister (reg : bool) (m : matching)
| PSha256
| PMem
| PHmac (key : buf)
| PHmacInt (key : buf)
| PKeyStore (ks : bool)                      (* [ks]: KeyStore is not nil *)
| PSignedBy (ks : bool) (path : list pat).   (* KeyNodePath, which is not empty and parsed *)

(** Apply on the node itself.  RegisterPolicy, basic_policies.go 40-45; Sha256SignerPolicy, 81-94; MemStoragePolicy,
    168-184; FixedHmacSignerPolicy, 226-243; FixedHmacIntSignerPolicy, 280-299; demosec/policies.go KeyStoragePolicy,
    57-73 and SignedByPolicy, 160-174 *)
Definition apply_here (j : nat) (p : policy) (d : ndesc) : res ndesc :=
  match p with
  | PRegister true _ => add_must d EvAttach (LPol j HAttach)
  | PRegister false _ => Ok d
  | PSha256 => add_must (add_if d EvDataSigner (LPol j HGetDataSigner)) EvValData (LPol j HValData)
  | PMem | PKeyStore _ =>
      Ok (add_if (add_if (add_if d EvAttach (LPol j HAttach)) EvSearch (LPol j HSearch)) EvSave (LPol j HSave))
  | PHmac key =>
      match key with
      | [] => Panic
      | _ => add_must (add_if d EvDataSigner (LPol j HGetDataSigner)) EvValData (LPol j HValData)
      end
  | PHmacInt key =>
      match key with
      | [] => Panic
      | _ => do d1 <- add_must (add_if d EvIntSigner (LPol j HGetIntSigner)) EvValInt (LPol j HValInt);
             add_must d1 EvAttach (LPol j HAttach)
      end
  | PSignedBy _ _ =>
      add_must (add_if (add_if d EvAttach (LPol j HAttach)) EvDataSigner (LPol j HGetDataSigner)) EvValData (LPol j HValData)
  end.

Definition etree : Type := stree ndesc.

(** MemStoragePolicy and KeyStoragePolicy go on with the children, basic_policies.go 180-183, demosec/policies.go
    69-72; they do not panic *)
Fixpoint apply_all (j : nat) (p : policy) (t : etree) : etree :=
  let 'SNode d c := t in
  SNode (match apply_here j p d with Ok d' => d' | _ => d end) (map (fun x => (fst x, apply_all j p (snd x))) c).
Definition apply_policy (j : nat) (p : policy) (t : etree) : res etree :=
  match p with
  | PMem | PKeyStore _ => Ok (apply_all j p t)
  | _ => do d' <- apply_here j p (s_desc t); Ok (SNode d' (s_chd t))
  end.

(** At and a change of the node found; representation.go 147-150 panics if there is none *)
Fixpoint change_at {D} (p : list pat) (f : stree D -> res (stree D)) (t : stree D) : res (stree D) :=
  match p with
  | [] => f t
  | e :: p' =>
      match find_edge (fun x => pat_equal x e) (s_chd t) with
      | Some (_, c) => do c' <- change_at p' f c; Ok (SNode (s_desc t) (set_edge e c' (s_chd t)))
      | None => Panic
      end
  end.

(** the second loop of Instantiate, representation.go 141-176, from policy number [j] on.  The policies of the
    registers have no events of their own. *)
Fixpoint inst_policies (j : nat) (l : list (list pat * policy)) (t : etree) : res etree :=
  match l with
  | [] => Ok t
  | (p, pol) :: l' => do t' <- change_at p (apply_policy j pol) t; inst_policies (S j) l' t'
  end.

(** NodeImplDesc, interface.go 22-28: what Create makes, and the events of the class by name *)
Record eclass : Type := mkEC { c_new : etree; c_events : list (buf * ev) }.
Definition lookup {A} (l : list (buf * A)) (k : buf) : option A := option_map snd (find (fun e => bytes_eqb (fst e) k) l).

(** instantiateEvents, representation.go 49-62 *)
Fixpoint callbacks (env : buf -> option N) (names : list buf) : res (list N) :=
  match names with
  | [] => Ok []
  | x :: l => match env x with Some c => do r <- callbacks env l; Ok (c :: r) | None => Panic end
  end.
(** representation.go 131-138, in the order of the map [evs]: an unknown event is a nil function *)
Fixpoint set_events (env : buf -> option N) (c : eclass) (evs : list (buf * list buf)) (d : ndesc) : res ndesc :=
  match evs with
  | [] => Ok d
  | (k, names) :: evs' =>
      do cbs <- callbacks env names;
      match lookup (c_events c) k with
      | None => Panic
      | Some f => match n_get d f with
                  | None => Panic
                  | Some _ => set_events env c evs' (n_add d f (map LCb cbs))
                  end
      end
  end.

Section Inst.
  (** NodeRegister, representation.go 30 *)
  Variable register : buf -> option eclass.
  Variable base : ndesc.
  Variable env : buf -> option N.

  (** the first loop of Instantiate, representation.go 110-139, in the order of the map of nodes.  The events are
      set before the node is put into the tree here, and after it in the code. *)
  Definition one_node (cls : buf) (evs : list (buf * list buf)) : res etree :=
    match register cls with
    | None => Panic
    | Some c => do d <- set_events env c evs (s_desc (c_new c)); Ok (SNode d (s_chd (c_new c)))
    end.
  Fixpoint inst_nodes (l : list (list pat * (buf * list (buf * list buf)))) (r : option etree) : res (option etree) :=
    match l with
    | [] => Ok r
    | (p, (cls, evs)) :: l' => do new <- one_node cls evs; do r' <- put_tree base p new r; inst_nodes l' r'
    end.
  (** Instantiate, representation.go 105-178; At on a tree without root panics too *)
  Definition inst (nodes : list (list pat * (buf * list (buf * list buf)))) (pols : list (list pat * policy)) : res (option etree) :=
    do r <- inst_nodes nodes None;
    match r, pols with
    | _, [] => Ok r
    | None, _ => Panic
    | Some t, _ => do t' <- inst_policies 0 pols t; Ok (Some t')
    end.
End Inst.

(** ** the classes of nodes of the library *)

Definition n_new (l : list ev) : ndesc := map (fun f => (f, [])) l.
(** CreateBaseNode, base_node.go 393-399 and 407-410 *)
Definition base_events : list ev := [EvAttach; EvDetach].
Definition base_desc : ndesc := n_new base_events.
Definition base_names : list (buf * ev) := [(txt "OnAttachEvt", EvAttach); (txt "OnDetachEvt", EvDetach)].
Definition base_class : eclass := mkEC (SNode base_desc []) base_names.
(** CreateExpressPoint and initExpressPointDesc, expressing_point.go 355-397 *)
Definition expr_events : list ev := base_events ++ [EvInt; EvValInt; EvValData; EvSearch; EvSave; EvIntSigner].
Definition expr_names : list (buf * ev) :=
  base_names ++ [(txt "OnInterest", EvInt); (txt "OnValidateInt", EvValInt); (txt "OnValidateData", EvValData);
                 (txt "OnSearchStorage", EvSearch); (txt "OnSaveStorage", EvSave); (txt "OnGetIntSigner", EvIntSigner)].
Definition ev_expr : etree := SNode (n_new expr_events) [].
Definition expr_eclass : eclass := mkEC ev_expr expr_names.
(** CreateLeafNode and initLeafNodeDesc, leaf_node.go 81-89, 94-112 *)
Definition ev_leaf : etree := SNode (n_new (expr_events ++ [EvDataSigner])) [].
Definition leaf_eclass : eclass := mkEC ev_leaf (expr_names ++ [(txt "OnGetDataSigner", EvDataSigner)]).
(** CreateSegmentedNode, rdr/rdr.go 32-51; CreateRdrNode, 231-248; CreateGeneralObjNode, 412-433; CreateContentKeyNode,
    demosec/encryption.go 40-53 *)
Definition ev_seg : etree := SNode base_desc [(PVar 50%N (txt "segmentNumber"), ev_leaf)].
Definition seg_eclass : eclass := mkEC ev_seg base_names.
Definition rdr_eclass : eclass :=
  mkEC (SNode base_desc
    [(p_ver, ev_seg);
     (p_meta, SNode (n_new expr_events) [(p_ver, SNode base_desc [(PComp (mkComp 50%N [0%N]), ev_leaf)])])]) base_names.
Definition gobj_eclass : eclass := mkEC (SNode base_desc [(p_data, ev_seg); (p_meta, ev_leaf); (p_mani, ev_leaf)]) base_names.
Definition ck_eclass : eclass := mkEC (SNode base_desc [(p_ckid, ev_leaf)]) base_names.
(** CreateSvsNode, svs/sync.go 66-99 and 382-386: listeners of its own *)
Definition svs_eclass : eclass :=
  mkEC (SNode [(EvAttach, [LOwn HAttach]); (EvDetach, [LOwn HDetach]); (EvMissing, [])]
    [(p_nid, SNode base_desc [(p_seq, ev_leaf)]); (p_notif, SNode (n_add (n_new expr_events) EvInt [LOwn HSyncInt]) [])])
    (base_names ++ [(txt "OnMissingData", EvMissing)]).

Definition all_classes : list (buf * eclass) :=
  [(txt "Base", base_class); (txt "ExpressPoint", expr_eclass); (txt "LeafNode", leaf_eclass); (txt "SegmentedNode", seg_eclass);
   (txt "RdrNode", rdr_eclass); (txt "GeneralObjNode", gobj_eclass); (txt "ContentKeyNode", ck_eclass); (txt "SvsNode", svs_eclass)].
Definition registered (k : buf) : option eclass := lookup all_classes k.
