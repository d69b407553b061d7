(** What attaching and detaching a tree should do. *)
From Verif Require Import Base NameModel SchemaModel SchemaSpec TrieModel TrieSpec FibModel FibSpec PolModel PolSpec AttachModel.

(** ** who is where *)

(** the prefix at which each tree is attached *)
Definition owns : Type := nat -> option name.
Definition nobody : owns := fun _ => None.
Definition own_set (o : owns) (i : nat) (p : option name) : owns := fun j => if Nat.eqb j i then p else o j.
(** an operation changes it if it is Attach and succeeds, or Detach *)
Definition own_next (o : owns) (op : lop) (out : lout) : owns :=
  match op, out with
  | OAttach i p _, ROk _ => own_set o i (Some p)
  | ODetach i _, _ => own_set o i None
  | _, _ => o
  end.

(** trees are attached when they are not attached, and detached when they are; handlers run while the tree is attached; no tree is attached to the empty name *)
Definition legal1 (o : owns) (op : lop) : Prop :=
  match op with
  | OAttach i p _ => o i = None /\ p <> []
  | ODetach i _ => o i <> None
  | OArrive _ => True
  | OHandle i _ => o i <> None
  end.
Fixpoint legal (o : owns) (ops : list lop) (outs : list lout) : Prop :=
  match ops, outs with
  | op :: ops', out :: outs' => legal1 o op /\ legal (own_next o op out) ops' outs'
  | _, _ => True
  end.

(** the name is under the prefix (FibSpec compares the texts of components) *)
Definition under (p n : name) : Prop := prefix (keys p) (keys n).
Definition clash (p n : name) : Prop := under p n \/ under n p.

(** what each operation answers *)
Definition right (trees : nat -> tst) (o : owns) (op : lop) (out : lout) : Prop :=
  match op with
  | OAttach i p _ =>
      match out with
      | ROk _ => forall j q, o j = Some q -> ~ clash q p
      | RErr _ => exists j q, o j = Some q /\ clash q p
      | RPanic _ => True
      | _ => False
      end
  | ODetach i _ => match out with ROk _ | RPanic _ => True | _ => False end
  | OArrive n =>
      match out with
      | RCall i => exists p, o i = Some p /\ under p n
      | RDrop => forall i p, o i = Some p -> ~ under p n
      | _ => False
      end
  | OHandle i n =>
      forall p, o i = Some p -> out = match match_name p (t_root (trees i)) n with Some x => RNode (m_path x) | None => RDrop end
  end.
Fixpoint all_right (trees : nat -> tst) (o : owns) (ops : list lop) (outs : list lout) : Prop :=
  match ops, outs with
  | op :: ops', out :: outs' => right trees o op out /\ all_right trees (own_next o op out) ops' outs'
  | [], [] => True
  | _, _ => False
  end.

(** ** which listeners are called *)

(** the nodes below [q], each after the nodes below it; and each before them *)
Fixpoint post_order (q : list pat) (t : etree) : list (list pat * ndesc) :=
  let 'SNode d c := t in flat_map (fun x => post_order (q ++ [fst x]) (snd x)) c ++ [(q, d)].
Fixpoint pre_order (q : list pat) (t : etree) : list (list pat * ndesc) :=
  let 'SNode d c := t in (q, d) :: flat_map (fun x => pre_order (q ++ [fst x]) (snd x)) c.

(** the listeners up to the first callback that returns an error; policies return none *)
Fixpoint upto (f : nat -> answer) (n : nat) (ls : list lst) : list lst :=
  match ls with
  | [] => []
  | l :: ls' => l :: match l, f n with LPol _ _, _ | _, ANone => upto f (S n) ls' | _, _ => [] end
  end.

(** a RegisterPolicy asks for the route of the node: the prefix of the tree and the path with the values of the policy *)
Definition route_of (prefix : name) (pols : nat -> policy) (q : list pat) (l : lst) : list seen :=
  match l with
  | LPol j HAttach => match pols j with
                      | PRegister _ m => match apply_match prefix q m with Some n => [SRoute n] | None => [] end
                      | _ => []
                      end
  | _ => []
  end.

(** no two children of a node have the same edge *)
Inductive plain_tree : etree -> Prop :=
| PlTree : forall d c, NoDup (map fst c) -> (forall e u, In (e, u) c -> plain_tree u) -> plain_tree (SNode d c).

(** the n-th listener of the attach event of the node at [q] works: callbacks return nil or an error, RegisterPolicy has values for all variables of
    the path and its route is accepted, policies with keys have a key store and the path to the node of the keys *)
Definition works (root : etree) (pols : nat -> policy) (w : answers) (q : list pat) (n : nat) (l : lst) : Prop :=
  match l with
  | LPol j HAttach =>
      match pols j with
      | PRegister _ m => (forall ty tag, In (PVar ty tag) q -> mget m tag <> None) /\ w q n = ANone
      | PKeyStore ks => ks = true
      | PSignedBy ks path => ks = true /\ at_path path root <> None
      | _ => True
      end
  | LPol _ _ => True
  | _ => w q n = ANone \/ w q n = AErr
  end.
Definition all_work (root : etree) (pols : nat -> policy) (w : answers) : Prop :=
  forall q u n l, at_path q root = Some u -> nth_error (attach_listeners (s_desc u)) n = Some l -> works root pols w q n l.
