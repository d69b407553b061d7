(** What a description of a schema tree says about the listeners of the events of its nodes. *)
From Verif Require Import Base NameModel SchemaModel SchemaSpec PolModel.

(** the listeners of the event [f] of the node at [q]; [None] if there is no such node or event *)
Definition listens (t : etree) (q : list pat) (f : ev) : option (list lst) :=
  match at_path q t with Some u => n_get (s_desc u) f | None => None end.

(** ** policies *)

(** the methods a policy has for an event *)
Definition tells (p : policy) (f : ev) : list hand :=
  match p, f with
  | PRegister true _, EvAttach => [HAttach]
  | PSha256, EvDataSigner | PHmac _, EvDataSigner | PSignedBy _ _, EvDataSigner => [HGetDataSigner]
  | PSha256, EvValData | PHmac _, EvValData | PSignedBy _ _, EvValData => [HValData]
  | PMem, EvAttach | PKeyStore _, EvAttach | PHmacInt _, EvAttach | PSignedBy _ _, EvAttach => [HAttach]
  | PMem, EvSearch | PKeyStore _, EvSearch => [HSearch]
  | PMem, EvSave | PKeyStore _, EvSave => [HSave]
  | PHmacInt _, EvIntSigner => [HGetIntSigner]
  | PHmacInt _, EvValInt => [HValInt]
  | _, _ => []
  end.
(** storage policies are for a whole subtree, the others for one node *)
Definition whole_subtree (p : policy) : bool := match p with PMem | PKeyStore _ => true | _ => false end.
Definition concerns (at_ : list pat) (p : policy) (q : list pat) : bool :=
  if whole_subtree p then np_is_prefix at_ q else np_is_prefix at_ q && np_is_prefix q at_.

(** the listeners that the policies, numbered from [j], give to the event [f] of the node at [q]: those of one policy after those of the policies before it *)
Fixpoint told (j : nat) (pols : list (list pat * policy)) (q : list pat) (f : ev) : list lst :=
  match pols with
  | [] => []
  | (p, pol) :: l => (if concerns p pol q then map (LPol j) (tells pol f) else []) ++ told (S j) l q f
  end.

(** the events a policy insists on, and the configuration *)
Definition needs (p : policy) : list ev :=
  match p with
  | PRegister true _ => [EvAttach]
  | PSha256 | PHmac _ | PSignedBy _ _ => [EvValData]
  | PHmacInt _ => [EvValInt; EvAttach]
  | _ => []
  end.
Definition usable (p : policy) : Prop := match p with PHmac key | PHmacInt key => key <> [] | _ => True end.

(** a policy can be applied: there is a node, with the events it insists on *)
Definition appliable (t : etree) (x : list pat * policy) : Prop :=
  at_path (fst x) t <> None /\ usable (snd x) /\ forall f, In f (needs (snd x)) -> listens t (fst x) f <> None.

(** ** events of nodes *)

(** the callbacks of the environment with these names *)
Inductive named (env : buf -> option N) : list buf -> list lst -> Prop :=
| NmNil : named env [] []
| NmCons : forall x c names l, env x = Some c -> named env names l -> named env (x :: names) (LCb c :: l).

(** a class is well formed if different names are different events, which its nodes have *)
Definition good_class (c : eclass) : Prop :=
  (forall k k' f, lookup (c_events c) k = Some f -> lookup (c_events c) k' = Some f -> k = k')
  /\ (forall k f, lookup (c_events c) k = Some f -> n_get (s_desc (c_new c)) f <> None).

(** the tree of a class, the listeners of [evs] added to the events of its root *)
Definition described (env : buf -> option N) (c : eclass) (evs : list (buf * list buf)) (d : ndesc) : Prop :=
  (forall k f own, lookup (c_events c) k = Some f -> n_get (s_desc (c_new c)) f = Some own ->
     match lookup evs k with
     | Some names => exists l, named env names l /\ n_get d f = Some (own ++ l)
     | None => n_get d f = Some own
     end)
  /\ (forall f, (forall k, lookup (c_events c) k <> Some f) -> n_get d f = n_get (s_desc (c_new c)) f).
