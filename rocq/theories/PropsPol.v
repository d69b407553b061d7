(** C75: the listeners that a description gives to the events of the nodes of a schema tree (representation.go,
    basic_policies.go, demosec/policies.go).

    [nodes] are the nodes of the description in the order in which Go's map iteration yields them, [pols] its
    policies, [env] the callbacks of the environment. *)
From Coq Require Import String Permutation.
From Verif Require Import Base BaseProofs NameModel SchemaModel SchemaSpec SchemaProofs AttrModel PolModel PolSpec PolProofs.

(** Each node described has, for every event of its class, the listeners of the class, then the callbacks named in
    the description in their order, then those of the policies that concern the node in the order of the policies,
    and no other. *)
Theorem C75_node : forall register base env nodes pols t p cls evs c, inst register base env nodes pols = Ok (Some t) -> In (p, (cls, evs)) nodes ->
  register cls = Some c -> good_class c -> NoDup (map fst evs) ->
  forall k f own, lookup (c_events c) k = Some f -> n_get (s_desc (c_new c)) f = Some own ->
  exists l, match lookup evs k with Some names => named env names l | None => l = [] end /\ listens t p f = Some (own ++ l ++ told 0 pols p f).
Proof. exact inst_node. Qed.
Print Assumptions C75_node.

(** The nodes that the class makes below it have the listeners of the class and those of the policies. *)
Theorem C75_inner : forall register base env nodes pols t p cls evs c, inst register base env nodes pols = Ok (Some t) -> In (p, (cls, evs)) nodes ->
  register cls = Some c -> good_class c -> NoDup (map fst evs) ->
  forall e q d f, desc_at (e :: q) (c_new c) = Some d -> listens t (p ++ e :: q) f = option_map (fun x => x ++ told 0 pols (p ++ e :: q) f) (n_get d f).
Proof. exact inst_inner. Qed.
Print Assumptions C75_inner.

(** There are no other nodes, except base nodes on the way, which have the listeners of the policies only. *)
Theorem C75_others : forall register base env nodes pols t q, inst register base env nodes pols = Ok (Some t) -> at_path q t <> None ->
  (forall f, listens t q f = option_map (fun x => x ++ told 0 pols q f) (n_get base f))
  \/ exists p cls evs c s, In (p, (cls, evs)) nodes /\ register cls = Some c /\ q = p ++ s /\ at_path s (c_new c) <> None.
Proof. exact inst_others. Qed.
Print Assumptions C75_others.

(** The classes of the library are well formed: different names are different events, which the nodes have. *)
Theorem C75_classes : forall cls c, registered cls = Some c -> good_class c.
Proof. exact registered_good. Qed.
Print Assumptions C75_classes.

(** Policies on any tree of nodes: they are applied iff each has its node, the events it insists on and its key;
    otherwise Instantiate panics.  They leave the paths of the tree alone. *)
Theorem C75_policies : forall pols t,
  (Forall (appliable t) pols -> exists t', inst_policies 0 pols t = Ok t' /\ forall q f,
     listens t' q f = option_map (fun x => x ++ told 0 pols q f) (listens t q f) /\ (at_path q t' = None <-> at_path q t = None))
  /\ (~ Forall (appliable t) pols -> inst_policies 0 pols t = Panic).
Proof.
  intros pols t. split.
  - intros F. apply (policies_ok pols 0 t) in F. destruct F as [t' E]. exists t'. split; [exact E|]. exact (policies_listen pols 0 t t' E).
  - intros N. destruct (policies_res pols 0 t) as [E|E]; [|exact E]. exfalso. apply N. apply (policies_ok pols 0 t). exact E.
Qed.
Print Assumptions C75_policies.

(** A node alone can be made iff its class is registered, its events are of the class and its callbacks are in the
    environment. *)
Theorem C75_described : forall register env cls evs, (forall c, register cls = Some c -> good_class c) ->
  ((exists new, one_node register env cls evs = Ok new) <->
   exists c, register cls = Some c /\ forall k names, In (k, names) evs -> lookup (c_events c) k <> None /\ forall x, In x names -> env x <> None).
Proof. exact one_node_ok. Qed.
Print Assumptions C75_described.

(** Instantiate succeeds or panics.  If no path is a prefix of another one, every order of the map gives nodes at
    the same paths with the same listeners. *)
Theorem C75_order_partial : forall register base env nodes nodes' pols t, prefix_free (map fst nodes) -> Permutation nodes nodes' -> inst register base env nodes pols = Ok (Some t) ->
  exists t', inst register base env nodes' pols = Ok (Some t') /\ (forall q, at_path q t = None <-> at_path q t' = None) /\ forall q f, listens t' q f = listens t q f.
Proof. exact inst_order. Qed.
Print Assumptions C75_order_partial.
Theorem C75_panics : forall register base env nodes pols, (exists r, inst register base env nodes pols = Ok r) \/ inst register base env nodes pols = Panic.
Proof. exact inst_res. Qed.
Print Assumptions C75_panics.

(** A description without nodes has no tree; with a policy it panics. *)
Theorem C75_empty : forall register base env pols, inst register base env [] pols = match pols with [] => Ok None | _ => Panic end.
Proof. intros register base env [|x pols]; reflexivity. Qed.
Print Assumptions C75_empty.

(** ** a description: an object at /a, a sync node at /b/<x>; storage for everything, signatures for the metadata *)
Definition ex_env (k : buf) : option N := if bytes_eqb k (txt "$one") then Some 1%N else if bytes_eqb k (txt "$two") then Some 2%N else None.
Definition pa : pat := PComp (mkComp 8%N (txt "a")).
Definition pb : pat := PComp (mkComp 8%N (txt "b")).
Definition px : pat := PVar 8%N (txt "x").
Definition ex_nodes : list (list pat * (buf * list (buf * list buf))) :=
  [([pa], (txt "GeneralObjNode", [(txt "OnAttachEvt", [txt "$one"; txt "$two"])]));
   ([pb; px], (txt "SvsNode", [(txt "OnMissingData", [txt "$two"]); (txt "OnAttachEvt", [txt "$one"])]))].
Definition ex_pols : list (list pat * policy) := [([pa; p_meta], PSha256); ([], PMem); ([pb; px; p_notif], PHmacInt [1%N]); ([pa], PRegister true [])].
Example C75_case : exists t, inst registered base_desc ex_env ex_nodes ex_pols = Ok (Some t)
  /\ listens t [pa] EvAttach = Some [LCb 1; LCb 2; LPol 1 HAttach; LPol 3 HAttach]
  /\ listens t [pa; p_meta] EvValData = Some [LPol 0 HValData]
  /\ listens t [pa; p_meta] EvSave = Some [LPol 1 HSave]
  /\ listens t [pa; p_mani] EvValData = Some []
  /\ listens t [pb] EvAttach = Some [LPol 1 HAttach]
  /\ listens t [pb; px] EvAttach = Some [LOwn HAttach; LCb 1; LPol 1 HAttach]
  /\ listens t [pb; px] EvMissing = Some [LCb 2]
  /\ listens t [pb; px; p_notif] EvInt = Some [LOwn HSyncInt]
  /\ listens t [pb; px; p_notif] EvValInt = Some [LPol 2 HValInt]
  /\ prefix_free (map fst ex_nodes).
Proof.
  eexists. split; [vm_compute; reflexivity|]. repeat (split; [vm_compute; reflexivity|]).
  cbn [map fst ex_nodes]. apply PfCons; [intros q [<-|[]]; split; reflexivity|]. apply PfCons; [intros q []|apply PfNil].
Qed.
(** a storage policy for the whole tree and a signature policy on a node without validation *)
Example C75_panic_case : exists t, inst registered base_desc ex_env ex_nodes [([], PMem)] = Ok (Some t) /\ ~ Forall (appliable t) [([pb], PSha256)]
  /\ inst registered base_desc ex_env ex_nodes [([], PMem); ([pb], PSha256)] = Panic
  /\ inst registered base_desc ex_env [([pa], (txt "LeafNode", [(txt "OnMissingData", [])]))] [] = Panic
  /\ inst registered base_desc ex_env [([pa], (txt "LeafNode", [(txt "OnInterest", [txt "$three"])]))] [] = Panic.
Proof.
  eexists. split; [vm_compute; reflexivity|]. split; [|split; [vm_compute; reflexivity|split; [vm_compute; reflexivity|vm_compute; reflexivity]]].
  intros F. inversion F as [|? ? (A & B & C) _]; subst. apply (C EvValData); [left; reflexivity|]. vm_compute. reflexivity.
Qed.
