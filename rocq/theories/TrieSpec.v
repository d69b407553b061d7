(** What a name trie should do, as a map from key paths to values whose domain is
    closed under prefixes and holds the empty path. *)
From Verif Require Import Base NameModel TextModel TrieModel.

Definition prefix {A} (p q : list A) : Prop := exists s, q = p ++ s.

Section Spec.
Variables (V : Type) (zero : V).

Definition amap : Type := path -> option V.

Definition a_new : amap := fun p => match p with [] => Some zero | _ => None end.

(** the value a node has or would get when created *)
Definition a_val (a : amap) (p : path) : V := match a p with Some v => v | None => zero end.

(** [a'] is [a] with all missing prefixes of [p] added *)
Definition a_added (a : amap) (p : path) (a' : amap) : Prop :=
  (forall r, prefix r p -> a' r = Some (a_val a r)) /\ (forall r, ~ prefix r p -> a' r = a r).

(** [a'] is [a] without the subtree at [c]; the empty path stays *)
Definition a_removed (a : amap) (c : path) (a' : amap) : Prop :=
  a' [] = a [] /\
  forall r, r <> [] -> (prefix c r -> a' r = None) /\ (~ prefix c r -> a' r = a r).

(** [k] is the only key under [p] *)
Definition only_child (a : amap) (p : path) (k : key) : Prop :=
  forall k', a (p ++ [k']) <> None -> k' = k.

(** The node whose subtree goes when the node at [p] is deleted: the highest one
    reached from [p] by climbing while the node just left was the only child of its
    parent and the parent satisfies [pred]. *)
Inductive cut (a : amap) (pred : V -> bool) : path -> path -> Prop :=
| CutRoot : cut a pred [] []
| CutStop : forall p k, (exists k', k' <> k /\ a (p ++ [k']) <> None) -> cut a pred (p ++ [k]) (p ++ [k])
| CutKeep : forall p k v, only_child a p k -> a p = Some v -> pred v = false -> cut a pred (p ++ [k]) (p ++ [k])
| CutClimb : forall p k v c, only_child a p k -> a p = Some v -> pred v = true -> cut a pred p c ->
    cut a pred (p ++ [k]) c.

(** ** histories of calls on the root and on the nodes found *)
Inductive top : Type :=
| TExact (nm : name)
| TPrefix (nm : name)
| TAlways (nm : name)
| TFirst (pred : V -> bool) (nm : name)
| TSet (nm : name) (v : V)          (* ExactMatch, then SetValue on the node *)
| TDelete (nm : name)               (* ExactMatch, then Delete *)
| TDeleteIf (pred : V -> bool) (nm : name).

(** the node returned, by its depth and value, or nil *)
Inductive tout : Type :=
| ONil
| ONode (dep : nat) (v : V).

Definition node_out (a : amap) (p : path) (o : tout) : Prop :=
  match a p with Some v => o = ONode (length p) v | None => o = ONil end.

Definition same (a a' : amap) : Prop := forall r, a' r = a r.

Definition keys (nm : name) : path := map comp_str nm.

Inductive a_step (a : amap) : top -> tout -> amap -> Prop :=
| AExact : forall nm o a', same a a' -> node_out a (keys nm) o -> a_step a (TExact nm) o a'
| APrefix : forall nm q v a', same a a' -> prefix q (keys nm) -> a q = Some v ->
    (forall q', prefix q' (keys nm) -> a q' <> None -> (length q' <= length q)%nat) ->
    a_step a (TPrefix nm) (ONode (length q) v) a'
| AAlways : forall nm a', a_added a (keys nm) a' ->
    a_step a (TAlways nm) (ONode (length nm) (a_val a (keys nm))) a'
| AFirst : forall pred nm q a', a_added a q a' -> prefix q (keys nm) ->
    (forall r, prefix r q -> r <> q -> pred (a_val a r) = false) ->
    (q = keys nm \/ pred (a_val a q) = true) ->
    a_step a (TFirst pred nm) (ONode (length q) (a_val a q)) a'
| ASet : forall nm v o a', node_out a (keys nm) o ->
    (forall r, r <> keys nm -> a' r = a r) ->
    (a' (keys nm) = match a (keys nm) with Some _ => Some v | None => None end) ->
    a_step a (TSet nm v) o a'
| ADelete : forall nm o c a', node_out a (keys nm) o -> a (keys nm) <> None ->
    cut a (fun _ => true) (keys nm) c -> a_removed a c a' -> a_step a (TDelete nm) o a'
| ADeleteNil : forall nm a', a (keys nm) = None -> same a a' -> a_step a (TDelete nm) ONil a'
| ADeleteIf : forall pred nm v o c a', node_out a (keys nm) o -> a (keys nm) = Some v -> pred v = true ->
    cut a pred (keys nm) c -> a_removed a c a' -> a_step a (TDeleteIf pred nm) o a'
| AKeep : forall pred nm o a', node_out a (keys nm) o ->
    (forall v, a (keys nm) = Some v -> pred v = false) -> same a a' ->
    a_step a (TDeleteIf pred nm) o a'.

Inductive a_run : amap -> list top -> list tout -> amap -> Prop :=
| ANil : forall a a', same a a' -> a_run a [] [] a'
| ACons : forall a a0 o r a1 os rs a2, same a a0 -> a_step a0 o r a1 -> a_run a1 os rs a2 -> a_run a (o :: os) (r :: rs) a2.

(** ** the same histories on the code *)
Definition node_res (h : store V) (n : option nat) : res tout :=
  match n with
  | None => Ok ONil
  | Some n => do d <- depth h n; do v <- value h n; Ok (ONode d v)
  end.

Definition t_step (h : store V) (o : top) : res (store V * tout) :=
  match o with
  | TExact nm => do n <- t_exact h (keys nm); do r <- node_res h n; Ok (h, r)
  | TPrefix nm => do n <- t_prefix h (keys nm); do r <- node_res h (Some n); Ok (h, r)
  | TAlways nm => do hn <- t_always zero h (keys nm); do r <- node_res (fst hn) (Some (snd hn)); Ok (fst hn, r)
  | TFirst pred nm => do hn <- t_first zero pred h (keys nm); do r <- node_res (fst hn) (Some (snd hn)); Ok (fst hn, r)
  | TSet nm v => do n <- t_exact h (keys nm); do r <- node_res h n;
                 match n with None => Ok (h, r) | Some n => do h' <- set_value h n v; Ok (h', r) end
  | TDelete nm => do n <- t_exact h (keys nm); do r <- node_res h n;
                  match n with None => Ok (h, r) | Some n => do h' <- t_delete h n; Ok (h', r) end
  | TDeleteIf pred nm => do n <- t_exact h (keys nm); do r <- node_res h n;
                  match n with None => Ok (h, r) | Some n => do h' <- t_delete_if pred h n; Ok (h', r) end
  end.

Fixpoint t_run (h : store V) (os : list top) : res (store V * list tout) :=
  match os with
  | [] => Ok (h, [])
  | o :: os' => do r <- t_step h o; do s <- t_run (fst r) os'; Ok (fst s, snd r :: snd s)
  end.

End Spec.
Arguments a_new {V}. Arguments a_val {V}. Arguments a_added {V}. Arguments a_removed {V}. Arguments only_child {V}.
Arguments cut {V}. Arguments node_out {V}. Arguments same {V}. Arguments a_step {V}. Arguments a_run {V}.
Arguments node_res {V}. Arguments t_step {V}. Arguments t_run {V}.
Arguments TExact {V}. Arguments TPrefix {V}. Arguments TAlways {V}. Arguments TFirst {V}. Arguments TSet {V}.
Arguments TDelete {V}. Arguments TDeleteIf {V}. Arguments ONil {V}. Arguments ONode {V}.
