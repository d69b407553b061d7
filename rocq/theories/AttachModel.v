(** pkg/schema: attaching trees to an engine and detaching them (tree.go 30-88, base_node.go 86-111, 205-241,
    352-378; RegisterPolicy, basic_policies.go 27-38; KeyStoragePolicy and SignedByPolicy, demosec/policies.go 50-55,
    142-158).

    Several trees share the engine, of which FibModel has the handlers.  Each of Attach, Detach and a call of the
    handler holds the lock of the tree, so a history is a list of operations; the engine looks up the handler before it
    calls it, which are two operations.  Listeners do not change the tree or its listeners.  What a listener returns is
    part of the operation. *)
From Verif Require Import Base NameModel SchemaModel TrieModel FibModel PolModel.

(** what a listener does: returns nil, an error, something else, or panics *)
Inductive answer : Type := ANone | AErr | AElse | APanic.
(** what the listener number [n] of the event of the node at the path does; for RegisterPolicy, whether the route is
    registered *)
Definition answers : Type := list pat -> nat -> answer.

(** what is seen of an operation: calls of listeners and routes registered *)
Inductive seen : Type := SCall (q : list pat) (l : lst) | SRoute (n : name).

Section Node.
  (** the tree, its prefix, its policies by number *)
  Variable root : etree.
  Variable prefix : name.
  Variable pols : nat -> policy.
  Variable w : answers.

  (** a listener of the attach event of the node at [q] *)
  Definition call_attach (q : list pat) (n : nat) (l : lst) : answer * list seen :=
    match l with
    | LCb _ | LOwn _ => (w q n, [SCall q l])
    | LPol j HAttach =>
        match pols j with
        | PRegister _ m =>
            match apply_match prefix q m with
            | None => (APanic, [SCall q l])
            | Some nm => (match w q n with ANone => ANone | _ => APanic end, [SCall q l; SRoute nm])
            end
        | PKeyStore ks => (if ks then ANone else APanic, [SCall q l])
        | PSignedBy ks path => (if ks then match at_path path root with Some _ => ANone | None => APanic end else APanic, [SCall q l])
        | _ => (ANone, [SCall q l])
        end
    | LPol _ _ => (ANone, [SCall q l])
    end.

  (** BaseNodeImpl.OnAttach, base_node.go 353-370: until a listener returns something.  [false]: panic.  The error is
      returned, but see [on_attach]. *)
  Fixpoint node_attach (q : list pat) (n : nat) (ls : list lst) : bool * list seen :=
    match ls with
    | [] => (true, [])
    | l :: ls' =>
        let '(a, s) := call_attach q n l in
        match a with
        | ANone => let '(ok, s') := node_attach q (S n) ls' in (ok, s ++ s')
        | AErr => (true, s)
        | AElse | APanic => (false, s)
        end
    end.

  Definition attach_listeners (d : ndesc) : list lst := match n_get d EvAttach with Some l => l | None => [] end.
  Definition detach_listeners (d : ndesc) : list lst := match n_get d EvDetach with Some l => l | None => [] end.

  (** Node.OnAttach, base_node.go 207-229: the children first.  The error of impl.OnAttach is dropped. *)
  Fixpoint on_attach (q : list pat) (t : etree) : bool * list seen :=
    let 'SNode d c := t in
    let '(ok, s) :=
      (fix kids (l : list (pat * etree)) : bool * list seen :=
         match l with
         | [] => (true, [])
         | (e, u) :: l' =>
             let '(ok1, s1) := on_attach (q ++ [e]) u in
             if ok1 then let '(ok2, s2) := kids l' in (ok2, s1 ++ s2) else (false, s1)
         end) c in
    if ok then let '(ok', s') := node_attach q 0 (attach_listeners d) in (ok', s ++ s') else (false, s).

  (** BaseNodeImpl.OnDetach, base_node.go 373-378: all listeners *)
  Fixpoint node_detach (q : list pat) (n : nat) (ls : list lst) : bool * list seen :=
    match ls with
    | [] => (true, [])
    | l :: ls' =>
        match w q n with
        | APanic => (false, [SCall q l])
        | _ => let '(ok, s') := node_detach q (S n) ls' in (ok, SCall q l :: s')
        end
    end.
  (** Node.OnDetach, base_node.go 233-241: the node first *)
  Fixpoint on_detach (q : list pat) (t : etree) : bool * list seen :=
    let 'SNode d c := t in
    let '(ok, s) := node_detach q 0 (detach_listeners d) in
    if ok then
      let '(ok', s') :=
        (fix kids (l : list (pat * etree)) : bool * list seen :=
           match l with
           | [] => (true, [])
           | (e, u) :: l' =>
               let '(ok1, s1) := on_detach (q ++ [e]) u in
               if ok1 then let '(ok2, s2) := kids l' in (ok2, s1 ++ s2) else (false, s1)
           end) c in (ok', s ++ s')
    else (false, s).
End Node.

(** Tree, tree.go 15-20, and what matters of its root: the prefix, whether t.engine is set, whether the engine of the
    root is set *)
Record tst : Type := mkT { t_root : etree; t_pols : nat -> policy; t_pref : name; t_eng : bool; t_on : bool }.
Definition fresh (t : etree) (pols : nat -> policy) : tst := mkT t pols [] false false.

Record sys : Type := mkSys { y_fib : store (option nat); y_tree : nat -> tst }.
Definition set_tree (v : nat -> tst) (i : nat) (t : tst) : nat -> tst := fun j => if Nat.eqb j i then t else v j.

Inductive lop : Type :=
| OAttach (i : nat) (p : name) (w : answers)
| ODetach (i : nat) (w : answers)
| OArrive (n : name)            (* the engine looks up the handler for an Interest *)
| OHandle (i : nat) (n : name). (* the handler of the tree runs *)
Inductive lout : Type :=
| ROk (s : list seen) | RErr (s : list seen) | RPanic (s : list seen) | RNothing
| RCall (i : nat) | RDrop | RNode (q : list pat).

(** Attach, tree.go 31-54 *)
Definition do_attach (y : sys) (i : nat) (p : name) (w : answers) : res (sys * lout) :=
  let t := y_tree y i in
  let '(ok, s) := on_attach (t_root t) p (t_pols t) w [] (t_root t) in
  let t1 := mkT (t_root t) (t_pols t) p (t_eng t) true in
  if ok then
    do r <- f_attach (y_fib y) p (Some i);
    if snd r then Ok (mkSys (fst r) (set_tree (y_tree y) i (mkT (t_root t) (t_pols t) p true true)), ROk s)
    else Ok (mkSys (fst r) (set_tree (y_tree y) i t1), RErr s)
  else Ok (mkSys (y_fib y) (set_tree (y_tree y) i t1), RPanic s).

(** Detach, tree.go 57-67: t.engine stays set, and the error of DetachHandler is dropped *)
Definition do_detach (y : sys) (i : nat) (w : answers) : res (sys * lout) :=
  let t := y_tree y i in
  if t_eng t then
    do r <- f_detach (y_fib y) (t_pref t);
    let '(ok, s) := on_detach w [] (t_root t) in
    if ok then Ok (mkSys (fst r) (set_tree (y_tree y) i (mkT (t_root t) (t_pols t) (t_pref t) true false)), ROk s)
    else Ok (mkSys (fst r) (y_tree y), RPanic s)
  else Ok (y, RNothing).

(** onInterest, default_engine.go 211-231, up to the call of the handler; intHandler, tree.go 75-88, and the check of
    Match, base_node.go 89-91 *)
Definition l_step (y : sys) (o : lop) : res (sys * lout) :=
  match o with
  | OAttach i p w => do_attach y i p w
  | ODetach i w => do_detach y i w
  | OArrive n => do v <- f_match (y_fib y) n; Ok (y, match v with Some i => RCall i | None => RDrop end)
  | OHandle i n =>
      let t := y_tree y i in
      Ok (y, if t_on t then match match_name (t_pref t) (t_root t) n with Some x => RNode (m_path x) | None => RDrop end
             else RPanic [])
  end.
Fixpoint l_run (y : sys) (os : list lop) : res (sys * list lout) :=
  match os with
  | [] => Ok (y, [])
  | o :: os' => do r <- l_step y o; do s <- l_run (fst r) os'; Ok (fst s, snd r :: snd s)
  end.
Definition sys_new (trees : nat -> tst) : sys := mkSys fib_new trees.
