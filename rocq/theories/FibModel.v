(** The Interest handlers of pkg/engine/basic/default_engine.go.  Each operation is one
    critical section under fibLock, so a history is a list of operations.  A handler
    is any value of [H]; nil is [None]. *)
From Verif Require Import Base NameModel TextModel TrieModel.

Section Fib.
Variable H : Type.

Notation fib := (store (option H)).

(** NewEngine, 534-551 *)
Definition fib_new : fib := new_trie None.

Definition not_nil (v : option H) : bool := match v with Some _ => true | None => false end.

(** AttachHandler, 85-98: the error ErrPrefixPropViolation is [false] *)
Definition f_attach (f : fib) (nm : name) (h : option H) : res (fib * bool) :=
  do fn <- t_first None not_nil f (map comp_str nm);
  do v <- value (fst fn) (snd fn);
  do c <- has_children (fst fn) (snd fn);
  if not_nil v || c then Ok (fst fn, false)
  else do f' <- set_value (fst fn) (snd fn) h; Ok (f', true).

(** DetachHandler, 100-110: the error ErrInvalidValue is [false] *)
Definition f_detach (f : fib) (nm : name) : res (fib * bool) :=
  do n <- t_exact f (map comp_str nm);
  match n with
  | None => Ok (f, false)
  | Some n => do f' <- t_delete f n; Ok (f', true)
  end.

(** the handler that onInterest calls, 211-229 *)
Definition f_match (f : fib) (nm : name) : res (option H) :=
  do n <- t_prefix f (map comp_str nm); value f n.

Inductive fop : Type :=
| FAttach (nm : name) (h : option H)
| FDetach (nm : name)
| FInterest (nm : name).

(** what the caller or the handlers see *)
Inductive fout : Type :=
| FOk
| FErr
| FDeliver (h : H)
| FDrop.

Definition f_step (f : fib) (o : fop) : res (fib * fout) :=
  match o with
  | FAttach nm h => do r <- f_attach f nm h; Ok (fst r, if snd r then FOk else FErr)
  | FDetach nm => do r <- f_detach f nm; Ok (fst r, if snd r then FOk else FErr)
  | FInterest nm => do v <- f_match f nm; Ok (f, match v with Some h => FDeliver h | None => FDrop end)
  end.

Fixpoint f_run (f : fib) (os : list fop) : res (fib * list fout) :=
  match os with
  | [] => Ok (f, [])
  | o :: os' => do r <- f_step f o; do s <- f_run (fst r) os'; Ok (fst s, snd r :: snd s)
  end.

End Fib.
Arguments fib_new {H}. Arguments not_nil {H}. Arguments f_attach {H}. Arguments f_detach {H}. Arguments f_match {H}.
Arguments FAttach {H}. Arguments FDetach {H}. Arguments FInterest {H}.
Arguments FOk {H}. Arguments FErr {H}. Arguments FDeliver {H}. Arguments FDrop {H}. Arguments f_step {H}. Arguments f_run {H}.
