(** What events are meant to do: an event has a list of listeners. *)
From Verif Require Import Base EvtModel.

Definition listeners : Type := nat -> list N.

(** adding puts a listener at the end; removing takes away every copy of it and keeps the order of the rest; other events are untouched *)
Definition did (l : listeners) (o : eop) (l' : listeners) : Prop :=
  match o with
  | EAdd t p => l' t = l t ++ [p] /\ forall u, u <> t -> l' u = l u
  | ERemove t p => l' t = filter (fun q => negb (N.eqb q p)) (l t) /\ forall u, u <> t -> l' u = l u
  end.
Inductive all_did : listeners -> list eop -> listeners -> Prop :=
| DidNil : forall l, all_did l [] l
| DidCons : forall l o l1 os l2, did l o l1 -> all_did l1 os l2 -> all_did l (o :: os) l2.

Section Spec.
  Variable Any : Type.
  Variable anil : Any.
  Variable body : N -> nat -> list eop.
  Variable ans : N -> nat -> Any.

  (** the listeners [todo] are called one after the other, up to the first result that is accepted, whatever they add and remove meanwhile;
      the result is that of the last call *)
  Inductive called (accept : option (Any -> bool)) : list N -> listeners -> nat -> Any -> listeners -> nat -> Any -> list (N * Any) -> Prop :=
  | CalledAll : forall l k r, called accept [] l k r l k r []
  | CalledStop : forall p todo l k r0 l1, all_did l (body p k) l1 ->
      (exists f, accept = Some f /\ f (ans p k) = true) ->
      called accept (p :: todo) l k r0 l1 (S k) (ans p k) [(p, ans p k)]
  | CalledNext : forall p todo l k r0 l1 l2 k2 r2 c, all_did l (body p k) l1 ->
      (forall f, accept = Some f -> f (ans p k) = false) ->
      called accept todo l1 (S k) (ans p k) l2 k2 r2 c ->
      called accept (p :: todo) l k r0 l2 k2 r2 ((p, ans p k) :: c).

  Inductive fired : listeners -> nat -> list (hop Any) -> listeners -> list (Any * list (N * Any)) -> Prop :=
  | FNil : forall l k, fired l k [] l []
  | FOp : forall l k o l1 h l2 out, did l o l1 -> fired l1 k h l2 out -> fired l k (HOp o :: h) l2 out
  | FFire : forall l k t acc l1 k1 r c h l2 out, called acc (l t) l k anil l1 k1 r c -> fired l1 k1 h l2 out -> fired l k (HFire t acc :: h) l2 ((r, c) :: out).
End Spec.
Arguments called {Any}. Arguments fired {Any}.
