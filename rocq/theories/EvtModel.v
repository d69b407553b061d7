(** pkg/schema/event.go: the listeners of an event.

    A listener is a pointer, here a number.  An EventTarget holds a Go slice of them: an array and a length; the
    array has room for [cap] elements.  Callbacks may add and remove listeners, of the event that is being
    dispatched too; callbacks that fire events themselves are not modelled.  The argument of a callback is not
    modelled: what it returns and does may differ from call to call ([k] is the number of the call). *)
From Verif Require Import Base.

(** a slice: which array, how many elements *)
Record slice : Type := mkSl { s_arr : nat; s_len : nat }.
Definition nil_slice : slice := mkSl 0 0.

(** the arrays and the slices of the EventTargets *)
Record evs : Type := mkEvs { e_heap : list (list N); e_val : nat -> slice }.
Definition evs_new : evs := mkEvs [[]] (fun _ => nil_slice).

Definition arr (h : list (list N)) (a : nat) : list N := nth a h [].
Fixpoint put_at {A} (l : list A) (i : nat) (x : A) : list A :=
  match l, i with
  | [], _ => []
  | _ :: l', O => x :: l'
  | y :: l', S i' => y :: put_at l' i' x
  end.
Definition set_val (v : nat -> slice) (t : nat) (s : slice) : nat -> slice := fun u => if Nat.eqb u t then s else v u.

Section Target.
  (** what callbacks return; nil *)
  Variable Any : Type.
  Variable anil : Any.
  (** the room append leaves when it needs a new array for so many elements *)
  Variable room : nat -> nat.

  (** Add, event.go 67-69 *)
  Definition e_add (s : evs) (t : nat) (p : N) : evs :=
    let sl := e_val s t in
    let a := arr (e_heap s) (s_arr sl) in
    if Nat.ltb (s_len sl) (length a) then
      mkEvs (put_at (e_heap s) (s_arr sl) (put_at a (s_len sl) p)) (set_val (e_val s) t (mkSl (s_arr sl) (S (s_len sl))))
    else
      mkEvs (e_heap s ++ [firstn (s_len sl) a ++ p :: repeat 0%N (room (s_len sl))]) (set_val (e_val s) t (mkSl (length (e_heap s)) (S (s_len sl)))).

  (** Remove, event.go 73-81 *)
  Definition e_remove (s : evs) (t : nat) (p : N) : evs :=
    let sl := e_val s t in
    let old := firstn (s_len sl) (arr (e_heap s) (s_arr sl)) in
    let new := filter (fun v => negb (N.eqb v p)) old in
    mkEvs (e_heap s ++ [new ++ repeat 0%N (length old - length new)]) (set_val (e_val s) t (mkSl (length (e_heap s)) (length new))).

  Inductive eop : Type := EAdd (t : nat) (p : N) | ERemove (t : nat) (p : N).
  Definition e_op (s : evs) (o : eop) : evs := match o with EAdd t p => e_add s t p | ERemove t p => e_remove s t p end.

  (** the callback: the operations it does and what it returns, in its call number [k] *)
  Variable body : N -> nat -> list eop.
  Variable ans : N -> nat -> Any.

  (** Dispatch and DispatchUntil, event.go 89-108: the loop from element [i] on of the slice [sl]; [accept] is
      [None] for Dispatch and for a nil acceptFunc.  Returns the calls too, with their results. *)
  Fixpoint e_loop (n i : nat) (sl : slice) (accept : option (Any -> bool)) (s : evs) (k : nat) (ret : Any) : evs * nat * Any * list (N * Any) :=
    match n with
    | O => (s, k, ret, [])
    | S n' =>
        let p := nth i (arr (e_heap s) (s_arr sl)) 0%N in
        let r := ans p k in
        let s1 := fold_left e_op (body p k) s in
        if match accept with Some f => f r | None => false end then (s1, S k, r, [(p, r)])
        else let '(s2, k2, r2, l) := e_loop n' (S i) sl accept s1 (S k) r in (s2, k2, r2, (p, r) :: l)
    end.
  Definition e_dispatch (s : evs) (t : nat) (accept : option (Any -> bool)) (k : nat) : evs * nat * Any * list (N * Any) :=
    let sl := e_val s t in e_loop (s_len sl) 0 sl accept s k anil.

  (** Val, event.go 84-86 *)
  Definition e_listeners (s : evs) (t : nat) : list N := firstn (s_len (e_val s t)) (arr (e_heap s) (s_arr (e_val s t))).

  (** a history: operations and events fired *)
  Inductive hop : Type := HOp (o : eop) | HFire (t : nat) (accept : option (Any -> bool)).
  Fixpoint e_run (s : evs) (k : nat) (l : list hop) : evs * list (Any * list (N * Any)) :=
    match l with
    | [] => (s, [])
    | HOp o :: l' => e_run (e_op s o) k l'
    | HFire t acc :: l' =>
        let '(s1, k1, r, c) := e_dispatch s t acc k in
        let '(s2, out) := e_run s1 k1 l' in (s2, (r, c) :: out)
    end.
End Target.
Arguments HOp {Any}. Arguments HFire {Any}.
