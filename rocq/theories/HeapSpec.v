(** What a priority queue with caller-visible positions should do: the entries held
    are a list in which the place of an entry is its current index.  Operations may
    rearrange the places; that is all they may do besides their own effect. *)
From Coq Require Import Permutation.
From Verif Require Import Base HeapModel.

Section Spec.
Variables (V P : Type) (ltb : P -> P -> bool).

(** identity of the Push, object, priority *)
Definition entry : Type := (nat * V * P)%type.
Definition e_id (e : entry) : nat := fst (fst e).
Definition e_obj (e : entry) : V := snd (fst e).
Definition e_pri (e : entry) : P := snd e.

Definition minimal (e : entry) (L : list entry) : Prop :=
  In e L /\ forall x, In x L -> ltb (e_pri x) (e_pri e) = false.

Definition in_range (i : Z) (L : list entry) : Prop := (0 <= i < zlen L)%Z.

Inductive spec_step (L : list entry) : qop V P -> qout V -> list entry -> Prop :=
| SPush : forall v p id i L', ~ In id (map e_id L) ->
    Permutation L' ((id, v, p) :: L) ->
    (0 <= i)%Z -> nth_error L' (Z.to_nat i) = Some (id, v, p) ->
    spec_step L (OPush v p) (RIndex i) L'
| SPop : forall e L', minimal e L -> Permutation L (e :: L') ->
    spec_step L OPop (RObj (Some (e_obj e))) L'
| SUpdate : forall i v p a e b j L', in_range i L ->
    L = a ++ e :: b -> length a = Z.to_nat i ->
    Permutation L' (a ++ (e_id e, v, p) :: b) ->
    (0 <= j)%Z -> nth_error L' (Z.to_nat j) = Some (e_id e, v, p) ->
    spec_step L (OUpdate i v p) (RIndex j) L'
| SNoUpdate : forall i v p, ~ in_range i L ->
    spec_step L (OUpdate i v p) (RIndex (-1)) L.

Inductive spec_run : list entry -> list (qop V P) -> list (qout V) -> list entry -> Prop :=
| SNil : forall L, spec_run L [] [] L
| SCons : forall L o r L1 os rs L2, spec_step L o r L1 -> spec_run L1 os rs L2 ->
    spec_run L (o :: os) (r :: rs) L2.

(** an order fit for a priority queue: total up to ties, any ties *)
Definition weak_order : Prop :=
  (forall x y, ltb x y = true -> ltb y x = false) /\
  (forall x y z, ltb y x = false -> ltb z y = false -> ltb z x = false).

End Spec.
Arguments e_id {V P}. Arguments e_obj {V P}. Arguments e_pri {V P}.
Arguments minimal {V P}. Arguments spec_step {V P}. Arguments spec_run {V P}. Arguments weak_order {P}.
