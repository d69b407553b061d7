(** What attaching and detaching handlers should do: a table from prefixes (by the
    texts of their components) to handlers. *)
From Verif Require Import Base NameModel TextModel TrieModel TrieSpec FibModel.

Section Spec.
Variable H : Type.

Definition table : Type := path -> option H.
Definition related (p q : path) : Prop := prefix p q \/ prefix q p.
Definition no_table : table := fun _ => None.

(** one operation on the table *)
Inductive fib_spec (t : table) : fop H -> fout H -> table -> Prop :=
(* a prefix can be attached iff no attached prefix is above, below or equal *)
| SAttach : forall nm h t', (forall q, t q <> None -> ~ related q (keys nm)) ->
    t' (keys nm) = Some h -> (forall q, q <> keys nm -> t' q = t q) -> fib_spec t (FAttach nm (Some h)) FOk t'
| SAttachErr : forall nm h q t', t q <> None -> related q (keys nm) ->
    (forall q, t' q = t q) -> fib_spec t (FAttach nm (Some h)) FErr t'
(* detaching takes away the handlers at and below the prefix *)
| SDetach : forall nm q t', nm <> [] -> t q <> None -> prefix (keys nm) q ->
    (forall q, prefix (keys nm) q -> t' q = None) -> (forall q, ~ prefix (keys nm) q -> t' q = t q) ->
    fib_spec t (FDetach nm) FOk t'
| SDetachErr : forall nm t', nm <> [] -> (forall q, prefix (keys nm) q -> t q = None) ->
    (forall q, t' q = t q) -> fib_spec t (FDetach nm) FErr t'
(* the empty name takes away everything but a handler for the empty name *)
| SDetachRoot : forall t', t' [] = t [] -> (forall q, q <> [] -> t' q = None) -> fib_spec t (FDetach []) FOk t'
(* an Interest goes to the handler of its prefix; there is at most one *)
| SDeliver : forall nm h p t', t p = Some h -> prefix p (keys nm) -> (forall q, prefix q (keys nm) -> q <> p -> t q = None) ->
    (forall q, t' q = t q) -> fib_spec t (FInterest nm) (FDeliver h) t'
| SDrop : forall nm t', (forall p, prefix p (keys nm) -> t p = None) ->
    (forall q, t' q = t q) -> fib_spec t (FInterest nm) FDrop t'.

Inductive fib_hist : table -> list (fop H) -> list (fout H) -> table -> Prop :=
| HNil : forall t, fib_hist t [] [] t
| HCons : forall t o r t1 os rs t2, fib_spec t o r t1 -> fib_hist t1 os rs t2 -> fib_hist t (o :: os) (r :: rs) t2.

(** handlers are real functions *)
Definition no_nil_handler (os : list (fop H)) : Prop := forall nm, ~ In (FAttach nm None) os.

End Spec.
Arguments fib_spec {H}. Arguments fib_hist {H}. Arguments no_table {H}. Arguments no_nil_handler {H}.
