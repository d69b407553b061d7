(** What a storage returns. *)
From Verif Require Import Base NameModel TextModel TrieModel TrieSpec.

(** Names are compared by the texts of their components. *)
Definition same_name (n m : name) : Prop := keys n = keys m.
Definition at_or_below (n m : name) : Prop := prefix (keys n) (keys m).

(** [p], the name, packet and end of validity, is what was last put under its name *)
Definition latest (puts : list (name * wire * Z)) (p : name * wire * Z) : Prop :=
  exists a b, puts = a ++ p :: b /\ forall q, In q b -> ~ same_name (fst (fst q)) (fst (fst p)).

Definition eligible (must_be_fresh : bool) (now : Z) (p : name * wire * Z) : Prop :=
  snd (fst p) <> [] /\ (must_be_fresh = true -> (now < snd p)%Z).
