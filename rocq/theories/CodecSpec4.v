(** Input on which the generated parsers return. *)
From Verif Require Import Base.

(** No nine-byte TLV number of 2^40 or more can be read at any place. *)
Definition no_huge_number (b : buf) : Prop :=
  forall x s, b = x ++ 255%N :: s -> (8 <= length s)%nat -> (unbe (firstn 8 s) < 1099511627776)%N.
