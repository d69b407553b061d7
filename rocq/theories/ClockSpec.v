(** What a user of a timer may expect, about what is observed. *)
From Verif Require Import Base ClockModel.

(** when each function was scheduled and for how long *)
Fixpoint scheduled (now : Z) (es : list cev) : list (Z * Z) :=
  match es with
  | [] => []
  | ESched d :: es' => (now, d) :: scheduled now es'
  | ETick d :: es' => scheduled (now + Z.max 0 d) es'
  | _ :: es' => scheduled now es'
  end.
(** how much time has passed *)
Fixpoint elapsed (es : list cev) : Z :=
  match es with [] => 0%Z | ETick d :: es' => (Z.max 0 d + elapsed es')%Z | _ :: es' => elapsed es' end.
Definition starts (i : nat) (l : list cobs) : nat := length (filter (fun o => match o with OStart j _ => Nat.eqb j i | _ => false end) l).
Definition returns (i : nat) (l : list cobs) : list bool :=
  flat_map (fun o => match o with ORet j ok => if Nat.eqb j i then [ok] else [] | _ => [] end) l.
Definition cancels (i : nat) (es : list cev) : nat := length (filter (fun e => match e with ECancel j => Nat.eqb j i | _ => false end) es).
(** at no moment two unfinished calls of the cancel function of timer [i] *)
Definition one_by_one (i : nat) (es : list cev) : Prop :=
  forall es1 es2, es = es1 ++ es2 -> (cancels i es1 <= S (length (returns i (c_log (crun es1)))))%nat.
