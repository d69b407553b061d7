(** What the dummy timer and face are meant to do. *)
From Verif Require Import Base DummyModel.

(** ** timer: callbacks that do not touch the timer *)
Inductive tcall : Type := Schedule (d : N) | Cancel (k : nat) | MoveForward (d : N).

Definition plain (c : tcall) : tmop :=
  match c with
  | Schedule d => TmSchedule d
  | Cancel k => TmCancel k
  | MoveForward d => TmForward d (fun _ => [])
  end.

(** the clock after some calls *)
Definition clock (cs : list tcall) : Z :=
  fold_left (fun now c => match c with MoveForward d => (now + Z.of_N d)%Z | _ => now end) cs 0%Z.

Definition is_schedule (c : tcall) : bool := match c with Schedule _ => true | _ => false end.

(** [made cs k t]: event k was made by [cs] and is due at [t] *)
Definition made (cs : list tcall) (k : nat) (t : Z) : Prop :=
  exists p d q, cs = p ++ Schedule d :: q /\ length (filter is_schedule p) = k /\ t = (clock p + Z.of_N d)%Z.

(** [cancelled cs k]: [cs] has a cancel of event k while its due time t had not passed *)
Definition cancelled (cs : list tcall) (k : nat) (t : Z) : Prop :=
  exists p q, cs = p ++ Cancel k :: q /\ made p k t /\ (clock p <= t)%Z.

Definition cancels (cs : list tcall) : list nat :=
  flat_map (fun c => match c with Cancel k => [k] | _ => [] end) cs.

(** ** face: packets accepted since the face was last opened, and whether it is open *)
Fixpoint opened (cb run : bool) (q : list (list N)) (os : list dop) : bool * list (list N) :=
  match os with
  | [] => (run, q)
  | DSetCallback :: r => opened true run q r
  | DOpen :: r => if cb && negb run then opened cb true [] r else opened cb run q r
  | DClose :: r => opened cb false q r
  | DSend (b :: bs) :: r => opened cb run (if run then q ++ [concat (b :: bs)] else q) r
  | _ :: r => opened cb run q r
  end.

(** packets returned by Consume since the face was last opened *)
Fixpoint consumed (cb run : bool) (got : list buf) (os : list dop) (rs : list dout) : list buf :=
  match os, rs with
  | DSetCallback :: os', _ :: rs' => consumed true run got os' rs'
  | DOpen :: os', _ :: rs' => if cb && negb run then consumed cb true [] os' rs' else consumed cb run got os' rs'
  | DClose :: os', _ :: rs' => consumed cb false got os' rs'
  | DConsume :: os', DPkt b :: rs' => consumed cb run (got ++ [b]) os' rs'
  | _ :: os', _ :: rs' => consumed cb run got os' rs'
  | _, _ => got
  end.
