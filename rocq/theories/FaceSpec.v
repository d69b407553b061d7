(** Vocabulary for the statements about goroutines that share a face. *)
From Verif Require Import Base FaceModel.

(** goroutine [i] is in the call (or in Run) and at this place *)
Definition doing (s : face) (i : nat) (c : option call) (p : pc) : Prop := nth_error (f_threads s) i = Some (mkTh c p).

(** goroutine [i] called Send with this packet *)
Definition sends (s : face) (i : nat) (pkt : list buf) : Prop := exists p, doing s i (Some (CSend pkt)) p.
(** its call has returned: nil, or an error *)
Definition returned (s : face) (i : nat) (r : option ferr) : Prop := exists c, doing s i c (Ret r).
(** it has not returned yet *)
Definition busy (s : face) (i : nat) (c : option call) : Prop := exists p, doing s i c p /\ forall r, p <> Ret r.

Definition opening (s : face) : Prop := exists i, busy s i (Some COpen).
Definition sending (s : face) : Prop := exists i pkt, busy s i (Some (CSend pkt)).
(** a Run that has not ended *)
Definition receiving (s : face) (i : nat) : Prop := busy s i None.

(** the bytes that connection [c] took *)
Definition stream (s : face) (c : nat) : buf := match nth_error (f_conns s) c with Some x => c_out x | None => [] end.

(** the bytes of the packet that goroutine [i] sends *)
Definition packet (s : face) (i : nat) : buf :=
  match nth_error (f_threads s) i with Some (mkTh (Some (CSend pkt)) _) => concat pkt | _ => [] end.

(** Open is called at most once *)
Fixpoint opens (ls : list label) : nat :=
  match ls with [] => 0 | LCall COpen :: ls' => S (opens ls') | _ :: ls' => opens ls' end.

(** no Send is in progress during an Open *)
Definition separate (ls : list label) : Prop := forall ls1 ls2 s, ls = ls1 ++ ls2 -> f_run face_new ls1 = Ok s -> opening s -> sending s -> False.

(** calls of Open do not overlap *)
Definition one_opener (ls : list label) : Prop := forall ls1 ls2 s i j, ls = ls1 ++ ls2 -> f_run face_new ls1 = Ok s ->
  busy s i (Some COpen) -> busy s j (Some COpen) -> i = j.

(** the steps of goroutine [t] in a schedule *)
Fixpoint steps_of (t : nat) (ls : list label) : nat :=
  match ls with
  | [] => 0
  | LStep u _ :: ls' => (if Nat.eqb u t then 1 else 0) + steps_of t ls'
  | _ :: ls' => steps_of t ls'
  end.
