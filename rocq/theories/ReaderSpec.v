(** Specification of what a reader stands for, independent of its operations:
    [At r pre rem] says that [r] is a sane reader that has consumed [pre] and
    still has [rem] in front of it.  For a wire reader the fragmentation must
    not contain empty buffers, except possibly the first one. *)
From Verif Require Import Base PrimModel ReaderModel.

(** Total sizes are below 2^62, as for any object in memory. *)
Definition mem_limit : Z := 4611686018427387904%Z.

Definition nonempty_segs (w : wire) : Prop := Forall (fun b => b <> []) (tl w).

(** position inside a wire: in the middle (or at the end) of a segment ... *)
Definition inside (w : wire) (seg : nat) (pos : Z) (pre rem : buf) : Prop :=
  exists w1 b1 b2 w2,
    w = w1 ++ (b1 ++ b2) :: w2 /\ seg = length w1 /\ pos = zlen b1
    /\ pre = concat w1 ++ b1 /\ rem = b2 ++ concat w2.

(** ... or one past the last segment. *)
Definition at_end (w : wire) (seg : nat) (pos : Z) (pre rem : buf) : Prop :=
  seg = length w /\ pos = 0%Z /\ pre = concat w /\ rem = [].

Definition At (r : reader) (pre rem : buf) : Prop :=
  (zlen (pre ++ rem) < mem_limit)%Z /\
  match r with
  | RBuf b pos => b = pre ++ rem /\ pos = zlen pre
  | RWire w seg pos acc =>
      nonempty_segs w /\ acc = acc_from 0 w /\
      (inside w seg pos pre rem \/ at_end w seg pos pre rem)
  end.

Definition is_buf_reader (r : reader) : Prop :=
  match r with RBuf _ _ => True | RWire _ _ _ _ => False end.

(** At least [n] bytes of what follows [pre] are in the first buffer of the reader. *)
Definition in_first (n : Z) (r : reader) (pre : buf) : Prop :=
  match r with RBuf _ _ => True | RWire w _ _ _ => (n <= zlen (hd [] w) - zlen pre)%Z end.
