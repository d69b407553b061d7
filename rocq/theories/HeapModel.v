(** pkg/utils/heap/heap.go and pkg/utils/priority_queue/priority-queue.go.

    Items are pointers in the code.  Here a pointer is the number of the Push that
    made the item; [q_list] is the slice of pointers, [q_obj], [q_pri] and [q_idx]
    are the fields of the items.  The priority type is any type with a comparison
    [ltb]; the theorems assume it to be a strict weak order, which excludes
    floating-point NaN.  Slice lengths stay below 2^62, so 2*i+1 cannot overflow
    and the test [j1 < 0] in down is never true. *)
From Verif Require Import Base.

Section Heap.
Variables (V P : Type) (ltb : P -> P -> bool).

(** item and Queue, priority-queue.go 8-19 *)
Record queue : Type := mkQ {
  q_list : list nat;
  q_obj : nat -> option V;
  q_pri : nat -> option P;
  q_idx : nat -> Z;
  q_next : nat
}.

Definition fset {A} (f : nat -> A) (k : nat) (a : A) : nat -> A :=
  fun x => if Nat.eqb x k then a else f x.

(** l[i] = x *)
Fixpoint set_nth {A} (l : list A) (i : nat) (x : A) : list A :=
  match l, i with
  | [], _ => []
  | _ :: l', O => x :: l'
  | y :: l', S i' => y :: set_nth l' i' x
  end.

(** Less, priority-queue.go 25-27 (panics are separate: callers stay in range) *)
Definition q_less (q : queue) (i j : nat) : bool :=
  match nth_error (q_list q) i, nth_error (q_list q) j with
  | Some a, Some b => match q_pri q a, q_pri q b with
                      | Some x, Some y => ltb x y
                      | _, _ => false
                      end
  | _, _ => false
  end.

(** Swap, priority-queue.go 29-33 *)
Definition q_swap (q : queue) (i j : nat) : queue :=
  match nth_error (q_list q) i, nth_error (q_list q) j with
  | Some a, Some b =>
      mkQ (set_nth (set_nth (q_list q) i b) j a) (q_obj q) (q_pri q)
          (fset (fset (q_idx q) b (Z.of_nat i)) a (Z.of_nat j)) (q_next q)
  | _, _ => q
  end.

(** up, heap.go 89-98; the fuel is the position itself *)
Fixpoint h_up (fuel : nat) (q : queue) (j : nat) : res queue :=
  match fuel with
  | O => Hang
  | S f =>
      let i := ((j - 1) / 2)%nat in
      if (i =? j)%nat || negb (q_less q j i) then Ok q
      else h_up f (q_swap q i j) i
  end.

(** down, heap.go 100-118 *)
Fixpoint h_down_loop (fuel : nat) (q : queue) (i n : nat) : res (queue * nat) :=
  match fuel with
  | O => Hang
  | S f =>
      let j1 := (2 * i + 1)%nat in
      if (n <=? j1)%nat then Ok (q, i)
      else
        let j2 := (j1 + 1)%nat in
        let j := if (j2 <? n)%nat && q_less q j2 j1 then j2 else j1 in
        if negb (q_less q j i) then Ok (q, i)
        else h_down_loop f (q_swap q i j) j n
  end.

Definition h_down (q : queue) (i0 n : nat) : res (queue * bool) :=
  do p <- h_down_loop (S n) q i0 n;
  Ok (fst p, (i0 <? snd p)%nat).

(** Fix, heap.go 83-87 *)
Definition h_fix (q : queue) (i : nat) : res queue :=
  do p <- h_down q i (length (q_list q));
  if snd p then Ok (fst p) else h_up (S (S i)) (fst p) i.

(** wrapper.Push, priority-queue.go 35-39, then heap.Push, heap.go 51-54 *)
Definition q_push (q : queue) (v : V) (p : P) : res (queue * Z) :=
  let k := q_next q in
  let n := length (q_list q) in
  let q1 := mkQ (q_list q ++ [k]) (fset (q_obj q) k (Some v)) (fset (q_pri q) k (Some p))
                (fset (q_idx q) k (Z.of_nat n)) (S k) in
  do q2 <- h_up (S (S n)) q1 n;
  Ok (q2, q_idx q2 k).

(** Queue.Pop, priority-queue.go 77-79: heap.Pop (heap.go 59-64) with Swap(0, -1)
    panicking on the empty queue, then wrapper.Pop (41-49).  The result names the
    popped item, which the code only returns as its object. *)
Definition q_pop (q : queue) : res (queue * nat) :=
  match length (q_list q) with
  | O => Panic
  | S n =>
      do p <- h_down (q_swap q 0 n) 0 n;
      let q1 := fst p in
      match nth_error (q_list q1) n with
      | Some k => Ok (mkQ (firstn n (q_list q1)) (q_obj q1) (q_pri q1)
                          (fset (q_idx q1) k (-1)%Z) (q_next q1), k)
      | None => Panic
      end
  end.

(** Peek, PeekPriority, priority-queue.go 67-74 *)
Definition q_peek (q : queue) : res nat :=
  match nth_error (q_list q) 0 with
  | Some k => Ok k
  | None => Panic
  end.

(** Update, priority-queue.go 83-92 *)
Definition q_update (q : queue) (i : Z) (v : V) (p : P) : res (queue * Z) :=
  if (i <? 0)%Z || (zlen (q_list q) <=? i)%Z then Ok (q, (-1)%Z)
  else match nth_error (q_list q) (Z.to_nat i) with
       | None => Panic
       | Some k =>
           let q1 := mkQ (q_list q) (fset (q_obj q) k (Some v)) (fset (q_pri q) k (Some p)) (q_idx q) (q_next q) in
           do q2 <- h_fix q1 (Z.to_nat (q_idx q1 k));
           Ok (q2, q_idx q2 k)
       end.

Definition q_len (q : queue) : Z := zlen (q_list q).

(** New, priority-queue.go 95-97 *)
Definition q_new : queue := mkQ [] (fun _ => None) (fun _ => None) (fun _ => (-1)%Z) 0.

(** ** Histories *)
Inductive qop : Type :=
| OPush (v : V) (p : P)
| OPop
| OUpdate (i : Z) (v : V) (p : P).

(** what the caller sees: the index returned by Push/Update, the object returned by Pop *)
Inductive qout : Type :=
| RIndex (i : Z)
| RObj (v : option V).

Definition q_step (q : queue) (o : qop) : res (queue * qout) :=
  match o with
  | OPush v p => do r <- q_push q v p; Ok (fst r, RIndex (snd r))
  | OPop => do r <- q_pop q; Ok (fst r, RObj (q_obj q (snd r)))
  | OUpdate i v p => do r <- q_update q i v p; Ok (fst r, RIndex (snd r))
  end.

(** a history stops at the first panic *)
Fixpoint q_run (q : queue) (ops : list qop) : res (queue * list qout) :=
  match ops with
  | [] => Ok (q, [])
  | o :: ops' => do r <- q_step q o; do s <- q_run (fst r) ops'; Ok (fst s, snd r :: snd s)
  end.

End Heap.
Arguments mkQ {V P}. Arguments q_list {V P}. Arguments q_obj {V P}. Arguments q_pri {V P}.
Arguments q_idx {V P}. Arguments q_next {V P}. Arguments q_swap {V P}. Arguments q_less {V P}.
Arguments h_up {V P}. Arguments h_down_loop {V P}. Arguments h_down {V P}. Arguments h_fix {V P}.
Arguments q_push {V P}. Arguments q_pop {V P}. Arguments q_peek {V P}. Arguments q_update {V P}.
Arguments q_len {V P}. Arguments q_new {V P}. Arguments OPush {V P}. Arguments OPop {V P}.
Arguments OUpdate {V P}. Arguments RIndex {V}. Arguments RObj {V}. Arguments q_step {V P}. Arguments q_run {V P}.
