(** pkg/engine/dummy: the timer and the face used in tests of applications. *)
From Verif Require Import Base.

(** ** timer.go.  Durations are non-negative, times unbounded integers.  Event [k] is
    the one made by the k-th Schedule.  Sleep and Nonce are left out. *)

(** event, 9-12: due time and function, [None] being nil *)
Notation slot := (Z * option nat)%type.

(** Timer, 14-21; [tm_info] holds the variables t and idx captured by the cancel
    function of each event; [tm_log] the events run so far *)
Record tmr : Type := mkTmr {
  tm_now : Z;
  tm_events : list slot;
  tm_info : list (Z * nat);
  tm_ran : list nat
}.

(** NewTimer, 23-32 *)
Definition tmr_new : tmr := mkTmr 0 [] [] [].

(** first slot whose function is nil, or the length: Schedule 70-76 *)
Fixpoint free_slot (l : list slot) : nat :=
  match l with
  | [] => O
  | (_, None) :: _ => O
  | _ :: l' => S (free_slot l')
  end.

Fixpoint set_slot (l : list slot) (i : nat) (x : slot) : list slot :=
  match l, i with
  | [], _ => []
  | _ :: l', O => x :: l'
  | y :: l', S i' => y :: set_slot l' i' x
  end.

(** Schedule, 65-87 *)
Definition tm_schedule (s : tmr) (d : N) : tmr :=
  let t := (tm_now s + Z.of_N d)%Z in
  let id := length (tm_info s) in
  let idx := free_slot (tm_events s) in
  let evs := if (idx =? length (tm_events s))%nat then tm_events s ++ [(t, Some id)]
             else set_slot (tm_events s) idx (t, Some id) in
  mkTmr (tm_now s) evs (tm_info s ++ [(t, idx)]) (tm_ran s).

(** the cancel function, 89-101: [true] is nil, [false] the error *)
Definition tm_cancel (s : tmr) (id : nat) : tmr * bool :=
  match nth_error (tm_info s) id with
  | None => (s, false)
  | Some (t, idx) =>
      if (t <? tm_now s)%Z then (s, true)
      else match nth_error (tm_events s) idx with
           | Some (t', Some _) =>
               if (t' =? t)%Z then (mkTmr (tm_now s) (set_slot (tm_events s) idx (t', None)) (tm_info s) (tm_ran s), true)
               else (s, false)
           | _ => (s, false)
           end
  end.

(** what a callback may do to the timer *)
Inductive act : Type := ASchedule (d : N) | ACancel (id : nat).
Definition do_act (s : tmr) (a : act) : tmr :=
  match a with
  | ASchedule d => tm_schedule s d
  | ACancel id => fst (tm_cancel s id)
  end.

(** the loop of MoveForward, 49-56, over the copy; the callback of event [id]
    performs [script id] *)
Fixpoint forward_loop (script : nat -> list act) (s : tmr) (todo done : list slot) : tmr * list slot :=
  match todo with
  | [] => (s, done)
  | (t, Some id) :: todo' =>
      if (t <? tm_now s)%Z then
        let s1 := mkTmr (tm_now s) (tm_events s) (tm_info s) (tm_ran s ++ [id]) in
        forward_loop script (fold_left do_act (script id) s1) todo' (done ++ [(t, None)])
      else forward_loop script s todo' (done ++ [(t, Some id)])
  | e :: todo' => forward_loop script s todo' (done ++ [e])
  end.

(** MoveForward, 38-63 *)
Definition tm_forward (script : nat -> list act) (s : tmr) (d : N) : tmr :=
  let s1 := mkTmr (tm_now s + Z.of_N d) (tm_events s) (tm_info s) (tm_ran s) in
  let '(s2, evs) := forward_loop script s1 (tm_events s) [] in
  mkTmr (tm_now s2) evs (tm_info s2) (tm_ran s2).

Inductive tmop : Type :=
| TmSchedule (d : N)
| TmCancel (id : nat)
| TmForward (d : N) (script : nat -> list act).

Definition tm_step (s : tmr) (o : tmop) : tmr :=
  match o with
  | TmSchedule d => tm_schedule s d
  | TmCancel id => fst (tm_cancel s id)
  | TmForward d script => tm_forward script s d
  end.

Definition tm_run (s : tmr) (os : list tmop) : tmr := fold_left tm_step os s.

(** ** transports.go.  Buffers are values: Send with a single buffer keeps the
    caller's buffer itself in the code. *)
Record dface : Type := mkFace { df_pkts : list buf; df_running : bool; df_callback : bool }.

Definition df_new : dface := mkFace [] false false.

Inductive dop : Type := DSetCallback | DOpen | DClose | DSend (pkt : wire) | DConsume.
Inductive dout : Type := DNil | DErr | DPkt (b : buf).

(** SetCallback 24-28, Open 30-40, Close 42-48, Consume 59-69, Send 71-85 *)
Definition df_step (f : dface) (o : dop) : dface * dout :=
  match o with
  | DSetCallback => (mkFace (df_pkts f) (df_running f) true, DNil)
  | DOpen => if negb (df_callback f) then (f, DErr)
             else if df_running f then (f, DErr)
             else (mkFace [] true (df_callback f), DNil)
  | DClose => if df_running f then (mkFace (df_pkts f) false (df_callback f), DNil) else (f, DErr)
  | DSend pkt => if negb (df_running f) then (f, DErr)
                 else match pkt with
                      | [] => (f, DNil)
                      | [b] => (mkFace (df_pkts f ++ [b]) true (df_callback f), DNil)
                      | _ => (mkFace (df_pkts f ++ [fold_left (fun a b => a ++ b) pkt []]) true (df_callback f), DNil)
                      end
  | DConsume => if negb (df_running f) then (f, DErr)
                else match df_pkts f with
                     | [] => (f, DErr)
                     | b :: r => (mkFace r true (df_callback f), DPkt b)
                     end
  end.

Fixpoint df_run (f : dface) (os : list dop) : dface * list dout :=
  match os with
  | [] => (f, [])
  | o :: os' => let '(f1, r) := df_step f o in let '(f2, rs) := df_run f1 os' in (f2, r :: rs)
  end.
