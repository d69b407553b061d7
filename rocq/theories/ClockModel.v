(** pkg/engine/basic/timer.go 21-32: Schedule of the real timer, and the function it returns, called by any goroutines.

    Of package time is assumed what it documents: AfterFunc runs f in a goroutine of its own, once, when the duration has
    passed or later; Stop prevents that if f has not been started, and does nothing otherwise; a method of a nil *Timer
    panics.  Sleep, Now and Nonce (17-19, 34-43) only hand over what package time and the random source give. *)
From Verif Require Import Base.

Inductive tstate : Type := TPending | TStarted | TStopped.
Record tmr : Type := mkT { t_due : Z; t_state : tstate; t_set : bool (* t != nil *) }.
(** where a call of the returned function is: before line 24, before 25, before 26, returned *)
Inductive cpc : Type := PRead | PStop | PClear | PDone.

(** what is observed: function [i] starts at time [t]; a cancel of [i] returns nil ([true]) or the error; it panics *)
Inductive cobs : Type := OStart (i : nat) (t : Z) | ORet (i : nat) (ok : bool) | OPanic (i : nat).
Record cst : Type := mkC { c_now : Z; c_tmrs : list tmr; c_calls : list (nat * cpc); c_log : list cobs }.
Definition c_new : cst := mkC 0 [] [] [].

Inductive cev : Type :=
| ESched (d : Z)                     (* Schedule(d, f): the next number *)
| ETick (d : Z)                      (* time passes *)
| EFire (i : nat)                    (* the function of timer i starts, if it may *)
| ECancel (i : nat)                  (* the function returned for timer i is called *)
| EStep (j : nat).                   (* the j-th such call goes on *)

Definition set_nth {A} (l : list A) (i : nat) (x : A) : list A :=
  match nth_error l i with None => l | Some _ => firstn i l ++ x :: skipn (S i) l end.
Definition panicked (s : cst) : bool := existsb (fun o => match o with OPanic _ => true | _ => false end) (c_log s).

Definition cstep (s : cst) (e : cev) : cst :=
  if panicked s then s else
  match e with
  | ESched d => mkC (c_now s) (c_tmrs s ++ [mkT (c_now s + d) TPending true]) (c_calls s) (c_log s) (* 22 *)
  | ETick d => mkC (c_now s + Z.max 0 d) (c_tmrs s) (c_calls s) (c_log s)
  | EFire i =>
      match nth_error (c_tmrs s) i with
      | Some t =>
          match t_state t with
          | TPending => if (t_due t <=? c_now s)%Z then mkC (c_now s) (set_nth (c_tmrs s) i (mkT (t_due t) TStarted (t_set t))) (c_calls s) (c_log s ++ [OStart i (c_now s)]) else s
          | _ => s
          end
      | None => s
      end
  | ECancel i => match nth_error (c_tmrs s) i with Some _ => mkC (c_now s) (c_tmrs s) (c_calls s ++ [(i, PRead)]) (c_log s) | None => s end
  | EStep j =>
      match nth_error (c_calls s) j with
      | None => s
      | Some (i, pc) =>
          match nth_error (c_tmrs s) i with
          | None => s
          | Some t =>
              match pc with
              | PRead => (* 24 *)
                  if t_set t then mkC (c_now s) (c_tmrs s) (set_nth (c_calls s) j (i, PStop)) (c_log s)
                  else mkC (c_now s) (c_tmrs s) (set_nth (c_calls s) j (i, PDone)) (c_log s ++ [ORet i false])
              | PStop => (* 25 *)
                  if t_set t then
                    mkC (c_now s) (set_nth (c_tmrs s) i (mkT (t_due t) (match t_state t with TPending => TStopped | x => x end) (t_set t)))
                      (set_nth (c_calls s) j (i, PClear)) (c_log s)
                  else mkC (c_now s) (c_tmrs s) (c_calls s) (c_log s ++ [OPanic i])
              | PClear => (* 26-27 *)
                  mkC (c_now s) (set_nth (c_tmrs s) i (mkT (t_due t) (t_state t) false)) (set_nth (c_calls s) j (i, PDone)) (c_log s ++ [ORet i true])
              | PDone => s
              end
          end
      end
  end.
Definition crun (es : list cev) : cst := fold_left cstep es c_new.
