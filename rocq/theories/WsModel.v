(** WebSocketFace of pkg/engine/basic/transports.go, and what it uses of
    github.com/gorilla/websocket, whose source is not in /repo.  Of that package these facts
    are taken from its documentation: a message that is written arrives as one message of
    the same type with the same bytes; after a read has failed all further reads fail, and
    after a number of them (1000) the next one panics; one goroutine may write at a time, and
    a write that meets another one in progress panics. *)
From Verif Require Import Base.

(** a message: binary, or of another type *)
Inductive wmsg : Type := WBin (b : buf) | WOther (b : buf).

Inductive wstop : Type :=
| WClosed            (* closed from outside, still running so far *)
| WRefused           (* onPkt returned an error *)
| WPanic.

Section Run.
(** onPkt returns nil on this packet; the number of reads of a failed connection before the panic *)
Variables (accepts : buf -> bool) (limit : nat).

(** WebSocketFace.Run, 154-170: the packets handed to onPkt and why it stopped.  [ms] are
    the messages that arrive before the connection fails, [fails] the reads that failed. *)
Fixpoint w_run (fuel fails : nat) (ms : list wmsg) : list buf * wstop :=
  match fuel with
  | O => ([], WClosed)
  | S f =>
      match ms with
      | [] => if (limit <=? S fails)%nat then ([], WPanic) else w_run f (S fails) []
      | WOther _ :: ms' => w_run f fails ms'
      | WBin p :: ms' => if accepts p then let '(ps, s) := w_run f fails ms' in (p :: ps, s) else ([p], WRefused)
      end
  end.
End Run.

(** goroutines in Send, 172-177: at the check of running, at the call of WriteMessage, in it, or returned (true: nil) *)
Inductive wpc : Type := WsCheck | WsWrite | WsBusy | WsRet (ok : bool).
(** running; the messages written; the goroutine that is writing; the goroutines *)
Record wface : Type := mkW { w_running : bool; w_out : list wmsg; w_writer : option nat; w_threads : list (list buf * wpc) }.
Definition w_open : wface := mkW true [] None [].

(** a call of Send, or a step of goroutine [t] *)
Inductive wlabel : Type := WCall (pkt : list buf) | WStep (t : nat).

Fixpoint put_nth {A} (l : list A) (n : nat) (x : A) : list A :=
  match l, n with
  | [], _ => []
  | _ :: l', O => x :: l'
  | y :: l', S k => y :: put_nth l' k x
  end.

(** WebSocketFace.Send, 172-177, without any lock; pkt.Join concatenates the buffers (Wire.Join,
    encoding/types.go 15-33).  The connection stays open. *)
Definition w_step (s : wface) (l : wlabel) : res wface :=
  match l with
  | WCall pkt => Ok (mkW (w_running s) (w_out s) (w_writer s) (w_threads s ++ [(pkt, WsCheck)]))
  | WStep t =>
      match nth_error (w_threads s) t with
      | None => Ok s
      | Some (pkt, p) =>
          let goto q := Ok (mkW (w_running s) (w_out s) (w_writer s) (put_nth (w_threads s) t (pkt, q))) in
          match p with
          | WsCheck => if w_running s then goto WsWrite else goto (WsRet false)
          | WsWrite =>
              match w_writer s with
              | Some _ => Panic
              | None => Ok (mkW (w_running s) (w_out s) (Some t) (put_nth (w_threads s) t (pkt, WsBusy)))
              end
          | WsBusy => Ok (mkW (w_running s) (w_out s ++ [WBin (concat pkt)]) None (put_nth (w_threads s) t (pkt, WsRet true)))
          | WsRet _ => Ok s
          end
      end
  end.
Fixpoint w_steps (s : wface) (ls : list wlabel) : res wface :=
  match ls with [] => Ok s | l :: ls' => bind (w_step s l) (fun s' => w_steps s' ls') end.
