(** Goroutines that use one StreamFace of pkg/engine/basic/transports.go: any number of calls of Send,
    Open and Close and the goroutines of Run, interleaved step by step.

    One step is one access to what the goroutines share: the fields running and conn, the mutex and
    the connection.  Steps are sequentially consistent, which the plain field conn does not guarantee
    in Go.  What the peer sends is in StreamModel; here a round of Run is one read that brings a
    packet or fails. *)
From Verif Require Import Base.

(** A connection made by net.Dial: the bytes it took, whether a Write failed, whether it was closed.
    A Write may fail after part of the bytes; later ones then fail at once, as do those after Close
    (contract of net.Conn without deadlines).  Writes of different goroutines are not interleaved. *)
Record conn : Type := mkConn { c_out : buf; c_broken : bool; c_closed : bool }.

(** the errors that the methods return *)
Inductive ferr : Type := FNoCallback | FAlready | FDial | FNotRunning | FWrite | FClosed.

Inductive call : Type := CSend (pkt : list buf) | COpen | CClose.

(** where a goroutine is: before the given step *)
Inductive pc : Type :=
| SndCheck (pkt : list buf)        (* running.Load, 104 *)
| SndLock (pkt : list buf)         (* sendMut.Lock, 107 *)
| SndWrite (rest : list buf)       (* the loop, 109-114: conn.Write of the first of the rest *)
| SndUnlock (e : option ferr)      (* the deferred Unlock, 108 *)
| OpnCallback | OpnCheck           (* 77, 80 *)
| OpnDial                          (* 83 *)
| OpnStore (c : nat)               (* 87 *)
| OpnRunning | OpnGo               (* 88, 89 *)
| ClsCheck | ClsStore | ClsClose   (* 94, 97, 98 *)
| RunStart                         (* 28 *)
| RunTest (c : option nat)         (* 29 *)
| RunRead (c : option nat)         (* 30-64 *)
| RunErr                           (* 32, 42, 57 *)
| RunStop | RunClear               (* 72, 73 *)
| Ret (e : option ferr).

(** a goroutine in a call, or in Run ([None]) *)
Record thread : Type := mkTh { th_call : option call; th_pc : pc }.

Record face : Type := mkFace {
  f_callbacks : bool;          (* onPkt and onError are set *)
  f_conn : option nat;         (* the index of conn; None is nil *)
  f_running : bool;
  f_lock : option nat;         (* who holds sendMut *)
  f_conns : list conn;         (* all connections made so far *)
  f_threads : list thread
}.

(** NewStreamFace, 132-142 *)
Definition face_new : face := mkFace false None false None [] [].

(** What comes from outside in a step: a Write works, or fails after [k] bytes; a Dial works or
    fails; a round of Run reads a packet that onPkt accepts, or fails, or onPkt refuses it *)
Inductive outcome : Type := Works | Fails (k : nat) | Refuses.

Inductive label : Type :=
| LSet                             (* SetCallback, 126-130 *)
| LCall (c : call)                 (* a goroutine makes a call *)
| LStep (t : nat) (o : outcome).   (* goroutine t makes a step *)

Definition start_pc (c : call) : pc :=
  match c with CSend pkt => SndCheck pkt | COpen => OpnCallback | CClose => ClsCheck end.

Fixpoint set_nth {A} (l : list A) (n : nat) (x : A) : list A :=
  match l, n with
  | [], _ => []
  | _ :: l', O => x :: l'
  | y :: l', S k => y :: set_nth l' k x
  end.

Definition at_pc (s : face) (t : nat) (c : option call) (p : pc) : face :=
  mkFace (f_callbacks s) (f_conn s) (f_running s) (f_lock s) (f_conns s) (set_nth (f_threads s) t (mkTh c p)).
Definition with_conn (s : face) (c : option nat) : face :=
  mkFace (f_callbacks s) c (f_running s) (f_lock s) (f_conns s) (f_threads s).
Definition with_running (s : face) (b : bool) : face :=
  mkFace (f_callbacks s) (f_conn s) b (f_lock s) (f_conns s) (f_threads s).
Definition with_lock (s : face) (l : option nat) : face :=
  mkFace (f_callbacks s) (f_conn s) (f_running s) l (f_conns s) (f_threads s).
Definition with_conns (s : face) (cs : list conn) : face :=
  mkFace (f_callbacks s) (f_conn s) (f_running s) (f_lock s) cs (f_threads s).
Definition with_thread (s : face) (th : thread) : face :=
  mkFace (f_callbacks s) (f_conn s) (f_running s) (f_lock s) (f_conns s) (f_threads s ++ [th]).

(** net.Conn.Write of [b] on connection [c]: the connections afterwards, and whether it worked *)
Definition write (cs : list conn) (c : nat) (b : buf) (o : outcome) : list conn * bool :=
  match nth_error cs c with
  | None => (cs, false)
  | Some x =>
      if c_broken x || c_closed x then (cs, false) else
      match o with
      | Fails k => (set_nth cs c (mkConn (c_out x ++ firstn k b) true false), false)
      | _ => (set_nth cs c (mkConn (c_out x ++ b) false false), true)
      end
  end.

(** net.Conn.Close; a second one returns an error *)
Definition close_conn (cs : list conn) (c : nat) : list conn :=
  match nth_error cs c with
  | None => cs
  | Some x => set_nth cs c (mkConn (c_out x) (c_broken x) true)
  end.

(** a read fails on a connection that was closed *)
Definition is_closed (cs : list conn) (c : nat) : bool :=
  match nth_error cs c with Some x => c_closed x | None => true end.

(** One step of goroutine [t], which is in call [c] (transports.go 27-116).  A method of a nil conn
    panics.  onError returns the error (Engine.onError, default_engine.go 342-346). *)
Definition t_step (s : face) (t : nat) (c : option call) (p : pc) (o : outcome) : res face :=
  let goto q := Ok (at_pc s t c q) in
  match p with
  | SndCheck pkt => if f_running s then goto (SndLock pkt) else goto (Ret (Some FNotRunning))
  | SndLock pkt =>
      match f_lock s with
      | None => Ok (at_pc (with_lock s (Some t)) t c (SndWrite pkt))
      | Some _ => Ok s
      end
  | SndWrite [] => goto (SndUnlock None)
  | SndWrite (b :: rest) =>
      match f_conn s with
      | None => Panic
      | Some i =>
          let '(cs, ok) := write (f_conns s) i b o in
          Ok (at_pc (with_conns s cs) t c (if ok then SndWrite rest else SndUnlock (Some FWrite)))
      end
  | SndUnlock e => Ok (at_pc (with_lock s None) t c (Ret e))
  | OpnCallback => if f_callbacks s then goto OpnCheck else goto (Ret (Some FNoCallback))
  | OpnCheck => match f_conn s with Some _ => goto (Ret (Some FAlready)) | None => goto OpnDial end
  | OpnDial =>
      match o with
      | Works => Ok (at_pc (with_conns s (f_conns s ++ [mkConn [] false false])) t c (OpnStore (length (f_conns s))))
      | _ => goto (Ret (Some FDial))
      end
  | OpnStore i => Ok (at_pc (with_conn s (Some i)) t c OpnRunning)
  | OpnRunning => Ok (at_pc (with_running s true) t c OpnGo)
  | OpnGo => Ok (with_thread (at_pc s t c (Ret None)) (mkTh None RunStart))
  | ClsCheck => match f_conn s with Some _ => goto ClsStore | None => goto (Ret (Some FNotRunning)) end
  | ClsStore => Ok (at_pc (with_running s false) t c ClsClose)
  | ClsClose =>
      match f_conn s with
      | None => Panic
      | Some i => Ok (at_pc (with_conns s (close_conn (f_conns s) i)) t c (Ret (if is_closed (f_conns s) i then Some FClosed else None)))
      end
  | RunStart => goto (RunTest (f_conn s))
  | RunTest i => if f_running s then goto (RunRead i) else goto RunStop
  | RunRead None => Panic
  | RunRead (Some i) =>
      if is_closed (f_conns s) i then goto RunErr else
      match o with
      | Works => goto (RunTest (Some i))
      | Fails _ => goto RunErr
      | Refuses => goto RunStop
      end
  | RunErr => goto RunStop
  | RunStop => Ok (at_pc (with_running s false) t c RunClear)
  | RunClear => Ok (at_pc (with_conn s None) t c (Ret None))
  | Ret _ => Ok s
  end.

Definition f_step (s : face) (l : label) : res face :=
  match l with
  | LSet => Ok (mkFace true (f_conn s) (f_running s) (f_lock s) (f_conns s) (f_threads s))
  | LCall c => Ok (with_thread s (mkTh (Some c) (start_pc c)))
  | LStep t o =>
      match nth_error (f_threads s) t with
      | None => Ok s
      | Some th => t_step s t (th_call th) (th_pc th) o
      end
  end.

(** a schedule *)
Fixpoint f_run (s : face) (ls : list label) : res face :=
  match ls with
  | [] => Ok s
  | l :: ls' => bind (f_step s l) (fun s' => f_run s' ls')
  end.
