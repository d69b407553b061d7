(** pkg/engine/basic/wasmws.go, wasmsim.go: the faces of programs that run in a browser.

    JavaScript runs one thing at a time, and so does Go there: a call is one event, except that Open waits for the
    connection, and that a message is handled by user code (onPkt) that may take its time.  A WebSocket of the browser
    is connecting, open or closed; send throws an exception while it is connecting (a panic in Go) and discards what it
    is given once it is closed; messages come only while it is open.  onError is never called by these files. *)
From Verif Require Import Base ReaderModel.

(** what a call returns; [ROff]: the event is not possible now; [RWait]: Open waits *)
Inductive wout : Type := RNil | RErr | RWait | RPanic | ROff.

Inductive jstate : Type := JConnecting | JOpen | JClosed.
Record jsock : Type := mkJ { j_state : jstate; j_sent : list buf }.

Record wst : Type := mkW {
  w_cb : bool;                       (* SetCallback has been called *)
  w_conn : option nat;               (* f.conn: the number of the WebSocket; null *)
  w_run : bool;                      (* f.running *)
  w_socks : list jsock;              (* the WebSockets made *)
  w_wait : list (nat * bool);        (* calls of Open that wait: for which WebSocket, signalled *)
  w_hand : list nat;                 (* messages being handled: from which WebSocket *)
  w_got : list buf;                  (* what onPkt has been given *)
  w_panic : bool }.
Definition w_new : wst := mkW false None false [] [] [] [] false.

Inductive wev : Type :=
| WSet                               (* SetCallback *)
| WOpen                              (* Open is called *)
| WReturn (i : nat)                  (* the i-th waiting Open returns *)
| WSend (w : wire)                   (* Send *)
| WClose                             (* Close *)
| WDone (i : nat) (err : bool)       (* onPkt returns for the i-th message being handled *)
| JOpened (k : nat)                  (* WebSocket k is connected *)
| JGone (k : nat)                    (* connecting fails, or the other side closes *)
| JMsg (k : nat) (b : option buf).   (* a message: binary or text *)

Definition set_sock (l : list jsock) (k : nat) (f : jsock -> jsock) : list jsock :=
  match nth_error l k with
  | None => l
  | Some j => firstn k l ++ f j :: skipn (S k) l
  end.
Definition sock_state (l : list jsock) (k : nat) : jstate := match nth_error l k with Some j => j_state j | None => JClosed end.
Definition j_close (j : jsock) : jsock := mkJ JClosed (j_sent j).
Definition remove_at {A} (l : list A) (i : nat) : list A := firstn i l ++ skipn (S i) l.

Definition wstep (s : wst) (e : wev) : wst * wout :=
  if w_panic s then (s, ROff) else
  let die := (mkW (w_cb s) (w_conn s) (w_run s) (w_socks s) (w_wait s) (w_hand s) (w_got s) true, RPanic) in
  match e with
  | WSet => (* SetCallback, wasmws.go 101-105 *)
      (mkW true (w_conn s) (w_run s) (w_socks s) (w_wait s) (w_hand s) (w_got s) false, RNil)
  | WOpen => (* Open, 54-77, up to the channel *)
      if negb (w_cb s) then (s, RErr)
      else match w_conn s with
      | Some _ => (s, RErr)
      | None =>
          let k := length (w_socks s) in
          (mkW (w_cb s) (Some k) (w_run s) (w_socks s ++ [mkJ JConnecting []]) (w_wait s ++ [(k, false)]) (w_hand s) (w_got s) false, RWait)
      end
  | WReturn i => (* Open, 77-81 *)
      match nth_error (w_wait s) i with
      | Some (_, true) => (mkW (w_cb s) (w_conn s) true (w_socks s) (remove_at (w_wait s) i) (w_hand s) (w_got s) false, RNil)
      | _ => (s, ROff)
      end
  | WSend w => (* Send, 43-52 *)
      if negb (w_run s) then (s, RErr)
      else match w_conn s with
      | None => die
      | Some k =>
          match sock_state (w_socks s) k with
          | JConnecting => die
          | JOpen => (mkW (w_cb s) (w_conn s) (w_run s) (set_sock (w_socks s) k (fun j => mkJ (j_state j) (j_sent j ++ [concat w]))) (w_wait s) (w_hand s) (w_got s) false, RNil)
          | JClosed => (s, RNil)
          end
      end
  | WClose => (* Close, 83-91 *)
      match w_conn s with
      | None => (s, RErr)
      | Some k => (mkW (w_cb s) None false (set_sock (w_socks s) k j_close) (w_wait s) (w_hand s) (w_got s) false, RNil)
      end
  | WDone i err => (* onMessage, 34-41 *)
      match nth_error (w_hand s) i with
      | None => (s, ROff)
      | Some _ =>
          if err then
            match w_conn s with
            | None => die
            | Some k => (mkW (w_cb s) None false (set_sock (w_socks s) k j_close) (w_wait s) (remove_at (w_hand s) i) (w_got s) false, RNil)
            end
          else (mkW (w_cb s) (w_conn s) (w_run s) (w_socks s) (w_wait s) (remove_at (w_hand s) i) (w_got s) false, RNil)
      end
  | JOpened k => (* the listener of "open", 70-74 *)
      match sock_state (w_socks s) k with
      | JConnecting =>
          (mkW (w_cb s) (w_conn s) (w_run s) (set_sock (w_socks s) k (fun j => mkJ JOpen (j_sent j)))
             (map (fun p => if Nat.eqb (fst p) k then (k, true) else p) (w_wait s)) (w_hand s) (w_got s) false, RNil)
      | _ => (s, ROff)
      end
  | JGone k =>
      match sock_state (w_socks s) k with
      | JClosed => (s, ROff)
      | _ => (mkW (w_cb s) (w_conn s) (w_run s) (set_sock (w_socks s) k j_close) (w_wait s) (w_hand s) (w_got s) false, RNil)
      end
  | JMsg k b => (* onMessage, 25-34 *)
      match sock_state (w_socks s) k with
      | JOpen =>
          match b with
          | None => (s, RNil)
          | Some b => (mkW (w_cb s) (w_conn s) (w_run s) (w_socks s) (w_wait s) (w_hand s ++ [k]) (w_got s ++ [b]) false, RNil)
          end
      | _ => (s, ROff)
      end
  end.
Fixpoint wrun (s : wst) (es : list wev) : wst * list wout :=
  match es with
  | [] => (s, [])
  | e :: es' => let (s1, r) := wstep s e in let (s2, rs) := wrun s1 es' in (s2, r :: rs)
  end.

(** wasmsim.go: faces of a simulator in the same page (the global object gondnsim), which calls one function for the
    packets it sends *)
Record sface : Type := mkF { f_cb : bool; f_sim : bool; f_run : bool }.
Record sst : Type := mkS {
  g_faces : nat -> sface;
  g_holder : option nat;             (* whose onMessage the simulator calls; None: nobody's *)
  g_hand : list nat;                 (* packets being handled: by which face *)
  g_got : list (nat * buf);          (* what the onPkt of a face has been given *)
  g_sent : list (nat * buf);         (* what the simulator has been given, and by which face *)
  g_panic : bool }.
Definition s_new : sst := mkS (fun _ => mkF false false false) None [] [] [] false.
Inductive sev : Type :=
| SSet (i : nat) | SOpen (i : nat) | SSend (i : nat) (w : wire) | SClose (i : nat)
| SMsg (b : option buf)              (* the simulator sends a packet, or something else *)
| SDone (n : nat) (err : bool).      (* onPkt returns for the n-th packet being handled *)
Definition upd (f : nat -> sface) (i : nat) (x : sface) : nat -> sface := fun j => if Nat.eqb j i then x else f j.
Definition sstep (s : sst) (e : sev) : sst * wout :=
  if g_panic s then (s, ROff) else
  match e with
  | SSet i => (mkS (upd (g_faces s) i (mkF true (f_sim (g_faces s i)) (f_run (g_faces s i)))) (g_holder s) (g_hand s) (g_got s) (g_sent s) false, RNil)
  | SOpen i => (* Open, wasmsim.go 47-60 *)
      if negb (f_cb (g_faces s i)) then (s, RErr)
      else if f_sim (g_faces s i) then (s, RErr)
      else (mkS (upd (g_faces s) i (mkF true true true)) (Some i) (g_hand s) (g_got s) (g_sent s) false, RNil)
  | SSend i w => (* Send, 36-45 *)
      if negb (f_run (g_faces s i)) then (s, RErr)
      else if negb (f_sim (g_faces s i)) then (mkS (g_faces s) (g_holder s) (g_hand s) (g_got s) (g_sent s) true, RPanic)
      else (mkS (g_faces s) (g_holder s) (g_hand s) (g_got s) (g_sent s ++ [(i, concat w)]) false, RNil)
  | SClose i => (* Close, 62-72 *)
      if negb (f_sim (g_faces s i)) then (s, RErr)
      else (mkS (upd (g_faces s) i (mkF (f_cb (g_faces s i)) false false)) None (g_hand s) (g_got s) (g_sent s) false, RNil)
  | SMsg b => (* onMessage, 21-29 *)
      match g_holder s, b with
      | Some i, Some b => (mkS (g_faces s) (g_holder s) (g_hand s ++ [i]) (g_got s ++ [(i, b)]) (g_sent s) false, RNil)
      | _, _ => (s, RNil)
      end
  | SDone n err => (* onMessage, 29-34 *)
      match nth_error (g_hand s) n with
      | None => (s, ROff)
      | Some i =>
          let fs := if err then upd (g_faces s) i (mkF (f_cb (g_faces s i)) (f_sim (g_faces s i)) false) else g_faces s in
          (mkS fs (g_holder s) (remove_at (g_hand s) n) (g_got s) (g_sent s) false, RNil)
      end
  end.
Fixpoint srun (s : sst) (es : list sev) : sst * list wout :=
  match es with
  | [] => (s, [])
  | e :: es' => let (s1, r) := sstep s e in let (s2, rs) := srun s1 es' in (s2, r :: rs)
  end.
