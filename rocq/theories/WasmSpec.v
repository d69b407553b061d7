(** What the faces of a browser are for: a face is down, waits for its connection, or is up. *)
From Verif Require Import Base ReaderModel WasmModel.

(** the number of the connection; for [Waiting] whether it has been made, for [Up] whether the other side has closed it *)
Inductive phase : Type := Down | Waiting (k : nat) (made : bool) | Up (k : nat) (gone : bool).
Record ast : Type := mkA {
  a_cb : bool;
  a_phase : phase;
  a_next : nat;                      (* how many connections have been begun *)
  a_hand : list nat;                 (* packets being handled: of which connection *)
  a_sent : list buf;                 (* what the other sides have been sent *)
  a_got : list buf }.
Definition a_new : ast := mkA false Down 0 [] [] [].
Definition a_up (a : ast) : bool := match a_phase a with Up _ _ => true | _ => false end.

(** [None]: outside what is promised: Close, or an error of onPkt, or the end of the connection while Open waits; an
    error of onPkt about a packet of a connection that is not the current one *)
Definition astep (a : ast) (e : wev) : option (ast * wout) :=
  let go p := mkA (a_cb a) p (a_next a) (a_hand a) (a_sent a) (a_got a) in
  match e with
  | WSet => Some (mkA true (a_phase a) (a_next a) (a_hand a) (a_sent a) (a_got a), RNil)
  | WOpen =>
      match a_phase a with
      | Down => if a_cb a then Some (mkA true (Waiting (a_next a) false) (S (a_next a)) (a_hand a) (a_sent a) (a_got a), RWait) else Some (a, RErr)
      | _ => Some (a, RErr)
      end
  | WReturn i =>
      match i, a_phase a with
      | O, Waiting k true => Some (go (Up k false), RNil)
      | _, _ => Some (a, ROff)
      end
  | WSend w =>
      match a_phase a with
      | Up _ false => Some (mkA (a_cb a) (a_phase a) (a_next a) (a_hand a) (a_sent a ++ [concat w]) (a_got a), RNil)
      | Up _ true => Some (a, RNil)
      | _ => Some (a, RErr)
      end
  | WClose => match a_phase a with Up _ _ => Some (go Down, RNil) | Down => Some (a, RErr) | Waiting _ _ => None end
  | WDone i err =>
      match nth_error (a_hand a) i with
      | None => Some (a, ROff)
      | Some k =>
          let a' p := mkA (a_cb a) p (a_next a) (remove_at (a_hand a) i) (a_sent a) (a_got a) in
          if err then match a_phase a with Up k' _ => if Nat.eqb k k' then Some (a' Down, RNil) else None | _ => None end
          else Some (a' (a_phase a), RNil)
      end
  | JOpened k => match a_phase a with Waiting k' false => if Nat.eqb k k' then Some (go (Waiting k true), RNil) else Some (a, ROff) | _ => Some (a, ROff) end
  | JGone k =>
      match a_phase a with
      | Waiting k' _ => if Nat.eqb k k' then None else Some (a, ROff)
      | Up k' false => if Nat.eqb k k' then Some (go (Up k true), RNil) else Some (a, ROff)
      | _ => Some (a, ROff)
      end
  | JMsg k b =>
      match a_phase a with
      | Waiting k' true | Up k' false =>
          if Nat.eqb k k' then
            Some (match b with None => a | Some b => mkA (a_cb a) (a_phase a) (a_next a) (a_hand a ++ [k]) (a_sent a) (a_got a ++ [b]) end, RNil)
          else Some (a, ROff)
      | _ => Some (a, ROff)
      end
  end.
Fixpoint arun (a : ast) (es : list wev) : option (ast * list wout) :=
  match es with
  | [] => Some (a, [])
  | e :: es' =>
      match astep a e with
      | None => None
      | Some (a1, r) => match arun a1 es' with None => None | Some (a2, rs) => Some (a2, r :: rs) end
      end
  end.

(** a WebSocket that may still carry packets *)
Definition alive (s : wst) (k : nat) : Prop := sock_state (w_socks s) k <> JClosed.

(** one face of the simulator: callbacks set, open, the packets that were sent to it while it was open *)
Definition of_face (i : nat) (e : sev) : Prop :=
  match e with SSet j | SOpen j | SSend j _ | SClose j => j = i | SMsg _ | SDone _ _ => True end.
Fixpoint sim_packets (cb opened : bool) (es : list sev) : list buf :=
  match es with
  | [] => []
  | SSet _ :: es' => sim_packets true opened es'
  | SOpen _ :: es' => sim_packets cb (cb || opened) es'
  | SClose _ :: es' => sim_packets cb false es'
  | SMsg (Some b) :: es' => if opened then b :: sim_packets cb opened es' else sim_packets cb opened es'
  | _ :: es' => sim_packets cb opened es'
  end.
(** the packets of the calls of Send that succeeded, whole and in order *)
Fixpoint sim_accepted (es : list sev) (rs : list wout) : list (nat * buf) :=
  match es, rs with
  | SSend i w :: es', RNil :: rs' => (i, concat w) :: sim_accepted es' rs'
  | _ :: es', _ :: rs' => sim_accepted es' rs'
  | _, _ => []
  end.
