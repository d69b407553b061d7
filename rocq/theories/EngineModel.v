(** The pending-Interest half of pkg/engine/basic/default_engine.go.

    Each step below is one critical section under pitLock, so a history is a list of
    steps.  Callbacks run inside the critical section in the code; here they are
    entries of a log and do not call the engine (doing so would deadlock on
    pitLock).  A timer that has fired but whose function still waits for pitLock is
    "in flight": Stop cannot cancel it any more.  Times are in nanoseconds,
    unbounded.  Packet parsing, faces, logging and mustBeFresh (stored but never
    read) are left out; the SHA-256 of a packet comes with the packet. *)
From Verif Require Import Base NameModel TextModel TrieModel.

(** DefaultInterestLife, TimeoutMargin, default_engine.go 21-22 *)
Definition DefaultInterestLife : Z := 4000000000.
Definition TimeoutMargin : Z := 10000000.

(** pendInt, 36-44; the callback is the serial number of the Express call *)
Record pend : Type := mkPend {
  pe_id : nat;
  pe_deadline : Z;
  pe_cbp : bool;
  pe_sha : option buf
}.

(** a scheduled timeoutFunc: the serial number of its Express call, the due time
    and the captured node *)
Record timer : Type := mkTimer { tm_id : nat; tm_due : Z; tm_node : nat }.

Inductive result : Type := RData | RNack (reason : N) | RTimeout.

Record engine : Type := mkEng {
  g_pit : store (list pend);
  g_now : Z;
  g_armed : list timer;
  g_flight : list timer;
  g_next : nat;
  g_log : list (nat * result)
}.

(** NewEngine, 534-551 *)
Definition eng_new : engine := mkEng (new_trie []) 0 [] [] 0 [].

(** timer cancellation, basic/timer.go 21-32 *)
Definition cancel (ids : list nat) (ts : list timer) : list timer :=
  filter (fun t => negb (existsb (Nat.eqb (tm_id t)) ids)) ts.

(** the node name and implicit digest of an Interest name, Express 380-388.  A digest
    component whose value is a nil slice is not told apart from an empty one. *)
Definition split_digest (nm : name) : option (name * option buf) :=
  match rev nm with
  | [] => None
  | c :: r => if (ctyp c =? TypeImplicitSha256Digest)%N then Some (rev r, Some (cval c)) else Some (nm, None)
  end.

(** Express, 370-449, without the sending.  [None] is the error for an empty name. *)
Definition e_express (g : engine) (nm : name) (cbp : bool) (life : option Z) : res (option engine) :=
  match split_digest nm with
  | None => Ok None
  | Some (node_name, sha) =>
      let lifetime := match life with Some l => l | None => DefaultInterestLife end in
      let deadline := (g_now g + lifetime)%Z in
      do hn <- t_always [] (g_pit g) (map comp_str node_name);
      do l <- value (fst hn) (snd hn);
      let id := g_next g in
      do h <- set_value (fst hn) (snd hn) (l ++ [mkPend id deadline cbp sha]);
      Ok (Some (mkEng h (g_now g) (g_armed g ++ [mkTimer id (g_now g + (lifetime + TimeoutMargin))%Z (snd hn)])
                      (g_flight g) (S id) (g_log g)))
  end.

(** Express with the sending, 440-449: the engine afterwards and whether the error it returns is nil; [sent]: the face's
    Send returned nil.  The clock is read once: that time passes between 394 and 434 is not modelled (the timer
    would only be later). *)
Definition e_express_call (g : engine) (nm : name) (cbp : bool) (life : option Z) (sent : bool) : res (engine * bool) :=
  do r <- e_express g nm cbp life; Ok (match r with Some g' => (g', sent) | None => (g, false) end).

(** is a pending Interest at depth [dep] satisfied, onData 280-298 *)
Definition satisfied (dep len : nat) (digest : buf) (e : pend) : bool :=
  negb ((dep <? len)%nat && negb (pe_cbp e)) &&
  match pe_sha e with None => true | Some d => bytes_eqb d digest end.

(** the loop up the parents, onData 274-314: the new store and those satisfied *)
Fixpoint data_loop (fuel : nat) (h : store (list pend)) (cur : nat) (len : nat) (digest : buf) (done : list pend)
  : res (store (list pend) * list pend) :=
  match fuel with
  | O => Hang
  | S f =>
      do x <- get h cur;
      let sat := filter (satisfied (t_dep x) len digest) (t_val x) in
      let kept := filter (fun e => negb (satisfied (t_dep x) len digest e)) (t_val x) in
      do h' <- (if (length (t_val x) =? 0)%nat then Ok h else set_value h cur kept);
      match t_par x with
      | Some p => data_loop f h' p len digest (done ++ sat)
      | None => Ok (h', done ++ sat)
      end
  end.

Definition is_nil {A} (l : list A) : bool := (length l =? 0)%nat.

(** onData, 266-318 *)
Definition e_data (g : engine) (nm : name) (digest : buf) : res engine :=
  do n <- t_prefix (g_pit g) (map comp_str nm);
  do r <- data_loop (S (length (g_pit g))) (g_pit g) n (length nm) digest [];
  do h <- t_delete_if is_nil (fst r) n;
  let ids := map pe_id (snd r) in
  Ok (mkEng h (g_now g) (cancel ids (g_armed g)) (g_flight g) (g_next g)
            (g_log g ++ map (fun i => (i, RData)) ids)).

(** onNack, 320-340 *)
Definition e_nack (g : engine) (nm : name) (reason : N) : res engine :=
  do n <- t_exact (g_pit g) (map comp_str nm);
  match n with
  | None => Ok g
  | Some n =>
      do l <- value (g_pit g) n;
      do h <- t_delete (g_pit g) n;
      let ids := map pe_id l in
      Ok (mkEng h (g_now g) (cancel ids (g_armed g)) (g_flight g) (g_next g)
                (g_log g ++ map (fun i => (i, RNack reason)) ids))
  end.

(** timeoutFunc, 403-427, on the captured node *)
Definition e_timeout (g : engine) (n : nat) : res engine :=
  do l <- value (g_pit g) n;
  let kept := filter (fun e => (g_now g <? pe_deadline e)%Z) l in
  let ids := map pe_id (filter (fun e => negb (g_now g <? pe_deadline e)%Z) l) in
  do h1 <- set_value (g_pit g) n kept;
  do h2 <- t_delete_if is_nil h1 n;
  Ok (mkEng h2 (g_now g) (g_armed g) (g_flight g) (g_next g) (g_log g ++ map (fun i => (i, RTimeout)) ids)).

(** histories *)
Inductive eop : Type :=
| EExpress (nm : name) (cbp : bool) (life : option Z)
| EData (nm : name) (digest : buf)
| ENack (nm : name) (reason : N)
| ETick (d : N)                  (* time passes *)
| EFire (id : nat)               (* a due timer fires: its goroutine starts *)
| ERun (id : nat).               (* that goroutine gets pitLock *)

Definition with_id (id : nat) (t : timer) : bool := Nat.eqb (tm_id t) id.

Definition e_step (g : engine) (o : eop) : res engine :=
  match o with
  | EExpress nm cbp life => do r <- e_express g nm cbp life; Ok (match r with Some g' => g' | None => g end)
  | EData nm digest => e_data g nm digest
  | ENack nm reason => e_nack g nm reason
  | ETick d => Ok (mkEng (g_pit g) (g_now g + Z.of_N d) (g_armed g) (g_flight g) (g_next g) (g_log g))
  | EFire id =>
      match find (with_id id) (g_armed g) with
      | Some t => if (tm_due t <=? g_now g)%Z
                  then Ok (mkEng (g_pit g) (g_now g) (cancel [id] (g_armed g)) (g_flight g ++ [t]) (g_next g) (g_log g))
                  else Ok g
      | None => Ok g
      end
  | ERun id =>
      match find (with_id id) (g_flight g) with
      | Some t => e_timeout (mkEng (g_pit g) (g_now g) (g_armed g) (cancel [id] (g_flight g)) (g_next g) (g_log g)) (tm_node t)
      | None => Ok g
      end
  end.

Fixpoint e_run (g : engine) (os : list eop) : res engine :=
  match os with
  | [] => Ok g
  | o :: os' => do g' <- e_step g o; e_run g' os'
  end.
