(** Locks of the engine, of schema trees and of sync nodes, and the goroutines that use them.

    What the calls compute is the subject of other files (EngineModel, FibModel, AttachModel,
    StoreModel, SnModel, FaceModel); here only the order in which locks are taken and released,
    channels are filled and goroutines are started matters.  Which callbacks a packet calls is
    arbitrary. *)
From Verif Require Import Base.

(** The locks, with the number of the object: of a tree (tree.go 17, sync.RWMutex), of an SvSync (pkg/sync/svs.go 30), of a sync node (svs/sync.go 48), of the
    pending Interests and of the handlers (default_engine.go 59-60), of a MemStoragePolicy
    (basic_policies.go 105, sync.RWMutex), of sending (transports.go 24), of a dummy timer
    (dummy/timer.go 20; the timer of package basic has none). *)
Inductive lk : Type :=
| LTree (n : nat) | LSvs (n : nat) | LData (n : nat) | LPit (n : nat)
| LFib (n : nat) | LStore (n : nat) | LSend (n : nat) | LTimer (n : nat).
Definition lk_num (l : lk) : nat :=
  match l with LTree _ => 0 | LSvs _ => 1 | LData _ => 2 | LPit _ => 3 | LFib _ => 4 | LStore _ => 5 | LSend _ => 6 | LTimer _ => 7 end.
Definition lk_obj (l : lk) : nat :=
  match l with LTree n | LSvs n | LData n | LPit n | LFib n | LStore n | LSend n | LTimer n => n end.
Definition lk_eqb (a b : lk) : bool := (lk_num a =? lk_num b)%nat && (lk_obj a =? lk_obj b)%nat.

(** What a goroutine does.  [OAcq] announces that a lock is wanted for writing and then is
    [OWant]: as long as somebody waits so, sync.RWMutex lets no new reader in.  sync.Mutex has no
    readers. *)
Inductive lop : Type :=
| OAcq (l : lk) | OWant (l : lk) | ORel (l : lk)
| ORAcq (l : lk) | ORRel (l : lk)
| OPush (d : nat) | OPop (d : nat) (* the channel of missing data of sync node d, of bounded size *)
| OGo (p : list lop)               (* go func() *)
| OCall (p : list lop)             (* start a goroutine and wait for its end: the channel it writes its result to *)
| OJoin (j : nat).                 (* wait for the end of goroutine j *)

(** a goroutine: the locks it holds (true: for writing) and what is left to do *)
Record gr : Type := mkG { g_held : list (lk * bool); g_code : list lop }.
(** in [l_ch] each thing that is in a channel stands with the number of its channel *)
Record lst : Type := mkL { l_gs : list gr; l_ch : list nat }.

Definition in_chan (d : nat) (c : list nat) : nat := List.length (filter (Nat.eqb d) c).
Fixpoint take (d : nat) (c : list nat) : option (list nat) :=
  match c with
  | [] => None
  | x :: r => if (d =? x)%nat then Some r else match take d r with Some r' => Some (x :: r') | None => None end
  end.

Definition holds (l : lk) (g : gr) : bool := existsb (fun h => lk_eqb (fst h) l) (g_held g).
Definition holds_w (l : lk) (g : gr) : bool := existsb (fun h => lk_eqb (fst h) l && snd h) (g_held g).
Definition wants (l : lk) (g : gr) : bool :=
  match g_code g with OWant l' :: _ => lk_eqb l' l | _ => false end.

Fixpoint drop (l : lk) (w : bool) (h : list (lk * bool)) : list (lk * bool) :=
  match h with
  | [] => []
  | (l', w') :: r => if lk_eqb l' l && Bool.eqb w' w then r else (l', w') :: drop l w r
  end.

Fixpoint gput (l : list gr) (i : nat) (g : gr) : list gr :=
  match l, i with [], _ => [] | _ :: r, O => g :: r | x :: r, S i' => x :: gput r i' g end.

Section Run.
  (** size of the channels *)
  Variable cap : nat.

  (** a step of goroutine [i]; None: it has to wait, or has ended *)
  Definition gstep (s : lst) (i : nat) : option lst :=
    match nth_error (l_gs s) i with
    | None => None
    | Some g =>
        let go h c := gput (l_gs s) i (mkG h c) in
        match g_code g with
        | [] => None
        | OAcq l :: r => Some (mkL (go (g_held g) (OWant l :: r)) (l_ch s))
        | OWant l :: r =>
            if existsb (holds l) (l_gs s) then None else Some (mkL (go ((l, true) :: g_held g) r) (l_ch s))
        | ORel l :: r => Some (mkL (go (drop l true (g_held g)) r) (l_ch s))
        | ORAcq l :: r =>
            if existsb (holds_w l) (l_gs s) || existsb (wants l) (l_gs s) then None
            else Some (mkL (go ((l, false) :: g_held g) r) (l_ch s))
        | ORRel l :: r => Some (mkL (go (drop l false (g_held g)) r) (l_ch s))
        | OPush d :: r => if (in_chan d (l_ch s) <? cap)%nat then Some (mkL (go (g_held g) r) (d :: l_ch s)) else None
        | OPop d :: r => match take d (l_ch s) with None => None | Some c => Some (mkL (go (g_held g) r) c) end
        | OGo p :: r => Some (mkL (go (g_held g) r ++ [mkG [] p]) (l_ch s))
        | OCall p :: r =>
            Some (mkL (go (g_held g) (OJoin (List.length (l_gs s)) :: r) ++ [mkG [] p]) (l_ch s))
        | OJoin j :: r =>
            match nth_error (l_gs s) j with
            | Some g' => match g_code g' with [] => Some (mkL (go (g_held g) r) (l_ch s)) | _ => None end
            | None => None
            end
        end
    end.

  (** goroutine [i]; somebody who holds no lock takes something from channel [d] *)
  Definition lstep (s : lst) (e : nat + nat) : option lst :=
    match e with
    | inl i => gstep s i
    | inr d => match take d (l_ch s) with None => None | Some c => Some (mkL (l_gs s) c) end
    end.

  Fixpoint lrun (s : lst) (sched : list (nat + nat)) : option lst :=
    match sched with
    | [] => Some s
    | e :: r => match lstep s e with Some s' => lrun s' r | None => None end
    end.
End Run.

(** ** The calls *)

(** Calls of the API, and what the library does when something arrives.  User code is a list of
    calls.  The numbers are those of the objects concerned: e an engine (with its face and timer), t a
    tree, s a storage, d a sync node, y an SvSync. *)
Inductive call : Type :=
| KExpress (e : nat)                          (* Engine.Express, default_engine.go 371-449 *)
| KSend (e : nat)                             (* Reply, default_engine.go 233-257; Face.Send *)
| KAttachHandler (e : nat) | KDetachHandler (e : nat)   (* default_engine.go 85-110 *)
| KResult (e : nat) (cbs : list (list call))  (* onData 266-317, onNack 320-340, timeoutFunc 403-427: for each
                                       entry cancel its timer, call its callback *)
| KInterest (e : nat) (h : list call)         (* onInterest 195-264 with a handler of the user *)
| KTreeInterest (t e : nat) (h : list call)     (* onInterest with intHandler, tree.go 75-90 *)
| KTreeAttach (t e : nat) (ls : list call)      (* Tree.Attach, tree.go 31-54; the attach listeners *)
| KTreeDetach (t e : nat) (ls : list call)      (* Tree.Detach, tree.go 57-67 *)
| KPutNode (t : nat)                          (* Tree.PutNode, tree.go 96-117 *)
| KRLock (t : nat) (c : list call)            (* code between Tree.RLock and Tree.RUnlock, tree.go 120-127 *)
| KSearch (s : nat) | KSave (s : nat)                   (* MemStoragePolicy.Get, Put, basic_policies.go 115-157 *)
| KSyncInt (d e n : nat)                (* onSyncInt with n new entries, svs/sync.go 111-203 *)
| KSyncTimer (d s e : nat)                        (* onSyncTimer, svs/sync.go 228-250 *)
| KNewData (d s e : nat)                          (* NewData, svs/sync.go 266-291, with storage *)
| KNodeAttach (d e : nat) | KNodeDetach (d e : nat)         (* onAttach, onDetach of a sync node, svs/sync.go 293-341: calls made
                                       by the listeners of a tree; that onAttach makes a new lock and
                                       the channel of stopping are left out *)
| KSvIncr (y e : nat)                           (* SvSync.IncrSeqNo, SetSeqNo, pkg/sync/svs.go 117-156 *)
| KSvGet (y : nat)                            (* SvSync.GetSeqNo *)
| KSvTick (y e : nat)                           (* timerExpired, svs.go 247-272 *)
| KSvInterest (y e : nat) (ups : list call)     (* the handler of SvSync, svs.go 77-79, and main 91-105 when it takes the
                                       vector from the queue, onReceiveStateVector 166-245; the calls of
                                       onUpdate.  Each vector is handled by a goroutine of its own: the code
                                       has one for all of them, which can only wait more *)
| KCommand (e : nat)                          (* ExecMgmtCmd, RegisterRoute, UnregisterRoute, default_engine.go 451-535: the
                                       goroutine that brings the result is that of the timer or that of the
                                       face; the callback holds pitLock when it writes to the channel.  That
                                       it waits there while the Interest is still being sent is left out *)
| KFetch (s e : nat) (v : list call)            (* reading the channel of NeedChan, expressing_point.go 338-365: the result is
                                       worked on by a goroutine (263-322) that calls the validators v, of which
                                       there are none after a timeout, and saves what is valid *)
| KMove (e : nat) (fs : list call)            (* MoveForward of a dummy timer, dummy/timer.go 38-62; the functions due *)
| KTake (d : nat)                             (* reading the channel of missing data *)
| KGo (c : list call).              (* go func() *)

Definition lock_ (l : lk) (c : list lop) : list lop := OAcq l :: c ++ [ORel l].
Definition rlock (l : lk) (c : list lop) : list lop := ORAcq l :: c ++ [ORRel l].

(** Express holds pitLock while it puts the Interest into the table; the packet is sent afterwards.
    Writing to the connection takes the lock of sending (only StreamFace has it). *)
Definition send_ops (e : nat) : list lop := lock_ (LSend e) [].
Definition express_ops (e : nat) : list lop := lock_ (LPit e) (lock_ (LTimer e) []) ++ send_ops e.
(** Need of a node: search the storage, express; Provide: put into the storage *)
Definition need_ops (s e : nat) : list lop := rlock (LStore s) [] ++ express_ops e.
(** sendSyncInterest of SvSync, svs.go 274-315 *)
Definition sv_send_ops (y e : nat) : list lop := lock_ (LSvs y) [] ++ express_ops e.

Fixpoint ops (c : call) : list lop :=
  let code l := flat_map ops l in
  match c with
  | KExpress e => express_ops e
  | KSend e => send_ops e
  | KAttachHandler e | KDetachHandler e => lock_ (LFib e) []
  | KResult e cbs => lock_ (LPit e) (flat_map (fun cb => lock_ (LTimer e) [] ++ flat_map ops cb) cbs)
  | KInterest e h => lock_ (LFib e) [] ++ code h
  | KTreeInterest t e h => lock_ (LFib e) [] ++ rlock (LTree t) (code h)
  | KTreeAttach t e ls => lock_ (LTree t) (code ls ++ lock_ (LFib e) [])
  | KTreeDetach t e ls => lock_ (LTree t) (lock_ (LFib e) [] ++ code ls)
  | KPutNode t => lock_ (LTree t) []
  | KRLock t c => rlock (LTree t) (code c)
  | KSearch s => rlock (LStore s) []
  | KSave s => lock_ (LStore s) []
  | KSyncInt d e n => lock_ (LData d) (repeat (OPush d) n ++ lock_ (LTimer e) [] ++ lock_ (LTimer e) [])
  | KSyncTimer d s e => lock_ (LData d) (need_ops s e ++ lock_ (LTimer e) [] ++ lock_ (LTimer e) [])
  | KNewData d s e => lock_ (LData d) (lock_ (LStore s) [] ++ need_ops s e)
  | KNodeAttach d e | KNodeDetach d e => lock_ (LData d) (lock_ (LTimer e) [])
  | KSvIncr y e | KSvTick y e => lock_ (LSvs y) [OGo (sv_send_ops y e)]
  | KSvGet y => lock_ (LSvs y) []
  | KSvInterest y e ups => lock_ (LFib e) [] ++ [OGo (lock_ (LSvs y) (code ups))]
  | KCommand e => express_ops e ++ [OCall (lock_ (LPit e) (lock_ (LTimer e) []))]
  | KFetch s e v => need_ops s e ++ [OCall (lock_ (LPit e) (lock_ (LTimer e) []) ++ code v ++ lock_ (LStore s) [])]
  | KMove e fs => lock_ (LTimer e) [] ++ code fs ++ lock_ (LTimer e) []
  | KTake d => [OPop d]
  | KGo c => [OGo (code c)]
  end.

Definition program (l : list call) : list lop := flat_map ops l.

(** goroutines that start at the same time *)
Definition starting (gs : list (list call)) : lst := mkL (map (fun l => mkG [] (program l)) gs) [].
