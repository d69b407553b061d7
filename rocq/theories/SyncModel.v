(** pkg/sync/svs.go: State Vector Sync.

    Every method that holds the mutex is one step; a history is any sequence of steps.  The
    goroutines started with [go s.sendSyncInterest()] are counted in [s_pending]: each of them
    runs its critical section as a separate, later step.  Ticks of the ticker are steps that may
    come at any time; the intervals passed to ticker.Reset are not modelled.  [s_updates] and
    [s_sent] record the calls of onUpdate and the state vectors encoded into Sync Interests.
    Go maps are association lists; their iteration order is only used in loops whose result
    does not depend on it. *)
From Verif Require Import Base PrimModel ReaderModel NameModel CodecModel CodecLib.

Fixpoint mget {A} (k : N) (m : list (N * A)) : option A :=
  match m with
  | [] => None
  | (j, v) :: m' => if (j =? k)%N then Some v else mget k m'
  end.
Fixpoint mset {A} (k : N) (v : A) (m : list (N * A)) : list (N * A) :=
  match m with
  | [] => [(k, v)]
  | (j, x) :: m' => if (j =? k)%N then (k, v) :: m' else (j, x) :: mset k v m'
  end.
(** m[k] of a map of numbers: 0 if absent *)
Definition num (k : N) (m : list (N * N)) : N := match mget k m with Some v => v | None => 0%N end.

(** a state vector: NodeId and SeqNo of its entries *)
Definition svec : Type := list (name * N).

(** SvSync, 18-39 *)
Record svs : Type := mkSvs {
  s_state : list (N * N); s_names : list (N * name); s_mtime : list (N * Z);
  s_suppress : bool; s_merge : list (N * N);
  s_running : bool; s_pending : nat;
  s_updates : list (name * N * N); (* NodeId, Low, High *)
  s_sent : list svec }.

(** NewSvSync, 47-74 *)
Definition svs_new : svs := mkSvs [] [] [] false [] false 0 [] [].

Definition SuppressionPeriod : Z := 200000000. (* 62 *)
(** time.Time{} in nanoseconds since 1970 *)
Definition zero_time : Z := (-62135596800000000000)%Z.

Section Sync.
  (** Name.Hash *)
  Variable hash : name -> N.

  (** hashName, 158-164, returns Hash() *)
  Definition hash_name (n : name) (s : svs) : svs :=
    match mget (hash n) (s_names s) with
    | Some _ => s
    | None => mkSvs (s_state s) (mset (hash n) n (s_names s)) (s_mtime s) (s_suppress s) (s_merge s) (s_running s) (s_pending s) (s_updates s) (s_sent s)
    end.

  Definition with_state (x : list (N * N)) (s : svs) : svs := mkSvs x (s_names s) (s_mtime s) (s_suppress s) (s_merge s) (s_running s) (s_pending s) (s_updates s) (s_sent s).
  Definition with_suppress (x : bool) (m : list (N * N)) (s : svs) : svs := mkSvs (s_state s) (s_names s) (s_mtime s) x m (s_running s) (s_pending s) (s_updates s) (s_sent s).
  Definition with_running (x : bool) (s : svs) : svs := mkSvs (s_state s) (s_names s) (s_mtime s) (s_suppress s) (s_merge s) x (s_pending s) (s_updates s) (s_sent s).
  Definition with_pending (x : nat) (s : svs) : svs := mkSvs (s_state s) (s_names s) (s_mtime s) (s_suppress s) (s_merge s) (s_running s) x (s_updates s) (s_sent s).
  Definition with_sent (x : list svec) (s : svs) : svs := mkSvs (s_state s) (s_names s) (s_mtime s) (s_suppress s) (s_merge s) (s_running s) (s_pending s) (s_updates s) x.

  (** SetSeqNo, 117-134: whether it succeeds *)
  Definition set_seq (n : name) (v : N) (s : svs) : bool * svs :=
    let s := hash_name n s in
    if (v <=? num (hash n) (s_state s))%N then (false, s)
    else (true, with_pending (S (s_pending s)) (with_state (mset (hash n) v (s_state s)) s)).

  (** GetSeqNo, 136-141 *)
  Definition get_seq (n : name) (s : svs) : N * svs :=
    let s := hash_name n s in (num (hash n) (s_state s), s).

  (** IncrSeqNo, 143-156 *)
  Definition incr_seq (n : name) (s : svs) : N * svs :=
    let s := hash_name n s in
    let v := ((num (hash n) (s_state s) + 1) mod two64)%N in
    (v, with_pending (S (s_pending s)) (with_state (mset (hash n) v (s_state s)) s)).

  (** enterSteadyState, 357-361 *)
  Definition steady (s : svs) : svs := with_suppress false (s_merge s) s.

  (** the loop over the entries, 174-213: the state, isOutdated, canDrop and the keys of recvSet.  Each
      entry comes with the time that time.Now() returns while it is treated. *)
  Definition recv_entry (e : name * N * Z) (x : svs * bool * bool * list N) : svs * bool * bool * list N :=
    let '(n, v, now) := e in
    let '(s, out, drop, rs) := x in
    let s := hash_name n s in
    let h := hash n in
    let prev := num h (s_state s) in
    let '(s, out, drop) :=
      if (prev <? v)%N then
        (mkSvs (mset h v (s_state s)) (s_names s) (mset h now (s_mtime s)) (s_suppress s) (s_merge s) (s_running s) (s_pending s)
           (s_updates s ++ [(n, ((prev + 1) mod two64)%N, v)]) (s_sent s), out, drop)
      else if (v <? prev)%N then
        (s, true, if (match mget h (s_mtime s) with Some t => t | None => zero_time end + SuppressionPeriod <? now)%Z then false else drop)
      else (s, out, drop) in
    let s := if s_suppress s then if (num h (s_merge s) <? v)%N then with_suppress true (mset h v (s_merge s)) s else s else s in
    (s, out, drop, h :: rs).

  (** onReceiveStateVector, 166-245 *)
  Definition recv (es : list (name * N * Z)) (s : svs) : svs :=
    let '(s, out, drop, rs) := fold_left (fun x e => recv_entry e x) es (s, false, true, []) in
    let '(out, drop) :=
      if out then (out, drop)
      else if existsb (fun kv => negb (existsb (N.eqb (fst kv)) rs)) (s_state s) then (true, false)
      else (out, drop) in
    if negb out then steady s
    else if drop || s_suppress s then s
    else with_suppress true [] s.

  (** timerExpired, 247-272 *)
  Definition timer_expired (s : svs) : svs :=
    if s_suppress s && negb (existsb (fun kv => (num (fst kv) (s_merge s) <? snd kv)%N) (s_state s)) then steady s
    else with_pending (S (s_pending s)) s.

  (** sort.Slice with NodeId.Compare, 345-347.  The sorting algorithm does not matter: the names
      are different, there is only one sorted order. *)
  Fixpoint insert_entry (e : name * N) (l : svec) : svec :=
    match l with
    | [] => [e]
    | x :: l' => if (name_compare (fst e) (fst x) <? 0)%Z then e :: l else x :: insert_entry e l'
    end.
  Definition sort_entries (l : svec) : svec := fold_right insert_entry [] l.

  (** the entries built by encodeSv, 335-347 *)
  Definition vector (s : svs) : svec :=
    sort_entries (map (fun kv => (match mget (fst kv) (s_names s) with Some n => n | None => [] end, snd kv)) (s_state s)).

  (** sendSyncInterest, 274-288, in one of the goroutines *)
  Definition send (s : svs) : svs :=
    match s_pending s with
    | O => s
    | S k =>
        let s := with_pending k s in
        if s_running s then let s := steady s in with_sent (s_sent s ++ [vector s]) s else s
    end.

  (** the steps; Start (76-88) starts a send, main (90-104) sets running and Stop (106-115) ends it *)
  Inductive sop : Type :=
  | OSet (n : name) (v : N) | OIncr (n : name) | OGet (n : name)
  | ORecv (es : list (name * N * Z)) | OTimer | OSend | OStart | OMain | OStop.

  Definition s_step (s : svs) (o : sop) : svs :=
    match o with
    | OSet n v => snd (set_seq n v s)
    | OIncr n => snd (incr_seq n s)
    | OGet n => snd (get_seq n s)
    | ORecv es => recv es s
    | OTimer => timer_expired s
    | OSend => send s
    | OStart => with_pending (S (s_pending s)) s
    | OMain => with_running true s
    | OStop => with_running false s
    end.
  Definition s_run (s : svs) (os : list sop) : svs := fold_left s_step os s.
End Sync.

(** ** On the wire *)
Definition v_entry (e : name * N) : value := VStruct [VName (fst e); VNat (snd e)].
(** params.Encode(), 349-353 *)
Definition encode_sv (v : svec) : res wire :=
  do r <- m_encode (mkEP 0 false) sync_StateVectorAppParam [VStruct [VSeq (map v_entry v)]]; Ok (fst r).

Definition g_entry (v : value) : name * N :=
  match v with
  | VStruct [VName n; VNat x] => (n, x)
  | VStruct [_; VNat x] => ([], x)
  | _ => ([], 0%N)
  end.
(** onSyncInterest, 314-332, on the application parameters of the Interest: the vector put into the
    channel, if any.  [F] is the fuel of the parser. *)
Definition on_sync (F : nat) (param : option wire) : res (option svec) :=
  match param with
  | None => Ok None
  | Some w =>
      match m_parse F sync_StateVectorAppParam false (new_wire_reader [concat w]) with
      | Ok ([VStruct [VSeq l]], _) => Ok (Some (map g_entry l))
      | Ok _ => Ok None
      | Err _ => Ok None
      | Panic => Panic
      | Hang => Hang
      end
  end.

(** ** The channel and the goroutines of onSyncInterest *)
Record sproc : Type := mkProc {
  p_flight : list svec;   (* goroutines about to put a vector into the channel, 331 *)
  p_chan : list svec; p_closed : bool; p_main : bool }.
Inductive pop : Type :=
| PArrive (v : svec)  (* the handler of the engine starts a goroutine, 77-79 *)
| PPush (k : nat)     (* one of them continues *)
| PTake               (* main takes a vector, 98 *)
| PMain               (* main starts *)
| PStop.              (* Stop, 106-115 *)

(** [Hang] is a Stop that waits for ever for main. *)
Definition p_step (p : sproc) (o : pop) : res sproc :=
  match o with
  | PArrive v => Ok (mkProc (p_flight p ++ [v]) (p_chan p) (p_closed p) (p_main p))
  | PPush k =>
      match nth_error (p_flight p) k with
      | None => Ok p
      | Some v =>
          if p_closed p then Panic (* send on closed channel *)
          else if (128 <=? length (p_chan p))%nat then Ok p (* blocked, 72 *)
          else Ok (mkProc (firstn k (p_flight p) ++ skipn (S k) (p_flight p)) (p_chan p ++ [v]) false (p_main p))
      end
  | PTake => if p_main p then Ok (mkProc (p_flight p) (tl (p_chan p)) (p_closed p) true) else Ok p
  | PMain => Ok (mkProc (p_flight p) (p_chan p) (p_closed p) true)
  | PStop =>
      if p_main p then if p_closed p then Panic else Ok (mkProc (p_flight p) (p_chan p) true false)
      else Hang
  end.
Fixpoint p_run (p : sproc) (os : list pop) : res sproc :=
  match os with [] => Ok p | o :: os' => do p' <- p_step p o; p_run p' os' end.
Definition proc_new : sproc := mkProc [] [] false false.
