(** pkg/schema/svs/sync.go: the node of a schema tree that runs State Vector Sync.

    Every function that holds dataLock is one step.  What is put into missChan and every vector that is
    expressed is recorded; that a sender waits while the channel is full is not modelled.  A timer that has
    fired runs its function in a later step, for which it may have to wait; until then cancelling it has no
    effect.  Entries are pointers in the code, but no entry is ever shared between vectors that change.
    A missing NodeId is taken for an empty one, as bytes.Equal does. *)
From Verif Require Import Base PrimModel ReaderModel NameModel CodecModel CodecLib.

(** StateVec, tlv.go 4-14: NodeId and SeqNo of the entries *)
Definition bvec : Type := list (buf * N).

(** findSvsEntry, 101-109: the number of the first entry of the node; setting the number of that entry *)
Fixpoint sv_get (id : buf) (v : bvec) : option N :=
  match v with
  | [] => None
  | (i, x) :: v' => if bytes_eqb i id then Some x else sv_get id v'
  end.
Fixpoint sv_set (id : buf) (y : N) (v : bvec) : bvec :=
  match v with
  | [] => []
  | (i, x) :: v' => if bytes_eqb i id then (i, y) :: v' else (i, x) :: sv_set id y v'
  end.

(** SvsNode, 37-60, without what never changes *)
Record sn : Type := mkSn {
  n_id : buf;                        (* SelfNodeId *)
  n_local : bvec; n_agg : bvec; n_supp : bool (* state is SyncSupression *); n_seq : N;
  n_miss : list (buf * N * N);       (* NodeId, StartSeq, EndSeq put into missChan *)
  n_sent : list bvec;                (* the vectors expressed *)
  n_sched : list (nat * bool);       (* the timers that will fire; true: after getAggIntv *)
  n_cur : nat;                       (* the timer cancelSyncTimer cancels *)
  n_fired : list nat;                (* timers that fired, whose function has not run *)
  n_next : nat;
  n_closed : bool }.                 (* missChan and stopChan are closed *)

(** onAttach, 293-330 *)
Definition sn_attach (id : buf) : sn := mkSn id [(id, 0%N)] [] false 0 [] [] [(0%nat, false)] 0 [] 1 false.

(** n.cancelSyncTimer() *)
Definition cancel (s : sn) : list (nat * bool) := filter (fun t => negb (fst t =? n_cur s)%nat) (n_sched s).
(** n.cancelSyncTimer(); n.cancelSyncTimer = n.timer.Schedule(...) *)
Definition reschedule (agg : bool) (s : sn) : sn :=
  mkSn (n_id s) (n_local s) (n_agg s) (n_supp s) (n_seq s) (n_miss s) (n_sent s)
    (cancel s ++ [(n_next s, agg)]) (n_next s) (n_fired s) (S (n_next s)) (n_closed s).

(** the loop 126-152 of onSyncInt: the local vector, what is put into the channel, needNotif *)
Definition sync_entry (x : bvec * list (buf * N * N) * bool) (cur : buf * N) : bvec * list (buf * N * N) * bool :=
  let '(local, miss, need) := x in
  let '(id, seq) := cur in
  match sv_get id local with
  | None => (local ++ [(id, seq)], miss ++ [(id, 1%N, ((seq + 1) mod two64)%N)], need)
  | Some l =>
      if (l <? seq)%N then (sv_set id seq local, miss ++ [(id, ((l + 1) mod two64)%N, ((seq + 1) mod two64)%N)], need)
      else if (seq <? l)%N then (local, miss, true)
      else x
  end.

(** aggregate, 214-226 *)
Definition agg_entry (agg : bvec) (cur : buf * N) : bvec :=
  match sv_get (fst cur) agg with
  | None => agg ++ [cur]
  | Some a => sv_set (fst cur) (N.max a (snd cur)) agg
  end.

(** onSyncInt, 111-203; [None] is a vector that could not be parsed: the error is logged, and remoteSv is nil.
    A send on the closed channel panics. *)
Definition on_sync_int (remote : option bvec) (s : sn) : res sn :=
  match remote with
  | None => Panic
  | Some r =>
      let '(local, miss, need0) := fold_left sync_entry r (n_local s, [], false) in
      if n_closed s && match miss with [] => false | _ => true end then Panic
      else
      let need := need0 || existsb (fun e => match sv_get (fst e) r with None => true | Some _ => false end) local in
      let upd agg supp := mkSn (n_id s) local agg supp (n_seq s) (n_miss s ++ miss) (n_sent s) (n_sched s) (n_cur s) (n_fired s) (n_next s) (n_closed s) in
      if need || n_supp s then
        if n_supp s then Ok (upd (fold_left agg_entry r (n_agg s)) true)
        else Ok (reschedule true (upd r true))
      else Ok (reschedule false (upd (n_agg s) (n_supp s)))
  end.

(** expressStateVec, 252-254 *)
Definition express (s : sn) : sn :=
  mkSn (n_id s) (n_local s) (n_agg s) (n_supp s) (n_seq s) (n_miss s) (n_sent s ++ [n_local s]) (n_sched s) (n_cur s) (n_fired s) (n_next s) (n_closed s).

(** onSyncTimer, 228-250 *)
Definition on_sync_timer (s : sn) : sn :=
  let covered := forallb (fun e => match sv_get (fst e) (n_agg s) with None => false | Some a => negb (a <? snd e)%N end) (n_local s) in
  let s1 := mkSn (n_id s) (n_local s) (n_agg s) false (n_seq s) (n_miss s) (n_sent s) (n_sched s) (n_cur s) (n_fired s) (n_next s) (n_closed s) in
  let s2 := if n_supp s && covered then s1 else express s1 in
  reschedule false s2.

(** NewData, 266-291; [ok]: Provide returned a packet *)
Definition new_data (ok : bool) (s : sn) : sn :=
  if ok then
    let q := ((n_seq s + 1) mod two64)%N in
    express (mkSn (n_id s) (sv_set (n_id s) q (n_local s)) (n_agg s) false q (n_miss s) (n_sent s) (n_sched s) (n_cur s) (n_fired s) (n_next s) (n_closed s))
  else s.

(** onDetach, 332-340 *)
Definition on_detach (s : sn) : res sn :=
  if n_closed s then Panic
  else Ok (mkSn (n_id s) (n_local s) (n_agg s) (n_supp s) (n_seq s) (n_miss s) (n_sent s) (cancel s) (n_cur s) (n_fired s) (n_next s) true).

Inductive snop : Type :=
| SnSync (remote : option bvec)   (* a Sync Interest *)
| SnFire (k : nat)                (* the k-th of the scheduled timers fires *)
| SnTimer (k : nat)               (* the function of the k-th timer that fired runs *)
| SnNew (ok : bool)               (* NewData *)
| SnDetach.

Definition drop_nth {A} (k : nat) (l : list A) : list A := firstn k l ++ skipn (S k) l.
Definition sn_step (s : sn) (o : snop) : res sn :=
  match o with
  | SnSync r => on_sync_int r s
  | SnFire k =>
      match nth_error (n_sched s) k with
      | Some (t, _) => Ok (mkSn (n_id s) (n_local s) (n_agg s) (n_supp s) (n_seq s) (n_miss s) (n_sent s) (drop_nth k (n_sched s)) (n_cur s) (n_fired s ++ [t]) (n_next s) (n_closed s))
      | None => Ok s
      end
  | SnTimer k =>
      match nth_error (n_fired s) k with
      | Some _ => Ok (on_sync_timer (mkSn (n_id s) (n_local s) (n_agg s) (n_supp s) (n_seq s) (n_miss s) (n_sent s) (n_sched s) (n_cur s) (drop_nth k (n_fired s)) (n_next s) (n_closed s)))
      | None => Ok s
      end
  | SnNew ok => Ok (new_data ok s)
  | SnDetach => on_detach s
  end.
Fixpoint sn_run (s : sn) (os : list snop) : res sn :=
  match os with [] => Ok s | o :: os' => do s' <- sn_step s o; sn_run s' os' end.

(** getSyncIntv, 256-259, and getAggIntv, 261-264, with the number rand.Int63n(m) returns, in nanoseconds;
    rand.Int63n panics unless its argument is positive *)
Definition sync_intv (intv r : Z) : res Z := if (intv / 4 <=? 0)%Z then Panic else Ok (intv + (r - intv / 8))%Z.
Definition agg_intv (intv r : Z) : res Z := if (intv <=? 0)%Z then Panic else Ok (intv + (r - intv / 2))%Z.

(** NewSequenceNumComponent *)
Definition seq_comp (q : N) : comp := mkComp TypeSequenceNum (nat_enc q).
(** onAttach 304-305: ownPrefix of a node with this name; NewData 273-275: the name of the new packet *)
Definition own_prefix (base : name) (id : buf) : name := base ++ [mkComp TypeGeneric id].
Definition new_data_name (base : name) (id : buf) (q : N) : name := own_prefix base id ++ [seq_comp q].
(** GetDataName, 346-352 *)
Definition get_data_name (node : name) (id : buf) (q : N) : name := node ++ [mkComp TypeGeneric id; seq_comp q].

(** ** On the wire *)
Definition b_entry (e : buf * N) : value := VStruct [VBytes (fst e); VNat (snd e)].
(** n.localSv.Encode(), 253 *)
Definition encode_bv (v : bvec) : res wire := do r <- m_encode (mkEP 0 false) svs_StateVec [VSeq (map b_entry v)]; Ok (fst r).
Definition gb_entry (v : value) : buf * N :=
  match v with
  | VStruct [VBytes b; VNat x] => (b, x)
  | VStruct [_; VNat x] => ([], x)
  | _ => ([], 0%N)
  end.
(** ParseStateVec(enc.NewWireReader(event.Content), true), 114: [Ok None] is an error *)
Definition decode_bv (F : nat) (w : wire) : res (option bvec) :=
  match m_parse F svs_StateVec true (new_wire_reader w) with
  | Ok ([VSeq l], _) => Ok (Some (map gb_entry l))
  | Ok _ => Ok (Some [])
  | Err _ => Ok None
  | Panic => Panic
  | Hang => Hang
  end.
