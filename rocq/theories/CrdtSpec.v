(** What a shared document is: a doubly linked list holding every item that was ever inserted. *)
From Verif Require Import Base PrimModel HeapModel CrdtModel.

Section CrdtSpec.
  Context {V : Type}.

  (** an item without its links *)
  Record entry : Type := mkE { e_id : ident; e_origin : option ident; e_rorigin : option ident; e_content : V; e_deleted : bool }.
  Definition entry_of (x : item V) : entry := mkE (it_id x) (it_origin x) (it_rorigin x) (it_content x) (it_deleted x).
  Definition hidden (e : entry) : entry := mkE (e_id e) (e_origin e) (e_rorigin e) (e_content e) true.
  Definition visible (xs : list entry) : list entry := filter (fun e => negb (e_deleted e)) xs.
  (** the items offsets count: those not deleted, and the first even when it is deleted *)
  Definition counted (xs : list entry) : list entry := match xs with [] => [] | x :: r => x :: visible r end.

  (** The items at the addresses [l] follow each other both ways: going right from [cur] one meets them in this
      order and ends with [e]; the left link of the first is [p], those of the others their predecessor, and [q]
      is the last one. *)
  Fixpoint seg (h : list (item V)) (p cur : option nat) (l : list nat) (q e : option nat) : Prop :=
    match l with
    | [] => p = q /\ cur = e
    | a :: l' => cur = Some a /\ exists x, nth_error h a = Some x /\ it_left x = p /\ seg h (Some a) (it_right x) l' q e
    end.

  (** The document is one such list from Start, all the items made are in it, once, and their entries are [xs]. *)
  Definition linked (d : doc V) (l : list nat) : Prop :=
    exists q, seg (d_heap d) None (d_start d) l q None /\ NoDup l /\ (forall a, (a < length (d_heap d))%nat -> In a l).
  Definition holds (d : doc V) (xs : list entry) : Prop :=
    exists l, linked d l /\ map (fun a => option_map entry_of (nth_error (d_heap d) a)) l = map Some xs.
End CrdtSpec.
Arguments entry : clear implicits.

(** ** Histories of operations *)

(** what a user or the network does to a document *)
Inductive cop (V : Type) : Type :=
| CInsert (iid o ro : option ident) (c : V)     (* Doc.Insert: a remote insertion *)
| CDelete (iid : option ident)                  (* Doc.Delete: a remote deletion *)
| CLocalInsert (offset : Z) (c : V)
| CLocalDelete (offset : Z).
Arguments CInsert {V}. Arguments CDelete {V}. Arguments CLocalInsert {V}. Arguments CLocalDelete {V}.

Section Histories.
  Context {V : Type}.
  Definition empty_doc (producer : N) : doc V := mkDoc producer 0 None [].

  (** the document afterwards, and the entry that was added, if any *)
  Definition cstep (d : doc V) (op : cop V) : res (doc V * list (entry V)) :=
    match op with
    | CInsert iid o ro c => do r <- insert d iid o ro c; Ok (fst r, match snd r, iid with true, Some id => [mkE id o ro c false] | _, _ => [] end)
    | CDelete iid => do r <- delete d iid; Ok (fst r, [])
    | CLocalInsert off c =>
        do r <- local_insert d off c;
        Ok (fst r, match snd r with Some i => match nth_error (d_heap (fst r)) i with Some x => [entry_of x] | None => [] end | None => [] end)
    | CLocalDelete off => do r <- local_delete d off; Ok (fst r, [])
    end.
  Fixpoint crun (d : doc V) (ops : list (cop V)) : res (doc V * list (entry V)) :=
    match ops with
    | [] => Ok (d, [])
    | op :: ops' => do r <- cstep d op; do r' <- crun (fst r) ops'; Ok (fst r', snd r ++ snd r')
    end.

  (** an entry, forgetting whether it is deleted *)
  Definition shown (e : entry V) : entry V := mkE (e_id e) (e_origin e) (e_rorigin e) (e_content e) false.
  (** [a] is [b] with some elements left out *)
  Inductive within {A} : list A -> list A -> Prop :=
  | within_nil : within [] []
  | within_both : forall x a b, within a b -> within (x :: a) (x :: b)
  | within_more : forall x a b, within a b -> within a (x :: b).
End Histories.

(** ** Concurrent editing *)
Section Concurrent.
  Context {V : Type}.
  (** [es] was typed by [p] in one go at a place between the items [o] and [ro]: each item is right of the one before. *)
  Fixpoint typed (o ro : option ident) (p : N) (es : list (entry V)) : Prop :=
    match es with
    | [] => True
    | e :: r => e_origin e = o /\ e_rorigin e = ro /\ fst (e_id e) = p /\ e_deleted e = false /\ typed (Some (e_id e)) ro p r
    end.
  (** a piece of text typed at the [n]-th place of a document *)
  Record piece : Type := mkPiece { pc_place : nat; pc_producer : N; pc_items : list (entry V) }.
  Definition id_before (xs : list (entry V)) (n : nat) : option ident := option_map e_id (hd_error (rev (firstn n xs))).
  Definition id_after (xs : list (entry V)) (n : nat) : option ident := option_map e_id (hd_error (skipn n xs)).
  Definition piece_ok (xs : list (entry V)) (w : piece) : Prop :=
    (pc_place w <= length xs)%nat /\ typed (id_before xs (pc_place w)) (id_after xs (pc_place w)) (pc_producer w) (pc_items w).

  (** [es] merges the lists [ls], keeping the order in each *)
  Inductive interleaves {A} : list (list A) -> list A -> Prop :=
  | il_nil : forall ls, (forall l, In l ls -> l = []) -> interleaves ls []
  | il_cons : forall l1 x l l2 es, interleaves (l1 ++ l :: l2) es -> interleaves (l1 ++ (x :: l) :: l2) (x :: es).

  (** the remote operations that bring an item, or delete one *)
  Inductive event : Type := EIns (e : entry V) | EDel (id : ident).
  Definition apply_event (d : doc V) (v : event) : res (doc V * bool) :=
    match v with EIns e => insert d (Some (e_id e)) (e_origin e) (e_rorigin e) (e_content e) | EDel id => delete d (Some id) end.
  (** all of them, each being accepted *)
  Fixpoint deliver (d : doc V) (vs : list event) : res (doc V) :=
    match vs with
    | [] => Ok d
    | v :: r => do x <- apply_event d v; if snd x then deliver (fst x) r else Err EOther
    end.
  Definition new_items (vs : list event) : list (entry V) := flat_map (fun v => match v with EIns e => [e] | EDel _ => [] end) vs.
  Definition hide_ids (gone : list ident) (e : entry V) : entry V := if mem (e_id e) gone then hidden e else e.
End Concurrent.
Arguments piece : clear implicits.
Arguments event : clear implicits.

(** ** Records in the wrong order *)

(** the records of a history: each is accepted in its turn, none before *)
Fixpoint in_turn (d : doc (list N)) (rs : list record) (d' : doc (list N)) : Prop :=
  match rs with
  | [] => d' = d
  | r :: rest => (forall s, In s rest -> apply_record d s = Ok (d, false)) /\ exists d1, apply_record d r = Ok (d1, true) /\ in_turn d1 rest d'
  end.
Definition clock_of (r : record) : N := match r_id r with Some id => snd id | None => 0%N end.
Definition record_ok (r : record) : Prop := r_id r <> None /\ (r_type r = 1 \/ r_type r = 2)%N.
Fixpoint handle_all (t : tdoc) (rs : list record) : res tdoc :=
  match rs with [] => Ok t | r :: rest => do t1 <- handle_record t r; handle_all t1 rest end.
(** a queue that was used in some way since it was made, and is empty *)
Definition idle (q : queue record N) : Prop := (exists ops outs, q_run N.ltb q_new ops = Ok (q, outs)) /\ q_len q = 0%Z.
Definition rec_of (v : event (list N)) : record :=
  match v with EIns e => mkRec 1 (Some (e_id e)) (e_origin e) (e_rorigin e) (e_content e) | EDel id => mkRec 2 (Some id) None None [] end.
