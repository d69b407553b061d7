(** examples/schema-test/shared-doc/crdt: the shared document (crdt.go) and the text document with its queue
    of pending records (textdoc.go).

    Items are pointers in the code; here a pointer is the index of the item in [d_heap], to which every new
    item is appended.  A failed Insert leaves no item behind.  Item.Parent is left out.  Pointers to
    identifiers are compared as values, as the code does (Equal).  Loops over the list have as fuel the
    number of items; running out of it is [Hang]. *)
From Verif Require Import Base PrimModel HeapModel.

(** IDType, tlv.go 4-9: producer and clock *)
Definition ident : Type := (N * N)%type.
Definition id_eqb (a b : ident) : bool := (fst a =? fst b)%N && (snd a =? snd b)%N.
(** Equal, crdt.go 23-31 *)
Definition oid_eqb (a b : option ident) : bool :=
  match a, b with None, None => true | Some x, Some y => id_eqb x y | _, _ => false end.
Definition ptr_eqb (a b : option nat) : bool :=
  match a, b with None, None => true | Some x, Some y => (x =? y)%nat | _, _ => false end.
Definition mem (x : ident) (l : list ident) : bool := existsb (id_eqb x) l.

Section Crdt.
  Variable V : Type.

  (** Item, crdt.go 11-20 *)
  Record item : Type := mkItem { it_id : ident; it_left : option nat; it_right : option nat;
    it_origin : option ident; it_rorigin : option ident; it_content : V; it_deleted : bool }.
  Definition with_links (l r : option nat) (x : item) : item := mkItem (it_id x) l r (it_origin x) (it_rorigin x) (it_content x) (it_deleted x).
  Definition with_left (l : option nat) (x : item) : item := with_links l (it_right x) x.
  Definition with_right (r : option nat) (x : item) : item := with_links (it_left x) r x.
  Definition as_deleted (x : item) : item := mkItem (it_id x) (it_left x) (it_right x) (it_origin x) (it_rorigin x) (it_content x) true.

  (** Doc, crdt.go 5-9 *)
  Record doc : Type := mkDoc { d_producer : N; d_clock : N; d_start : option nat; d_heap : list item }.

  Definition deref (h : list item) (a : nat) : res item := match nth_error h a with Some x => Ok x | None => Panic end.
  Definition upd (h : list item) (a : nat) (f : item -> item) : list item :=
    match nth_error h a with Some x => set_nth h a (f x) | None => h end.

  (** the loop of InsertInto, 55-81, from [o]; [i] is the item to be inserted *)
  Fixpoint scan (fuel : nat) (h : list item) (i : item) (o left : option nat) (conf before : list ident) : res (option nat) :=
    match o with
    | None => Ok left
    | Some a =>
        if ptr_eqb (Some a) (it_right i) then Ok left
        else match fuel with
             | O => Hang
             | S f =>
                 do x <- deref h a;
                 let conf' := it_id x :: conf in
                 let before' := it_id x :: before in
                 if oid_eqb (it_origin i) (it_origin x) then
                   if (fst (it_id x) <? fst (it_id i))%N then scan f h i (it_right x) (Some a) [] before'
                   else if oid_eqb (it_rorigin i) (it_rorigin x) then Ok left
                   else scan f h i (it_right x) left conf' before'
                 else match it_origin x with
                      | None => Panic                        (* *o.Origin, 70 *)
                      | Some oo =>
                          if mem oo before' then
                            if negb (mem oo conf') then scan f h i (it_right x) (Some a) [] before'
                            else scan f h i (it_right x) left conf' before'
                          else Ok left
                      end
             end
    end.

  (** 84-95 *)
  Definition join_after (d : doc) (i : nat) (left : option nat) : res doc :=
    match left with
    | Some l =>
        do x <- deref (d_heap d) l;
        let h1 := upd (upd (d_heap d) i (with_links (Some l) (it_right x))) l (with_right (Some i)) in
        let h2 := match it_right x with Some r => upd h1 r (with_left (Some i)) | None => h1 end in
        Ok (mkDoc (d_producer d) (d_clock d) (d_start d) h2)
    | None =>
        let h1 := upd (d_heap d) i (with_links None (d_start d)) in
        let h2 := match d_start d with Some r => upd h1 r (with_left (Some i)) | None => h1 end in
        Ok (mkDoc (d_producer d) (d_clock d) (Some i) h2)
    end.

  (** InsertInto, crdt.go 34-96; [i] points to the item *)
  Definition insert_into (d : doc) (i : nat) : res doc :=
    match d_start d with
    | None => Ok (mkDoc (d_producer d) (d_clock d) (Some i) (d_heap d))
    | Some s =>
        let h := d_heap d in
        do x <- deref h i;
        do conflict <- match it_left x with
                       | None => match it_right x with
                                 | None => Ok true
                                 | Some r => do y <- deref h r; Ok (match it_left y with Some _ => true | None => false end)
                                 end
                       | Some l => do y <- deref h l; Ok (negb (ptr_eqb (it_right y) (it_right x)))
                       end;
        do left <- (if conflict : bool then
                      do o <- match it_left x with None => Ok (Some s) | Some l => do y <- deref h l; Ok (it_right y) end;
                      scan (length h) h x o (it_left x) [] []
                    else Ok (it_left x));
        join_after d i left
    end.

  (** the loop of Insert, crdt.go 132-138 *)
  Fixpoint search (fuel : nat) (h : list item) (r : option nat) (o ro : option ident) (left right : option nat) : res (option nat * option nat) :=
    match r with
    | None => Ok (left, right)
    | Some a =>
        match fuel with
        | O => Hang
        | S f =>
            do x <- deref h a;
            if oid_eqb (Some (it_id x)) o then search f h (it_right x) o ro (Some a) right
            else if oid_eqb (Some (it_id x)) ro then search f h (it_right x) o ro left (Some a)
            else search f h (it_right x) o ro left right
        end
    end.

  Definition with_clock (d : doc) (c : N) : doc := mkDoc (d_producer d) c (d_start d) (d_heap d).
  Definition is_some {A} (o : option A) : bool := match o with Some _ => true | None => false end.

  (** Doc.Insert, crdt.go 120-145 *)
  Definition insert (d : doc) (iid : option ident) (o ro : option ident) (content : V) : res (doc * bool) :=
    match iid with
    | None => Ok (d, false)
    | Some id =>
        do lr <- search (length (d_heap d)) (d_heap d) (d_start d) o ro None None;
        let '(l, r) := lr in
        if (is_some o && negb (is_some l)) || (is_some ro && negb (is_some r)) then Ok (d, false)
        else
          do d' <- insert_into (mkDoc (d_producer d) (d_clock d) (d_start d) (d_heap d ++ [mkItem id l r o ro content false])) (length (d_heap d));
          Ok (with_clock d' ((N.max (d_clock d) (snd id) + 1) mod two64)%N, true)
    end.

  (** the loop of Doc.Delete, 151-157: the first item with the identifier *)
  Fixpoint find_id (fuel : nat) (h : list item) (r : option nat) (id : ident) : res (option nat) :=
    match r with
    | None => Ok None
    | Some a =>
        match fuel with
        | O => Hang
        | S f => do x <- deref h a; if id_eqb (it_id x) id then Ok (Some a) else find_id f h (it_right x) id
        end
    end.
  (** Doc.Delete, crdt.go 147-159 *)
  Definition delete (d : doc) (iid : option ident) : res (doc * bool) :=
    match iid with
    | None => Ok (d, false)
    | Some id =>
        do a <- find_id (length (d_heap d)) (d_heap d) (d_start d) id;
        match a with
        | Some a => Ok (mkDoc (d_producer d) ((N.max (d_clock d) (snd id) + 1) mod two64)%N (d_start d) (upd (d_heap d) a as_deleted), true)
        | None => Ok (d, false)
        end
    end.

  (** Next, crdt.go 99-105, from the item's right neighbour *)
  Fixpoint skip_deleted (fuel : nat) (h : list item) (n : option nat) : res (option nat) :=
    match n with
    | None => Ok None
    | Some a =>
        match fuel with
        | O => Hang
        | S f => do x <- deref h a; if it_deleted x then skip_deleted f h (it_right x) else Ok n
        end
    end.
  Definition next (h : list item) (a : nat) : res (option nat) := do x <- deref h a; skip_deleted (length h) h (it_right x).

  (** ItemAt, crdt.go 161-172 *)
  Fixpoint advance (fuel : nat) (h : list item) (offset : Z) (ret : option nat) : res (option nat) :=
    match ret with
    | None => Ok None
    | Some a =>
        if (offset <=? 0)%Z then Ok ret
        else match fuel with
             | O => Hang
             | S f => do n <- next h a; advance f h (offset - 1) n
             end
    end.
  Definition item_at (d : doc) (offset : Z) : res (option nat) :=
    if (offset <=? 0)%Z then Ok None else advance (length (d_heap d)) (d_heap d) (offset - 1) (d_start d).

  (** LocalInsert, crdt.go 174-203: the new item, if any *)
  Definition local_insert (d : doc) (offset : Z) (content : V) : res (doc * option nat) :=
    let h := d_heap d in
    do left <- item_at d offset;
    if negb (is_some left) && (0 <? offset)%Z then Ok (d, None)
    else
      do right <- match left with Some l => do y <- deref h l; Ok (it_right y) | None => Ok (d_start d) end;
      do lid <- match left with Some l => do y <- deref h l; Ok (Some (it_id y)) | None => Ok None end;
      do rid <- match right with Some r => do y <- deref h r; Ok (Some (it_id y)) | None => Ok None end;
      let i := length h in
      let h1 := h ++ [mkItem (d_producer d, d_clock d) left right lid rid content false] in
      let h2 := match left with Some l => upd h1 l (with_right (Some i)) | None => h1 end in
      let h3 := match right with Some r => upd h2 r (with_left (Some i)) | None => h2 end in
      Ok (mkDoc (d_producer d) ((d_clock d + 1) mod two64)%N (match left with Some _ => d_start d | None => Some i end) h3, Some i).

  (** LocalDelete, crdt.go 205-211 *)
  Definition local_delete (d : doc) (offset : Z) : res (doc * option nat) :=
    do a <- item_at d offset;
    match a with
    | Some a => Ok (mkDoc (d_producer d) (d_clock d) (d_start d) (upd (d_heap d) a as_deleted), Some a)
    | None => Ok (d, None)
    end.

  (** the items in order, from [r] *)
  Fixpoint walk (fuel : nat) (h : list item) (r : option nat) : res (list item) :=
    match r with
    | None => Ok []
    | Some a =>
        match fuel with
        | O => Hang
        | S f => do x <- deref h a; do l <- walk f h (it_right x); Ok (x :: l)
        end
    end.
End Crdt.
Arguments mkItem {V}. Arguments it_id {V}. Arguments it_left {V}. Arguments it_right {V}. Arguments it_origin {V}. Arguments it_rorigin {V}. Arguments it_content {V}. Arguments it_deleted {V}.
Arguments with_links {V}. Arguments with_left {V}. Arguments with_right {V}. Arguments as_deleted {V}. Arguments mkDoc {V}. Arguments d_producer {V}. Arguments d_clock {V}. Arguments d_start {V}. Arguments d_heap {V}.
Arguments deref {V}. Arguments upd {V}. Arguments scan {V}. Arguments join_after {V}. Arguments insert_into {V}. Arguments search {V}. Arguments with_clock {V}. Arguments insert {V}. Arguments find_id {V}. Arguments delete {V}.
Arguments skip_deleted {V}. Arguments next {V}. Arguments advance {V}. Arguments item_at {V}. Arguments local_insert {V}. Arguments local_delete {V}. Arguments walk {V}.

(** ** Text documents *)

(** Record, tlv.go 17-28; RecordInsert is 1, RecordDelete 2 *)
Record record : Type := mkRec { r_type : N; r_id : option ident; r_origin : option ident; r_rorigin : option ident; r_content : list N }.
(** TextDoc, textdoc.go 7-10 *)
Record tdoc : Type := mkT { t_doc : doc (list N); t_pending : queue record N }.

(** NewTextDoc, textdoc.go 67-76 *)
Definition new_tdoc (producer : N) : tdoc := mkT (mkDoc producer 0 None []) q_new.

(** 20-25 *)
Definition apply_record (d : doc (list N)) (r : record) : res (doc (list N) * bool) :=
  if (r_type r =? 1)%N then insert d (r_id r) (r_origin r) (r_rorigin r) (r_content r) else delete d (r_id r).

(** the loop of HandleRecord, textdoc.go 17-29; the fuel is the number of pending records *)
Fixpoint drain (fuel : nat) (t : tdoc) : res tdoc :=
  if (q_len (t_pending t) <=? 0)%Z then Ok t
  else match fuel with
       | O => Hang
       | S f =>
           do k <- q_peek (t_pending t);
           match q_obj (t_pending t) k with
           | None => Panic
           | Some r =>
               do x <- apply_record (t_doc t) r;
               let '(d, ok) := x in
               if negb ok then Ok (mkT d (t_pending t))
               else do p <- q_pop N.ltb (t_pending t); drain f (mkT d (fst p))
           end
       end.

(** HandleRecord, textdoc.go 12-30 *)
Definition handle_record (t : tdoc) (r : record) : res tdoc :=
  match r_id r with
  | None => Ok t
  | Some id =>
      if negb (r_type r =? 1)%N && negb (r_type r =? 2)%N then Ok t
      else
        do p <- q_push N.ltb (t_pending t) r (snd id);
        drain (length (q_list (fst p))) (mkT (t_doc t) (fst p))
  end.

(** GetText, textdoc.go 32-40 *)
Definition get_text (t : tdoc) : res (list N) :=
  do l <- walk (length (d_heap (t_doc t))) (d_heap (t_doc t)) (d_start (t_doc t));
  Ok (concat (map it_content (filter (fun x => negb (it_deleted x)) l))).

(** Insert, textdoc.go 42-54 *)
Definition text_insert (t : tdoc) (offset : Z) (content : list N) : res (tdoc * option record) :=
  do r <- local_insert (t_doc t) offset content;
  match snd r with
  | None => Ok (mkT (fst r) (t_pending t), None)
  | Some i => do x <- deref (d_heap (fst r)) i;
              Ok (mkT (fst r) (t_pending t), Some (mkRec 1 (Some (it_id x)) (it_origin x) (it_rorigin x) content))
  end.

(** Delete, textdoc.go 56-65 *)
Definition text_delete (t : tdoc) (offset : Z) : res (tdoc * option record) :=
  do r <- local_delete (t_doc t) offset;
  match snd r with
  | None => Ok (mkT (fst r) (t_pending t), None)
  | Some i => do x <- deref (d_heap (fst r)) i; Ok (mkT (fst r) (t_pending t), Some (mkRec 2 (Some (it_id x)) None None []))
  end.
