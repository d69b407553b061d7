(** ParseReader implementations: pkg/encoding/readers.go, and ReadTLNum of
    pkg/encoding/primitives.go.

    A reader is mutable in Go; every operation here returns the outcome and the
    reader after the call (also after an error; after a panic it is immaterial). *)
From Verif Require Import Base PrimModel.

(** BufferReader, readers.go 8-11: buf, pos.
    WireReader, readers.go 127-132: wire, seg, pos, accSz. *)
Inductive reader : Type :=
| RBuf (b : buf) (pos : Z)
| RWire (w : wire) (seg : nat) (pos : Z) (acc : list Z).

Definition rout (A : Type) : Type := (res A * reader)%type.

(** NewBufferReader, readers.go 118-123 *)
Definition new_buffer_reader (b : buf) : reader := RBuf b 0.

(** accSz computed by NewWireReader, readers.go 315-320 *)
Fixpoint acc_from (start : Z) (w : wire) : list Z :=
  start :: match w with
           | [] => []
           | b :: w' => acc_from (start + zlen b) w'
           end.

(** NewWireReader, readers.go 315-327 *)
Definition new_wire_reader (w : wire) : reader := RWire w 0 0 (acc_from 0 w).

(** r.wire[seg] *)
Definition seg_at (w : wire) (seg : nat) : res buf :=
  match nth_error w seg with Some b => Ok b | None => Panic end.

(** WireReader.nextSeg, readers.go 134-140: new seg, new pos, return value *)
Definition next_seg (w : wire) (seg : nat) (pos : Z) : nat * Z * bool :=
  match nth_error w seg with
  | Some b =>
      if (zlen b <=? pos)%Z then (S seg, 0%Z, (S seg <? length w)%nat)
      else (seg, pos, true)
  | None => (seg, pos, false)
  end.

(** copy(b, t) for a destination of [n] bytes: what is copied *)
Definition copy_upto (n : Z) (t : buf) : buf := firstn (Z.to_nat (Z.min n (zlen t))) t.

(** Read, readers.go 13-20 and 142-149.  [n] is len(b), the result is the list
    of copied bytes. *)
Definition r_read (n : Z) (r : reader) : rout buf :=
  match r with
  | RBuf b pos =>
      if ((zlen b <=? pos) && (0 <? n))%Z then (Err EEOF, r)
      else match slice b pos (zlen b) with
           | Ok t => let c := copy_upto n t in (Ok c, RBuf b (pos + zlen c))
           | _ => (Panic, r)
           end
  | RWire w seg pos acc =>
      let '(seg', pos', more) := next_seg w seg pos in
      let r' := RWire w seg' pos' acc in
      if (negb more && (0 <? n)%Z) then (Err EEOF, r')
      else match seg_at w seg' with
           | Ok b => match slice b pos' (zlen b) with
                     | Ok t => let c := copy_upto n t in (Ok c, RWire w seg' (pos' + zlen c) acc)
                     | _ => (Panic, r')
                     end
           | _ => (Panic, r')
           end
  end.

(** ReadByte, readers.go 22-29 and 151-158 *)
Definition r_read_byte (r : reader) : rout N :=
  match r with
  | RBuf b pos =>
      if (zlen b <=? pos)%Z then (Err EEOF, r)
      else match index b pos with
           | Ok x => (Ok x, RBuf b (pos + 1))
           | _ => (Panic, r)
           end
  | RWire w seg pos acc =>
      let '(seg', pos', more) := next_seg w seg pos in
      let r' := RWire w seg' pos' acc in
      if negb more then (Err EEOF, r')
      else match seg_at w seg' with
           | Ok b => match index b pos' with
                     | Ok x => (Ok x, RWire w seg' (pos' + 1) acc)
                     | _ => (Panic, r')
                     end
           | _ => (Panic, r')
           end
  end.

(** UnreadByte, readers.go 31-37 and 160-170 *)
Definition r_unread_byte (r : reader) : rout unit :=
  match r with
  | RBuf b pos =>
      if (pos =? 0)%Z then (Err EOther, r) else (Ok tt, RBuf b (pos - 1))
  | RWire w seg pos acc =>
      if (pos =? 0)%Z then
        match seg with
        | O => (Err EOther, r)
        | S k => match seg_at w k with
                 | Ok b => (Ok tt, RWire w k (zlen b - 1) acc)
                 | _ => (Panic, r)
                 end
        end
      else (Ok tt, RWire w seg (pos - 1) acc)
  end.

(** The loop of WireReader.ReadWire, readers.go 177-191.  [fuel] bounds the
    number of iterations; each iteration but the last advances [seg], so
    [length w + 2] is always enough (lemma [wire_read_loop_no_hang]). *)
Fixpoint wire_read_loop (fuel : nat) (w : wire) (seg : nat) (pos : Z) (l : Z) (ret : wire)
  : res wire * (nat * Z) :=
  if (0 <? l)%Z then
    match fuel with
    | O => (Hang, (seg, pos))
    | S f =>
        match nth_error w seg with
        | None => (Err EUnexpectedEOF, (seg, pos))
        | Some b =>
            if (zlen b <? wrap64 (pos + l))%Z then
              match slice b pos (zlen b) with
              | Ok t => wire_read_loop f w (S seg) 0 (l - (zlen b - pos))%Z (ret ++ [t])
              | _ => (Panic, (seg, pos))
              end
            else
              match slice b pos (wrap64 (pos + l)) with
              | Ok t => (Ok (ret ++ [t]), (seg, wrap64 (pos + l)))
              | _ => (Panic, (seg, pos))
              end
        end
    end
  else (Ok ret, (seg, pos)).

(** ReadWire, readers.go 73-83 and 172-193 *)
Definition r_read_wire (l : Z) (r : reader) : rout wire :=
  match r with
  | RBuf b pos =>
      if ((zlen b <=? pos) && (0 <? l))%Z then (Err EEOF, r)
      else if (zlen b <? wrap64 (pos + l))%Z then (Err EUnexpectedEOF, r)
      else match slice b pos (wrap64 (pos + l)) with
           | Ok t => (Ok [t], RBuf b (wrap64 (pos + l)))
           | _ => (Panic, r)
           end
  | RWire w seg pos acc =>
      let '(seg', pos', more) := next_seg w seg pos in
      if (negb more && (0 <? l)%Z) then (Err EEOF, RWire w seg' pos' acc)
      else
        let '(o, (s, p)) := wire_read_loop (length w + 2) w seg' pos' l [] in
        (o, RWire w s p acc)
  end.

(** The loop of WireReader.ReadBuf, readers.go 206-222: [ret] is what has been
    copied so far (the Go code copies into a buffer of the requested length at
    offset [cur]; the decrement [cur -= l] of line 219 is in the last iteration
    and has no effect).  *)
Fixpoint wire_readbuf_loop (fuel : nat) (w : wire) (seg : nat) (pos : Z) (l : Z) (ret : buf)
  : res buf * (nat * Z) :=
  if (0 <? l)%Z then
    match fuel with
    | O => (Hang, (seg, pos))
    | S f =>
        match nth_error w seg with
        | None => (Err EUnexpectedEOF, (seg, pos))
        | Some b =>
            if (zlen b <? wrap64 (pos + l))%Z then
              match slice b pos (zlen b) with
              | Ok t => wire_readbuf_loop f w (S seg) 0 (l - (zlen b - pos))%Z (ret ++ t)
              | _ => (Panic, (seg, pos))
              end
            else
              match slice b pos (wrap64 (pos + l)) with
              | Ok t => (Ok (ret ++ t), (seg, wrap64 (pos + l)))
              | _ => (Panic, (seg, pos))
              end
        end
    end
  else (Ok ret, (seg, pos)).

(** ReadBuf, readers.go 85-92 and 195-225 *)
Definition r_read_buf (l : Z) (r : reader) : rout buf :=
  match r with
  | RBuf b pos =>
      if (zlen b <? wrap64 (pos + l))%Z then (Err EUnexpectedEOF, r)
      else match slice b pos (wrap64 (pos + l)) with
           | Ok t => (Ok t, RBuf b (wrap64 (pos + l)))
           | _ => (Panic, r)
           end
  | RWire w seg pos acc =>
      let '(seg', pos', more) := next_seg w seg pos in
      let r' := RWire w seg' pos' acc in
      if (negb more && (0 <? l)%Z) then (Err EUnexpectedEOF, r')
      else match seg_at w seg' with
           | Ok b =>
               if (wrap64 (pos' + l) <=? zlen b)%Z then
                 match slice b pos' (wrap64 (pos' + l)) with
                 | Ok t => (Ok t, RWire w seg' (wrap64 (pos' + l)) acc)
                 | _ => (Panic, r')
                 end
               else if make_ok 1 l then
                 let '(o, (s, p)) := wire_readbuf_loop (length w + 2) w seg' pos' l [] in
                 (o, RWire w s p acc)
               else (Panic, r')
           | _ => (Panic, r')
           end
  end.

(** Pos, readers.go 94-96 and 227-229 *)
Definition r_pos (r : reader) : res Z :=
  match r with
  | RBuf _ pos => Ok pos
  | RWire w seg pos acc =>
      match nth_error acc seg with Some a => Ok (pos + a)%Z | None => Panic end
  end.

(** Length, readers.go 98-100 and 231-233 *)
Definition r_length (r : reader) : res Z :=
  match r with
  | RBuf b _ => Ok (zlen b)
  | RWire w _ _ acc =>
      match nth_error acc (length w) with Some a => Ok a | None => Panic end
  end.

(** The search loop of WireReader.Range, readers.go 239-249:
    (startSeg, startPos, endSeg, endPos), all 0 initially; the last match wins.
    [i] is the loop index, [acc] the list accSz[i:]. *)
Fixpoint range_search (start end_ : Z) (i : nat) (acc : list Z) (cur : nat * Z * nat * Z)
  : nat * Z * nat * Z :=
  match acc with
  | a :: ((a' :: _) as acc') =>
      let '(ss, sp, es, ep) := cur in
      let '(ss, sp) := if ((a <=? start) && (start <? a'))%Z then (i, (start - a)%Z) else (ss, sp) in
      let '(es, ep) := if ((a <? end_) && (end_ <=? a'))%Z then (i, (end_ - a)%Z) else (es, ep) in
      range_search start end_ (S i) acc' (ss, sp, es, ep)
  | _ => cur
  end.

(** ret[i] = v *)
Definition list_set {A} (l : list A) (i : nat) (v : A) : res (list A) :=
  if (i <? length l)%nat then Ok (firstn i l ++ v :: skipn (S i) l) else Panic.

(** The copy loop of WireReader.Range, readers.go 255-257.  Note the index
    [ret[i]] (not [ret[i-startSeg]]). *)
Fixpoint range_fill (w : wire) (i n : nat) (ret : wire) : res wire :=
  match n with
  | O => Ok ret
  | S k => do b <- seg_at w i;
           do ret' <- list_set ret i b;
           range_fill w (S i) k ret'
  end.

(** Range, readers.go 102-107 and 235-261.  A nil result is [None]. *)
Definition r_range (start end_ : Z) (r : reader) : res (option wire) :=
  match r with
  | RBuf b _ =>
      if ((start <? 0) || (zlen b <? end_) || (end_ <? start))%Z then Ok None
      else do t <- slice b start end_; Ok (Some [t])
  | RWire w _ _ acc =>
      do tot <- match nth_error acc (length w) with Some a => Ok a | None => Panic end;
      if ((start <? 0) || (tot <? end_) || (end_ <? start))%Z then Ok None
      else
        let '(ss, sp, es, ep) :=
          range_search start end_ 0 (firstn (S (length w)) acc) (0%nat, 0%Z, 0%nat, 0%Z) in
        if (ss =? es)%nat then
          do b <- seg_at w ss;
          do t <- slice b sp ep;
          Ok (Some [t])
        else
          if (es + 1 <? ss)%nat then Panic   (* make(Wire, negative) *)
          else
            let ret0 := repeat ([] : buf) (es + 1 - ss) in
            do b0 <- seg_at w ss;
            do t0 <- slice b0 sp (zlen b0);
            do ret1 <- list_set ret0 0 t0;
            do ret2 <- range_fill w (S ss) (es - ss - 1) ret1;
            do be' <- seg_at w es;
            do te <- slice be' 0 ep;
            do ret3 <- list_set ret2 (es - ss) te;
            Ok (Some ret3)
  end.

(** The loop shared by WireReader.Skip (readers.go 268-274) and
    WireReader.Delegate (292-298): walk forward while pos exceeds the segment.
    Result: [Some (seg, pos)] when it stopped inside the wire, [None] when it ran
    off the end (then seg = len(wire)); [Panic] when it starts outside. *)
Fixpoint walk (fuel : nat) (w : wire) (seg : nat) (pos : Z) : res (bool * nat * Z) :=
  match nth_error w seg with
  | None => Panic
  | Some b =>
      if (zlen b <? pos)%Z then
        match fuel with
        | O => Hang
        | S f =>
            let seg' := S seg in
            let pos' := (pos - zlen b)%Z in
            if (length w <=? seg')%nat then Ok (false, seg', pos')
            else walk f w seg' pos'
        end
      else Ok (true, seg, pos)
  end.

(** Skip, readers.go 61-71 and 263-276 *)
Definition r_skip (n : Z) (r : reader) : rout unit :=
  match r with
  | RBuf b pos =>
      let p := wrap64 (pos + n) in
      if (p <? 0)%Z then (Err EOther, r)
      else if (zlen b <? p)%Z then (Err EOther, r)
      else (Ok tt, RBuf b p)
  | RWire w seg pos acc =>
      if (n <? 0)%Z then (Err EOther, r)
      else match walk (S (length w)) w seg (wrap64 (pos + n)) with
           | Ok (true, s, p) => (Ok tt, RWire w s p acc)
           | Ok (false, s, p) => (Err EEOF, RWire w s p acc)
           | Panic => (Panic, r)
           | Hang => (Hang, r)
           | Err e => (Err e, r)
           end
  end.

(** Delegate, readers.go 109-116 and 278-313: the new reader and the advanced
    old one. *)
Definition r_delegate (l : Z) (r : reader) : res (reader * reader) :=
  match r with
  | RBuf b pos =>
      if ((l <? 0) || (zlen b <? wrap64 (pos + l)))%Z then Ok (new_buffer_reader [], r)
      else do t <- slice b pos (wrap64 (pos + l));
           Ok (new_buffer_reader t, RBuf b (wrap64 (pos + l)))
  | RWire w seg pos acc =>
      if ((l <? 0)%Z || (length w <=? seg)%nat) then Ok (new_buffer_reader [], r)
      else
        do b <- seg_at w seg;
        if (wrap64 (pos + l) <=? zlen b)%Z then
          do t <- slice b pos (wrap64 (pos + l));
          Ok (new_buffer_reader t, RWire w seg (wrap64 (pos + l)) acc)
        else
          do x <- walk (S (length w)) w seg (wrap64 (pos + l));
          let '(inside, s, p) := x in
          if negb inside then Ok (new_buffer_reader [], RWire w s p acc)
          else
            do be' <- seg_at w s;
            if (p =? zlen be')%Z then
              do acc' <- slice acc 0 (Z.of_nat s + 2);
              Ok (RWire (firstn (S s) w) seg pos acc', RWire w s p acc)
            else
              let nw := firstn (S s - seg) (skipn seg w) in
              do n0 <- index nw 0;
              do n0' <- slice n0 pos (zlen n0);
              do nw1 <- list_set nw 0 n0';
              do nl <- index nw1 (zlen nw1 - 1);
              do nl' <- slice nl 0 p;
              do nw2 <- list_set nw1 (length nw1 - 1) nl';
              Ok (new_wire_reader nw2, RWire w s p acc)
  end.

(** The byte loop of ReadTLNum, primitives.go 86-94 *)
Fixpoint read_tl_loop (n : nat) (val : N) (r : reader) : rout N :=
  match n with
  | O => (Ok val, r)
  | S k =>
      match r_read_byte r with
      | (Ok x, r') => read_tl_loop k (((val * 256) mod two64) + x)%N r'
      | (Err EEOF, r') => (Err EUnexpectedEOF, r')
      | (Err e, r') => (Err e, r')
      | (o, r') => (o, r')
      end
  end.

(** ReadTLNum, primitives.go 68-96 *)
Definition read_tl (r : reader) : rout N :=
  match r_read_byte r with
  | (Ok x, r') =>
      if (x <=? 252)%N then (Ok x, r')
      else if (x =? 253)%N then read_tl_loop 2 0 r'
      else if (x =? 254)%N then read_tl_loop 4 0 r'
      else read_tl_loop 8 0 r'
  | (o, r') => (o, r')
  end.

(** The loop "Read until [n] bytes are there or Read fails" shared by the Go
    standard library's io.ReadFull (io.ReadAtLeast) and io.CopyN (io.Copy from a
    LimitedReader).  Result: the bytes, and the error of the last Read if any.
    io.Copy reads in chunks of 32 KiB; chunking is not modelled.  A Read returns
    at least one byte or moves to another segment, so [reader_fuel] suffices. *)
Definition reader_fuel (r : reader) : nat :=
  match r with
  | RBuf b _ => length b + 2
  | RWire w _ _ _ => length (concat w) + length w + 2
  end.

Fixpoint read_loop (fuel : nat) (n : Z) (acc : buf) (r : reader) : res (buf * option err) * reader :=
  if (n <=? 0)%Z then (Ok (acc, None), r)
  else match fuel with
       | O => (Hang, r)
       | S f => match r_read n r with
                | (Ok c, r') => read_loop f (n - zlen c) (acc ++ c) r'
                | (Err e, r') => (Ok (acc, Some e), r')
                | (Panic, r') => (Panic, r')
                | (Hang, r') => (Hang, r')
                end
       end.

(** io.ReadFull(r, buf) with len(buf) = n (Go 1.18 io.go, ReadAtLeast). *)
Definition read_full (n : Z) (r : reader) : rout buf :=
  match read_loop (reader_fuel r) n [] r with
  | (Ok (c, None), r') => (Ok c, r')
  | (Ok ([], Some e), r') => (Err e, r')
  | (Ok (_, Some EEOF), r') => (Err EUnexpectedEOF, r')
  | (Ok (_, Some e), r') => (Err e, r')
  | (Err e, r') => (Err e, r')
  | (Panic, r') => (Panic, r')
  | (Hang, r') => (Hang, r')
  end.

(** io.CopyN(&builder, r, n): what was copied.  A short source gives io.EOF; for
    a negative [n] nothing is read and there is no error. *)
Definition copy_n (n : Z) (r : reader) : rout buf :=
  match read_loop (reader_fuel r) n [] r with
  | (Ok (c, None), r') => (Ok c, r')
  | (Ok (_, Some e), r') => (Err e, r')
  | (Err e, r') => (Err e, r')
  | (Panic, r') => (Panic, r')
  | (Hang, r') => (Hang, r')
  end.
