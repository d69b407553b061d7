(** Scripts of reader calls, their intended effect on an abstract cursor, and
    how they run on the modelled readers (property C14). *)
From Verif Require Import Base PrimModel ReaderModel ReaderSpec.

(** One call on the reader on top of a stack of readers.  [ODelegate] pushes the
    reader returned by Delegate, [OReturn] abandons it and goes back. *)
Inductive rop : Type :=
| OReadByte
| OUnreadByte
| OReadFull (n : Z)
| OCopyN (n : Z)
| OReadWire (l : Z)
| OReadBuf (l : Z)
| OSkip (n : Z)
| ODelegate (l : Z)
| OReturn
| OPos
| OLength.

(** What the caller sees.  Segmentation of a returned wire, and the kind of
    error, are not observed; positions are relative to the reader's creation. *)
Inductive robs : Type :=
| SByte (b : N)
| SBytes (b : buf)
| SDone
| SNum (z : Z)
| SError
| SCrash.

(** ** Specification: a cursor is what was consumed and what is left *)
Definition cursor : Type := (buf * buf)%type.

(** take [n] bytes; [SError] when there are not enough *)
Definition spec_take (n : Z) (mk : buf -> robs) (c : cursor) (st : list cursor) : robs * list cursor :=
  let '(pre, rem) := c in
  if (zlen rem <? n)%Z then (SError, c :: st)
  else (mk (firstn (Z.to_nat n) rem), (pre ++ firstn (Z.to_nat n) rem, skipn (Z.to_nat n) rem) :: st).

(** [None]: the call is outside the contract covered by C14. *)
Definition spec_step (op : rop) (st : list cursor) : option (robs * list cursor) :=
  match st with
  | [] => None
  | (pre, rem) :: st' =>
      match op with
      | OReadByte =>
          match rem with
          | [] => Some (SError, st)
          | x :: s => Some (SByte x, (pre ++ [x], s) :: st')
          end
      | OUnreadByte =>
          match rev pre with
          | [] => None
          | x :: p => Some (SDone, (rev p, x :: rem) :: st')
          end
      | OReadFull n | OCopyN n =>
          if (0 <=? n)%Z then Some (spec_take n SBytes (pre, rem) st') else None
      | OReadWire l =>
          if ((0 <=? l) && (l <? mem_limit))%Z then Some (spec_take l SBytes (pre, rem) st') else None
      | OReadBuf l =>
          if ((0 <=? l) && (l <=? max_alloc) && ((0 <? l) || (0 <? zlen rem)))%Z
          then Some (spec_take l SBytes (pre, rem) st') else None
      | OSkip n =>
          if ((0 <=? n) && (n <? mem_limit) && (0 <? zlen rem))%Z
          then Some (spec_take n (fun _ => SDone) (pre, rem) st') else None
      | ODelegate l =>
          if ((0 <=? l) && (l <=? zlen rem))%Z
          then Some (SDone, ([], firstn (Z.to_nat l) rem)
                            :: (pre ++ firstn (Z.to_nat l) rem, skipn (Z.to_nat l) rem) :: st')
          else None
      | OReturn => match st' with [] => None | _ => Some (SDone, st') end
      | OPos => Some (SNum (zlen pre), st)
      | OLength => Some (SNum (zlen pre + zlen rem), st)
      end
  end.

(** a script stops at the first error *)
Fixpoint spec_run (ops : list rop) (st : list cursor) : option (list robs) :=
  match ops with
  | [] => Some []
  | op :: ops' =>
      match spec_step op st with
      | None => None
      | Some (SError, _) => Some [SError]
      | Some (o, st') => option_map (cons o) (spec_run ops' st')
      end
  end.

(** ** The same script on modelled readers; [base] is Pos() at creation *)
Definition rstack : Type := list (reader * Z).

Definition seen {A} (mk : A -> robs) (base : Z) (st : rstack) (o : rout A) : robs * rstack :=
  let '(a, r) := o in
  match a with
  | Ok x => (mk x, (r, base) :: st)
  | Err _ => (SError, (r, base) :: st)
  | Panic | Hang => (SCrash, (r, base) :: st)
  end.

Definition impl_step (op : rop) (st : rstack) : robs * rstack :=
  match st with
  | [] => (SCrash, [])
  | (r, base) :: st' =>
      match op with
      | OReadByte => seen SByte base st' (r_read_byte r)
      | OUnreadByte => seen (fun _ => SDone) base st' (r_unread_byte r)
      | OReadFull n => seen SBytes base st' (read_full n r)
      | OCopyN n => seen SBytes base st' (copy_n n r)
      | OReadWire l => seen (fun w : wire => SBytes (concat w)) base st' (r_read_wire l r)
      | OReadBuf l => seen SBytes base st' (r_read_buf l r)
      | OSkip n => seen (fun _ => SDone) base st' (r_skip n r)
      | ODelegate l =>
          match r_delegate l r with
          | Ok (d, r') =>
              match r_pos d with
              | Ok p => (SDone, (d, p) :: (r', base) :: st')
              | _ => (SCrash, st)
              end
          | _ => (SCrash, st)
          end
      | OReturn => (SDone, st')
      | OPos => match r_pos r with Ok p => (SNum (p - base), st) | _ => (SCrash, st) end
      | OLength => match r_length r with Ok p => (SNum (p - base), st) | _ => (SCrash, st) end
      end
  end.

Fixpoint impl_run (ops : list rop) (st : rstack) : list robs :=
  match ops with
  | [] => []
  | op :: ops' =>
      match impl_step op st with
      | (SError, _) => [SError]
      | (SCrash, _) => [SCrash]
      | (o, st') => o :: impl_run ops' st'
      end
  end.
