(** StreamFace of pkg/engine/basic/transports.go.

    The incoming connection is the list of chunks that successive reads of it
    return, then EOF.  (bufio gives up after 100 empty reads in a row; here empty
    reads are just skipped.  Other connection errors are not modelled.)  The number
    of iterations [fuel] is what happens before another goroutine closes the face. *)
From Verif Require Import Base PrimModel.

(** bufio.Reader.ReadByte; [None] is EOF *)
Fixpoint sr_byte (cs : list buf) : option N * list buf :=
  match cs with
  | [] => (None, [])
  | [] :: cs' => sr_byte cs'
  | (b :: c) :: cs' => (Some b, c :: cs')
  end.

(** the loop of ReadTLNum, encoding/primitives.go 86-94: the value so far is
    returned together with an error *)
Fixpoint sr_tl_loop (n : nat) (val : N) (cs : list buf) : N * option err * list buf :=
  match n with
  | O => (val, None, cs)
  | S k => match sr_byte cs with
           | (Some x, cs') => sr_tl_loop k (((val * 256) mod two64) + x)%N cs'
           | (None, cs') => (val, Some EUnexpectedEOF, cs')
           end
  end.

(** ReadTLNum, encoding/primitives.go 68-96 *)
Definition sr_tl (cs : list buf) : N * option err * list buf :=
  match sr_byte cs with
  | (None, cs') => (0%N, Some EEOF, cs')
  | (Some x, cs') =>
      if (x <=? 252)%N then (x, None, cs')
      else if (x =? 253)%N then sr_tl_loop 2 0 cs'
      else if (x =? 254)%N then sr_tl_loop 4 0 cs'
      else sr_tl_loop 8 0 cs'
  end.

(** io.ReadFull: the bytes read; fewer than [n] at EOF *)
Fixpoint sr_full (n : nat) (cs : list buf) : buf * list buf :=
  match n with
  | O => ([], cs)
  | S k => match sr_byte cs with
           | (Some x, cs') => let '(l, c2) := sr_full k cs' in (x :: l, c2)
           | (None, cs') => ([], cs')
           end
  end.

Inductive stop : Type :=
| SClosed            (* closed from outside, still running so far *)
| SError (e : err)   (* onError returned an error *)
| SRefused           (* onPkt returned an error *)
| SPanic.

Section Run.
(** onError returns nil on this error; onPkt returns nil on this packet *)
Variables (tolerates : err -> bool) (accepts : buf -> bool).

Definition fatal (e : option err) : bool :=
  match e with Some x => negb (tolerates x) | None => false end.
Definition err_of (e : option err) : err := match e with Some x => x | None => EOther end.

(** StreamFace.Run, 27-74: the packets handed to onPkt and why it stopped.
    int(l) < 0 panics: either make gets a negative size, or l takes 9 bytes to
    encode and does not fit into the rest of the buffer. *)
Fixpoint s_run (fuel : nat) (cs : list buf) : list buf * stop :=
  match fuel with
  | O => ([], SClosed)
  | S f =>
      let '(t, e1, cs1) := sr_tl cs in
      if fatal e1 then ([], SError (err_of e1)) else
      let '(l, e2, cs2) := sr_tl cs1 in
      if fatal e2 then ([], SError (err_of e2)) else
      let size := (Z.of_N (tl_len t) + Z.of_N (tl_len l) + to_int l)%Z in
      if (to_int l <? 0)%Z || negb (make_ok 1 size) then ([], SPanic) else
      let n := N.to_nat l in
      let '(body, cs3) := sr_full n cs2 in
      let e3 := if (length body <? n)%nat then Some (match body with [] => EEOF | _ => EUnexpectedEOF end) else None in
      if fatal e3 then ([], SError (err_of e3)) else
      let pkt := tl_enc t ++ tl_enc l ++ body ++ repeat 0%N (n - length body) in
      if accepts pkt then let '(ps, s) := s_run f cs3 in (pkt :: ps, s)
      else ([pkt], SRefused)
  end.

End Run.

(** StreamFace.Send, 103-116, under sendMut: the bytes written so far, then the
    buffers of the packet in turn.  Write errors are not modelled. *)
Definition s_send (out : buf) (pkt : list buf) : buf := fold_left (fun o b => o ++ b) pkt out.
Definition s_sends (pkts : list (list buf)) : buf := fold_left s_send pkts [].
