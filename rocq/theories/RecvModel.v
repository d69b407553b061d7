(** The receiving half of pkg/engine/basic/default_engine.go: onPacket, onInterest and Reply.

    Debug logging (which also calls Range and Join) is left out.  log.Fatalf ends the process:
    it is a [Panic] here.  Times are in nanoseconds, unbounded. *)
From Verif Require Import Base PrimModel ReaderModel NameModel TrieModel EngineModel FibModel CodecModel CodecLib SpecModel.

(** what onPacket makes of a packet *)
Inductive revent : Type :=
| EvDrop                                                       (* logged and dropped *)
| EvNack (n : option name) (reason : N)                        (* onNack *)
| EvInterest (i : list value) (raw cov : wire) (token : option buf) (face : option N) (* onInterest *)
| EvData (d : list value) (cov raw : wire) (token : option buf). (* onData *)

Definition nack_none : N := 0. (* spec.NackReasonNone, spec_2022/definitions.go 68 *)

Definition is_struct (v : value) : bool := match v with VStruct _ => true | _ => false end.

Section Recv.
  (** crypto/sha256 *)
  Variable sha256 : buf -> buf.

  (** 163-195, on the packet, the context and what the link-layer header said *)
  Definition dispatch (vs : list value) (cx : list pcx) (nack : N) (token : option buf) (face : option N) (raw : wire) : res revent :=
    if negb (nack =? nack_none)%N then
      match nth 0 vs VNone with
      | VStruct i => Ok (EvNack (i_name i) nack)
      | _ => Ok EvDrop
      end
    else
      match nth 0 vs VNone, nth 1 vs VNone with
      | VStruct i, _ => Ok (EvInterest i raw (x_cov (nth 0 (x_sub (nth 0 cx XNone)) XNone)) token face)
      | _, VStruct d => Ok (EvData d (x_cov (nth 0 (x_sub (nth 1 cx XNone)) XNone)) raw token)
      | _, _ => Panic
      end.

  (** 136-140: the reader of the packet within a link-layer packet *)
  Definition inner_reader (raw : wire) : reader :=
    match raw with
    | [b] => new_buffer_reader b
    | _ => new_wire_reader raw
    end.

  (** onPacket, 112-196.  [F] is the fuel of the parser. *)
  Definition on_packet (F : nat) (r : reader) : res revent :=
    match read_packet sha256 F r with
    | Panic => Panic
    | Hang => Hang
    | Err _ => Ok EvDrop
    | Ok (vs, cx) =>
        match nth 2 vs VNone with
        | VStruct l =>
            match g_nat (nth 1 l VNone), g_nat (nth 2 l VNone) with
            | None, None =>
                let raw := match nth 13 l VNone with VWire w => w | _ => [] end in
                match read_packet sha256 F (inner_reader raw) with
                | Panic => Panic
                | Hang => Hang
                | Err _ => Ok EvDrop
                | Ok (vs', cx') =>
                    if eqb (is_struct (nth 1 vs' VNone)) (is_struct (nth 0 vs' VNone)) then Ok EvDrop
                    else
                      let nack := match g_nat (g_fld (nth 4 l VNone) 0) with Some x => x | None => nack_none end in
                      dispatch vs' cx' nack (g_bytes (nth 3 l VNone)) (g_nat (nth 5 l VNone)) raw
                end
            | _, _ => Ok EvDrop
            end
        | _ =>
            do len <- r_length r;
            do g <- r_range 0 len r;
            dispatch vs cx nack_none None None (opt_wire g)
        end
    end.

  (** ** The effects.  The state of an engine: the pending Interests and the handlers. *)
  Section Node.
    Variable H : Type.
    Record node : Type := mkNode { n_eng : engine; n_fib : store (option H) }.

    (** ndn.InterestHandlerArgs, ndn.go 197-212, without Reply *)
    Record iargs : Type := mkArgs { ia_int : list value; ia_raw : wire; ia_cov : wire; ia_token : option buf; ia_face : option N; ia_deadline : Z }.

    (** 201-207 *)
    Definition deadline_of (now : Z) (i : list value) : Z :=
      (now + match i_lifetime i with Some l => l | None => DefaultInterestLife end)%Z.

    Definition the_name (o : option name) : name := match o with Some n => n | None => [] end.

    (** onInterest, 198-264 up to the call of the handler; onData and onNack are those of EngineModel *)
    Definition node_event (nd : node) (ev : revent) : res (node * option (H * iargs)) :=
      match ev with
      | EvDrop => Ok (nd, None)
      | EvNack n reason => do g <- e_nack (n_eng nd) (the_name n) reason; Ok (mkNode g (n_fib nd), None)
      | EvData d _ raw _ => do g <- e_data (n_eng nd) (the_name (d_name d)) (sha256 (concat raw)); Ok (mkNode g (n_fib nd), None)
      | EvInterest i raw cov token face =>
          do h <- f_match (n_fib nd) (the_name (i_name i));
          Ok (nd, match h with
                  | Some h => Some (h, mkArgs i raw cov token face (deadline_of (g_now (n_eng nd)) i))
                  | None => None
                  end)
      end.

    Definition node_recv (F : nat) (nd : node) (b : buf) : res (node * option (H * iargs)) :=
      do ev <- on_packet F (new_buffer_reader b); node_event nd ev.
  End Node.
End Recv.
Arguments mkNode {H}. Arguments n_eng {H}. Arguments n_fib {H}. Arguments node_event _ {H}. Arguments node_recv _ {H}.

(** args.Reply, 232-259.  [RSent w]: [w] is passed to face.Send, whose error is that of Reply.
    The Encode of a packet never returns nil, so ErrFailedToEncode does not occur. *)
Inductive reply_out : Type := RSent (w : wire) | RDeadline | RFaceDown.

Definition reply (a : iargs) (now : Z) (running : bool) (data : option wire) : res reply_out :=
  if (ia_deadline a <? now)%Z then Ok RDeadline
  else if negb running then Ok RFaceDown
  else match ia_token a with
       | Some t =>
           do r <- m_encode (mkEP 0 false) spec_Packet
             [VNone; VNone; VStruct [VNone; VNone; VNone; VBytes t; VNone; VNone; VNone; VNone; VNone; VNone; VNone; VBool false; VNone; v_wire data]];
           Ok (RSent (fst r))
       | None => Ok (RSent (match data with Some w => w | None => [] end))
       end.
