(** Management commands: pkg/ndn/mgmt_2022/mgmt.go, and ExecMgmtCmd, RegisterRoute and UnregisterRoute of
    pkg/engine/basic/default_engine.go. *)
From Verif Require Import Base PrimModel ReaderModel NameModel CodecModel CodecLib SpecModel.

Definition gen (b : buf) : comp := mkComp TypeGeneric b.
Definition s_localhost : buf := [108; 111; 99; 97; 108; 104; 111; 115; 116]%N.
Definition s_localhop : buf := [108; 111; 99; 97; 108; 104; 111; 112]%N.
Definition s_nfd : buf := [110; 102; 100]%N.
Definition s_rib : buf := [114; 105; 98]%N.
Definition s_register : buf := [114; 101; 103; 105; 115; 116; 101; 114]%N.
Definition s_unregister : buf := [117; 110; 114; 101; 103; 105; 115; 116; 101; 114]%N.

(** params.Bytes(), mgmt.go 22 and 36; [args] are the fields of ControlArgs in the order of the structure *)
Definition cmd_params (args : list value) : res buf :=
  do r <- m_encode (mkEP 0 false) mgmt_ControlParameters [VStruct args]; Ok (concat (fst r)).
(** mgmt.go 24-37 *)
Definition cmd_name (local : bool) (module cmd : buf) (params : buf) : name :=
  [gen (if local then s_localhost else s_localhop); gen s_nfd; gen module; gen cmd; gen params].

Section Sha.
  Variable sha256 : buf -> buf.
  (** MakeCmd, mgmt.go 19-40.  The parameters of the Interest are enc.Wire{}: present and empty. *)
  Definition make_cmd (local : bool) (module cmd : buf) (args : list value) (c : interest_config) (s : signer)
    : res (wire * option wire * name) :=
    do b <- cmd_params args;
    make_interest sha256 (Some (cmd_name local module cmd b)) (Some c) (Some []) (Some s).

  (** utils.ConvertNonce, pkg/utils/utils.go 42-48 *)
  Definition convert_nonce (b : buf) : N := fold_left (fun r v => ((r * 256 + v) mod two64)%N) b 0%N.
  (** ExecMgmtCmd, default_engine.go 457-461: the Interest; [nonce] is what the timer gives *)
  Definition exec_interest (local : bool) (module cmd : buf) (args : list value) (nonce : buf) (s : signer)
    : res (wire * option wire * name) :=
    make_cmd local module cmd args (mkIC false false None (Some (convert_nonce nonce)) (Some 1000000000%Z) None) s.
End Sha.

(** RegisterRoute and UnregisterRoute, 508-532: the arguments, and the Interest sent *)
Definition route_args (prefix : name) : list value := VName prefix :: repeat VNone 15.
Definition route_interest (sha256 : buf -> buf) (local register : bool) (prefix : name) (nonce : buf) (s : signer) : res (wire * option wire * name) :=
  exec_interest sha256 local s_rib (if register then s_register else s_unregister) (route_args prefix) nonce s.

(** ** The answer *)

(** what the callback is called with; of a Data packet, what cmdChecker says of it and the content *)
Inductive answer : Type :=
| ANack (reason : N)
| ATimeout
| AData (valid : bool) (content : option wire).
(** the error that goes into the channel; [MDone] is nil *)
Inductive mres : Type :=
| MDone
| MNacked (reason : N)
| MDeadline
| MBadSignature
| MParse (e : err)
| MFailed (code : N) (text : buf)
| MImproper.
(** the callback, 466-497.  A parser returns a ControlResponse with StatusCode and StatusText, or an error. *)
Definition exec_result (F : nat) (a : answer) : res mres :=
  match a with
  | ANack r => Ok (MNacked r)
  | ATimeout => Ok MDeadline
  | AData valid content =>
      if negb valid then Ok MBadSignature
      else
        match m_parse F mgmt_ControlResponse true (new_wire_reader (match content with Some w => w | None => [] end)) with
        | Ok (VStruct (VNat code :: VBytes text :: _) :: _, _) => Ok (if (code =? 200)%N then MDone else MFailed code text)
        | Ok (_, _) => Ok MImproper
        | Err e => Ok (MParse e)
        | Panic => Panic
        | Hang => Hang
        end
  end.

(** ** The channel

    ExecMgmtCmd waits for the channel (501) unless Express returned an error (498-500); the callback puts
    the result into the unbuffered channel and closes it (496).  The callback runs under pitLock. *)
Record exec : Type := mkExec { x_waits : bool; x_result : option mres; x_closed : bool }.
Definition exec_start (sent : bool) : exec := mkExec sent None false.
(** one call of the callback: [Panic], a send on a closed channel; [Hang], nobody receives and the
    goroutine that holds pitLock waits for ever *)
Definition exec_call (x : exec) (r : mres) : res exec :=
  if x_closed x then Panic
  else if x_waits x then Ok (mkExec false (Some r) true)
  else Hang.
Fixpoint exec_calls (x : exec) (rs : list mres) : res exec :=
  match rs with [] => Ok x | r :: rs' => do x' <- exec_call x r; exec_calls x' rs' end.
