(** Vocabulary for the statements about management commands. *)
From Verif Require Import Base PrimModel NameModel CodecModel CodecLib CodecSpec CodecSpec2 EngineModel EngineSpec MgmtModel.

(** arguments in the ranges of their Go types *)
Definition args_ok (args : list value) : Prop := fs_shape (m_fields mgmt_ControlArgs) args /\ fs_typed (m_fields mgmt_ControlArgs) args.

(** what reaches the channel of the command that was Interest number i: [ans] is what the callback
    makes of the results of the engine *)
Definition results_for (ans : result -> mres) (g : engine) (i : nat) : list mres :=
  map (fun e => ans (snd e)) (filter (fun e => (fst e =? i)%nat) (callbacks g)).

(** a ControlResponse with the given code, text and parameters; the last are absent or [args_ok]
    and can be read from several buffers (no empty name components) *)
Definition response (code : N) (text : buf) (params : value) : list value := [VStruct [VNat code; VBytes text; params]].
Definition response_ok (code : N) (params : value) : Prop :=
  (code < two64)%N /\ (params = VNone \/ exists args, params = VStruct args /\ args_ok args /\ fs_wire_safe (m_fields mgmt_ControlArgs) args).
