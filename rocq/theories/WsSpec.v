(** Vocabulary for the statements about WebSocketFace. *)
From Verif Require Import Base WsModel.

(** the bytes of the binary messages *)
Definition binaries (ms : list wmsg) : list buf := flat_map (fun m => match m with WBin b => [b] | WOther _ => [] end) ms.

(** goroutine [i] sends this packet and is at this place *)
Definition w_doing (s : wface) (i : nat) (pkt : list buf) (p : wpc) : Prop := nth_error (w_threads s) i = Some (pkt, p).
(** the packet that goroutine [i] sends *)
Definition w_packet (s : wface) (i : nat) : list buf := match nth_error (w_threads s) i with Some (pkt, _) => pkt | None => [] end.
(** its Send has returned nil *)
Definition w_sent (s : wface) (i : nat) : Prop := exists pkt, w_doing s i pkt (WsRet true).
