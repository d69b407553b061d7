(** Packets on the link: bare, or in an NDNLPv2 packet. *)
From Verif Require Import Base PrimModel NameModel CodecSpec CodecSpec2 SpecModel SpecSpec RecvModel.

(** the headers of an NDNLPv2 packet *)
Record lp_headers : Type := mkLp {
  l_seq : option N; l_frag_index : option N; l_frag_count : option N; l_token : option buf; l_nack : option N;
  l_face : option N; l_next_hop : option N; l_cache : option N; l_mark : option N; l_ack : option N; l_tx : option N;
  l_non_discovery : bool; l_announce : option buf }.

Definition lp_part (h : lp_headers) : buf :=
  opt_tlv 81 (option_map (be 8) (l_seq h)) ++ opt_tlv 82 (option_map nat_enc (l_frag_index h)) ++ opt_tlv 83 (option_map nat_enc (l_frag_count h))
  ++ opt_tlv 98 (l_token h) ++ opt_tlv 800 (option_map (fun r => tlv 801 (nat_enc r)) (l_nack h))
  ++ opt_tlv 812 (option_map nat_enc (l_face h)) ++ opt_tlv 816 (option_map nat_enc (l_next_hop h))
  ++ opt_tlv 820 (option_map (fun r => tlv 821 (nat_enc r)) (l_cache h)) ++ opt_tlv 832 (option_map nat_enc (l_mark h))
  ++ opt_tlv 836 (option_map (be 8) (l_ack h)) ++ opt_tlv 840 (option_map (be 8) (l_tx h))
  ++ flag 844 (l_non_discovery h) ++ opt_tlv 848 (l_announce h).
Definition lp_packet (h : lp_headers) (payload : option buf) : buf := tlv 100 (lp_part h ++ opt_tlv 80 payload).

Definition lp_ok (h : lp_headers) : Prop :=
  Forall (all_of (fun n => n < two64)%N)
    [l_seq h; l_frag_index h; l_frag_count h; l_nack h; l_face h; l_next_hop h; l_cache h; l_mark h; l_ack h; l_tx h].
Definition lp_size (h : lp_headers) : N := (olen (@nlen N) (l_token h) + olen (@nlen N) (l_announce h))%N.

(** no header but the PIT token *)
Definition token_only (t : buf) : lp_headers := mkLp None None None (Some t) None None None None None None None false None.

Definition fragmented (h : lp_headers) : bool :=
  match l_frag_index h, l_frag_count h with None, None => false | _, _ => true end.
(** a Nack header; one with reason 0 ("None") is not one *)
Definition nacked (h : lp_headers) : bool := match l_nack h with Some r => negb (r =? 0)%N | None => false end.

(** how a packet comes *)
Inductive framing : Type := Bare | Lp (h : lp_headers).
Definition frame (f : framing) (b : buf) : buf := match f with Bare => b | Lp h => lp_packet h (Some b) end.
Definition framing_ok (f : framing) : Prop := match f with Bare => True | Lp h => lp_ok h end.
Definition framing_size (f : framing) : N := match f with Bare => 0%N | Lp h => lp_size h end.
Definition token_of (f : framing) : option buf := match f with Bare => None | Lp h => l_token h end.
Definition face_of (f : framing) : option N := match f with Bare => None | Lp h => l_face h end.
Definition plain (f : framing) : Prop := match f with Bare => True | Lp h => fragmented h = false /\ nacked h = false end.

(** an Interest to be accepted: its last component is the digest of its parameters, and one
    without parameters is not signed *)
Definition int_accepted (sha : buf -> buf) (fn : name) (ap : option wire) (osc : option sig_config) (osig : option buf) : Prop :=
  match ap with
  | Some _ => exists pre, fn = pre ++ [digest_comp (sha (params_part ap osc osig))]
  | None => osig = None
  end.

(** what a handler is called with for an Interest packet received at [now] *)
Definition args_ok (f : framing) (fn : name) (c : interest_config) (ap : option wire) (osc : option sig_config) (osig : option buf) (now : Z) (a : iargs) : Prop :=
  interest_reads fn c ap osc osig (ia_int a)
  /\ concat (ia_raw a) = interest_packet fn c ap osc osig
  /\ concat (ia_cov a) = name_enc (before_digest fn) ++ (match osig with Some _ => signed_params ap osc | None => [] end)
  /\ ia_token a = token_of f /\ ia_face a = face_of f
  /\ ia_deadline a = (now + match ic_life c with Some t => ms_floor t | None => 4000000000 end)%Z.
