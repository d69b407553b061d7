(** Packets: valid arguments, and what is meant to be read back. *)
From Verif Require Import Base PrimModel NameModel NameProofs CodecModel CodecSpec CodecSpec2 SpecModel.

Definition olen {A} (f : A -> N) (o : option A) : N := match o with Some x => f x | None => 0%N end.
Definition all_of {A} (P : A -> Prop) (o : option A) : Prop := match o with Some x => P x | None => True end.
Definition time_ok (t : Z) : Prop := (0 <= t < 9223372036854775808)%Z.
Definition ms_floor (t : Z) : Z := (t / 1000000 * 1000000)%Z.

(** A signature of [len] bytes fits the estimate, and its length can be written in the place of
    that of the estimate: one byte, or three with the same second byte. *)
Definition fits (est len : N) : Prop :=
  (0 < len <= est)%N /\ (est <= 252 \/ (253 <= len /\ est <= 65535 /\ est / 256 = len / 256))%N.

(** Data *)
Definition data_config_ok (c : data_config) : Prop :=
  all_of (fun n => n < two64)%N (dc_type c) /\ all_of time_ok (dc_fresh c) /\ all_of (fun x => comp_ok x /\ comp_short x) (dc_final c).
Definition data_sig_ok (sc : sig_config) : Prop :=
  (0 <= sc_type sc < 9223372036854775808)%Z /\ all_of name_typed (sc_key sc)
  /\ sc_nonce sc = None /\ sc_time sc = None /\ sc_seq sc = None
  /\ (sc_not_before sc = None <-> sc_not_after sc = None).
Definition sig_size (sc : sig_config) : N :=
  (olen (fun k => nlen (name_enc k)) (sc_key sc) + olen (@nlen N) (sc_nonce sc)
   + olen (@nlen N) (sc_not_before sc) + olen (@nlen N) (sc_not_after sc))%N.
Definition data_size (n : name) (c : data_config) (content : option wire) : N :=
  (nlen (name_enc n) + olen (fun x => nlen (comp_enc x)) (dc_final c) + olen (fun w => nlen (concat w)) content)%N.
(** 4 TiB *)
Definition packet_limit : N := 4398046511104.

(** ** The formats of NDN packets *)
Definition opt_tlv (t : N) (o : option buf) : buf := match o with Some b => tlv t b | None => [] end.
Definition ms_enc (t : Z) : buf := nat_enc (Z.to_N (t / 1000000)).

(** SignatureInfo: type, key locator, nonce, time (milliseconds), sequence number, validity period *)
Definition sig_info_part (typ : Z) (key : option name) (nonce : option buf) (time : option Z) (seq : option N) (validity : option (buf * buf)) : buf :=
  tlv 27 (nat_enc (Z.to_N typ)) ++ opt_tlv 28 (option_map (fun k => tlv 7 (name_enc k)) key) ++ opt_tlv 38 nonce
  ++ opt_tlv 40 (option_map (fun ms => nat_enc (Z.to_N ms)) time) ++ opt_tlv 42 (option_map nat_enc seq)
  ++ opt_tlv 253 (option_map (fun ab => tlv 254 (fst ab) ++ tlv 255 (snd ab)) validity).

Definition validity (sc : sig_config) : option (buf * buf) :=
  match sc_not_before sc, sc_not_after sc with Some a, Some b => Some (a, b) | _, _ => None end.

(** Data without its signature: Name, MetaInfo, Content, SignatureInfo *)
Definition data_part (n : name) (c : data_config) (content : option wire) (osc : option sig_config) : buf :=
  tlv 7 (name_enc n)
  ++ tlv 20 (opt_tlv 24 (option_map nat_enc (dc_type c)) ++ opt_tlv 25 (option_map ms_enc (dc_fresh c)) ++ opt_tlv 26 (option_map comp_enc (dc_final c)))
  ++ opt_tlv 21 (option_map (@concat N) content)
  ++ opt_tlv 22 (option_map (fun sc => sig_info_part (sc_type sc) (sc_key sc) None None None (validity sc)) osc).
Definition data_packet (n : name) (c : data_config) (content : option wire) (osc : option sig_config) (osig : option buf) : buf :=
  tlv 6 (data_part n c content osc ++ opt_tlv 23 osig).

(** The fields [d] of a Data packet are those asked for. *)
Definition data_reads (n : name) (c : data_config) (content : option wire) (osc : option sig_config) (osig : option buf) (d : list value) : Prop :=
  d_name d = Some n
  /\ d_content_type d = dc_type c
  /\ d_freshness d = option_map ms_floor (dc_fresh c)
  /\ d_final_block d = dc_final c
  /\ option_map (@concat N) (d_content d) = option_map (@concat N) content
  /\ d_sig_type d = match osc with Some sc => sc_type sc | None => SigNone end
  /\ d_key_name d = match osc with Some sc => sc_key sc | None => None end
  /\ d_validity d = match osc with Some sc => option_map (fun ab => (Some (fst ab), Some (snd ab))) (validity sc) | None => None end
  /\ d_sig_value d = osig.

(** ** Interest *)

(** the name without a ParametersSha256Digest component at its end *)
Definition base_name (n : name) : name :=
  match rev n with
  | c :: r => if (ctyp c =? TypeParametersSha256Digest)%N then rev r else n
  | [] => n
  end.
Definition digest_comp (d : buf) : comp := mkComp TypeParametersSha256Digest d.

Definition interest_config_ok (c : interest_config) : Prop :=
  all_of (Forall name_typed) (ic_hint c) /\ all_of (fun x => x < 4294967296)%N (ic_nonce c)
  /\ all_of time_ok (ic_life c) /\ all_of (fun x => x < 256)%N (ic_hops c).
Definition interest_sig_ok (sc : sig_config) : Prop :=
  (0 <= sc_type sc < 9223372036854775808)%Z /\ all_of name_typed (sc_key sc) /\ (sc_type sc <> SigSha256 -> sc_key sc <> None)
  /\ all_of (fun ms => 0 <= ms < 9223372036854)%Z (sc_time sc) /\ all_of (fun x => x < two64)%N (sc_seq sc)
  /\ sc_not_before sc = None /\ sc_not_after sc = None.
(** the key locator is left out of DigestSha256 signatures *)
Definition interest_key (sc : sig_config) : option name := if (sc_type sc =? SigSha256)%Z then None else sc_key sc.
Definition names_size (l : list name) : N := fold_right N.add 0%N (map (fun n => 18 + nlen (name_enc n))%N l).
Definition interest_size (n : name) (c : interest_config) (app : option wire) : N :=
  (nlen (name_enc n) + olen names_size (ic_hint c) + olen (fun w => nlen (concat w)) app)%N.

Definition flag (t : N) (b : bool) : buf := if b then tlv t [] else [].
(** from ApplicationParameters to the end *)
Definition signed_params (app : option wire) (osc : option sig_config) : buf :=
  opt_tlv 36 (option_map (@concat N) app)
  ++ opt_tlv 44 (option_map (fun sc => sig_info_part (sc_type sc) (interest_key sc) (sc_nonce sc) (sc_time sc) (sc_seq sc) None) osc).
Definition params_part (app : option wire) (osc : option sig_config) (osig : option buf) : buf :=
  signed_params app osc ++ opt_tlv 46 osig.
Definition interest_middle (c : interest_config) : buf :=
  flag 33 (ic_prefix c) ++ flag 18 (ic_fresh c)
  ++ opt_tlv 30 (option_map (fun l => concat (map (fun n => tlv 7 (name_enc n)) l)) (ic_hint c))
  ++ opt_tlv 10 (option_map (be 4) (ic_nonce c)) ++ opt_tlv 12 (option_map ms_enc (ic_life c))
  ++ opt_tlv 34 (option_map (be 1) (ic_hops c)).
Definition interest_packet (fn : name) (c : interest_config) (app : option wire) (osc : option sig_config) (osig : option buf) : buf :=
  tlv 5 (tlv 7 (name_enc fn) ++ interest_middle c ++ params_part app osc osig).

Definition interest_reads (fn : name) (c : interest_config) (app : option wire) (osc : option sig_config) (osig : option buf) (i : list value) : Prop :=
  i_name i = Some fn
  /\ i_can_be_prefix i = ic_prefix c /\ i_must_be_fresh i = ic_fresh c
  /\ i_hint i = option_map (map Some) (ic_hint c)
  /\ i_nonce i = ic_nonce c
  /\ i_lifetime i = option_map ms_floor (ic_life c)
  /\ i_hop_limit i = ic_hops c
  /\ option_map (@concat N) (i_app_param i) = option_map (@concat N) app
  /\ i_sig_type i = match osc with Some sc => sc_type sc | None => SigNone end
  /\ i_key_name i = match osc with Some sc => interest_key sc | None => None end
  /\ i_sig_nonce i = match osc with Some sc => sc_nonce sc | None => None end
  /\ i_sig_time i = match osc with Some sc => sc_time sc | None => None end
  /\ i_sig_seq i = match osc with Some sc => sc_seq sc | None => None end
  /\ i_sig_value i = match osig with Some s => s | None => [] end.

(** ** Signers *)

(** no signer, no configuration, SignatureNone, or nothing to be signed *)
Definition unsigned (sg : option signer) (osc : option sig_config) : Prop :=
  match sg with
  | None => osc = None
  | Some s => (sg_info s = Ok None /\ osc = None) \/ (exists sc, sg_info s = Ok (Some sc) /\ sc_type sc = SigNone /\ osc = None)
              \/ (exists sc, sg_info s = Ok (Some sc) /\ data_sig_ok sc /\ sg_est s = 0%N /\ osc = Some sc)
  end.

Definition int_unsigned (need : bool) (sg : option signer) (osc : option sig_config) : Prop :=
  match sg with
  | None => osc = None
  | Some s => (sg_info s = Ok None /\ osc = None) \/ (exists sc, sg_info s = Ok (Some sc) /\ sc_type sc = SigNone /\ osc = None)
              \/ (exists sc, need = true /\ sg_info s = Ok (Some sc) /\ interest_sig_ok sc /\ sg_est s = 0%N /\ osc = Some sc)
  end.

(** the name of an Interest with parameters: it ends with the digest of everything from
    ApplicationParameters on *)
Definition final_interest (sha : buf -> buf) (n : name) (a : wire) (osc : option sig_config) (osig : option buf) : name :=
  base_name n ++ [digest_comp (sha (params_part (Some a) osc osig))].
Definition digest_right (sha : buf -> buf) (fn : name) (b : buf) : bool :=
  match rev fn with
  | last :: _ => (ctyp last =? TypeParametersSha256Digest)%N && bytes_eqb (cval last) (sha b)
  | [] => false
  end.


(** names without empty components and wires without empty buffers, for reading from more than one buffer *)
Definition full_name (n : name) : Prop := Forall (fun c => cval c <> []) n.
Definition full_names (n : name) (osc : option sig_config) : Prop :=
  full_name n /\ match osc with Some sc => match sc_key sc with Some k => full_name k | None => True end | None => True end.
Definition full_wire (w : wire) : Prop := Forall (fun b => b <> []) w.
Definition full_content (content : option wire) : Prop := match content with Some w => full_wire w | None => True end.
(** the first buffer of the wire of a packet goes beyond the type and the length of the packet *)
Definition beyond_header (w : wire) (body : buf) : Prop :=
  (zlen (concat w) - zlen body < zlen (hd [] w))%Z.
