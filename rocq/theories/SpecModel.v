(** pkg/ndn/spec_2022/spec.go: making and reading Data and Interest packets. *)
From Verif Require Import Base PrimModel ReaderModel NameModel CodecModel CodecLib.

(** ** Arguments *)

(** ndn.SigConfig, ndn.go 62-70.  [sc_time] is SigTime.UnixMilli(); [sc_not_before] and
    [sc_not_after] are the times formatted by UTC().Format(TimeFmt): the conversions of
    package time are not modelled. *)
Record sig_config : Type := mkSC {
  sc_type : Z; sc_key : option name; sc_nonce : option buf; sc_time : option Z; sc_seq : option N;
  sc_not_before : option buf; sc_not_after : option buf }.

(** ndn.Signer, ndn.go 85-89: the results of the calls, of which there is one of each *)
Record signer : Type := mkSigner { sg_info : res (option sig_config); sg_est : N; sg_sign : wire -> res buf }.

(** ndn.DataConfig, ndn.go 92-96 *)
Record data_config : Type := mkDC { dc_type : option N; dc_fresh : option Z; dc_final : option comp }.

(** ndn.InterestConfig, ndn.go 110-117 *)
Record interest_config : Type := mkIC {
  ic_prefix : bool; ic_fresh : bool; ic_hint : option (list name); ic_nonce : option N; ic_life : option Z; ic_hops : option N }.

Definition v_nat (o : option N) : value := match o with Some n => VNat n | None => VNone end.
Definition v_time (o : option Z) : value := match o with Some n => VTime n | None => VNone end.
Definition v_bytes (o : option buf) : value := match o with Some b => VBytes b | None => VNone end.
Definition v_wire (o : option wire) : value := match o with Some w => VWire w | None => VNone end.
Definition v_name (o : option name) : value := match o with Some n => VName n | None => VNone end.

(** ndn.SignatureNone and SignatureDigestSha256, ndn.go 19-20 *)
Definition SigNone : Z := (-1)%Z.
Definition SigSha256 : Z := 0%Z.

(** ** MakeData, spec.go 232-351 *)

(** spec.go 281-306: the SignatureInfo of a Data packet *)
Definition data_sig_info (c : sig_config) : res value :=
  match sc_nonce c, sc_seq c, sc_time c with
  | Some _, _, _ | _, Some _, _ | _, _, Some _ => Err EOther
  | None, None, None =>
      let loc := match sc_key c with Some k => VStruct [VName k; VNone] | None => VNone end in
      do val <- match sc_not_before c, sc_not_after c with
                | None, None => Ok VNone
                | Some a, Some b => Ok (VStruct [VBytes a; VBytes b])
                | _, _ => Err EOther
                end;
      Ok (VStruct [VNat (to_u64 (sc_type c)); loc; VNone; VNone; VNone; val; VNone])
  end.

(** spec.go 262-309: SignatureInfo and estSigLen *)
Definition sig_part (info : sig_config -> res value) (sg : option signer) : res (value * Z) :=
  match sg with
  | None => Ok (VNone, 0%Z)
  | Some s =>
      do oc <- sg_info s;
      match oc with
      | None => Ok (VNone, 0%Z)
      | Some c => if (sc_type c =? SigNone)%Z then Ok (VNone, 0%Z)
                  else do v <- info c; Ok (v, to_int (sg_est s))
      end
  end.

(** the fields of the Data structure, in the order of spec_Data; spec.go 241-257 *)
Definition data_values (n : name) (c : data_config) (final : option buf) (content : option wire) (info : value) : list value :=
  [ VNone; VNone; VName n; VStruct [v_nat (dc_type c); v_time (dc_fresh c); v_bytes final]; v_wire content; info; VNone ].

(** wire[idx] = sigVal; buf := wire[idx-1]; buf[len(buf)-1] = byte(len(sigVal)): spec.go 336-339 and 465-468 *)
Definition put_sig (w : wire) (idx : nat) (sig : buf) : res wire :=
  if (idx <? length w)%nat then
    match idx with
    | O => Panic
    | S i =>
        let w1 := upd w idx sig in
        match nth i w1 [] with
        | [] => Panic
        | b => Ok (upd w1 i (removelast b ++ [(nlen sig mod 256)%N]))
        end
    end
  else Panic.

Definition y_sub (y : ecx) : list ecx := match y with YSub l => l | _ => [] end.
Definition y_sig (y : ecx) : nat := match y with YSig i => i | _ => O end.
Definition y_pos (y : ecx) : Z := match y with YName _ z => z | _ => 0%Z end.

(** wire[0] = enc.ShrinkLength(wire[0], shrink) *)
Definition shrink_wire (w : wire) (shrink : Z) : res wire :=
  match w with
  | [] => Panic
  | b :: w' => do b' <- shrink_length b shrink; Ok (b' :: w')
  end.

(** Returns the wire and SigCovered (nil when there is no signature).  The covered buffers share
    memory with the wire; the places written after signing are not among them. *)
Definition make_data (on : option name) (oc : option data_config) (content : option wire) (sg : option signer) : res (wire * option wire) :=
  match on, oc with
  | Some n, Some c =>
      do final <- match dc_final c with
                  | Some fc => do b <- comp_bytes fc; Ok (Some b)
                  | None => Ok None
                  end;
      do sp <- sig_part data_sig_info sg;
      let '(info, est) := sp in
      do r <- m_encode (mkEP (to_u64 est) false) spec_Packet [VNone; VStruct (data_values n c final content info); VNone];
      let '(w, ys) := r in
      match sg with
      | Some s =>
          if (0 <? est)%Z then
            let yd := y_sub (nth 1 ys YNone) in
            let cov := y_cov (nth 0 yd YNone) in
            do sig <- sg_sign s cov;
            if (est <? zlen sig)%Z then Err EOther else
            do w1 <- put_sig w (y_sig (nth 6 yd YNone)) sig;
            do w2 <- shrink_wire w1 (est - zlen sig);
            Ok (w2, Some cov)
          else Ok (w, None)
      | None => Ok (w, None)
      end
  | _, _ => Err EOther
  end.

(** ** ReadData, spec.go 353-367.  Returns the fields of the Data structure, and sigCovered.
    [F] is the fuel of the parser. *)
Definition read_data (F : nat) (r : reader) : res (list value * wire) :=
  do x <- m_parse F spec_Packet false r;
  let '(vs, cx) := x in
  match nth 1 vs VNone with
  | VStruct d =>
      match nth 2 d VNone with
      | VName _ => Ok (d, x_cov (nth 0 (x_sub (nth 1 cx XNone)) XNone))
      | _ => Err EOther
      end
  | _ => Err EOther
  end.

(** ** Accessors of Data, spec.go 29-141 *)
Definition g_nat (v : value) : option N := match v with VNat n => Some n | _ => None end.
Definition g_time (v : value) : option Z := match v with VTime z => Some z | _ => None end.
Definition g_bytes (v : value) : option buf := match v with VBytes b => Some b | _ => None end.
Definition g_wire (v : value) : option wire := match v with VWire w => Some w | _ => None end.
Definition g_name (v : value) : option name := match v with VName n => Some n | _ => None end.
Definition g_bool (v : value) : bool := match v with VBool b => b | _ => false end.
Definition g_struct (v : value) : option (list value) := match v with VStruct l => Some l | _ => None end.
Definition g_fld (v : value) (i : nat) : value := match v with VStruct l => nth i l VNone | _ => VNone end.

(** SigType, KeyName; 29-43 and 142-156.  [info] is the SignatureInfo. *)
Definition sig_type_of (info : value) : Z :=
  match info with VStruct l => match nth 0 l VNone with VNat n => to_int n | _ => 0%Z end | _ => SigNone end.
Definition key_name_of (info : value) : option name := g_name (g_fld (g_fld info 1) 0).

Definition d_name (d : list value) : option name := g_name (nth 2 d VNone).
Definition d_content_type (d : list value) : option N := g_nat (g_fld (nth 3 d VNone) 0).
Definition d_freshness (d : list value) : option Z := g_time (g_fld (nth 3 d VNone) 1).
(** 128-139 *)
Definition d_final_block (d : list value) : option comp :=
  match g_bytes (g_fld (nth 3 d VNone) 2) with
  | Some b => match comp_from_bytes b with Ok c => Some c | _ => None end
  | None => None
  end.
Definition d_content (d : list value) : option wire := g_wire (nth 4 d VNone).
Definition d_sig_type (d : list value) : Z := sig_type_of (nth 5 d VNone).
Definition d_key_name (d : list value) : option name := key_name_of (nth 5 d VNone).
(** 75-89, before time.Parse *)
Definition d_validity (d : list value) : option (option buf * option buf) :=
  match g_fld (nth 5 d VNone) 5 with
  | VStruct [a; b] => Some (g_bytes a, g_bytes b)
  | _ => None
  end.
(** 92-98: Join *)
Definition d_sig_value (d : list value) : option buf :=
  match g_wire (nth 6 d VNone) with Some w => Some (concat w) | None => None end.

(** ** MakeInterest, spec.go 369-527 *)

(** spec.go 412-446 *)
Definition interest_sig_info (need : bool) (c : sig_config) : res value :=
  if negb need then Err EOther else
  match sc_not_before c, sc_not_after c with
  | None, None =>
      do loc <- (if (sc_type c =? SigSha256)%Z then Ok VNone
                 else match sc_key c with Some k => Ok (VStruct [VName k; VNone]) | None => Err EOther end);
      Ok (VStruct [VNat (to_u64 (sc_type c)); loc; v_bytes (sc_nonce c);
                   match sc_time c with Some ms => VTime (wrap64 (ms * 1000000)) | None => VNone end;
                   v_nat (sc_seq c); VNone; VNone])
  | _, _ => Err EOther
  end.

(** the fields of the Interest structure, in the order of spec_Interest; spec.go 377-396.
    ConvIntPtr truncates the nonce to 32 and the hop limit to 8 bits. *)
Definition interest_values (n : name) (c : interest_config) (app : option wire) (info : value) : list value :=
  [ VNone; VNone; VName n; VBool (ic_prefix c); VBool (ic_fresh c);
    match ic_hint c with Some l => VStruct [VSeq (map VName l)] | None => VNone end;
    match ic_nonce c with Some x => VNat (x mod 4294967296) | None => VNone end;
    v_time (ic_life c);
    match ic_hops c with Some x => VNat (x mod 256) | None => VNone end;
    VNone; VNone; v_wire app; info; VNone; VNone ].

Section Sha.
  (** crypto/sha256 *)
  Variable sha256 : buf -> buf.

  (** spec.go 476-501: the wire and the final name *)
  Definition put_digest (w : wire) (pos : Z) (applen : N) (n : name) : res (wire * name) :=
    match w with
    | [] => Panic
    | b :: w' =>
        do p1 <- parse_tl b;
        do rest <- slice b (snd p1) (zlen b);
        do p2 <- parse_tl rest;
        let dpos := (pos + snd p1 + snd p2)%Z in
        do _ <- slice b dpos (dpos + 32);
        do cov <- slice b (zlen b - Z.of_N (tl_len applen) - 1) (zlen b);
        match rev n with
        | [] => Panic
        | last :: r =>
            let d := firstn 32 (sha256 (cov ++ concat w')) in
            do b' <- write_at b dpos d;
            do d' <- slice b' dpos (dpos + 32);
            Ok (b' :: w', rev r ++ [mkComp (ctyp last) d'])
        end
    end.

  (** Returns the wire, SigCovered and FinalName.  Init appends to the Name of the caller, possibly
      in the caller's array; that effect is not modelled. *)
  Definition make_interest (on : option name) (oc : option interest_config) (app : option wire) (sg : option signer)
    : res (wire * option wire * name) :=
    match on, oc with
    | Some n, Some c =>
        let need := match app with Some _ => true | None => false end in
        do sp <- sig_part (interest_sig_info need) sg;
        let '(info, est) := sp in
        if (253 <=? est)%Z then Err EOther else
        let p := mkEP (to_u64 est) need in
        do r <- m_encode p spec_Packet [VStruct (interest_values n c app info); VNone; VNone];
        let '(w, ys) := r in
        let yi := y_sub (nth 0 ys YNone) in
        do sw <- match sg with
                 | Some s =>
                     if (0 <? est)%Z then
                       let cov := y_cov (nth 0 yi YNone) in
                       do sig <- sg_sign s cov;
                       if (est <? zlen sig)%Z then Err EOther else
                       do w1 <- put_sig w (y_sig (nth 13 yi YNone)) sig;
                       Ok (w1, Some cov, zlen sig)
                     else Ok (w, None, 0%Z)
                 | None => Ok (w, None, 0%Z)
                 end;
        let '(w1, cov, len) := sw in
        let fn := final_name p n in
        do dn <- match app with
                 | Some a => put_digest w1 (y_pos (nth 2 yi YNone)) (nlen (concat a)) fn
                 | None => Ok (w1, fn)
                 end;
        let '(w2, fn') := dn in
        let shrink := (est - len)%Z in
        if (0 <? shrink)%Z then do w3 <- shrink_wire w2 shrink; Ok (w3, cov, fn')
        else if (shrink <? 0)%Z then Err EOther
        else Ok (w2, cov, fn')
    | _, _ => Err EOther
    end.

  (** ** checkInterest, spec.go 529-556 *)
  Definition check_interest (i : list value) (cx : list pcx) : res unit :=
    match nth 2 i VNone with
    | VName n =>
        match nth 11 i VNone, nth 13 i VNone with
        | VNone, VNone => Ok tt
        | VNone, _ => Err EDigest
        | _, _ =>
            match rev n with
            | last :: _ =>
                if (ctyp last =? TypeParametersSha256Digest)%N
                   && bytes_eqb (cval last) (sha256 (concat (x_cov (nth 1 cx XNone))))
                then Ok tt else Err EDigest
            | [] => Err EDigest
            end
        end
    | _ => Err EOther
    end.

  (** ReadInterest, spec.go 558-575 *)
  Definition read_interest (F : nat) (r : reader) : res (list value * wire) :=
    do x <- m_parse F spec_Packet false r;
    let '(vs, cx) := x in
    match nth 0 vs VNone with
    | VStruct i =>
        let c := x_sub (nth 0 cx XNone) in
        do _ <- check_interest i c;
        Ok (i, x_cov (nth 0 c XNone))
    | _ => Err EOther
    end.

  (** ReadPacket, spec.go 593-618: the packet and the parsing context *)
  Definition read_packet (F : nat) (r : reader) : res (list value * list pcx) :=
    do x <- m_parse F spec_Packet false r;
    let '(vs, cx) := x in
    match nth 1 vs VNone, nth 0 vs VNone, nth 2 vs VNone with
    | VStruct d, _, _ => match nth 2 d VNone with VName _ => Ok (vs, cx) | _ => Err EOther end
    | _, VStruct i, _ => do _ <- check_interest i (x_sub (nth 0 cx XNone)); Ok (vs, cx)
    | _, _, VStruct l => match nth 13 l VNone with VWire _ => Ok (vs, cx) | _ => Err EOther end
    | _, _, _ => Err EOther
    end.
End Sha.

(** ** Accessors of Interest, spec.go 142-230 *)
Definition i_name (i : list value) : option name := g_name (nth 2 i VNone).
Definition i_can_be_prefix (i : list value) : bool := g_bool (nth 3 i VNone).
Definition i_must_be_fresh (i : list value) : bool := g_bool (nth 4 i VNone).
Definition i_hint (i : list value) : option (list (option name)) :=
  match nth 5 i VNone with
  | VStruct (VSeq l :: _) => Some (map g_name l)
  | _ => None
  end.
Definition i_nonce (i : list value) : option N := g_nat (nth 6 i VNone).
Definition i_lifetime (i : list value) : option Z := g_time (nth 7 i VNone).
Definition i_hop_limit (i : list value) : option N := g_nat (nth 8 i VNone).
Definition i_app_param (i : list value) : option wire := g_wire (nth 11 i VNone).
Definition i_sig_type (i : list value) : Z := sig_type_of (nth 12 i VNone).
Definition i_key_name (i : list value) : option name := key_name_of (nth 12 i VNone).
Definition i_sig_nonce (i : list value) : option buf := g_bytes (g_fld (nth 12 i VNone) 2).
(** SigTime, in milliseconds *)
Definition i_sig_time (i : list value) : option Z :=
  match g_time (g_fld (nth 12 i VNone) 3) with Some ns => Some (Z.quot ns 1000000) | None => None end.
Definition i_sig_seq (i : list value) : option N := g_nat (g_fld (nth 12 i VNone) 4).
Definition i_sig_value (i : list value) : buf := match g_wire (nth 13 i VNone) with Some w => concat w | None => [] end.
