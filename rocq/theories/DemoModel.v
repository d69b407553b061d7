(** pkg/schema/demosec: the key store (store.go) and the policies SignedByPolicy and KeyStoragePolicy
    (policies.go).

    HMAC with SHA-256 is a parameter.  The lock of KeyStoragePolicy and logging are left out, except that
    the logger of a nil node panics. *)
From Verif Require Import Base NameModel PrimModel ReaderModel CodecModel SpecModel SchemaModel NeedModel SecModel.

(** DemoHmacKey, store.go 15-19 *)
Record hkey : Type := mkKey { k_name : name; k_bits : buf; k_cert : buf }.
Definition keystore : Type := list hkey.

(** GetKey, store.go 58-70 *)
Definition get_key (st : keystore) (n : name) : option hkey := find (fun k => name_equal n (k_name k)) st.
(** SaveKey, store.go 73-80 *)
Definition save_key (st : keystore) (n : name) (bits cert : buf) : keystore := st ++ [mkKey n bits cert].

(** Wire.Join, encoding/types.go 15-33; nil gives no bytes *)
Definition joined (o : option wire) : buf := match o with Some w => concat w | None => [] end.

Section Demo.
  Variable hmac : buf -> buf -> buf.

  (** AddTrustAnchor, store.go 26-37: an error leaves the store as it was.  [F] is the fuel of the parser. *)
  Definition add_anchor (F : nat) (st : keystore) (cert : buf) : res (keystore * bool) :=
    match read_data F (new_buffer_reader cert) with
    | Ok (d, cov) =>
        let bits := joined (d_content d) in
        if check_hmac hmac cov (sig_bytes d) bits then Ok (save_key st (the_name (d_name d)) bits cert, true) else Ok (st, false)
    | Err _ => Ok (st, false)
    | Panic => Panic
    | Hang => Hang
    end.

  (** EnrollKey, store.go 40-55.  ContentTypeKey is 2; times are in nanoseconds. *)
  Definition cert_config : data_config := mkDC (Some 2%N) (Some 3600000000000%Z) None.
  Definition no_moment : moment := mkMoment [] 0 [] [].
  Definition enroll_key (st : keystore) (n : name) (bits : buf) (sign_name : name) : res (keystore * bool) :=
    match get_key st sign_name with
    | None => Ok (st, false)
    | Some k =>
        match make_data (Some n) (Some cert_config) (Some [bits]) (Some (hmac_signer hmac (Some n) (k_bits k) false no_moment)) with
        | Ok (w, _) => Ok (save_key st n bits (concat w), true)
        | Err _ => Ok (st, false)
        | Panic => Panic
        | Hang => Hang
        end
    end.

  (** A mapping of SignedByPolicy: an entry that is not a string is None. *)
  Fixpoint map_get (l : list (buf * option buf)) (k : buf) : option (option buf) :=
    match l with
    | [] => None
    | (t, v) :: l' => if bytes_eqb t k then Some v else map_get l' k
    end.
  (** policies.go 98-106 *)
  Fixpoint convert (mp : list (buf * option buf)) (m : matching) : res matching :=
    match m with
    | [] => Ok []
    | (k, v) :: m' =>
        do v' <- match map_get mp k with Some (Some s) => Ok s | Some None => Panic | None => Ok v end;
        do r <- convert mp m';
        Ok ((k, v') :: r)
    end.

  (** SignedByPolicy, policies.go 80-86, attached to a tree with this prefix *)
  Record signedby : Type := mkBy { b_map : list (buf * option buf); b_prefix : name; b_path : list pat }.

  (** ConvertName, policies.go 97-108: the name of the node of the key *)
  Definition convert_name (p : signedby) (m : matching) : res (option name) :=
    do m' <- convert (b_map p) m; Ok (apply_match (b_prefix p) (b_path p) m').

  (** onGetDataSigner, policies.go 110-123 *)
  Definition by_signer {D} (p : signedby) (st : keystore) (e : event D) : res (option signer) :=
    match ev_target e with
    | None => Panic
    | Some x =>
        do kn <- convert_name p (m_match x);
        match kn with
        | None => Ok None
        | Some n => match get_key st n with
                    | None => Ok None
                    | Some k => Ok (Some (hmac_signer hmac (Some n) (k_bits k) false no_moment))
                    end
        end
    end.

  (** onValidateData, policies.go 125-145; [need] is what the NeedChan of the node of the key gives *)
  Definition by_valid {D} (p : signedby) (need : name -> status * option wire) (e : event D) : res verdict :=
    match ev_target e with
    | None => Panic
    | Some x =>
        match ev_cov e, ev_data e with
        | Some (b :: cov), Some d =>
            if negb (d_sig_type d =? SigHmac)%Z then Ok (Verdict VrSilence)
            else
              do kn <- convert_name p (m_match x);
              match kn with
              | None => Panic
              | Some n =>
                  match need n with
                  | (SData, content) => Ok (Verdict (if check_hmac hmac (b :: cov) (sig_bytes d) (joined content) then VrPass else VrFail))
                  | _ => Ok (Verdict VrFail)
                  end
              end
        | _, _ => Ok (Verdict VrSilence)
        end
    end.

  (** KeyStoragePolicy.onSearch, policies.go 24-39 *)
  Definition ks_search {D} (st : keystore) (e : event D) : res (option wire) :=
    match ev_target e, ev_int_cfg e with
    | Some x, Some c => if ic_prefix c then Ok None
                        else Ok (match get_key st (m_name x) with Some k => Some [k_cert k] | None => None end)
    | _, _ => Panic
    end.
  (** onSave, policies.go 41-48 *)
  Definition ks_save {D} (st : keystore) (e : event D) : res keystore :=
    match ev_target e with
    | Some x => Ok (save_key st (m_name x) (joined (ev_content e)) (joined (ev_raw e)))
    | None => Panic
    end.

  (** As listeners of a node (NeedModel): where they panic, they say nothing. *)
  Definition calm {A} (o : A) (r : res A) : A := match r with Ok a => a | _ => o end.
  Definition by_signer_l {D} (p : signedby) (st : keystore) (e : event D) : option signer := calm None (by_signer p st e).
  Definition by_valid_l {D} (p : signedby) (need : name -> status * option wire) (e : event D) : verdict := calm NoVerdict (by_valid p need e).
  Definition ks_search_l {D} (st : keystore) (e : event D) : option wire := calm None (ks_search st e).
End Demo.
