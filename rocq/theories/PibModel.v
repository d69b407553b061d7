(** pkg/security/pib: the key chain read from an SQLite PIB (sqlite-pib.go) and the private keys of a directory
    (tpm-file.go).

    A table is the list of its rows in the order in which the database returns them, which is arbitrary; only the
    columns that the code asks for are there.  Errors of the database, its connections and logging are left out, so
    the queries do not fail and rows.Scan fills every column.  The functions SHA-256, the base64 decoder and the
    two private key parsers of the standard library are parameters. *)
From Verif Require Import Base PrimModel NameModel ReaderModel CodecModel SpecModel NeedModel SecModel.

(** the rows of the tables identities, keys and certificates, as named by the queries of sqlite-pib.go 48, 69, 90-93, 135-138 and 218-221 *)
Record ident_row : Type := mkIR { ir_id : N; ir_name : buf; ir_default : bool }.
Record key_row : Type := mkKR { kr_id : N; kr_ident : N; kr_name : buf; kr_bits : buf; kr_default : bool }.
Record cert_row : Type := mkCR { cr_id : N; cr_key : N; cr_name : buf; cr_data : buf; cr_default : bool }.
Record pib : Type := mkPib { pb_idents : list ident_row; pb_keys : list key_row; pb_certs : list cert_row }.

(** SqliteIdent, SqliteKey and SqliteCert: sqlite-pib.go 13-35; the pointer to the PIB is the argument of the
    functions *)
Record identity : Type := mkIdent { id_row : N; id_name : name; id_default : bool }.
Record pkey : Type := mkPKey { pk_row : N; pk_name : name; pk_bits : buf; pk_default : bool }.
Record cert : Type := mkCert { ce_row : N; ce_name : name; ce_data : buf; ce_default : bool; ce_locator : option name }.

(** GetIdentity, sqlite-pib.go 46-65 *)
Definition get_identity (p : pib) (n : name) : res (option identity) :=
  do w <- name_bytes n;
  match find (fun r => bytes_eqb (ir_name r) w) (pb_idents p) with
  | Some r => Ok (Some (mkIdent (ir_id r) n (ir_default r)))
  | None => Ok None
  end.

(** GetKey, sqlite-pib.go 67-86 *)
Definition pib_key (p : pib) (n : name) : res (option pkey) :=
  do w <- name_bytes n;
  match find (fun r => bytes_eqb (kr_name r) w) (pb_keys p) with
  | Some r => Ok (Some (mkPKey (kr_id r) n (kr_bits r) (kr_default r)))
  | None => Ok None
  end.

(** ReadData on a certificate and Signature().KeyName(), sqlite-pib.go 109-114 and 239-244: None when the packet
    is not read.  Signature() is the packet itself and never nil. *)
Definition read_locator (data : buf) : res (option (option name)) :=
  match read_data (S (length data)) (new_buffer_reader data) with
  | Ok (d, _) => Ok (Some (d_key_name d))
  | Err _ => Ok None
  | Panic => Panic
  | Hang => Hang
  end.

(** GetCert, sqlite-pib.go 88-116 *)
Definition pib_cert (p : pib) (n : name) : res (option cert) :=
  do w <- name_bytes n;
  match find (fun r => bytes_eqb (cr_name r) w) (pb_certs p) with
  | Some r =>
      do l <- read_locator (cr_data r);
      match l with
      | Some loc => Ok (Some (mkCert (cr_id r) n (cr_data r) (cr_default r) loc))
      | None => Ok None
      end
  | None => Ok None
  end.

(** the certificate of a row, SqliteKey.FindCert, sqlite-pib.go 227-244: None when the loop goes on with the next row *)
Definition cert_of_row (r : cert_row) : res (option cert) :=
  match name_from_bytes (cr_name r) with
  | Ok n =>
      do l <- read_locator (cr_data r);
      match l with
      | Some loc => Ok (Some (mkCert (cr_id r) n (cr_data r) (cr_default r) loc))
      | None => Ok None
      end
  | Err _ => Ok None
  | Panic => Panic
  | Hang => Hang
  end.

(** the loop of SqliteKey.FindCert, sqlite-pib.go 226-248; [check] is a pure function *)
Fixpoint find_in (check : cert -> bool) (rows : list cert_row) : res (option cert) :=
  match rows with
  | [] => Ok None
  | r :: rest =>
      do o <- cert_of_row r;
      match o with
      | Some c => if check c then Ok (Some c) else find_in check rest
      | None => find_in check rest
      end
  end.

(** SqliteKey.FindCert, sqlite-pib.go 217-250 *)
Definition key_find_cert (p : pib) (k : pkey) (check : cert -> bool) : res (option cert) :=
  find_in check (filter (fun r => (cr_key r =? pk_row k)%N) (pb_certs p)).

(** the loop of SqliteIdent.FindCert, sqlite-pib.go 143-160 *)
Fixpoint find_in_keys (p : pib) (check : cert -> bool) (rows : list key_row) : res (option cert) :=
  match rows with
  | [] => Ok None
  | r :: rest =>
      match name_from_bytes (kr_name r) with
      | Ok n =>
          do o <- key_find_cert p (mkPKey (kr_id r) n (kr_bits r) (kr_default r)) check;
          match o with
          | Some c => Ok (Some c)
          | None => find_in_keys p check rest
          end
      | Err _ => find_in_keys p check rest
      | Panic => Panic
      | Hang => Hang
      end
  end.

(** SqliteIdent.FindCert, sqlite-pib.go 134-163 *)
Definition ident_find_cert (p : pib) (i : identity) (check : cert -> bool) : res (option cert) :=
  find_in_keys p check (filter (fun r => (kr_ident r =? id_row i)%N) (pb_keys p)).

(** SqliteIdent.GetKey, sqlite-pib.go 130-132, and SqliteKey.GetCert, sqlite-pib.go 213-215: the receiver is not looked at *)
Definition ident_get_key (p : pib) (i : identity) (n : name) : res (option pkey) := pib_key p n.
Definition key_get_cert (p : pib) (k : pkey) (n : name) : res (option cert) := pib_cert p n.

(** n[:l-2], None when l < 2: sqlite-pib.go 119-123, 174-178 and 194-198 *)
Definition drop2 (n : name) : option name := if (length n <? 2)%nat then None else Some (firstn (length n - 2) n).

(** SqliteCert.Key, sqlite-pib.go 173-179 *)
Definition cert_key (p : pib) (c : cert) : res (option pkey) :=
  match drop2 (ce_name c) with Some k => pib_key p k | None => Ok None end.
(** SqliteKey.Identity, sqlite-pib.go 193-199 *)
Definition key_identity (p : pib) (k : pkey) : res (option identity) :=
  match drop2 (pk_name k) with Some i => get_identity p i | None => Ok None end.

(** the check of SelfSignedCert, sqlite-pib.go 206-210 *)
Definition comp_self : comp := mkComp TypeGeneric [115; 101; 108; 102]%N.
Definition is_self_signed (c : cert) : bool :=
  let l := length (ce_name c) in
  (2 <? l)%nat && comp_equal (nth (l - 2) (ce_name c) comp_self) comp_self.
(** SelfSignedCert, sqlite-pib.go 205-211 *)
Definition self_signed_cert (p : pib) (k : pkey) : res (option cert) := key_find_cert p k is_self_signed.

(** hex.EncodeToString *)
Definition hex_digit (d : N) : N := if (d <? 10)%N then (48 + d)%N else (87 + d)%N.
Definition hex (b : buf) : buf := flat_map (fun x => [hex_digit (x / 16); hex_digit (x mod 16)]%N) b.

Section Tpm.
  Variable sha256 : buf -> buf.
  (** base64.StdEncoding.Decode *)
  Variable b64 : buf -> option buf.
  Variables (esk rsk : Type).
  (** x509.ParseECPrivateKey with the BitSize of the curve; x509.ParsePKCS1PrivateKey with the size of the key *)
  Variable parse_ec : buf -> option (esk * N).
  Variable parse_rsa : buf -> option (rsk * N).
  Variable ecdsa_sign : esk -> buf -> buf -> res buf.
  Variable rsa_sign : rsk -> buf -> res buf.
  (** the files of the directory: name to contents *)
  Variable files : buf -> option buf.

  (** ToFileName, tpm-file.go 21-25 *)
  Definition file_name (key_name : buf) : buf := hex (sha256 key_name) ++ [46; 112; 114; 105; 118; 107; 101; 121]%N.

  (** FileTpm.GetSigner, tpm-file.go 27-63.  The signer's time and randomness, taken when it signs, are [t] and [rnd]. *)
  Definition tpm_signer (key_name locator : name) (t : moment) (rnd : buf) : res (option signer) :=
    do w <- name_bytes key_name;
    match files (file_name w) with
    | None => Ok None
    | Some text =>
        match b64 text with
        | None => Ok None
        | Some block =>
            match parse_ec block with
            | Some (k, bits) => Ok (Some (fst (ecc_signer sha256 esk ecdsa_sign (Some locator) k bits false false 0 t rnd)))
            | None =>
                match parse_rsa block with
                | Some (k, size) => Ok (Some (fst (rsa_signer sha256 rsk rsa_sign (Some locator) k size false false 0 t)))
                | None => Ok None
                end
            end
        end
    end.

  (** FileTpm.KeyExist, tpm-file.go 69-74; os.Stat fails exactly when there is no such file *)
  Definition key_exist (key_name : name) : res bool :=
    do w <- name_bytes key_name;
    Ok (match files (file_name w) with Some _ => true | None => false end).

  (** GetSignerForCert, sqlite-pib.go 118-124; SqliteCert.AsSigner, 185-187 *)
  Definition signer_for_cert (cert_name : name) (t : moment) (rnd : buf) : res (option signer) :=
    match drop2 cert_name with Some k => tpm_signer k cert_name t rnd | None => Ok None end.
  Definition cert_signer (c : cert) (t : moment) (rnd : buf) : res (option signer) := signer_for_cert (ce_name c) t rnd.
End Tpm.
