(** pkg/security: signers and validators; Sha256SignerPolicy of pkg/schema/basic_policies.go.

    The cryptographic functions of the standard library are parameters.  A hash object that is written
    buffer by buffer is the function of the concatenation.  h.Write never fails.  A signer's private key also
    determines its size (ecdsa: BitSize of the curve, rsa: Size()), which is an argument. *)
From Verif Require Import Base PrimModel NameModel ReaderModel CodecModel SpecModel NeedModel.

(** ndn.go 19-26 *)
Definition SigRsa : Z := 1%Z.
Definition SigEcdsa : Z := 3%Z.
Definition SigHmac : Z := 4%Z.
Definition SigEd25519 : Z := 5%Z.
Definition SigEmptyTest : Z := 200%Z.

(** what a signer gets from its timer: Nonce(), Now().UnixMilli(), and Now() and the end of the validity formatted *)
Record moment : Type := mkMoment { mo_nonce : buf; mo_ms : Z; mo_from : buf; mo_until : buf }.

Definition when {A} (b : bool) (x : A) : option A := if b then Some x else None.

Section Sec.
  (** crypto/sha256; crypto/hmac with sha256: key and message *)
  Variable sha256 : buf -> buf.
  Variable hmac : buf -> buf -> buf.
  (** crypto/ecdsa: SignASN1 of a digest with some randomness; VerifyASN1 *)
  Variables (esk epk : Type) (ecdsa_sign : esk -> buf -> buf -> res buf) (ecdsa_verify : epk -> buf -> buf -> bool).
  (** crypto/rsa: SignPKCS1v15, VerifyPKCS1v15 *)
  Variables (rsk rpk : Type) (rsa_sign : rsk -> buf -> res buf) (rsa_verify : rpk -> buf -> buf -> bool).
  (** crypto/ed25519 *)
  Variables (edpk : Type) (ed_verify : edpk -> buf -> buf -> bool).

  (** ** Signers: SigInfo, EstimateSize and ComputeSigValue.  Those with a sequence number
      also return the next one. *)

  (** sha256-signer.go 12-36 *)
  Definition sha256_signer : signer := mkSigner (Ok (Some (mkSC SigSha256 None None None None None None))) 32 (fun cov => Ok (sha256 (concat cov))).

  (** sha256-signer.go 43-72: s.seq++ comes first *)
  Definition sha256_int_signer (seq : N) (t : moment) : signer * N :=
    let seq' := ((seq + 1) mod two64)%N in
    (mkSigner (Ok (Some (mkSC SigSha256 None (Some (mo_nonce t)) (Some (mo_ms t)) (Some seq') None None))) 32 (fun cov => Ok (sha256 (concat cov))), seq').

  (** hmac-signer.go 13-56 *)
  Definition hmac_signer (key_name : option name) (key : buf) (for_cert : bool) (t : moment) : signer :=
    mkSigner (Ok (Some (mkSC SigHmac key_name None None None (when for_cert (mo_from t)) (when for_cert (mo_until t))))) 32
      (fun cov => Ok (hmac key (concat cov))).

  (** hmac-signer.go 58-90 *)
  Definition hmac_int_signer (key : buf) (seq : N) (t : moment) : signer * N :=
    (mkSigner (Ok (Some (mkSC SigHmac (Some [mkComp TypeGeneric key]) (Some (mo_nonce t)) (Some (mo_ms t)) (Some seq) None None))) 32
      (fun cov => Ok (hmac key (concat cov))), seq).

  (** empty-test-signer.go *)
  Definition empty_signer : signer := mkSigner (Ok (Some (mkSC SigEmptyTest None None None None None None))) 0 (fun _ => Ok []).

  (** the SigInfo of ecc-signer.go 27-43, and of rsa-signer.go 27-43 *)
  Definition key_info (key_name : option name) (for_cert for_int : bool) (seq : N) (t : moment) : sig_config :=
    mkSC SigEcdsa key_name (when for_int (mo_nonce t)) (when for_int (mo_ms t)) (when for_int seq)
      (when for_cert (mo_from t)) (when for_cert (mo_until t)).
  Definition next_seq (for_int : bool) (seq : N) : N := if for_int then ((seq + 1) mod two64)%N else seq.

  (** NewEccSigner, ecc-signer.go 64-66; [bits] is the curve's BitSize *)
  Definition ecc_est (bits : N) : N := let l := ((bits * 2 + 7) / 8)%N in (l + (l mod 2 + 8))%N.

  (** ecc-signer.go; [rnd] is what rand.Reader yields *)
  Definition ecc_signer (key_name : option name) (key : esk) (bits : N) (for_cert for_int : bool) (seq : N) (t : moment) (rnd : buf) : signer * N :=
    let seq' := next_seq for_int seq in
    (mkSigner (Ok (Some (key_info key_name for_cert for_int seq' t))) (ecc_est bits) (fun cov => ecdsa_sign key rnd (sha256 (concat cov))), seq').

  (** rsa-signer.go; [size] is the size of the key in bytes *)
  Definition rsa_signer (key_name : option name) (key : rsk) (size : N) (for_cert for_int : bool) (seq : N) (t : moment) : signer * N :=
    let seq' := next_seq for_int seq in
    (mkSigner (Ok (Some (key_info key_name for_cert for_int seq' t))) size (fun cov => rsa_sign key (sha256 (concat cov))), seq').

  (** ** Validators, known-key-validator.go.  [typ] and [val] are SigType() and SigValue() of the signature. *)
  Definition sha256_validate (cov : wire) (typ : Z) (val : buf) : bool :=
    if negb (typ =? SigSha256)%Z then false else bytes_eqb (sha256 (concat cov)) val.
  (** hmac-signer.go 92-103 *)
  Definition check_hmac (cov : wire) (val key : buf) : bool := bytes_eqb (hmac key (concat cov)) val.
  Definition hmac_validate (cov : wire) (typ : Z) (val key : buf) : bool :=
    if negb (typ =? SigHmac)%Z then false else check_hmac cov val key.
  Definition ecdsa_validate (cov : wire) (typ : Z) (val : buf) (pub : epk) : bool :=
    if negb (typ =? SigEcdsa)%Z then false else ecdsa_verify pub (sha256 (concat cov)) val.
  Definition rsa_validate (cov : wire) (typ : Z) (val : buf) (pub : rpk) : bool :=
    if negb (typ =? SigRsa)%Z then false else rsa_verify pub (sha256 (concat cov)) val.
  Definition eddsa_validate (cov : wire) (typ : Z) (val : buf) (pub : edpk) : bool :=
    if negb (typ =? SigEd25519)%Z then false else ed_verify pub (concat cov) val.

  (** ** Sha256SignerPolicy, basic_policies.go 50-76.  SigCovered is nil if it has no buffers. *)
  Definition sig_bytes (d : list value) : buf := match d_sig_value d with Some b => b | None => [] end.
  Definition sha256_policy_signer {D} (e : event D) : option signer := Some sha256_signer.
  Definition sha256_policy_valid {D} (e : event D) : verdict :=
    match ev_cov e, ev_data e with
    | Some (b :: cov), Some d =>
        if negb (d_sig_type d =? SigSha256)%Z then Verdict VrSilence
        else if bytes_eqb (sig_bytes d) (sha256 (concat (b :: cov))) then Verdict VrPass else Verdict VrFail
    | _, _ => Verdict VrSilence
    end.
End Sec.
