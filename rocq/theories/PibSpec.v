(** Vocabulary for the statements about the key chain. *)
From Verif Require Import Base PrimModel NameModel NameProofs ReaderModel CodecModel SpecModel PibModel.

(** the encoding of a name in the packet format: this is what other programs store in the database *)
Definition std_comp (c : comp) : buf := tl_enc (ctyp c) ++ tl_enc (nlen (cval c)) ++ cval c.
Definition std_value (n : name) : buf := concat (map std_comp n).
Definition std_name (n : name) : buf := tl_enc 7 ++ tl_enc (nlen (std_value n)) ++ std_value n.

(** a name of at most 252 encoded bytes *)
Definition short_name (n : name) : Prop := Forall comp_ok n /\ (nlen (std_value n) <= 252)%N.

(** the certificate packet can be read, and its key locator is [loc] *)
Definition locator_is (data : buf) (loc : option name) : Prop :=
  exists d cov, read_data (S (length data)) (new_buffer_reader data) = Ok (d, cov) /\ d_key_name d = loc.

(** a PIB that a key chain has filled: names and row numbers are unique, names are encoded in the packet format,
    a key is named after its identity and a certificate after its key, with two more components *)
Definition under (parent child : buf) : Prop :=
  exists n a b, short_name (n ++ [a; b]) /\ parent = std_name n /\ child = std_name (n ++ [a; b]).
Record pib_ok (p : pib) : Prop := mkPibOk {
  po_ident_ids : NoDup (map ir_id (pb_idents p));
  po_ident_names : NoDup (map ir_name (pb_idents p));
  po_key_ids : NoDup (map kr_id (pb_keys p));
  po_key_names : NoDup (map kr_name (pb_keys p));
  po_cert_names : NoDup (map cr_name (pb_certs p));
  po_keys : forall k, In k (pb_keys p) -> exists i, In i (pb_idents p) /\ ir_id i = kr_ident k /\ under (ir_name i) (kr_name k);
  po_certs : forall c, In c (pb_certs p) -> (exists k, In k (pb_keys p) /\ kr_id k = cr_key c /\ under (kr_name k) (cr_name c))
                       /\ exists loc, locator_is (cr_data c) loc }.

(** the certificate that a row holds *)
Definition holds (r : cert_row) (c : cert) : Prop :=
  ce_row c = cr_id r /\ name_from_bytes (cr_name r) = Ok (ce_name c) /\ ce_data c = cr_data r /\ ce_default c = cr_default r
  /\ locator_is (cr_data r) (ce_locator c).
