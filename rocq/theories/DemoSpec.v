(** What users of the key store and the policies of demosec rely on. *)
From Verif Require Import Base NameModel SchemaModel SpecModel NeedModel PatternProofs SchemaSpec DemoModel.

(** the entry of a mapping for a tag: that of the first pair with it *)
Definition entry (mp : list (buf * option buf)) (tag : buf) : option (option buf) := option_map snd (find (fun e => bytes_eqb (fst e) tag) mp).
(** The key node's variables get their values from the matching of the Data's node, except that the mapping
    replaces values. *)
Definition key_value (mp : list (buf * option buf)) (m : matching) (tag : buf) : option buf :=
  match mget m tag with
  | None => None
  | Some v => match entry mp tag with Some (Some s) => Some s | _ => Some v end
  end.

(** [n] is the name of the key for a Data whose node was matched with [m] *)
Definition key_for (p : signedby) (m : matching) (n : name) : Prop :=
  exists r, n = b_prefix p ++ r ++ digests (key_value (b_map p) m tag_params) (key_value (b_map p) m tag_digest)
    /\ matches (b_path p) r
    /\ forall i ty tag c, nth_error (b_path p) i = Some (PVar ty tag) -> nth_error r i = Some c -> key_value (b_map p) m tag = Some (cval c).

(** the mapping has strings for the tags of the matching *)
Definition strings_for (mp : list (buf * option buf)) (m : matching) : Prop := forall tag, mget m tag <> None -> entry mp tag <> Some None.

(** What happens to a key store. *)
Inductive kop : Type := KAnchor (cert : buf) | KEnroll (n : name) (bits : buf) (sign : name) | KSave (n : name) (bits cert : buf).
Definition k_step (hmac : buf -> buf -> buf) (F : nat) (st : keystore) (o : kop) : res keystore :=
  match o with
  | KAnchor cert => do r <- add_anchor hmac F st cert; Ok (fst r)
  | KEnroll n bits s => do r <- enroll_key hmac st n bits s; Ok (fst r)
  | KSave n bits cert => Ok (save_key st n bits cert)
  end.
Fixpoint k_run (hmac : buf -> buf -> buf) (F : nat) (st : keystore) (os : list kop) : res keystore :=
  match os with
  | [] => Ok st
  | o :: os' => do st' <- k_step hmac F st o; k_run hmac F st' os'
  end.
