(** Vocabulary for the statements about ToDict and DictTo.... *)
From Verif Require Import Base NameModel CodecModel DictModel.

(** the values a field can hold; only pointers and slices can be nil *)
Definition fits (k : dkind) (v : value) : Prop :=
  match k, v with
  | DKNat _, VNat _ | DKFixed _ _, VNat _ | DKStr _, VBytes _ => True
  | DKNat opt, VNone | DKFixed _ opt, VNone | DKStr opt, VNone => opt = true
  | DKBin, (VNone | VBytes _) | DKBool, VBool _ | DKName, (VNone | VName _) | DKStruct _ _, (VNone | VStruct _) => True
  | DKOther, _ => True
  | _, _ => False
  end.
Definition all_fit (fs : list (buf * dkind)) (vs : list value) : Prop := Forall2 (fun f v => fits (snd f) v) fs vs.

(** the fields that do not survive unless they are nil *)
Definition lossy (k : dkind) : bool := match k with DKStruct _ _ | DKOther => true | _ => false end.

(** what the map holds for a field *)
Inductive shows : dkind -> value -> dval -> Prop :=
| sh_nat o n : shows (DKNat o) (VNat n) (DUint 8 n)
| sh_fixed w o n : shows (DKFixed w o) (VNat n) (DUint w n)
| sh_str o s : shows (DKStr o) (VBytes s) (DStr s)
| sh_bin b : shows DKBin (VBytes b) (DBytes (Some b))
| sh_bool b : shows DKBool (VBool b) (DBool b)
| sh_name n : shows DKName (VName n) (DName (Some n))
| sh_struct t sub vs : shows (DKStruct t sub) (VStruct vs) (DMap (to_dict sub vs)).

(** how an entry of the map, or its absence, is read *)
Inductive reads : dkind -> option dval -> value -> Prop :=
| rd_nat o n : reads (DKNat o) (Some (DUint 8 n)) (VNat n)
| rd_no_nat : reads (DKNat true) None VNone
| rd_fixed w o n : reads (DKFixed w o) (Some (DUint w n)) (VNat n)
| rd_no_fixed w : reads (DKFixed w true) None VNone
| rd_str o s : reads (DKStr o) (Some (DStr s)) (VBytes s)
| rd_no_str : reads (DKStr true) None VNone
| rd_bin b : reads DKBin (Some (DBytes (Some b))) (VBytes b)
| rd_nil_bin : reads DKBin (Some (DBytes None)) VNone
| rd_no_bin : reads DKBin None VNone
| rd_bool b : reads DKBool (Some (DBool b)) (VBool b)
| rd_no_bool : reads DKBool None (VBool false)
| rd_name n : reads DKName (Some (DName (Some n))) (VName n)
| rd_nil_name : reads DKName (Some (DName None)) VNone
| rd_no_name : reads DKName None VNone
| rd_struct t sub vs : reads (DKStruct t sub) (Some (DPtr t (Some vs))) (VStruct vs)
| rd_nil_struct t sub : reads (DKStruct t sub) (Some (DPtr t None)) VNone
| rd_no_struct t sub : reads (DKStruct t sub) None VNone
| rd_other e : reads DKOther e VNone.
