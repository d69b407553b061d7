(** pkg/encoding/codegen/dicts.go and model.go 351-377: the generated functions ToDict and DictTo..., which turn
    a structure into a map[string]any and back.

    A Go map is a list with at most one entry for a key; its order means nothing.  A pointer to a structure is its
    Go type and its fields.  Models with sequence or map fields are left out: the code generated for them does not
    compile (dicts.go 160-193, map_field.go 156-162). *)
From Verif Require Import Base NameModel CodecModel.

(** the fields of a model with their Go names; a structure has a number for its Go type *)
Inductive dkind : Type :=
| DKNat (opt : bool)
| DKStr (opt : bool)
| DKBin
| DKBool
| DKName
| DKFixed (w : nat) (opt : bool)
| DKStruct (typ : N) (sub : list (buf * dkind))
| DKOther.   (* time, wire, markers, signatures: fields.go 104-110 generate nothing *)

(** a value of type any: unsigned integers of w bytes, string, []byte, bool, enc.Name, map[string]any, a pointer to a
    structure, and everything else.  Slices and pointers can be nil. *)
Inductive dval : Type :=
| DUint (w : nat) (n : N)
| DStr (s : buf)
| DBytes (b : option buf)
| DBool (b : bool)
| DName (n : option name)
| DMap (d : list (buf * dval))
| DPtr (typ : N) (vs : option (list value))
| DAny (n : N).
Definition dict : Type := list (buf * dval).

Definition dict_get (d : dict) (k : buf) : option dval := option_map snd (find (fun e => bytes_eqb (fst e) k) d).
(** dict[k] = x *)
Fixpoint dict_set (d : dict) (k : buf) (x : dval) : dict :=
  match d with
  | [] => [(k, x)]
  | e :: d' => if bytes_eqb (fst e) k then (k, x) :: d' else e :: dict_set d' k x
  end.

(** what GenToDict of a field writes into the map, dicts.go 5-15, 39-49, 73-79, 95-99, 115-121, 137-143, 195-205; and
    ToDict, model.go 351-361, for the structure fields *)
Fixpoint to_entry (k : dkind) (v : value) {struct k} : option dval :=
  match k with
  | DKNat opt | DKFixed _ opt =>
      let w := match k with DKFixed w _ => w | _ => 8%nat end in
      match v with
      | VNat n => Some (DUint w n)
      | _ => if opt then None else Some (DUint w 0)
      end
  | DKStr opt =>
      match v with
      | VBytes s => Some (DStr s)
      | _ => if opt then None else Some (DStr [])
      end
  | DKBin => match v with VBytes b => Some (DBytes (Some b)) | _ => None end
  | DKBool => match v with VBool b => Some (DBool b) | _ => Some (DBool false) end
  | DKName => match v with VName n => Some (DName (Some n)) | _ => None end
  | DKStruct _ sub =>
      match v with
      | VStruct vs =>
          Some (DMap ((fix go (fs : list (buf * dkind)) (vs : list value) (d : dict) {struct fs} : dict :=
                         match fs, vs with
                         | (n, k') :: fs', v' :: vs' => go fs' vs' (match to_entry k' v' with Some x => dict_set d n x | None => d end)
                         | _, _ => d
                         end) sub vs []))
      | _ => None
      end
  | DKOther => None
  end.

(** ToDict, model.go 351-361 *)
Fixpoint to_dict_loop (fs : list (buf * dkind)) (vs : list value) (d : dict) : dict :=
  match fs, vs with
  | (n, k) :: fs', v :: vs' => to_dict_loop fs' vs' (match to_entry k v with Some x => dict_set d n x | None => d end)
  | _, _ => d
  end.
Definition to_dict (fs : list (buf * dkind)) (vs : list value) : dict := to_dict_loop fs vs [].

(** ErrIncompatibleType and ErrSkipRequired with the name of the field, encoding/types.go 104-107 and 141-146 *)
Inductive dout (A : Type) : Type :=
| DOk (x : A)
| DIncompatible (field : buf)
| DSkipRequired (field : buf).
Arguments DOk {A}. Arguments DIncompatible {A}. Arguments DSkipRequired {A}.

(** GenFromDict of a field, dicts.go 17-37, 51-71, 81-93, 101-113, 123-135, 145-158, 207-240.  The type assertion
    x.(T) succeeds for values of exactly the type T. *)
Definition from_entry (n : buf) (k : dkind) (e : option dval) : dout value :=
  let opt_ptr {A} (f : A -> value) (o : option A) := match o with Some a => f a | None => VNone end in
  match k, e with
  | DKNat _, Some (DUint w x) => if (w =? 8)%nat then DOk (VNat x) else DIncompatible n
  | DKNat opt, None => if opt then DOk VNone else DSkipRequired n
  | DKFixed w _, Some (DUint w' x) => if (w =? w')%nat then DOk (VNat x) else DIncompatible n
  | DKFixed _ opt, None => if opt then DOk VNone else DSkipRequired n
  | DKStr _, Some (DStr s) => DOk (VBytes s)
  | DKStr opt, None => if opt then DOk VNone else DSkipRequired n
  | DKBin, Some (DBytes b) => DOk (opt_ptr VBytes b)
  | DKBin, None => DOk VNone
  | DKBool, Some (DBool b) => DOk (VBool b)
  | DKBool, None => DOk (VBool false)
  | DKName, Some (DName m) => DOk (opt_ptr VName m)
  | DKName, None => DOk VNone
  | DKStruct t _, Some (DPtr t' vs) => if (t =? t')%N then DOk (opt_ptr VStruct vs) else DIncompatible n
  | DKStruct _ _, None => DOk VNone
  | DKOther, _ => DOk VNone
  | _, Some _ => DIncompatible n
  end.

(** DictTo..., model.go 363-377 *)
Fixpoint from_dict (fs : list (buf * dkind)) (d : dict) : dout (list value) :=
  match fs with
  | [] => DOk []
  | (n, k) :: fs' =>
      match from_entry n k (dict_get d n) with
      | DOk v =>
          match from_dict fs' d with
          | DOk vs => DOk (v :: vs)
          | DIncompatible f => DIncompatible f
          | DSkipRequired f => DSkipRequired f
          end
      | DIncompatible f => DIncompatible f
      | DSkipRequired f => DSkipRequired f
      end
  end.

(** the models with these functions in the library, pkg/ndn/mgmt_2022/definitions.go 52-55, 58-93 and 96-103 *)
Definition dict_Strategy : list (buf * dkind) := [([78; 97; 109; 101], DKName)]%N.
Definition dict_ControlArgs : list (buf * dkind) :=
  [([78; 97; 109; 101], DKName) (* Name *)
  ;([70; 97; 99; 101; 73; 100], DKNat true) (* FaceId *)
  ;([85; 114; 105], DKStr true) (* Uri *)
  ;([76; 111; 99; 97; 108; 85; 114; 105], DKStr true) (* LocalUri *)
  ;([79; 114; 105; 103; 105; 110], DKNat true) (* Origin *)
  ;([67; 111; 115; 116], DKNat true) (* Cost *)
  ;([67; 97; 112; 97; 99; 105; 116; 121], DKNat true) (* Capacity *)
  ;([67; 111; 117; 110; 116], DKNat true) (* Count *)
  ;([70; 108; 97; 103; 115], DKNat true) (* Flags *)
  ;([77; 97; 115; 107], DKNat true) (* Mask *)
  ;([83; 116; 114; 97; 116; 101; 103; 121], DKStruct 1 dict_Strategy) (* Strategy *)
  ;([69; 120; 112; 105; 114; 97; 116; 105; 111; 110; 80; 101; 114; 105; 111; 100], DKNat true) (* ExpirationPeriod *)
  ;([70; 97; 99; 101; 80; 101; 114; 115; 105; 115; 116; 101; 110; 99; 121], DKNat true) (* FacePersistency *)
  ;([66; 97; 115; 101; 67; 111; 110; 103; 101; 115; 116; 105; 111; 110; 77; 97; 114; 107; 73; 110; 116; 101; 114; 118; 97; 108], DKNat true) (* BaseCongestionMarkInterval *)
  ;([68; 101; 102; 97; 117; 108; 116; 67; 111; 110; 103; 101; 115; 116; 105; 111; 110; 84; 104; 114; 101; 115; 104; 111; 108; 100], DKNat true) (* DefaultCongestionThreshold *)
  ;([77; 116; 117], DKNat true) (* Mtu *)
  ]%N.
Definition dict_ControlResponseVal : list (buf * dkind) :=
  [([83; 116; 97; 116; 117; 115; 67; 111; 100; 101], DKNat false) (* StatusCode *)
  ;([83; 116; 97; 116; 117; 115; 84; 101; 120; 116], DKStr false) (* StatusText *)
  ;([80; 97; 114; 97; 109; 115], DKStruct 2 dict_ControlArgs) (* Params *)
  ]%N.
