(** pkg/schema: properties of nodes and policies (interface.go 168-345, base_node.go 243-251), the classes of
    nodes and policies that have some, and the attributes of a description (representation.go 64-103, 121-130,
    157-165).

    The code finds a field with reflect; an object is here the list of its exported fields with their Go types.
    Fields that the descriptors do not name (events, locks) are left out, and so is the difference between nil and
    empty slices.  A panic inside Get or Set is recovered by the deferred call of each descriptor. *)
From Coq Require Import Ascii String.
From Verif Require Import Base NameModel PrimModel TextModel SchemaModel.

(** a string constant *)
Definition txt (s : string) : buf := map N_of_ascii (list_ascii_of_string s).
Arguments txt s%string.

(** A finite floating point number, mantissa times a power of two.  Not modelled: infinities, NaN and the limits of
    the exponent (JSON has neither, and a product too small for the exponent is 0 ns anyway). *)
Record flt : Type := mkF { f_man : Z; f_exp : Z }.

(** rounding an integer times 2^-k to the nearest, ties to even (IEEE 754) *)
Definition round_even (m k : Z) : Z :=
  if (k <=? 0)%Z then m
  else let q := (m / 2 ^ k)%Z in
       let r := (m mod 2 ^ k)%Z in
       let h := (2 ^ (k - 1))%Z in
       if (r <? h)%Z then q
       else if (h <? r)%Z then (q + 1)%Z
       else if Z.even q then q else (q + 1)%Z.
(** the product with an integer, in floating point with [p] bits *)
Definition f_mul (p : Z) (f : flt) (x : Z) : flt :=
  let m := (f_man f * x)%Z in
  let k := Z.max 0 (Z.log2 (Z.abs m) + 1 - p) in
  mkF (round_even m k) (f_exp f + k).
(** truncation towards zero *)
Definition f_trunc (f : flt) : Z :=
  if (0 <=? f_exp f)%Z then (f_man f * 2 ^ f_exp f)%Z else Z.quot (f_man f) (2 ^ (- f_exp f)).

(** a value of type any.  [AOther] is a value of some other type, such as a pointer to a key store. *)
Inductive aval : Type :=
| ANil
| ABool (b : bool)
| AF64 (f : flt)
| AF32 (f : flt)
| AI64 (z : Z)
| AU64 (n : N)
| AInt (z : Z)
| AUint (n : N)
| ADur (z : Z)          (* time.Duration, in nanoseconds *)
| ACType (n : N)        (* ndn.ContentType *)
| AStr (s : buf)
| ABytes (b : buf)      (* []byte *)
| ABuffer (b : buf)     (* enc.Buffer *)
| AName (n : name)
| AMatch (m : matching) (* enc.Matching *)
| AMap (d : list (buf * aval))
| AList (l : list aval)
| AOther (t x : N).

(** the types of fields *)
Inductive gtype : Type := GBool | GU64 | GDur | GCType | GStr | GBytes | GName | GMatch | GMap | GOther (t : N).

(** the conversion done by reflect's Value.Set: the value must be assignable to the type of the field.  enc.Buffer is
    assignable to []byte; the other types are only to themselves.  (ValueOf(nil) is never assignable.) *)
Definition assign (t : gtype) (v : aval) : option aval :=
  match t, v with
  | GBool, ABool _ | GU64, AU64 _ | GDur, ADur _ | GCType, ACType _ | GStr, AStr _ | GBytes, ABytes _
  | GName, AName _ | GMatch, AMatch _ | GMap, AMap _ => Some v
  | GBytes, ABuffer b => Some (ABytes b)
  | GOther t, AOther t' _ => if (t =? t')%N then Some v else None
  | _, _ => None
  end.

Definition fields : Type := list (buf * (gtype * aval)).
(** FieldByName *)
Definition f_get (o : fields) (k : buf) : option (gtype * aval) := option_map snd (find (fun e => bytes_eqb (fst e) k) o).
Fixpoint f_set (o : fields) (k : buf) (v : aval) : fields :=
  match o with
  | [] => []
  | (x, (t, w)) :: o' => if bytes_eqb x k then (x, (t, v)) :: o' else (x, (t, w)) :: f_set o' k v
  end.

(** the property descriptors, interface.go 168-206, 219-255, 259-293, 296-314, 318-345 *)
Inductive pdesc : Type :=
| PDefault (f : buf)
| PTime (f : buf)
| PMatching (f : buf)
| PSub (path : list pat) (p : buf)
| PName (f : buf).
(** NodeImplDesc.Properties *)
Definition class : Type := list (buf * pdesc).
Definition c_get (c : class) (k : buf) : option pdesc := option_map snd (find (fun e => bytes_eqb (fst e) k) c).

(** a node: its class and its fields *)
Record adesc : Type := mkA { a_class : class; a_obj : fields }.
Definition anode : Type := stree adesc.
Definition cls (t : anode) : class := a_class (s_desc t).
Definition obj (t : anode) : fields := a_obj (s_desc t).
Definition with_obj (t : anode) (o : fields) : anode := SNode (mkA (cls t) o) (s_chd t).

(** the tree with another subtree at a path *)
Fixpoint set_at (p : list pat) (u : anode) (t : anode) : anode :=
  match p with
  | [] => u
  | e :: p' => match find_edge (fun x => pat_equal x e) (s_chd t) with
               | Some (_, c) => SNode (s_desc t) (set_edge e (set_at p' u c) (s_chd t))
               | None => t
               end
  end.

(** ErrInvalidValue and ErrNotSupported, ndn/errors.go *)
Inductive aerr : Type := EInvalid | ENotSupported.

(** one millisecond *)
Definition ms : Z := 1000000%Z.

Section Conv.
  (** What Go's conversion of a floating point number outside of the range of int64 or uint64 gives depends on the
      platform. *)
  Variable far_i : flt -> Z.
  Variable far_u : flt -> N.

  (** int64(f), uint64(f) *)
  Definition f_int64 (f : flt) : Z :=
    let z := f_trunc f in if ((- Ztwo63 <=? z) && (z <? Ztwo63))%Z then z else far_i f.
  Definition f_uint64 (f : flt) : N :=
    let z := f_trunc f in if ((0 <=? z) && (z <? Ztwo64))%Z then Z.to_N z else far_u f.

  (** what the Set of DefaultPropertyDesc stores, interface.go 176-204 *)
  Definition conv_default (t : gtype) (v : aval) : option aval :=
    match t, v with
    | GU64, AF64 f => Some (AU64 (f_uint64 f))
    | GBytes, AStr s => Some (ABytes s)
    | _, _ => assign t v
    end.
  (** what the Set of TimePropertyDesc stores, interface.go 227-253 *)
  Definition conv_time (v : aval) : option aval :=
    match v with
    | AF32 f => Some (ADur (f_int64 (f_mul 24 f ms)))
    | AF64 f => Some (ADur (f_int64 (f_mul 53 f ms)))
    | AI64 z | AInt z => Some (ADur (wrap64 (z * ms)))
    | AU64 n | AUint n => Some (ADur (wrap64 (to_int n * ms)))
    | _ => None
    end.
  (** the loop of MatchingPropertyDesc's Set, interface.go 271-287.  Go's map iteration is in random order; the keys
      are different, so the order does not matter. *)
  Fixpoint conv_matching (d : list (buf * aval)) : option matching :=
    match d with
    | [] => Some []
    | (k, v) :: d' =>
        match v with
        | ABytes b => option_map (fun m => mset m k b) (conv_matching d')
        | AU64 n => option_map (fun m => mset m k (nat_enc n)) (conv_matching d')
        | AStr s => match comp_from_str s with
                    | Ok c => option_map (fun m => mset m k (cval c)) (conv_matching d')
                    | _ => None
                    end
        | _ => conv_matching d'
        end
    end.
  (** the Set of NamePropertyDesc, interface.go 326-343: the name is stored if the string could NOT be read, and is
      then nil *)
  Definition conv_name (v : aval) : option aval :=
    match v with
    | AName n => Some (AName n)
    | AStr s => match name_from_str s with
                | Err _ => Some (AName [])
                | _ => None
                end
    | _ => None
    end.

  (** the value stored in a field of a type by a descriptor, or an error *)
  Definition conv (d : pdesc) (t : gtype) (v : aval) : option aval :=
    match d with
    | PDefault _ => conv_default t v
    | PTime _ => match conv_time v with Some w => assign t w | None => None end
    | PMatching _ => match v with
                     | AMap e => match conv_matching e with Some m => assign t (AMatch m) | None => None end
                     | _ => None
                     end
    | PName _ => match conv_name v with Some w => assign t w | None => None end
    | PSub _ _ => None
    end.
  (** the field a descriptor is about *)
  Definition field_of (d : pdesc) : option buf :=
    match d with PDefault f | PTime f | PMatching f | PName f => Some f | PSub _ _ => None end.

  (** what the Get of a descriptor makes of the value of the field, interface.go 170-174, 221-226, 261-265, 320-325;
      None is a field that does not exist *)
  Definition view (d : pdesc) (v : option aval) : aval :=
    match d, v with
    | PDefault _, Some v => v
    | PTime _, Some (ADur z) => AU64 (to_u64 (Z.quot z ms))
    | PMatching _, Some (AMatch m) => AMatch m
    | PName _, Some (AName n) => AStr (name_str n)
    | _, _ => ANil
    end.

  (** Node.Get, base_node.go 244-246, with the Get of SubNodePropertyDesc, interface.go 302-306.  A property the class
      does not have is a nil function: the call panics.  [Hang] stands for a recursion without end, if a property is
      declared to be itself. *)
  Fixpoint get_prop (fuel : nat) (t : anode) (k : buf) : res aval :=
    match fuel with
    | O => Hang
    | S n =>
        match c_get (cls t) k with
        | None => Panic
        | Some (PSub path p) =>
            match at_path path t with
            | None => Ok ANil
            | Some u => match get_prop n u p with Panic => Ok ANil | r => r end
            end
        | Some d =>
            match field_of d with
            | Some f => Ok (view d (option_map snd (f_get (obj t) f)))
            | None => Panic
            end
        end
    end.

  (** Node.Set, base_node.go 249-251, with the Set of the descriptors.  The result is the error (None is nil) and the
      tree afterwards.  A field that does not exist is ErrNotSupported for DefaultPropertyDesc, whose CanSet test
      comes before the panic. *)
  Fixpoint set_prop (fuel : nat) (t : anode) (k : buf) (v : aval) : res (option aerr * anode) :=
    match fuel with
    | O => Hang
    | S n =>
        match c_get (cls t) k with
        | None => Panic
        | Some (PSub path p) =>
            match at_path path t with
            | None => Ok (Some EInvalid, t)
            | Some u => match set_prop n u p v with
                        | Panic => Ok (Some EInvalid, t)
                        | Ok (e, u') => Ok (e, set_at path u' t)
                        | Hang => Hang
                        | Err e => Err e
                        end
            end
        | Some d =>
            match field_of d with
            | None => Panic
            | Some f =>
                match f_get (obj t) f with
                | None => Ok (Some (match d with PDefault _ => ENotSupported | _ => EInvalid end), t)
                | Some (ty, _) => match conv d ty v with
                                  | Some w => Ok (None, with_obj t (f_set (obj t) f w))
                                  | None => Ok (Some EInvalid, t)
                                  end
                end
            end
        end
    end.

  (** handleVal, handleMap and handleList of instantiateAttrs, representation.go 64-103: a string that begins with '$'
      is replaced by the value of the environment, which is not searched in turn *)
  Definition environ : Type := list (buf * aval).
  Definition e_get (env : environ) (k : buf) : option aval := option_map snd (find (fun e => bytes_eqb (fst e) k) env).
  Fixpoint inst_val (env : environ) (v : aval) {struct v} : res aval :=
    match v with
    | AStr (36%N :: s) => match e_get env (36%N :: s) with Some w => Ok w | None => Panic end
    | AMap d =>
        do d' <- (fix go (d : list (buf * aval)) : res (list (buf * aval)) :=
                    match d with
                    | [] => Ok []
                    | (k, x) :: r => do x' <- inst_val env x; do r' <- go r; Ok ((k, x') :: r')
                    end) d;
        Ok (AMap d')
    | AList l =>
        do l' <- (fix go (l : list aval) : res (list aval) :=
                    match l with
                    | [] => Ok []
                    | x :: r => do x' <- inst_val env x; do r' <- go r; Ok (x' :: r')
                    end) l;
        Ok (AList l')
    | _ => Ok v
    end.
  Fixpoint inst_attrs (env : environ) (d : list (buf * aval)) : res (list (buf * aval)) :=
    match d with
    | [] => Ok []
    | (k, x) :: r => do x' <- inst_val env x; do r' <- inst_attrs env r; Ok ((k, x') :: r')
    end.

  (** the loop over the attributes, representation.go 123-130 and 158-164, in the order Go's map iteration yields
      them: an error panics *)
  Fixpoint set_attrs (fuel : nat) (t : anode) (d : list (buf * aval)) : res anode :=
    match d with
    | [] => Ok t
    | (k, v) :: r => match set_prop fuel t k v with
                     | Ok (None, t') => set_attrs fuel t' r
                     | Ok (Some _, _) => Panic
                     | Panic => Panic
                     | Hang => Hang
                     | Err e => Err e
                     end
    end.
  Definition inst_node (fuel : nat) (env : environ) (t : anode) (d : list (buf * aval)) : res anode :=
    do a <- inst_attrs env d; set_attrs fuel t a.

  (** ** The classes *)
  Definition base_node : anode := SNode (mkA [] []) [].

  (** ExpressPointDesc, expressing_point.go 382-387, and CreateExpressPoint, 357-374 *)
  Definition expr_class : class :=
    [(txt "CanBePrefix", PDefault (txt "CanBePrefix")); (txt "MustBeFresh", PDefault (txt "MustBeFresh"));
     (txt "Lifetime", PTime (txt "Lifetime")); (txt "SupressInt", PDefault (txt "SupressInt"))].
  Definition expr_obj : fields :=
    [(txt "CanBePrefix", (GBool, ABool true)); (txt "MustBeFresh", (GBool, ABool true));
     (txt "Lifetime", (GDur, ADur (4000 * ms)%Z)); (txt "SupressInt", (GBool, ABool false))].
  Definition expr_node : anode := SNode (mkA expr_class expr_obj) [].

  (** LeafNodeDesc, leaf_node.go 101-106, and CreateLeafNode, 81-89 *)
  Definition leaf_class : class :=
    expr_class ++
    [(txt "ContentType", PDefault (txt "ContentType")); (txt "Freshness", PTime (txt "Freshness"));
     (txt "ValidDuration", PTime (txt "ValidDur"))].
  (** 876000 hours *)
  Definition century : Z := (876000 * 3600 * 1000 * ms)%Z.
  Definition leaf_obj : fields :=
    expr_obj ++
    [(txt "ContentType", (GCType, ACType 0%N)); (txt "Freshness", (GDur, ADur (60000 * ms)%Z));
     (txt "ValidDur", (GDur, ADur century))].
  Definition leaf_node : anode := SNode (mkA leaf_class leaf_obj) [].

  (** SegmentedNode, rdr.go 15-26, 32-51 and 581-590 *)
  Definition seg_class : class :=
    [(txt "ContentType", PDefault (txt "ContentType")); (txt "Lifetime", PTime (txt "Lifetime"));
     (txt "Freshness", PTime (txt "Freshness")); (txt "ValidDuration", PTime (txt "ValidDur"));
     (txt "MustBeFresh", PDefault (txt "MustBeFresh")); (txt "SegmentSize", PDefault (txt "SegmentSize"));
     (txt "MaxRetriesOnFailure", PDefault (txt "MaxRetriesOnFailure")); (txt "Pipeline", PDefault (txt "Pipeline"))].
  Definition seg_obj : fields :=
    [(txt "ContentType", (GCType, ACType 0%N)); (txt "Freshness", (GDur, ADur (10000 * ms)%Z));
     (txt "ValidDur", (GDur, ADur century)); (txt "Lifetime", (GDur, ADur (4000 * ms)%Z));
     (txt "MustBeFresh", (GBool, ABool true)); (txt "SegmentSize", (GU64, AU64 8000%N));
     (txt "MaxRetriesOnFailure", (GU64, AU64 15%N)); (txt "Pipeline", (GStr, AStr (txt "SinglePacket")))].
  Definition seg_node : anode := SNode (mkA seg_class seg_obj) [(PVar 50%N (txt "segmentNumber"), leaf_node)].

  (** RdrNode, rdr.go 220-225, 231-248 and 667-679 *)
  Definition p_meta : pat := PComp (mkComp 32%N (txt "metadata")).
  Definition p_ver : pat := PVar 54%N (txt "versionNumber").
  Definition rdr_class : class :=
    [(txt "MetaFreshness", PTime (txt "MetaFreshness")); (txt "MaxRetriesForMeta", PDefault (txt "MaxRetriesForMeta"));
     (txt "MetaLifetime", PSub [p_meta] (txt "Lifetime")); (txt "ContentType", PSub [p_ver] (txt "ContentType"));
     (txt "Lifetime", PSub [p_ver] (txt "Lifetime")); (txt "Freshness", PSub [p_ver] (txt "Freshness"));
     (txt "ValidDuration", PSub [p_ver] (txt "ValidDuration")); (txt "MustBeFresh", PSub [p_ver] (txt "MustBeFresh"));
     (txt "SegmentSize", PSub [p_ver] (txt "SegmentSize"));
     (txt "MaxRetriesOnFailure", PSub [p_ver] (txt "MaxRetriesOnFailure")); (txt "Pipeline", PSub [p_ver] (txt "Pipeline"))].
  Definition rdr_obj : fields :=
    [(txt "MetaFreshness", (GDur, ADur (10 * ms)%Z)); (txt "MaxRetriesForMeta", (GU64, AU64 15%N))].
  Definition rdr_node : anode :=
    SNode (mkA rdr_class rdr_obj)
      [(p_ver, seg_node);
       (p_meta, SNode (mkA expr_class expr_obj)
          [(p_ver, SNode (mkA [] []) [(PComp (mkComp 50%N [0%N]), leaf_node)])])].

  (** GeneralObjNode, rdr.go 388-395, 412-433 and 748-763 *)
  Definition p_data : pat := PComp (mkComp 32%N (txt "data")).
  Definition p_mani : pat := PComp (mkComp 32%N (txt "manifest")).
  Definition gobj_class : class :=
    [(txt "MetaFreshness", PTime (txt "MetaFreshness")); (txt "MaxRetriesForMeta", PDefault (txt "MaxRetriesForMeta"));
     (txt "ManifestFreshness", PTime (txt "ManifestFreshness"));
     (txt "MaxRetriesForManifest", PDefault (txt "MaxRetriesForManifest"));
     (txt "MetaLifetime", PSub [p_meta] (txt "Lifetime")); (txt "ManifestLifetime", PSub [p_mani] (txt "Lifetime"));
     (txt "ContentType", PSub [p_data] (txt "ContentType")); (txt "Lifetime", PSub [p_data] (txt "Lifetime"));
     (txt "Freshness", PSub [p_data] (txt "Freshness")); (txt "ValidDuration", PSub [p_data] (txt "ValidDuration"));
     (txt "MustBeFresh", PSub [p_data] (txt "MustBeFresh")); (txt "SegmentSize", PSub [p_data] (txt "SegmentSize"));
     (txt "MaxRetriesOnFailure", PSub [p_data] (txt "MaxRetriesOnFailure")); (txt "Pipeline", PSub [p_data] (txt "Pipeline"))].
  Definition gobj_obj : fields :=
    [(txt "MetaFreshness", (GDur, ADur (10 * ms)%Z)); (txt "MaxRetriesForMeta", (GU64, AU64 15%N));
     (txt "ManifestFreshness", (GDur, ADur (10 * ms)%Z)); (txt "MaxRetriesForManifest", (GU64, AU64 15%N))].
  Definition gobj_node : anode :=
    SNode (mkA gobj_class gobj_obj) [(p_data, seg_node); (p_meta, leaf_node); (p_mani, leaf_node)].

  (** ContentKeyNode, demosec/encryption.go 40-53 and 150-156: the fields of the leaf are assigned directly *)
  Definition p_ckid : pat := PVar 8%N (txt "contentKeyID").
  Definition ck_class : class :=
    [(txt "Lifetime", PSub [p_ckid] (txt "Lifetime")); (txt "Freshness", PSub [p_ckid] (txt "Freshness"));
     (txt "ValidDuration", PSub [p_ckid] (txt "ValidDuration"))].
  Definition ck_node : anode :=
    SNode (mkA ck_class [])
      [(p_ckid, with_obj leaf_node (f_set (f_set leaf_obj (txt "ContentType") (ACType 2%N)) (txt "MustBeFresh") (ABool false)))].

  (** SvsNode, svs/sync.go 36-60, 66-99 and 368-381.  CreateSvsNode sets properties of the nodes below it and does
      not look at the errors. *)
  Definition p_nid : pat := PVar 8%N (txt "nodeId").
  Definition p_seq : pat := PVar 58%N (txt "seqNo").
  Definition p_notif : pat := PComp (mkComp 32%N (txt "notif")).
  Definition svs_class : class :=
    [(txt "SyncInterval", PTime (txt "SyncInterval")); (txt "SuppressionInterval", PTime (txt "SuppressionInterval"));
     (txt "BaseMatching", PMatching (txt "BaseMatching")); (txt "ChannelSize", PDefault (txt "ChannelSize"));
     (txt "SelfNodeId", PDefault (txt "SelfNodeId"));
     (txt "ContentType", PSub [p_nid; p_seq] (txt "ContentType")); (txt "Lifetime", PSub [p_nid; p_seq] (txt "Lifetime"));
     (txt "Freshness", PSub [p_nid; p_seq] (txt "Freshness")); (txt "ValidDuration", PSub [p_nid; p_seq] (txt "ValidDuration"));
     (txt "MustBeFresh", PSub [p_nid; p_seq] (txt "MustBeFresh"))].
  Definition svs_obj : fields :=
    [(txt "SyncInterval", (GDur, ADur (30000 * ms)%Z)); (txt "SuppressionInterval", (GDur, ADur (200 * ms)%Z));
     (txt "BaseMatching", (GMatch, AMatch [])); (txt "ChannelSize", (GU64, AU64 0%N)); (txt "SelfNodeId", (GBytes, ABytes []))].
  Definition set_quiet (t : anode) (k : buf) (v : aval) : anode :=
    match set_prop 1 t k v with Ok (_, t') => t' | _ => t end.
  Definition svs_leaf : anode :=
    set_quiet (set_quiet (set_quiet (set_quiet (set_quiet leaf_node
      (txt "CanBePrefix") (ABool false)) (txt "MustBeFresh") (ABool false)) (txt "Lifetime") (ADur (4000 * ms)%Z))
      (txt "Freshness") (ADur (60000 * ms)%Z)) (txt "ValidDuration") (ADur century).
  Definition svs_notif : anode :=
    set_quiet (set_quiet (set_quiet expr_node
      (txt "CanBePrefix") (ABool true)) (txt "MustBeFresh") (ABool true)) (txt "Lifetime") (ADur (1000 * ms)%Z).
  Definition svs_node : anode :=
    SNode (mkA svs_class svs_obj) [(p_nid, SNode (mkA [] []) [(p_seq, svs_leaf)]); (p_notif, svs_notif)].

  (** the policies with properties: basic_policies.go 16-21, 47-51, 302-307 (RegisterPolicy), 192-207, 322-330
      (FixedHmacSigner), 253-256, 334-340 (FixedHmacIntSigner), demosec/policies.go 15-18, 186-192 (KeyStoragePolicy),
      80-86, 195-203 (SignedBy).  A policy is a node without children here.  The type *DemoHmacKeyStore is number 0. *)
  Definition policy (c : class) (o : fields) : anode := SNode (mkA c o) [].
  Definition register_policy : anode := policy
    [(txt "RegisterIf", PDefault (txt "RegisterIf")); (txt "Patterns", PMatching (txt "Patterns"))]
    [(txt "RegisterIf", (GBool, ABool true)); (txt "Patterns", (GMatch, AMatch []))].
  Definition hmac_policy : anode := policy
    [(txt "KeyValue", PDefault (txt "Key")); (txt "KeyName", PName (txt "KeyName"));
     (txt "SignForCert", PDefault (txt "SignForCert")); (txt "ExpireTime", PTime (txt "ExpireTime"))]
    [(txt "Key", (GStr, AStr [])); (txt "KeyName", (GName, AName [])); (txt "SignForCert", (GBool, ABool false));
     (txt "ExpireTime", (GDur, ADur 0%Z))].
  Definition hmac_int_policy : anode := policy [(txt "KeyValue", PDefault (txt "Key"))] [(txt "Key", (GStr, AStr []))].
  Definition key_storage_policy : anode := policy [(txt "KeyStore", PDefault (txt "KeyStore"))] [(txt "KeyStore", (GOther 0%N, ANil))].
  Definition signed_by_policy : anode := policy
    [(txt "Mapping", PDefault (txt "Mapping")); (txt "KeyStore", PDefault (txt "KeyStore")); (txt "KeyNodePath", PDefault (txt "KeyNodePath"))]
    [(txt "Mapping", (GMap, AMap [])); (txt "KeyStore", (GOther 0%N, ANil)); (txt "KeyNodePath", (GStr, AStr []))].
End Conv.
