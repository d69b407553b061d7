(** What users who configure a schema rely on. *)
From Coq Require Import String.
From Verif Require Import Base NameModel PrimModel TextModel SchemaModel AttrModel.

(** the floating point number is this integer *)
Definition f_is (f : flt) (n : Z) : Prop := (f_man f * 2 ^ Z.max 0 (f_exp f) = n * 2 ^ Z.max 0 (- f_exp f))%Z.

(** what a property stands for, according to the documentation of the properties *)
Inductive meaning : Type := MBool | MUint | MMs | MText | MBytes | MCType | MMatching | MName | MMap | MStore.

(** the entries of a map as components *)
Inductive match_of : list (buf * aval) -> matching -> Prop :=
| MoNil : match_of [] []
| MoBytes : forall k b d m, match_of d m -> match_of ((k, ABytes b) :: d) ((k, b) :: m)
| MoNat : forall k n d m, match_of d m -> match_of ((k, AU64 n) :: d) ((k, nat_enc n) :: m)
| MoStr : forall k s c d m, comp_from_str s = Ok c -> match_of d m -> match_of ((k, AStr s) :: d) ((k, cval c) :: m).

(** a value that may be given to a property, and how it is read back.  Times are numbers of milliseconds up to the 292
    years of time.Duration; floating point numbers (all numbers in JSON) are exact up to 18 years. *)
Inductive legal : meaning -> aval -> aval -> Prop :=
| LBool : forall b, legal MBool (ABool b) (ABool b)
| LUint : forall n, legal MUint (AU64 n) (AU64 n)
| LUintF : forall f n, f_is f (Z.of_N n) -> (n < two64)%N -> legal MUint (AF64 f) (AU64 n)
| LMsU64 : forall n, (Z.of_N n * ms < Ztwo63)%Z -> legal MMs (AU64 n) (AU64 n)
| LMsUint : forall n, (Z.of_N n * ms < Ztwo63)%Z -> legal MMs (AUint n) (AU64 n)
| LMsI64 : forall n, (Z.of_N n * ms < Ztwo63)%Z -> legal MMs (AI64 (Z.of_N n)) (AU64 n)
| LMsInt : forall n, (Z.of_N n * ms < Ztwo63)%Z -> legal MMs (AInt (Z.of_N n)) (AU64 n)
| LMsF64 : forall f n, f_is f (Z.of_N n) -> (Z.of_N n * 15625 < 2 ^ 53)%Z -> legal MMs (AF64 f) (AU64 n)
| LMsF32 : forall f n, f_is f (Z.of_N n) -> (Z.of_N n * 15625 < 2 ^ 24)%Z -> legal MMs (AF32 f) (AU64 n)
| LText : forall s, legal MText (AStr s) (AStr s)
| LBytes : forall b, legal MBytes (ABytes b) (ABytes b)
| LBuffer : forall b, legal MBytes (ABuffer b) (ABytes b)
| LByteStr : forall s, legal MBytes (AStr s) (ABytes s)
| LCType : forall n, legal MCType (ACType n) (ACType n)
| LMatching : forall d m, match_of d m -> legal MMatching (AMap d) (AMatch m)
| LName : forall n, legal MName (AName n) (AStr (name_str n))
| LMap : forall d, legal MMap (AMap d) (AMap d)
| LStore : forall x, legal MStore (AOther 0 x) (AOther 0 x).

(** values of the right kind, legal or not *)
Definition right_type (m : meaning) (v : aval) : Prop :=
  match m with
  | MBool => exists b, v = ABool b
  | MUint => (exists n, v = AU64 n) \/ (exists f, v = AF64 f)
  | MMs => (exists n, v = AU64 n) \/ (exists n, v = AUint n) \/ (exists n, v = AI64 n) \/ (exists n, v = AInt n) \/
           (exists f, v = AF64 f) \/ (exists f, v = AF32 f)
  | MText => exists s, v = AStr s
  | MBytes => (exists b, v = ABytes b) \/ (exists b, v = ABuffer b) \/ (exists b, v = AStr b)
  | MCType => exists n, v = ACType n
  | MMatching => exists d, v = AMap d
  | MName => (exists n, v = AName n) \/ (exists s, v = AStr s)
  | MMap => exists d, v = AMap d
  | MStore => exists x, v = AOther 0 x
  end.

(** every class of nodes and policies with properties, and its properties *)
Definition leaf_props : list (buf * meaning) :=
  [(txt "CanBePrefix", MBool); (txt "MustBeFresh", MBool); (txt "Lifetime", MMs); (txt "SupressInt", MBool);
   (txt "ContentType", MCType); (txt "Freshness", MMs); (txt "ValidDuration", MMs)].
Definition seg_props : list (buf * meaning) :=
  [(txt "ContentType", MCType); (txt "Lifetime", MMs); (txt "Freshness", MMs); (txt "ValidDuration", MMs); (txt "MustBeFresh", MBool);
   (txt "SegmentSize", MUint); (txt "MaxRetriesOnFailure", MUint); (txt "Pipeline", MText)].
Definition configurable (fi : flt -> Z) (fu : flt -> N) : list (anode * list (buf * meaning)) :=
  [(expr_node, [(txt "CanBePrefix", MBool); (txt "MustBeFresh", MBool); (txt "Lifetime", MMs); (txt "SupressInt", MBool)]);
   (leaf_node, leaf_props);
   (seg_node, seg_props);
   (rdr_node, [(txt "MetaFreshness", MMs); (txt "MaxRetriesForMeta", MUint); (txt "MetaLifetime", MMs)] ++ seg_props);
   (gobj_node, [(txt "MetaFreshness", MMs); (txt "MaxRetriesForMeta", MUint); (txt "MetaLifetime", MMs); (txt "ManifestFreshness", MMs);
                (txt "MaxRetriesForManifest", MUint); (txt "ManifestLifetime", MMs)] ++ seg_props);
   (ck_node, [(txt "Lifetime", MMs); (txt "Freshness", MMs); (txt "ValidDuration", MMs)]);
   (svs_node fi fu, [(txt "SyncInterval", MMs); (txt "SuppressionInterval", MMs); (txt "BaseMatching", MMatching); (txt "ChannelSize", MUint);
                     (txt "SelfNodeId", MBytes); (txt "ContentType", MCType); (txt "Lifetime", MMs); (txt "Freshness", MMs);
                     (txt "ValidDuration", MMs); (txt "MustBeFresh", MBool)]);
   (register_policy, [(txt "RegisterIf", MBool); (txt "Patterns", MMatching)]);
   (hmac_policy, [(txt "KeyValue", MText); (txt "KeyName", MName); (txt "SignForCert", MBool); (txt "ExpireTime", MMs)]);
   (hmac_int_policy, [(txt "KeyValue", MText)]);
   (key_storage_policy, [(txt "KeyStore", MStore)]);
   (signed_by_policy, [(txt "Mapping", MMap); (txt "KeyStore", MStore); (txt "KeyNodePath", MText)])].

(** a node after any number of calls of Set that return, successful or not *)
Inductive configured (fi : flt -> Z) (fu : flt -> N) (t0 : anode) : anode -> Prop :=
| CfNew : configured fi fu t0 t0
| CfSet : forall n t k v e t', configured fi fu t0 t -> set_prop fi fu n t k v = Ok (e, t') -> configured fi fu t0 t'.

(** a sequence of calls of Set, whose results are not looked at *)
Inductive sets (fi : flt -> Z) (fu : flt -> N) (n : nat) : anode -> list (buf * aval) -> anode -> Prop :=
| SsNil : forall t, sets fi fu n t [] t
| SsCons : forall t k v e t' l t'', set_prop fi fu n t k v = Ok (e, t') -> sets fi fu n t' l t'' -> sets fi fu n t ((k, v) :: l) t''.

(** replacing the strings that begin with '$' by the values of the environment *)
Definition env_name (s : buf) : Prop := exists r, s = 36%N :: r.
Inductive subst (env : buf -> option aval) : aval -> aval -> Prop :=
| SbVar : forall s w, env_name s -> env s = Some w -> subst env (AStr s) w
| SbStr : forall s, ~ env_name s -> subst env (AStr s) (AStr s)
| SbMap : forall d d', substs env d d' -> subst env (AMap d) (AMap d')
| SbList : forall l l', substl env l l' -> subst env (AList l) (AList l')
| SbOther : forall v, (forall s, v <> AStr s) -> (forall d, v <> AMap d) -> (forall l, v <> AList l) -> subst env v v
with substs (env : buf -> option aval) : list (buf * aval) -> list (buf * aval) -> Prop :=
| SbsNil : substs env [] []
| SbsCons : forall k v v' d d', subst env v v' -> substs env d d' -> substs env ((k, v) :: d) ((k, v') :: d')
with substl (env : buf -> option aval) : list aval -> list aval -> Prop :=
| SblNil : substl env [] []
| SblCons : forall v v' d d', subst env v v' -> substl env d d' -> substl env (v :: d) (v' :: d').

(** the strings in a value *)
Inductive mentions : aval -> buf -> Prop :=
| MtStr : forall s, mentions (AStr s) s
| MtMap : forall d k v s, In (k, v) d -> mentions v s -> mentions (AMap d) s
| MtList : forall l v s, In v l -> mentions v s -> mentions (AList l) s.

(** what the properties of a new node or policy show, times in milliseconds; 3153600000000 are a hundred years *)
Definition leaf_defaults : list (buf * aval) :=
  [(txt "CanBePrefix", ABool true); (txt "MustBeFresh", ABool true); (txt "Lifetime", AU64 4000); (txt "SupressInt", ABool false);
   (txt "ContentType", ACType 0); (txt "Freshness", AU64 60000); (txt "ValidDuration", AU64 3153600000000)].
Definition seg_defaults : list (buf * aval) :=
  [(txt "ContentType", ACType 0); (txt "Lifetime", AU64 4000); (txt "Freshness", AU64 10000); (txt "ValidDuration", AU64 3153600000000);
   (txt "MustBeFresh", ABool true); (txt "SegmentSize", AU64 8000); (txt "MaxRetriesOnFailure", AU64 15); (txt "Pipeline", AStr (txt "SinglePacket"))].
Definition defaults (fi : flt -> Z) (fu : flt -> N) : list (anode * list (buf * aval)) :=
  [(expr_node, [(txt "CanBePrefix", ABool true); (txt "MustBeFresh", ABool true); (txt "Lifetime", AU64 4000); (txt "SupressInt", ABool false)]);
   (leaf_node, leaf_defaults);
   (seg_node, seg_defaults);
   (rdr_node, [(txt "MetaFreshness", AU64 10); (txt "MaxRetriesForMeta", AU64 15); (txt "MetaLifetime", AU64 4000)] ++ seg_defaults);
   (gobj_node, [(txt "MetaFreshness", AU64 10); (txt "MaxRetriesForMeta", AU64 15); (txt "MetaLifetime", AU64 4000); (txt "ManifestFreshness", AU64 10);
                (txt "MaxRetriesForManifest", AU64 15); (txt "ManifestLifetime", AU64 4000)] ++ seg_defaults);
   (ck_node, [(txt "Lifetime", AU64 4000); (txt "Freshness", AU64 60000); (txt "ValidDuration", AU64 3153600000000)]);
   (svs_node fi fu, [(txt "SyncInterval", AU64 30000); (txt "SuppressionInterval", AU64 200); (txt "BaseMatching", AMatch []); (txt "ChannelSize", AU64 0);
                     (txt "SelfNodeId", ABytes []); (txt "ContentType", ACType 0); (txt "Lifetime", AU64 4000); (txt "Freshness", AU64 60000);
                     (txt "ValidDuration", AU64 3153600000000); (txt "MustBeFresh", ABool false)]);
   (register_policy, [(txt "RegisterIf", ABool true); (txt "Patterns", AMatch [])]);
   (hmac_policy, [(txt "KeyValue", AStr []); (txt "KeyName", AStr (txt "/")); (txt "SignForCert", ABool false); (txt "ExpireTime", AU64 0)]);
   (hmac_int_policy, [(txt "KeyValue", AStr [])]);
   (key_storage_policy, [(txt "KeyStore", ANil)]);
   (signed_by_policy, [(txt "Mapping", AMap []); (txt "KeyStore", ANil); (txt "KeyNodePath", AStr [])])].
