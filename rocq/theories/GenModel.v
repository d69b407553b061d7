(** The front end of the code generator (pkg/encoding/codegen, cmd/gondn_tlv_gen): from the
    declarations of a Go file to descriptions of the structures to generate code for.  The
    templates that print the code are interpreted in CodecModel; here only what decides which
    fields of which kind, type number and name are generated.  Error values are only logged and
    are one value here ([None]). *)
From Coq Require Import String Ascii.
From Verif Require Import Base CodecModel.
Local Open Scope string_scope.

(** ** What the Go parser hands over *)

(** ast.Field: the names it declares (none for an embedded type), the literal of the tag with
    its quotes, the lines of the comment above it *)
Record sfield : Type := mkSF { sf_names : list string; sf_tag : option string; sf_doc : list string }.

(** ast.TypeSpec: the name and, for structures, the fields *)
Record tspec : Type := mkSpec { ts_name : string; ts_struct : option (list sfield) }.

(** ast.GenDecl with Tok = token.TYPE: the lines of the comment above it, its specs
    (more than one in [type ( ... )]) *)
Record decl : Type := mkDecl { d_doc : list string; d_specs : list tspec }.

(** ** Strings *)

(** strings.HasPrefix and the rest *)
Fixpoint strip (p s : string) : option string :=
  match p, s with
  | EmptyString, _ => Some s
  | String a p', String b s' => if Ascii.eqb a b then strip p' s' else None
  | String _ _, EmptyString => None
  end.

(** strings.Index(s, c) and the two sides *)
Fixpoint cut (c : ascii) (s : string) : option (string * string) :=
  match s with
  | EmptyString => None
  | String a s' => if Ascii.eqb a c then Some ("", s')
                   else match cut c s' with Some (x, y) => Some (String a x, y) | None => None end
  end.

(** strings.SplitN(s, c, n) for n > 0 *)
Fixpoint splitn (n : nat) (c : ascii) (s : string) : list string :=
  match n with
  | O => []
  | S O => [s]
  | S n' => match cut c s with Some (x, y) => x :: splitn n' c y | None => [s] end
  end.

(** strings.Split(s, c) *)
Definition split (c : ascii) (s : string) : list string := splitn (S (String.length s)) c s.

Definition colon : ascii := ":".
Definition comma : ascii := ",".
Definition dquote : ascii := """".

(** ** Numbers *)

(** strconv: lower(c) = c | ('x' - 'X'), in so far as it matters for letters *)
Definition lower (c : ascii) : N := N.lor (N_of_ascii c) 32.

(** the value of a digit in ParseUint; [None]: neither digit nor letter *)
Definition digit (c : ascii) : option N :=
  let n := N_of_ascii c in
  if (48 <=? n)%N && (n <=? 57)%N then Some (n - 48)%N
  else if (97 <=? lower c)%N && (lower c <=? 122)%N then Some (lower c - 97 + 10)%N
  else None.

(** the loop of strconv.ParseUint with 64 bits; underscores are passed over *)
Fixpoint digits (base : N) (s : string) (n : N) : option N :=
  match s with
  | EmptyString => Some n
  | String c s' =>
      if Ascii.eqb c "_" then digits base s' n
      else match digit c with
           | None => None
           | Some d => if (base <=? d)%N then None
                       else if (2 ^ 64 <=? n * base + d)%N then None else digits base s' (n * base + d)%N
           end
  end.

(** strconv.underscoreOK after the prefix: [dig]: the last one was a digit (or the prefix),
    [und]: an underscore *)
Fixpoint under_ok (hex dig und : bool) (s : string) : bool :=
  match s with
  | EmptyString => negb und
  | String c s' =>
      let n := N_of_ascii c in
      if ((48 <=? n)%N && (n <=? 57)%N) || (hex && (97 <=? lower c)%N && (lower c <=? 102)%N)
      then under_ok hex true false s'
      else if Ascii.eqb c "_" then (if dig then under_ok hex false true s' else false)
      else if und then false else under_ok hex false false s'
  end.

Fixpoint has_under (s : string) : bool :=
  match s with EmptyString => false | String c s' => Ascii.eqb c "_" || has_under s' end.

(** the base that a prefix stands for (base 0), and the digits after it *)
Definition base_of (s : string) : N * string :=
  match s with
  | String z s1 =>
      if Ascii.eqb z "0" then
        match s1 with
        | String x (String y s2) =>
            if (lower x =? 98)%N then (2%N, String y s2)
            else if (lower x =? 111)%N then (8%N, String y s2)
            else if (lower x =? 120)%N then (16%N, String y s2)
            else (8%N, s1)
        | _ => (8%N, s1)
        end
      else (10%N, s)
  | EmptyString => (10%N, s)
  end.

(** strconv.underscoreOK *)
Definition underscore_ok (s : string) : bool :=
  let s := match s with
           | String c s' => if Ascii.eqb c "-" || Ascii.eqb c "+" then s' else s
           | EmptyString => s
           end in
  match s with
  | String z (String x s') =>
      if Ascii.eqb z "0" && ((lower x =? 98)%N || (lower x =? 111)%N || (lower x =? 120)%N)
      then under_ok (lower x =? 120)%N true false s' else under_ok false false false s
  | _ => under_ok false false false s
  end.

(** strconv.ParseUint(s, 0, 0) *)
Definition parse_uint (s : string) : option N :=
  match s with
  | EmptyString => None
  | _ => let (b, r) := base_of s in
         match digits b r 0 with
         | Some n => if has_under r && negb (underscore_ok s) then None else Some n
         | None => None
         end
  end.

(** ** codegen.go *)

(** the characters [[0-9a-fA-FxX]] *)
Definition tag_char (c : ascii) : bool :=
  let n := N_of_ascii c in
  ((48 <=? n)%N && (n <=? 57)%N) || ((97 <=? n)%N && (n <=? 102)%N) || ((65 <=? n)%N && (n <=? 70)%N)
  || (n =? 120)%N || (n =? 88)%N.

(** the longest run of such characters, and what follows *)
Fixpoint tag_run (s : string) : string * string :=
  match s with
  | String c s' => if tag_char c then let (a, b) := tag_run s' in (String c a, b) else ("", s)
  | EmptyString => ("", "")
  end.

(** the expression [tlv:"([0-9a-fA-FxX]+)"], codegen.go line 28, at the start of s *)
Definition tag_here (s : string) : option string :=
  match strip "tlv:""" s with
  | Some r => match tag_run r with
              | (String a x, String q _) => if Ascii.eqb q dquote then Some (String a x) else None
              | _ => None
              end
  | None => None
  end.

(** FindStringSubmatch: the leftmost match *)
Fixpoint tag_find (s : string) : option string :=
  match tag_here s with
  | Some x => Some x
  | None => match s with String _ s' => tag_find s' | EmptyString => None end
  end.

(** parseTag, codegen.go 32-45 *)
Definition parse_tag (tag : option string) : N :=
  match tag with
  | None => 0%N
  | Some t => match tag_find t with
              | None => 0%N
              | Some x => match parse_uint x with Some n => n | None => 0%N end
              end
  end.

(** parseDoc, codegen.go 47-65; the empty string also stands for "no such line" *)
Fixpoint parse_doc (ind : string) (doc : list string) : string :=
  match doc with
  | [] => ""
  | c :: r =>
      match strip ("//+" ++ ind ++ ":") c with
      | Some x => x
      | None => match strip ("// +" ++ ind ++ ":") c with
                | Some x => x
                | None => parse_doc ind r
                end
      end
  end.

(** ** The fields *)

(** The kinds of TlvField with the data their constructors keep.  A field of a sequence or map
    has the name of the sequence or map (with _k or _v), which is left out. *)
Inductive gkind : Type :=
| GNat (opt : bool)
| GFixed (width : N) (opt : bool)
| GTime (opt : bool)
| GBin
| GStr (opt : bool)
| GWire
| GName
| GBool
| GArg (ty : string)
| GOffset
| GRange (start covered : string)
| GSeq (ty : string) (sub : gkind)
| GStruct (ty : string) (nocopy : bool)
| GSig (start covered : string)
| GIName (covered : string)
| GMap (kty : string) (key : gkind) (vtyp : N) (vty : string) (val : gkind).

Inductive fclass : Type :=
| CNat | CFixed | CTime | CBin | CStr | CWire | CName | CBool
| CArg | COffset | CRange | CSeq | CStruct | CSig | CIName | CMap.

(** fieldList, fields.go 113-130 *)
Definition class_table : list (string * fclass) :=
  [ ("natural", CNat); ("fixedUint", CFixed); ("time", CTime); ("binary", CBin)
  ; ("string", CStr); ("wire", CWire); ("name", CName); ("bool", CBool)
  ; ("procedureArgument", CArg); ("offsetMarker", COffset); ("rangeMarker", CRange)
  ; ("sequence", CSeq); ("struct", CStruct); ("signature", CSig); ("interestName", CIName)
  ; ("map", CMap) ].

(** the loop of CreateField, fields.go 132-136, over the map in some order *)
Fixpoint find_class (tbl : list (string * fclass)) (cls : string) : option fclass :=
  match tbl with
  | [] => None
  | (k, f) :: r => match strip k cls with Some _ => Some f | None => find_class r cls end
  end.

(** fields_fixeduint.go 26-36: zero for any other word *)
Definition width_of (s : string) : N :=
  if s =? "byte" then 1 else if s =? "uint16" then 2 else if s =? "uint32" then 4
  else if s =? "uint64" then 8 else 0.

Definition is_nil (s : string) : bool := match s with EmptyString => true | _ => false end.

Section Create.

(** The order in which Go iterates over the map, for every call: it may depend on all. *)
Variable ord : nat -> string -> string -> list (string * fclass).

(** CreateField (fields.go 112-138) and the constructors New...Field: fields_natural.go 12-20,
    fields_fixeduint.go 17-45, fields_time.go 12-20, fields_binary.go 11-18, fields_string.go
    12-20, fields_wire.go 15-23, fields_name.go 13-20, fields_bool.go 8-15, markers.go 21-29,
    60-68, 135-150, fields_sequence.go 17-41, fields_struct.go 17-38, signature.go 117-131,
    276-287, map_field.go 164-200.  [nc] is the model's NoCopy.  The annotation of a field of a
    sequence or map is shorter than that of the sequence or map: [fuel] bounds its length
    ([create_fuel] in GenProofs). *)
Fixpoint create (fuel : nat) (cls ann : string) (nc : bool) : option gkind :=
  match fuel with
  | O => None
  | S fuel' =>
      match find_class (ord fuel cls ann) cls with
      | None => None
      | Some CNat => Some (GNat (ann =? "optional"))
      | Some CTime => Some (GTime (ann =? "optional"))
      | Some CStr => Some (GStr (ann =? "optional"))
      | Some CBin => Some GBin
      | Some CWire => Some GWire
      | Some CName => Some GName
      | Some CBool => Some GBool
      | Some CArg => Some (GArg ann)
      | Some COffset => Some GOffset
      | Some CFixed =>
          if is_nil ann then None
          else match split colon ann with
               | w :: o :: _ => Some (GFixed (width_of w) (o =? "optional"))
               | w :: _ => Some (GFixed (width_of w) false)
               | [] => None
               end
      | Some CRange =>
          match split colon ann with
          | a :: b :: _ => if is_nil a || is_nil b then None else Some (GRange a b)
          | _ => None
          end
      | Some CSig =>
          match split colon ann with
          | a :: b :: _ => if is_nil a || is_nil b then None else Some (GSig a b)
          | _ => None
          end
      | Some CIName => if is_nil ann then None else Some (GIName ann)
      | Some CStruct =>
          if is_nil ann then None
          else match split colon ann with
               | ty :: o :: _ => let inner := o =? "nocopy" in
                                 if negb nc && inner then None else Some (GStruct ty inner)
               | ty :: _ => Some (GStruct ty false)
               | [] => None
               end
      | Some CSeq =>
          match splitn 3 colon ann with
          | ty :: cls' :: r =>
              match create fuel' cls' (match r with a :: _ => a | [] => "" end) nc with
              | Some k => Some (GSeq ty k)
              | None => None
              end
          | _ => None
          end
      | Some CMap =>
          match splitn 6 colon ann with
          | kty :: kcls :: num :: vty :: vcls :: r =>
              match parse_uint num with
              | None => None
              | Some vn =>
                  let ann' := match r with a :: _ => a | [] => "" end in
                  match create fuel' vcls ann' nc with
                  | None => None
                  | Some v => match create fuel' kcls ann' nc with
                              | None => None
                              | Some k => Some (GMap kty k vn vty v)
                              end
                  end
              end
          | _ => None
          end
      end
  end.

(** a field: its name, type number and kind *)
Record gfield : Type := mkG { g_name : string; g_typ : N; g_kind : gkind }.

(** ParseField, codegen.go 67-75.  The constructors of markers.go 21-29 and 60-68 keep type 0. *)
Definition parse_field (name : string) (tn : N) (s : string) (nc : bool) : option gfield :=
  let (cls, ann) := match cut colon s with Some p => p | None => (s, "") end in
  match create (S (String.length ann)) cls ann nc with
  | Some k => Some (mkG name (match k with GArg _ | GOffset => 0%N | _ => tn end) k)
  | None => None
  end.

(** TlvModel, model.go 9-33; WithParsingContext is computed from the fields later *)
Record gmodel : Type := mkGM { gm_name : string; gm_private : bool; gm_nocopy : bool;
                               gm_dict : bool; gm_ordered : bool; gm_fields : list gfield }.

(** ProcessOption, model.go 35-48: an unknown option panics *)
Definition process_option (m : gmodel) (o : string) : res gmodel :=
  if o =? "private" then Ok (mkGM (gm_name m) true (gm_nocopy m) (gm_dict m) (gm_ordered m) (gm_fields m))
  else if o =? "nocopy" then Ok (mkGM (gm_name m) (gm_private m) true (gm_dict m) (gm_ordered m) (gm_fields m))
  else if o =? "dict" then Ok (mkGM (gm_name m) (gm_private m) (gm_nocopy m) true (gm_ordered m) (gm_fields m))
  else if o =? "ordered" then Ok (mkGM (gm_name m) (gm_private m) (gm_nocopy m) (gm_dict m) true (gm_fields m))
  else Panic.

Fixpoint process_options (m : gmodel) (os : list string) : res gmodel :=
  match os with
  | [] => Ok m
  | o :: r => do m' <- process_option m o; process_options m' r
  end.

(** codegen.go 117-136: the loop over the fields *)
Fixpoint process_fields (nc : bool) (fs : list sfield) : list gfield :=
  match fs with
  | [] => []
  | f :: r =>
      match sf_names f with
      | [] => process_fields nc r
      | n :: _ =>
          let s := parse_doc "field" (sf_doc f) in
          if is_nil s then process_fields nc r
          else match parse_field n (parse_tag (sf_tag f)) s nc with
               | Some g => g :: process_fields nc r
               | None => process_fields nc r
               end
      end
  end.

(** ProcessDecl, codegen.go 78-144, for a type declaration: the model that is added, if any.
    Only the first spec is looked at. *)
Definition process_decl (d : decl) : res (option gmodel) :=
  match d_specs d with
  | [] => Panic
  | sp :: _ =>
      match ts_struct sp with
      | None => Ok None
      | Some fs =>
          let opts := parse_doc "tlv-model" (d_doc d) in
          do m <- (if is_nil opts then Ok (mkGM (ts_name sp) false false false false [])
                   else process_options (mkGM (ts_name sp) false false false false []) (split comma opts));
          match process_fields (gm_nocopy m) fs with
          | [] => Ok None
          | gs => Ok (Some (mkGM (gm_name m) (gm_private m) (gm_nocopy m) (gm_dict m) (gm_ordered m) gs))
          end
      end
  end.

(** all declarations of a package, in the order in which they are visited (main.go 60-66) *)
Fixpoint process_all (ds : list decl) : res (list gmodel) :=
  match ds with
  | [] => Ok []
  | d :: r => do m <- process_decl d;
              do ms <- process_all r;
              Ok (match m with Some x => x :: ms | None => ms end)
  end.

End Create.

(** ** From descriptions to models *)

Fixpoint index_of (n : string) (l : list string) : option nat :=
  match l with
  | [] => None
  | x :: r => if x =? n then Some O else match index_of n r with Some i => Some (S i) | None => None end
  end.

(** the model that the Go compiler finds under the name of a structure, and the field under the
    name of a marker *)
Fixpoint kind_of (look : string -> option model) (names : list string) (k : gkind) : option kind :=
  match k with
  | GNat o => Some (KNat o)
  | GFixed w o => Some (KFixed (N.to_nat w) o)
  | GTime o => Some (KTime o)
  | GBin => Some KBin
  | GStr o => Some (KStr o)
  | GWire => Some KWire
  | GName => Some KName
  | GBool => Some KBool
  | GArg _ => Some KArg
  | GOffset => Some KOffset
  | GRange a b => match index_of a names, index_of b names with
                  | Some i, Some j => Some (KRange i j) | _, _ => None end
  | GSig a b => match index_of a names, index_of b names with
                | Some i, Some j => Some (KSig i j) | _, _ => None end
  | GIName b => match index_of b names with Some j => Some (KIName j) | None => None end
  | GSeq _ s => match kind_of look names s with Some s' => Some (KSeq s') | None => None end
  | GStruct ty nc => match look ty with Some m => Some (KStruct m nc) | None => None end
  | GMap _ a n _ b => match kind_of look names a, kind_of look names b with
                      | Some a', Some b' => Some (KMap a' n b') | _, _ => None end
  end.

Fixpoint fields_of (look : string -> option model) (names : list string) (fs : list gfield)
  : option (list (N * kind)) :=
  match fs with
  | [] => Some []
  | f :: r => match kind_of look names (g_kind f), fields_of look names r with
              | Some k, Some l => Some ((g_typ f, k) :: l)
              | _, _ => None
              end
  end.

(** structures may be declared in any order; [fuel] bounds how deep they are nested *)
Fixpoint model_of (fuel : nat) (ms : list gmodel) (m : gmodel) : option model :=
  match fuel with
  | O => None
  | S fuel' =>
      let look ty := match find (fun x => gm_name x =? ty) ms with
                     | Some x => model_of fuel' ms x
                     | None => None
                     end in
      match fields_of look (map g_name (gm_fields m)) (gm_fields m) with
      | Some fs => Some (Model (gm_nocopy m) (gm_ordered m) fs)
      | None => None
      end
  end.

(** the models of the packages of a source, in order *)
Definition models_of (ord : nat -> string -> string -> list (string * fclass)) (srcs : list (list decl))
  : list (option model) :=
  flat_map (fun ds => match process_all ord ds with
                      | Ok ms => map (fun m => model_of (S (List.length ms)) ms m) ms
                      | _ => [None]
                      end) srcs.
