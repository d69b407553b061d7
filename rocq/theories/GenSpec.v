(** What the annotations of a structure say, for C77: how a kind of field is written, how a
    type number is written in a tag, and which lines of a comment count.  Independent of the
    functions that read them. *)
From Coq Require Import String Ascii Permutation Decimal DecimalString Hexadecimal HexadecimalString.
From Verif Require Import Base GenModel.
Local Open Scope string_scope.

(** [n] in decimal and in hexadecimal digits, by the standard library *)
Definition dec (n : N) : string := DecimalString.NilZero.string_of_uint (N.to_uint n).
Definition hex (n : N) : string := HexadecimalString.NilZero.string_of_uint (N.to_hex_uint n).

(** whatever order Go chooses for the table of field classes, each time *)
Definition any_order (ord : nat -> string -> string -> list (string * fclass)) : Prop :=
  forall f c a, Permutation (ord f c a) class_table.

(** a string that does not contain the character *)
Fixpoint without (c : ascii) (s : string) : Prop :=
  match s with EmptyString => True | String a s' => a <> c /\ without c s' end.

(** ** How a kind of field is written *)

Definition word (k : gkind) : string :=
  match k with
  | GNat _ => "natural" | GFixed _ _ => "fixedUint" | GTime _ => "time" | GBin => "binary"
  | GStr _ => "string" | GWire => "wire" | GName => "name" | GBool => "bool"
  | GArg _ => "procedureArgument" | GOffset => "offsetMarker" | GRange _ _ => "rangeMarker"
  | GSeq _ _ => "sequence" | GStruct _ _ => "struct" | GSig _ _ => "signature"
  | GIName _ => "interestName" | GMap _ _ _ _ _ => "map"
  end.

(** a word, followed by arguments if there are any *)
Definition with_args (w a : string) : string := if is_nil a then w else w ++ ":" ++ a.

Definition width_word (w : N) : string :=
  if (w =? 1)%N then "byte" else if (w =? 2)%N then "uint16"
  else if (w =? 4)%N then "uint32" else "uint64".

Fixpoint args (k : gkind) : string :=
  match k with
  | GNat o | GTime o | GStr o => if o then "optional" else ""
  | GFixed w o => width_word w ++ (if o then ":optional" else "")
  | GBin | GWire | GName | GBool | GOffset => ""
  | GArg ty => ty
  | GRange a b | GSig a b => a ++ ":" ++ b
  | GIName b => b
  | GStruct ty nc => ty ++ (if nc then ":nocopy" else "")
  | GSeq ty s => ty ++ ":" ++ with_args (word s) (args s)
  | GMap kty key n vty val =>
      kty ++ ":" ++ word key ++ ":0x" ++ hex n ++ ":" ++ vty ++ ":" ++ with_args (word val) (args val)
  end.

(** the text after [+field:] *)
Definition text (k : gkind) : string := with_args (word k) (args k).

(** a name in an annotation *)
Definition ident (s : string) : Prop := s <> "" /\ without colon s.

(** The key of a map is read with the arguments of the value. *)
Definition key_fits (key val : gkind) : Prop :=
  args key = args val
  \/ match key with
     | GBin | GWire | GName | GBool | GOffset => True
     | GNat false | GTime false | GStr false => args val <> "optional"
     | _ => False
     end.

(** what can be written: [nc] says if the structure has the option nocopy *)
Fixpoint writable (nc : bool) (k : gkind) : Prop :=
  match k with
  | GFixed w _ => (w = 1 \/ w = 2 \/ w = 4 \/ w = 8)%N
  | GRange a b | GSig a b => ident a /\ ident b
  | GIName b => b <> ""
  | GStruct ty inner => ident ty /\ (inner = true -> nc = true)
  | GSeq ty s => without colon ty /\ writable nc s
  | GMap kty key n vty val =>
      without colon kty /\ without colon vty /\ (n < 2 ^ 64)%N /\
      writable nc key /\ writable nc val /\ key_fits key val
  | _ => True
  end.

(** markers and arguments have no type number *)
Definition type_of (k : gkind) (n : N) : N :=
  match k with GArg _ | GOffset => 0%N | _ => n end.

(** ** Tags *)

(** capital letters made small *)
Definition small_char (c : ascii) : ascii :=
  let n := N_of_ascii c in if (65 <=? n)%N && (n <=? 90)%N then ascii_of_N (n + 32) else c.
Fixpoint small (s : string) : string :=
  match s with EmptyString => "" | String c s' => String (small_char c) (small s') end.

(** [i] zeros *)
Definition zeros (i : nat) : string := String.concat "" (repeat "0" i).

(** the tag of a field gives the type number [n]: in decimal, or in hexadecimal after 0x (with
    leading zeros or capitals); what stands before and after it does not matter *)
Definition tag_says (tag : option string) (n : N) : Prop :=
  match tag with
  | None => n = 0%N
  | Some t =>
      (n < 2 ^ 64)%N /\
      exists pre post num,
        t = pre ++ "tlv:""" ++ num ++ """" ++ post
        /\ (forall a b, pre <> a ++ "tlv:""" ++ b)
        /\ (num = dec n \/ exists i, small num = "0x" ++ zeros i ++ hex n)
  end.

(** ** Comments *)

(** the line carries [s] for the indicator *)
Definition carries (ind line s : string) : Prop :=
  line = "//+" ++ ind ++ ":" ++ s \/ line = "// +" ++ ind ++ ":" ++ s.

(** the first line that carries anything carries [s] *)
Definition first_note (ind : string) (doc : list string) (s : string) : Prop :=
  exists a l b, doc = (a ++ l :: b)%list /\ carries ind l s /\ forall x, In x a -> forall t, ~ carries ind x t.

Definition no_note (ind : string) (doc : list string) : Prop :=
  forall x t, In x doc -> ~ carries ind x t.

(** ** Declarations *)

(** a field of a structure and what is generated for it *)
Inductive field_says (nc : bool) : sfield -> list gfield -> Prop :=
| says_plain f : no_note "field" (sf_doc f) -> field_says nc f []
| says_embedded f : sf_names f = [] -> field_says nc f []
| says_field f name k n :
    sf_names f = [name] -> first_note "field" (sf_doc f) (text k) -> writable nc k ->
    tag_says (sf_tag f) n -> field_says nc f [mkG name (type_of k n) k].

(** the options of a structure: words separated by commas, in any order *)
Definition option_words : list string := ["private"; "nocopy"; "dict"; "ordered"].
Definition options_say (doc : list string) (os : list string) : Prop :=
  match os with
  | [] => no_note "tlv-model" doc
  | _ => first_note "tlv-model" doc (String.concat "," os) /\ forall o, In o os -> In o option_words
  end.

(** what is made of a structure with these options and fields; none if there is no field *)
Definition described (name : string) (os : list string) (fs : list gfield) : option gmodel :=
  match fs with
  | [] => None
  | _ => Some (mkGM name (existsb (String.eqb "private") os) (existsb (String.eqb "nocopy") os)
                    (existsb (String.eqb "dict") os) (existsb (String.eqb "ordered") os) fs)
  end.
