(** The text form of names, written down without the code: which characters stand
    for themselves, what an escape is, the names of the component types.
    (Specification for PropsUri.v; refers to no definition of the model except the types of lists.) *)
From Coq Require Import Ascii String NArith List.
Import ListNotations.

Definition text : Type := list N.
(** the characters of a constant *)
Definition lit (s : string) : text := map N_of_ascii (list_ascii_of_string s).
Arguments lit s%string.

Definition unreserved : text := lit "ABCDEFGHIJKLMNOPQRSTUVWXYZabcdefghijklmnopqrstuvwxyz0123456789-_.~".
Definition reserved : text := lit "%=/\".
Definition digits : text := lit "0123456789".
Definition hex_capital : text := lit "0123456789ABCDEF".
Definition hex_small : text := lit "0123456789abcdef".
Definition percent : N := 37.
Definition equals : N := 61.
Definition slash : N := 47.

(** [c] is the digit for the number [d] *)
Definition digit_for (table : text) (d c : N) : Prop := nth_error table (N.to_nat d) = Some c.

(** types written by name: two with a hexadecimal value, five with a decimal number *)
Definition hex_types : list (N * text) := [(1%N, lit "sha256digest"); (2%N, lit "params-sha256")].
Definition number_types : list (N * text) := [(50%N, lit "seg"); (52%N, lit "off"); (54%N, lit "v"); (56%N, lit "t"); (58%N, lit "seq")].
Definition generic : N := 8.

(** a numeral and its value; the first digit may be zero *)
Inductive Numeral : text -> N -> Prop :=
| Num_digit : forall c d, digit_for digits d c -> Numeral [c] d
| Num_more : forall s x c d, Numeral s x -> digit_for digits d c -> Numeral (s ++ [c]) (10 * x + d)%N.
(** the numeral that is written: no zero in front *)
Definition PlainNumeral (s : text) (x : N) : Prop := Numeral s x /\ (s = lit "0" \/ forall r, s <> 48%N :: r).

Definition big_endian (v : text) : N := fold_left (fun a b => (a * 256 + b)%N) v 0%N.
(** the shortest of the one, two, four and eight byte forms of a number *)
Definition ShortestBytes (x : N) (v : text) : Prop :=
  Forall (fun b => (b < 256)%N) v /\ big_endian v = x /\
  length v = (if (x <? 256)%N then 1 else if (x <? 65536)%N then 2 else if (x <? 4294967296)%N then 4 else 8)%nat.

(** ** What is written *)
Inductive WritesText : text -> text -> Prop :=
| WText_end : WritesText [] []
| WText_plain : forall c v s, In c unreserved -> WritesText v s -> WritesText (c :: v) (c :: s)
| WText_escape : forall c v s h l, ~ In c unreserved -> digit_for hex_capital (c / 16) h -> digit_for hex_capital (c mod 16) l ->
    WritesText v s -> WritesText (c :: v) (percent :: h :: l :: s).
Inductive WritesHex : text -> text -> Prop :=
| WHex_end : WritesHex [] []
| WHex_byte : forall c v s h l, digit_for hex_small (c / 16) h -> digit_for hex_small (c mod 16) l ->
    WritesHex v s -> WritesHex (c :: v) (h :: l :: s).

(** a component of type [t] and value [v] *)
Inductive WritesComponent (t : N) (v : text) : text -> Prop :=
| WC_generic : forall s, t = generic -> WritesText v s -> WritesComponent t v s
| WC_hex : forall nm s, In (t, nm) hex_types -> WritesHex v s -> WritesComponent t v (nm ++ equals :: s)
| WC_number : forall nm s, In (t, nm) number_types -> PlainNumeral s (big_endian v mod 2 ^ 64) -> WritesComponent t v (nm ++ equals :: s)
| WC_other : forall ts s, t <> generic -> ~ In t (map fst (hex_types ++ number_types)) -> PlainNumeral ts t -> WritesText v s ->
    WritesComponent t v (ts ++ equals :: s).
(** the canonical form does not use the names of types *)
Inductive WritesCanonical (t : N) (v : text) : text -> Prop :=
| WK_generic : forall s, t = generic -> WritesText v s -> WritesCanonical t v s
| WK_other : forall ts s, t <> generic -> PlainNumeral ts t -> WritesText v s -> WritesCanonical t v (ts ++ equals :: s).

(** A slash before every component, and one more if the text of the last component is empty or there is none. *)
Definition slashed (parts : list text) : text :=
  concat (map (cons slash) parts) ++ match last parts [] with [] => [slash] | _ => [] end.

(** ** What is read *)
Definition HexDigit (c d : N) : Prop := digit_for hex_capital d c \/ digit_for hex_small d c.
Inductive ReadsText : text -> text -> Prop :=
| RText_end : ReadsText [] []
| RText_char : forall c s v, ~ In c reserved -> ReadsText s v -> ReadsText (c :: s) (c :: v)
| RText_escape : forall h l x y s v, HexDigit h x -> HexDigit l y -> ReadsText s v -> ReadsText (percent :: h :: l :: s) ((16 * x + y)%N :: v).
Inductive ReadsHex : text -> text -> Prop :=
| RHex_end : ReadsHex [] []
| RHex_byte : forall h l x y s v, HexDigit h x -> HexDigit l y -> ReadsHex s v -> ReadsHex (h :: l :: s) ((16 * x + y)%N :: v).

(** types that the reader takes (2^63 and more by a signed comparison, see C45) *)
Definition readable_type (t : N) : Prop := (1 <= t <= 65535 \/ 2 ^ 63 <= t < 2 ^ 64)%N.

Inductive ReadsComponent : text -> N -> text -> Prop :=
| RC_generic : forall s v, ReadsText s v -> ReadsComponent s generic v
| RC_hex : forall t nm s v, In (t, nm) hex_types -> ReadsHex s v -> ReadsComponent (nm ++ equals :: s) t v
| RC_number : forall t nm s x v, In (t, nm) number_types -> Numeral s x -> (x < 2 ^ 64)%N -> ShortestBytes x v ->
    ReadsComponent (nm ++ equals :: s) t v
| RC_other : forall ts t s v, Numeral ts t -> readable_type t -> ReadsText s v -> ReadsComponent (ts ++ equals :: s) t v.

Fixpoint between (parts : list text) : text :=
  match parts with
  | [] => []
  | [p] => p
  | p :: ps => p ++ slash :: between ps
  end.
(** The parts of a text: separated by slashes; a slash in front and one at the end may be left out unless the
    first, respectively the last part is empty. *)
Definition PartsOf (s : text) (parts : list text) : Prop :=
  Forall (fun p => ~ In slash p) parts /\
  exists front back, (front = [] \/ front = [slash]) /\ (back = [] \/ back = [slash]) /\
    s = front ++ between parts ++ back /\
    (parts = [] -> back = []) /\
    (forall ps, parts = [] :: ps -> front = [slash]) /\
    (forall ps, parts = ps ++ [[]] -> back = [slash]).

(** ** Patterns: a variable is written between angle brackets, its type in front of its tag *)
Definition open_angle : N := 60.
Definition close_angle : N := 62.
Inductive WritesType (t : N) : text -> Prop :=
| WT_generic : t = generic -> WritesType t []
| WT_named : forall nm, In (t, nm) (hex_types ++ number_types) -> WritesType t (nm ++ [equals])
| WT_number : forall ts, t <> generic -> ~ In t (map fst (hex_types ++ number_types)) -> PlainNumeral ts t -> WritesType t (ts ++ [equals]).
Definition WritesVariable (t : N) (tag s : text) : Prop := exists ts, WritesType t ts /\ s = open_angle :: ts ++ tag ++ [close_angle].

(** what is between the brackets: a tag without equals sign, or a type and a tag *)
Inductive ReadsVariable : text -> N -> text -> Prop :=
| RV_tag : forall tag, ~ In equals tag -> ReadsVariable tag generic tag
| RV_named : forall t nm tag, In (t, nm) (hex_types ++ number_types) -> ~ In equals tag -> ReadsVariable (nm ++ equals :: tag) t tag
| RV_number : forall t ts tag, Numeral ts t -> (t < 2 ^ 64)%N -> ~ In equals tag -> ReadsVariable (ts ++ equals :: tag) t tag.
(** the canonical form of a variable does not use the names of types *)
Definition WritesCanonicalVariable (t : N) (tag s : text) : Prop :=
  (t = generic /\ s = open_angle :: tag ++ [close_angle]) \/
  (t <> generic /\ exists ts, PlainNumeral ts t /\ s = open_angle :: (ts ++ equals :: tag) ++ [close_angle]).
