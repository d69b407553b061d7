(** Text (URI) forms of components, names and patterns:
    pkg/encoding/name_component.go and name_pattern.go.  A Go string is the list
    of its bytes.  Where the code ranges over runes it only compares with ASCII
    characters, which is the same as ranging over bytes. *)
From Verif Require Import Base PrimModel NameModel.

Definition chSlash : N := 47.   (* / *)
Definition chEq : N := 61.      (* = *)
Definition chPct : N := 37.     (* % *)
Definition chBack : N := 92.    (* \ *)
Definition chLt : N := 60.      (* < *)
Definition chGt : N := 62.      (* > *)

(** IsAlphabet, primitives.go 177-179 *)
Definition is_alpha (c : N) : bool :=
  ((65 <=? c) && (c <=? 90) || (97 <=? c) && (c <=? 122))%N.
(** unicode.IsDigit on a byte: only 0-9 below 256 *)
Definition is_digit (c : N) : bool := ((48 <=? c) && (c <=? 57))%N.

(** isLegalCompText, name_component.go 340-342 *)
Definition is_legal (c : N) : bool :=
  is_alpha c || is_digit c || (c =? 45)%N || (c =? 95)%N || (c =? 46)%N || (c =? 126)%N.

(** the four characters tested in name_component.go 84 and 107 *)
Definition is_special (c : N) : bool :=
  (c =? chPct)%N || (c =? chEq)%N || (c =? chSlash)%N || (c =? chBack)%N.

(** fmt's %02X and %02x of a byte *)
Definition hex_digit (upper : bool) (d : N) : N :=
  if (d <? 10)%N then (48 + d)%N else if upper then (55 + d)%N else (87 + d)%N.
Definition hex2 (upper : bool) (b : N) : buf :=
  [hex_digit upper (b / 16)%N; hex_digit upper (b mod 16)%N].

(** one hexadecimal digit of strconv.ParseUint(s, 16, 8) *)
Definition hex_val (c : N) : option N :=
  if is_digit c then Some (c - 48)%N
  else if ((65 <=? c) && (c <=? 70))%N then Some (c - 55)%N
  else if ((97 <=? c) && (c <=? 102))%N then Some (c - 87)%N
  else None.

(** strconv.ParseUint of a two-character string, base 16, 8 bits *)
Definition parse_hex2 (a b : N) : option N :=
  match hex_val a, hex_val b with
  | Some x, Some y => Some (x * 16 + y)%N
  | _, _ => None
  end.

(** strconv.FormatUint(x, 10) of a uint64 (at most 20 digits) *)
Fixpoint fmt_dec_loop (fuel : nat) (x : N) (acc : buf) : buf :=
  match fuel with
  | O => acc
  | S f => let acc' := (48 + x mod 10)%N :: acc in
           if (x / 10 =? 0)%N then acc' else fmt_dec_loop f (x / 10)%N acc'
  end.
Definition fmt_dec (x : N) : buf := fmt_dec_loop 20 x [].

(** strconv.ParseUint(s, 10, 64): digits only, at least one, value < 2^64.
    Which error is returned is not modelled. *)
Fixpoint parse_dec_loop (x : N) (s : buf) : option N :=
  match s with
  | [] => Some x
  | c :: s' => if is_digit c then
                 let x' := (x * 10 + (c - 48))%N in
                 if (x' <? two64)%N then parse_dec_loop x' s' else None
               else None
  end.
Definition parse_dec (s : buf) : option N :=
  match s with [] => None | _ => parse_dec_loop 0 s end.

(** compValFmt, name_component.go 41-52 *)
Inductive vfmt : Type := FInvalid | FText | FDec | FHex.

(** ToString of the four formats, name_component.go 54-56, 69-79, 131-137, 167-173 *)
Definition text_to_str (v : buf) : buf :=
  concat (map (fun b => if is_legal b then [b] else chPct :: hex2 true b) v).
Definition hex_to_str (v : buf) : buf := concat (map (hex2 false) v).
Definition dec_to_str (v : buf) : buf := fmt_dec (unbe64 v).

Definition fmt_to_str (f : vfmt) (v : buf) : buf :=
  match f with
  | FInvalid => []
  | FText => text_to_str v
  | FDec => dec_to_str v
  | FHex => hex_to_str v
  end.

(** the loop of compValFmtText.FromString, name_component.go 94-114 *)
Fixpoint text_loop (s : buf) : res buf :=
  match s with
  | [] => Ok []
  | c :: s1 =>
      if is_legal c then do v <- text_loop s1; Ok (c :: v)
      else if (c =? chPct)%N then
        match s1 with
        | h :: l :: s2 =>
            match parse_hex2 h l with
            | Some b => do v <- text_loop s2; Ok (b :: v)
            | None => Err EFormat
            end
        | _ => Err EFormat
        end
      else if is_special c then Err EFormat
      else do v <- text_loop s1; Ok (c :: v)
  end.

(** compValFmtText.FromString, name_component.go 81-116 *)
Definition text_from_str (s : buf) : res buf :=
  if existsb is_special s then text_loop s else Ok s.

(** compValFmtDec.FromString, name_component.go 139-147 *)
Definition dec_from_str (s : buf) : res buf :=
  match parse_dec s with
  | Some x => nat_bytes x
  | None => Err EFormat
  end.

(** compValFmtHex.FromString, name_component.go 175-189: odd length is refused
    before the loop; both are format errors. *)
Fixpoint hex_from_str (s : buf) : res buf :=
  match s with
  | [] => Ok []
  | [_] => Err EFormat
  | a :: b :: s' =>
      match parse_hex2 a b with
      | Some x => do v <- hex_from_str s'; Ok (x :: v)
      | None => Err EFormat
      end
  end.

Definition fmt_from_str (f : vfmt) (s : buf) : res buf :=
  match f with
  | FInvalid => Err EFormat
  | FText => text_from_str s
  | FDec => dec_from_str s
  | FHex => hex_from_str s
  end.

(** compConvByType, name_component.go 210-249, and the names 30-33 *)
Definition s_sha256digest : buf := [115;104;97;50;53;54;100;105;103;101;115;116]%N.
Definition s_params_sha256 : buf := [112;97;114;97;109;115;45;115;104;97;50;53;54]%N.
Definition s_seg : buf := [115;101;103]%N.
Definition s_off : buf := [111;102;102]%N.
Definition s_v : buf := [118]%N.
Definition s_t : buf := [116]%N.
Definition s_seq : buf := [115;101;113]%N.

Definition conventions : list (N * (buf * vfmt)) :=
  [ (TypeImplicitSha256Digest, (s_sha256digest, FHex));
    (TypeParametersSha256Digest, (s_params_sha256, FHex));
    (TypeSegment, (s_seg, FDec));
    (TypeByteOffset, (s_off, FDec));
    (TypeVersion, (s_v, FDec));
    (TypeTimestamp, (s_t, FDec));
    (TypeSequenceNum, (s_seq, FDec)) ].

Fixpoint conv_by_type_in (l : list (N * (buf * vfmt))) (t : N) : option (buf * vfmt) :=
  match l with
  | [] => None
  | (t', x) :: l' => if (t' =? t)%N then Some x else conv_by_type_in l' t
  end.
Definition conv_by_type (t : N) : option (buf * vfmt) := conv_by_type_in conventions t.

(** compConvByStr, name_component.go 311-316 *)
Fixpoint conv_by_str_in (l : list (N * (buf * vfmt))) (s : buf) : option (N * vfmt) :=
  match l with
  | [] => None
  | (t, (n, f)) :: l' => if bytes_eqb n s then Some (t, f) else conv_by_str_in l' s
  end.
Definition conv_by_str (s : buf) : option (N * vfmt) := conv_by_str_in conventions s.

(** Component.String, name_component.go 344-354 *)
Definition comp_str (c : comp) : buf :=
  match conv_by_type (ctyp c) with
  | Some (nm, f) => (nm ++ [chEq]) ++ fmt_to_str f (cval c)
  | None => (if (ctyp c =? TypeGeneric)%N then [] else fmt_dec (ctyp c) ++ [chEq]) ++ text_to_str (cval c)
  end.

(** Component.CanonicalString, name_component.go 356-362 *)
Definition comp_canonical (c : comp) : buf :=
  (if (ctyp c =? TypeGeneric)%N then [] else fmt_dec (ctyp c) ++ [chEq]) ++ text_to_str (cval c).

(** parseCompTypeFromStr, name_component.go 397-411 *)
Definition parse_type (s : buf) : res (N * vfmt) :=
  do c <- index s 0;
  if is_alpha c then
    match conv_by_str s with
    | Some p => Ok p
    | None => Err EFormat
    end
  else match parse_dec s with
       | Some t => Ok (t, FText)
       | None => Err EFormat
       end.

(** strings.Split(s, sep) for a one-byte separator: never empty *)
Fixpoint split_on (sep : N) (s : buf) : list buf :=
  match s with
  | [] => [[]]
  | c :: s' =>
      if (c =? sep)%N then [] :: split_on sep s'
      else match split_on sep s' with
           | [] => [[c]]
           | x :: xs => (c :: x) :: xs
           end
  end.

(** componentFromStrInto, name_component.go 413-446.  The loop cuts at the first
    '=' and refuses a second one, i.e. it distinguishes one, two or more pieces
    between '='.  [int(ret.Typ) > 0xffff] is a signed comparison. *)
Definition comp_from_str (s : buf) : res comp :=
  match split_on chEq s with
  | [v] => do x <- text_from_str v; Ok (mkComp TypeGeneric x)
  | [t; v] =>
      do p <- parse_type t;
      let '(typ, f) := p in
      if ((typ <=? 0)%N || (65535 <? to_int typ)%Z) then Err EFormat
      else do x <- fmt_from_str f v; Ok (mkComp typ x)
  | _ => Err EFormat
  end.

(** Name.String, name_pattern.go 18-29 *)
Definition name_str (n : name) : buf :=
  let ret := concat (map (fun c => chSlash :: comp_str c) n) in
  match rev n with
  | [] => [chSlash]
  | c :: _ => if (ctyp c =? TypeGeneric)%N && (length (cval c) =? 0)%nat then ret ++ [chSlash] else ret
  end.

Definition drop_first_empty (l : list buf) : list buf :=
  match l with
  | [] :: l' => l'
  | _ => l
  end.

Definition drop_last_empty (l : list buf) : list buf :=
  match rev l with
  | [] :: l' => rev l'
  | _ => l
  end.

Fixpoint map_res {A B} (f : A -> res B) (l : list A) : res (list B) :=
  match l with
  | [] => Ok []
  | a :: l' => do b <- f a; do bs <- map_res f l'; Ok (b :: bs)
  end.

(** NameFromStr, name_pattern.go 128-145 *)
Definition name_from_str (s : buf) : res name :=
  map_res comp_from_str (drop_last_empty (drop_first_empty (split_on chSlash s))).

(** Pattern.String and CanonicalString, name_component.go 318-334 *)
Definition pat_var_str (t : N) (tag : buf) : buf :=
  chLt :: (if (t =? TypeGeneric)%N then []
           else match conv_by_type t with
                | Some (nm, _) => nm ++ [chEq]
                | None => fmt_dec t ++ [chEq]
                end) ++ tag ++ [chGt].
Definition pat_str (p : pat) : buf :=
  match p with
  | PComp c => comp_str c
  | PVar t tag => pat_var_str t tag
  end.
Definition pat_canonical (p : pat) : buf :=
  match p with
  | PComp c => comp_canonical c
  | PVar t tag => chLt :: (if (t =? TypeGeneric)%N then [] else fmt_dec t ++ [chEq]) ++ tag ++ [chGt]
  end.

(** ComponentPatternFromStr, name_component.go 458-485 *)
Definition pat_from_str (s : buf) : res pat :=
  match s with
  | c :: _ =>
      if (c =? chLt)%N then
        do last <- index s (zlen s - 1);
        if (last =? chGt)%N then
          do inner <- slice s 1 (zlen s - 1);
          match split_on chEq inner with
          | [tag] => Ok (PVar TypeGeneric tag)
          | [t; tag] => do p <- parse_type t; Ok (PVar (fst p) tag)
          | _ => Err EFormat
          end
        else Err EFormat
      else do c <- comp_from_str s; Ok (PComp c)
  | [] => do c <- comp_from_str s; Ok (PComp c)
  end.

(** NamePattern.String, name_pattern.go 31-46, for patterns holding Component
    values: the trailing-empty test there only looks at *Component elements. *)
Definition np_str (n : list pat) : buf :=
  match n with
  | [] => [chSlash]
  | _ => concat (map (fun c => chSlash :: pat_str c) n)
  end.

(** NamePatternFromStr, name_pattern.go 147-165: no length check before the last
    element is inspected. *)
Definition np_from_str (s : buf) : res (list pat) :=
  let strs := drop_first_empty (split_on chSlash s) in
  match strs with
  | [] => Panic
  | _ => map_res pat_from_str (drop_last_empty strs)
  end.
