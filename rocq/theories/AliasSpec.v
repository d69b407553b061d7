(** Names as values, and when a program may take them for values. *)
From Verif Require Import Base NameModel AliasModel.

(** what a call yields if names are values *)
Definition strip (n : name) : name := if ends_in TypeParametersSha256Digest n then removelast n else n.
Definition nval (vs : list name) (o : nop) : name :=
  let v i := nth i vs [] in
  match o with
  | NNew n => n
  | NClone i => v i
  | NExtend i cs => v i ++ cs
  | NRead n => n
  | NParsed n _ => n
  | NTake i k => if Nat.leb k (length (v i)) then firstn k (v i) else []
  | NDrop i k => if Nat.leb k (length (v i)) then skipn k (v i) else []
  | NAppend i c => v i ++ [c]
  | NInterest i d true => strip (v i) ++ match d with Some b => [mkComp TypeParametersSha256Digest b] | None => [] end
  | NInterest _ _ false => []
  | NFull i d =>
      match v i with
      | [] => []
      | n => if ends_in TypeImplicitSha256Digest n then n else n ++ [mkComp TypeImplicitSha256Digest d]
      end
  end.
Definition values (os : list nop) : list name := fold_left (fun vs o => vs ++ [nval vs o]) os [].

(** what a variable may be extended for: any number of times (its array ends where it ends), once (together with
    the others of the same number), or never *)
Inductive use : Type := Always | Once (k : nat) | Never.

Section Uses.
  Variable vs : list name.
  Variable us : list use.
  Definition use_of (i : nat) : use := nth i us Never.
  (** the result of extending a name *)
  Definition extended : use := Once (length us).
  Definition nuse (o : nop) : use :=
    match o with
    | NNew _ | NClone _ | NExtend _ _ => Always
    | NRead _ | NParsed _ _ => extended
    | NTake i k => if Nat.eqb k (length (nth i vs [])) then use_of i else Never
    | NDrop i k => if Nat.leb k (length (nth i vs [])) then use_of i else Never
    | NAppend _ _ => extended
    | NInterest i None true => if ends_in TypeParametersSha256Digest (nth i vs []) then Never else use_of i
    | NInterest _ (Some _) true => extended
    | NInterest _ _ false => Never
    | NFull i _ => match nth i vs [] with [] => Never | n => if ends_in TypeImplicitSha256Digest n then use_of i else extended end
    end.
  (** the variable a call extends *)
  Definition extends (o : nop) : option nat :=
    match o with
    | NAppend i _ => Some i
    | NInterest i (Some _) _ => Some i
    | NFull i _ => match nth i vs [] with [] => None | n => if ends_in TypeImplicitSha256Digest n then None else Some i end
    | _ => None
    end.
  (** [spent]: the numbers that have been used *)
  Variable spent : list nat.
  Definition may (o : nop) : bool :=
    match extends o with
    | None => true
    | Some i => match use_of i with Always => true | Once k => negb (existsb (Nat.eqb k) spent) | Never => false end
    end
    && match o with NInterest i (Some _) _ => negb (ends_in TypeParametersSha256Digest (nth i vs [])) | _ => true end.
  Definition spends (o : nop) : list nat :=
    match extends o with
    | None => []
    | Some i => match use_of i with Once k => [k] | _ => [] end
    end.
End Uses.

(** every name is extended only as often as it may be, and no Interest with parameters is made from a name that
    ends with the digest of parameters *)
Fixpoint careful (vs : list name) (us : list use) (spent : list nat) (os : list nop) : bool :=
  match os with
  | [] => true
  | o :: os' => may vs us spent o && careful (vs ++ [nval vs o]) (us ++ [nuse vs us o]) (spends vs us o ++ spent) os'
  end.

(** a slice of an array that exists *)
Definition wf {A} (h : list (list A)) (s : slice) : Prop := s_arr s < length h /\ s_end s <= length (arr h (s_arr s)).

(** the one place of an array a call may write to: behind the name it extends, or, for an Interest with parameters
    made of a name that ends with the digest of parameters, the last component of that name *)
Definition slot (h : list (list comp)) (rs : list slice) (o : nop) : option (nat * nat) :=
  let s i := nth i rs nil_name in
  match o with
  | NAppend i _ | NFull i _ => Some (s_arr (s i), s_end (s i))
  | NInterest i (Some _) _ => Some (s_arr (s i), if ends_in TypeParametersSha256Digest (read h (s i)) then s_end (s i) - 1 else s_end (s i))
  | _ => None
  end.

(** the paths of the nodes of a tree: the prefix and the patterns on the way *)
Fixpoint paths {A} (t : ptree A) (prefix : list A) : list (list A) :=
  match t with
  | PNode _ chd => prefix :: flat_map (fun c => paths c (prefix ++ [p_edge c])) chd
  end.
