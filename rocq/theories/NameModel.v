(** Name components and names: pkg/encoding/name_component.go and
    pkg/encoding/name_pattern.go (binary form, order, prefix, hashing,
    patterns).  The text forms are in TextModel.v. *)
From Verif Require Import Base PrimModel ReaderModel.

(** Component, name_component.go 291-294.  A nil Val and an empty Val are not
    distinguished. *)
Record comp : Type := mkComp { ctyp : N; cval : buf }.

(** Name, name_pattern.go 12 *)
Notation name := (list comp) (only parsing).

(** The constants of name_component.go 17-28 and name_pattern.go 16 *)
Definition TypeImplicitSha256Digest : N := 1.
Definition TypeParametersSha256Digest : N := 2.
Definition TypeGeneric : N := 8.
Definition TypeKeyword : N := 32.
Definition TypeSegment : N := 50.
Definition TypeByteOffset : N := 52.
Definition TypeVersion : N := 54.
Definition TypeTimestamp : N := 56.
Definition TypeSequenceNum : N := 58.
Definition TypeName : N := 7.

(** Component.EncodingLength, name_component.go 487-490 *)
Definition comp_len (c : comp) : N :=
  (tl_len (ctyp c) + nat_len (nlen (cval c)) + nlen (cval c))%N.

(** The bytes Component.EncodeInto writes, name_component.go 492-497.  The
    length is written with Nat, not TLNum. *)
Definition comp_enc (c : comp) : buf :=
  tl_enc (ctyp c) ++ nat_enc (nlen (cval c)) ++ cval c.

(** copy(b, x): overwrites a prefix of [b], never panics *)
Definition copy_into (b x : buf) : buf := firstn (length b) x ++ skipn (length x) b.

(** Component.EncodeInto with its destination, name_component.go 492-497 *)
Definition comp_encode_into (c : comp) (b : buf) : res (buf * Z) :=
  do b1 <- put_prefix b (tl_enc (ctyp c));
  let p1 := Z.of_N (tl_len (ctyp c)) in
  do t1 <- slice b1 p1 (zlen b1);
  do t2 <- put_prefix t1 (nat_enc (nlen (cval c)));
  let p2 := Z.of_N (nat_len (nlen (cval c))) in
  do t3 <- slice t2 p2 (zlen t2);
  Ok (firstn (Z.to_nat p1) b1 ++ firstn (Z.to_nat p2) t2 ++ copy_into t3 (cval c),
      (p1 + p2 + zlen (cval c))%Z).

(** Component.Bytes, name_component.go 499-503 *)
Definition comp_bytes (c : comp) : res buf :=
  do p <- comp_encode_into c (repeat 0%N (N.to_nat (comp_len c))); Ok (fst p).

(** ReadComponent, name_component.go 375-395 *)
Definition read_comp (r : reader) : rout comp :=
  match read_tl r with
  | (Ok typ, r1) =>
      match read_tl r1 with
      | (Ok l, r2) =>
          match r_read_buf (to_int l) r2 with
          | (Ok v, r3) => (Ok (mkComp typ v), r3)
          | (Err e, r3) => (Err e, r3)
          | (Panic, r3) => (Panic, r3)
          | (Hang, r3) => (Hang, r3)
          end
      | (Err EEOF, r2) => (Err EUnexpectedEOF, r2)
      | (Err e, r2) => (Err e, r2)
      | (Panic, r2) => (Panic, r2)
      | (Hang, r2) => (Hang, r2)
      end
  | (Err e, r1) => (Err e, r1)
  | (Panic, r1) => (Panic, r1)
  | (Hang, r1) => (Hang, r1)
  end.

(** ComponentFromBytes, name_component.go 505-507 *)
Definition comp_from_bytes (b : buf) : res comp := fst (read_comp (new_buffer_reader b)).

(** ParseComponent, name_component.go 364-373 *)
Definition parse_comp (b : buf) : res (comp * Z) :=
  do p1 <- parse_tl b;
  let '(typ, n1) := p1 in
  do t <- slice b n1 (zlen b);
  do p2 <- parse_tl t;
  let '(l, n2) := p2 in
  let start := (n1 + n2)%Z in
  let end_ := wrap64 (start + to_int l) in
  do v <- slice b start end_;
  Ok (mkComp typ v, end_).

(** Name.EncodingLength (without TL), name_pattern.go 59-65 *)
Definition name_len (n : name) : N := fold_left (fun a c => (a + comp_len c)%N) n 0%N.

(** The bytes Name.EncodeInto writes (without TL), name_pattern.go 50-56 *)
Definition name_enc (n : name) : buf := concat (map comp_enc n).

(** Name.EncodeInto with its destination, name_pattern.go 50-56 *)
Fixpoint name_encode_into (n : name) (b : buf) : res (buf * Z) :=
  match n with
  | [] => Ok (b, 0%Z)
  | c :: n' =>
      do p <- comp_encode_into c b;
      let '(b1, k) := p in
      do t <- slice b1 k (zlen b1);
      do q <- name_encode_into n' t;
      let '(t1, k1) := q in
      Ok (firstn (Z.to_nat k) b1 ++ t1, (k + k1)%Z)
  end.

(** Name.Bytes, name_pattern.go 93-100 *)
Definition name_bytes (n : name) : res buf :=
  let l := name_len n in
  let b := repeat 0%N (N.to_nat (tl_len TypeName + nat_len l + l)) in
  do b1 <- put_prefix b (tl_enc TypeName);
  let p1 := Z.of_N (tl_len TypeName) in
  do t1 <- slice b1 p1 (zlen b1);
  do t2 <- put_prefix t1 (nat_enc l);
  let p2 := Z.of_N (nat_len l) in
  do t3 <- slice t2 p2 (zlen t2);
  do q <- name_encode_into n t3;
  Ok (firstn (Z.to_nat p1) b1 ++ firstn (Z.to_nat p2) t2 ++ fst q).

(** ReadName, name_pattern.go 77-90: components until the reader fails.  Every
    component read consumes at least two bytes, so [reader_fuel] suffices. *)
Fixpoint read_name_loop (fuel : nat) (acc : name) (r : reader) : rout name :=
  match fuel with
  | O => (Hang, r)
  | S f =>
      match read_comp r with
      | (Ok c, r') => read_name_loop f (acc ++ [c]) r'
      | (Err EEOF, r') => (Ok acc, r')
      | (Err e, r') => (Err e, r')
      | (Panic, r') => (Panic, r')
      | (Hang, r') => (Hang, r')
      end
  end.

Definition read_name (r : reader) : rout name := read_name_loop (reader_fuel r) [] r.

(** NameFromBytes, name_pattern.go 167-190 *)
Definition name_from_bytes (b : buf) : res name :=
  match read_tl (new_buffer_reader b) with
  | (Ok t, r1) =>
      if (t =? TypeName)%N then
        match read_tl r1 with
        | (Ok l, r2) =>
            do start <- r_pos r2;
            match read_name r2 with
            | (Ok n, r3) =>
                do end_ <- r_length r3;
                if (to_int l =? end_ - start)%Z then Ok n else Err EFormat
            | (Err e, _) => Err e
            | (Panic, _) => Panic
            | (Hang, _) => Hang
            end
        | (Err e, _) => Err e
        | (Panic, _) => Panic
        | (Hang, _) => Hang
        end
      else Err EFormat
  | (Err e, _) => Err e
  | (Panic, _) => Panic
  | (Hang, _) => Hang
  end.

(** bytes.Compare / strings.Compare of the Go standard library *)
Fixpoint bytes_compare (a b : buf) : Z :=
  match a, b with
  | [], [] => 0%Z
  | [], _ :: _ => (-1)%Z
  | _ :: _, [] => 1%Z
  | x :: a', y :: b' =>
      if (x <? y)%N then (-1)%Z else if (y <? x)%N then 1%Z else bytes_compare a' b'
  end.

Definition bytes_eqb (a b : buf) : bool := if list_eq_dec N.eq_dec a b then true else false.

(** Component.Compare with a Component, name_component.go 509-534 *)
Definition comp_compare (a b : comp) : Z :=
  if negb (ctyp a =? ctyp b)%N then (if (ctyp a <? ctyp b)%N then (-1)%Z else 1%Z)
  else if negb (nlen (cval a) =? nlen (cval b))%N then
    (if (nlen (cval a) <? nlen (cval b))%N then (-1)%Z else 1%Z)
  else bytes_compare (cval a) (cval b).

(** Component.Equal with a Component, name_component.go 562-578 *)
Definition comp_equal (a b : comp) : bool :=
  if (negb (ctyp a =? ctyp b) || negb (nlen (cval a) =? nlen (cval b)))%N then false
  else bytes_eqb (cval a) (cval b).

(** Name.Compare, name_pattern.go 192-206: the index loop over the common
    length, then the lengths. *)
Fixpoint name_compare (n m : name) : Z :=
  match n, m with
  | a :: n', b :: m' =>
      let c := comp_compare a b in
      if (c =? 0)%Z then name_compare n' m' else c
  | [], [] => 0%Z
  | [], _ => (-1)%Z
  | _, [] => 1%Z
  end.

Fixpoint all_equal (n m : name) : bool :=
  match n, m with
  | a :: n', b :: m' => comp_equal a b && all_equal n' m'
  | _, _ => true
  end.

(** Name.Equal, name_pattern.go 224-234 *)
Definition name_equal (n m : name) : bool :=
  if negb (length n =? length m)%nat then false else all_equal n m.

(** Name.IsPrefix, name_pattern.go 248-258 *)
Definition is_prefix (n m : name) : bool :=
  if (length m <? length n)%nat then false else all_equal n m.

(** Component.HashInto, name_component.go 555-560: bytes fed to the hasher *)
Definition comp_hash_input (c : comp) : buf := be 8 (ctyp c) ++ cval c.

(** Name.Hash, name_pattern.go 103-111, for an arbitrary hash function *)
Definition name_hash_input (n : name) : buf := concat (map comp_hash_input n).
Definition name_hash (h : buf -> N) (n : name) : N := h (name_hash_input n).

(** Name.PrefixHash, name_pattern.go 115-126: one running hasher, [fed] is what
    has been written to it so far *)
Fixpoint prefix_hash_loop (h : buf -> N) (fed : buf) (n : name) : list N :=
  match n with
  | [] => []
  | c :: n' => let fed' := fed ++ comp_hash_input c in h fed' :: prefix_hash_loop h fed' n'
  end.

Definition name_prefix_hash (h : buf -> N) (n : name) : list N := h [] :: prefix_hash_loop h [] n.

(** Component.NumberVal, name_component.go 537-543 *)
Definition number_val (c : comp) : N := unbe64 (cval c).

(** NewNumberComponent, name_component.go 612-617 *)
Definition number_comp (typ v : N) : comp := mkComp typ (nat_enc v).

(** ** Patterns *)

(** ComponentPattern: Component or Pattern, name_component.go 251-294.  Tags are
    Go strings, i.e. byte strings.  *Component and *Pattern behave like the
    values they point to and are not distinguished here. *)
Inductive pat : Type :=
| PComp (c : comp)
| PVar (typ : N) (tag : buf).

(** Matching, name_component.go 284: map[string][]byte, with the last write
    first. *)
Definition matching : Type := list (buf * buf).

Fixpoint mget (m : matching) (tag : buf) : option buf :=
  match m with
  | [] => None
  | (t, v) :: m' => if bytes_eqb t tag then Some v else mget m' tag
  end.

Definition mset (m : matching) (tag v : buf) : matching := (tag, v) :: m.

(** IsMatch, name_component.go 675-681 *)
Definition pat_is_match (p : pat) (v : comp) : bool :=
  match p with
  | PComp c => comp_equal c v
  | PVar t _ => (t =? ctyp v)%N
  end.

(** Match, name_component.go 653-658 *)
Definition pat_match (p : pat) (v : comp) (m : matching) : matching :=
  match p with
  | PComp _ => m
  | PVar _ tag => mset m tag (cval v)
  end.

(** FromMatching, name_component.go 660-673 *)
Definition pat_from_matching (p : pat) (m : matching) : res comp :=
  match p with
  | PComp c => Ok c
  | PVar t tag => match mget m tag with
                  | Some v => Ok (mkComp t v)
                  | None => Err ENotFound
                  end
  end.

(** NamePattern.Match, name_pattern.go 272-276: indexes the name, so a shorter
    name panics *)
Fixpoint np_match (p : list pat) (n : name) (m : matching) : res matching :=
  match p with
  | [] => Ok m
  | x :: p' => match n with
               | [] => Panic
               | c :: n' => np_match p' n' (pat_match x c m)
               end
  end.

(** NamePattern.FromMatching, name_pattern.go 278-288 *)
Fixpoint np_from_matching (p : list pat) (m : matching) : res name :=
  match p with
  | [] => Ok []
  | x :: p' => do c <- pat_from_matching x m;
               do n <- np_from_matching p' m;
               Ok (c :: n)
  end.

(** Compare/Equal of ComponentPatterns, name_component.go 509-534, 562-610 *)
Definition pat_compare (a b : pat) : Z :=
  match a, b with
  | PComp x, PComp y => comp_compare x y
  | PComp _, PVar _ _ => (-1)%Z
  | PVar _ _, PComp _ => 1%Z
  | PVar t x, PVar u y =>
      if negb (t =? u)%N then (if (t <? u)%N then (-1)%Z else 1%Z)
      else bytes_compare x y
  end.

Definition pat_equal (a b : pat) : bool :=
  match a, b with
  | PComp x, PComp y => comp_equal x y
  | PVar t x, PVar u y => (t =? u)%N && bytes_eqb x y
  | _, _ => false
  end.

Fixpoint np_compare (n m : list pat) : Z :=
  match n, m with
  | a :: n', b :: m' =>
      let c := pat_compare a b in
      if (c =? 0)%Z then np_compare n' m' else c
  | [], [] => 0%Z
  | [], _ => (-1)%Z
  | _, [] => 1%Z
  end.

Fixpoint np_all_equal (n m : list pat) : bool :=
  match n, m with
  | a :: n', b :: m' => pat_equal a b && np_all_equal n' m'
  | _, _ => true
  end.

Definition np_equal (n m : list pat) : bool :=
  if negb (length n =? length m)%nat then false else np_all_equal n m.

Definition np_is_prefix (n m : list pat) : bool :=
  if (length m <? length n)%nat then false else np_all_equal n m.

(** Name.ToFullName, name_pattern.go 290-304, for an abstract SHA-256; panics on
    the empty name.  (The append may share memory with the caller's name; not
    modelled.) *)
Definition to_full_name (sha : buf -> buf) (n : name) (raw : wire) : res name :=
  match rev n with
  | [] => Panic
  | c :: _ =>
      if (ctyp c =? TypeImplicitSha256Digest)%N then Ok n
      else Ok (n ++ [mkComp TypeImplicitSha256Digest (sha (concat raw))])
  end.
