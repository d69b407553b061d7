(** TLV numbers: pkg/encoding/primitives.go *)
From Verif Require Import Base.

(** TLNum.EncodingLength, primitives.go 14-25 *)
Definition tl_len (v : N) : N :=
  if (v <=? 252)%N then 1%N
  else if (v <=? 65535)%N then 3%N
  else if (v <=? 4294967295)%N then 5%N
  else 9%N.

(** Bytes written by TLNum.EncodeInto, primitives.go 27-45.  [byte(x)],
    [uint16(x)], [uint32(x)] truncate; [be] truncates the same way. *)
Definition tl_enc (v : N) : buf :=
  if (v <=? 252)%N then [(v mod 256)%N]
  else if (v <=? 65535)%N then 253%N :: be 2 v
  else if (v <=? 4294967295)%N then 254%N :: be 4 v
  else 255%N :: be 8 v.

(** TLNum.EncodeInto(buf) with the buffer: writes into the front of [b],
    panics when [b] is too short (index out of range), returns the count. *)
Definition tl_encode_into (v : N) (b : buf) : res (buf * N) :=
  do b' <- put_prefix b (tl_enc v); Ok (b', tl_len v).

(** ParseTLNum, primitives.go 49-65: panics when out of bounds. *)
Definition parse_tl (b : buf) : res (N * Z) :=
  do x <- index b 0;
  if (x <=? 252)%N then Ok (x, 1%Z)
  else if (x =? 253)%N then (do s <- slice b 1 3; Ok (unbe s, 3%Z))
  else if (x =? 254)%N then (do s <- slice b 1 5; Ok (unbe s, 5%Z))
  else if (x =? 255)%N then (do s <- slice b 1 9; Ok (unbe s, 9%Z))
  else Ok (0%N, 0%Z).

(** Nat.EncodingLength, primitives.go 98-109 *)
Definition nat_len (v : N) : N :=
  if (v <=? 255)%N then 1%N
  else if (v <=? 65535)%N then 2%N
  else if (v <=? 4294967295)%N then 4%N
  else 8%N.

(** Bytes written by Nat.EncodeInto, primitives.go 111-128; also Nat.Bytes,
    130-134 (the buffer made there has exactly EncodingLength bytes). *)
Definition nat_enc (v : N) : buf :=
  if (v <=? 255)%N then [(v mod 256)%N]
  else if (v <=? 65535)%N then be 2 v
  else if (v <=? 4294967295)%N then be 4 v
  else be 8 v.

Definition nat_encode_into (v : N) (b : buf) : res (buf * N) :=
  do b' <- put_prefix b (nat_enc v); Ok (b', nat_len v).

(** Nat.Bytes, primitives.go 130-134 *)
Definition nat_bytes (v : N) : res buf :=
  do p <- nat_encode_into v (repeat 0%N (N.to_nat (nat_len v))); Ok (fst p).

(** ParseNat, primitives.go 136-150 *)
Definition parse_nat (b : buf) : res (N * Z) :=
  let n := length b in
  if (n =? 1)%nat then Ok (unbe b, 1%Z)
  else if (n =? 2)%nat then Ok (unbe b, 2%Z)
  else if (n =? 4)%nat then Ok (unbe b, 4%Z)
  else if (n =? 8)%nat then Ok (unbe b, 8%Z)
  else Err EFormat.

(** Writing [x] at offset [off] of [b] through the sub-slice [b[off:]]. *)
Definition write_at (b : buf) (off : Z) (x : buf) : res buf :=
  do tail <- slice b off (zlen b);
  do tail' <- put_prefix tail x;
  Ok (firstn (Z.to_nat off) b ++ tail').

(** ShrinkLength, primitives.go 161-175.  [shrink] is a Go int. *)
Definition shrink_length (b : buf) (shrink : Z) : res buf :=
  do p1 <- parse_tl b;
  let '(typ, s1) := p1 in
  do rest <- slice b s1 (zlen b);
  do p2 <- parse_tl rest;
  let '(l, s2) := p2 in
  let newL := to_u64 (Z.of_N l - shrink) in
  let newS2 := Z.of_N (tl_len newL) in
  if (newS2 =? s2)%Z then write_at b s1 (tl_enc newL)
  else
    let diff := (s2 - newS2)%Z in
    do b1 <- write_at b diff (tl_enc typ);
    do b2 <- write_at b1 (diff + s1)%Z (tl_enc newL);
    slice b2 diff (zlen b2).
