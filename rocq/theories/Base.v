(** Basic vocabulary shared by all model files: Go outcomes, bytes, buffers,
    slices, machine integers.  No file of /repo is modelled here; this is the
    rendering of the Go language itself. *)
From Coq Require Export List NArith ZArith Lia Bool.
From Coq Require Export ZifyBool ZifyNat ZifyN.
Export ListNotations.
Open Scope list_scope.

Ltac Zify.zify_post_hook ::= Z.div_mod_to_equations.

Arguments N.add : simpl never.
Arguments N.sub : simpl never.
Arguments N.mul : simpl never.
Arguments N.div : simpl never.
Arguments N.modulo : simpl never.
Arguments N.pow : simpl never.
Arguments N.leb : simpl never.
Arguments N.ltb : simpl never.
Arguments N.eqb : simpl never.
Arguments Z.add : simpl never.
Arguments Z.sub : simpl never.
Arguments Z.mul : simpl never.
Arguments Z.pow : simpl never.
Arguments Z.leb : simpl never.
Arguments Z.ltb : simpl never.
Arguments Z.eqb : simpl never.
Arguments Z.of_nat : simpl never.
Arguments Z.to_nat : simpl never.

(** Error values a Go function of this library can return.  The texts of the
    errors are not modelled, only the values user code can tell apart. *)
Inductive err : Type :=
| EEOF                       (* io.EOF *)
| EUnexpectedEOF             (* io.ErrUnexpectedEOF *)
| EFormat                    (* enc.ErrFormat, any message *)
| ENotFound                  (* enc.ErrNotFound *)
| EOverflow                  (* enc.ErrBufferOverflow *)
| EDigest                    (* enc.ErrIncorrectDigest *)
| EUnrecognized (t : N)      (* enc.ErrUnrecognizedField{t} *)
| ESkipRequired (t : N)      (* enc.ErrSkipRequired{_, t} *)
| EFailToParse (t : N) (e : err)  (* enc.ErrFailToParse{t, e} *)
| EOther.                    (* errors.New(...) with some text *)

(** Outcome of a Go call: a value, an error value, a run-time panic, or a loop
    that did not finish within the given fuel (theorems about success exclude
    [Hang] explicitly). *)
Inductive res (A : Type) : Type :=
| Ok (a : A)
| Err (e : err)
| Panic
| Hang.
Arguments Ok {A} a.
Arguments Err {A} e.
Arguments Panic {A}.
Arguments Hang {A}.

Definition bind {A B} (x : res A) (f : A -> res B) : res B :=
  match x with Ok a => f a | Err e => Err e | Panic => Panic | Hang => Hang end.

Notation "'do' x <- m ; f" := (bind m (fun x => f))
  (at level 200, x name, m at level 100, f at level 200).

Definition is_ok {A} (x : res A) : bool := match x with Ok _ => true | _ => false end.
Definition is_panic {A} (x : res A) : bool := match x with Panic => true | _ => false end.

(** Bytes and buffers. *)
Notation byte := N (only parsing).
Notation buf := (list N) (only parsing).
Notation wire := (list (list N)) (only parsing).

Definition byte_ok (b : N) : Prop := (b < 256)%N.
Definition bytes_ok (l : buf) : Prop := Forall byte_ok l.
Definition wire_ok (w : wire) : Prop := Forall bytes_ok w.

Definition two8  : N := 256%N.
Definition two16 : N := 65536%N.
Definition two32 : N := 4294967296%N.
Definition two63 : N := 9223372036854775808%N.
Definition two64 : N := 18446744073709551616%N.
Definition Ztwo63 : Z := 9223372036854775808%Z.
Definition Ztwo64 : Z := 18446744073709551616%Z.

Definition u64_ok (x : N) : Prop := (x < two64)%N.

(** Go [int(x)] of an unsigned 64-bit [x] on a 64-bit platform. *)
Definition to_int (x : N) : Z :=
  if (x <? two63)%N then Z.of_N x else (Z.of_N x - Ztwo64)%Z.

(** Go's signed 64-bit wrap-around of an exact result. *)
Definition wrap64 (z : Z) : Z :=
  (((z + Ztwo63) mod Ztwo64) - Ztwo63)%Z.

(** Go [uint64(z)] / unsigned wrap-around of an exact result. *)
Definition to_u64 (z : Z) : N := Z.to_N (z mod Ztwo64).

(** length of a Go slice as a number *)
Definition zlen {A} (l : list A) : Z := Z.of_nat (length l).
Definition nlen {A} (l : list A) : N := N.of_nat (length l).

(** Go slicing [b[i:j]].  Simplification: capacity is taken to be the length,
    so slicing beyond the length panics (the code base never relies on spare
    capacity). *)
Definition slice {A} (b : list A) (i j : Z) : res (list A) :=
  if ((0 <=? i) && (i <=? j) && (j <=? zlen b))%Z
  then Ok (firstn (Z.to_nat (j - i)) (skipn (Z.to_nat i) b))
  else Panic.

(** Go indexing [b[i]]. *)
Definition index {A} (b : list A) (i : Z) : res A :=
  if (i <? 0)%Z then Panic
  else match nth_error b (Z.to_nat i) with Some x => Ok x | None => Panic end.

(** Go's [make([]T, n)] with byte-sized elements panics outside of
    0..maxAlloc (2^48 on 64-bit platforms, runtime/malloc.go); allocations
    below that bound are assumed to succeed. *)
Definition max_alloc : Z := 281474976710656%Z.
Definition make_ok (elem_size n : Z) : bool :=
  ((0 <=? n) && (n * elem_size <=? max_alloc))%Z.

(** Big-endian bytes. [be n x] is the n-byte big-endian rendering of x. *)
Fixpoint be (n : nat) (x : N) : buf :=
  match n with
  | O => []
  | S k => be k (x / 256)%N ++ [(x mod 256)%N]
  end.

(** Value of big-endian bytes (no wrap-around). *)
Definition unbe (l : buf) : N := fold_left (fun a b => (a * 256 + b)%N) l 0%N.

(** Value of big-endian bytes accumulated in a uint64:
    [x = (x << 8) | b] with unsigned wrap-around. *)
Definition unbe64 (l : buf) : N :=
  fold_left (fun a b => ((a * 256) mod two64 + b)%N) l 0%N.

(** Overwriting a prefix of [b] with [x]: Go [copy]/PutUint into a buffer that
    is long enough; panics when the buffer is too short. *)
Definition put_prefix (b x : buf) : res buf :=
  if (length x <=? length b)%nat then Ok (x ++ skipn (length x) b) else Panic.

Definition join (w : wire) : buf := concat w.
