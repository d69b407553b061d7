(** Encrypted content: vocabulary. *)
From Verif Require Import Base NameModel PrimModel ReaderModel CodecModel SpecModel SchemaModel NeedModel SegModel.

(** [D] inverts [E] on blocks of 16 bytes, for keys of 32 bytes *)
Definition block_cipher (E D : buf -> buf -> buf) : Prop :=
  forall k b, length k = 32%nat -> length b = 16%nat -> bytes_ok b -> length (E k b) = 16%nat /\ bytes_ok (E k b) /\ D k (E k b) = b.

(** the node has the child a ContentKeyNode is created with, a leaf node for the keys *)
Definition has_keys {T} (leaf_of : T -> option (leaf T)) (x : mnode T) (l : leaf T) : Prop :=
  exists d tag dl, m_node x = SNode d [(PVar TypeGeneric tag, SNode dl [])] /\ leaf_of dl = Some l.

(** the content followed by zeros, up to a multiple of 16 bytes *)
Definition padded (b p : buf) : Prop := exists k, (k < 16)%nat /\ p = b ++ repeat 0%N k /\ (length p mod 16 = 0)%nat.

(** block [i] of 16 bytes *)
Definition block (i : nat) (b : buf) : buf := firstn 16 (skipn (16 * i) b).
(** [out] is [p] encrypted with [k] block by block, each combined with the previous ciphertext block, the first with [iv] *)
Definition chained (E : buf -> buf -> buf) (k iv p out : buf) : Prop :=
  length out = length p /\ forall i, (16 * i < length p)%nat ->
    exists c, block i out = E k c /\ length c = 16%nat
      /\ forall j, (j < 16)%nat -> nth j c 0%N = N.lxor (nth j (match i with O => iv | S m => block m out end) 0%N) (nth j (block i p) 0%N).
