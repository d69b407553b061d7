(** C01-C04: TLV numbers (pkg/encoding/primitives.go).  Statements only. *)
From Verif Require Import Base BaseProofs PrimModel PrimProofs ReaderModel ReaderSpec ReaderProofs PropsPrimProofs.

(** C01.  [tl_enc v] is what EncodeInto writes. *)
Theorem C01_encode_writes_announced_length : forall v dst, (tl_len v <= nlen dst)%N ->
  tl_encode_into v dst = Ok (tl_enc v ++ skipn (N.to_nat (tl_len v)) dst, tl_len v)
  /\ nlen (tl_enc v) = tl_len v.
Proof. exact c01_encode. Qed.
Print Assumptions C01_encode_writes_announced_length.

Theorem C01_parse_roundtrip : forall v rest, u64_ok v ->
  parse_tl (tl_enc v ++ rest) = Ok (v, Z.of_N (tl_len v)).
Proof. exact parse_tl_enc. Qed.
Print Assumptions C01_parse_roundtrip.

Theorem C01_read_roundtrip : forall v r consumed rest, u64_ok v ->
  At r consumed (tl_enc v ++ rest) ->
  exists r', read_tl r = (Ok v, r') /\ At r' (consumed ++ tl_enc v) rest.
Proof. exact c01_read. Qed.
Print Assumptions C01_read_roundtrip.

Theorem C01_self_delimiting : forall v w s t, u64_ok v -> u64_ok w ->
  tl_enc v ++ s = tl_enc w ++ t -> v = w /\ s = t.
Proof. exact tl_enc_inj_prefix. Qed.
Print Assumptions C01_self_delimiting.

(** The widths are the ones of the NDN packet format: 1, 3, 5, 9 bytes, and the
    number follows its marker byte in big-endian order. *)
Theorem C01_format : forall v, u64_ok v ->
  ((v < 253)%N /\ tl_enc v = [v]) \/
  (exists mark body, tl_enc v = mark :: body /\ unbe body = v /\ bytes_ok body /\
     ((mark = 253 /\ nlen body = 2 /\ 253 <= v < 2 ^ 16) \/
      (mark = 254 /\ nlen body = 4 /\ 2 ^ 16 <= v < 2 ^ 32) \/
      (mark = 255 /\ nlen body = 8 /\ 2 ^ 32 <= v < 2 ^ 64))%N).
Proof. exact c01_format. Qed.
Print Assumptions C01_format.

Example C01_example : parse_tl (tl_enc 4242424242 ++ [1; 2; 3]%N) = Ok (4242424242%N, 5%Z).
Proof. vm_compute. reflexivity. Qed.

Example C01_example_reader :
  fst (read_tl (new_wire_reader [[254; 1]; [2; 3; 4]; [7]]%N)) = Ok 16909060%N.
Proof. vm_compute. reflexivity. Qed.

(** C02 *)
Theorem C02_truncated : forall v r consumed p q, u64_ok v -> tl_enc v = p ++ q -> q <> [] ->
  At r consumed p ->
  exists r', read_tl r = (Err (match p with [] => EEOF | _ => EUnexpectedEOF end), r').
Proof. exact c02_truncated. Qed.
Print Assumptions C02_truncated.

Example C02_example : fst (read_tl (new_wire_reader [[254; 1]; [2; 3]]%N)) = Err EUnexpectedEOF.
Proof. vm_compute. reflexivity. Qed.

(** C03 *)
Theorem C03_nat_roundtrip : forall x, u64_ok x ->
  exists b, nat_bytes x = Ok b /\ bytes_ok b /\ parse_nat b = Ok (x, zlen b) /\
    In (length b) [1; 2; 4; 8]%nat /\
    (forall k, In k [1; 2; 4; 8]%nat -> (x < 256 ^ N.of_nat k)%N -> (length b <= k)%nat).
Proof. exact c03_roundtrip. Qed.
Print Assumptions C03_nat_roundtrip.

(** EncodeInto writes the same bytes at the start of any destination that is long enough, changes nothing behind them and
    returns their number; a shorter destination panics. *)
Theorem C03_encode_into : forall x b dst, nat_bytes x = Ok b ->
  ((length b <= length dst)%nat -> nat_encode_into x dst = Ok (b ++ skipn (length b) dst, nlen b))
  /\ ((length dst < length b)%nat -> nat_encode_into x dst = Panic).
Proof.
  intros x b dst H. rewrite nat_bytes_ok in H. injection H as <-. unfold nat_encode_into. split; intros L.
  - rewrite put_prefix_app by exact L. cbn [bind]. rewrite nat_len_enc. reflexivity.
  - unfold put_prefix. destruct (Nat.leb_spec (length (nat_enc x)) (length dst)); [lia|]. reflexivity.
Qed.
Print Assumptions C03_encode_into.

Theorem C03_parse_accepts : forall b, bytes_ok b ->
  (In (length b) [1; 2; 4; 8]%nat -> parse_nat b = Ok (unbe b, zlen b)) /\
  (~ In (length b) [1; 2; 4; 8]%nat -> parse_nat b = Err EFormat).
Proof. exact c03_accepts. Qed.
Print Assumptions C03_parse_accepts.

Example C03_example : nat_bytes 70000 = Ok [0; 1; 17; 112]%N /\ parse_nat [0; 1; 17; 112]%N = Ok (70000%N, 4%Z).
Proof. split; vm_compute; reflexivity. Qed.

(** C04 *)
Theorem C04_shrink_length : forall typ len shrink rest,
  u64_ok typ -> u64_ok len -> (0 <= shrink <= Z.of_N len)%Z ->
  shrink_length (tl_enc typ ++ tl_enc len ++ rest) shrink
  = Ok (tl_enc typ ++ tl_enc (len - Z.to_N shrink) ++ rest).
Proof. exact c04_shrink. Qed.
Print Assumptions C04_shrink_length.

(** crossing the width boundary: 3-byte length becomes 1 byte *)
Example C04_example :
  shrink_length (tl_enc 6 ++ tl_enc 260 ++ [9; 9]%N) 10 = Ok (6 :: 250 :: [9; 9])%N.
Proof. vm_compute. reflexivity. Qed.
