(** Signing and validating: vocabulary. *)
From Verif Require Import Base NameModel PrimModel NameProofs CodecModel CodecSpec2 SpecModel SpecSpec SecModel.

(** signatures of [bits]-bit curves: an ASN.1 sequence of two integers below 2^bits *)
Definition der_len (content : N) : N := (content + (if (content <? 128) then 2 else if (content <? 256) then 3 else 4))%N.
Definition der_int (x : N) : N := der_len (N.size x / 8 + 1).
Definition der_sig (r s : N) : N := der_len (der_int r + der_int s).

(** a key pair: signatures by the one are accepted by the other *)
Definition ecdsa_pair {esk epk : Type} (sign : esk -> buf -> buf -> res buf) (verify : epk -> buf -> buf -> bool) (bits : N) (sk : esk) (pk : epk) : Prop :=
  forall rnd digest, exists sig, sign sk rnd digest = Ok sig /\ verify pk digest sig = true /\ (0 < nlen sig <= ecc_est bits)%N.

Definition moment_ok (t : moment) : Prop := (0 <= mo_ms t < 9223372036854)%Z.

(** the sequence numbers a signer announces in consecutive calls *)
Fixpoint announced (mk : N -> moment -> signer * N) (seq : N) (ts : list moment) : list (option N) :=
  match ts with
  | [] => []
  | t :: ts' => let '(s, seq') := mk seq t in
      (match sg_info s with Ok (Some sc) => sc_seq sc | _ => None end) :: announced mk seq' ts'
  end.

(** [b] occurs in [w] *)
Definition occurs (b w : buf) : Prop := exists pre post, w = pre ++ b ++ post.
