From Verif Require Import Base BaseProofs PrimModel PrimProofs ReaderModel ReaderSpec ReaderProofs.

Lemma c01_encode : forall v dst, (tl_len v <= nlen dst)%N ->
  tl_encode_into v dst = Ok (tl_enc v ++ skipn (N.to_nat (tl_len v)) dst, tl_len v)
  /\ nlen (tl_enc v) = tl_len v.
Proof.
  intros. split; [|apply tl_len_enc]. rewrite tl_encode_into_ok by (rewrite tl_len_enc; auto).
  rewrite <- tl_len_enc. unfold nlen. rewrite Nat2N.id. reflexivity.
Qed.

Lemma c01_read : forall v r consumed rest, u64_ok v ->
  At r consumed (tl_enc v ++ rest) ->
  exists r', read_tl r = (Ok v, r') /\ At r' (consumed ++ tl_enc v) rest.
Proof. intros. destruct (at_read_tl v r consumed rest H H0) as (r' & ? & ? & _). eauto. Qed.

Lemma c01_format : forall v, u64_ok v ->
  ((v < 253)%N /\ tl_enc v = [v]) \/
  (exists mark body, tl_enc v = mark :: body /\ unbe body = v /\ bytes_ok body /\
     ((mark = 253 /\ nlen body = 2 /\ 253 <= v < 2 ^ 16) \/
      (mark = 254 /\ nlen body = 4 /\ 2 ^ 16 <= v < 2 ^ 32) \/
      (mark = 255 /\ nlen body = 8 /\ 2 ^ 32 <= v < 2 ^ 64))%N).
Proof.
  intros v Hv. unfold u64_ok, two64 in Hv. unfold tl_enc.
  change (2 ^ 16)%N with 65536%N. change (2 ^ 32)%N with 4294967296%N. change (2 ^ 64)%N with 18446744073709551616%N.
  destruct (N.leb_spec v 252).
  - left. split; [lia|]. rewrite N.mod_small; auto; lia.
  - right. destruct (N.leb_spec v 65535); [|destruct (N.leb_spec v 4294967295)].
    + exists 253%N, (be 2 v). unfold nlen; rewrite be_length. split; auto. split; [apply unbe_be_small; rewrite pow_two16; lia|].
      split; [apply be_ok|]. left. repeat split; auto; lia.
    + exists 254%N, (be 4 v). unfold nlen; rewrite be_length. split; auto. split; [apply unbe_be_small; rewrite pow_two32; lia|].
      split; [apply be_ok|]. right; left. repeat split; auto; lia.
    + exists 255%N, (be 8 v). unfold nlen; rewrite be_length. split; auto. split; [apply unbe_be_small; rewrite pow_two64; lia|].
      split; [apply be_ok|]. right; right. repeat split; auto; lia.
Qed.

Lemma c02_truncated : forall v r consumed p q, u64_ok v -> tl_enc v = p ++ q -> q <> [] ->
  At r consumed p ->
  exists r', read_tl r = (Err (match p with [] => EEOF | _ => EUnexpectedEOF end), r').
Proof.
  intros. destruct p as [|x p].
  - eapply at_read_tl_empty; eauto.
  - eapply at_read_tl_trunc with (p := x :: p); eauto. congruence.
Qed.

Lemma c03_roundtrip : forall x, u64_ok x ->
  exists b, nat_bytes x = Ok b /\ bytes_ok b /\ parse_nat b = Ok (x, zlen b) /\
    In (length b) [1; 2; 4; 8]%nat /\
    (forall k, In k [1; 2; 4; 8]%nat -> (x < 256 ^ N.of_nat k)%N -> (length b <= k)%nat).
Proof.
  intros x H. exists (nat_enc x). split; [apply nat_bytes_ok|]. split; [apply nat_enc_ok|].
  assert (L := nat_len_enc x). unfold nlen in L.
  split. { rewrite parse_nat_enc by auto. f_equal. f_equal. unfold zlen. lia. }
  assert (L' : length (nat_enc x) = N.to_nat (nat_len x)) by lia. rewrite L'. clear L L'. unfold nat_len.
  unfold u64_ok, two64 in H.
  split.
  - destruct (N.leb_spec x 255); [|destruct (N.leb_spec x 65535); [|destruct (N.leb_spec x 4294967295)]]; cbn; tauto.
  - intros k K B.
    assert (P : (256 ^ N.of_nat 1 = 256)%N) by reflexivity.
    pose proof pow_two16. pose proof pow_two32. pose proof pow_two64.
    simpl in K. destruct K as [<-|[<-|[<-|[<-|[]]]]];
    destruct (N.leb_spec x 255); try (destruct (N.leb_spec x 65535); [|destruct (N.leb_spec x 4294967295)]); lia.
Qed.

Lemma c03_accepts : forall b, bytes_ok b ->
  (In (length b) [1; 2; 4; 8]%nat -> parse_nat b = Ok (unbe b, zlen b)) /\
  (~ In (length b) [1; 2; 4; 8]%nat -> parse_nat b = Err EFormat).
Proof.
  intros b H. unfold parse_nat, zlen. simpl.
  destruct (Nat.eqb_spec (length b) 1) as [->|]; [split; [reflexivity|tauto]|].
  destruct (Nat.eqb_spec (length b) 2) as [->|]; [split; [reflexivity|tauto]|].
  destruct (Nat.eqb_spec (length b) 4) as [->|]; [split; [reflexivity|tauto]|].
  destruct (Nat.eqb_spec (length b) 8) as [->|]; [split; [reflexivity|tauto]|].
  split; auto. intros [E|[E|[E|[E|[]]]]]; congruence.
Qed.

Lemma c04_shrink : forall typ len shrink rest,
  u64_ok typ -> u64_ok len -> (0 <= shrink <= Z.of_N len)%Z ->
  shrink_length (tl_enc typ ++ tl_enc len ++ rest) shrink
  = Ok (tl_enc typ ++ tl_enc (len - Z.to_N shrink) ++ rest).
Proof. intros. apply shrink_length_ok; auto; lia. Qed.
