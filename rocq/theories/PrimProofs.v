From Verif Require Import Base BaseProofs PrimModel.

Lemma tl_len_enc : forall v, nlen (tl_enc v) = tl_len v.
Proof.
  intros. unfold tl_enc, tl_len, nlen.
  destruct (N.leb_spec v 252), (N.leb_spec v 65535), (N.leb_spec v 4294967295);
    simpl length; rewrite ?be_length; lia.
Qed.

Lemma tl_len_range : forall v, (1 <= tl_len v <= 9)%N.
Proof.
  intros. unfold tl_len.
  destruct (N.leb_spec v 252), (N.leb_spec v 65535), (N.leb_spec v 4294967295); lia.
Qed.

Lemma tl_len_mono : forall v w, (v <= w)%N -> (tl_len v <= tl_len w)%N.
Proof.
  intros. unfold tl_len.
  destruct (N.leb_spec v 252), (N.leb_spec v 65535), (N.leb_spec v 4294967295);
  destruct (N.leb_spec w 252), (N.leb_spec w 65535), (N.leb_spec w 4294967295); lia.
Qed.

Lemma tl_enc_ok : forall v, bytes_ok (tl_enc v).
Proof.
  intros. unfold tl_enc.
  destruct (N.leb_spec v 252), (N.leb_spec v 65535), (N.leb_spec v 4294967295);
    try (constructor; [unfold byte_ok; lia | first [apply be_ok | constructor] ]).
Qed.

Lemma tl_enc_nonnil : forall v, tl_enc v <> [].
Proof. intros v H. pose proof (tl_len_enc v). rewrite H in H0. pose proof (tl_len_range v). cbn in H0. lia. Qed.

Lemma nat_len_enc : forall v, nlen (nat_enc v) = nat_len v.
Proof.
  intros. unfold nat_enc, nat_len, nlen.
  destruct (N.leb_spec v 255), (N.leb_spec v 65535), (N.leb_spec v 4294967295);
    simpl length; rewrite ?be_length; lia.
Qed.

Lemma nat_enc_ok : forall v, bytes_ok (nat_enc v).
Proof.
  intros. unfold nat_enc.
  destruct (N.leb_spec v 255), (N.leb_spec v 65535), (N.leb_spec v 4294967295);
    try apply be_ok. all: repeat constructor; unfold byte_ok; lia.
Qed.

Lemma slice1 : forall (x : N) (m s : buf), slice (x :: m ++ s) 1 (1 + zlen m) = Ok m.
Proof. intros. apply (slice_app [x] m s). Qed.

Lemma pow_two16 : (256 ^ N.of_nat 2 = 65536)%N. Proof. reflexivity. Qed.
Lemma pow_two32 : (256 ^ N.of_nat 4 = 4294967296)%N. Proof. reflexivity. Qed.
Lemma pow_two64 : (256 ^ N.of_nat 8 = 18446744073709551616)%N. Proof. reflexivity. Qed.

Lemma parse_tl_enc : forall v s, u64_ok v -> parse_tl (tl_enc v ++ s) = Ok (v, Z.of_N (tl_len v)).
Proof.
  intros v s Hv. unfold u64_ok, two64 in Hv. unfold tl_enc, tl_len, parse_tl.
  destruct (N.leb_spec v 252).
  - cbn [app index Z.ltb Z.to_nat nth_error]. unfold index. simpl.
    rewrite N.mod_small by lia. destruct (N.leb_spec v 252); [|lia]. reflexivity.
  - destruct (N.leb_spec v 65535); [|destruct (N.leb_spec v 4294967295)].
    + simpl app. unfold index. simpl nth_error. cbn [bind Z.ltb Z.compare].
      change ((0 <? 0)%Z) with false. cbn [bind].
      change (253 <=? 252)%N with false. change (253 =? 253)%N with true. cbv iota.
      pose proof (slice1 253 (be 2 v) s) as Q. replace (1 + zlen (be 2 v))%Z with 3%Z in Q
        by (unfold zlen; rewrite be_length; lia).
      change (be 2 v) with (be 2 v) in Q. cbn [be app] in *. rewrite Q. cbn [bind].
      pose proof (unbe_be_small 2 v) as U. cbn [be app] in U. rewrite U; [reflexivity|].
      rewrite pow_two16. lia.
    + unfold index. simpl app. simpl nth_error.
      change ((0 <? 0)%Z) with false. cbn [bind].
      change (254 <=? 252)%N with false. change (254 =? 253)%N with false. change (254 =? 254)%N with true. cbv iota.
      pose proof (slice1 254 (be 4 v) s) as Q. replace (1 + zlen (be 4 v))%Z with 5%Z in Q
        by (unfold zlen; rewrite be_length; lia).
      cbn [be app] in *. rewrite Q. cbn [bind].
      pose proof (unbe_be_small 4 v) as U. cbn [be app] in U. rewrite U; [reflexivity|].
      rewrite pow_two32. lia.
    + unfold index. simpl app. simpl nth_error.
      change ((0 <? 0)%Z) with false. cbn [bind].
      change (255 <=? 252)%N with false. change (255 =? 253)%N with false.
      change (255 =? 254)%N with false. change (255 =? 255)%N with true. cbv iota.
      pose proof (slice1 255 (be 8 v) s) as Q. replace (1 + zlen (be 8 v))%Z with 9%Z in Q
        by (unfold zlen; rewrite be_length; lia).
      cbn [be app] in *. rewrite Q. cbn [bind].
      pose proof (unbe_be_small 8 v) as U. cbn [be app] in U. rewrite U; [reflexivity|].
      rewrite pow_two64. lia.
Qed.

Lemma tl_encode_into_ok : forall v b, (nlen (tl_enc v) <= nlen b)%N ->
  tl_encode_into v b = Ok (tl_enc v ++ skipn (length (tl_enc v)) b, tl_len v).
Proof.
  intros. unfold tl_encode_into. rewrite put_prefix_app; [reflexivity|]. unfold nlen in H. lia.
Qed.

Lemma tl_enc_inj_prefix : forall v w s t, u64_ok v -> u64_ok w ->
  tl_enc v ++ s = tl_enc w ++ t -> v = w /\ s = t.
Proof.
  intros v w s t Hv Hw H.
  pose proof (parse_tl_enc v s Hv) as A. rewrite H in A. rewrite parse_tl_enc in A by auto.
  inversion A; subst. split; auto. eapply app_inv_head; eauto.
Qed.

Lemma parse_nat_enc : forall v, u64_ok v -> parse_nat (nat_enc v) = Ok (v, Z.of_N (nat_len v)).
Proof.
  intros v Hv. unfold u64_ok, two64 in Hv. unfold parse_nat, nat_enc, nat_len.
  destruct (N.leb_spec v 255); [|destruct (N.leb_spec v 65535); [|destruct (N.leb_spec v 4294967295)]].
  - simpl length. cbn. rewrite N.mod_small by lia. f_equal. 
  - rewrite be_length. cbn [Nat.eqb]. rewrite unbe_be_small. reflexivity. rewrite pow_two16; lia.
  - rewrite be_length. cbn [Nat.eqb]. rewrite unbe_be_small. reflexivity. rewrite pow_two32; lia.
  - rewrite be_length. cbn [Nat.eqb]. rewrite unbe_be_small. reflexivity. rewrite pow_two64; lia.
Qed.

Lemma nat_bytes_ok : forall v, nat_bytes v = Ok (nat_enc v).
Proof.
  intros. unfold nat_bytes, nat_encode_into. pose proof (nat_len_enc v) as H. unfold nlen in H.
  rewrite put_prefix_app by (rewrite repeat_length; lia). cbn [bind fst].
  rewrite skipn_all2, app_nil_r; [reflexivity|]. rewrite repeat_length. lia.
Qed.

Lemma write_at_app : forall p x y s, length x = length y ->
  write_at (p ++ y ++ s) (zlen p) x = Ok (p ++ x ++ s).
Proof.
  intros. unfold write_at.
  pose proof (slice_app p (y ++ s) []) as Q. rewrite app_nil_r in Q.
  rewrite <- zlen_app in Q. rewrite Q. cbn [bind].
  rewrite put_prefix_app by (rewrite app_length; lia). cbn [bind].
  unfold zlen. rewrite Nat2Z.id. rewrite firstn_app, firstn_all, Nat.sub_diag. simpl firstn.
  rewrite app_nil_r. rewrite skipn_app. rewrite H. rewrite skipn_all, Nat.sub_diag. reflexivity.
Qed.

Lemma tl_enc_zlen : forall v, zlen (tl_enc v) = Z.of_N (tl_len v).
Proof. intros. pose proof (tl_len_enc v). unfold zlen, nlen in *. lia. Qed.

Lemma split_at : forall {A} (l : list A) n, (n <= length l)%nat ->
  exists a b, l = a ++ b /\ length a = n.
Proof.
  intros. exists (firstn n l), (skipn n l). split. symmetry; apply firstn_skipn.
  apply firstn_length_le; auto.
Qed.

(** ShrinkLength on a buffer made of Type, Length and the rest. *)
Lemma shrink_length_ok : forall typ L k rest,
  u64_ok typ -> u64_ok L -> (0 <= k)%Z -> (k <= Z.of_N L)%Z ->
  shrink_length (tl_enc typ ++ tl_enc L ++ rest) k
  = Ok (tl_enc typ ++ tl_enc (L - Z.to_N k) ++ rest).
Proof.
  intros typ L k rest Ht HL Hk HkL. unfold shrink_length.
  rewrite parse_tl_enc by auto. cbn [bind].
  pose proof (slice_app (tl_enc typ) (tl_enc L ++ rest) []) as Q. rewrite app_nil_r in Q.
  rewrite <- zlen_app in Q. rewrite <- tl_enc_zlen. rewrite Q. cbn [bind].
  rewrite parse_tl_enc by auto. cbn [bind].
  assert (HN : to_u64 (Z.of_N L - k) = (L - Z.to_N k)%N).
  { unfold to_u64. unfold u64_ok, two64 in HL. rewrite Z.mod_small. lia. unfold Ztwo64. lia. }
  rewrite HN. set (L' := (L - Z.to_N k)%N) in *.
  destruct (Z.eqb_spec (Z.of_N (tl_len L')) (Z.of_N (tl_len L))) as [E|E].
  - apply write_at_app. pose proof (tl_len_enc L). pose proof (tl_len_enc L'). unfold nlen in *. lia.
  - assert (tl_len L' <= tl_len L)%N by (apply tl_len_mono; lia).
    pose proof (tl_len_range L'). pose proof (tl_len_range typ).
    set (d := (Z.of_N (tl_len L) - Z.of_N (tl_len L'))%Z).
    assert (Hd : (0 < d)%Z) by lia.
    (* tl_enc typ ++ tl_enc L = pre ++ y where |pre| = d, |y| = |typ| + |L'| *)
    set (hdr := tl_enc typ ++ tl_enc L).
    assert (Hh : zlen hdr = (Z.of_N (tl_len typ) + Z.of_N (tl_len L))%Z).
    { unfold hdr. rewrite zlen_app, !tl_enc_zlen. lia. }
    destruct (split_at hdr (Z.to_nat d)) as (pre & y & E1 & E2).
    { unfold zlen in Hh. lia. }
    assert (Hy : zlen y = (Z.of_N (tl_len typ) + Z.of_N (tl_len L'))%Z).
    { pose proof (zlen_app pre y). rewrite <- E1 in H2. unfold zlen in *. lia. }
    destruct (split_at y (N.to_nat (tl_len typ))) as (y1 & y2 & E3 & E4).
    { unfold zlen in *. lia. }
    assert (Hpre : zlen pre = d) by (unfold zlen; lia).
    rewrite app_assoc. fold hdr. rewrite E1, E3. rewrite <- !app_assoc.
    rewrite <- Hpre. rewrite write_at_app.
    2:{ pose proof (tl_len_enc typ). unfold nlen in *. lia. }
    cbn [bind].
    replace (zlen pre + zlen (tl_enc typ))%Z with (zlen (pre ++ tl_enc typ)) by (rewrite zlen_app; lia).
    rewrite app_assoc. rewrite write_at_app.
    2:{ pose proof (tl_len_enc L'). unfold nlen, zlen in *. rewrite E3, app_length in Hy. lia. }
    cbn [bind]. rewrite <- app_assoc.
    pose proof (slice_app pre (tl_enc typ ++ tl_enc L' ++ rest) []) as Q2. rewrite app_nil_r in Q2.
    rewrite <- zlen_app in Q2. exact Q2.
Qed.
