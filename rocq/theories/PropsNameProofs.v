From Verif Require Import Base BaseProofs PrimModel PrimProofs ReaderModel ReaderSpec ReaderProofs ReaderProofs2 ReadInv
  NameModel NameProofs OrderProofs PatternProofs.

(** ** consumption of a successful ReadComponent *)
Lemma read_buf_consume : forall r pre rem l v r', At r pre rem -> is_buf_reader r -> u64_ok l ->
  r_read_buf (to_int l) r = (Ok v, r') ->
  exists s, rem = v ++ s /\ At r' (pre ++ v) s /\ is_buf_reader r' /\ nlen v = l.
Proof.
  intros r pre rem l v r' A K U E.
  destruct r as [b pos|]; [|destruct K]. destruct A as [HL [-> ->]].
  assert (E0 := E). apply read_buf_inv in E. apply slice_inv in E. destruct E as (E1 & E2 & E3 & E4).
  assert (R := to_int_range l U). rewrite zlen_app in *. zl.
  assert (W : wrap64 (zlen pre + to_int l) = (zlen pre + to_int l)%Z /\ (0 <= to_int l)%Z).
  { unfold mem_limit, Ztwo63 in *. destruct (Z.lt_ge_cases (to_int l) 0).
    - rewrite wrap64_id in E1 by (unfold Ztwo63; lia). lia.
    - destruct (Z.lt_ge_cases (zlen pre + to_int l) 9223372036854775808).
      + rewrite wrap64_id by (unfold Ztwo63; lia). auto.
      + exfalso. unfold wrap64, Ztwo63, Ztwo64 in E1.
        replace ((zlen pre + to_int l + 9223372036854775808) mod 18446744073709551616)%Z
          with (zlen pre + to_int l + 9223372036854775808 - 18446744073709551616)%Z in E1; [lia|].
        apply Z.mod_unique with 1%Z; lia. }
  destruct W as [W W0]. rewrite W in *.
  assert (TL : to_int l = Z.of_N l).
  { destruct (N.lt_ge_cases l two63) as [Q|Q].
    - apply to_int_small; auto.
    - pose proof (to_int_big l Q U). lia. }
  assert (LV : zlen v = to_int l).
  { lia. }
  assert (V : v = firstn (Z.to_nat (to_int l)) rem).
  { rewrite E3. replace (Z.to_nat (zlen pre)) with (length pre) by (unfold zlen; lia).
    rewrite skipn_app_exact by auto. f_equal. lia. }
  exists (skipn (Z.to_nat (to_int l)) rem).
  assert (R2 : rem = v ++ skipn (Z.to_nat (to_int l)) rem) by (rewrite V at 1; rewrite firstn_skipn; auto).
  split; auto.
  assert (r' = RBuf (pre ++ rem) (zlen pre + zlen v)).
  { cbn [r_read_buf] in E0. rewrite W in E0. destruct (_ <? _)%Z; [discriminate|].
    destruct (slice _ _ _); inversion E0; subst. rewrite LV. auto. }
  subst r'. split; [|split].
  - split; [rewrite <- app_assoc, <- R2, zlen_app; auto|]. rewrite <- app_assoc, <- R2, zlen_app. auto.
  - exact I.
  - unfold zlen, nlen in *. lia.
Qed.

Lemma tl_form_min : forall x v, bytes_ok x -> tl_form x v -> (tl_len v <= nlen x)%N.
Proof.
  intros x v B F. unfold tl_len.
  destruct F as [[-> ?]|[(b & -> & L & ->)|[(b & -> & L & ->)|(b & -> & L & ->)]]]; unfold nlen; simpl length;
    try (inversion B; subst;
    match goal with H : Forall byte_ok _ |- _ => pose proof (unbe_bound _ H) as Q end;
    unfold nlen in Q; rewrite L in *).
  - destruct (N.leb_spec v 252); lia.
  - change (256 ^ N.of_nat 2)%N with 65536%N in Q.
    destruct (N.leb_spec (unbe b) 252), (N.leb_spec (unbe b) 65535); lia.
  - change (256 ^ N.of_nat 4)%N with 4294967296%N in Q.
    destruct (N.leb_spec (unbe b) 252), (N.leb_spec (unbe b) 65535), (N.leb_spec (unbe b) 4294967295); lia.
  - destruct (N.leb_spec (unbe b) 252), (N.leb_spec (unbe b) 65535), (N.leb_spec (unbe b) 4294967295); lia.
Qed.

Lemma nat_len_le_tl_len : forall v, (nat_len v <= tl_len v)%N.
Proof.
  intros. unfold nat_len, tl_len.
  destruct (N.leb_spec v 255), (N.leb_spec v 252), (N.leb_spec v 65535), (N.leb_spec v 4294967295); lia.
Qed.

Lemma read_comp_inv : forall r pre rem c r', At r pre rem -> is_buf_reader r -> bytes_ok rem ->
  read_comp r = (Ok c, r') ->
  exists x1 x2 s, rem = x1 ++ x2 ++ cval c ++ s /\ tl_form x1 (ctyp c) /\ tl_form x2 (nlen (cval c)) /\
    At r' (pre ++ x1 ++ x2 ++ cval c) s /\ is_buf_reader r'.
Proof.
  intros r pre rem c r' A K B E. unfold read_comp in E.
  destruct (read_tl_total _ _ _ A B) as [(t & x1 & s1 & r1 & -> & F1 & E1 & A1 & K1)|(r1 & E1)]; rewrite E1 in E;
    [|destruct rem; discriminate].
  assert (B1 : bytes_ok s1) by (apply bytes_ok_app in B; tauto).
  destruct (read_tl_total _ _ _ A1 B1) as [(l & x2 & s2 & r2 & -> & F2 & E2 & A2 & K2)|(r2 & E2)]; rewrite E2 in E;
    [|destruct s1; discriminate].
  assert (B2 : bytes_ok x2) by (apply bytes_ok_app in B1; tauto).
  destruct (r_read_buf (to_int l) r2) as [[v| | |] r3] eqn:E3; try discriminate. inversion E; subst.
  destruct (read_buf_consume _ _ _ _ _ _ A2 (proj1 K2 (proj1 K1 K)) (tl_form_u64 _ _ B2 F2) E3) as (s & -> & A3 & K3 & L).
  exists x1, x2, s. cbn [ctyp cval]. rewrite L. rewrite <- !app_assoc in A3. auto 10.
Qed.

Lemma read_comp_min : forall r pre rem c r', At r pre rem -> is_buf_reader r -> bytes_ok rem ->
  read_comp r = (Ok c, r') ->
  exists x s, rem = x ++ s /\ (comp_len c <= nlen x)%N /\ At r' (pre ++ x) s /\ is_buf_reader r'.
Proof.
  intros r pre rem c r' A K B E.
  destruct (read_comp_inv _ _ _ _ _ A K B E) as (x1 & x2 & s & -> & F1 & F2 & A' & K').
  exists (x1 ++ x2 ++ cval c), s. rewrite <- !app_assoc. split; auto. split; auto.
  apply bytes_ok_app in B. destruct B as [B1 B]. apply bytes_ok_app in B. destruct B as [B2 _].
  pose proof (tl_form_min _ _ B1 F1). pose proof (tl_form_min _ _ B2 F2). pose proof (nat_len_le_tl_len (nlen (cval c))).
  unfold comp_len. rewrite !nlen_app. lia.
Qed.

Lemma read_name_loop_min : forall fuel r pre rem acc n r', At r pre rem -> is_buf_reader r -> bytes_ok rem ->
  read_name_loop fuel acc r = (Ok n, r') -> exists m, n = acc ++ m /\ (name_len m <= nlen rem)%N.
Proof.
  induction fuel; intros r pre rem acc n r' A K B E; cbn [read_name_loop] in E; [discriminate|].
  destruct (read_comp r) as [[c|[]| |] r1] eqn:E1; try discriminate.
  - destruct (read_comp_min _ _ _ _ _ A K B E1) as (x & s & -> & L & A1 & K1).
    apply bytes_ok_app in B. destruct B as [_ B].
    destruct (IHfuel _ _ _ _ _ _ A1 K1 B E) as (m & -> & L2).
    exists (c :: m). rewrite <- app_assoc. split; auto. rewrite name_len_cons, nlen_app. lia.
  - inversion E; subst. exists []. rewrite app_nil_r. split; auto. unfold name_len. simpl. lia.
Qed.

(** a TLV number that starts [nat_enc L ++ s] and is not longer than [nat_enc L] is smaller than L *)
Lemma nat_enc_not_tl : forall L x y s l, u64_ok L -> (252 < L)%N -> x ++ y = nat_enc L ++ s -> bytes_ok x ->
  tl_form x l -> (nlen x <= nat_len L)%N -> (l < L)%N.
Proof.
  intros L x y s l U H E B F LE. unfold u64_ok, two64 in U. unfold nat_len in LE.
  destruct F as [[-> ?]|[(b & -> & Q & ->)|[(b & -> & Q & ->)|(b & -> & Q & ->)]]]; [lia| | |];
    inversion B as [|? ? ? Bb]; subst; pose proof (unbe_bound _ Bb) as W; unfold nlen in *; simpl length in LE; rewrite Q in *.
  - change (256 ^ N.of_nat 2)%N with 65536%N in W.
    destruct (N.leb_spec L 255), (N.leb_spec L 65535), (N.leb_spec L 4294967295); lia.
  - change (256 ^ N.of_nat 4)%N with 4294967296%N in W.
    destruct (N.leb_spec L 255), (N.leb_spec L 65535), (N.leb_spec L 4294967295); lia.
  - destruct (N.leb_spec L 255), (N.leb_spec L 65535), (N.leb_spec L 4294967295); lia.
Qed.

Lemma app_cut : forall {A} (a b c d : list A), a ++ b = c ++ d -> length b = (length d + (length c - length a))%nat \/ (length c < length a)%nat.
Proof. intros. apply (f_equal (@length A)) in H. rewrite !app_length in H. lia. Qed.

Lemma comp_enc_bytes_ok : forall c, comp_ok c -> bytes_ok (nat_enc (nlen (cval c)) ++ cval c).
Proof.
  intros c [_ H]. apply bytes_ok_app. split; auto. unfold nat_enc.
  destruct (_ <=? 255)%N; [constructor; [unfold byte_ok; apply N.mod_lt; lia|constructor]|].
  destruct (_ <=? 65535)%N; [apply be_ok|]. destruct (_ <=? 4294967295)%N; apply be_ok.
Qed.

Theorem c05_iff : forall c, comp_ok c -> (zlen (comp_enc c) < mem_limit)%Z ->
  ((do b <- comp_bytes c; comp_from_bytes b) = Ok c <-> (nlen (cval c) <= 252)%N).
Proof.
  intros c O M. rewrite comp_bytes_ok. cbn [bind]. split; intros H.
  2: { pose proof (comp_from_bytes_ok c [] O H). rewrite app_nil_r in *. auto. }
  destruct (N.le_gt_cases (nlen (cval c)) 252) as [|G]; auto. exfalso.
  unfold comp_from_bytes, read_comp in H. unfold comp_enc in H, M.
  set (tail := nat_enc (nlen (cval c)) ++ cval c) in *.
  assert (A0 : At (new_buffer_reader (tl_enc (ctyp c) ++ tail)) [] (tl_enc (ctyp c) ++ tail)) by (apply at_new_buf; auto).
  destruct (at_read_tl _ _ _ _ (proj1 O) A0) as (r1 & E1 & A1 & K1). rewrite E1 in H.
  assert (B1 : bytes_ok tail) by (apply comp_enc_bytes_ok; auto).
  destruct (read_tl_total _ _ _ A1 B1) as [(l & x & s & r2 & ET & F2 & E2 & A2 & K2)|(r2 & E2)]; rewrite E2 in H;
    [|destruct tail; discriminate].
  destruct (r_read_buf (to_int l) r2) as [[v| | |] r3] eqn:E3; try discriminate. assert (v = cval c) by (inversion H as [Q]; rewrite <- Q; reflexivity). subst v.
  assert (Bx : bytes_ok x) by (rewrite ET in B1; apply bytes_ok_app in B1; tauto).
  assert (KB : is_buf_reader r2) by (apply K2, K1; exact I).
  destruct (read_buf_consume _ _ _ _ _ _ A2 KB (tl_form_u64 _ _ Bx F2) E3) as (s' & Es & _ & _ & L).
  unfold tail in ET. rewrite Es in ET.
  assert (LE : (nlen x <= nat_len (nlen (cval c)))%N).
  { pose proof (nat_len_enc (nlen (cval c))). apply (f_equal nlen) in ET. rewrite !nlen_app in ET. lia. }
  assert (UL : u64_ok (nlen (cval c))).
  { rewrite L in *. apply (tl_form_u64 _ _ Bx F2). }
  pose proof (nat_enc_not_tl _ _ _ _ _ UL G (eq_sym ET) Bx F2 LE). lia.
Qed.

Lemma name_enc_bytes_ok : forall n, Forall comp_ok n -> bytes_ok (name_enc n).
Proof.
  intros n H. unfold name_enc. induction H; simpl; [constructor|]. apply bytes_ok_app. split; auto.
  unfold comp_enc. apply bytes_ok_app. split; [apply tl_enc_ok|apply comp_enc_bytes_ok; auto].
Qed.

Lemma name_len_short : forall n, (name_len n <= 252)%N -> Forall comp_short n.
Proof.
  induction n; intros; constructor.
  - rewrite name_len_cons in H. unfold comp_len in H. unfold comp_short. lia.
  - apply IHn. rewrite name_len_cons in H. lia.
Qed.

Lemma nat_enc_ok : forall v, bytes_ok (nat_enc v).
Proof.
  intros. unfold nat_enc.
  destruct (_ <=? 255)%N; [constructor; [unfold byte_ok; apply N.mod_lt; lia|constructor]|].
  destruct (_ <=? 65535)%N; [apply be_ok|]. destruct (_ <=? 4294967295)%N; apply be_ok.
Qed.

Theorem c06_iff : forall n, Forall comp_ok n -> (Z.of_N (name_len n) < mem_limit - 100)%Z ->
  ((do b <- name_bytes n; name_from_bytes b) = Ok n <-> (name_len n <= 252)%N).
Proof.
  intros n O M. rewrite name_bytes_ok. cbn [bind]. split; intros H.
  2: { apply name_from_bytes_ok; auto. apply name_len_short; auto. }
  destruct (N.le_gt_cases (name_len n) 252) as [|G]; auto. exfalso.
  unfold name_from_bytes in H.
  set (L := name_len n) in *. set (tail := nat_enc L ++ name_enc n) in *.
  assert (UL : u64_ok L) by (unfold u64_ok, two64, mem_limit in *; lia).
  assert (LB : (zlen (tl_enc TypeName ++ tail) < mem_limit)%Z).
  { unfold tail. pose proof (name_len_enc n). pose proof (nat_len_enc L).
    assert (nat_len L <= 8)%N by (unfold nat_len; destruct (_ <=? _)%N; [lia|]; destruct (_ <=? _)%N; [lia|]; destruct (_ <=? _)%N; lia).
    change (tl_enc TypeName) with [7%N]. rewrite !zlen_app. change (zlen [7%N]) with 1%Z. fold L in H0. unfold zlen, nlen, mem_limit in *. lia. }
  assert (A0 : At (new_buffer_reader (tl_enc TypeName ++ tail)) [] (tl_enc TypeName ++ tail)) by (apply at_new_buf; auto).
  assert (UT : u64_ok TypeName) by (unfold u64_ok, two64, TypeName; lia).
  destruct (at_read_tl _ _ _ _ UT A0) as (r1 & E1 & A1 & K1). rewrite E1 in H.
  change (TypeName =? TypeName)%N with true in H. cbv iota in H.
  assert (B1 : bytes_ok tail).
  { unfold tail. apply bytes_ok_app. split; [apply nat_enc_ok|apply name_enc_bytes_ok; auto]. }
  destruct (read_tl_total _ _ _ A1 B1) as [(l & x & s & r2 & ET & F2 & E2 & A2 & K2)|(r2 & E2)]; rewrite E2 in H;
    [|destruct tail; discriminate].
  assert (Bx : bytes_ok x /\ bytes_ok s) by (rewrite ET in B1; apply bytes_ok_app in B1; tauto).
  assert (KB : is_buf_reader r2) by (apply K2, K1; exact I).
  destruct (r_pos r2) as [st| | |] eqn:EP; try discriminate. cbn [bind] in H.
  destruct (read_name r2) as [[n'| | |] r3] eqn:EN; try discriminate.
  destruct (r_length r3) as [en| | |] eqn:EL; try discriminate. cbn [bind] in H.
  destruct (Z.eqb_spec (to_int l) (en - st)) as [EQ|]; [|discriminate]. inversion H; subst n'.
  unfold read_name in EN. destruct (read_name_loop_min _ _ _ _ _ _ _ A2 KB (proj2 Bx) EN) as (m & Em & LM).
  simpl in Em. subst m. fold L in LM.
  assert (LE : (nlen x <= nat_len L)%N).
  { pose proof (nat_len_enc L). pose proof (name_len_enc n). apply (f_equal nlen) in ET. unfold tail in ET.
    rewrite !nlen_app in ET. fold L in H1. lia. }
  unfold tail in ET.
  pose proof (nat_enc_not_tl _ _ _ _ _ UL G (eq_sym ET) (proj1 Bx) F2 LE) as LT.
  assert (LEN : (en - st = zlen s)%Z).
  { assert (KB2 : exists b p q, r2 = RBuf b p /\ r3 = RBuf b q).
    { destruct r2 as [b p|]; [|destruct KB]. 
      assert (X : forall fuel acc p0 o r9, read_name_loop fuel acc (RBuf b p0) = (o, r9) -> exists q, r9 = RBuf b q).
      { clear. induction fuel; intros acc p0 o r9 Q; cbn [read_name_loop] in Q; [inversion Q; eauto|].
        assert (Y : exists q, snd (read_comp (RBuf b p0)) = RBuf b q).
        { assert (T1 : forall p, exists q, snd (r_read_byte (RBuf b p)) = RBuf b q).
          { intros p. cbn [r_read_byte]. destruct (_ <=? _)%Z; [simpl; eauto|]. destruct (index b p); simpl; eauto. }
          assert (TL : forall k v p, exists q, snd (read_tl_loop k v (RBuf b p)) = RBuf b q).
          { intros k. induction k as [|k IHk]; intros v p; cbn [read_tl_loop]; [cbn [snd]; eauto|]. destruct (T1 p) as (q & T).
            destruct (r_read_byte (RBuf b p)) as [o1 r0]. cbn [snd] in T. subst r0. destruct o1 as [y|e| |]; [apply IHk|destruct e| |]; cbn [snd]; eauto. }
          assert (T2 : forall p, exists q, snd (read_tl (RBuf b p)) = RBuf b q).
          { intros p. unfold read_tl. destruct (T1 p) as (q & T).
            destruct (r_read_byte (RBuf b p)) as [[y| | |] r0]; simpl in T; subst r0; cbn [snd]; eauto.
            destruct (_ <=? _)%N; [cbn [snd]; eauto|]. destruct (_ =? _)%N; [eauto|]. destruct (_ =? _)%N; eauto. }
          assert (T3 : forall l p, exists q, snd (r_read_buf l (RBuf b p)) = RBuf b q).
          { intros l p. cbn [r_read_buf]. destruct (_ <? _)%Z; [cbn [snd]; eauto|]. destruct (slice _ _ _); cbn [snd]; eauto. }
          unfold read_comp. destruct (T2 p0) as (q & T).
          destruct (read_tl (RBuf b p0)) as [[y| | |] r0]; simpl in T; subst r0; cbn [snd]; eauto.
          destruct (T2 q) as (q2 & T').
          destruct (read_tl (RBuf b q)) as [[y2|[]| |] r0]; simpl in T'; subst r0; cbn [snd]; eauto.
          destruct (T3 (to_int y2) q2) as (q3 & T'').
          destruct (r_read_buf (to_int y2) (RBuf b q2)) as [[y3| | |] r0]; simpl in T''; subst r0; cbn [snd]; eauto. }
        destruct Y as (q & Y). destruct (read_comp (RBuf b p0)) as [[c|[]| |] r0]; simpl in Y; subst r0;
          try (inversion Q; subst; eauto; fail). }
      destruct (X _ _ _ _ _ EN) as (q & ->). eauto. }
    destruct KB2 as (b & p & q & -> & ->). destruct A2 as [_ [Eb Ep]].
    cbn [r_pos r_length] in EP, EL. inversion EP; inversion EL; subst. rewrite zlen_app. lia. }
  assert (TI : to_int l = Z.of_N l).
  { apply to_int_small. unfold two63, mem_limit in *. lia. }
  unfold zlen, nlen in *. lia.
Qed.

(** ** C07: independent reading of the order *)
(** lexicographic order of byte strings *)
Definition bytes_lt (a b : buf) : Prop :=
  (exists c s, b = a ++ c :: s) \/
  (exists p x y s t, a = p ++ x :: s /\ b = p ++ y :: t /\ (x < y)%N).
(** canonical order of components: by type, then length, then bytes *)
Definition comp_lt (a b : comp) : Prop :=
  (ctyp a < ctyp b)%N \/
  (ctyp a = ctyp b /\ ((length (cval a) < length (cval b))%nat \/
     (length (cval a) = length (cval b) /\ bytes_lt (cval a) (cval b)))).
(** canonical order of names: first differing component decides, prefixes first *)
Definition name_lt (n m : name) : Prop :=
  (exists c s, m = n ++ c :: s) \/
  (exists p x y s t, n = p ++ x :: s /\ m = p ++ y :: t /\ comp_lt x y).

Lemma bytes_compare_lt : forall a b, bytes_compare a b = (-1)%Z <-> bytes_lt a b.
Proof.
  induction a as [|x a IH]; destruct b as [|y b]; simpl.
  - split; [discriminate|]. intros [(c & s & E)|(p & x & y & s & t & E & _)]; [discriminate|destruct p; discriminate].
  - split; auto. left. exists y, b. auto.
  - split; [discriminate|]. intros [(c & s & E)|(p & z & y & s & t & _ & E & _)]; [discriminate|destruct p; discriminate].
  - destruct (N.ltb_spec x y); [|destruct (N.ltb_spec y x)].
    + split; auto. intros _. right. exists [], x, y, a, b. auto.
    + split; [discriminate|]. intros [(c & s & E)|(p & u & v & s & t & E1 & E2 & L)].
      * inversion E; lia.
      * destruct p; inversion E1; inversion E2; subst; lia.
    + assert (x = y) by lia. subst y. rewrite IH. split.
      * intros [(c & s & ->)|(p & u & v & s & t & -> & -> & L)]; [left; exists c, s; auto|].
        right. exists (x :: p), u, v, s, t. auto.
      * intros [(c & s & E)|(p & u & v & s & t & E1 & E2 & L)].
        { inversion E; subst. left; eauto. }
        destruct p; inversion E1; inversion E2; subst; [lia|]. right. eauto 10.
Qed.

Lemma comp_compare_lt' : forall a b, comp_compare a b = (-1)%Z <-> comp_lt a b.
Proof.
  intros. rewrite comp_compare_lt. unfold comp_lt, nlen. rewrite bytes_compare_lt.
  assert ((N.of_nat (length (cval a)) < N.of_nat (length (cval b)))%N <-> (length (cval a) < length (cval b))%nat) as -> by lia.
  assert (N.of_nat (length (cval a)) = N.of_nat (length (cval b)) <-> length (cval a) = length (cval b)) as -> by lia.
  tauto.
Qed.

Lemma comp_lt_irrefl : forall a, ~ comp_lt a a.
Proof.
  intros a H. apply comp_compare_lt' in H. rewrite (proj2 (comp_compare_eq a a) eq_refl) in H. discriminate.
Qed.

Lemma name_compare_lt : forall n m, name_compare n m = (-1)%Z <-> name_lt n m.
Proof.
  induction n as [|x a IH]; destruct m as [|y b]; simpl.
  - split; [discriminate|]. intros [(c & s & E)|(p & x & y & s & t & E & _)]; [discriminate|destruct p; discriminate].
  - split; auto. left. exists y, b. auto.
  - split; [discriminate|]. intros [(c & s & E)|(p & z & y & s & t & _ & E & _)]; [discriminate|destruct p; discriminate].
  - destruct (Z.eqb_spec (comp_compare x y) 0) as [E0|E0].
    + apply comp_compare_eq in E0. subst y. rewrite IH. split.
      * intros [(c & s & ->)|(p & u & v & s & t & -> & -> & L)]; [left; exists c, s; auto|].
        right. exists (x :: p), u, v, s, t. auto.
      * intros [(c & s & E)|(p & u & v & s & t & E1 & E2 & L)].
        { inversion E; subst. left; eauto. }
        destruct p; inversion E1; inversion E2; subst; [exfalso; eapply comp_lt_irrefl; eauto|]. right. eauto 10.
    + rewrite comp_compare_lt'. split.
      * intros L. right. exists [], x, y, a, b. auto.
      * intros [(c & s & E)|(p & u & v & s & t & E1 & E2 & L)].
        { inversion E; subst. exfalso. apply E0, comp_compare_eq. auto. }
        destruct p; inversion E1; inversion E2; subst; auto.
        exfalso. apply E0, comp_compare_eq. auto.
Qed.

Theorem c07_total_order :
  (forall n m, name_compare n m = (-1)%Z \/ name_compare n m = 0%Z \/ name_compare n m = 1%Z) /\
  (forall n m, name_compare n m = 0%Z <-> n = m) /\
  (forall n m, name_compare m n = (- name_compare n m)%Z) /\
  (forall n m k, (name_compare n m <= 0 -> name_compare m k <= 0 -> name_compare n k <= 0)%Z).
Proof.
  split; [exact name_compare_cases|]. split; [exact name_compare_eq|]. split; [exact name_compare_anti|].
  intros n m k H1 H2.
  destruct (name_compare_cases n m) as [E|[E|E]]; [| |lia];
  destruct (name_compare_cases m k) as [F|[F|F]]; try lia.
  - rewrite (name_compare_trans _ _ _ E F). lia.
  - apply name_compare_eq in F. subst. lia.
  - apply name_compare_eq in E. subst. lia.
  - apply name_compare_eq in E. subst. lia.
Qed.

Theorem c07_comp_total_order :
  (forall n m, comp_compare n m = (-1)%Z \/ comp_compare n m = 0%Z \/ comp_compare n m = 1%Z) /\
  (forall n m, comp_compare n m = 0%Z <-> n = m) /\
  (forall n m, comp_compare m n = (- comp_compare n m)%Z) /\
  (forall n m k, (comp_compare n m <= 0 -> comp_compare m k <= 0 -> comp_compare n k <= 0)%Z).
Proof.
  split; [exact comp_compare_cases|]. split; [exact comp_compare_eq|]. split; [exact comp_compare_anti|].
  intros n m k H1 H2.
  destruct (comp_compare_cases n m) as [E|[E|E]]; [| |lia];
  destruct (comp_compare_cases m k) as [F|[F|F]]; try lia.
  - rewrite (comp_compare_trans _ _ _ E F). lia.
  - apply comp_compare_eq in F. subst. lia.
  - apply comp_compare_eq in E. subst. lia.
  - apply comp_compare_eq in E. subst. lia.
Qed.

Theorem c07_prefix_smaller : forall n c s, name_compare n (n ++ c :: s) = (-1)%Z.
Proof. intros. apply name_compare_lt. left. eauto. Qed.

(** longer components: the order of the encodings differs *)
Theorem c07_byte_order_refuted : exists n m, Forall comp_ok n /\ Forall comp_ok m /\
  name_compare n m = (-1)%Z /\ bytes_compare (name_enc n) (name_enc m) = 1%Z.
Proof.
  exists [mkComp 8 (repeat 0%N 255)], [mkComp 8 (repeat 0%N 256)].
  assert (forall k, Forall comp_ok [mkComp 8 (repeat 0%N k)]).
  { intros k. constructor; [|constructor]. split; [unfold u64_ok, two64; simpl; lia|]. simpl.
    apply Forall_forall. intros z Hz. apply repeat_spec in Hz. subst. unfold byte_ok. lia. }
  split; [exact (H _)|]. split; [exact (H _)|]. split; vm_compute; reflexivity.
Qed.

Theorem c08_partial_order :
  (forall n, is_prefix n n = true) /\
  (forall n m k, is_prefix n m = true -> is_prefix m k = true -> is_prefix n k = true) /\
  (forall n m, (is_prefix n m = true /\ is_prefix m n = true) <-> name_equal n m = true).
Proof.
  split; [|split].
  - intros. apply is_prefix_iff. exists []. rewrite app_nil_r. auto.
  - intros n m k. rewrite !is_prefix_iff. intros [s ->] [t ->]. exists (s ++ t). apply app_assoc_reverse.
  - intros. rewrite !is_prefix_iff, name_equal_iff. split.
    + intros [[s ->] [t E]]. rewrite <- app_assoc in E. rewrite <- app_nil_r in E at 1.
      apply app_inv_head in E. symmetry in E. apply app_eq_nil in E. destruct E. subst. rewrite app_nil_r; auto.
    + intros ->. split; exists []; rewrite app_nil_r; auto.
Qed.

Theorem c13_refuted : forall (h : buf -> N), exists n1 n2, Forall comp_ok n1 /\ Forall comp_ok n2 /\ n1 <> n2 /\
  name_hash_input n1 = name_hash_input n2 /\ name_hash h n1 = name_hash h n2.
Proof.
  intros h. exists [mkComp 8 ([1] ++ be 8 8 ++ [2])%N], [mkComp 8 [1]; mkComp 8 [2]]%N.
  split; [|split; [|split; [discriminate|split; reflexivity]]].
  - repeat constructor; simpl; unfold u64_ok, two64, byte_ok; try lia.
  - repeat constructor; simpl; unfold u64_ok, two64, byte_ok; try lia.
Qed.

Lemma prefix_hash_loop_nth : forall h n fed k, (k < length n)%nat ->
  nth_error (prefix_hash_loop h fed n) k = Some (h (fed ++ name_hash_input (firstn (S k) n))).
Proof.
  induction n as [|c n IH]; intros fed k H; simpl in H; [lia|]. cbn [prefix_hash_loop]. destruct k as [|k].
  - simpl. unfold name_hash_input. simpl. rewrite app_nil_r. auto.
  - cbn [nth_error]. rewrite IH by lia. unfold name_hash_input. cbn [firstn map concat]. rewrite <- app_assoc. auto.
Qed.

Theorem c13_prefix_hashes : forall h n k, (k <= length n)%nat ->
  nth_error (name_prefix_hash h n) k = Some (name_hash h (firstn k n)).
Proof.
  intros h n k H. unfold name_prefix_hash. destruct k as [|k]; [reflexivity|].
  cbn [nth_error]. rewrite prefix_hash_loop_nth by lia. reflexivity.
Qed.

Lemma prefix_hash_length : forall h n, length (name_prefix_hash h n) = S (length n).
Proof.
  intros. unfold name_prefix_hash. simpl. f_equal. generalize (@nil N). induction n; intros; simpl; auto.
Qed.
