From Verif Require Import Base BaseProofs PrimModel PrimProofs ReaderModel ReaderSpec ReaderProofs ReaderProofs2 ReaderProofs3 ReaderProofs4 NameModel.

Definition comp_ok (c : comp) : Prop := u64_ok (ctyp c) /\ bytes_ok (cval c).
(** short enough for the one-byte length that both formats share *)
Definition comp_short (c : comp) : Prop := (nlen (cval c) <= 252)%N.

Lemma comp_len_enc : forall c, nlen (comp_enc c) = comp_len c.
Proof.
  intros. unfold comp_enc, comp_len. rewrite !nlen_app, tl_len_enc, nat_len_enc. lia.
Qed.

Lemma fold_len : forall n a, fold_left (fun a c => (a + comp_len c)%N) n a = (a + fold_left (fun a c => (a + comp_len c)%N) n 0)%N.
Proof.
  induction n; intros; simpl; [lia|]. rewrite IHn. rewrite (IHn (0 + comp_len a)%N). lia.
Qed.

Lemma name_len_cons : forall c n, name_len (c :: n) = (comp_len c + name_len n)%N.
Proof. intros. unfold name_len. simpl. rewrite fold_len. lia. Qed.

Lemma name_len_enc : forall n, nlen (name_enc n) = name_len n.
Proof.
  induction n; [reflexivity|]. rewrite name_len_cons. unfold name_enc in *. simpl.
  rewrite nlen_app, IHn, comp_len_enc. reflexivity.
Qed.

Lemma firstn_app_exact : forall {A} (a b : list A) k, k = length a -> firstn k (a ++ b) = a.
Proof. intros; subst. rewrite firstn_app, firstn_all, Nat.sub_diag. simpl. apply app_nil_r. Qed.

Lemma skipn_app_exact : forall {A} (a b : list A) k, k = length a -> skipn k (a ++ b) = b.
Proof. intros; subst. rewrite skipn_app, skipn_all, Nat.sub_diag. reflexivity. Qed.

Lemma slice_tail' : forall {A} (a b : list A) k, k = zlen a -> slice (a ++ b) k (zlen (a ++ b)) = Ok b.
Proof. intros; subst. apply slice_tail. Qed.

Lemma skipn_add : forall {A} (l : list A) a b, skipn (a + b) l = skipn a (skipn b l).
Proof.
  intros A l a b. revert l. induction b; intros; [rewrite Nat.add_0_r; reflexivity|].
  destruct l; [rewrite !skipn_nil; reflexivity|]. rewrite <- plus_n_Sm. simpl. apply IHb.
Qed.

Lemma comp_encode_into_ok : forall c b, (comp_len c <= nlen b)%N ->
  comp_encode_into c b = Ok (comp_enc c ++ skipn (N.to_nat (comp_len c)) b, Z.of_N (comp_len c)).
Proof.
  intros c b H. unfold comp_len in H. pose proof (tl_len_enc (ctyp c)) as L1.
  pose proof (nat_len_enc (nlen (cval c))) as L2.
  destruct (split_at b (length (tl_enc (ctyp c)))) as (x1 & r1 & -> & E1); [unfold nlen in *; lia|].
  destruct (split_at r1 (length (nat_enc (nlen (cval c))))) as (x2 & r2 & -> & E2).
  { unfold nlen in *; rewrite app_length in H; lia. }
  destruct (split_at r2 (length (cval c))) as (x3 & r3 & -> & E3).
  { unfold nlen in *; rewrite !app_length in H; lia. }
  unfold comp_encode_into.
  rewrite put_prefix_app by (rewrite app_length; lia). cbn [bind].
  rewrite skipn_app_exact by auto.
  rewrite slice_tail' by (unfold zlen, nlen in *; lia). cbn [bind].
  rewrite put_prefix_app by (rewrite app_length; lia). cbn [bind].
  rewrite skipn_app_exact by auto.
  rewrite slice_tail' by (unfold zlen, nlen in *; lia). cbn [bind].
  rewrite !firstn_app_exact by (unfold nlen in *; lia).
  unfold copy_into. rewrite firstn_all2 by (rewrite app_length; lia).
  rewrite skipn_app_exact by auto.
  unfold comp_enc. rewrite <- !app_assoc. f_equal. f_equal.
  - rewrite !app_assoc. rewrite skipn_app_exact; auto.
    unfold comp_len, nlen in *. rewrite !app_length. lia.
  - unfold comp_len, zlen, nlen in *. lia.
Qed.

Lemma comp_bytes_ok : forall c, comp_bytes c = Ok (comp_enc c).
Proof.
  intros. unfold comp_bytes. rewrite comp_encode_into_ok.
  - cbn [bind fst]. rewrite skipn_all2, app_nil_r; [reflexivity|]. rewrite repeat_length. lia.
  - unfold nlen. rewrite repeat_length. lia.
Qed.

Lemma name_encode_into_ok : forall n b, (name_len n <= nlen b)%N ->
  name_encode_into n b = Ok (name_enc n ++ skipn (N.to_nat (name_len n)) b, Z.of_N (name_len n)).
Proof.
  induction n; intros b H.
  - reflexivity.
  - rewrite name_len_cons in H. cbn [name_encode_into].
    rewrite comp_encode_into_ok by lia. cbn [bind].
    assert (LE := comp_len_enc a).
    rewrite slice_tail' by (unfold zlen, nlen in *; lia). cbn [bind].
    rewrite IHn. 2:{ unfold nlen in *. rewrite skipn_length. lia. }
    cbn [bind]. rewrite firstn_app_exact by (unfold nlen in *; lia).
    unfold name_enc. simpl. rewrite <- app_assoc. f_equal. f_equal.
    + f_equal. f_equal. rewrite name_len_cons.
      replace (N.to_nat (comp_len a + name_len n)) with (N.to_nat (name_len n) + N.to_nat (comp_len a))%nat by lia.
      rewrite skipn_add. reflexivity.
    + rewrite name_len_cons. lia.
Qed.

Lemma name_bytes_ok : forall n,
  name_bytes n = Ok (tl_enc TypeName ++ nat_enc (name_len n) ++ name_enc n).
Proof.
  intros. unfold name_bytes. set (l := name_len n).
  assert (L1 := tl_len_enc TypeName). assert (L2 := nat_len_enc l).
  set (b := repeat 0%N (N.to_nat (tl_len TypeName + nat_len l + l))).
  assert (HB : length b = N.to_nat (tl_len TypeName + nat_len l + l)) by apply repeat_length.
  destruct (split_at b (length (tl_enc TypeName))) as (x1 & r1 & -> & E1); [unfold nlen in *; lia|].
  destruct (split_at r1 (length (nat_enc l))) as (x2 & r2 & -> & E2).
  { unfold nlen in *; rewrite !app_length in HB; lia. }
  rewrite put_prefix_app by (rewrite app_length; lia). cbn [bind].
  rewrite skipn_app_exact by auto.
  rewrite slice_tail' by (unfold zlen, nlen in *; lia). cbn [bind].
  rewrite put_prefix_app by (rewrite app_length; lia). cbn [bind].
  rewrite skipn_app_exact by auto.
  rewrite slice_tail' by (unfold zlen, nlen in *; lia). cbn [bind].
  rewrite !app_length in HB.
  rewrite name_encode_into_ok by (unfold nlen in *; lia). cbn [bind fst].
  rewrite !firstn_app_exact by (unfold nlen in *; lia).
  rewrite skipn_all2, app_nil_r; [reflexivity|]. unfold nlen, l in *. lia.
Qed.

Lemma nat_tl_short : forall v, (v <= 252)%N -> nat_enc v = tl_enc v.
Proof.
  intros. unfold nat_enc, tl_enc.
  destruct (N.leb_spec v 255), (N.leb_spec v 252); try lia. reflexivity.
Qed.

Lemma at_read_comp : forall r pre c s, comp_ok c -> comp_short c -> At r pre (comp_enc c ++ s) ->
  (is_buf_reader r \/ cval c ++ s <> []) ->
  exists r', read_comp r = (Ok c, r') /\ At r' (pre ++ comp_enc c) s /\ same_kind r r'.
Proof.
  intros r pre c s [HT HV] HS A K. unfold comp_short in HS. unfold comp_enc in *.
  rewrite nat_tl_short in * by auto. rewrite <- !app_assoc in A. unfold read_comp.
  destruct (at_read_tl (ctyp c) r pre _ HT A) as (r1 & E1 & A1 & K1). rewrite E1.
  assert (HL : u64_ok (nlen (cval c))) by (unfold u64_ok, two64; lia).
  destruct (at_read_tl (nlen (cval c)) r1 _ _ HL A1) as (r2 & E2 & A2 & K2). rewrite E2.
  rewrite to_int_small by (unfold two63; lia).
  replace (Z.of_N (nlen (cval c))) with (zlen (cval c)) by (unfold zlen, nlen; lia).
  destruct (at_read_buf r2 _ (cval c) s A2) as (r3 & E3 & A3 & K3).
  { destruct K; auto. left. tauto. }
  { unfold nlen in HS. unfold max_alloc, zlen. lia. }
  rewrite E3. destruct c; simpl in *. exists r3. split; auto.
  rewrite !app_assoc in *. split; auto. unfold same_kind in *. tauto.
Qed.

Lemma read_comp_eof : forall r pre, At r pre [] -> exists r', read_comp r = (Err EEOF, r').
Proof. intros. unfold read_comp. destruct (at_read_tl_empty _ _ H) as (r' & ->). eauto. Qed.

Lemma read_comp_at_end : forall r pre, At r pre [] ->
  exists r', read_comp r = (Err EEOF, r') /\ At r' pre [] /\ same_kind r r'.
Proof.
  intros. unfold read_comp, read_tl. destruct (at_read_byte_eof _ _ H) as (r' & -> & A). eauto.
Qed.

Lemma comp_enc_min : forall c, (2 <= length (comp_enc c))%nat.
Proof.
  intros. pose proof (comp_len_enc c). unfold comp_len, nlen in H.
  pose proof (tl_len_range (ctyp c)). unfold nat_len in H.
  destruct (N.leb_spec (N.of_nat (length (cval c))) 255), (N.leb_spec (N.of_nat (length (cval c))) 65535),
   (N.leb_spec (N.of_nat (length (cval c))) 4294967295); lia.
Qed.

Lemma at_read_name_loop : forall n fuel r pre acc, Forall comp_ok n -> Forall comp_short n ->
  At r pre (name_enc n) -> is_buf_reader r -> (length n < fuel)%nat ->
  exists r', read_name_loop fuel acc r = (Ok (acc ++ n), r') /\ At r' (pre ++ name_enc n) [] /\ is_buf_reader r'.
Proof.
  induction n; intros fuel r pre acc HO HS A K F; (destruct fuel as [|fuel]; [simpl in F; lia|]); cbn [read_name_loop].
  - destruct (read_comp_at_end _ _ A) as (r' & E & A' & S). rewrite E.
    exists r'. rewrite app_nil_r. split; auto. change (name_enc []) with (@nil N). rewrite ?app_nil_r. split; auto. apply S; auto.
  - inversion HO; inversion HS; subst. unfold name_enc in A. simpl in A. fold (name_enc n) in A.
    destruct (at_read_comp r pre a (name_enc n)) as (r1 & E1 & A1 & K1); auto.
    rewrite E1. destruct (IHn fuel r1 (pre ++ comp_enc a) (acc ++ [a])) as (r2 & E2 & A2 & K2); auto.
    { apply K1; auto. } { simpl in F; lia. }
    exists r2. rewrite E2. rewrite <- !app_assoc in *. split; auto.
Qed.

Lemma name_enc_min : forall n, (2 * length n <= length (name_enc n))%nat.
Proof.
  induction n; [simpl; lia|]. unfold name_enc in *. simpl. rewrite app_length. pose proof (comp_enc_min a). lia.
Qed.

Lemma at_read_name : forall n r pre, Forall comp_ok n -> Forall comp_short n ->
  At r pre (name_enc n) -> is_buf_reader r ->
  exists r', read_name r = (Ok n, r') /\ At r' (pre ++ name_enc n) [] /\ is_buf_reader r'.
Proof.
  intros. unfold read_name.
  destruct (at_read_name_loop n (reader_fuel r) r pre [] H H0 H1 H2) as (r' & E & A & K).
  { apply at_fuel in H1. pose proof (name_enc_min n). lia. }
  eauto.
Qed.

Lemma comp_from_bytes_ok : forall c s, comp_ok c -> comp_short c ->
  (zlen (comp_enc c ++ s) < mem_limit)%Z -> comp_from_bytes (comp_enc c ++ s) = Ok c.
Proof.
  intros. unfold comp_from_bytes.
  destruct (at_read_comp (new_buffer_reader (comp_enc c ++ s)) [] c s) as (r' & E & _); auto.
  - apply at_new_buf; auto.
  - left; exact I.
  - rewrite E. reflexivity.
Qed.

Lemma parse_comp_ok : forall c s, comp_ok c -> comp_short c ->
  parse_comp (comp_enc c ++ s) = Ok (c, Z.of_N (comp_len c)).
Proof.
  intros c s [HT HV] HS. unfold comp_short in HS. unfold parse_comp, comp_enc.
  rewrite nat_tl_short by auto. rewrite <- !app_assoc.
  rewrite parse_tl_enc by auto. cbn [bind].
  rewrite slice_tail' by (rewrite tl_enc_zlen; auto). cbn [bind].
  assert (HL : u64_ok (nlen (cval c))) by (unfold u64_ok, two64; lia).
  rewrite parse_tl_enc by auto. cbn [bind].
  rewrite to_int_small by (unfold two63; lia).
  pose proof (tl_len_range (ctyp c)). pose proof (tl_len_range (nlen (cval c))).
  rewrite wrap64_id by (unfold Ztwo63; lia).
  rewrite app_assoc.
  replace (Z.of_N (tl_len (ctyp c)) + Z.of_N (tl_len (nlen (cval c))))%Z with (zlen (tl_enc (ctyp c) ++ tl_enc (nlen (cval c))))
    by (rewrite zlen_app, !tl_enc_zlen; auto).
  replace (Z.of_N (nlen (cval c))) with (zlen (cval c)) by (unfold zlen, nlen; lia).
  rewrite slice_mid. cbn [bind]. destruct c as [t v]; simpl in *. f_equal. f_equal.
  unfold comp_len. rewrite zlen_app, !tl_enc_zlen. cbn [ctyp cval].
  replace (nat_len (nlen v)) with (tl_len (nlen v)).
  2:{ unfold tl_len, nat_len. destruct (N.leb_spec (nlen v) 252), (N.leb_spec (nlen v) 255); try lia. }
  unfold zlen, nlen. lia.
Qed.

Lemma name_from_bytes_ok : forall n, Forall comp_ok n -> Forall comp_short n -> (name_len n <= 252)%N ->
  name_from_bytes (tl_enc TypeName ++ nat_enc (name_len n) ++ name_enc n) = Ok n.
Proof.
  intros n HO HS HL. rewrite nat_tl_short by auto. unfold name_from_bytes.
  set (b := tl_enc TypeName ++ tl_enc (name_len n) ++ name_enc n).
  assert (HLb : (zlen b < mem_limit)%Z).
  { unfold b. rewrite !zlen_app, !tl_enc_zlen. pose proof (name_len_enc n).
    pose proof (tl_len_range TypeName). pose proof (tl_len_range (name_len n)).
    unfold nlen, zlen, mem_limit in *. lia. }
  assert (A0 := at_new_buf b HLb).
  destruct (at_read_tl TypeName _ _ _ ltac:(vm_compute; reflexivity) A0) as (r1 & E1 & A1 & K1).
  rewrite E1. change (TypeName =? TypeName)%N with true. cbv iota.
  destruct (at_read_tl (name_len n) _ _ _ ltac:(unfold u64_ok, two64; lia) A1) as (r2 & E2 & A2 & K2).
  rewrite E2. rewrite (at_pos _ _ _ A2). cbn [bind].
  destruct (at_read_name n r2 _ HO HS A2) as (r3 & E3 & A3 & K3).
  { apply K2, K1. exact I. }
  rewrite E3. rewrite (at_length _ _ _ A3). cbn [bind].
  rewrite to_int_small by (unfold two63; lia).
  match goal with |- (if ?c then _ else _) = _ => assert (QQ : c = true) end.
  { apply Z.eqb_eq. rewrite ?app_nil_r, !zlen_app. pose proof (name_len_enc n). unfold zlen, nlen in *. lia. }
  rewrite QQ. reflexivity.
Qed.

Lemma name_enc_inj : forall n m, Forall comp_ok n -> Forall comp_short n -> Forall comp_ok m -> Forall comp_short m ->
  name_enc n = name_enc m -> n = m.
Proof.
  induction n as [|a n IH]; intros m O1 S1 O2 S2 E.
  - destruct m as [|b m]; auto. pose proof (comp_enc_min b). unfold name_enc in E. simpl in E.
    destruct (comp_enc b); simpl in *; [lia|discriminate].
  - destruct m as [|b m].
    { pose proof (comp_enc_min a). unfold name_enc in E. simpl in E. destruct (comp_enc a); simpl in *; [lia|discriminate]. }
    inversion O1; inversion S1; inversion O2; inversion S2; subst.
    unfold name_enc in E. simpl in E. fold (name_enc n) in E. fold (name_enc m) in E.
    pose proof (parse_comp_ok a (name_enc n)) as P1. rewrite E in P1. rewrite parse_comp_ok in P1 by auto.
    specialize (P1 H1 H5). inversion P1; subst. f_equal. apply IH; auto. eapply app_inv_head; eauto.
Qed.
