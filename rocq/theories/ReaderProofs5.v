From Verif Require Import Base BaseProofs PrimModel PrimProofs ReaderModel ReaderSpec ReaderScript ReaderProofs ReaderProofs2 ReaderProofs3 ReaderProofs4.

Definition crel (x : reader * Z) (c : cursor) : Prop :=
  exists p0, At (fst x) (p0 ++ fst c) (snd c) /\ snd x = zlen p0.

Definition srel : rstack -> list cursor -> Prop := Forall2 crel.

Lemma take_split : forall (rem : buf) n, (0 <= n <= zlen rem)%Z ->
  rem = firstn (Z.to_nat n) rem ++ skipn (Z.to_nat n) rem /\ zlen (firstn (Z.to_nat n) rem) = n.
Proof.
  intros. split. symmetry; apply firstn_skipn. unfold zlen in *. rewrite firstn_length. lia.
Qed.

Lemma at_unread : forall r p0 pre x rem, At r (p0 ++ pre ++ [x]) rem ->
  exists r', r_unread_byte r = (Ok tt, r') /\ At r' (p0 ++ pre) (x :: rem).
Proof.
  intros r p0 pre x rem [HL H]. rewrite !app_assoc in *. set (q := p0 ++ pre) in *.
  assert (HL' : (zlen (q ++ x :: rem) < mem_limit)%Z) by (rewrite <- app_assoc in HL; auto).
  destruct r as [b pos|w seg pos acc].
  - destruct H; subst. simpl. zl. rewrite zlen_app, zlen_cons. zl.
    destruct (Z.eqb_spec (zlen q + (1 + zlen (@nil N))) 0); [lia|].
    eexists. split; [reflexivity|]. split; auto. rewrite <- app_assoc. split; auto.
    change (zlen (@nil N)) with 0%Z. lia.
  - destruct H as (NE & Ea & [Hi|Hi]).
    + destruct Hi as (w1 & b1 & b2 & w2 & Ew & Es & Ep & Epre & Erem). subst. simpl.
      destruct (Z.eqb_spec (zlen b1) 0) as [Q|Q].
      * assert (b1 = []). { destruct b1; auto. rewrite zlen_cons in Q. zl. lia. } subst b1.
        rewrite app_nil_r in Epre. simpl app in *.
        destruct (exists_last (l := w1)) as (w0 & bl & ->). { intros C; subst. simpl in Epre. destruct q; discriminate. }
        rewrite app_length. simpl length. rewrite Nat.add_1_r. cbv iota.
        rewrite <- app_assoc. simpl app. unfold seg_at. rewrite nth_error_mid.
        eexists. split; [reflexivity|].
        rewrite concat_app in Epre. simpl in Epre. rewrite app_nil_r in Epre.
        assert (bl <> []).
        { rewrite <- app_assoc in NE. intros C; subst. destruct w0. { simpl in Epre. destruct q; discriminate. }
          unfold nonempty_segs in NE. simpl in NE. apply Forall_app in NE. destruct NE as [_ NE]. inv NE. congruence. }
        destruct (exists_last H) as (bl' & z & ->).
        rewrite app_assoc in Epre. apply app_inj_tail in Epre. destruct Epre as [Eq ->].
        split; auto. split; [rewrite <- app_assoc in NE; auto|].
        split; [rewrite <- ?app_assoc; auto|]. left.
        exists w0, bl', [z], (b2 :: w2). rewrite Eq. simpl. repeat split; auto.
        rewrite zlen_app. change (zlen [z]) with 1%Z. lia.
      * destruct b1 as [|] using rev_ind; [change (zlen (@nil N)) with 0%Z in Q; lia|]. clear IHb1.
        eexists. split; [reflexivity|].
        rewrite app_assoc in Epre. apply app_inj_tail in Epre. destruct Epre as [Eq ->].
        split; auto. split; auto. split; auto. left.
        exists w1, b1, (x0 :: b2), w2. rewrite <- app_assoc. rewrite Eq. simpl. repeat split; auto.
        rewrite zlen_app. change (zlen [x0]) with 1%Z. lia.
    + destruct Hi as (? & ? & Epre & ?). subst. simpl.
      destruct (exists_last (l := w)) as (w0 & bl & ->). { intros C; subst. simpl in Epre. destruct q; discriminate. }
      rewrite app_length. simpl length. rewrite Nat.add_1_r. cbv iota.
      unfold seg_at. rewrite nth_error_mid.
      eexists. split; [reflexivity|].
      rewrite concat_app in Epre. simpl in Epre. rewrite app_nil_r in Epre.
      assert (bl <> []).
      { intros C; subst. destruct w0. { simpl in Epre. destruct q; discriminate. }
        unfold nonempty_segs in NE. simpl in NE. apply Forall_app in NE. destruct NE as [_ NE]. inv NE. congruence. }
      destruct (exists_last H) as (bl' & z & ->).
      rewrite app_assoc in Epre. apply app_inj_tail in Epre. destruct Epre as [Eq ->].
      split; auto. split; auto. split; auto. left.
      exists w0, bl', [z], []. rewrite Eq. simpl. repeat split; auto.
      rewrite zlen_app. change (zlen [z]) with 1%Z. lia.
Qed.

Ltac booltac :=
  repeat match goal with
  | H : (_ && _)%bool = true |- _ => apply andb_prop in H; destruct H
  | H : (_ <=? _)%Z = true |- _ => apply Z.leb_le in H
  | H : (_ <? _)%Z = true |- _ => apply Z.ltb_lt in H
  | H : (_ <=? _)%Z = false |- _ => apply Z.leb_gt in H
  | H : (_ <? _)%Z = false |- _ => apply Z.ltb_ge in H
  end.

Lemma step_ok : forall op st cs o cs', srel st cs -> spec_step op cs = Some (o, cs') ->
  exists st', impl_step op st = (o, st') /\ o <> SCrash /\ (o <> SError -> srel st' cs').
Proof.
  intros op st cs o cs' R H. destruct R as [|[r base] [pre rem] st cs C R]; [discriminate|].
  destruct C as (p0 & A & B). simpl in A, B. subst base.
  assert (TAKE : forall (f : reader -> rout buf) n, (0 <= n)%Z ->
    (forall m s, rem = m ++ s -> zlen m = n -> exists r', f r = (Ok m, r') /\ At r' ((p0 ++ pre) ++ m) s) ->
    ((zlen rem < n)%Z -> exists e r', f r = (Err e, r')) ->
    forall mk, (forall x, mk x <> SError /\ mk x <> SCrash) -> spec_take n mk (pre, rem) cs = (o, cs') ->
    exists st', seen mk (zlen p0) st (f r) = (o, st') /\ o <> SCrash /\ (o <> SError -> srel st' cs')).
  { intros f n N0 F1 F2 mk MK E. unfold spec_take in E. destruct (zlen rem <? n)%Z eqn:Q; booltac; inversion E; subst; clear E.
    - destruct F2 as (e & r' & ->); auto. simpl. eexists. split; [reflexivity|]. split; congruence.
    - destruct (take_split rem n) as [S1 S2]; [lia|].
      destruct (F1 _ _ S1 S2) as (r' & -> & A'). simpl. eexists. split; [reflexivity|].
      split; [apply MK|]. intros _. constructor; auto. exists p0. simpl. rewrite app_assoc. auto. }
  destruct op; simpl in H.
  - (* ReadByte *)
    destruct rem as [|x s]; inv H; simpl.
    + destruct (at_read_byte_eof _ _ A) as (r' & -> & _). simpl. eexists. split; [reflexivity|]. split; congruence.
    + destruct (at_read_byte _ _ _ _ A) as (r' & -> & A' & _). simpl. eexists. split; [reflexivity|].
      split; [congruence|]. intros _. constructor; auto. exists p0. simpl. rewrite app_assoc. auto.
  - (* UnreadByte *)
    destruct (rev pre) as [|x p] eqn:E; [discriminate|]. inv H.
    assert (pre = rev p ++ [x]). { rewrite <- (rev_involutive pre), E. reflexivity. } subst pre.
    destruct (at_unread _ _ _ _ _ A) as (r' & E' & A'). simpl. rewrite E'. simpl.
    eexists. split; [reflexivity|]. split; [congruence|]. intros _. constructor; auto. exists p0. auto.
  - destruct (0 <=? n)%Z eqn:Q; [|discriminate]. booltac. injection H as H. simpl.
    eapply (TAKE (read_full n)); eauto; try (intros; split; congruence).
    + intros m s -> <-. destruct (at_read_full _ _ _ _ A) as (r' & E & A' & _). eauto.
    + intros. destruct (at_read_full_short _ _ _ _ A H0) as (r' & E). eauto.
  - destruct (0 <=? n)%Z eqn:Q; [|discriminate]. booltac. injection H as H. simpl.
    eapply (TAKE (copy_n n)); eauto; try (intros; split; congruence).
    + intros m s -> <-. destruct (at_copy_n _ _ _ _ A) as (r' & E & A' & _). eauto.
    + intros. destruct (at_copy_n_short _ _ _ _ A H0) as (r' & E). eauto.
  - destruct ((0 <=? l) && (l <? mem_limit))%Z eqn:Q; [|discriminate]. booltac. injection H as H. simpl.
    assert (S : seen (fun w => SBytes (concat w)) (zlen p0) st (r_read_wire l r)
              = seen SBytes (zlen p0) st (match r_read_wire l r with (Ok w, r') => (Ok (concat w), r') | (Err e, r') => (Err e, r') | (Panic, r') => (Panic, r') | (Hang, r') => (Hang, r') end)).
    { destruct (r_read_wire l r) as [[] ?]; reflexivity. }
    rewrite S. clear S.
    eapply (TAKE (fun r => match r_read_wire l r with (Ok w, r') => (Ok (concat w), r') | (Err e, r') => (Err e, r') | (Panic, r') => (Panic, r') | (Hang, r') => (Hang, r') end)); eauto; try (intros; split; congruence).
    + intros m s -> <-. destruct (at_read_wire _ _ _ _ A) as (x & r' & -> & <- & A' & _). eauto.
    + intros. destruct (at_read_wire_short _ _ _ _ A H2) as (r' & ->); auto. eauto.
  - destruct ((0 <=? l) && (l <=? max_alloc) && ((0 <? l) || (0 <? zlen rem)))%Z eqn:Q; [|discriminate].
    booltac. injection H as H. simpl.
    eapply (TAKE (r_read_buf l)); eauto; try (intros; split; congruence).
    + intros m s -> <-. destruct (at_read_buf _ _ _ _ A) as (r' & E & A' & _); eauto.
      right. intros C. apply app_eq_nil in C. destruct C; subst. discriminate.
    + intros. destruct (at_read_buf_short _ _ _ _ A H3) as (r' & E); eauto.
  - destruct ((0 <=? n) && (n <? mem_limit) && (0 <? zlen rem))%Z eqn:Q; [|discriminate].
    booltac. injection H as H. simpl.
    assert (NR : rem <> []) by (intros C; subst; discriminate).
    assert (S : seen (fun _ => SDone) (zlen p0) st (r_skip n r)
              = seen (fun _ : buf => SDone) (zlen p0) st (match r_skip n r with (Ok _, r') => (Ok (firstn (Z.to_nat n) rem), r') | (Err e, r') => (Err e, r') | (Panic, r') => (Panic, r') | (Hang, r') => (Hang, r') end)).
    { destruct (r_skip n r) as [[] ?]; reflexivity. }
    rewrite S. clear S.
    eapply (TAKE (fun r => match r_skip n r with (Ok _, r') => (Ok (firstn (Z.to_nat n) rem), r') | (Err e, r') => (Err e, r') | (Panic, r') => (Panic, r') | (Hang, r') => (Hang, r') end)); eauto; try (intros; split; congruence).
    + intros m s -> <-. destruct (at_skip _ _ _ _ A) as (r' & -> & A' & _); auto.
      exists r'. split; auto. f_equal. f_equal. unfold zlen. rewrite Nat2Z.id, firstn_app, firstn_all, Nat.sub_diag.
      simpl. apply app_nil_r.
    + intros. destruct (at_skip_short _ _ _ n A) as (e & r' & ->); auto. eauto.
  - destruct ((0 <=? l) && (l <=? zlen rem))%Z eqn:Q; [|discriminate]. booltac. inv H. simpl.
    destruct (take_split rem l) as [S1 S2]; [lia|].
    set (m := firstn (Z.to_nat l) rem) in *. set (s := skipn (Z.to_nat l) rem) in *.
    assert (A1 : At r (p0 ++ pre) (m ++ s)) by (rewrite <- S1; auto).
    rewrite <- S2. destruct (at_delegate _ _ _ _ A1) as (d & r' & p' & -> & Ad & Ar & _).
    rewrite (at_pos _ _ _ Ad). eexists. split; [reflexivity|]. split; [congruence|]. intros _.
    constructor. { exists p'. simpl. rewrite app_nil_r. auto. }
    constructor; auto. exists p0. simpl. rewrite app_assoc. auto.
  - destruct cs as [|c cs]; [discriminate|]. inv H. simpl. eexists. split; [reflexivity|]. split; [congruence|]. auto.
  - inv H. simpl. rewrite (at_pos _ _ _ A). rewrite zlen_app.
    replace (zlen p0 + zlen pre - zlen p0)%Z with (zlen pre) by lia.
    eexists. split; [reflexivity|]. split; [congruence|]. intros _. constructor; auto. exists p0; auto.
  - inv H. simpl. rewrite (at_length _ _ _ A). rewrite !zlen_app.
    replace (zlen p0 + zlen pre + zlen rem - zlen p0)%Z with (zlen pre + zlen rem)%Z by lia.
    eexists. split; [reflexivity|]. split; [congruence|]. intros _. constructor; auto. exists p0; auto.
Qed.

Lemma run_ok : forall ops st cs os, srel st cs -> spec_run ops cs = Some os -> impl_run ops st = os.
Proof.
  induction ops; intros st cs os R H; simpl in *; [congruence|].
  destruct (spec_step a cs) as [[o cs']|] eqn:E; [|discriminate].
  destruct (step_ok _ _ _ _ _ R E) as (st' & -> & NC & RR).
  destruct o; try congruence; try (destruct (spec_run ops cs') eqn:F; [|discriminate]; inv H; f_equal; eapply IHops; eauto; apply RR; congruence).
Qed.
