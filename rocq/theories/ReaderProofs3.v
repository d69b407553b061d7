From Verif Require Import Base BaseProofs PrimModel PrimProofs ReaderModel ReaderSpec ReaderProofs ReaderProofs2.

Lemma wire_read_loop_ok : forall w1 b1 b2 w2 m s fuel,
  b2 ++ concat w2 = m ++ s -> (length w2 + 1 < fuel)%nat ->
  (zlen (concat w1 ++ b1 ++ m ++ s) < mem_limit)%Z ->
  exists x seg' pos',
    wire_read_loop fuel (w1 ++ (b1 ++ b2) :: w2) (length w1) (zlen b1) (zlen m) []
      = (Ok x, (seg', pos')) /\ concat x = m
    /\ inside (w1 ++ (b1 ++ b2) :: w2) seg' pos' (concat w1 ++ b1 ++ m) s.
Proof.
  intros. destruct (wire_readbuf_loop_ok w2 w1 b1 b2 m s [] fuel H H0 H1) as (sg & ps & E & I).
  pose proof (wire_read_loop_readbuf fuel (w1 ++ (b1 ++ b2) :: w2) (length w1) (zlen b1) (zlen m) []) as Q.
  destruct (wire_read_loop fuel (w1 ++ (b1 ++ b2) :: w2) (length w1) (zlen b1) (zlen m) []) as [o st].
  simpl concat in Q. rewrite E in Q. simpl app in Q.
  destruct o; try discriminate. inv Q. exists a, sg, ps. auto.
Qed.

Lemma wire_read_loop_short : forall w1 b1 b2 w2 l fuel,
  (length w2 + 2 < fuel)%nat -> (zlen (b2 ++ concat w2) < l)%Z -> (l < mem_limit)%Z ->
  (zlen b1 + zlen b2 < mem_limit)%Z ->
  exists st, wire_read_loop fuel (w1 ++ (b1 ++ b2) :: w2) (length w1) (zlen b1) l []
      = (Err EUnexpectedEOF, st).
Proof.
  intros. destruct (wire_readbuf_loop_short w2 w1 b1 b2 l [] fuel H H0 H1 H2) as (st & E).
  pose proof (wire_read_loop_readbuf fuel (w1 ++ (b1 ++ b2) :: w2) (length w1) (zlen b1) l []) as Q.
  destruct (wire_read_loop fuel (w1 ++ (b1 ++ b2) :: w2) (length w1) (zlen b1) l []) as [o st'].
  simpl concat in Q. rewrite E in Q. destruct o; try discriminate. inv Q. eauto.
Qed.

Lemma at_read_wire : forall r pre m s, At r pre (m ++ s) ->
  exists x r', r_read_wire (zlen m) r = (Ok x, r') /\ concat x = m /\ At r' (pre ++ m) s /\ same_kind r r'.
Proof.
  intros r pre m s [HL H]. destruct r as [b pos|w seg pos acc].
  - destruct H; subst. simpl. rewrite !zlen_app in HL. zl. rewrite wrap_small by lia.
    destruct (Z.leb_spec (zlen (pre ++ m ++ s)) (zlen pre)) as [Q1|Q1]; rewrite !zlen_app in Q1;
    destruct (Z.ltb_spec 0 (zlen m)) as [Q2|Q2]; simpl; try lia;
    (destruct (Z.ltb_spec (zlen (pre ++ m ++ s)) (zlen pre + zlen m)) as [Q|Q];
      [ rewrite !zlen_app in Q; lia |]);
    rewrite slice_mid; eexists _, _; (split; [reflexivity|]); simpl; rewrite app_nil_r;
    (split; [auto|]); (split; [|split; auto]);
    (split; [rewrite <- app_assoc, !zlen_app; lia|]);
    rewrite <- app_assoc; (split; [auto|]); rewrite zlen_app; auto.
  - destruct H as (NE & Ea & Hi). simpl.
    destruct (next_seg_spec _ _ _ _ _ NE Hi) as (seg' & pos' & E & [(K & D)|(K & D)]); rewrite E.
    + destruct (m ++ s) as [|y0 ms0] eqn:EMS; [congruence|]. rewrite <- EMS in *. cbn [negb andb].
      destruct D as (w1 & b1 & y & b2 & w2 & Ew & Es & Ep & Epre & Erem). subst.
      assert (HL' := HL). rewrite Erem in HL'. rewrite !zlen_app in HL'. rewrite !zlen_app in HL. zl.
      destruct (wire_read_loop_ok w1 b1 (y :: b2) w2 m s (length (w1 ++ (b1 ++ y :: b2) :: w2) + 2)) as (x & sg & ps & EE & EC & II).
      { auto. } { rewrite app_length. simpl. lia. }
      { rewrite !zlen_app in *. lia. }
      rewrite EE. exists x, (RWire (w1 ++ (b1 ++ y :: b2) :: w2) sg ps (acc_from 0 (w1 ++ (b1 ++ y :: b2) :: w2))).
      split; [reflexivity|]. split; auto. split; [|split; auto].
      split. { rewrite <- !app_assoc, !zlen_app. rewrite ?zlen_app in HL. lia. }
      split; auto. split; auto. left. rewrite <- app_assoc. exact II.
    + apply app_eq_nil in K. destruct K; subst m s. simpl. change (zlen (@nil N)) with 0%Z.
      change (0 <? 0)%Z with false. cbv iota.
      destruct (length w + 2)%nat eqn:EF; [lia|]. simpl. change (0 <? 0)%Z with false. cbv iota.
      eexists _, _. split; [reflexivity|]. split; auto. split; [|split; auto].
      split; [rewrite app_nil_r; auto|]. rewrite app_nil_r. split; auto.
Qed.

Lemma at_read_wire_short : forall r pre rem l, At r pre rem -> (zlen rem < l)%Z -> (l < mem_limit)%Z ->
  exists r', r_read_wire l r = (Err (match rem with [] => EEOF | _ => EUnexpectedEOF end), r').
Proof.
  intros r pre rem l [HL H] L1 L2. destruct r as [b pos|w seg pos acc].
  - destruct H; subst. simpl. rewrite !zlen_app in HL. zl. rewrite wrap_small by lia.
    destruct (Z.ltb_spec 0 l); [|lia].
    destruct (Z.leb_spec (zlen (pre ++ rem)) (zlen pre)) as [Q|Q]; rewrite zlen_app in Q; simpl.
    + destruct rem; [eauto|]. rewrite zlen_cons in Q. zl. lia.
    + destruct (Z.ltb_spec (zlen (pre ++ rem)) (zlen pre + l)) as [Q2|Q2]; rewrite zlen_app in Q2; [|lia].
      destruct rem; [rewrite zlen_nil in Q; lia|eauto].
  - destruct H as (NE & Ea & Hi). simpl.
    destruct (next_seg_spec _ _ _ _ _ NE Hi) as (seg' & pos' & E & D). rewrite E.
    zl. destruct (Z.ltb_spec 0 l); [|lia].
    destruct rem as [|y0 rem0]; simpl; [eauto|].
    destruct D as [(_ & D)|(D & _)]; [|congruence].
    destruct D as (w1 & b1 & y & b2 & w2 & Ew & Es & Ep & Epre & Erem). subst. inv Erem.
    destruct (wire_read_loop_short w1 b1 (y :: b2) w2 l (length (w1 ++ (b1 ++ y :: b2) :: w2) + 2)) as (st & EE).
    { rewrite app_length. simpl. lia. }
    { simpl app. auto. } { lia. } { rewrite !zlen_app in HL. rewrite zlen_cons in *. rewrite zlen_app in HL. zl. lia. }
    rewrite EE. destruct st. eauto.
Qed.

(** The forward walk of Skip and Delegate *)
Lemma walk_ok : forall w2 w1 b1 b2 m s fuel,
  b2 ++ concat w2 = m ++ s -> Forall (fun b => b <> []) w2 -> (length w2 < fuel)%nat ->
  exists w1' b1' b2' w2',
    walk fuel (w1 ++ (b1 ++ b2) :: w2) (length w1) (zlen b1 + zlen m) = Ok (true, length w1', zlen b1') /\
    w1 ++ (b1 ++ b2) :: w2 = w1' ++ (b1' ++ b2') :: w2' /\
    concat w1 ++ b1 ++ m = concat w1' ++ b1' /\ s = b2' ++ concat w2' /\
    (length w1 <= length w1')%nat /\
    ((zlen m <= zlen b2)%Z -> w1' = w1 /\ b1' = b1 ++ m) /\
    ((zlen b2 < zlen m)%Z -> (length w1 < length w1')%nat /\ b1' <> []).
Proof.
  induction w2 as [|b3 w3 IH]; intros w1 b1 b2 m s fuel E NE F;
    (destruct fuel as [|fuel]; [simpl in F; lia|]); simpl walk; rewrite nth_error_mid; zl;
    destruct (Z.ltb_spec (zlen (b1 ++ b2)) (zlen b1 + zlen m)) as [Q|Q]; rewrite zlen_app in Q.
  - exfalso. simpl in E. rewrite app_nil_r in E. subst b2. rewrite zlen_app in Q. zl. lia.
  - destruct (app_split_ge _ _ _ _ E) as (a' & -> & ->); [lia|].
    exists w1, (b1 ++ m), a', []. rewrite <- !app_assoc, zlen_app. repeat split; auto; lia.
  - destruct (app_split_lt _ _ _ _ E) as (m' & -> & E2 & NM); [lia|]. simpl concat in E2.
    inversion NE; subst.
    destruct (Nat.leb_spec (length (w1 ++ (b1 ++ b2) :: b3 :: w3)) (S (length w1))) as [G|G].
    { rewrite app_length in G. simpl in G. lia. }
    destruct (IH (w1 ++ [b1 ++ b2]) [] b3 m' s fuel E2) as (w1' & b1' & b2' & w2' & A1 & A2 & A3 & A4 & A5 & A6 & A7); auto.
    { simpl in F. lia. }
    exists w1', b1', b2', w2'.
    rewrite app_length in *. simpl length in *. rewrite Nat.add_1_r in A1.
    rewrite <- app_assoc in *. simpl app in A1, A2. rewrite zlen_nil in A1.
    replace (zlen b1 + zlen (b2 ++ m') - zlen (b1 ++ b2))%Z with (0 + zlen m')%Z by (rewrite !zlen_app; lia).
    rewrite A1. rewrite concat_app in A3. simpl concat in A3. rewrite app_nil_r in A3.
    rewrite <- !app_assoc in A3. simpl app in A3.
    split; auto. split; auto. split; auto. split; auto. split; [lia|].
    pose proof (zlen_pos _ NM). split; [rewrite zlen_app; lia|].
    intros _. split; [lia|].
    destruct (Z.le_gt_cases (zlen m') (zlen b3)).
    { destruct A6 as [_ ->]; auto. }
    { apply A7. lia. }
  - destruct (app_split_ge _ _ _ _ E) as (a' & -> & ->); [lia|].
    exists w1, (b1 ++ m), a', (b3 :: w3). rewrite <- !app_assoc, zlen_app. repeat split; auto; lia.
Qed.

Lemma at_skip : forall r pre m s, At r pre (m ++ s) -> (is_buf_reader r \/ m ++ s <> []) ->
  exists r', r_skip (zlen m) r = (Ok tt, r') /\ At r' (pre ++ m) s /\ same_kind r r'.
Proof.
  intros r pre m s [HL H] K. destruct r as [b pos|w seg pos acc].
  - destruct H; subst. simpl. rewrite !zlen_app in HL. zl. rewrite wrap_small by lia.
    destruct (Z.ltb_spec (zlen pre + zlen m) 0); [lia|].
    destruct (Z.ltb_spec (zlen (pre ++ m ++ s)) (zlen pre + zlen m)) as [Q|Q].
    { rewrite !zlen_app in Q. lia. }
    eexists. split; [reflexivity|]. split; [|split; auto].
    split. rewrite <- app_assoc, !zlen_app; lia. rewrite <- app_assoc. split; auto. rewrite zlen_app; auto.
  - destruct H as (NE & Ea & Hi). destruct K as [K|K]; [inversion K|]. cbn [r_skip]. zl.
    destruct (Z.ltb_spec (zlen m) 0); [lia|].
    destruct Hi as [Hi|Hi]; [|destruct Hi as (_ & _ & _ & X); congruence].
    destruct Hi as (w1 & b1 & b2 & w2 & Ew & Es & Ep & Epre & Erem). subst.
    rewrite !zlen_app in HL. zl. rewrite wrap_small by lia.
    pose proof (nonempty_mid _ _ _ NE) as NE2.
    destruct (walk_ok w2 w1 b1 b2 m s (S (length (w1 ++ (b1 ++ b2) :: w2)))) as (w1' & b1' & b2' & w2' & A1 & A2 & A3 & A4 & _); auto.
    { rewrite app_length. simpl. lia. }
    rewrite A1. eexists. split; [reflexivity|]. split; [|split; auto].
    split. { rewrite <- !app_assoc, !zlen_app. lia. }
    split; auto. split; auto. left. exists w1', b1', b2', w2'. rewrite <- app_assoc. auto.
Qed.

(** A buffer reader refuses to skip beyond its end and stays put. *)
Lemma buf_skip_short : forall b pos n, (0 <= pos <= zlen b)%Z -> (zlen b < mem_limit)%Z ->
  (zlen b - pos < n < mem_limit)%Z -> r_skip n (RBuf b pos) = (Err EOther, RBuf b pos).
Proof.
  intros. simpl. rewrite wrap_small by lia.
  destruct (Z.ltb_spec (pos + n) 0); [lia|]. destruct (Z.ltb_spec (zlen b) (pos + n)); [auto|lia].
Qed.

Lemma acc_from_length : forall w a, length (acc_from a w) = S (length w).
Proof. induction w; intros; simpl; auto. Qed.

Lemma acc_from_nth : forall w1 w2 a, nth_error (acc_from a (w1 ++ w2)) (length w1) = Some (a + zlen (concat w1))%Z.
Proof.
  induction w1; intros; simpl.
  - destruct w2; simpl; rewrite Z.add_0_r; auto.
  - rewrite IHw1, zlen_app. f_equal. lia.
Qed.

Lemma acc_from_firstn : forall w1 w2 a, firstn (S (length w1)) (acc_from a (w1 ++ w2)) = acc_from a w1.
Proof.
  induction w1; intros.
  - destruct w2; reflexivity.
  - change (firstn (S (length (a :: w1))) (acc_from a0 ((a :: w1) ++ w2)))
      with (a0 :: firstn (S (length w1)) (acc_from (a0 + zlen a) (w1 ++ w2))).
    rewrite IHw1. reflexivity.
Qed.

Lemma at_pos : forall r pre rem, At r pre rem -> r_pos r = Ok (zlen pre).
Proof.
  intros r pre rem [HL H]. destruct r as [b pos|w seg pos acc].
  - destruct H; subst. reflexivity.
  - destruct H as (NE & Ea & [Hi|Hi]); simpl.
    + destruct Hi as (w1 & b1 & b2 & w2 & Ew & Es & Ep & Epre & Erem). subst.
      rewrite acc_from_nth. f_equal. rewrite zlen_app. lia.
    + destruct Hi as (? & ? & ? & ?). subst. rewrite <- (app_nil_r w) at 1. rewrite acc_from_nth. f_equal.
Qed.

Lemma at_length : forall r pre rem, At r pre rem -> r_length r = Ok (zlen (pre ++ rem)).
Proof.
  intros r pre rem [HL H]. destruct r as [b pos|w seg pos acc].
  - destruct H; subst. reflexivity.
  - destruct H as (NE & Ea & Hi). simpl. subst acc. 
    assert (Q : concat w = pre ++ rem).
    { destruct Hi as [Hi|Hi].
      - destruct Hi as (w1 & b1 & b2 & w2 & Ew & Es & Ep & Epre & Erem). subst.
        rewrite concat_app. simpl. rewrite <- !app_assoc. auto.
      - destruct Hi as (? & ? & ? & ?). subst. rewrite app_nil_r. auto. }
    rewrite <- (app_nil_r w) at 1. rewrite acc_from_nth, Q. f_equal.
Qed.

Lemma list_set_last : forall {A} (l : list A) x y, list_set (l ++ [x]) (length (l ++ [x]) - 1) y = Ok (l ++ [y]).
Proof.
  intros. unfold list_set.
  replace (length (l ++ [x]) - 1)%nat with (length l) by (rewrite app_length; simpl; lia).
  destruct (Nat.ltb_spec (length l) (length (l ++ [x]))) as [H|H]; rewrite app_length in H; simpl in H; [|lia].
  rewrite firstn_app, firstn_all, Nat.sub_diag. simpl firstn. rewrite app_nil_r.
  rewrite skipn_all2; auto. rewrite app_length; simpl; lia.
Qed.

Lemma at_delegate_first : forall r pre m s, At r pre (m ++ s) ->
  exists d r' p', r_delegate (zlen m) r = Ok (d, r') /\ At d p' m /\ At r' (pre ++ m) s
    /\ same_kind r r' /\ (is_buf_reader r -> is_buf_reader d /\ p' = []) /\ (forall n, in_first n r pre -> in_first n d p').
Proof.
  intros r pre m s [HL H]. destruct r as [b pos|w seg pos acc].
  - destruct H; subst. simpl. rewrite !zlen_app in HL. zl. rewrite wrap_small by lia.
    destruct (Z.ltb_spec (zlen m) 0); [lia|].
    destruct (Z.ltb_spec (zlen (pre ++ m ++ s)) (zlen pre + zlen m)) as [Q|Q].
    { rewrite !zlen_app in Q. lia. }
    simpl orb. cbv iota. rewrite slice_mid. simpl bind.
    eexists _, _, []. split; [reflexivity|]. split; [apply at_new_buf; lia|].
    split; [|split; [split; auto|split; [simpl; auto|intros; exact I]]].
    split. rewrite <- app_assoc, !zlen_app; lia. rewrite <- app_assoc. split; auto. rewrite zlen_app; auto.
  - destruct H as (NE & Ea & Hi). cbn [r_delegate]. zl.
    destruct (Z.ltb_spec (zlen m) 0); [lia|]. simpl orb.
    destruct Hi as [Hi|Hi].
    2:{ destruct Hi as (? & ? & ? & K). subst. apply app_eq_nil in K. destruct K; subst m s.
        destruct (Nat.leb_spec (length w) (length w)); [|lia].
        eexists _, _, []. split; [reflexivity|]. rewrite app_nil_r in *. split; [apply at_new_buf; vm_compute; reflexivity|].
        split; [|split; [split; auto|split; [simpl; tauto|intros; exact I]]].
        split. { rewrite app_nil_r. auto. } split; auto. split; auto. right. repeat split; auto. }
    destruct Hi as (w1 & b1 & b2 & w2 & Ew & Es & Ep & Epre & Erem).
    destruct (Nat.leb_spec (length w) seg) as [G|G].
    { subst. rewrite app_length in G. simpl in G. lia. }
    subst. unfold seg_at. rewrite nth_error_mid. cbn [bind].
    rewrite !zlen_app in HL. zl. rewrite wrap_small by lia.
    pose proof (nonempty_mid _ _ _ NE) as NE2.
    destruct (Z.leb_spec (zlen b1 + zlen m) (zlen (b1 ++ b2))) as [Q|Q]; rewrite zlen_app in Q.
    + destruct (app_split_ge b2 (concat w2) m s) as (a' & -> & ->); [auto|lia|].
      rewrite slice_mid. cbn [bind]. eexists _, _, []. split; [reflexivity|].
      split; [apply at_new_buf; lia|]. split; [|split; [split; auto|split; [simpl; tauto|intros; exact I]]].
      split. { rewrite <- !app_assoc, !zlen_app. rewrite !zlen_app in *. lia. }
      split; auto. split; auto. left. exists w1, (b1 ++ m), a', w2. rewrite <- !app_assoc, zlen_app. auto.
    + destruct (walk_ok w2 w1 b1 b2 m s (S (length (w1 ++ (b1 ++ b2) :: w2)))) as (w1' & b1' & b2' & w2' & A1 & A2 & A3 & A4 & A5 & _ & A7); auto.
      { rewrite app_length. simpl. lia. }
      destruct A7 as [A7' NB1]; [lia|].
      rewrite A1. cbn [bind negb].
      (* w1' = w1 ++ (b1++b2) :: wm *)
      assert (exists wm, w1' = w1 ++ (b1 ++ b2) :: wm /\ w2 = wm ++ (b1' ++ b2') :: w2') as (wm & EW1 & EW2).
      { destruct (app_split_lt w1 ((b1 ++ b2) :: w2) w1' ((b1' ++ b2') :: w2')) as (mm & M1 & M2 & M3); auto.
        unfold zlen; lia. destruct mm as [|x mm]; [congruence|]. simpl in M2. inversion M2; subst.
        exists mm. auto. }
      assert (HN : nth_error (w1 ++ (b1 ++ b2) :: w2) (length w1') = Some (b1' ++ b2')) by (rewrite A2; apply nth_error_mid). rewrite HN. cbn [bind].
      assert (AR : At (RWire (w1 ++ (b1 ++ b2) :: w2) (length w1') (zlen b1') (acc_from 0 (w1 ++ (b1 ++ b2) :: w2)))
                     ((concat w1 ++ b1) ++ m) s).
      { split. { rewrite <- !app_assoc, !zlen_app. rewrite !zlen_app in *. lia. }
        split; auto. split; auto. left. exists w1', b1', b2', w2'. rewrite <- app_assoc. auto. }
      assert (M : m = b2 ++ concat wm ++ b1').
      { rewrite EW1 in A3. rewrite concat_app in A3. simpl in A3. rewrite <- !app_assoc in A3.
        do 2 apply app_inv_head in A3. auto. }
      destruct (Z.eqb_spec (zlen b1') (zlen (b1' ++ b2'))) as [QE|QE].
      * assert (b2' = []). { rewrite zlen_app in QE. destruct b2'; auto. rewrite zlen_cons in QE. zl. lia. }
        subst b2'. rewrite app_nil_r in *.
        rewrite slice_ok; [| lia | lia |].
        2:{ unfold zlen. rewrite acc_from_length, A2, app_length. simpl. lia. }
        cbn [bind]. eexists _, _, (concat w1 ++ b1). split; [reflexivity|].
        assert (FW : firstn (S (length w1')) (w1 ++ (b1 ++ b2) :: w2) = w1 ++ (b1 ++ b2) :: wm ++ [b1']).
        { rewrite A2. replace (w1' ++ b1' :: w2') with ((w1' ++ [b1']) ++ w2') by (rewrite <- app_assoc; auto).
          replace (S (length w1')) with (length (w1' ++ [b1'])) by (rewrite app_length; simpl; lia).
          rewrite firstn_app, firstn_all, Nat.sub_diag. simpl. rewrite app_nil_r. rewrite EW1.
          rewrite <- app_assoc. auto. }
        split; [|split; [auto|split; [split; auto|split; [simpl; tauto|]]]].
        2: { intros n. unfold in_first. rewrite FW. destruct w1; auto. }
        split. { rewrite !zlen_app in *. lia. }
        split.
        { rewrite FW. subst w2. apply Forall_app in NE2. destruct NE2 as [NEc NEd].
          assert (NEe : Forall (fun b => b <> []) (wm ++ [b1'])) by (apply Forall_app; split; auto).
          clear - NE NEe. unfold nonempty_segs in *. destruct w1; simpl in *; auto.
          apply Forall_app in NE. destruct NE as [NEa NEb]. inv NEb.
          apply Forall_app; split; auto. }
        split.
        { rewrite Z.sub_0_r. simpl skipn. rewrite FW.
          replace (Z.to_nat (Z.of_nat (length w1') + 2)) with (S (length (w1 ++ (b1 ++ b2) :: wm ++ [b1']))).
          2:{ rewrite EW1. rewrite !app_length. simpl. rewrite !app_length. simpl. lia. }
          rewrite A2. replace (w1' ++ b1' :: w2') with ((w1 ++ (b1 ++ b2) :: wm ++ [b1']) ++ w2').
          2:{ rewrite EW1. rewrite <- !app_assoc. simpl. rewrite <- !app_assoc. reflexivity. }
          apply acc_from_firstn. }
        left. exists w1, b1, b2, (wm ++ [b1']). rewrite FW. repeat split; auto.
        rewrite concat_app. simpl. rewrite app_nil_r. auto.
      * assert (NW : firstn (S (length w1') - length w1) (skipn (length w1) (w1 ++ (b1 ++ b2) :: w2))
                     = (b1 ++ b2) :: wm ++ [b1' ++ b2']).
        { rewrite skipn_app, skipn_all, Nat.sub_diag. simpl skipn. rewrite EW2.
          replace (S (length w1') - length w1)%nat with (length ((b1 ++ b2) :: wm ++ [b1' ++ b2'])).
          2:{ rewrite EW1, app_length. cbn [length]. rewrite app_length. cbn [length]. lia. }
          replace ([] ++ (b1 ++ b2) :: wm ++ (b1' ++ b2') :: w2') with (((b1 ++ b2) :: wm ++ [b1' ++ b2']) ++ w2').
          2:{ simpl. rewrite <- app_assoc. auto. }
          rewrite firstn_app, firstn_all, Nat.sub_diag. simpl. rewrite app_nil_r. auto. }
        rewrite NW.
        change (index ((b1 ++ b2) :: wm ++ [b1' ++ b2']) 0) with (Ok (b1 ++ b2)). cbn [bind].
        rewrite slice_tail. cbn [bind].
        change (list_set ((b1 ++ b2) :: wm ++ [b1' ++ b2']) 0 b2) with (Ok (b2 :: wm ++ [b1' ++ b2'])). cbn [bind].
        replace (zlen (b2 :: wm ++ [b1' ++ b2']) - 1)%Z with (zlen (b2 :: wm)).
        2:{ rewrite !zlen_cons, zlen_app, zlen_cons, zlen_nil. lia. }
        change (b2 :: wm ++ [b1' ++ b2']) with ((b2 :: wm) ++ (b1' ++ b2') :: []).
        rewrite index_app. cbn [bind].
        assert (S0 : slice (b1' ++ b2') 0 (zlen b1') = Ok b1').
        { exact (slice_mid [] b1' b2'). }
        rewrite S0. cbn [bind].
        assert (LS : list_set ((b2 :: wm) ++ [b1' ++ b2']) (length ((b2 :: wm) ++ [b1' ++ b2']) - 1) b1'
                     = Ok ((b2 :: wm) ++ [b1'])).
        { apply list_set_last. }
        rewrite LS. cbn [bind].
        (* b2 may be empty and b1' may be empty: handled below *)
        exists (new_wire_reader ((b2 :: wm) ++ [b1'])).
        eexists _, []. split; [reflexivity|].
        subst w2. apply Forall_app in NE2. destruct NE2 as [NEc NEd].
        split; [|split; [auto|split; [split; auto|split; [simpl; tauto|]]]].
        2: { intros n. unfold in_first, new_wire_reader. cbn [hd app]. rewrite zlen_nil. destruct w1 as [|x w1]; cbn [hd concat app]; rewrite !zlen_app; zl; lia. }
        replace m with (concat ((b2 :: wm) ++ [b1'])).
        2:{ rewrite concat_app. simpl. rewrite app_nil_r, <- app_assoc. auto. }
        apply at_new_wire.
        { unfold nonempty_segs. simpl. apply Forall_app; split; auto. }
        { rewrite concat_app. simpl. rewrite app_nil_r, <- app_assoc. rewrite <- M. lia. }
Qed.

Lemma at_delegate : forall r pre m s, At r pre (m ++ s) ->
  exists d r' p', r_delegate (zlen m) r = Ok (d, r') /\ At d p' m /\ At r' (pre ++ m) s
    /\ same_kind r r' /\ (is_buf_reader r -> is_buf_reader d /\ p' = []).
Proof. intros r pre m s A. destruct (at_delegate_first r pre m s A) as (d & r' & p' & E & A1 & A2 & K1 & K2 & _). exists d, r', p'. auto. Qed.
