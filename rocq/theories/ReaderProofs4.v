From Verif Require Import Base BaseProofs PrimModel PrimProofs ReaderModel ReaderSpec ReaderProofs ReaderProofs2 ReaderProofs3.

Lemma copy_upto_split : forall n t, (0 <= n)%Z ->
  t = copy_upto n t ++ skipn (Z.to_nat (Z.min n (zlen t))) t.
Proof. intros. unfold copy_upto. symmetry. apply firstn_skipn. Qed.

Lemma copy_upto_len : forall n t, (0 <= n)%Z -> zlen (copy_upto n t) = Z.min n (zlen t).
Proof.
  intros. unfold copy_upto, zlen at 1. rewrite firstn_length. unfold zlen. lia.
Qed.

(** One Read: some nonempty front part of what is left. *)
Lemma at_read : forall r pre rem n, At r pre rem -> rem <> [] -> (0 < n)%Z ->
  exists c s r', r_read n r = (Ok c, r') /\ rem = c ++ s /\ c <> [] /\ (zlen c <= n)%Z
    /\ At r' (pre ++ c) s /\ same_kind r r' /\ reader_fuel r' = reader_fuel r.
Proof.
  intros r pre rem n [HL H] NR N0. destruct r as [b pos|w seg pos acc].
  - destruct H; subst. simpl. pose proof (zlen_pos _ NR). zl.
    destruct (Z.leb_spec (zlen (pre ++ rem)) (zlen pre)) as [Q|Q]; [rewrite zlen_app in Q; lia|]. cbn [andb].
    rewrite slice_tail. 
    exists (copy_upto n rem), (skipn (Z.to_nat (Z.min n (zlen rem))) rem). eexists.
    split; [reflexivity|]. pose proof (copy_upto_split n rem) as E. assert (L : zlen (copy_upto n rem) = Z.min n (zlen rem)) by (apply copy_upto_len; lia).
    split; [apply E; lia|]. split. { intros C. rewrite C, zlen_nil in L. lia. }
    split; [lia|]. split; [|split; [split; auto|auto]].
    split. { rewrite <- app_assoc, <- E by lia. auto. }
    rewrite <- app_assoc, <- E by lia. split; auto. rewrite zlen_app. lia.
  - destruct H as (NE & Ea & Hi). simpl.
    destruct (next_seg_spec _ _ _ _ _ NE Hi) as (seg' & pos' & E & [(_ & D)|(D & _)]); [|congruence].
    rewrite E. destruct rem as [|z rem]; [congruence|]. cbn [negb andb].
    destruct D as (w1 & b1 & y & b2 & w2 & Ew & Es & Ep & Epre & Erem). inv Erem.
    unfold seg_at. rewrite nth_error_mid, slice_tail.
    exists (copy_upto n (y :: b2)), (skipn (Z.to_nat (Z.min n (zlen (y :: b2)))) (y :: b2) ++ concat w2). eexists.
    split; [reflexivity|]. pose proof (copy_upto_split n (y :: b2)) as E1. assert (L : zlen (copy_upto n (y :: b2)) = Z.min n (zlen (y :: b2))) by (apply copy_upto_len; lia).
    assert (zlen (y :: b2) > 0)%Z by (rewrite zlen_cons; zl; lia).
    split. { rewrite app_assoc, <- E1 by lia. auto. }
    split. { intros C. rewrite C, zlen_nil in L. lia. }
    split; [lia|]. split; [|split; [split; auto|auto]].
    split. { rewrite <- app_assoc. rewrite (app_assoc (copy_upto _ _)), <- E1 by lia. auto. }
    split; auto. split; auto. left.
    exists w1, (b1 ++ copy_upto n (y :: b2)), (skipn (Z.to_nat (Z.min n (zlen (y :: b2)))) (y :: b2)), w2.
    rewrite <- !app_assoc, <- E1 by lia. repeat split; auto. rewrite zlen_app. lia.
Qed.

Lemma at_read_eof : forall r pre n, At r pre [] -> (0 < n)%Z ->
  exists r', r_read n r = (Err EEOF, r') /\ At r' pre [].
Proof.
  intros r pre n [HL H] N0. destruct r as [b pos|w seg pos acc].
  - destruct H; subst. simpl.
    destruct (Z.leb_spec (zlen (pre ++ [])) (zlen pre)) as [Q|Q]; [|rewrite app_nil_r in Q; lia].
    destruct (Z.ltb_spec 0 n); [|lia]. simpl. eexists. split; [reflexivity|]. split; auto.
  - destruct H as (NE & Ea & Hi). simpl.
    destruct (next_seg_spec _ _ _ _ _ NE Hi) as (seg' & pos' & E & [(D & _)|(_ & D)]); [congruence|].
    rewrite E. destruct (Z.ltb_spec 0 n); [|lia]. simpl.
    eexists. split; [reflexivity|]. split; auto.
Qed.

Lemma at_read_loop : forall fuel m s r pre acc, At r pre (m ++ s) -> (length m < fuel)%nat ->
  exists r', read_loop fuel (zlen m) acc r = (Ok (acc ++ m, None), r') /\ At r' (pre ++ m) s /\ same_kind r r'.
Proof.
  induction fuel; intros m s r pre acc H F; [lia|]. cbn [read_loop].
  destruct (Z.leb_spec (zlen m) 0) as [Q|Q].
  - assert (m = []). { destruct m; auto. rewrite zlen_cons in Q. zl. lia. } subst. rewrite !app_nil_r.
    exists r. split; auto. split; auto. split; auto.
  - destruct (at_read r pre (m ++ s) (zlen m) H) as (c & s' & r' & E & Es & NC & LC & A & SK & _); auto.
    { destruct m; [change (zlen (@nil N)) with 0%Z in Q; lia|discriminate]. }
    rewrite E. destruct (app_split_ge m s c s') as (m' & -> & ->); auto.
    rewrite zlen_app. replace (zlen c + zlen m' - zlen c)%Z with (zlen m') by lia.
    destruct (IHfuel m' s r' (pre ++ c) (acc ++ c) A) as (r2 & E2 & A2 & SK2).
    { rewrite app_length in F. destruct c; [congruence|]. simpl in F. lia. }
    rewrite <- !app_assoc in *. exists r2. rewrite E2. split; auto. split; auto.
    unfold same_kind in *. tauto.
Qed.

Lemma at_read_loop_short : forall fuel rem r pre acc n, At r pre rem -> (length rem < fuel)%nat ->
  (zlen rem < n)%Z ->
  exists r', read_loop fuel n acc r = (Ok (acc ++ rem, Some EEOF), r') /\ At r' (pre ++ rem) [].
Proof.
  induction fuel; intros rem r pre acc n H F N0; [lia|]. cbn [read_loop]. zl.
  destruct (Z.leb_spec n 0) as [Q|Q]; [lia|].
  destruct rem as [|x rem].
  - destruct (at_read_eof r pre n H) as (r' & E & A); [lia|]. rewrite E. rewrite !app_nil_r. eauto.
  - destruct (at_read r pre (x :: rem) n H) as (c & s' & r' & E & Es & NC & LC & A & SK & _); [congruence|lia|].
    rewrite E. rewrite Es in *. 
    destruct (IHfuel s' r' (pre ++ c) (acc ++ c) (n - zlen c)%Z A) as (r2 & E2 & A2).
    { rewrite app_length in F. destruct c; [congruence|]. simpl in F. lia. }
    { rewrite zlen_app in N0. lia. }
    rewrite <- !app_assoc in *. rewrite E2. eauto.
Qed.

Lemma at_fuel : forall r pre rem, At r pre rem -> (length rem + 1 < reader_fuel r)%nat.
Proof.
  intros r pre rem [HL H]. destruct r; simpl.
  - destruct H; subst. rewrite app_length. lia.
  - destruct H as (NE & Ea & [Hi|Hi]).
    + destruct Hi as (w1 & b1 & b2 & w2 & Ew & Es & Ep & Epre & Erem). subst.
      rewrite concat_app. simpl. rewrite !app_length. simpl. lia.
    + destruct Hi as (? & ? & ? & ->). simpl. lia.
Qed.

Lemma at_read_full : forall r pre m s, At r pre (m ++ s) ->
  exists r', read_full (zlen m) r = (Ok m, r') /\ At r' (pre ++ m) s /\ same_kind r r'.
Proof.
  intros. unfold read_full.
  destruct (at_read_loop (reader_fuel r) m s r pre [] H) as (r' & E & A & S).
  { apply at_fuel in H. rewrite app_length in H. lia. }
  rewrite E. exists r'. simpl. destruct m; auto.
Qed.

Lemma at_read_full_short : forall r pre rem n, At r pre rem -> (zlen rem < n)%Z ->
  exists r', read_full n r = (Err (match rem with [] => EEOF | _ => EUnexpectedEOF end), r').
Proof.
  intros. unfold read_full.
  destruct (at_read_loop_short (reader_fuel r) rem r pre [] n H) as (r' & E & A); auto.
  { apply at_fuel in H. lia. }
  rewrite E. simpl. destruct rem; eauto.
Qed.

Lemma at_copy_n : forall r pre m s, At r pre (m ++ s) ->
  exists r', copy_n (zlen m) r = (Ok m, r') /\ At r' (pre ++ m) s /\ same_kind r r'.
Proof.
  intros. unfold copy_n.
  destruct (at_read_loop (reader_fuel r) m s r pre [] H) as (r' & E & A & S).
  { apply at_fuel in H. rewrite app_length in H. lia. }
  rewrite E. exists r'. auto.
Qed.

Lemma at_copy_n_short : forall r pre rem n, At r pre rem -> (zlen rem < n)%Z ->
  exists r', copy_n n r = (Err EEOF, r').
Proof.
  intros. unfold copy_n.
  destruct (at_read_loop_short (reader_fuel r) rem r pre [] n H) as (r' & E & A); auto.
  { apply at_fuel in H. lia. }
  rewrite E. eauto.
Qed.

(** Skip beyond the end: an error of either kind. *)
Lemma walk_short : forall w2 w1 b1 b2 p fuel,
  (zlen b1 + zlen b2 + zlen (concat w2) < p)%Z -> (length w2 < fuel)%nat ->
  exists s q, walk fuel (w1 ++ (b1 ++ b2) :: w2) (length w1) p = Ok (false, s, q).
Proof.
  induction w2; intros w1 b1 b2 p fuel L F; (destruct fuel as [|fuel]; [simpl in F; lia|]);
    cbn [walk]; rewrite nth_error_mid; simpl concat in L; rewrite ?zlen_app in L; zl;
    (destruct (Z.ltb_spec (zlen (b1 ++ b2)) p) as [Q|Q]; [|rewrite zlen_app in Q; lia]).
  - destruct (Nat.leb_spec (length (w1 ++ [b1 ++ b2])) (S (length w1))) as [G|G]; [eauto|].
    rewrite app_length in G. simpl in G. lia.
  - destruct (Nat.leb_spec (length (w1 ++ (b1 ++ b2) :: a :: w2)) (S (length w1))) as [G|G]; [eauto|].
    destruct (IHw2 (w1 ++ [b1 ++ b2]) [] a (p - zlen (b1 ++ b2))%Z fuel) as (s & q & E).
    { rewrite zlen_nil, zlen_app. zl. lia. } { simpl in F. lia. }
    rewrite app_length in E. simpl length in E. rewrite Nat.add_1_r in E.
    rewrite <- app_assoc in E. simpl app in E. eauto.
Qed.

Lemma at_skip_short : forall r pre rem n, At r pre rem -> (zlen rem < n < mem_limit)%Z ->
  (is_buf_reader r \/ rem <> []) ->
  exists e r', r_skip n r = (Err e, r').
Proof.
  intros r pre rem n [HL H] L K. destruct r as [b pos|w seg pos acc].
  - destruct H; subst. rewrite buf_skip_short; eauto; zl; rewrite ?zlen_app in *; zl; lia.
  - destruct H as (NE & Ea & Hi). destruct K as [K|K]; [inversion K|].
    destruct Hi as [Hi|Hi]; [|destruct Hi as (_ & _ & _ & X); congruence].
    destruct Hi as (w1 & b1 & b2 & w2 & Ew & Es & Ep & Epre & Erem). subst.
    cbn [r_skip]. zl. rewrite !zlen_app in *. zl. destruct (Z.ltb_spec n 0); [lia|]. rewrite wrap_small by lia.
    destruct (walk_short w2 w1 b1 b2 (zlen b1 + n)%Z (S (length (w1 ++ (b1 ++ b2) :: w2)))) as (s & q & E).
    { lia. } { rewrite app_length. simpl. lia. }
    rewrite E. eauto.
Qed.

(** Range on a buffer reader is a plain sub-range. *)
Lemma buf_range : forall a m c pos,
  r_range (zlen a) (zlen a + zlen m) (RBuf (a ++ m ++ c) pos) = Ok (Some [m]).
Proof.
  intros. unfold r_range. zl. 
  destruct (Z.ltb_spec (zlen a) 0); [lia|].
  destruct (Z.ltb_spec (zlen (a ++ m ++ c)) (zlen a + zlen m)) as [Q|Q]; [rewrite !zlen_app in Q; zl; lia|].
  destruct (Z.ltb_spec (zlen a + zlen m) (zlen a)); [lia|]. cbn [orb].
  rewrite slice_mid. reflexivity.
Qed.

(** Range on a wire reader: what the search loop finds. *)
Lemma range_search_skip : forall w1 w2 st en i a cur,
  (a + zlen (concat w1) <= st)%Z -> (a + zlen (concat w1) <= en)%Z -> 
  nonempty_segs (w1 ++ w2) \/ True ->
  (st < en)%Z ->
  range_search st en i (acc_from a (w1 ++ w2)) cur = range_search st en (i + length w1) (acc_from (a + zlen (concat w1)) w2) cur.
Proof.
  induction w1; intros w2 st en i a0 cur H H0 NE LT.
  - simpl. rewrite Nat.add_0_r, Z.add_0_r. reflexivity.
  - simpl app. simpl concat in *. rewrite zlen_app in *. zl.
    change (acc_from a0 (a :: w1 ++ w2)) with (a0 :: acc_from (a0 + zlen a) (w1 ++ w2)).
    assert (E : exists t, acc_from (a0 + zlen a) (w1 ++ w2) = (a0 + zlen a)%Z :: t).
    { destruct (w1 ++ w2); simpl; eauto. }
    destruct E as (t & E).
    transitivity (range_search st en (S i) (acc_from (a0 + zlen a) (w1 ++ w2)) cur).
    + rewrite E. cbn [range_search]. destruct cur as [[[ss sp] es] ep].
      destruct (Z.leb_spec a0 st), (Z.ltb_spec st (a0 + zlen a)), (Z.ltb_spec a0 en), (Z.leb_spec en (a0 + zlen a));
        cbn [andb]; try reflexivity; lia.
    + rewrite IHw1; try lia; auto. simpl length. rewrite <- plus_n_Sm. simpl.
      replace (a0 + (zlen a + zlen (concat w1)))%Z with (a0 + zlen a + zlen (concat w1))%Z by lia. reflexivity.
Qed.

Lemma acc_from_cons : forall a w, exists t, acc_from a w = a :: t.
Proof. intros. destruct w; simpl; eauto. Qed.

Lemma range_search_step : forall st en i a b w cur,
  range_search st en i (acc_from a (b :: w)) cur =
  let '(ss, sp, es, ep) := cur in
  let '(ss, sp) := if ((a <=? st) && (st <? a + zlen b))%Z then (i, (st - a)%Z) else (ss, sp) in
  let '(es, ep) := if ((a <? en) && (en <=? a + zlen b))%Z then (i, (en - a)%Z) else (es, ep) in
  range_search st en (S i) (acc_from (a + zlen b) w) (ss, sp, es, ep).
Proof.
  intros. change (acc_from a (b :: w)) with (a :: acc_from (a + zlen b) w).
  destruct (acc_from_cons (a + zlen b) w) as (t & E). rewrite E. reflexivity.
Qed.

Lemma range_search_after : forall w st en i a cur, (st < a)%Z -> (en <= a)%Z ->
  range_search st en i (acc_from a w) cur = cur.
Proof.
  induction w; intros; [reflexivity|]. rewrite range_search_step. destruct cur as [[[ss sp] es] ep]. zl.
  destruct (Z.leb_spec a0 st), (Z.ltb_spec a0 en); try lia. cbn [andb]. rewrite IHw; auto; lia.
Qed.

(** between the start segment and the end segment *)
Lemma range_search_mid : forall wm w2 st en i a cur, (st < a)%Z -> (a + zlen (concat wm) < en)%Z ->
  range_search st en i (acc_from a (wm ++ w2)) cur
  = range_search st en (i + length wm) (acc_from (a + zlen (concat wm)) w2) cur.
Proof.
  induction wm; intros w2 st en i a0 cur H H0.
  - simpl. rewrite Nat.add_0_r, Z.add_0_r. reflexivity.
  - simpl app. simpl concat in *. rewrite zlen_app in *. zl. rewrite range_search_step.
    destruct cur as [[[ss sp] es] ep].
    destruct (Z.leb_spec a0 st), (Z.ltb_spec a0 en), (Z.leb_spec en (a0 + zlen a)); try lia. cbn [andb].
    rewrite IHwm; try lia. simpl length. rewrite <- plus_n_Sm. simpl.
    replace (a0 + (zlen a + zlen (concat wm)))%Z with (a0 + zlen a + zlen (concat wm))%Z by lia. reflexivity.
Qed.

Lemma acc_total : forall w, nth_error (acc_from 0 w) (length w) = Some (zlen (concat w)).
Proof. intros. rewrite <- (app_nil_r w) at 1. rewrite acc_from_nth. f_equal. Qed.

Lemma acc_all : forall w, firstn (S (length w)) (acc_from 0 w) = acc_from 0 w.
Proof. intros. rewrite <- (app_nil_r w) at 2. apply acc_from_firstn. Qed.

(** a nonempty range inside one segment *)
Lemma wire_range_one : forall w1 a m c w2 seg pos, m <> [] ->
  let w := w1 ++ (a ++ m ++ c) :: w2 in
  r_range (zlen (concat w1 ++ a)) (zlen (concat w1 ++ a) + zlen m) (RWire w seg pos (acc_from 0 w))
  = Ok (Some [m]).
Proof.
  intros. pose proof (zlen_pos _ H). unfold r_range. rewrite acc_total. cbn [bind]. rewrite acc_all.
  subst w. rewrite concat_app. simpl concat. rewrite !zlen_app. zl.
  set (st := (zlen (concat w1) + zlen a)%Z).
  destruct (Z.ltb_spec st 0); [lia|].
  destruct (Z.ltb_spec (zlen (concat w1) + (zlen a + (zlen m + zlen c) + zlen (concat w2))) (st + zlen m)); [lia|].
  destruct (Z.ltb_spec (st + zlen m) st); [lia|]. cbn [orb].
  rewrite range_search_skip; try lia; auto. rewrite range_search_step. rewrite !zlen_app.
  destruct (Z.leb_spec (0 + zlen (concat w1)) st); [|lia].
  destruct (Z.ltb_spec st (0 + zlen (concat w1) + (zlen a + (zlen m + zlen c)))); [|lia].
  destruct (Z.ltb_spec (0 + zlen (concat w1)) (st + zlen m)); [|lia].
  destruct (Z.leb_spec (st + zlen m) (0 + zlen (concat w1) + (zlen a + (zlen m + zlen c)))); [|lia].
  cbn [andb]. 
  rewrite range_search_after by lia. rewrite Nat.eqb_refl. unfold seg_at. simpl Nat.add. rewrite nth_error_mid. cbn [bind].
  replace (st - (0 + zlen (concat w1)))%Z with (zlen a) by lia.
  replace (st + zlen m - (0 + zlen (concat w1)))%Z with (zlen a + zlen m)%Z by lia.
  rewrite slice_mid. reflexivity.
Qed.

(** a range over several segments, when it begins in the first segment or ends
    in the segment after the one it begins in *)
Lemma wire_range_many : forall w1 a1 a2 wm c1 c2 w2 seg pos, a2 <> [] -> c1 <> [] -> (w1 = [] \/ wm = []) ->
  let w := w1 ++ (a1 ++ a2) :: wm ++ (c1 ++ c2) :: w2 in
  r_range (zlen (concat w1 ++ a1)) (zlen (concat w1 ++ a1 ++ a2 ++ concat wm ++ c1)) (RWire w seg pos (acc_from 0 w))
  = Ok (Some (a2 :: wm ++ [c1])).
Proof.
  intros w1 a1 a2 wm c1 c2 w2 seg pos NA NC K w. pose proof (zlen_pos _ NA). pose proof (zlen_pos _ NC).
  unfold r_range. rewrite acc_total. cbn [bind]. rewrite acc_all.
  assert (TOT : zlen (concat w) = (zlen (concat w1) + zlen a1 + zlen a2 + zlen (concat wm) + zlen c1 + zlen c2 + zlen (concat w2))%Z).
  { subst w. rewrite concat_app. simpl. rewrite concat_app. simpl. rewrite !zlen_app. lia. }
  rewrite TOT. rewrite !zlen_app. zl.
  set (st := (zlen (concat w1) + zlen a1)%Z).
  set (en := (zlen (concat w1) + (zlen a1 + (zlen a2 + (zlen (concat wm) + zlen c1))))%Z).
  destruct (Z.ltb_spec st 0); [lia|].
  match goal with |- context [(?x <? en)%Z] => destruct (Z.ltb_spec x en); [lia|] end.
  destruct (Z.ltb_spec en st); [lia|]. cbn [orb].
  subst w. rewrite range_search_skip; try lia; auto. rewrite range_search_step. rewrite !zlen_app.
  destruct (Z.leb_spec (0 + zlen (concat w1)) st); [|lia].
  destruct (Z.ltb_spec st (0 + zlen (concat w1) + (zlen a1 + zlen a2))); [|lia].
  destruct (Z.ltb_spec (0 + zlen (concat w1)) en); [|lia].
  destruct (Z.leb_spec en (0 + zlen (concat w1) + (zlen a1 + zlen a2))); [lia|].
  cbn [andb]. rewrite range_search_mid by lia. rewrite range_search_step. rewrite !zlen_app.
  set (A := (0 + zlen (concat w1) + (zlen a1 + zlen a2) + zlen (concat wm))%Z).
  destruct (Z.leb_spec A st); [lia|]. cbn [andb].
  destruct (Z.ltb_spec A en); [|lia].
  destruct (Z.leb_spec en (A + (zlen c1 + zlen c2))); [|lia]. cbn [andb].
  rewrite range_search_after by lia.
  replace (st - (0 + zlen (concat w1)))%Z with (zlen a1) by lia.
  replace (en - A)%Z with (zlen c1) by lia. simpl Nat.add.
  destruct (Nat.eqb_spec (length w1) (S (length w1 + length wm))); [lia|].
  destruct (Nat.ltb_spec (S (length w1 + length wm + 1)) (length w1)); [lia|].
  replace (S (length w1 + length wm + 1) - length w1)%nat with (S (length wm + 1)) by lia.
  unfold seg_at at 1. rewrite nth_error_mid. cbn [bind]. rewrite slice_tail. cbn [bind].
  change (repeat [] (S (length wm + 1))) with (([] : buf) :: repeat [] (length wm + 1)).
  change (list_set (([] : buf) :: repeat [] (length wm + 1)) 0 a2) with (Ok (a2 :: repeat ([] : buf) (length wm + 1))).
  cbn [bind].
  replace (S (length w1 + length wm) - length w1 - 1)%nat with (length wm) by lia.
  assert (RF : range_fill (w1 ++ (a1 ++ a2) :: wm ++ (c1 ++ c2) :: w2) (S (length w1)) (length wm)
                 (a2 :: repeat ([] : buf) (length wm + 1)) = Ok (a2 :: wm ++ [[]])).
  { destruct K; subst.
    - replace (length wm + 1)%nat with (length wm + 1)%nat by lia. rewrite repeat_app. simpl repeat at 2.
      clear. simpl app. simpl length.
      assert (G : forall wm1 wm2 (x : buf) r1, length r1 = S (length wm1) ->
        range_fill (x :: wm1 ++ wm2 ++ (c1 ++ c2) :: w2) (S (length wm1)) (length wm2) (r1 ++ repeat [] (length wm2) ++ [[]])
        = Ok (r1 ++ wm2 ++ [[]])).
      { intros wm1 wm2. revert wm1. induction wm2; intros; [reflexivity|]. cbn [range_fill length].
        assert (HN : nth_error (x :: wm1 ++ (a :: wm2) ++ (c1 ++ c2) :: w2) (S (length wm1)) = Some a).
        { simpl. apply nth_error_mid. }
        unfold seg_at. rewrite HN. cbn [bind]. unfold list_set.
        rewrite app_length. simpl length. rewrite H.
        match goal with |- context [(?x <? ?y)%nat] => destruct (Nat.ltb_spec x y); [|lia] end.
        rewrite <- H at 1. rewrite firstn_app, firstn_all, Nat.sub_diag. simpl firstn. rewrite app_nil_r.
        simpl repeat. 
        replace (skipn (S (S (length wm1))) (r1 ++ ([] :: repeat [] (length wm2)) ++ [[]])) with (repeat ([] : buf) (length wm2) ++ [[]]).
        2:{ replace (r1 ++ ([] :: repeat [] (length wm2)) ++ [[]]) with ((r1 ++ [[]]) ++ repeat ([] : buf) (length wm2) ++ [[]])
              by (rewrite <- app_assoc; auto).
            replace (S (S (length wm1))) with (length (r1 ++ [[]])) by (rewrite app_length; simpl; lia).
            rewrite skipn_app, skipn_all, Nat.sub_diag. reflexivity. }
        cbn [bind].
        specialize (IHwm2 (wm1 ++ [a]) x (r1 ++ [a])).
        replace (length (wm1 ++ [a])) with (S (length wm1)) in IHwm2 by (rewrite app_length; simpl; lia).
        rewrite <- !app_assoc in IHwm2. simpl app in IHwm2. simpl app. apply IHwm2.
        rewrite app_length. simpl. lia. }
      exact (G [] wm (a1 ++ a2) [a2] eq_refl).
    - reflexivity. }
  rewrite RF. cbn [bind].
  assert (HN : nth_error (w1 ++ (a1 ++ a2) :: wm ++ (c1 ++ c2) :: w2) (S (length w1 + length wm)) = Some (c1 ++ c2)).
  { replace (w1 ++ (a1 ++ a2) :: wm ++ (c1 ++ c2) :: w2) with ((w1 ++ (a1 ++ a2) :: wm) ++ (c1 ++ c2) :: w2)
      by (rewrite <- app_assoc; auto).
    replace (S (length w1 + length wm)) with (length (w1 ++ (a1 ++ a2) :: wm)) by (rewrite app_length; simpl; lia).
    apply nth_error_mid. }
  unfold seg_at. rewrite HN. cbn [bind].
  assert (S0 : slice (c1 ++ c2) 0 (zlen c1) = Ok c1) by exact (slice_mid [] c1 c2).
  rewrite S0. cbn [bind].
  replace (S (length w1 + length wm) - length w1)%nat with (length ((a2 :: wm) ++ [@nil N]) - 1)%nat
    by (rewrite app_length; cbn [length]; lia).
  change (a2 :: wm ++ [[]]) with ((a2 :: wm) ++ [@nil N]). rewrite list_set_last. reflexivity.
Qed.
