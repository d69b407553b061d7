From Verif Require Import Base BaseProofs PrimModel PrimProofs ReaderModel ReaderSpec ReaderProofs.

Lemma app_split_lt : forall {A} (a b m s : list A), a ++ b = m ++ s -> (zlen a < zlen m)%Z ->
  exists m', m = a ++ m' /\ b = m' ++ s /\ m' <> [].
Proof.
  intros A a b m s E H. assert (length a < length m)%nat by (unfold zlen in H; lia).
  exists (skipn (length a) m). 
  assert (E1 : m = a ++ skipn (length a) m).
  { rewrite <- (firstn_skipn (length a) m) at 1. f_equal.
    assert (firstn (length a) (a ++ b) = firstn (length a) (m ++ s)) by congruence.
    rewrite firstn_app, firstn_all, Nat.sub_diag in H1. simpl in H1. rewrite app_nil_r in H1.
    rewrite firstn_app in H1. replace (length a - length m)%nat with O in H1 by lia. simpl in H1.
    rewrite app_nil_r in H1. auto. }
  split; auto. split.
  - rewrite E1 in E at 1. rewrite <- app_assoc in E. apply app_inv_head in E. auto.
  - intro. assert (length (skipn (length a) m) = 0)%nat by (rewrite H1; auto).
    rewrite skipn_length in H2. lia.
Qed.

Lemma app_split_ge : forall {A} (a b m s : list A), a ++ b = m ++ s -> (zlen m <= zlen a)%Z ->
  exists a', a = m ++ a' /\ s = a' ++ b.
Proof.
  intros A a b m s E H. assert (length m <= length a)%nat by (unfold zlen in H; lia).
  exists (skipn (length m) a).
  assert (E1 : a = m ++ skipn (length m) a).
  { rewrite <- (firstn_skipn (length m) a) at 1. f_equal.
    assert (firstn (length m) (a ++ b) = firstn (length m) (m ++ s)) by congruence.
    rewrite (firstn_app _ m s), firstn_all, Nat.sub_diag in H1. simpl in H1. rewrite app_nil_r in H1.
    rewrite firstn_app in H1. replace (length m - length a)%nat with O in H1 by lia. simpl in H1.
    rewrite app_nil_r in H1. auto. }
  split; auto. rewrite E1 in E at 1. rewrite <- app_assoc in E. apply app_inv_head in E. auto.
Qed.

Lemma slice_mid : forall {A} (b1 m b2 : list A),
  slice (b1 ++ m ++ b2) (zlen b1) (zlen b1 + zlen m)%Z = Ok m.
Proof. intros. apply slice_app. Qed.

Lemma slice_tail : forall {A} (b1 b2 : list A), slice (b1 ++ b2) (zlen b1) (zlen (b1 ++ b2)) = Ok b2.
Proof.
  intros. pose proof (slice_app b1 b2 []). rewrite app_nil_r in H. rewrite zlen_app. auto.
Qed.

Ltac zl := repeat match goal with
  | |- context [zlen ?l] => lazymatch goal with H : (0 <= zlen l)%Z |- _ => fail | _ => pose proof (zlen_nonneg l) end
  | _ : context [zlen ?l] |- _ => lazymatch goal with H : (0 <= zlen l)%Z |- _ => fail | _ => pose proof (zlen_nonneg l) end
  end.

Lemma wire_readbuf_loop_ok : forall w2 w1 b1 b2 m s ret fuel,
  b2 ++ concat w2 = m ++ s -> (length w2 + 1 < fuel)%nat ->
  (zlen (concat w1 ++ b1 ++ m ++ s) < mem_limit)%Z ->
  exists seg' pos',
    wire_readbuf_loop fuel (w1 ++ (b1 ++ b2) :: w2) (length w1) (zlen b1) (zlen m) ret
      = (Ok (ret ++ m), (seg', pos'))
    /\ inside (w1 ++ (b1 ++ b2) :: w2) seg' pos' (concat w1 ++ b1 ++ m) s.
Proof.
  induction w2 as [|b3 w3 IH]; intros w1 b1 b2 m s ret fuel E F L;
    (destruct fuel as [|fuel]; [simpl in F; lia|]); simpl wire_readbuf_loop;
    destruct (Z.ltb_spec 0 (zlen m)) as [P|P].
  - rewrite nth_error_mid.
    rewrite !zlen_app in L. zl. rewrite wrap_small by lia.
    destruct (Z.ltb_spec (zlen (b1 ++ b2)) (zlen b1 + zlen m)) as [Q|Q].
    + exfalso. simpl in E. rewrite app_nil_r in E. subst b2.
      rewrite !zlen_app in Q. zl. lia.
    + rewrite zlen_app in Q.
      destruct (app_split_ge _ _ _ _ E) as (a' & -> & ->); [lia|].
      rewrite slice_mid. eexists _, _. split; [reflexivity|].
      exists w1, (b1 ++ m), a', []. rewrite <- !app_assoc. repeat split; auto. rewrite zlen_app. auto.
  - assert (m = []). { destruct m; auto. rewrite zlen_cons in P. zl. lia. } subst m.
    rewrite app_nil_r. eexists _, _. split; [reflexivity|]. 
    exists w1, b1, b2, []. rewrite app_nil_r. repeat split; auto.
  - rewrite nth_error_mid.
    rewrite !zlen_app in L. zl. rewrite wrap_small by lia.
    destruct (Z.ltb_spec (zlen (b1 ++ b2)) (zlen b1 + zlen m)) as [Q|Q].
    + rewrite zlen_app in Q.
      destruct (app_split_lt _ _ _ _ E) as (m' & -> & E2 & _); [lia|].
      rewrite slice_tail. simpl concat in E2.
      destruct (IH (w1 ++ [b1 ++ b2]) [] b3 m' s (ret ++ b2) fuel) as (sg & ps & EE & II); auto.
      { simpl in F. lia. }
      { rewrite concat_app. simpl. rewrite !app_nil_r. rewrite !zlen_app. rewrite !zlen_app in *. lia. }
      replace (zlen (b2 ++ m') - (zlen (b1 ++ b2) - zlen b1))%Z with (zlen m') by (rewrite !zlen_app; lia).
      rewrite app_length in EE. simpl length in EE. rewrite Nat.add_1_r in EE.
      rewrite <- app_assoc in EE. simpl app in EE. rewrite zlen_nil in EE.
      exists sg, ps. rewrite EE. rewrite <- !app_assoc in *. split; [reflexivity|].
      simpl app in II. rewrite concat_app in II. simpl concat in II. rewrite app_nil_r in II.
      rewrite <- !app_assoc in II. exact II.
    + rewrite zlen_app in Q.
      destruct (app_split_ge _ _ _ _ E) as (a' & -> & ->); [lia|].
      rewrite slice_mid. eexists _, _. split; [reflexivity|].
      exists w1, (b1 ++ m), a', (b3 :: w3). rewrite <- !app_assoc. repeat split; auto. rewrite zlen_app. auto.
  - assert (m = []). { destruct m; auto. rewrite zlen_cons in P. zl. lia. } subst m.
    rewrite app_nil_r. eexists _, _. split; [reflexivity|].
    exists w1, b1, b2, (b3 :: w3). rewrite app_nil_r. repeat split; auto.
Qed.

Lemma wire_readbuf_loop_short : forall w2 w1 b1 b2 l ret fuel,
  (length w2 + 2 < fuel)%nat -> (zlen (b2 ++ concat w2) < l)%Z -> (l < mem_limit)%Z ->
  (zlen b1 + zlen b2 < mem_limit)%Z ->
  exists st, wire_readbuf_loop fuel (w1 ++ (b1 ++ b2) :: w2) (length w1) (zlen b1) l ret
      = (Err EUnexpectedEOF, st).
Proof.
  induction w2 as [|b3 w3 IH]; intros w1 b1 b2 l ret fuel F L1 L2 L3;
    (destruct fuel as [|fuel]; [simpl in F; lia|]); simpl wire_readbuf_loop;
    rewrite zlen_app in L1; zl; (destruct (Z.ltb_spec 0 l) as [P|P]; [|lia]);
    rewrite nth_error_mid; rewrite wrap_small by lia;
    (destruct (Z.ltb_spec (zlen (b1 ++ b2)) (zlen b1 + l)) as [Q|Q]; [|rewrite zlen_app in Q; lia]);
    rewrite slice_tail; rewrite zlen_app.
  - replace (l - (zlen b1 + zlen b2 - zlen b1))%Z with (l - zlen b2)%Z by lia.
    destruct fuel; [simpl in F; lia|]. cbn [wire_readbuf_loop].
    destruct (Z.ltb_spec 0 (l - zlen b2)) as [P2|P2]; [|simpl in L1; rewrite zlen_nil in L1; lia].
    match goal with |- context [nth_error ?a ?b] => assert (HN : nth_error a b = None) end.
    { apply nth_error_None. rewrite app_length. simpl. lia. }
    rewrite HN. eauto.
  - replace (l - (zlen b1 + zlen b2 - zlen b1))%Z with (l - zlen b2)%Z by lia.
    simpl concat in L1. rewrite zlen_app in L1. zl.
    destruct (IH (w1 ++ [b1 ++ b2]) [] b3 (l - zlen b2)%Z (ret ++ b2) fuel) as (st & EE).
    { simpl in F. lia. } { rewrite zlen_app. lia. } { lia. } { rewrite zlen_nil. lia. }
    rewrite app_length in EE. simpl length in EE. rewrite Nat.add_1_r in EE.
    rewrite <- app_assoc in EE. simpl app in EE. rewrite zlen_nil in EE. rewrite EE. eauto.
Qed.

(** The list of segments produced by ReadWire joins to what ReadBuf returns. *)
Lemma wire_read_loop_readbuf : forall fuel w seg pos l ret,
  match wire_read_loop fuel w seg pos l ret with
  | (Ok x, st) => wire_readbuf_loop fuel w seg pos l (concat ret) = (Ok (concat x), st)
  | (Err e, st) => wire_readbuf_loop fuel w seg pos l (concat ret) = (Err e, st)
  | (Panic, st) => wire_readbuf_loop fuel w seg pos l (concat ret) = (Panic, st)
  | (Hang, st) => wire_readbuf_loop fuel w seg pos l (concat ret) = (Hang, st)
  end.
Proof.
  induction fuel; intros; simpl.
  - destruct (0 <? l)%Z; auto.
  - destruct (0 <? l)%Z; auto. destruct (nth_error w seg); auto.
    destruct (zlen l0 <? wrap64 (pos + l))%Z.
    + destruct (slice l0 pos (zlen l0)); auto.
      specialize (IHfuel w (S seg) 0%Z (l - (zlen l0 - pos))%Z (ret ++ [a])).
      replace (concat (ret ++ [a])) with (concat ret ++ a) in IHfuel
        by (rewrite concat_app; simpl; rewrite app_nil_r; auto).
      exact IHfuel.
    + destruct (slice l0 pos (wrap64 (pos + l))); auto.
      rewrite concat_app; simpl; rewrite app_nil_r; auto.
Qed.

Definition same_kind (r r' : reader) : Prop := is_buf_reader r <-> is_buf_reader r'.

Lemma at_read_buf : forall r pre m s, At r pre (m ++ s) ->
  (is_buf_reader r \/ m ++ s <> []) ->
  (zlen m <= max_alloc)%Z ->
  exists r', r_read_buf (zlen m) r = (Ok m, r') /\ At r' (pre ++ m) s /\ same_kind r r'.
Proof.
  intros r pre m s [HL H] K LM. destruct r as [b pos|w seg pos acc].
  - destruct H; subst. simpl. rewrite !zlen_app in HL. zl. rewrite wrap_small by lia.
    destruct (Z.ltb_spec (zlen (pre ++ m ++ s)) (zlen pre + zlen m)) as [Q|Q].
    { rewrite !zlen_app in Q. lia. }
    rewrite slice_mid. eexists. split; [reflexivity|]. split; [|split; auto].
    split. rewrite <- app_assoc, !zlen_app. lia.
    rewrite <- app_assoc. split; auto. rewrite zlen_app; auto.
  - destruct H as (NE & Ea & Hi). destruct K as [K|K]; [inversion K|]. simpl.
    destruct (next_seg_spec _ _ _ _ _ NE Hi) as (seg' & pos' & E & [(_ & D)|(D & _)]); [|congruence].
    rewrite E. destruct (m ++ s) as [|y0 ms0] eqn:EMS; [congruence|]. rewrite <- EMS in *. cbn [negb andb].
    destruct D as (w1 & b1 & y & b2 & w2 & Ew & Es & Ep & Epre & Erem). subst.
    unfold seg_at. rewrite nth_error_mid.
    assert (HL' := HL). rewrite Erem in HL'. rewrite !zlen_app in HL'. rewrite !zlen_app in HL. zl.
    rewrite wrap_small by lia.
    destruct (Z.leb_spec (zlen b1 + zlen m) (zlen (b1 ++ y :: b2))) as [Q|Q].
    + rewrite zlen_app in Q.
      destruct (app_split_ge (y :: b2) (concat w2) m s) as (a' & E1 & ->); [auto|lia|].
      rewrite E1. rewrite slice_mid. eexists. split; [reflexivity|]. split; [|split; auto].
      split. rewrite <- !app_assoc, !zlen_app. rewrite !zlen_app in *. lia.
      split; [rewrite <- E1; auto|]. split; [rewrite <- E1; auto|]. left.
      exists w1, (b1 ++ m), a', w2. rewrite <- !app_assoc. repeat split; auto. rewrite zlen_app; auto.
    + assert (make_ok 1 (zlen m) = true) as MK.
      { unfold make_ok. destruct (Z.leb_spec 0 (zlen m)), (Z.leb_spec (zlen m * 1) max_alloc); simpl; auto; lia. }
      rewrite MK.
      destruct (wire_readbuf_loop_ok w2 w1 b1 (y :: b2) m s [] (length (w1 ++ (b1 ++ y :: b2) :: w2) + 2)) as (sg & ps & EE & II).
      { auto. } { rewrite app_length. simpl. lia. }
      { rewrite !zlen_app in *. lia. }
      rewrite EE. eexists. split; [reflexivity|]. split; [|split; auto].
      split. { rewrite <- !app_assoc, !zlen_app. rewrite !zlen_app in *. lia. }
      split; auto. split; auto. left. rewrite <- app_assoc. exact II.
Qed.

Lemma at_read_buf_short : forall r pre rem l, At r pre rem -> (zlen rem < l)%Z -> (l <= max_alloc)%Z ->
  exists r', r_read_buf l r = (Err EUnexpectedEOF, r').
Proof.
  intros r pre rem l [HL H] L1 L2. assert (l < mem_limit)%Z by (unfold max_alloc, mem_limit in *; lia).
  destruct r as [b pos|w seg pos acc].
  - destruct H; subst. simpl. rewrite !zlen_app in HL. zl. rewrite wrap_small by lia.
    destruct (Z.ltb_spec (zlen (pre ++ rem)) (zlen pre + l)) as [Q|Q]; [eauto|].
    rewrite zlen_app in Q. lia.
  - destruct H as (NE & Ea & Hi). simpl.
    destruct (next_seg_spec _ _ _ _ _ NE Hi) as (seg' & pos' & E & D). rewrite E.
    zl. destruct rem as [|y0 rem0].
    { simpl. destruct (Z.ltb_spec 0 l); [eauto|]. rewrite zlen_nil in L1. lia. }
    simpl negb. simpl andb. destruct D as [(_ & D)|(D & _)]; [|congruence].
    destruct D as (w1 & b1 & y & b2 & w2 & Ew & Es & Ep & Epre & Erem). subst. inv Erem.
    unfold seg_at. rewrite nth_error_mid. rewrite zlen_cons in L1.
    rewrite !zlen_app, zlen_cons in HL. rewrite !zlen_app in *. zl. rewrite wrap_small by lia.
    destruct (Z.leb_spec (zlen b1 + l) (zlen b1 + zlen (y :: b2))) as [Q|Q].
    { rewrite zlen_cons in Q. lia. }
    assert (make_ok 1 l = true) as MK.
    { unfold make_ok. destruct (Z.leb_spec 0 l), (Z.leb_spec (l * 1) max_alloc); simpl; auto; lia. }
    rewrite MK.
    destruct (wire_readbuf_loop_short w2 w1 b1 (y :: b2) l [] (length (w1 ++ (b1 ++ y :: b2) :: w2) + 2)) as (st & EE).
    { rewrite app_length. simpl. lia. }
    { rewrite zlen_app, zlen_cons. lia. } { lia. } { rewrite zlen_cons. lia. }
    rewrite EE. destruct st. eauto.
Qed.
