From Verif Require Import Base BaseProofs PrimModel PrimProofs ReaderModel ReaderSpec.

Ltac inv H := inversion H; subst; clear H.

Lemma zlen_nil : forall {A}, zlen (@nil A) = 0%Z.
Proof. reflexivity. Qed.

Lemma zlen_pos : forall {A} (l : list A), l <> [] -> (0 < zlen l)%Z.
Proof. intros. destruct l; [congruence|]. rewrite zlen_cons. pose proof (zlen_nonneg l). lia. Qed.

Lemma zlen_concat_app : forall (a b : wire), zlen (concat (a ++ b)) = (zlen (concat a) + zlen (concat b))%Z.
Proof. intros. rewrite concat_app, zlen_app. reflexivity. Qed.

Lemma nth_error_mid : forall {A} (a : list A) x b, nth_error (a ++ x :: b) (length a) = Some x.
Proof. intros. rewrite nth_error_app2, Nat.sub_diag by lia. reflexivity. Qed.

Lemma wrap_small : forall z, (0 <= z < 2 * mem_limit)%Z -> wrap64 z = z.
Proof. intros. apply wrap64_id. unfold mem_limit, Ztwo63 in *. lia. Qed.

Lemma at_new_buf : forall b, (zlen b < mem_limit)%Z -> At (new_buffer_reader b) [] b.
Proof. intros. split; simpl; auto. Qed.

Lemma nonempty_mid : forall w1 b w2, nonempty_segs (w1 ++ b :: w2) -> Forall (fun b => b <> []) w2.
Proof.
  unfold nonempty_segs. intros. destruct w1; simpl in H; auto.
  apply Forall_app in H. destruct H as [_ H]. inversion H; auto.
Qed.

Lemma at_new_wire : forall w, nonempty_segs w -> (zlen (concat w) < mem_limit)%Z ->
  At (new_wire_reader w) [] (concat w).
Proof.
  intros. split; simpl; auto. repeat split; auto.
  destruct w as [|b w].
  - right. repeat split; auto.
  - left. exists [], [], b, w. repeat split; auto.
Qed.

(** [next_seg] from a sane position: stays or moves to the next segment *)
Lemma next_seg_spec : forall w seg pos pre rem, nonempty_segs w ->
  inside w seg pos pre rem \/ at_end w seg pos pre rem ->
  exists seg' pos',
    next_seg w seg pos = (seg', pos', match rem with [] => false | _ => true end) /\
    ((rem <> [] /\ exists w1 b1 x b2 w2, w = w1 ++ (b1 ++ x :: b2) :: w2 /\ seg' = length w1 /\
        pos' = zlen b1 /\ pre = concat w1 ++ b1 /\ rem = x :: b2 ++ concat w2)
     \/ (rem = [] /\ at_end w seg' pos' pre rem)).
Proof.
  intros w seg pos pre rem NE [I|E].
  - destruct I as (w1 & b1 & b2 & w2 & Ew & Es & Ep & Epre & Erem). subst.
    unfold next_seg. rewrite nth_error_mid.
    destruct b2 as [|x b2].
    + rewrite app_nil_r. destruct (Z.leb_spec (zlen b1) (zlen b1)); [|lia].
      destruct w2 as [|b3 w2].
      * exists (S (length w1)), 0%Z. simpl. split.
        { f_equal. rewrite app_length. simpl. apply Nat.ltb_ge. lia. }
        right. split; auto. repeat split; auto.
        rewrite app_length; simpl; lia. rewrite concat_app. simpl. rewrite !app_nil_r. auto.
      * assert (Hb3 : b3 <> []).
        { apply nonempty_mid in NE. inversion NE; subst. auto. }
        destruct b3 as [|y b3]; [congruence|].
        exists (S (length w1)), 0%Z. simpl. split.
        { f_equal. rewrite app_length. simpl. apply Nat.ltb_lt. lia. }
        left. split; [congruence|].
        exists (w1 ++ [b1]), [], y, b3, w2. rewrite <- app_assoc. simpl.
        rewrite app_length. simpl. repeat split; auto. lia.
        rewrite concat_app. simpl. rewrite !app_nil_r. auto.
    + destruct (Z.leb_spec (zlen (b1 ++ x :: b2)) (zlen b1)) as [H|H].
      { rewrite zlen_app, zlen_cons in H. pose proof (zlen_nonneg b2). lia. }
      exists (length w1), (zlen b1). split; auto.
      left. split; [simpl; congruence|]. exists w1, b1, x, b2, w2. repeat split; auto.
  - destruct E as (Es & Ep & Epre & Erem). subst. unfold next_seg.
    assert (nth_error w (length w) = None) by (apply nth_error_None; lia). rewrite H.
    exists (length w), 0%Z. split; auto. right. repeat split; auto.
Qed.

Lemma at_read_byte : forall r pre x s, At r pre (x :: s) ->
  exists r', r_read_byte r = (Ok x, r') /\ At r' (pre ++ [x]) s /\ (is_buf_reader r <-> is_buf_reader r').
Proof.
  intros r pre x s [HL H]. destruct r as [b pos|w seg pos acc].
  - destruct H; subst. simpl.
    destruct (Z.leb_spec (zlen (pre ++ x :: s)) (zlen pre)).
    { rewrite zlen_app, zlen_cons in H. pose proof (zlen_nonneg s). lia. }
    rewrite index_app. eexists. split; [reflexivity|]. split; [|simpl; tauto].
    split. rewrite <- app_assoc. auto.
    rewrite <- app_assoc. split; auto. rewrite zlen_app. reflexivity.
  - destruct H as (NE & Ea & Hi). simpl.
    destruct (next_seg_spec _ _ _ _ _ NE Hi) as (seg' & pos' & E & [(_ & D)|(D & _)]); [|congruence].
    rewrite E. simpl.
    destruct D as (w1 & b1 & y & b2 & w2 & Ew & Es & Ep & Epre & Erem). inv Erem.
    unfold seg_at. rewrite nth_error_mid, index_app.
    eexists. split; [reflexivity|]. split; [|simpl; tauto]. split.
    { rewrite <- app_assoc. exact HL. }
    split; auto. split; auto. left.
    exists w1, (b1 ++ [y]), b2, w2. rewrite <- !app_assoc. simpl. repeat split; auto.
    rewrite zlen_app. reflexivity.
Qed.

Lemma at_read_byte_eof : forall r pre, At r pre [] ->
  exists r', r_read_byte r = (Err EEOF, r') /\ At r' pre [] /\ (is_buf_reader r <-> is_buf_reader r').
Proof.
  intros r pre [HL H]. destruct r as [b pos|w seg pos acc].
  - destruct H; subst. simpl.
    destruct (Z.leb_spec (zlen (pre ++ [])) (zlen pre)).
    { eexists. split; [reflexivity|]. split; [split; auto|tauto]. }
    rewrite app_nil_r in H. lia.
  - destruct H as (NE & Ea & Hi). simpl.
    destruct (next_seg_spec _ _ _ _ _ NE Hi) as (seg' & pos' & E & [(D & _)|(_ & D)]); [congruence|].
    rewrite E. simpl. eexists. split; [reflexivity|]. split; [split; auto|simpl; tauto].
Qed.

Lemma at_read_tl_loop : forall bs r pre s v, At r pre (bs ++ s) -> bytes_ok bs ->
  (N.of_nat (length bs) <= 8)%N -> (v * 256 ^ nlen bs + unbe bs < two64)%N ->
  exists r', read_tl_loop (length bs) v r = (Ok (v * 256 ^ nlen bs + unbe bs)%N, r')
   /\ At r' (pre ++ bs) s /\ (is_buf_reader r <-> is_buf_reader r').
Proof.
  induction bs; intros r pre s v H B L F.
  - simpl. exists r. rewrite app_nil_r. split; [|split]; try tauto.
    f_equal. f_equal. unfold nlen; simpl. change (256 ^ 0)%N with 1%N. change (unbe []) with 0%N. lia.
  - simpl app in H. destruct (at_read_byte _ _ _ _ H) as (r1 & E1 & A1 & T1).
    simpl read_tl_loop. rewrite E1. inversion B; subst. unfold byte_ok in *.
    assert (U : unbe (a :: bs) = (a * 256 ^ nlen bs + unbe bs)%N).
    { clear. unfold unbe at 1. simpl.
      assert (G : forall l acc, fold_left (fun a b => (a * 256 + b)%N) l acc = (acc * 256 ^ nlen l + unbe l)%N).
      { induction l using rev_ind; intros. cbn. change (256 ^ nlen (@nil N))%N with 1%N. change (unbe []) with 0%N. lia.
        rewrite fold_left_app, IHl, unbe_app. simpl.
        replace (nlen (l ++ [x])) with (N.succ (nlen l)) by (rewrite nlen_app; unfold nlen; simpl; lia).
        rewrite N.pow_succ_r'. lia. }
      rewrite G. f_equal. }
    assert (P : (256 ^ nlen (a :: bs) = 256 * 256 ^ nlen bs)%N).
    { replace (nlen (a :: bs)) with (N.succ (nlen bs)) by (unfold nlen; simpl length; lia).
      apply N.pow_succ_r'. }
    rewrite U in F. rewrite P in F.
    assert (Q : (1 <= 256 ^ nlen bs)%N).
    { assert (256 ^ nlen bs <> 0)%N by (apply N.pow_nonzero; lia). lia. }
    assert (V : ((v * 256) mod two64 = v * 256)%N).
    { apply N.mod_small. set (q := (256 ^ nlen bs)%N) in *.
      eapply N.le_lt_trans; [|exact F].
      assert (v * 256 <= v * (256 * q))%N by (apply N.mul_le_mono_l; lia). lia. }
    rewrite V.
    destruct (IHbs r1 (pre ++ [a]) s (v * 256 + a)%N A1 H3) as (r2 & E2 & A2 & T2).
    { simpl in L. lia. }
    { rewrite N.mul_add_distr_r. lia. }
    exists r2. rewrite E2. rewrite <- app_assoc in A2. split; [|split]; try tauto.
    f_equal. f_equal. rewrite U, P. rewrite N.mul_add_distr_r. lia.
Qed.

Lemma at_read_tl : forall v r pre s, u64_ok v -> At r pre (tl_enc v ++ s) ->
  exists r', read_tl r = (Ok v, r') /\ At r' (pre ++ tl_enc v) s /\ (is_buf_reader r <-> is_buf_reader r').
Proof.
  intros v r pre s Hv H. unfold u64_ok, two64 in Hv.
  unfold tl_enc in *. unfold read_tl.
  assert (G : forall c k, (253 <= c < 256)%N -> (k <= 8)%nat -> 
     unbe (be k v) = v ->
     At r pre ((c :: be k v) ++ s) ->
     exists r', match r_read_byte r with
      | (Ok x, r0) => if (x <=? 252)%N then (Ok x, r0) else read_tl_loop k 0 r0 
      | (o, r0) => (o, r0) end = (Ok v, r') /\ At r' (pre ++ c :: be k v) s /\ (is_buf_reader r <-> is_buf_reader r')).
  { intros c k Hc Hk Hu HA. simpl app in HA.
    destruct (at_read_byte _ _ _ _ HA) as (r1 & E1 & A1 & T1). rewrite E1.
    destruct (N.leb_spec c 252); [lia|].
    pose proof (at_read_tl_loop (be k v) r1 (pre ++ [c]) s 0 A1 (be_ok _ _)) as Q.
    rewrite be_length in Q. rewrite Hu in Q. rewrite N.mul_0_l, N.add_0_l in Q.
    destruct Q as (r2 & E2 & A2 & T2). lia. unfold two64; lia.
    exists r2. rewrite E2. rewrite <- app_assoc in A2. split; [reflexivity|]. split; auto. tauto. }
  destruct (N.leb_spec v 252).
  - simpl app in H. destruct (at_read_byte _ _ _ _ H) as (r1 & E1 & A1 & T1). rewrite E1.
    rewrite N.mod_small in * by lia. destruct (N.leb_spec v 252); [|lia].
    eexists; split; [reflexivity|]. auto.
  - destruct (N.leb_spec v 65535); [|destruct (N.leb_spec v 4294967295)].
    + destruct (G 253%N 2%nat) as (r' & E & A & T); try lia; auto.
      { apply unbe_be_small. rewrite pow_two16; lia. }
      exists r'. split; auto. rewrite <- E.
      destruct (at_read_byte _ _ _ _ H) as (r1 & E1 & _). rewrite E1. reflexivity.
    + destruct (G 254%N 4%nat) as (r' & E & A & T); try lia; auto.
      { apply unbe_be_small. rewrite pow_two32; lia. }
      exists r'. split; auto. rewrite <- E.
      destruct (at_read_byte _ _ _ _ H) as (r1 & E1 & _). rewrite E1. reflexivity.
    + destruct (G 255%N 8%nat) as (r' & E & A & T); try lia; auto.
      { apply unbe_be_small. rewrite pow_two64; lia. }
      exists r'. split; auto. rewrite <- E.
      destruct (at_read_byte _ _ _ _ H) as (r1 & E1 & _). rewrite E1. reflexivity.
Qed.

(** Truncated number bytes *)
Lemma at_read_tl_loop_short : forall bs r pre v n, At r pre bs -> (length bs < n)%nat ->
  exists r', read_tl_loop n v r = (Err EUnexpectedEOF, r').
Proof.
  induction bs; intros.
  - destruct n; [simpl in *; lia|]. simpl. destruct (at_read_byte_eof _ _ H) as (r' & E & _). rewrite E. eauto.
  - destruct n; [simpl in *; lia|]. simpl. destruct (at_read_byte _ _ _ _ H) as (r1 & E1 & A1 & _).
    rewrite E1. eapply IHbs; eauto. simpl in *; lia.
Qed.

Lemma at_read_tl_empty : forall r pre, At r pre [] -> exists r', read_tl r = (Err EEOF, r').
Proof. intros. unfold read_tl. destruct (at_read_byte_eof _ _ H) as (r' & E & _). rewrite E. eauto. Qed.

Lemma at_read_tl_trunc : forall v r pre p q, u64_ok v -> tl_enc v = p ++ q -> p <> [] -> q <> [] ->
  At r pre p -> exists r', read_tl r = (Err EUnexpectedEOF, r').
Proof.
  intros v r pre p q Hv E Hp Hq A. destruct p as [|c p]; [congruence|].
  unfold read_tl. destruct (at_read_byte _ _ _ _ A) as (r1 & E1 & A1 & _). rewrite E1.
  assert (LQ : (0 < length q)%nat) by (destruct q; [congruence|simpl; lia]).
  unfold tl_enc in E.
  destruct (N.leb_spec v 252).
  { simpl in E. inversion E. destruct p; simpl in *; subst; try congruence. }
  destruct (N.leb_spec v 65535); [|destruct (N.leb_spec v 4294967295)].
  - inversion E; subst. change (253 <=? 252)%N with false. change (253 =? 253)%N with true. cbv iota.
    eapply at_read_tl_loop_short; eauto.
    pose proof (f_equal (@length N) H3). rewrite app_length in H1. simpl in H1. lia.
  - inversion E; subst. change (254 <=? 252)%N with false. change (254 =? 253)%N with false.
    change (254 =? 254)%N with true. cbv iota.
    eapply at_read_tl_loop_short; eauto.
    pose proof (f_equal (@length N) H4). rewrite app_length in H2. simpl in H2. lia.
  - inversion E; subst. change (255 <=? 252)%N with false. change (255 =? 253)%N with false.
    change (255 =? 254)%N with false. cbv iota.
    eapply at_read_tl_loop_short; eauto.
    pose proof (f_equal (@length N) H4). rewrite app_length in H2. simpl in H2. lia.
Qed.
