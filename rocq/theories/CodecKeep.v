(** Reading never replaces the buffers of a reader. *)
From Verif Require Import Base BaseProofs PrimModel PrimProofs ReaderModel ReaderSpec ReaderProofs ReaderProofs2 ReaderProofs3 ReaderProofs4 NameModel NameProofs CodecModel CodecSpec CodecProofs CodecSpec2 CodecPar PropsReaderProofs.

Definition reader_wire (r : reader) : option wire := match r with RBuf _ _ => None | RWire w _ _ _ => Some w end.

Lemma kw_read : forall n r, reader_wire (snd (r_read n r)) = reader_wire r.
Proof.
  intros n [b pos|w seg pos acc]; cbn [r_read].
  - repeat match goal with |- context [if ?c then _ else _] => destruct c | |- context [match ?x with Ok _ => _ | Err _ => _ | Panic => _ | Hang => _ end] => destruct x end; reflexivity.
  - destruct (next_seg w seg pos) as [[s p] m].
    repeat match goal with |- context [if ?c then _ else _] => destruct c | |- context [match ?x with Ok _ => _ | Err _ => _ | Panic => _ | Hang => _ end] => destruct x end; reflexivity.
Qed.
Lemma kw_byte : forall r, reader_wire (snd (r_read_byte r)) = reader_wire r.
Proof.
  intros [b pos|w seg pos acc]; cbn [r_read_byte].
  - repeat match goal with |- context [if ?c then _ else _] => destruct c | |- context [match ?x with Ok _ => _ | Err _ => _ | Panic => _ | Hang => _ end] => destruct x end; reflexivity.
  - destruct (next_seg w seg pos) as [[s p] m].
    repeat match goal with |- context [if ?c then _ else _] => destruct c | |- context [match ?x with Ok _ => _ | Err _ => _ | Panic => _ | Hang => _ end] => destruct x end; reflexivity.
Qed.
Lemma kw_wire : forall l r, reader_wire (snd (r_read_wire l r)) = reader_wire r.
Proof.
  intros l [b pos|w seg pos acc]; cbn [r_read_wire].
  - repeat match goal with |- context [if ?c then _ else _] => destruct c | |- context [match ?x with Ok _ => _ | Err _ => _ | Panic => _ | Hang => _ end] => destruct x end; reflexivity.
  - destruct (next_seg w seg pos) as [[s p] m]. destruct (_ && _); [reflexivity|]. destruct (wire_read_loop _ _ _ _ _ _) as [o [s' p']]. reflexivity.
Qed.
Lemma kw_buf : forall l r, reader_wire (snd (r_read_buf l r)) = reader_wire r.
Proof.
  intros l [b pos|w seg pos acc]; cbn [r_read_buf].
  - repeat match goal with |- context [if ?c then _ else _] => destruct c | |- context [match ?x with Ok _ => _ | Err _ => _ | Panic => _ | Hang => _ end] => destruct x end; reflexivity.
  - destruct (next_seg w seg pos) as [[s p] m]. destruct (_ && _); [reflexivity|]. destruct (wire_readbuf_loop _ _ _ _ _ _) as [o [s' p']].
    repeat match goal with |- context [if ?c then _ else _] => destruct c | |- context [match ?x with Ok _ => _ | Err _ => _ | Panic => _ | Hang => _ end] => destruct x end; reflexivity.
Qed.
Lemma kw_skip : forall n r, reader_wire (snd (r_skip n r)) = reader_wire r.
Proof.
  intros n [b pos|w seg pos acc]; cbn [r_skip].
  - cbv zeta. destruct (_ <? 0)%Z; [reflexivity|]. destruct (_ <? _)%Z; reflexivity.
  - destruct (n <? 0)%Z; [reflexivity|]. destruct (walk _ _ _ _) as [[[[] s] p]|e| |]; reflexivity.
Qed.
Lemma kw_tl_loop : forall n v r, reader_wire (snd (read_tl_loop n v r)) = reader_wire r.
Proof.
  induction n as [|n IH]; intros v r; [reflexivity|]. cbn [read_tl_loop]. pose proof (kw_byte r) as H. destruct (r_read_byte r) as [[x|[]| |] r']; cbn [snd] in H |- *; auto.
  rewrite IH. auto.
Qed.
Lemma kw_tl : forall r, reader_wire (snd (read_tl r)) = reader_wire r.
Proof.
  intros r. unfold read_tl. pose proof (kw_byte r) as H. destruct (r_read_byte r) as [[x|e| |] r']; cbn [snd] in H |- *; auto.
  destruct (x <=? 252)%N; [exact H|]. destruct (x =? 253)%N; [rewrite kw_tl_loop; exact H|]. destruct (x =? 254)%N; rewrite kw_tl_loop; exact H.
Qed.
Lemma kw_loop : forall f n acc r, reader_wire (snd (read_loop f n acc r)) = reader_wire r.
Proof.
  induction f as [|f IH]; intros n acc r; cbn [read_loop]; destruct (n <=? 0)%Z; try reflexivity.
  pose proof (kw_read n r) as H. destruct (r_read n r) as [[x|e| |] r']; cbn [snd] in H |- *; auto. rewrite IH. auto.
Qed.
Lemma kw_full : forall n r, reader_wire (snd (read_full n r)) = reader_wire r.
Proof.
  intros n r. unfold read_full. pose proof (kw_loop (reader_fuel r) n [] r) as H. destruct (read_loop _ _ _ _) as [[[c oe]|e| |] r']; cbn [snd] in H |- *; auto.
  destruct oe as [e|]; destruct c; try exact H; destruct e; exact H.
Qed.
Lemma kw_copy : forall n r, reader_wire (snd (copy_n n r)) = reader_wire r.
Proof.
  intros n r. unfold copy_n. pose proof (kw_loop (reader_fuel r) n [] r) as H. destruct (read_loop _ _ _ _) as [[[c [e|]]|e| |] r']; cbn [snd] in H |- *; auto.
Qed.
Lemma kw_delegate : forall l r d, r_delegate l r = Ok d -> reader_wire (snd d) = reader_wire r.
Proof.
  intros l [b pos|w seg pos acc] d; cbn [r_delegate]; intros H.
  - destruct (_ || _); [injection H as <-; reflexivity|]. destruct (slice _ _ _); [|discriminate|discriminate|discriminate]. injection H as <-. reflexivity.
  - destruct (_ || _); [injection H as <-; reflexivity|]. destruct (seg_at w seg); [|discriminate|discriminate|discriminate]. cbn [bind] in H.
    destruct (_ <=? _)%Z. { destruct (slice _ _ _); [|discriminate|discriminate|discriminate]. injection H as <-. reflexivity. }
    destruct (walk _ _ _ _) as [[[[] s] p]|e| |]; try discriminate; cbn [bind negb] in H; [|injection H as <-; reflexivity].
    destruct (seg_at w s); [|discriminate|discriminate|discriminate]. cbn [bind] in H. destruct (_ =? _)%Z.
    { destruct (slice _ _ _); [|discriminate|discriminate|discriminate]. injection H as <-. reflexivity. }
    repeat (match type of H with bind ?x _ = _ => destruct x; [cbn [bind] in H|discriminate|discriminate|discriminate] end). injection H as <-. reflexivity.
Qed.

Definition outw {A} (r : reader) (o : rout A) : Prop := reader_wire (snd o) = reader_wire r.
Lemma soft_keep : forall A B (o : rout A) (k : err + A -> reader -> res B) (y : B), soft o k = Ok y -> exists x r', k x r' = Ok y /\ r' = snd o.
Proof. intros A B [[a|e| |] r] k y H; cbn [soft] in H; try discriminate; eexists _, r; split; try exact H; reflexivity. Qed.

Lemma kw_nat : forall f m n v r e x r', read_nat f m n v r = Ok (e, x, r') -> reader_wire r' = reader_wire r.
Proof.
  induction f as [|f IH]; intros m n v r e x r'; cbn [read_nat]; destruct (n <=? 0)%Z; intros H; try discriminate; try (injection H as <- <- <-; reflexivity).
  apply soft_keep in H. destruct H as (y & r1 & H & E). rewrite <- (kw_byte r), <- E. destruct y; [injection H as <- <- <-; reflexivity|]. eapply IH; eauto.
Qed.
Lemma kw_ptl_loop : forall n v r e x r', ptl_loop n v r = Ok (e, x, r') -> reader_wire r' = reader_wire r.
Proof.
  induction n as [|n IH]; intros v r e x r'; cbn [ptl_loop]; intros H; [injection H as <- <- <-; reflexivity|].
  apply soft_keep in H. destruct H as (y & r1 & H & E). rewrite <- (kw_byte r), <- E. destruct y; [injection H as <- <- <-; reflexivity|]. eapply IH; eauto.
Qed.
Lemma kw_ptl : forall r e x r', ptl r = Ok (e, x, r') -> reader_wire r' = reader_wire r.
Proof.
  intros r e x r' H. unfold ptl in H. apply soft_keep in H. destruct H as (y & r1 & H & E). rewrite <- (kw_byte r), <- E. destruct y as [e0|y]; [injection H as <- <- <-; reflexivity|].
  destruct (y <=? 252)%N; [injection H as <- <- <-; reflexivity|]. destruct (y =? 253)%N; [eapply kw_ptl_loop; eauto|]. destruct (y =? 254)%N; eapply kw_ptl_loop; eauto.
Qed.
Lemma kw_name_f : forall f cnt e_ acc cov r e n c r', read_name_f f cnt e_ acc cov r = Ok (e, n, c, r') -> reader_wire r' = reader_wire r.
Proof.
  induction f as [|f IH]; intros cnt e_ acc cov r e n c r'; cbn [read_name_f]; destruct (cnt =? 0)%N; intros H; try discriminate; try (injection H as <- <- <- <-; reflexivity).
  destruct (r_pos r) as [st| | |]; try discriminate. cbn [bind] in H. destruct (e_ <=? st)%Z; [injection H as <- <- <- <-; reflexivity|].
  destruct (ptl r) as [[[e1 t] r1]| | |] eqn:P1; try discriminate. cbn [bind] in H. destruct (ptl r1) as [[[e2 l] r2]| | |] eqn:P2; try discriminate. cbn [bind] in H.
  apply kw_ptl in P1, P2. apply soft_keep in H. destruct H as (y & r3 & H & E). assert (W : reader_wire r3 = reader_wire r) by (rewrite E, kw_buf; congruence).
  rewrite <- W. destruct e1; [injection H as <- <- <- <-; reflexivity|]. destruct e2; [injection H as <- <- <- <-; reflexivity|]. destruct y; [injection H as <- <- <- <-; reflexivity|]. eapply IH; eauto.
Qed.
Lemma kw_name : forall f l r e n s c r', read_name_field f l r = Ok (e, n, s, c, r') -> reader_wire r' = reader_wire r.
Proof.
  intros f l r e n s c r' H. unfold read_name_field in H. destruct (make_ok _ _); [|discriminate]. destruct (r_pos r) as [st| | |]; try discriminate. cbn [bind] in H.
  destruct (read_name_f _ _ _ _ _ _) as [[[[e1 n1] c1] r1]| | |] eqn:P; try discriminate. cbn [bind] in H. apply kw_name_f in P. rewrite <- P.
  destruct e1; [injection H as <- <- <- <- <-; reflexivity|]. destruct (r_pos r1); try discriminate. cbn [bind] in H. injection H as <- <- <- <- <-. reflexivity.
Qed.

Lemma kw_skipk : forall t k i sp old cx r e v cx' r', k_skip t k i sp old cx r = Ok (e, v, cx', r') -> r' = r.
Proof.
  intros t k i sp old cx r e v cx' r' H. destruct k; cbn [k_skip] in H; repeat match type of H with context [if ?b then _ else _] => destruct b end;
    try (injection H as <- <- <- <-; reflexivity).
  all: destruct (r_range _ _ _); try discriminate; cbn [bind] in H; injection H as <- <- <- <-; reflexivity.
Qed.

Theorem k_read_keeps : forall F k t i ic sp l old cx r e v cx' r', k_read F t i k ic sp l old cx r = Ok (e, v, cx', r') -> reader_wire r' = reader_wire r.
Proof.
  intros F k. induction k as [k L|nc o fs b IH|sub IH|key vt val IH1 IH2] using kind_ind2; intros t i ic sp l old cx r e v cx' r' H.
  - destruct k; try discriminate L; cbn [k_read] in H; try (injection H as <- <- <- <-; reflexivity).
    + destruct (read_nat _ _ _ _ _) as [[[e1 n] r1]| | |] eqn:P; try discriminate. cbn [bind] in H. injection H as <- <- <- <-. eapply kw_nat; eauto.
    + destruct (w =? 1)%nat.
      * destruct opt.
        -- apply soft_keep in H. destruct H as (y & r1 & H & ->). destruct (r_pos _); try discriminate. cbn [bind] in H. destruct (r_range _ _ _) as [[[|[|? ?] ?]|]| | |]; try discriminate. cbn [bind] in H. injection H as <- <- <- <-. apply kw_skip.
        -- apply soft_keep in H. destruct H as (y & r1 & H & ->). destruct y; injection H as <- <- <- <-; apply kw_byte.
      * destruct (read_nat _ _ _ _ _) as [[[e1 n] r1]| | |] eqn:P; try discriminate. cbn [bind] in H. injection H as <- <- <- <-. eapply kw_nat; eauto.
    + destruct (read_nat _ _ _ _ _) as [[[e1 n] r1]| | |] eqn:P; try discriminate. cbn [bind] in H. injection H as <- <- <- <-. eapply kw_nat; eauto.
    + destruct (make_ok _ _); [|discriminate]. apply soft_keep in H. destruct H as (y & r1 & H & ->). destruct y; injection H as <- <- <- <-; apply kw_full.
    + apply soft_keep in H. destruct H as (y & r1 & H & ->). destruct y; injection H as <- <- <- <-; apply kw_copy.
    + apply soft_keep in H. destruct H as (y & r1 & H & ->). destruct y; injection H as <- <- <- <-; apply kw_wire.
    + destruct (read_name_field _ _ _) as [[[[[e1 n] st] c] r1]| | |] eqn:P; try discriminate. cbn [bind] in H. injection H as <- <- <- <-. eapply kw_name; eauto.
    + apply kw_skipk in H. subst. reflexivity.
    + apply soft_keep in H. destruct H as (y & r1 & H & ->). destruct y; [injection H as <- <- <- <-; apply kw_wire|]. destruct (r_range _ _ _); try discriminate. cbn [bind] in H. injection H as <- <- <- <-. apply kw_wire.
    + destruct (read_name_field _ _ _) as [[[[[e1 n] st] c] r1]| | |] eqn:P; try discriminate. cbn [bind] in H. apply kw_name in P. rewrite <- P. destruct e1; [injection H as <- <- <- <-; reflexivity|]. destruct (r_range _ _ _); try discriminate. cbn [bind] in H. injection H as <- <- <- <-. reflexivity.
  - cbn [k_read] in H. destruct (r_delegate _ _) as [d| | |] eqn:D; try discriminate. cbn [bind] in H. apply kw_delegate in D. rewrite <- D.
    destruct (run_parse _ _ _ _ _ _) as [[vs c]| | |]; try discriminate; injection H as <- <- <- <-; reflexivity.
  - cbn [k_read] in H. destruct (k_read F t i sub ic sp l (k_zero sub) cx r) as [[[[e1 v1] cx1] r1]| | |] eqn:P; try discriminate. cbn [bind] in H. injection H as <- <- <- <-. eapply IH; eauto.
  - cbn [k_read] in H. destruct (k_read F t i key ic sp l (k_zero key) cx r) as [[[[e1 v1] cx1] r1]| | |] eqn:P; try discriminate. cbn [bind] in H. apply IH1 in P.
    apply soft_keep in H. destruct H as (y & r2 & H & E2). destruct y as [|typ]; [discriminate|]. apply soft_keep in H. destruct H as (y & r3 & H & E3). destruct y as [|l']; [discriminate|].
    destruct (typ =? vt)%N; [|discriminate]. destruct (k_read F vt i val ic sp l' (k_zero val) cx1 r3) as [[[[e2 v2] cx2] r4]| | |] eqn:P2; try discriminate. cbn [bind] in H. injection H as <- <- <- <-.
    apply IH2 in P2. rewrite P2, E3, kw_tl, E2, kw_tl. exact P.
Qed.

(** ** Range that begins in the first buffer *)
Lemma in_first_wire : forall n r r' pre, reader_wire r' = reader_wire r -> in_first n r pre -> in_first n r' pre.
Proof. intros n [b pos|w s q a] [b' pos'|w' s' q' a'] pre E H; cbn in *; try discriminate; auto. injection E as ->. exact H. Qed.
Lemma in_first_app : forall n r pre x, in_first n r pre -> in_first (n - zlen x) r (pre ++ x).
Proof. intros n [b pos|w s q a] pre x H; cbn in *; auto. rewrite zlen_app. lia. Qed.
Lemma in_first_le : forall n n' r pre, (n' <= n)%Z -> in_first n r pre -> in_first n' r pre.
Proof. intros n n' [b pos|w s q a] pre L H; cbn in *; auto. lia. Qed.
Lemma in_first_ex : forall c r pre, exists n, in_first (n - c) r pre.
Proof. intros c [b pos|w s q a] pre; cbn; [exists 0%Z; auto|]. exists (zlen (hd [] w) - zlen pre + c)%Z. lia. Qed.

Lemma range_nothing : forall b w seg pos st, (0 <= st < zlen b)%Z -> (zlen (concat (b :: w)) < mem_limit)%Z ->
  r_range st st (RWire (b :: w) seg pos (acc_from 0 (b :: w))) = Ok (Some [[]]).
Proof.
  intros b w seg pos st H LM. cbn [r_range].
  rewrite acc_total. cbn [bind concat]. rewrite zlen_app. zl.
  replace ((st <? 0) || (zlen b + zlen (concat w) <? st) || (st <? st))%Z with false by (symmetry; rewrite !orb_false_iff; repeat split; lia).
  rewrite acc_all, range_search_step.
  assert (A : ((0 <=? st) && (st <? 0 + zlen b))%Z = true) by lia. rewrite A.
  destruct ((0 <? st) && (st <=? 0 + zlen b))%Z eqn:B; rewrite range_search_after by lia; cbn [Nat.eqb].
  - unfold seg_at. cbn [nth_error bind]. rewrite slice_ok by lia. cbn [bind]. replace (st - 0 - (st - 0))%Z with 0%Z by lia. reflexivity.
  - assert (st = 0%Z) by lia. subst st. unfold seg_at. cbn [nth_error bind]. rewrite slice_ok by lia. cbn [bind]. reflexivity.
Qed.

Lemma at_range_first : forall r pre rem first inner last n, At r pre rem -> pre ++ rem = first ++ inner ++ last -> in_first n r first -> (0 < n)%Z ->
  exists parts, r_range (zlen first) (zlen (first ++ inner)) r = Ok (Some parts) /\ concat parts = inner.
Proof.
  intros r pre rem first inner last n A E I NN. destruct r as [b pos|w seg pos acc].
  - exists [inner]. split; [|cbn; apply app_nil_r]. eapply at_range; eauto.
  - destruct A as [LM (NE & -> & P)]. cbn in I.
    assert (C : concat w = pre ++ rem).
    { destruct P as [(w1 & b1 & b2 & w2 & -> & _ & _ & -> & ->)|(_ & _ & -> & ->)]; [|rewrite app_nil_r; reflexivity]. rewrite concat_app. cbn [concat]. rewrite <- !app_assoc. reflexivity. }
    destruct w as [|b w]; [cbn in I; pose proof (zlen_nonneg first); change (zlen (@nil N)) with 0%Z in I; lia|]. cbn [hd] in I. rewrite zlen_app.
    destruct inner as [|x inner].
    + exists [[]]. split; [|reflexivity]. change (zlen (@nil N)) with 0%Z. rewrite Z.add_0_r. apply range_nothing; [pose proof (zlen_nonneg first); lia|]. rewrite C. exact LM.
    + assert (Q : (zlen first < zlen b)%Z) by lia. destruct (c14_range_wire (b :: w) seg pos first last (x :: inner) _ ltac:(congruence) ltac:(discriminate) (or_introl (ex_intro _ b (ex_intro _ w (conj eq_refl Q)))) eq_refl) as (parts & E1 & E2).
      exists parts. auto.
Qed.
