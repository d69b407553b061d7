(** What a successful ReadTLNum has consumed, for both readers. *)
From Verif Require Import Base BaseProofs PrimModel PrimProofs ReaderModel ReaderSpec ReaderProofs ReaderProofs2.

(** [x] is a TLV number with value [v], in any of the four widths (not
    necessarily the shortest one). *)
Definition tl_form (x : buf) (v : N) : Prop :=
  (x = [v] /\ (v <= 252)%N) \/
  (exists b, x = 253%N :: b /\ length b = 2%nat /\ v = unbe b) \/
  (exists b, x = 254%N :: b /\ length b = 4%nat /\ v = unbe b) \/
  (exists b, x = 255%N :: b /\ length b = 8%nat /\ v = unbe b).

Lemma tl_form_len : forall x v, tl_form x v -> (1 <= length x <= 9)%nat.
Proof.
  intros x v [[-> _]|[(b & -> & L & _)|[(b & -> & L & _)|(b & -> & L & _)]]]; simpl; lia.
Qed.

Lemma tl_form_u64 : forall x v, bytes_ok x -> tl_form x v -> u64_ok v.
Proof.
  intros x v B [[-> ?]|[(b & -> & L & ->)|[(b & -> & L & ->)|(b & -> & L & ->)]]]; unfold u64_ok, two64;
    try lia; inversion B; subst;
    match goal with H : Forall byte_ok _ |- _ => pose proof (unbe_bound _ H) as U end;
    unfold nlen in U; rewrite L in U.
  - change (256 ^ N.of_nat 2)%N with 65536%N in U. lia.
  - change (256 ^ N.of_nat 4)%N with 4294967296%N in U. lia.
  - change (256 ^ N.of_nat 8)%N with 18446744073709551616%N in U. lia.
Qed.

Lemma read_tl_total : forall r pre rem, At r pre rem -> bytes_ok rem ->
  (exists v x s r', rem = x ++ s /\ tl_form x v /\ read_tl r = (Ok v, r') /\ At r' (pre ++ x) s
     /\ (is_buf_reader r <-> is_buf_reader r')) \/
  (exists r', read_tl r = (Err (match rem with [] => EEOF | _ => EUnexpectedEOF end), r')).
Proof.
  intros r pre rem A B. destruct rem as [|c rem].
  { right. apply at_read_tl_empty in A. auto. }
  unfold read_tl. destruct (at_read_byte _ _ _ _ A) as (r1 & -> & A1 & K1).
  inversion B as [|? ? Bc Br]; subst.
  assert (G : forall k, (k <= 8)%nat ->
    (exists b s r', rem = b ++ s /\ length b = k /\ read_tl_loop k 0 r1 = (Ok (unbe b), r') /\ At r' ((pre ++ [c]) ++ b) s
       /\ (is_buf_reader r1 <-> is_buf_reader r')) \/
    exists r', read_tl_loop k 0 r1 = (Err EUnexpectedEOF, r')).
  { intros k Hk. destruct (Nat.le_gt_cases k (length rem)) as [L|L].
    - left. exists (firstn k rem), (skipn k rem).
      assert (Bk : bytes_ok (firstn k rem)) by (apply bytes_ok_firstn; auto).
      assert (Lk : length (firstn k rem) = k) by (apply firstn_length_le; auto).
      destruct (at_read_tl_loop (firstn k rem) r1 (pre ++ [c]) (skipn k rem) 0) as (r' & E & A' & K').
      + rewrite firstn_skipn. auto.
      + auto.
      + lia.
      + pose proof (unbe_bound _ Bk) as U. unfold nlen in *. rewrite Lk in *. 
        assert (256 ^ N.of_nat k <= 256 ^ 8)%N by (apply N.pow_le_mono_r; lia).
        change (256 ^ 8)%N with two64 in H. lia.
      + exists r'. rewrite firstn_skipn. rewrite Lk in E. rewrite N.mul_0_l, N.add_0_l in E. split; [auto|]. split; [auto|]. split; [auto|]. split; [auto|]. exact K'.
    - right. apply (at_read_tl_loop_short rem r1 (pre ++ [c]) 0 k); auto. }
  unfold byte_ok in Bc.
  destruct (N.leb_spec c 252).
  { left. exists c, [c], rem, r1. split; auto. split; [left; auto|]. auto. }
  destruct (N.eqb_spec c 253); [|destruct (N.eqb_spec c 254)].
  - destruct (G 2%nat) as [(b & s & r' & -> & L & E & A' & K')|]; [lia| |eauto]. left.
    exists (unbe b), (c :: b), s, r'. rewrite <- app_assoc in A'. simpl in A'. subst c.
    split; auto. split; [right; left; eauto|]. split; auto. split; auto. tauto.
  - destruct (G 4%nat) as [(b & s & r' & -> & L & E & A' & K')|]; [lia| |eauto]. left.
    exists (unbe b), (c :: b), s, r'. rewrite <- app_assoc in A'. simpl in A'. subst c.
    split; auto. split; [right; right; left; eauto|]. split; auto. split; auto. tauto.
  - destruct (G 8%nat) as [(b & s & r' & -> & L & E & A' & K')|]; [lia| |eauto]. left.
    assert (c = 255)%N by lia. subst c.
    exists (unbe b), (255%N :: b), s, r'. rewrite <- app_assoc in A'. simpl in A'. 
    split; auto. split; [right; right; right; eauto|]. split; auto. split; auto. tauto.
Qed.

Lemma read_tl_inv : forall r pre rem v r', At r pre rem -> bytes_ok rem -> read_tl r = (Ok v, r') ->
  exists x s, rem = x ++ s /\ tl_form x v /\ At r' (pre ++ x) s /\ (is_buf_reader r <-> is_buf_reader r').
Proof.
  intros r pre rem v r' A B E. destruct (read_tl_total _ _ _ A B) as [(v1 & x & s & r1 & -> & F & E1 & A1 & K)|(r1 & E1)].
  - rewrite E1 in E. inversion E; subst. eauto 10.
  - rewrite E1 in E. discriminate.
Qed.

(** The encoder's own output is one of the forms. *)
Lemma tl_form_enc : forall v, u64_ok v -> tl_form (tl_enc v) v.
Proof.
  intros v H. unfold u64_ok, two64 in H. unfold tl_enc, tl_form.
  destruct (N.leb_spec v 252).
  { left. rewrite N.mod_small by lia. auto. }
  destruct (N.leb_spec v 65535); [right; left|destruct (N.leb_spec v 4294967295); [right; right; left|right; right; right]];
    (eexists; split; [reflexivity|split; [apply be_length|symmetry; apply unbe_be_small]]).
  - change (256 ^ N.of_nat 2)%N with 65536%N. lia.
  - change (256 ^ N.of_nat 4)%N with 4294967296%N. lia.
  - change (256 ^ N.of_nat 8)%N with 18446744073709551616%N. lia.
Qed.

(** ReadBuf that succeeds returns the next [l] bytes (buffer readers). *)
Lemma read_buf_inv : forall b pos l v r', r_read_buf l (RBuf b pos) = (Ok v, r') ->
  slice b pos (wrap64 (pos + l)) = Ok v.
Proof.
  intros b pos l v r' H. cbn [r_read_buf] in H.
  repeat match type of H with
  | context [if ?x then _ else _] => destruct x; try discriminate
  | context [match ?x with _ => _ end] => destruct x eqn:?; try discriminate
  end; inversion H; subst; auto.
Qed.
