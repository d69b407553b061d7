From Verif Require Import Base BaseProofs PrimModel ReaderModel ReaderSpec ReaderScript ReaderProofs ReaderProofs2 ReaderProofs3 ReaderProofs4 ReaderProofs5.

Lemma c14_scripts : forall (w : wire) (ops : list rop) (seen : list robs),
  Forall (fun b => b <> []) w -> (zlen (concat w) < mem_limit)%Z ->
  spec_run ops [([], concat w)] = Some seen ->
  impl_run ops [(new_wire_reader w, 0%Z)] = seen /\
  impl_run ops [(new_buffer_reader (concat w), 0%Z)] = seen.
Proof.
  intros. split; eapply run_ok; eauto; repeat constructor; exists []; split; auto; simpl fst; simpl snd; simpl app.
  - apply at_new_wire; auto. unfold nonempty_segs. destruct w; simpl; auto. inversion H; auto.
  - apply at_new_buf; auto.
Qed.

Lemma c14_range_buffer : forall before m after pos,
  r_range (zlen before) (zlen before + zlen m) (RBuf (before ++ m ++ after) pos) = Ok (Some [m]).
Proof. intros. apply buf_range. Qed.

(** locate the last byte of a nonempty part of a wire *)
Lemma locate_end : forall (w : wire) (x y : buf), concat w = x ++ y -> x <> [] ->
  exists w1 c1 c2 w2, w = w1 ++ (c1 ++ c2) :: w2 /\ c1 <> [] /\ x = concat w1 ++ c1.
Proof.
  induction w as [|b w IH]; intros x y E NX.
  - simpl in E. destruct x; [congruence|discriminate].
  - simpl in E. destruct (Z.le_gt_cases (zlen x) (zlen b)).
    + destruct (app_split_ge b (concat w) x y E) as (a' & -> & _); [lia|].
      exists [], x, a', w. auto.
    + destruct (app_split_lt b (concat w) x y E) as (m' & -> & E2 & N2); [lia|].
      destruct (IH m' y E2 N2) as (w1 & c1 & c2 & w2 & -> & NC & ->).
      exists (b :: w1), c1, c2, w2. repeat split; auto. simpl. rewrite app_assoc. auto.
Qed.

Lemma c14_range_wire : forall (w : wire) seg pos first last inner out,
  concat w = first ++ inner ++ last -> inner <> [] ->
  (exists b w', w = b :: w' /\ (zlen first < zlen b)%Z) \/
  (exists w1 b1 b2 w2, w = w1 ++ b1 :: b2 :: w2 /\ (zlen (concat w1) <= zlen first < zlen (concat w1) + zlen b1)%Z
     /\ (zlen first + zlen inner <= zlen (concat w1) + zlen b1 + zlen b2)%Z) ->
  r_range (zlen first) (zlen first + zlen inner) (RWire w seg pos (acc_from 0 w)) = out ->
  exists parts, out = Ok (Some parts) /\ concat parts = inner.
Proof.
  intros w seg pos first last inner out E NI K R.
  assert (G : exists w1 a1 r w2, w = w1 ++ (a1 ++ r) :: w2 /\ first = concat w1 ++ a1 /\ r <> [] /\
     (w1 = [] \/ exists b2 w3, w2 = b2 :: w3 /\ (zlen inner <= zlen r + zlen b2)%Z)).
  { destruct K as [(b & w' & -> & L)|(w1 & b1 & b2 & w2 & -> & L & L2)].
    - simpl in E. destruct (app_split_ge b (concat w') first (inner ++ last) E) as (r & -> & _); [lia|].
      exists [], first, r, w'. repeat split; auto. intros ->. rewrite app_nil_r in L. lia.
    - rewrite concat_app in E. simpl in E.
      destruct (app_split_ge first (inner ++ last) (concat w1) (b1 ++ b2 ++ concat w2)) as (a1 & -> & E1); [auto|lia|].
      rewrite zlen_app in *.
      destruct (app_split_ge b1 (b2 ++ concat w2) a1 (inner ++ last)) as (r & -> & E2); [auto|lia|].
      exists w1, a1, r, (b2 :: w2). rewrite zlen_app in *. repeat split; auto.
      + intros ->. change (zlen (@nil N)) with 0%Z in *. lia.
      + right. exists b2, w2. split; auto. lia. }
  destruct G as (w1 & a1 & r & w2 & -> & -> & NR & K2).
  rewrite concat_app in E. simpl in E. rewrite <- !app_assoc in E. do 2 apply app_inv_head in E.
  destruct (Z.le_gt_cases (zlen inner) (zlen r)) as [Q|Q].
  - destruct (app_split_ge r (concat w2) inner last E) as (c & -> & _); [lia|].
    subst out. rewrite wire_range_one by auto. exists [inner]. simpl. rewrite app_nil_r. auto.
  - destruct (app_split_lt r (concat w2) inner last E) as (m & -> & E2 & NM); [lia|].
    destruct (locate_end w2 m last E2 NM) as (wm & c1 & c2 & w3 & -> & NC & ->).
    assert (K3 : w1 = [] \/ wm = []).
    { destruct K2 as [|(b2 & w4 & E4 & L)]; auto. right.
      destruct wm as [|b2' wm]; auto. simpl in E4. inversion E4; subst b2'.
      exfalso. rewrite !zlen_app in L. simpl concat in L. rewrite zlen_app in L.
      pose proof (zlen_pos _ NC). zl. lia. }
    subst out. pose proof (wire_range_many w1 a1 r wm c1 c2 w3 seg pos NR NC K3) as W. cbv zeta in W.
    replace (zlen (concat w1 ++ a1 ++ r ++ concat wm ++ c1)) with
      (zlen (concat w1 ++ a1) + zlen (r ++ concat wm ++ c1))%Z in W by (rewrite !zlen_app; lia).
    rewrite W. eexists. split; [reflexivity|]. simpl. rewrite concat_app. simpl. rewrite app_nil_r. auto.
Qed.

Lemma c14_range_refuted : exists (w : wire) (first inner last : buf),
  concat w = first ++ inner ++ last /\ inner <> [] /\ Forall (fun b => b <> []) w /\
  exists parts, r_range (zlen first) (zlen first + zlen inner) (new_wire_reader w) = Ok (Some parts) /\
  concat parts <> inner.
Proof.
  exists [[1];[2];[3];[4];[5]]%N, [1]%N, [2;3;4;5]%N, []. split; [reflexivity|].
  split; [discriminate|]. split; [repeat constructor; discriminate|].
  eexists. split; [vm_compute; reflexivity|]. vm_compute. discriminate.
Qed.

Lemma c14_readbuf_refuted : exists w : wire, Forall (fun b => b <> []) w /\
  impl_run [OSkip 3; OReadBuf 0] [(new_wire_reader w, 0%Z)] = [SDone; SCrash] /\
  impl_run [OSkip 3; OReadBuf 0] [(new_buffer_reader (concat w), 0%Z)] = [SDone; SBytes []].
Proof.
  exists [[1;2];[3]]%N. split; [repeat constructor; discriminate|]. split; vm_compute; reflexivity.
Qed.

Lemma c14_empty_refuted : exists w : wire,
  impl_run [OReadByte; OReadByte] [(new_wire_reader w, 0%Z)] = [SByte 1%N; SCrash] /\
  impl_run [OReadByte; OReadByte] [(new_buffer_reader (concat w), 0%Z)] = [SByte 1%N; SByte 2%N].
Proof. exists [[1];[];[2]]%N. split; vm_compute; reflexivity. Qed.

Lemma c14_delegate_refuted : exists w : wire, Forall (fun b => b <> []) w /\
  impl_run [ODelegate 9; OReturn; OReadByte] [(new_wire_reader w, 0%Z)] = [SDone; SDone; SError] /\
  impl_run [ODelegate 9; OReturn; OReadByte] [(new_buffer_reader (concat w), 0%Z)] = [SDone; SDone; SByte 1%N].
Proof. exists [[1];[2]]%N. split; [repeat constructor; discriminate|]. split; vm_compute; reflexivity. Qed.
