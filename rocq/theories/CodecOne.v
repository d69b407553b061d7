(** Parsing from a BufferReader: every wire in the result is a single buffer. *)
From Verif Require Import Base BaseProofs PrimModel ReaderModel NameModel CodecModel CodecSpec CodecProofs.

(** [c] occurs in [b] *)
Definition sub (c b : buf) : Prop := exists x y, b = x ++ c ++ y.

Section Within.
Context (b0 : buf).

(** a BufferReader over a part of [b0] *)
Definition is_rbuf (r : reader) : Prop := match r with RBuf c _ => sub c b0 | _ => False end.

Definition wone (w : wire) : Prop := exists c, w = [c] /\ sub c b0.
Fixpoint one (v : value) : Prop :=
  match v with
  | VWire w => wone w
  | VStruct l => fold_right (fun x Q => one x /\ Q) True l
  | VSeq l => fold_right (fun x Q => one x /\ Q) True l
  | VMap l => fold_right (fun e Q => (one (fst e) /\ one (snd e)) /\ Q) True l
  | _ => True
  end.
Definition ones (l : list value) : Prop := fold_right (fun x Q => one x /\ Q) True l.
Definition pairs1 (l : list (value * value)) : Prop := fold_right (fun e Q => (one (fst e) /\ one (snd e)) /\ Q) True l.
Lemma ones_app : forall l m, ones (l ++ m) <-> ones l /\ ones m.
Proof. induction l as [|x l IH]; intros m; cbn; [tauto|]. unfold ones in IH. rewrite IH. tauto. Qed.

Lemma sub_slice : forall c a z t, sub c b0 -> slice c a z = Ok t -> sub t b0.
Proof.
  intros c a z t (x & y & E) H. unfold slice in H. destruct ((0 <=? a) && (a <=? z) && (z <=? zlen c))%Z; [|discriminate]. inversion H; subst.
  exists (x ++ firstn (Z.to_nat a) c), (skipn (Z.to_nat (z - a)) (skipn (Z.to_nat a) c) ++ y).
  rewrite <- !app_assoc. f_equal. rewrite (app_assoc (firstn (Z.to_nat (z - a)) _)), firstn_skipn, app_assoc, firstn_skipn. reflexivity.
Qed.

(** readers *)
Definition keeps {A} (o : rout A) : Prop := is_rbuf (snd o).
Lemma k_read_byte : forall r, is_rbuf r -> keeps (r_read_byte r).
Proof. intros [b p|] H; [|destruct H]. unfold keeps. cbn [r_read_byte]. destruct (zlen b <=? p)%Z; [exact H|]. destruct (index b p); exact H. Qed.
Lemma k_skip_r : forall l r, is_rbuf r -> keeps (r_skip l r).
Proof. intros l [b p|] H; [|destruct H]. unfold keeps. cbn [r_skip]. cbv zeta. repeat match goal with |- context [if ?c then _ else _] => destruct c end; exact H. Qed.
Lemma k_read_buf : forall l r, is_rbuf r -> keeps (r_read_buf l r).
Proof. intros l [b p|] H; [|destruct H]. unfold keeps. cbn [r_read_buf]. destruct (zlen b <? wrap64 (p + l))%Z; [exact H|]. destruct (slice b p (wrap64 (p + l))); exact H. Qed.
Lemma k_read_wire : forall l r, is_rbuf r -> keeps (r_read_wire l r) /\ forall w, fst (r_read_wire l r) = Ok w -> wone w.
Proof.
  intros l [b p|] H; [|destruct H]. unfold keeps. cbn [r_read_wire]. destruct ((zlen b <=? p) && (0 <? l))%Z; [split; [exact H|discriminate]|].
  destruct (zlen b <? wrap64 (p + l))%Z; [split; [exact H|discriminate]|]. destruct (slice b p (wrap64 (p + l))) eqn:ES; split; try exact H; try discriminate. intros w E. inversion E; subst. eexists. split; [reflexivity|]. eapply sub_slice; eauto.
Qed.
Lemma k_delegate : forall l r d, is_rbuf r -> r_delegate l r = Ok d -> is_rbuf (fst d) /\ is_rbuf (snd d).
Proof.
  intros l [b p|] d H E; [|destruct H]. cbn [r_delegate] in E. destruct ((l <? 0) || (zlen b <? wrap64 (p + l)))%Z; [inversion E; subst; split; [exists [], b0; reflexivity|exact H]|].
  destruct (slice b p (wrap64 (p + l))) eqn:ES; cbn [bind] in E; inversion E; subst. split; [|exact H]. eapply sub_slice; [exact H|exact ES].
Qed.
Lemma k_r_read : forall n r, is_rbuf r -> keeps (r_read n r).
Proof. intros n [b p|] H; [|destruct H]. unfold keeps. cbn [r_read]. repeat match goal with |- context [if ?c then _ else _] => destruct c end; try exact H. destruct (slice b p (zlen b)); exact H. Qed.
Lemma k_read_loop : forall f n acc r, is_rbuf r -> keeps (read_loop f n acc r).
Proof.
  induction f as [|f IH]; intros n acc r H; cbn [read_loop]; destruct (n <=? 0)%Z; try exact H.
  pose proof (k_r_read n r H) as K. unfold keeps in K. destruct (r_read n r) as [[x|e| |] r']; cbn [snd] in K; try exact K. apply IH. exact K.
Qed.
Lemma k_read_full : forall n r, is_rbuf r -> keeps (read_full n r).
Proof. intros n r H. unfold read_full. pose proof (k_read_loop (reader_fuel r) n [] r H) as K. unfold keeps in *. destruct (read_loop _ n [] r) as [[[c [e|]]|e| |] r']; cbn [snd] in *; try exact K; destruct c; try destruct e; exact K. Qed.
Lemma k_copy_n : forall n r, is_rbuf r -> keeps (copy_n n r).
Proof. intros n r H. unfold copy_n. pose proof (k_read_loop (reader_fuel r) n [] r H) as K. unfold keeps in *. destruct (read_loop _ n [] r) as [[[c [e|]]|e| |] r']; cbn [snd] in *; try exact K; destruct c; try destruct e; exact K. Qed.
Lemma k_tl_loop : forall n v r, is_rbuf r -> keeps (read_tl_loop n v r).
Proof.
  induction n as [|n IH]; intros v r H; cbn [read_tl_loop]; [exact H|]. pose proof (k_read_byte r H) as K. unfold keeps in K. destruct (r_read_byte r) as [[x|e| |] r']; cbn [snd] in K; try exact K; [apply IH; exact K|destruct e; exact K].
Qed.
Lemma k_read_tl : forall r, is_rbuf r -> keeps (read_tl r).
Proof.
  intros r H. unfold read_tl. pose proof (k_read_byte r H) as K. unfold keeps in K. destruct (r_read_byte r) as [[x|e| |] r']; cbn [snd] in K; try exact K.
  repeat match goal with |- context [if ?c then _ else _] => destruct c end; try exact K; apply k_tl_loop; exact K.
Qed.
Lemma k_ptl_loop : forall n v r x, is_rbuf r -> ptl_loop n v r = Ok x -> is_rbuf (snd x).
Proof.
  induction n as [|n IH]; intros v r x H E; cbn [ptl_loop] in E; [inversion E; subst; exact H|]. pose proof (k_read_byte r H) as K. unfold keeps in K.
  destruct (r_read_byte r) as [[y|e| |] r']; cbn [snd soft] in *; try discriminate; [eapply IH; eauto|inversion E; subst; exact K].
Qed.
Lemma k_ptl : forall r x, is_rbuf r -> ptl r = Ok x -> is_rbuf (snd x).
Proof.
  intros r x H E. unfold ptl in E. pose proof (k_read_byte r H) as K. unfold keeps in K. destruct (r_read_byte r) as [[y|e| |] r']; cbn [snd soft] in *; try discriminate.
  - repeat match type of E with context [if ?c then _ else _] => destruct c end; try (eapply k_ptl_loop; eauto; fail). inversion E; subst; exact K.
  - inversion E; subst; exact K.
Qed.
Lemma k_read_nat : forall F M n v r x, is_rbuf r -> read_nat F M n v r = Ok x -> is_rbuf (snd x).
Proof.
  induction F as [|F IH]; intros M n v r x H E; cbn [read_nat] in E; destruct (n <=? 0)%Z; try discriminate; try (inversion E; subst; exact H).
  pose proof (k_read_byte r H) as K. unfold keeps in K. destruct (r_read_byte r) as [[y|e| |] r']; cbn [snd soft] in *; try discriminate; [eapply IH; eauto|inversion E; subst; exact K].
Qed.
Lemma k_name_f : forall F cnt e a c r x, is_rbuf r -> read_name_f F cnt e a c r = Ok x -> is_rbuf (snd x).
Proof.
  induction F as [|F IH]; intros cnt e a c r x H E; cbn [read_name_f] in E; destruct (cnt =? 0)%N; try discriminate; try (inversion E; subst; exact H).
  destruct (r_pos r) as [st| | |]; cbn [bind] in E; try discriminate. destruct (e <=? st)%Z; [inversion E; subst; exact H|].
  destruct (ptl r) as [x1| | |] eqn:E1; cbn [bind] in E; try discriminate. pose proof (k_ptl _ _ H E1) as K1. destruct x1 as [[e1 t] r1]. cbn [snd] in K1.
  destruct (ptl r1) as [x2| | |] eqn:E2; cbn [bind] in E; try discriminate. pose proof (k_ptl _ _ K1 E2) as K2. destruct x2 as [[e2 l] r2]. cbn [snd] in K2.
  pose proof (k_read_buf (to_int l) r2 K2) as K3. unfold keeps in K3. destruct (r_read_buf (to_int l) r2) as [[v|e3| |] r3]; cbn [soft snd] in *; try discriminate; destruct e1, e2; try (inversion E; subst; exact K3). eapply IH; eauto.
Qed.
Lemma k_name_field : forall F l r x, is_rbuf r -> read_name_field F l r = Ok x -> is_rbuf (snd x).
Proof.
  intros F l r x H E. unfold read_name_field in E. destruct (make_ok 32 (Z.of_N (l / 2 + 1))); [|discriminate]. destruct (r_pos r) as [st| | |]; cbn [bind] in E; try discriminate.
  destruct (read_name_f F _ _ [] _ r) as [y| | |] eqn:EN; cbn [bind] in E; try discriminate. pose proof (k_name_f _ _ _ _ _ _ _ H EN) as K. destruct y as [[[e n] c] r']. cbn [snd] in K.
  destruct e; [inversion E; subst; exact K|]. destruct (r_pos r'); cbn [bind] in E; try discriminate. inversion E; subst; exact K.
Qed.

(** fields *)
Definition fone (o : frd) : Prop := match o with Ok (_, v, _, r) => one v /\ is_rbuf r | _ => True end.
Definition hone (h : fhandler) : Prop := forall ic sp l old cx r, one old -> is_rbuf r -> fone (fh_read h ic sp l old cx r).

Lemma skip_one : forall t k i sp v cx r, one v -> is_rbuf r -> fone (k_skip t k i sp v cx r).
Proof.
  intros t k i sp v cx r H R. destruct k as [[]|w []|[]| |[]| | | | | | | | | | |]; cbn [k_skip fone one]; auto.
  destruct (r_range _ sp r); cbn [bind fone one]; auto.
Qed.
Lemma nth_one : forall l i, ones l -> one (nth i l VNone).
Proof. induction l as [|x l IH]; intros [|i] H; cbn in *; auto; destruct H; auto; apply IH; auto. Qed.
Lemma upd_one : forall l i v, ones l -> one v -> ones (upd l i v).
Proof.
  intros l i v H V. unfold upd. destruct (i <? length l)%nat; [|exact H]. apply ones_app.
  assert (A : ones (firstn i l)) by (rewrite <- (firstn_skipn i l) in H; apply ones_app in H; tauto).
  assert (B : ones (skipn (S i) l)) by (rewrite <- (firstn_skipn (S i) l) in H; apply ones_app in H; tauto).
  split; [exact A|]. split; [exact V|exact B].
Qed.

Definition sone (x : res pstate) : Prop := match x with Ok st => ones (p_vals st) /\ is_rbuf (p_rd st) | _ => True end.

Section Loop.
  Context (o ic : bool) (hs : list fhandler) (HS : Forall hone hs).

  Lemma find_one : forall typ hs0 i j h, Forall hone hs0 -> find_field typ i hs0 = Some (j, h) -> hone h.
  Proof.
    intros typ hs0. induction hs0 as [|h0 hs0 IH]; intros i j h A E; [discriminate|]. cbn [find_field] in E. inversion A; subst.
    destruct (negb (fh_typ h0 =? 0)%N && (fh_typ h0 =? typ)%N); [inversion E; subst; auto|]. eapply IH; eauto.
  Qed.
  Lemma do_read_one : forall typ l sp i h st, hone h -> sone (Ok st) -> sone (do_read ic typ l sp i h st).
  Proof.
    intros typ l sp i h st HH [S1 S2]. unfold do_read. pose proof (HH ic sp l (nth i (p_vals st) VNone) (p_cx st) (p_rd st) (nth_one _ i S1) S2) as K.
    destruct (fh_read h ic sp l _ (p_cx st) (p_rd st)) as [[[[e v] cx] r]| | |]; cbn [bind fone] in *; try exact I. destruct e; [exact I|]. cbn [sone p_vals p_rd]. split; [apply upd_one; tauto|tauto].
  Qed.
  Lemma do_default_one : forall typ l st, sone (Ok st) -> sone (do_default ic typ l st).
  Proof.
    intros typ l st [S1 S2]. unfold do_default. destruct (negb ic && is_critical typ); [exact I|]. pose proof (k_skip_r (to_int l) (p_rd st) S2) as K. unfold keeps in K.
    destruct (r_skip (to_int l) (p_rd st)) as [[x|e| |] r]; cbn [soft]; try exact I. split; auto.
  Qed.
  Lemma do_pass_one : forall typ sp st, sone (Ok st) -> sone (do_pass typ sp hs st).
  Proof.
    intros typ sp st S. unfold do_pass. destruct (nth_error hs (Z.to_nat (p_prog st + 1))) as [h|]; [|exact S]. destruct S as [S1 S2]. set (i := Z.to_nat (p_prog st + 1)).
    pose proof (skip_one (fh_typ h) (fh_kind h) i sp (nth i (p_vals st) VNone) (p_cx st) (p_rd st) (nth_one _ i S1) S2) as K.
    destruct (k_skip _ _ i sp _ (p_cx st) (p_rd st)) as [[[[e v] cx] r]| | |]; cbn [bind fone] in *; try exact I. destruct e; [exact I|]. cbn [sone p_vals p_rd]. split; [apply upd_one; tauto|tauto].
  Qed.
  Lemma ordered_one : forall n typ l sp st, sone (Ok st) -> sone (ordered_loop n ic typ l sp hs st).
  Proof.
    induction n as [|n IH]; intros typ l sp st S; cbn [ordered_loop]; [exact S|]. destruct (find_field typ 0 hs) as [[i h]|] eqn:EF.
    - destruct (p_prog st + 1 =? Z.of_nat i)%Z.
      + pose proof (do_read_one typ l sp i h st (find_one _ _ _ _ _ HS EF) S) as K. destruct (do_read ic typ l sp i h st); cbn [bind]; try exact I. exact K.
      + pose proof (do_pass_one typ sp st S) as K. destruct (do_pass typ sp hs st); cbn [bind]; try exact I. apply IH. exact K.
    - pose proof (do_default_one typ l st S) as K. destruct (do_default ic typ l st); cbn [bind]; try exact I. exact K.
  Qed.
  Lemma elem_one : forall typ l sp st, sone (Ok st) -> sone (do_elem o ic typ l sp hs st).
  Proof.
    intros typ l sp st S. unfold do_elem. destruct o; [apply ordered_one; exact S|]. destruct (find_field typ 0 hs) as [[i h]|] eqn:EF; [|apply do_default_one; exact S].
    apply do_read_one; auto. eapply find_one; eauto.
  Qed.
  Lemma loop_one : forall f st, sone (Ok st) -> sone (parse_loop f o ic hs st).
  Proof.
    induction f as [|f IH]; intros st S; cbn [parse_loop]; [exact I|]. destruct (r_pos (p_rd st)) as [sp| | |]; cbn [bind]; try exact I. destruct (r_length (p_rd st)) as [len| | |]; cbn [bind]; try exact I.
    destruct (len <=? sp)%Z; [exact S|]. destruct S as [S1 S2]. pose proof (k_read_tl (p_rd st) S2) as K1. unfold keeps in K1. destruct (read_tl (p_rd st)) as [[typ|e| |] r1]; cbn [soft snd] in *; try exact I.
    pose proof (k_read_tl r1 K1) as K2. unfold keeps in K2. destruct (read_tl r1) as [[l|e| |] r2]; cbn [soft snd] in *; try exact I.
    pose proof (elem_one typ l sp (mkPS (p_vals st) (p_cx st) r2 (p_prog st) (p_done st)) (conj S1 K2)) as K. destruct (do_elem o ic typ l sp hs _); cbn [bind]; try exact I. apply IH. exact K.
  Qed.
  Lemma rest_one : forall hs0 i sp st, sone (Ok st) -> sone (skip_rest i sp hs0 st).
  Proof.
    induction hs0 as [|h hs0 IH]; intros i sp st S; cbn [skip_rest]; [exact S|]. destruct (nth i (p_done st) false); [apply IH; exact S|]. destruct S as [S1 S2].
    pose proof (skip_one (fh_typ h) (fh_kind h) i sp (nth i (p_vals st) VNone) (p_cx st) (p_rd st) (nth_one _ i S1) S2) as K.
    destruct (k_skip _ _ i sp _ (p_cx st) (p_rd st)) as [[[[e v] cx] r]| | |]; cbn [bind fone] in *; try exact I. destruct e; [exact I|]. apply IH. cbn [sone p_vals p_rd]. split; [apply upd_one; tauto|tauto].
  Qed.
  Lemma zero_one : forall l : list fhandler, ones (map (fun h => k_zero (fh_kind h)) l).
  Proof. induction l as [|h l IH]; [exact I|]. cbn [map]. split; [|exact IH]. destruct (fh_kind h) as [[]|w []|[]| |[]| | | | | | | | | | |]; exact I. Qed.
  Lemma run_parse_one : forall f cx r vs cx', is_rbuf r -> run_parse f o ic hs cx r = Ok (vs, cx') -> ones vs.
  Proof.
    intros f cx r vs cx' R E. unfold run_parse in E.
    match type of E with context [parse_loop f o ic hs ?st] => pose proof (loop_one f st (conj (zero_one hs) R)) as K; destruct (parse_loop f o ic hs st) as [st1| | |]; cbn [bind] in E; try discriminate end.
    destruct (r_pos (p_rd st1)) as [sp| | |]; cbn [bind] in E; try discriminate. pose proof (rest_one hs 0 sp st1 K) as K2. destruct (skip_rest 0 sp hs st1) as [st2| | |]; cbn [bind] in E; try discriminate.
    inversion E; subst. apply K2.
  Qed.
End Loop.

Lemma map_put_one : forall k v l, one k -> one v -> pairs1 l -> pairs1 (map_put k v l).
Proof.
  intros k v l K V. induction l as [|e l IH]; intros H; [cbn; auto|]. cbn [map_put]. destruct H as [H1 H2].
  destruct (value_key_eqb (fst e) k); (split; [auto|]); first [exact H2|apply IH; exact H2].
Qed.

Lemma k_zero_one : forall k, one (k_zero k).
Proof. destruct k as [[]|w []|[]| |[]| | | | | | | | | | |]; exact I. Qed.

Lemma k_read_one : forall k F t i, hone (mkFH t k (k_read F t i k)).
Proof.
  assert (SOFT : forall A (x : rout A) (kk : err + A -> reader -> frd), keeps x -> (forall y r, is_rbuf r -> (match y with inr a => fst x = Ok a | _ => True end) -> fone (kk y r)) -> fone (soft x kk)).
  { intros A [o r] kk S K. unfold keeps in S. cbn [snd] in S. destruct o; cbn [soft]; try exact I; apply K; auto. }
  induction k as [k L|nc o fs nn IH|sub IH|key vt val IH1 IH2] using kind_ind2; intros F t i ic sp l old cx r HO H; cbn [fh_read].
  - destruct k; try discriminate; cbn [k_read].
    + destruct (read_nat _ _ _ _ r) as [x| | |] eqn:E; cbn [bind]; try exact I. pose proof (k_read_nat _ _ _ _ _ _ H E) as K. destruct x as [[e n] r']. split; [exact I|exact K].
    + destruct (w =? 1)%nat.
      * destruct opt.
        -- apply SOFT; [apply k_skip_r; exact H|]. intros y r' R _. destruct (r_pos r') as [p| | |]; cbn [bind]; try exact I. destruct (r_range _ p r') as [g| | |]; cbn [bind]; try exact I.
           destruct g as [[|[|x g1] g2]|]; try exact I. (split; [first [exact I|assumption]|assumption]).
        -- apply SOFT; [apply k_read_byte; exact H|]. intros y r' R _; destruct y; (split; [first [exact I|assumption]|assumption]).
      * destruct (read_nat _ _ _ _ r) as [x| | |] eqn:E; cbn [bind]; try exact I. pose proof (k_read_nat _ _ _ _ _ _ H E) as K. destruct x as [[e n] r']. split; [exact I|exact K].
    + destruct (read_nat _ _ _ _ r) as [x| | |] eqn:E; cbn [bind]; try exact I. pose proof (k_read_nat _ _ _ _ _ _ H E) as K. destruct x as [[e n] r']. split; [exact I|exact K].
    + destruct (make_ok 1 (Z.of_N l)); [|exact I]. apply SOFT; [apply k_read_full; exact H|]. intros y r' R _; destruct y; (split; [first [exact I|assumption]|assumption]).
    + apply SOFT; [apply k_copy_n; exact H|]. intros y r' R _; destruct y; (split; [first [exact I|assumption]|assumption]).
    + pose proof (k_read_wire (to_int l) r H) as [K1 K2]. apply SOFT; [exact K1|]. intros [e|x] r' R E; (split; [first [exact I|assumption|exact (K2 _ E)]|assumption]).
    + destruct (read_name_field F l r) as [x| | |] eqn:E; cbn [bind]; try exact I. pose proof (k_name_field _ _ _ _ H E) as K. destruct x as [[[[e n] a] c] r']. split; [exact I|exact K].
    + (split; [first [exact I|assumption]|assumption]).
    + (split; [first [exact I|assumption]|assumption]).
    + apply skip_one; auto.
    + apply skip_one; auto.
    + pose proof (k_read_wire (to_int l) r H) as [K1 K2]. apply SOFT; [exact K1|]. intros [e|x] r' R E; [(split; [first [exact I|assumption]|assumption])|]. destruct (r_range _ sp r'); cbn [bind]; try exact I. (split; [first [exact I|assumption|exact (K2 _ E)]|assumption]).
    + destruct (read_name_field F l r) as [x| | |] eqn:E; cbn [bind]; try exact I. pose proof (k_name_field _ _ _ _ H E) as K. destruct x as [[[[e n] a] c] r']. cbn [snd] in K. destruct e; [(split; [first [exact I|assumption]|assumption])|].
      destruct (r_range a c r'); cbn [bind]; try exact I. (split; [first [exact I|assumption]|assumption]).
  - cbn [k_read]. destruct (r_delegate (to_int l) r) as [d| | |] eqn:ED; cbn [bind]; try exact I. destruct (k_delegate _ _ _ H ED) as [D1 D2].
    set (hs := (fix go (i : nat) (fs : list (N * kind)) : list fhandler := match fs with [] => [] | f :: fs' => mkFH (fst f) (snd f) (k_read F (fst f) i (snd f)) :: go (S i) fs' end) O fs).
    assert (HS : Forall hone hs). { unfold hs. clear -IH. generalize 0%nat. induction IH as [|f fs Hf _ IHf]; intros n; constructor; auto. }
    destruct (run_parse F o ic hs (x_sub (nth i cx XNone)) (fst d)) as [[vs c]|e| |] eqn:E; cbn [fone]; try exact I; [|split; [exact I|exact D2]].
    split; [|exact D2]. exact (run_parse_one o ic hs HS _ _ _ _ _ D1 E).
  - cbn [k_read]. pose proof (IH F t i ic sp l (k_zero sub) cx r (k_zero_one sub) H) as S. cbn [fh_read] in S.
    destruct (k_read F t i sub ic sp l (k_zero sub) cx r) as [[[[e v] cx'] r']|e| |]; cbn [bind fone] in *; auto. destruct S as [S1 S2]. split; [|exact S2].
    cbn [one]. apply ones_app. split; [destruct old; try exact I; exact HO|split; [exact S1|exact I]].
  - cbn [k_read]. pose proof (IH1 F t i ic sp l (k_zero key) cx r (k_zero_one key) H) as S. cbn [fh_read] in S.
    destruct (k_read F t i key ic sp l (k_zero key) cx r) as [[[[e v] cx'] r1]|e| |]; cbn [bind fone] in *; auto. destruct S as [S1 S2].
    apply SOFT; [apply k_read_tl; exact S2|]. intros [e2|typ] r2 R2 _; [exact I|]. apply SOFT; [apply k_read_tl; exact R2|]. intros [e3|l'] r3 R3 _; [exact I|].
    destruct (typ =? vt)%N; [|exact I]. pose proof (IH2 F vt i ic sp l' (k_zero val) cx' r3 (k_zero_one val) R3) as S. cbn [fh_read] in S.
    destruct (k_read F vt i val ic sp l' (k_zero val) cx' r3) as [[[[e4 v4] cx4] r4]|e4| |]; cbn [bind fone] in *; auto. destruct S as [S3 S4]. split; [|exact S4].
    cbn [one]. apply map_put_one; auto. destruct old; try exact I. exact HO.
Qed.

End Within.

(** From one buffer, every wire of the result is one buffer, a part of it. *)
Theorem parse_one : forall F m ic b vs cx, m_parse F m ic (new_buffer_reader b) = Ok (vs, cx) -> ones b vs.
Proof.
  intros F [nc o fs] ic b vs cx E. unfold m_parse, m_parse_ctx in E. cbn [m_ordered m_fields] in E.
  assert (HS : Forall (hone b) (fs_handlers F 0 fs)). { clear E. generalize 0%nat. induction fs as [|f fs IH]; intros n; cbn [fs_handlers]; constructor; auto. apply k_read_one. }
  eapply run_parse_one; [exact HS| |exact E]. exists [], []. rewrite app_nil_r. reflexivity.
Qed.
