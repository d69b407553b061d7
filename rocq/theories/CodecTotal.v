(** The generated parsers on arbitrary input. *)
From Verif Require Import Base BaseProofs PrimModel PrimProofs ReaderModel ReaderSpec ReaderProofs ReaderProofs2 ReaderProofs3 ReaderProofs4 ReadInv NameModel NameProofs CodecModel CodecSpec CodecProofs CodecSpec2 CodecPar CodecSpec4.

Notation huge := 1099511627776%N.
Notation limit56 := 72057594037927936%Z.

(** the reader has not moved back *)
Definition moved (b : buf) (pos : Z) (r : reader) : Prop := exists pos', r = RBuf b pos' /\ (pos <= pos' <= zlen b)%Z.
Definition safe {A} (b : buf) (pos : Z) (o : rout A) : Prop :=
  match fst o with Ok _ | Err _ => moved b pos (snd o) | _ => False end.

Lemma moved_refl : forall b pos, (pos <= zlen b)%Z -> moved b pos (RBuf b pos).
Proof. intros. exists pos. split; [auto|lia]. Qed.
Lemma moved_trans : forall b p1 p2 r, (p1 <= p2)%Z -> moved b p2 r -> moved b p1 r.
Proof. intros b p1 p2 r H (p & -> & L). exists p. split; auto. lia. Qed.

Section Buf.
  Context (b : buf) (LB : (zlen b < mem_limit)%Z).

  Ltac bwrap := rewrite ?(wrap_small) by (unfold mem_limit in *; lia).

  Lemma b_read_byte : forall pos, (0 <= pos <= zlen b)%Z ->
    (exists x, r_read_byte (RBuf b pos) = (Ok x, RBuf b (pos + 1)) /\ (pos + 1 <= zlen b)%Z /\ nth_error b (Z.to_nat pos) = Some x)
    \/ (r_read_byte (RBuf b pos) = (Err EEOF, RBuf b pos) /\ pos = zlen b).
  Proof.
    intros pos H. cbn [r_read_byte]. destruct (Z.leb_spec (zlen b) pos) as [L|L]; [right; split; [auto|lia]|left].
    unfold index. destruct (Z.ltb_spec pos 0); [lia|]. destruct (nth_error b (Z.to_nat pos)) as [x|] eqn:E.
    - exists x. split; [auto|]. split; [lia|auto].
    - apply nth_error_None in E. unfold zlen in *. lia.
  Qed.

  Lemma b_skip : forall pos l, (0 <= pos <= zlen b)%Z -> (0 <= l < limit56)%Z ->
    (r_skip l (RBuf b pos) = (Ok tt, RBuf b (pos + l)) /\ (pos + l <= zlen b)%Z) \/ (exists e, r_skip l (RBuf b pos) = (Err e, RBuf b pos)).
  Proof.
    intros pos l H L. cbn [r_skip]. cbv zeta. bwrap. destruct (Z.ltb_spec (pos + l) 0); [lia|].
    destruct (Z.ltb_spec (zlen b) (pos + l)); [right; eauto|left; auto].
  Qed.

  Lemma b_read_buf : forall pos l, (0 <= pos <= zlen b)%Z -> (0 <= l < limit56)%Z -> safe b pos (r_read_buf l (RBuf b pos)).
  Proof.
    intros pos l H L. cbn [r_read_buf]. bwrap. destruct (Z.ltb_spec (zlen b) (pos + l)) as [Q|Q]; [apply moved_refl; lia|].
    rewrite slice_ok by lia. exists (pos + l)%Z. split; auto. lia.
  Qed.

  Lemma b_read_wire : forall pos l, (0 <= pos <= zlen b)%Z -> (0 <= l < limit56)%Z -> safe b pos (r_read_wire l (RBuf b pos)).
  Proof.
    intros pos l H L. cbn [r_read_wire]. bwrap. destruct ((zlen b <=? pos) && (0 <? l))%Z; [apply moved_refl; lia|].
    destruct (Z.ltb_spec (zlen b) (pos + l)) as [Q|Q]; [apply moved_refl; lia|].
    rewrite slice_ok by lia. exists (pos + l)%Z. split; auto. lia.
  Qed.

  Lemma b_range : forall pos s e, exists w, r_range s e (RBuf b pos) = Ok w.
  Proof.
    intros pos s e. cbn [r_range]. destruct (Z.ltb_spec s 0); [eexists; reflexivity|]. destruct (Z.ltb_spec (zlen b) e); [eexists; reflexivity|].
    destruct (Z.ltb_spec e s); [eexists; reflexivity|]. rewrite slice_ok by lia. eexists. reflexivity.
  Qed.

  Lemma b_delegate : forall pos l, (0 <= pos <= zlen b)%Z -> (0 <= l < limit56)%Z ->
    exists x t s r', b = x ++ t ++ s /\ r_delegate l (RBuf b pos) = Ok (RBuf t 0, r') /\ moved b pos r' /\ (zlen t <= zlen b - pos)%Z.
  Proof.
    intros pos l H L. cbn [r_delegate]. bwrap. destruct (Z.ltb_spec l 0); [lia|]. cbn [orb].
    destruct (Z.ltb_spec (zlen b) (pos + l)) as [Q|Q].
    - exists b, [], [], (RBuf b pos). rewrite app_nil_r. split; [auto|]. split; [auto|]. split; [apply moved_refl; lia|]. change (zlen (@nil N)) with 0%Z. lia.
    - rewrite slice_ok by lia. cbn [bind].
      exists (firstn (Z.to_nat pos) b), (firstn (Z.to_nat (pos + l - pos)) (skipn (Z.to_nat pos) b)), (skipn (Z.to_nat (pos + l - pos)) (skipn (Z.to_nat pos) b)).
      eexists. split; [rewrite !firstn_skipn; auto|]. split; [reflexivity|]. split; [eexists; split; [reflexivity|lia]|].
      unfold zlen in *. rewrite firstn_length, skipn_length. lia.
  Qed.

  Lemma b_read_loop : forall f n acc pos, (0 <= pos <= zlen b)%Z -> (zlen b - pos < Z.of_nat f)%Z ->
    exists x r', read_loop f n acc (RBuf b pos) = (Ok x, r') /\ moved b pos r'.
  Proof.
    induction f as [|f IH]; intros n acc pos H F; [lia|]. cbn [read_loop]. destruct (Z.leb_spec n 0); [eexists _, _; split; [reflexivity|apply moved_refl; lia]|].
    destruct (Z.eq_dec pos (zlen b)) as [->|NE].
    - cbn [r_read]. rewrite Z.leb_refl. destruct (Z.ltb_spec 0 n); [|lia]. cbn [andb]. eexists _, _. split; [reflexivity|apply moved_refl; lia].
    - cbn [r_read]. destruct (Z.leb_spec (zlen b) pos); [lia|]. cbn [andb]. rewrite slice_ok by lia.
      set (t := firstn _ _). assert (LT : zlen t = (zlen b - pos)%Z) by (unfold t, zlen in *; rewrite firstn_length, skipn_length; lia).
      assert (LC : (0 < zlen (copy_upto n t) <= zlen b - pos)%Z).
      { unfold copy_upto. unfold zlen in *. rewrite firstn_length. lia. }
      destruct (IH (n - zlen (copy_upto n t))%Z (acc ++ copy_upto n t) (pos + zlen (copy_upto n t))%Z) as (x & r' & E & M); try lia.
      exists x, r'. split; [exact E|]. eapply moved_trans; [|exact M]. lia.
  Qed.

  Lemma b_read_full : forall pos l, (0 <= pos <= zlen b)%Z -> safe b pos (read_full l (RBuf b pos)).
  Proof.
    intros pos l H. unfold read_full, reader_fuel. destruct (b_read_loop (length b + 2) l [] pos H) as ((c & oe) & r' & E & M); [unfold zlen in *; lia|].
    rewrite E. destruct c, oe as [[]|]; exact M.
  Qed.
  Lemma b_copy_n : forall pos l, (0 <= pos <= zlen b)%Z -> safe b pos (copy_n l (RBuf b pos)).
  Proof.
    intros pos l H. unfold copy_n, reader_fuel. destruct (b_read_loop (length b + 2) l [] pos H) as ((c & oe) & r' & E & M); [unfold zlen in *; lia|].
    rewrite E. destruct oe; exact M.
  Qed.

  Lemma b_read_nat : forall F M n v pos, (0 <= pos <= zlen b)%Z -> (zlen b - pos < Z.of_nat F)%Z ->
    exists e x r', read_nat F M n v (RBuf b pos) = Ok (e, x, r') /\ moved b pos r'.
  Proof.
    induction F as [|F IH]; intros M n v pos H L; [lia|]. cbn [read_nat]. destruct (Z.leb_spec n 0); [eexists _, _, _; split; [reflexivity|apply moved_refl; lia]|].
    destruct (b_read_byte pos H) as [(x & E & L1 & _)|[E _]]; rewrite E; cbn [soft].
    - destruct (IH M (n - 1)%Z ((v * 256) mod M + x)%N (pos + 1)%Z) as (e & y & r' & E' & M'); try lia.
      eexists _, _, _. split; [exact E'|]. eapply moved_trans; [|exact M']. lia.
    - eexists _, _, _. split; [reflexivity|apply moved_refl; lia].
  Qed.
  Context (BO : bytes_ok b) (NH : no_huge_number b).

  Lemma b_at : forall pos, (0 <= pos <= zlen b)%Z -> At (RBuf b pos) (firstn (Z.to_nat pos) b) (skipn (Z.to_nat pos) b).
  Proof.
    intros pos H. split; [rewrite firstn_skipn; auto|]. cbn. rewrite firstn_skipn. split; auto. unfold zlen in *. rewrite firstn_length. lia.
  Qed.

  Lemma form_small : forall pre x s v, b = pre ++ x ++ s -> tl_form x v -> (v < huge)%N.
  Proof.
    intros pre x s v E [[-> ?]|[(c & -> & L & ->)|[(c & -> & L & ->)|(c & -> & L & ->)]]]; [lia| | |].
    - assert (B : bytes_ok c). { rewrite E in BO. apply Forall_app in BO. destruct BO as [_ B]. cbn [app] in B. inversion B; subst. apply Forall_app in H2. tauto. }
      pose proof (unbe_bound _ B) as U. unfold nlen in U. rewrite L in U. change (256 ^ N.of_nat 2)%N with 65536%N in U. lia.
    - assert (B : bytes_ok c). { rewrite E in BO. apply Forall_app in BO. destruct BO as [_ B]. cbn [app] in B. inversion B; subst. apply Forall_app in H2. tauto. }
      pose proof (unbe_bound _ B) as U. unfold nlen in U. rewrite L in U. change (256 ^ N.of_nat 4)%N with 4294967296%N in U. lia.
    - specialize (NH pre (c ++ s)). cbn [app] in E. specialize (NH E). rewrite app_length, L in NH. specialize (NH ltac:(lia)).
      rewrite firstn_app, L, Nat.sub_diag, firstn_all2 in NH by lia. cbn [firstn] in NH. rewrite app_nil_r in NH. exact NH.
  Qed.

  Lemma b_read_tl : forall pos, (0 <= pos <= zlen b)%Z ->
    (exists v pos', read_tl (RBuf b pos) = (Ok v, RBuf b pos') /\ (pos < pos' <= zlen b)%Z /\ (v < huge)%N)
    \/ (exists e r', read_tl (RBuf b pos) = (Err e, r')).
  Proof.
    intros pos H. pose proof (b_at pos H) as A. destruct (read_tl_total _ _ _ A (bytes_ok_skipn _ _ BO)) as [(v & x & s & r' & E & TF & R & A' & K)|(r' & R)]; [left|right; eauto].
    destruct r' as [b' p'|]; [|exfalso; apply K; exact I]. destruct A' as [_ [A1 A2]]. 
    assert (EB : b = firstn (Z.to_nat pos) b ++ x ++ s) by (rewrite <- E, firstn_skipn; auto).
    rewrite <- app_assoc, <- EB in A1. subst b'. exists v, p'. split; [auto|]. split.
    - pose proof (tl_form_len _ _ TF). rewrite A2, zlen_app. assert (L1 : zlen (firstn (Z.to_nat pos) b) = pos) by (unfold zlen in *; rewrite firstn_length; lia).
      rewrite L1. assert (L2 : zlen b = (pos + (zlen x + zlen s))%Z) by (rewrite EB, !zlen_app, L1; lia). unfold zlen in *. lia.
    - eapply form_small; eauto.
  Qed.

  Lemma b_ptl_loop : forall n k v pos, (0 <= pos <= zlen b)%Z -> (v < 256 ^ N.of_nat k)%N -> (k + n <= 8)%nat ->
    exists e x r', ptl_loop n v (RBuf b pos) = Ok (e, x, r') /\ moved b pos r' /\ (e <> None -> (x < 256 ^ 7)%N).
  Proof.
    induction n as [|n IH]; intros k v pos H HV HK; cbn [ptl_loop]; [eexists _, _, _; split; [reflexivity|]; split; [apply moved_refl; lia|congruence]|].
    destruct (b_read_byte pos H) as [(x & E & L1 & NX)|[E _]]; rewrite E; cbn [soft].
    - assert (BX : (x < 256)%N). { apply nth_error_In in NX. unfold bytes_ok in BO. rewrite Forall_forall in BO. apply (BO x NX). }
      destruct (IH (S k) ((v * 256) mod two64 + x)%N (pos + 1)%Z) as (e & y & r' & E' & M' & B'); try lia.
      { rewrite Nat2N.inj_succ, N.pow_succ_r'. pose proof (N.mod_le (v * 256) two64). unfold two64 in *. lia. }
      eexists _, _, _. split; [exact E'|]. split; [|auto]. eapply moved_trans; [|exact M']. lia.
    - eexists _, _, _. split; [reflexivity|]. split; [apply moved_refl; lia|]. intros _. eapply N.lt_le_trans; [exact HV|]. apply N.pow_le_mono_r; lia.
  Qed.

  Lemma b_ptl : forall pos, (0 <= pos <= zlen b)%Z ->
    exists e v pos', ptl (RBuf b pos) = Ok (e, v, RBuf b pos') /\ (pos <= pos' <= zlen b)%Z /\ (Z.of_N v < limit56)%Z /\ (e = None -> (pos < pos')%Z).
  Proof.
    intros pos H. destruct (b_read_tl pos H) as [(v & p' & E & L & S)|(e0 & r0 & E)].
    - exists None, v, p'. rewrite (ptl_ok _ _ _ E). split; [auto|]. split; [lia|]. split; [lia|]. lia.
    - unfold read_tl in E. unfold ptl.
      destruct (b_read_byte pos H) as [(x & E1 & L1 & NX)|[E1 EP]]; rewrite E1 in E |- *; cbn [soft].
      + assert (G : forall n, (n <= 8)%nat -> read_tl_loop n 0 (RBuf b (pos + 1)) = (Err e0, r0) ->
          exists e v pos', ptl_loop n 0 (RBuf b (pos + 1)) = Ok (e, v, RBuf b pos') /\ (pos <= pos' <= zlen b)%Z /\ (Z.of_N v < limit56)%Z /\ (e = None -> (pos < pos')%Z)).
        { intros n Hn X. destruct (b_ptl_loop n 0 0 (pos + 1)%Z) as (e & y & r' & E2 & (p' & -> & M) & B); try lia.
          exists e, y, p'. rewrite E2. split; [auto|]. split; [lia|]. destruct e as [e|].
          - split; [|congruence]. specialize (B ltac:(discriminate)). change (256 ^ 7)%N with 72057594037927936%N in B. lia.
          - exfalso. clear -X E2. assert (Y : forall n v r y r', ptl_loop n v r = Ok (None, y, r') -> read_tl_loop n v r = (Ok y, r')).
            { clear. induction n as [|n IH]; intros v r y r' H; cbn [ptl_loop read_tl_loop] in *; [injection H as -> ->; auto|].
              destruct (r_read_byte r) as [[x|e| |] r1]; cbn [soft] in H; try discriminate. auto. }
            rewrite (Y _ _ _ _ _ E2) in X. discriminate. }
        destruct (x <=? 252)%N; [discriminate|]. destruct (x =? 253)%N; [apply G; [lia|auto]|]. destruct (x =? 254)%N; apply G; auto; lia.
      + exists (Some EEOF), 0%N, pos. split; [auto|]. split; [lia|]. split; [lia|congruence].
  Qed.

  Lemma b_name : forall F cnt end_ acc cov pos, (0 <= pos <= zlen b)%Z -> (zlen b - pos < Z.of_nat F)%Z ->
    exists e x c r', read_name_f F cnt end_ acc cov (RBuf b pos) = Ok (e, x, c, r') /\ moved b pos r'.
  Proof.
    induction F as [|F IH]; intros cnt end_ acc cov pos H L; [lia|]. cbn [read_name_f].
    destruct (cnt =? 0)%N; [eexists _, _, _, _; split; [reflexivity|apply moved_refl; lia]|]. cbn [r_pos bind].
    destruct (end_ <=? pos)%Z; [eexists _, _, _, _; split; [reflexivity|apply moved_refl; lia]|].
    destruct (b_ptl pos H) as (e1 & t & p1 & E1 & L1 & _ & S1). rewrite E1. cbn [bind].
    destruct (b_ptl p1 ltac:(lia)) as (e2 & l & p2 & E2 & L2 & B2 & S2). rewrite E2. cbn [bind].
    assert (TI : to_int l = Z.of_N l) by (apply to_int_small; unfold two63; lia). rewrite TI.
    pose proof (b_read_buf p2 (Z.of_N l) ltac:(lia) ltac:(lia)) as S. unfold safe in S.
    destruct (r_read_buf (Z.of_N l) (RBuf b p2)) as [o r3] eqn:E3. cbn [fst snd] in S. unfold soft.
    assert (M3 : forall p, (p <= p2)%Z -> moved b p2 r3 -> moved b p r3) by (intros; eapply moved_trans; eauto).
    destruct o as [v|e| |]; try contradiction; destruct e1 as [e1|]; try (eexists _, _, _, _; split; [reflexivity|apply M3; [lia|auto]]);
      destruct e2 as [e2|]; try (eexists _, _, _, _; split; [reflexivity|apply M3; [lia|auto]]).
    destruct S as (p3 & -> & L3). specialize (S1 eq_refl). specialize (S2 eq_refl).
    destruct (IH (cnt - 1)%N end_ (acc ++ [mkComp t v]) (if (t =? TypeParametersSha256Digest)%N then pos else cov) p3) as (e & x & c & r' & E & M); try lia.
    eexists _, _, _, _. split; [exact E|]. eapply moved_trans; [|exact M]. lia.
  Qed.

  Lemma b_name_field : forall F l pos, (0 <= pos <= zlen b)%Z -> (zlen b - pos < Z.of_nat F)%Z -> (l < huge)%N ->
    exists e x s c r', read_name_field F l (RBuf b pos) = Ok (e, x, s, c, r') /\ moved b pos r'.
  Proof.
    intros F l pos H L HL. unfold read_name_field.
    assert (MK : make_ok 32 (Z.of_N (l / 2 + 1)) = true).
    { unfold make_ok, max_alloc. assert ((l / 2 <= l)%N) by (apply N.div_le_upper_bound; lia). rewrite andb_true_iff. lia. }
    rewrite MK. cbn [r_pos bind]. 
    destruct (b_name F (l / 2 + 1)%N (wrap64 (pos + to_int l)) [] (wrap64 (pos + to_int l)) pos H L) as (e & x & c & r' & E & M). rewrite E. cbn [bind].
    destruct e; [eexists _, _, _, _, _; split; [reflexivity|auto]|]. destruct M as (p' & -> & M). cbn [r_pos bind].
    eexists _, _, _, _, _. split; [reflexivity|]. exists p'. auto.
  Qed.
End Buf.

Lemma no_huge_sub : forall x t s, no_huge_number (x ++ t ++ s) -> no_huge_number t.
Proof.
  intros x t s H y u E L. specialize (H (x ++ y) (u ++ s)). rewrite E in H. rewrite <- !app_assoc in H. specialize (H eq_refl).
  rewrite app_length in H. specialize (H ltac:(lia)). rewrite firstn_app in H. replace (8 - length u)%nat with 0%nat in H by lia.
  cbn [firstn] in H. rewrite app_nil_r in H. exact H.
Qed.

(** outcome of GenReadFrom or GenSkipProcess *)
Definition fsafe (b : buf) (pos : Z) (o : frd) : Prop :=
  match o with Ok (_, _, _, r) => moved b pos r | Err _ => True | _ => False end.
Definition hsafe (F : nat) (h : fhandler) : Prop :=
  forall b ic sp l old cx pos, bytes_ok b -> no_huge_number b -> (zlen b < mem_limit)%Z -> (0 < pos <= zlen b)%Z -> (l < huge)%N ->
  (zlen b - pos < Z.of_nat F)%Z -> fsafe b pos (fh_read h ic sp l old cx (RBuf b pos)).

Lemma skip_safe : forall t k i sp v cx b pos, (pos <= zlen b)%Z -> fsafe b pos (k_skip t k i sp v cx (RBuf b pos)).
Proof.
  intros t k i sp v cx b pos H. destruct k as [[]|w []|[]| |[]| | | | | | | | | | |]; cbn [k_skip fsafe]; try (apply moved_refl; lia).
  match goal with |- context [r_range ?a ?c ?r] => destruct (b_range b pos a c) as (w & E) end. rewrite E. cbn [bind fsafe]. apply moved_refl. lia.
Qed.

Section LoopSafe.
  Context (F : nat) (o ic : bool) (hs : list fhandler) (HS : Forall (hsafe F) hs).
  Context (b : buf) (BO : bytes_ok b) (NH : no_huge_number b) (LB : (zlen b < mem_limit)%Z) (LF : (zlen b < Z.of_nat F)%Z).

  Definition psafe (pos : Z) (x : res pstate) : Prop :=
    match x with Ok st => moved b pos (p_rd st) | Err _ => True | _ => False end.

  Lemma find_safe : forall typ i hs0 j h, Forall (hsafe F) hs0 -> find_field typ i hs0 = Some (j, h) -> hsafe F h.
  Proof.
    intros typ i hs0. revert i. induction hs0 as [|h0 hs0 IH]; intros i j h A E; [discriminate|]. cbn [find_field] in E. inversion A; subst.
    destruct (negb (fh_typ h0 =? 0)%N && (fh_typ h0 =? typ)%N); [injection E as -> ->; auto|]. eapply IH; eauto.
  Qed.

  Lemma read_safe : forall typ l sp i h st pos, hsafe F h -> p_rd st = RBuf b pos -> (0 < pos <= zlen b)%Z -> (l < huge)%N -> psafe pos (do_read ic typ l sp i h st).
  Proof.
    intros typ l sp i h st pos HH E H HL. unfold do_read. rewrite E.
    pose proof (HH b ic sp l (nth i (p_vals st) VNone) (p_cx st) pos BO NH LB H HL ltac:(lia)) as S.
    destruct (fh_read h ic sp l (nth i (p_vals st) VNone) (p_cx st) (RBuf b pos)) as [[[[e v] cx] r]|e| |]; cbn [bind fsafe] in *; try exact I; try contradiction.
    destruct e; [exact I|exact S].
  Qed.

  Lemma default_safe : forall typ l st pos, p_rd st = RBuf b pos -> (0 < pos <= zlen b)%Z -> (l < huge)%N -> psafe pos (do_default ic typ l st).
  Proof.
    intros typ l st pos E H HL. unfold do_default. destruct (negb ic && is_critical typ); [exact I|]. rewrite E.
    assert (TI : to_int l = Z.of_N l) by (apply to_int_small; unfold two63; lia). rewrite TI.
    destruct (b_skip b LB pos (Z.of_N l) ltac:(lia) ltac:(lia)) as [[E1 L1]|(e & E1)]; rewrite E1; cbn [soft]; [|exact I].
    cbn [psafe p_rd]. exists (pos + Z.of_N l)%Z. split; auto. lia.
  Qed.

  Lemma pass_safe : forall typ sp st pos, p_rd st = RBuf b pos -> (0 < pos <= zlen b)%Z -> psafe pos (do_pass typ sp hs st).
  Proof.
    intros typ sp st pos E H. unfold do_pass. destruct (nth_error hs (Z.to_nat (p_prog st + 1))) as [h|]; [|cbn [psafe]; rewrite E; apply moved_refl; lia].
    rewrite E. pose proof (skip_safe (fh_typ h) (fh_kind h) (Z.to_nat (p_prog st + 1)) sp (nth (Z.to_nat (p_prog st + 1)) (p_vals st) VNone) (p_cx st) b pos ltac:(lia)) as S.
    destruct (k_skip _ _ _ _ _ _ _) as [[[[e v] cx] r]|e| |]; cbn [bind fsafe] in *; try exact I; try contradiction. destruct e; [exact I|exact S].
  Qed.

  Lemma psafe_trans : forall p1 p2 x, (p1 <= p2)%Z -> psafe p2 x -> psafe p1 x.
  Proof. intros p1 p2 [st|e| |] H S; auto. eapply moved_trans; eauto. Qed.

  Lemma ordered_safe : forall n typ l sp st pos, p_rd st = RBuf b pos -> (0 < pos <= zlen b)%Z -> (l < huge)%N -> psafe pos (ordered_loop n ic typ l sp hs st).
  Proof.
    induction n as [|n IH]; intros typ l sp st pos E H HL; cbn [ordered_loop]; [cbn [psafe]; rewrite E; apply moved_refl; lia|].
    destruct (find_field typ 0 hs) as [[i h]|] eqn:FF.
    - destruct (p_prog st + 1 =? Z.of_nat i)%Z.
      + pose proof (read_safe typ l sp i h st pos (find_safe _ _ _ _ _ HS FF) E H HL) as S. destruct (do_read ic typ l sp i h st); cbn [bind psafe p_next p_rd] in *; auto.
      + pose proof (pass_safe typ sp st pos E H) as S. destruct (do_pass typ sp hs st) as [st'|e| |]; cbn [bind psafe] in *; auto.
        destruct S as (p' & E' & L'). eapply (psafe_trans pos p'); [lia|]. apply IH; auto. lia.
    - pose proof (default_safe typ l st pos E H HL) as S. destruct (do_default ic typ l st); cbn [bind psafe p_next p_rd] in *; auto.
  Qed.

  Lemma elem_safe : forall typ l sp st pos, p_rd st = RBuf b pos -> (0 < pos <= zlen b)%Z -> (l < huge)%N -> psafe pos (do_elem o ic typ l sp hs st).
  Proof.
    intros typ l sp st pos E H HL. unfold do_elem. destruct o; [apply ordered_safe; auto|].
    destruct (find_field typ 0 hs) as [[i h]|] eqn:FF; [|apply default_safe; auto]. apply read_safe; auto. eapply find_safe; eauto.
  Qed.

  Lemma loop_safe : forall f st pos, p_rd st = RBuf b pos -> (0 <= pos <= zlen b)%Z -> (zlen b - pos < Z.of_nat f)%Z -> psafe pos (parse_loop f o ic hs st).
  Proof.
    induction f as [|f IH]; intros st pos E H LE; [lia|]. cbn [parse_loop]. rewrite E. cbn [r_pos r_length bind].
    destruct (zlen b <=? pos)%Z eqn:Q; [cbn [psafe]; rewrite E; apply moved_refl; lia|].
    destruct (b_read_tl b LB BO NH pos H) as [(typ & p1 & E1 & L1 & T1)|(e & r & E1)]; rewrite E1; cbn [soft]; [|exact I].
    destruct (b_read_tl b LB BO NH p1 ltac:(lia)) as [(l & p2 & E2 & L2 & T2)|(e & r & E2)]; rewrite E2; cbn [soft]; [|exact I].
    pose proof (elem_safe typ l pos (mkPS (p_vals st) (p_cx st) (RBuf b p2) (p_prog st) (p_done st)) p2 eq_refl ltac:(lia) T2) as S.
    destruct (do_elem _ _ _ _ _ _ _) as [st'|e| |]; cbn [bind psafe] in *; auto. destruct S as (p3 & E3 & L3).
    eapply (psafe_trans pos p3); [lia|]. apply IH; auto; lia.
  Qed.

  Lemma rest_safe : forall hs0 i sp st pos, p_rd st = RBuf b pos -> (0 <= pos <= zlen b)%Z -> psafe pos (skip_rest i sp hs0 st).
  Proof.
    induction hs0 as [|h hs0 IH]; intros i sp st pos E H; cbn [skip_rest]; [cbn [psafe]; rewrite E; apply moved_refl; lia|].
    destruct (nth i (p_done st) false); [apply IH; auto|]. rewrite E.
    pose proof (skip_safe (fh_typ h) (fh_kind h) i sp (nth i (p_vals st) VNone) (p_cx st) b pos ltac:(lia)) as S.
    destruct (k_skip _ _ _ _ _ _ _) as [[[[e v] cx] r]|e| |]; cbn [bind fsafe] in *; try exact I; try contradiction. destruct e; [exact I|].
    destruct S as (p' & -> & L'). eapply (psafe_trans pos p'); [lia|]. apply IH; [reflexivity|lia].
  Qed.

  Lemma run_safe : forall cx, match run_parse F o ic hs cx (RBuf b 0) with Ok _ | Err _ => True | _ => False end.
  Proof.
    intros cx. unfold run_parse. set (st0 := mkPS _ _ _ _ _). pose proof (zlen_nonneg b) as Z0.
    pose proof (loop_safe F st0 0 eq_refl ltac:(lia) ltac:(lia)) as S. destruct (parse_loop F o ic hs st0) as [st|e| |]; cbn [bind psafe] in *; auto.
    destruct S as (p' & E & L). rewrite E. cbn [r_pos bind].
    pose proof (rest_safe hs 0 p' st p' E L) as S. destruct (skip_rest 0 p' hs st); cbn [bind psafe] in *; auto.
  Qed.
End LoopSafe.

Lemma k_read_safe : forall k F t i, hsafe F (mkFH t k (k_read F t i k)).
Proof.
  assert (SOFT : forall A b pos (x : rout A) (kk : err + A -> reader -> frd), safe b pos x -> (forall y r, moved b pos r -> fsafe b pos (kk y r)) -> fsafe b pos (soft x kk)).
  { intros A b pos [o r] kk S K. unfold safe in S. cbn [fst snd] in S. destruct o; cbn [soft]; try contradiction; apply K; auto. }
  induction k as [k L|nc o fs nn IH|sub IH|key vt val IH1 IH2] using kind_ind2; intros F t i b ic sp l old cx pos BO NH LB H HL LF; cbn [fh_read].
  - assert (TI : to_int l = Z.of_N l) by (apply to_int_small; unfold two63; lia).
    assert (P0 : (0 <= pos <= zlen b)%Z) by lia.
    destruct k; try discriminate; cbn [k_read].
    + destruct (b_read_nat b F two64 (to_int l) 0 pos P0 LF) as (e & x & r' & E & M). rewrite E. exact M.
    + destruct (w =? 1)%nat.
      * destruct opt.
        -- destruct (b_skip b LB pos 1 P0 ltac:(lia)) as [[E L1]|(e & E)]; rewrite E; cbn [soft r_pos bind r_range].
           ++ assert (C : ((pos + 1 - 1 <? 0) || (zlen b <? pos + 1) || (pos + 1 <? pos + 1 - 1))%Z = false) by (rewrite !orb_false_iff; lia).
              rewrite C, slice_ok by lia. cbn [bind]. 
              destruct (firstn (Z.to_nat (pos + 1 - (pos + 1 - 1))) (skipn (Z.to_nat (pos + 1 - 1)) b)) as [|y tl] eqn:EF.
              { exfalso. apply (f_equal (@length N)) in EF. rewrite firstn_length, skipn_length in EF. cbn in EF. unfold zlen in *. lia. }
              cbn [fsafe]. exists (pos + 1)%Z. split; auto. lia.
           ++ assert (C : ((pos - 1 <? 0) || (zlen b <? pos) || (pos <? pos - 1))%Z = false) by (rewrite !orb_false_iff; lia).
              rewrite C, slice_ok by lia. cbn [bind].
              destruct (firstn (Z.to_nat (pos - (pos - 1))) (skipn (Z.to_nat (pos - 1)) b)) as [|y tl] eqn:EF.
              { exfalso. apply (f_equal (@length N)) in EF. rewrite firstn_length, skipn_length in EF. cbn in EF. unfold zlen in *. lia. }
              cbn [fsafe]. apply moved_refl. lia.
        -- destruct (b_read_byte b pos P0) as [(x & E & L1 & _)|[E _]]; rewrite E; cbn [soft fsafe]; [exists (pos + 1)%Z; split; auto; lia|apply moved_refl; lia].
      * destruct (b_read_nat b F (256 ^ N.of_nat w)%N (to_int l) 0 pos P0 LF) as (e & x & r' & E & M). rewrite E. exact M.
    + destruct (b_read_nat b F two64 (to_int l) 0 pos P0 LF) as (e & x & r' & E & M). rewrite E. exact M.
    + assert (MK : make_ok 1 (Z.of_N l) = true) by (unfold make_ok, max_alloc; rewrite andb_true_iff; lia). rewrite MK.
      apply SOFT; [apply b_read_full; auto|]. intros [e|x] r M; exact M.
    + apply SOFT; [apply b_copy_n; auto|]. intros [e|x] r M; exact M.
    + apply SOFT; [rewrite TI; apply b_read_wire; auto; lia|]. intros [e|x] r M; exact M.
    + destruct (b_name_field b LB BO NH F l pos P0 LF HL) as (e & x & s & c & r' & E & M). rewrite E. exact M.
    + cbn [fsafe]. apply moved_refl. lia.
    + cbn [fsafe]. apply moved_refl. lia.
    + apply skip_safe. lia.
    + apply skip_safe. lia.
    + apply SOFT; [rewrite TI; apply b_read_wire; auto; lia|]. intros [e|x] r M; [exact M|]. destruct M as (p' & -> & M).
      match goal with |- context [r_range ?a ?c ?r] => destruct (b_range b p' a c) as (w & E) end. rewrite E. cbn [bind fsafe]. exists p'. auto.
    + destruct (b_name_field b LB BO NH F l pos P0 LF HL) as (e & x & s & c & r' & E & M). rewrite E. cbn [bind]. destruct e; [exact M|]. destruct M as (p' & -> & M).
      destruct (b_range b p' s c) as (w & E1). rewrite E1. cbn [bind fsafe]. exists p'. auto.
  - assert (TI : to_int l = Z.of_N l) by (apply to_int_small; unfold two63; lia). cbn [k_read]. rewrite TI.
    destruct (b_delegate b LB pos (Z.of_N l) ltac:(lia) ltac:(lia)) as (x & tt & s & r' & EB & E & M & LT). rewrite E. cbn [bind fst snd].
    set (hs := (fix go (i : nat) (fs : list (N * kind)) : list fhandler := match fs with [] => [] | f :: fs' => mkFH (fst f) (snd f) (k_read F (fst f) i (snd f)) :: go (S i) fs' end) O fs).
    assert (HS : Forall (hsafe F) hs).
    { unfold hs. clear -IH. generalize 0%nat. induction IH as [|f fs Hf _ IHf]; intros n; constructor; auto. }
    assert (B2 : bytes_ok tt). { rewrite EB in BO. apply Forall_app in BO. destruct BO as [_ B]. apply Forall_app in B. tauto. }
    assert (N2 : no_huge_number tt) by (rewrite EB in NH; eapply no_huge_sub; eauto).
    pose proof (run_safe F o ic hs HS tt B2 N2 ltac:(lia) ltac:(lia) (x_sub (nth i cx XNone))) as S.
    destruct (run_parse F o ic hs (x_sub (nth i cx XNone)) (RBuf tt 0)) as [[vs c]|e| |]; cbn [fsafe]; auto.
  - cbn [k_read]. pose proof (IH F t i b ic sp l (k_zero sub) cx pos BO NH LB H HL LF) as S. cbn [fh_read] in S.
    destruct (k_read F t i sub ic sp l (k_zero sub) cx (RBuf b pos)) as [[[[e v] cx'] r]|e| |]; cbn [bind fsafe] in *; auto.
  - cbn [k_read]. pose proof (IH1 F t i b ic sp l (k_zero key) cx pos BO NH LB H HL LF) as S. cbn [fh_read] in S.
    destruct (k_read F t i key ic sp l (k_zero key) cx (RBuf b pos)) as [[[[e v] cx'] r]|e| |]; cbn [bind fsafe] in *; auto.
    destruct S as (p1 & -> & L1).
    destruct (b_read_tl b LB BO NH p1 ltac:(lia)) as [(typ & p2 & E2 & L2 & T2)|(e2 & r2 & E2)]; rewrite E2; cbn [soft]; [|exact I].
    destruct (b_read_tl b LB BO NH p2 ltac:(lia)) as [(l' & p3 & E3 & L3 & T3)|(e2 & r2 & E3)]; rewrite E3; cbn [soft]; [|exact I].
    destruct (typ =? vt)%N; [|exact I].
    pose proof (IH2 F vt i b ic sp l' (k_zero val) cx' p3 BO NH LB ltac:(lia) T3 ltac:(lia)) as S. cbn [fh_read] in S.
    destruct (k_read F vt i val ic sp l' (k_zero val) cx' (RBuf b p3)) as [[[[e4 v4] cx4] r4]|e4| |]; cbn [bind fsafe] in *; auto.
    eapply moved_trans; [|exact S]. lia.
Qed.

Theorem parse_safe : forall m ic b F, bytes_ok b -> no_huge_number b -> (zlen b < mem_limit)%Z -> (length b < F)%nat ->
  (exists x, m_parse F m ic (new_buffer_reader b) = Ok x) \/ (exists e, m_parse F m ic (new_buffer_reader b) = Err e).
Proof.
  intros [nc o fs] ic b F BO NH LB LF. unfold m_parse, m_parse_ctx. cbn [m_ordered m_fields].
  assert (HS : Forall (hsafe F) (fs_handlers F 0 fs)).
  { generalize 0%nat. induction fs as [|f fs IH]; intros n; cbn [fs_handlers]; constructor; auto. apply k_read_safe. }
  pose proof (run_safe F o ic (fs_handlers F 0 fs) HS b BO NH LB ltac:(unfold zlen; lia) (m_ctx (Model nc o fs))) as S.
  unfold new_buffer_reader. destruct (run_parse F o ic (fs_handlers F 0 fs) (m_ctx (Model nc o fs)) (RBuf b 0)); try contradiction; eauto.
Qed.
