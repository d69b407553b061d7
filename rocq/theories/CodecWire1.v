(** Parsing a structure with one nested structure from a WireReader with one buffer (as pkg/sync and
    pkg/schema/svs do with the joined application parameters). *)
From Verif Require Import Base BaseProofs PrimModel PrimProofs ReaderModel ReaderSpec ReaderProofs ReaderProofs2 ReaderProofs3 ReadInv NameModel CodecModel CodecSpec CodecProofs CodecSpec2 CodecPar CodecSpec4 CodecTotal.

Section One.
  Context (b : buf) (LB : (zlen b < mem_limit)%Z).

  Definition wr (pos : Z) : reader := RWire [b] 0 pos [0%Z; zlen b].
  Lemma wr_new : new_wire_reader [b] = wr 0.
  Proof. reflexivity. Qed.

  Definition simw {A} (o1 o2 : rout A) : Prop :=
    match o1 with
    | (Ok x, RBuf c p) => c = b /\ o2 = (Ok x, wr p)
    | (Err _, _) => exists e r, o2 = (Err e, r)
    | _ => True
    end.

  Lemma w_byte : forall pos, (0 <= pos <= zlen b)%Z -> simw (r_read_byte (RBuf b pos)) (r_read_byte (wr pos)).
  Proof.
    intros pos H. cbn [r_read_byte wr next_seg nth_error]. destruct (Z.leb_spec (zlen b) pos) as [L|L]; cbn [negb].
    - cbn. eauto.
    - cbn [seg_at nth_error]. destruct (index b pos); cbn [simw]; eauto.
  Qed.
  Lemma w_tl_loop : forall n v pos, (0 <= pos <= zlen b)%Z -> simw (read_tl_loop n v (RBuf b pos)) (read_tl_loop n v (wr pos)).
  Proof.
    induction n as [|n IH]; intros v pos H; cbn [read_tl_loop]; [cbn [simw]; auto|]. pose proof (w_byte pos H) as W.
    destruct (b_read_byte b pos H) as [(x & E & L & _)|[E _]]; rewrite E in *; cbn [simw] in W.
    - destruct W as [_ W]. rewrite W. apply IH. lia.
    - destruct W as (e & r & W). rewrite W. destruct e; cbn [simw]; eauto.
  Qed.
  Lemma w_tl : forall pos, (0 <= pos <= zlen b)%Z -> simw (read_tl (RBuf b pos)) (read_tl (wr pos)).
  Proof.
    intros pos H. unfold read_tl. pose proof (w_byte pos H) as W.
    destruct (b_read_byte b pos H) as [(x & E & L & _)|[E _]]; rewrite E in *; cbn [simw] in W.
    - destruct W as [_ W]. rewrite W. destruct (x <=? 252)%N; [cbn [simw]; auto|]. destruct (x =? 253)%N; [|destruct (x =? 254)%N]; apply w_tl_loop; lia.
    - destruct W as (e & r & W). rewrite W. cbn [simw]. eauto.
  Qed.

  Lemma w_skip : forall pos l, (0 <= pos <= zlen b)%Z -> (0 <= l < limit56)%Z ->
    (r_skip l (wr pos) = (Ok tt, wr (pos + l)) /\ (pos + l <= zlen b)%Z) \/ (exists e r, r_skip l (wr pos) = (Err e, r)).
  Proof.
    intros pos l H L. cbn [r_skip wr]. destruct (Z.ltb_spec l 0); [lia|]. rewrite wrap_small by (unfold mem_limit in *; lia). cbn [length walk nth_error].
    destruct (Z.ltb_spec (zlen b) (pos + l)); [right; cbn; eauto|left; auto].
  Qed.
  Lemma w_delegate : forall pos l, (0 <= pos <= zlen b)%Z -> (0 <= l < mem_limit)%Z ->
    (exists d, r_delegate l (RBuf b pos) = Ok (d, RBuf b (pos + l)) /\ r_delegate l (wr pos) = Ok (d, wr (pos + l)) /\ (pos + l <= zlen b)%Z)
    \/ (exists q, r_delegate l (wr pos) = Ok (new_buffer_reader [], RWire [b] 1 q [0%Z; zlen b]) /\ (0 <= q)%Z).
  Proof.
    intros pos l H L. cbn [r_delegate wr]. rewrite wrap_small by (unfold mem_limit in *; lia). destruct (Z.ltb_spec l 0); [lia|]. cbn [length Nat.leb orb seg_at nth_error bind].
    destruct (Z.ltb_spec (zlen b) (pos + l)) as [G|G].
    - right. replace (pos + l <=? zlen b)%Z with false by (symmetry; apply Z.leb_gt; lia). cbn [walk nth_error length]. replace (zlen b <? pos + l)%Z with true by (symmetry; apply Z.ltb_lt; lia).
      cbn. exists (pos + l - zlen b)%Z. split; [reflexivity|lia].
    - left. replace (pos + l <=? zlen b)%Z with true by (symmetry; apply Z.leb_le; lia). rewrite slice_ok by lia. cbn [bind]. eexists. split; [reflexivity|]. split; [reflexivity|lia].
  Qed.
End One.

Definition one_struct (m : model) : Prop := exists nc t nc' o' fs' nn, m = Model nc false [(t, KStruct (Model nc' o' fs') nn)] /\ (t <> 0)%N.

Section Safe.
  Context (b : buf) (BO : bytes_ok b) (NH : no_huge_number b) (LB : (zlen b < mem_limit)%Z) (F : nat) (LF : (zlen b < Z.of_nat F)%Z).
  Context (ic : bool) (t : N) (nc' o' : bool) (fs' : list (N * kind)) (nn : bool).
  Notation k := (KStruct (Model nc' o' fs') nn).
  Notation h := (mkFH t k (k_read F t 0 k)).

  Definition left_at (r : reader) : Prop := (exists p, r = wr b p /\ (0 <= p <= zlen b)%Z) \/ exists q, r = RWire [b] 1 q [0%Z; zlen b] /\ (0 <= q)%Z.
  Definition wsafe (pos : Z) (x : res pstate) : Prop :=
    match x with
    | Ok st => (exists p, p_rd st = wr b p /\ (pos <= p <= zlen b)%Z) \/ exists q, p_rd st = RWire [b] 1 q [0%Z; zlen b] /\ (0 <= q)%Z
    | Err _ => True
    | _ => False
    end.

  Lemma w_elem : forall typ l sp st pos, p_rd st = wr b pos -> (0 < pos <= zlen b)%Z -> (l < huge)%N -> wsafe pos (do_elem false ic typ l sp [h] st).
  Proof.
    intros typ l sp st pos E H HL. assert (TI : to_int l = Z.of_N l) by (apply to_int_small; unfold two63; lia).
    unfold do_elem. cbn [find_field fh_typ]. destruct (negb (t =? 0)%N && (t =? typ)%N).
    - unfold do_read. cbn [fh_read fh_kind]. rewrite E. cbn [k_read]. rewrite TI.
      set (hs := (fix go (i : nat) (fs : list (N * kind)) : list fhandler := match fs with [] => [] | f :: fs' => mkFH (fst f) (snd f) (k_read F (fst f) i (snd f)) :: go (S i) fs' end) O fs').
      assert (HS : Forall (hsafe F) hs).
      { unfold hs. generalize 0%nat. clear. induction fs' as [|f fs IHf]; intros n; constructor; [apply k_read_safe|auto]. }
      assert (N0 : nth 0 [XNone] XNone = XNone) by reflexivity. 
      destruct (w_delegate b LB pos (Z.of_N l) ltac:(lia) ltac:(unfold mem_limit; lia)) as [(d & D1 & D2 & D3)|(q & D2 & D3)]; rewrite D2; cbn [bind fst snd].
      + destruct (b_delegate b LB pos (Z.of_N l) ltac:(lia) ltac:(lia)) as (x & tt & s & r' & EB & D1' & _ & LT). rewrite D1 in D1'. inversion D1'; subst d r'.
        assert (B2 : bytes_ok tt). { rewrite EB in BO. apply Forall_app in BO. destruct BO as [_ B]. apply Forall_app in B. tauto. }
        assert (N2 : no_huge_number tt) by (rewrite EB in NH; eapply no_huge_sub; eauto).
        pose proof (run_safe F o' ic hs HS tt B2 N2 ltac:(lia) ltac:(lia) (x_sub (nth 0 (p_cx st) XNone))) as S.
        destruct (run_parse F o' ic hs (x_sub (nth 0 (p_cx st) XNone)) (RBuf tt 0)) as [[vs c]|e| |]; try contradiction; cbn [bind wsafe p_rd]; auto.
        left. exists (pos + Z.of_N l)%Z. split; [reflexivity|lia].
      + pose proof (run_safe F o' ic hs HS [] ltac:(constructor)) as S.
        assert (NN : no_huge_number []) by (intros x y EX; destruct x; discriminate EX).
        specialize (S NN). change (zlen (@nil N)) with 0%Z in S. specialize (S ltac:(unfold mem_limit; lia) ltac:(pose proof (zlen_nonneg b); lia) (x_sub (nth 0 (p_cx st) XNone))).
        unfold new_buffer_reader. destruct (run_parse F o' ic hs (x_sub (nth 0 (p_cx st) XNone)) (RBuf [] 0)) as [[vs c]|e| |]; try contradiction; cbn [bind wsafe p_rd]; auto.
        right. exists q. auto.
    - unfold do_default. destruct (negb ic && is_critical typ); [exact I|]. rewrite E, TI.
      destruct (w_skip b LB pos (Z.of_N l) ltac:(lia) ltac:(lia)) as [[E1 L1]|(e & r & E1)]; rewrite E1; cbn [soft]; [|exact I].
      cbn [wsafe p_rd]. left. exists (pos + Z.of_N l)%Z. split; auto. lia.
  Qed.

  Lemma w_loop : forall f st pos, p_rd st = wr b pos -> (0 <= pos <= zlen b)%Z -> (zlen b - pos < Z.of_nat f)%Z -> wsafe pos (parse_loop f false ic [h] st).
  Proof.
    induction f as [|f IH]; intros st pos E H LE; [lia|]. cbn [parse_loop]. rewrite E. cbn [r_pos r_length bind wr nth_error length].
    rewrite Z.add_0_r. destruct (zlen b <=? pos)%Z eqn:Q; [cbn [wsafe]; left; exists pos; split; [auto|lia]|].
    pose proof (w_tl b pos H) as W1. fold (wr b pos). destruct (b_read_tl b LB BO NH pos H) as [(typ & p1 & E1 & L1 & T1)|(e & r & E1)]; rewrite E1 in W1; cbn [simw] in W1;
      [destruct W1 as [_ W1]|destruct W1 as (e' & r' & W1)]; rewrite W1; cbn [soft]; [|exact I].
    pose proof (w_tl b p1 ltac:(lia)) as W2. destruct (b_read_tl b LB BO NH p1 ltac:(lia)) as [(l & p2 & E2 & L2 & T2)|(e & r & E2)]; rewrite E2 in W2; cbn [simw] in W2;
      [destruct W2 as [_ W2]|destruct W2 as (e' & r' & W2)]; rewrite W2; cbn [soft]; [|exact I].
    pose proof (w_elem typ l pos (mkPS (p_vals st) (p_cx st) (wr b p2) (p_prog st) (p_done st)) p2 eq_refl ltac:(lia) T2) as S.
    destruct (do_elem _ _ _ _ _ _ _) as [st'|e| |]; cbn [bind wsafe] in *; auto. destruct S as [(p3 & E3 & L3)|(q & E3 & L3)].
    - specialize (IH st' p3 E3 ltac:(lia) ltac:(lia)). destruct (parse_loop f false ic [h] st') as [st2|e| |]; cbn [wsafe] in *; auto. destruct IH as [(p & P1 & P2)|X]; [left; exists p; split; [auto|lia]|auto].
    - destruct f as [|f]; [lia|]. cbn [parse_loop]. rewrite E3. cbn [r_pos r_length bind nth_error length]. replace (zlen b <=? q + zlen b)%Z with true by (symmetry; apply Z.leb_le; lia).
      cbn [wsafe]. right. exists q. auto.
  Qed.

  Lemma w_run : forall cx, match run_parse F false ic [h] cx (wr b 0) with Ok _ | Err _ => True | _ => False end.
  Proof.
    intros cx. unfold run_parse. set (st0 := mkPS _ _ _ _ _). pose proof (zlen_nonneg b) as Z0.
    pose proof (w_loop F st0 0 eq_refl ltac:(lia) ltac:(lia)) as S. destruct (parse_loop F false ic [h] st0) as [st|e| |]; cbn [bind wsafe] in *; auto.
    assert (P : exists p, r_pos (p_rd st) = Ok p) by (destruct S as [(p & -> & _)|(q & -> & _)]; cbn; eauto).
    destruct P as [p P]. rewrite P. cbn [bind skip_rest]. destruct (nth 0 (p_done st) false); cbn; exact I.
  Qed.
End Safe.

Theorem parse_safe_wire1 : forall m ic b F, one_struct m -> bytes_ok b -> no_huge_number b -> (zlen b < mem_limit)%Z -> (length b < F)%nat ->
  (exists x, m_parse F m ic (new_wire_reader [b]) = Ok x) \/ (exists e, m_parse F m ic (new_wire_reader [b]) = Err e).
Proof.
  intros m ic b F (nc & t & nc' & o' & fs' & nn & -> & _) BO NH LB LF. unfold m_parse, m_parse_ctx. cbn [m_ordered m_fields fs_handlers fst snd]. rewrite wr_new.
  pose proof (w_run b BO NH LB F ltac:(unfold zlen; lia) ic t nc' o' fs' nn (m_ctx (Model nc false [(t, KStruct (Model nc' o' fs') nn)]))) as S.
  destruct (run_parse _ _ _ _ _ _); try contradiction; eauto.
Qed.

(** one element: as a BufferReader *)
Theorem parse_wire1 : forall nc t nc' o' fs' nn ic body F, let m := Model nc false [(t, KStruct (Model nc' o' fs') nn)] in let b := tlv t body in
  (t <> 0)%N -> u64_ok t -> (zlen b < mem_limit)%Z -> (1 < F)%nat ->
  m_parse F m ic (new_wire_reader [b]) = m_parse F m ic (new_buffer_reader b).
Proof.
  intros nc t nc' o' fs' nn ic body F m b T0 T64 LB LF. unfold m_parse, m_parse_ctx, m. cbn [m_ordered m_fields fs_handlers fst snd]. rewrite wr_new. unfold new_buffer_reader.
  set (cx := m_ctx _). unfold run_parse.
  assert (EB : b = tl_enc t ++ tl_enc (nlen body) ++ body) by reflexivity.
  assert (U2 : u64_ok (nlen body)). { unfold u64_ok, two64. rewrite EB, !zlen_app in LB. pose proof (zlen_nonneg (tl_enc t)). pose proof (zlen_nonneg (tl_enc (nlen body))). unfold mem_limit, nlen, zlen in *. lia. }
  pose proof (at_new_buf b LB) as A0. unfold new_buffer_reader in A0. rewrite EB in A0. 
  destruct (at_read_tl t _ _ _ T64 A0) as (r1 & R1 & A1 & K1). rewrite <- EB in R1.
  assert (K : forall r, is_buf_reader r -> exists c p, r = RBuf c p) by (intros [c p|]; [eauto|contradiction]).
  destruct (K r1 (proj1 K1 I)) as (c1 & p1 & ->). pose proof A1 as [_ [C1 P1]].
  destruct (at_read_tl (nlen body) _ _ _ U2 A1) as (r2 & R2 & A2 & K2). destruct (K r2 (proj1 K2 I)) as (c2 & p2 & ->). pose proof A2 as [_ [C2 P2]].
  assert (c1 = b) by (rewrite C1, EB; reflexivity). assert (c2 = b) by (rewrite C2, EB, <- !app_assoc; reflexivity). clear C1 C2 A1 A2 K1 K2; subst c1 c2.
  pose proof (zlen_nonneg b) as Z0. assert (LB0 : (zlen b = zlen (tl_enc t) + (zlen (tl_enc (nlen body)) + zlen body))%Z) by (rewrite EB at 1; rewrite !zlen_app; reflexivity).
  pose proof (zlen_nonneg (tl_enc t)). pose proof (zlen_nonneg (tl_enc (nlen body))). pose proof (zlen_nonneg body).
  assert (TP : (0 < zlen (tl_enc t))%Z) by (unfold tl_enc; repeat match goal with |- context [if ?c then _ else _] => destruct c end; unfold zlen; cbn [length]; lia).
  pose proof (w_tl b 0 ltac:(lia)) as W1. rewrite R1 in W1. cbn [simw] in W1. destruct W1 as [_ W1].
  cbn [app] in P1. pose proof (w_tl b p1 ltac:(lia)) as W2. rewrite R2 in W2. cbn [simw] in W2. destruct W2 as [_ W2].
  assert (EP2 : p2 = (zlen (tl_enc t) + zlen (tl_enc (nlen body)))%Z) by (rewrite P2; cbn [app]; rewrite zlen_app; reflexivity).
  set (st0 := mkPS _ cx (wr b 0) _ _). set (st0' := mkPS _ cx (RBuf b 0) _ _).
  destruct F as [|F]; [lia|]. destruct F as [|F]; [lia|]. cbn [parse_loop]. cbn [st0 st0' p_rd r_pos r_length bind wr nth_error length]. fold (wr b 0).
  change (0 + 0)%Z with 0%Z. replace (zlen b <=? 0)%Z with false by (symmetry; apply Z.leb_gt; lia). rewrite R1, W1. cbn [soft]. rewrite R2, W2. cbn [soft].
  unfold do_elem. cbn [find_field]. cbn [fh_typ]. rewrite N.eqb_refl. apply N.eqb_neq in T0. rewrite T0. cbn [negb andb].
  unfold do_read. cbn [p_rd p_vals p_cx p_prog p_done]. cbn [fh_read k_read].
  assert (TI : to_int (nlen body) = zlen body).
  { rewrite to_int_small by (unfold two63, mem_limit, nlen, zlen in *; lia). apply zlen_of_nlen. }
  rewrite TI. destruct (w_delegate b LB p2 (zlen body) ltac:(lia) ltac:(lia)) as [(d & D1 & D2 & D3)|(q & D2 & D3)].
  - rewrite D1, D2. cbn [bind fst snd]. cbn [st0 st0' p_cx p_vals p_done]. match goal with |- context [run_parse ?a ?b ?c ?d ?e ?f] => destruct (run_parse a b c d e f) as [[vs c0]|e0| |] end; try reflexivity.
    cbn [bind]. cbn [p_vals p_done p_prog p_cx p_rd]. 
    cbn [r_pos r_length bind wr nth_error length p_rd]. rewrite Z.add_0_r. replace (zlen b <=? p2 + zlen body)%Z with true by (symmetry; apply Z.leb_le; lia).
    cbn [bind p_rd r_pos wr nth_error]. rewrite Z.add_0_r. cbn [skip_rest p_done st0 st0' nth upd map]. reflexivity.
  - exfalso. cbn [r_delegate wr] in D2. rewrite wrap_small in D2 by (unfold mem_limit in *; lia). destruct (Z.ltb_spec (zlen body) 0); [lia|]. cbn [length Nat.leb orb seg_at nth_error bind] in D2.
    replace (p2 + zlen body <=? zlen b)%Z with true in D2 by (symmetry; apply Z.leb_le; lia). rewrite slice_ok in D2 by lia. discriminate D2.
Qed.
