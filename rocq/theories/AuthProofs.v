(** Which bytes of a Data packet the signature reported by the parser covers. *)
From Verif Require Import Base BaseProofs PrimModel PrimProofs ReaderModel ReaderSpec ReaderProofs ReaderProofs2 ReaderProofs3 ReaderProofs4 NameModel NameProofs CodecModel CodecSpec CodecProofs CodecEnc CodecEnc2 CodecEnc3 CodecEnc4 CodecEnc5 CodecSpec2 CodecPar CodecPar2 CodecKeep CodecPar3 CodecPar4 CodecLib SpecModel SpecSpec SpecProofs SpecData.

(** ** No operation changes the buffer of a BufferReader *)
Definition reader_buf (r : reader) : option buf := match r with RBuf b _ => Some b | RWire _ _ _ _ => None end.
Lemma kr_byte : forall r, reader_buf (snd (r_read_byte r)) = reader_buf r.
Proof.
  intros [b pos|w seg pos acc]; cbn [r_read_byte].
  - repeat match goal with |- context [if ?c then _ else _] => destruct c | |- context [match ?x with Ok _ => _ | Err _ => _ | Panic => _ | Hang => _ end] => destruct x end; reflexivity.
  - destruct (next_seg w seg pos) as [[s p] m].
    repeat match goal with |- context [if ?c then _ else _] => destruct c | |- context [match ?x with Ok _ => _ | Err _ => _ | Panic => _ | Hang => _ end] => destruct x end; reflexivity.
Qed.
Lemma kr_wire : forall l r, reader_buf (snd (r_read_wire l r)) = reader_buf r.
Proof.
  intros l [b pos|w seg pos acc]; cbn [r_read_wire].
  - repeat match goal with |- context [if ?c then _ else _] => destruct c | |- context [match ?x with Ok _ => _ | Err _ => _ | Panic => _ | Hang => _ end] => destruct x end; reflexivity.
  - destruct (next_seg w seg pos) as [[s p] m]. destruct (_ && _); [reflexivity|]. destruct (wire_read_loop _ _ _ _ _ _) as [o [s' p']]. reflexivity.
Qed.
Lemma kr_buf : forall l r, reader_buf (snd (r_read_buf l r)) = reader_buf r.
Proof.
  intros l [b pos|w seg pos acc]; cbn [r_read_buf].
  - repeat match goal with |- context [if ?c then _ else _] => destruct c | |- context [match ?x with Ok _ => _ | Err _ => _ | Panic => _ | Hang => _ end] => destruct x end; reflexivity.
  - destruct (next_seg w seg pos) as [[s p] m]. destruct (_ && _); [reflexivity|]. destruct (wire_readbuf_loop _ _ _ _ _ _) as [o [s' p']].
    repeat match goal with |- context [if ?c then _ else _] => destruct c | |- context [match ?x with Ok _ => _ | Err _ => _ | Panic => _ | Hang => _ end] => destruct x end; reflexivity.
Qed.
Lemma kr_skip : forall n r, reader_buf (snd (r_skip n r)) = reader_buf r.
Proof.
  intros n [b pos|w seg pos acc]; cbn [r_skip].
  - cbv zeta. destruct (_ <? 0)%Z; [reflexivity|]. destruct (_ <? _)%Z; reflexivity.
  - destruct (n <? 0)%Z; [reflexivity|]. destruct (walk _ _ _ _) as [[[[] s] p]|e| |]; reflexivity.
Qed.
Lemma kr_tl_loop : forall n v r, reader_buf (snd (read_tl_loop n v r)) = reader_buf r.
Proof.
  induction n as [|n IH]; intros v r; [reflexivity|]. cbn [read_tl_loop]. pose proof (kr_byte r) as H. destruct (r_read_byte r) as [[x|[]| |] r']; cbn [snd] in H |- *; auto.
  rewrite IH. auto.
Qed.
Lemma kr_tl : forall r, reader_buf (snd (read_tl r)) = reader_buf r.
Proof.
  intros r. unfold read_tl. pose proof (kr_byte r) as H. destruct (r_read_byte r) as [[x|e| |] r']; cbn [snd] in H |- *; auto.
  destruct (x <=? 252)%N; [exact H|]. destruct (x =? 253)%N; [rewrite kr_tl_loop; exact H|]. destruct (x =? 254)%N; rewrite kr_tl_loop; exact H.
Qed.
Lemma kr_delegate : forall l r d, r_delegate l r = Ok d -> reader_buf (snd d) = reader_buf r.
Proof.
  intros l [b pos|w seg pos acc] d; cbn [r_delegate]; intros H.
  - destruct (_ || _); [injection H as <-; reflexivity|]. destruct (slice _ _ _); [|discriminate|discriminate|discriminate]. injection H as <-. reflexivity.
  - destruct (_ || _); [injection H as <-; reflexivity|]. destruct (seg_at w seg); [|discriminate|discriminate|discriminate]. cbn [bind] in H.
    destruct (_ <=? _)%Z. { destruct (slice _ _ _); [|discriminate|discriminate|discriminate]. injection H as <-. reflexivity. }
    destruct (walk _ _ _ _) as [[[[] s] p]|e| |]; try discriminate; cbn [bind negb] in H; [|injection H as <-; reflexivity].
    destruct (seg_at w s); [|discriminate|discriminate|discriminate]. cbn [bind] in H. destruct (_ =? _)%Z.
    { destruct (slice _ _ _); [|discriminate|discriminate|discriminate]. injection H as <-. reflexivity. }
    repeat (match type of H with bind ?x _ = _ => destruct x; [cbn [bind] in H|discriminate|discriminate|discriminate] end). injection H as <-. reflexivity.
Qed.
Lemma kr_ptl_loop : forall n v r e x r', ptl_loop n v r = Ok (e, x, r') -> reader_buf r' = reader_buf r.
Proof.
  induction n as [|n IH]; intros v r e x r'; cbn [ptl_loop]; intros H; [injection H as <- <- <-; reflexivity|].
  apply soft_keep in H. destruct H as (y & r1 & H & E). rewrite <- (kr_byte r), <- E. destruct y; [injection H as <- <- <-; reflexivity|]. eapply IH; eauto.
Qed.
Lemma kr_ptl : forall r e x r', ptl r = Ok (e, x, r') -> reader_buf r' = reader_buf r.
Proof.
  intros r e x r' H. unfold ptl in H. apply soft_keep in H. destruct H as (y & r1 & H & E). rewrite <- (kr_byte r), <- E. destruct y as [e0|y]; [injection H as <- <- <-; reflexivity|].
  destruct (y <=? 252)%N; [injection H as <- <- <-; reflexivity|]. destruct (y =? 253)%N; [eapply kr_ptl_loop; eauto|]. destruct (y =? 254)%N; eapply kr_ptl_loop; eauto.
Qed.
Lemma kr_name_f : forall f cnt e_ acc cov r e n c r', read_name_f f cnt e_ acc cov r = Ok (e, n, c, r') -> reader_buf r' = reader_buf r.
Proof.
  induction f as [|f IH]; intros cnt e_ acc cov r e n c r'; cbn [read_name_f]; destruct (cnt =? 0)%N; intros H; try discriminate; try (injection H as <- <- <- <-; reflexivity).
  destruct (r_pos r) as [st| | |]; try discriminate. cbn [bind] in H. destruct (e_ <=? st)%Z; [injection H as <- <- <- <-; reflexivity|].
  destruct (ptl r) as [[[e1 t] r1]| | |] eqn:P1; try discriminate. cbn [bind] in H. destruct (ptl r1) as [[[e2 l] r2]| | |] eqn:P2; try discriminate. cbn [bind] in H.
  apply kr_ptl in P1, P2. apply soft_keep in H. destruct H as (y & r3 & H & E). assert (W : reader_buf r3 = reader_buf r) by (rewrite E, kr_buf; congruence).
  rewrite <- W. destruct e1; [injection H as <- <- <- <-; reflexivity|]. destruct e2; [injection H as <- <- <- <-; reflexivity|]. destruct y; [injection H as <- <- <- <-; reflexivity|]. eapply IH; eauto.
Qed.
Lemma kr_name : forall f l r e n s c r', read_name_field f l r = Ok (e, n, s, c, r') -> reader_buf r' = reader_buf r.
Proof.
  intros f l r e n s c r' H. unfold read_name_field in H. destruct (make_ok _ _); [|discriminate]. destruct (r_pos r) as [st| | |]; try discriminate. cbn [bind] in H.
  destruct (read_name_f _ _ _ _ _ _) as [[[[e1 n1] c1] r1]| | |] eqn:P; try discriminate. cbn [bind] in H. apply kr_name_f in P. rewrite <- P.
  destruct e1; [injection H as <- <- <- <- <-; reflexivity|]. destruct (r_pos r1); try discriminate. cbn [bind] in H. injection H as <- <- <- <- <-. reflexivity.
Qed.

Lemma buf_reader : forall r b, reader_buf r = Some b -> exists p, r = RBuf b p.
Proof. intros [c p|w s p a] b H; cbn in H; [injection H as ->; eauto|discriminate]. Qed.

(** ** One element of a Data packet *)
Section Data.
  Context (F : nat) (ic : bool).
  Notation hs := (fs_handlers F 0 dfs).
  Notation hd i := (mkFH (typ_at dfs i) (kind_at dfs i) (k_read F (typ_at dfs i) i (kind_at dfs i))).

  Lemma find_data : forall typ i h, find_field typ 0 hs = Some (i, h) ->
    (2 <= i <= 6)%nat /\ typ = typ_at dfs i /\ h = hd i.
  Proof.
    intros typ i h H. cbn [dfs m_fields spec_Data fs_handlers find_field fh_typ fst snd] in H.
    repeat match type of H with context [if ?c then _ else _] => let E := fresh "E" in destruct c eqn:E; [injection H as <- <-|] end; try discriminate; try (cbn in E; discriminate);
    match goal with E : _ && _ = true |- _ => apply andb_true_iff in E; destruct E as [_ E]; apply N.eqb_eq in E; subst end; (split; [lia|split; reflexivity]).
  Qed.
  Lemma find_data_at : forall i, (2 <= i <= 6)%nat -> find_field (typ_at dfs i) 0 hs = Some (i, hd i).
  Proof. intros i H. do 7 (destruct i as [|i]; [try lia; reflexivity|]). lia. Qed.
  Lemma hs_nth : forall i, (i < 7)%nat -> nth_error hs i = Some (hd i).
  Proof. intros i H. do 7 (destruct i as [|i]; [reflexivity|]). lia. Qed.
  Lemma hs_over : forall i, (7 <= i)%nat -> nth_error hs i = None.
  Proof. intros i H. apply nth_error_None. cbn. lia. Qed.

  (** what reading the element of field [i] does to the context *)
  Lemma read_cx : forall i sp l old cx r e v cx' r', (2 <= i <= 6)%nat -> length cx = 7%nat ->
    fh_read (hd i) ic sp l old cx r = Ok (e, v, cx', r') ->
    reader_buf r' = reader_buf r /\ length cx' = 7%nat /\ nth 1 cx' XNone = nth 1 cx XNone
    /\ (nth 0 cx' XNone = nth 0 cx XNone \/ i = 6%nat /\ exists g, r_range (x_off (nth 1 cx XNone)) sp r' = Ok g
          /\ nth 0 cx' XNone = XCov (x_cov (nth 0 cx XNone) ++ opt_wire g)).
  Proof.
    intros i sp l old cx r e v cx' r' Hi L H. cbn [fh_read] in H.
    destruct i as [|[|[|[|[|[|[|i]]]]]]]; try lia; unfold typ_at, kind_at, dfs in H; cbn [m_fields spec_Data map nth fst snd k_read] in H.
    - destruct (read_name_field F l r) as [[[[[e1 n1] s1] c1] r1]| | |] eqn:P; try discriminate. cbn [bind] in H. injection H as <- <- <- <-.
      apply kr_name in P. auto.
    - destruct spec_MetaInfo as [nc o fs]. destruct (r_delegate (to_int l) r) as [d| | |] eqn:D; try discriminate. cbn [bind] in H. apply kr_delegate in D.
      destruct (run_parse _ _ _ _ _ _) as [[vs c]|er| |]; try discriminate; injection H as <- <- <- <-; rewrite ?upd_length; auto.
      rewrite !upd_nth_other by lia. auto.
    - apply soft_keep in H. destruct H as (y & r1 & H & E). pose proof (kr_wire (to_int l) r) as K. rewrite <- E in K.
      destruct y; injection H as <- <- <- <-; auto.
    - destruct spec_SignatureInfo as [nc o fs]. destruct (r_delegate (to_int l) r) as [d| | |] eqn:D; try discriminate. cbn [bind] in H. apply kr_delegate in D.
      destruct (run_parse _ _ _ _ _ _) as [[vs c]|er| |]; try discriminate; injection H as <- <- <- <-; rewrite ?upd_length; auto.
      rewrite !upd_nth_other by lia. auto.
    - apply soft_keep in H. destruct H as (y & r1 & H & E). pose proof (kr_wire (to_int l) r) as K. rewrite <- E in K.
      destruct y; [injection H as <- <- <- <-; auto|].
      destruct (r_range _ _ _) as [g| | |] eqn:G; try discriminate. cbn [bind] in H. injection H as <- <- <- <-. rewrite upd_length.
      split; [auto|]. split; [auto|]. split; [rewrite upd_nth_other by lia; auto|]. right. split; [auto|]. exists g. split; [exact G|].
      rewrite upd_nth by lia. reflexivity.
  Qed.

  (** passing over a field: from NameV on there is nothing to do *)
  Lemma pass_data : forall typ sp st st', (1 <= p_prog st)%Z -> do_pass typ sp hs st = Ok st' ->
    p_cx st' = p_cx st /\ p_rd st' = p_rd st /\ p_prog st' = p_prog st.
  Proof.
    intros typ sp st st' P H. unfold do_pass in H.
    destruct (nth_error hs (Z.to_nat (p_prog st + 1))) as [h|] eqn:N; [|injection H as <-; auto].
    assert (HI : (2 <= Z.to_nat (p_prog st + 1) <= 6)%nat).
    { split; [lia|]. destruct (le_lt_dec 7 (Z.to_nat (p_prog st + 1))) as [L|L]; [rewrite hs_over in N by auto; discriminate|lia]. }
    set (i := Z.to_nat (p_prog st + 1)) in *. rewrite hs_nth in N by lia. injection N as <-. clearbody i.
    destruct i as [|[|[|[|[|[|[|i]]]]]]]; try lia; unfold typ_at, kind_at, dfs in H; cbn [m_fields spec_Data map nth fst snd k_skip bind fh_kind fh_typ] in H; injection H as <-; auto.
  Qed.

  Lemma ord_cx : forall n typ l sp st st', (1 <= p_prog st)%Z -> length (p_cx st) = 7%nat ->
    ordered_loop n ic typ l sp hs st = Ok st' ->
    reader_buf (p_rd st') = reader_buf (p_rd st) /\ length (p_cx st') = 7%nat /\ (p_prog st <= p_prog st')%Z /\ nth 1 (p_cx st') XNone = nth 1 (p_cx st) XNone
    /\ (nth 0 (p_cx st') XNone = nth 0 (p_cx st) XNone \/ typ = 23%N /\ (6 <= p_prog st')%Z /\ exists g r, reader_buf r = reader_buf (p_rd st) /\ r_range (x_off (nth 1 (p_cx st) XNone)) sp r = Ok g
          /\ nth 0 (p_cx st') XNone = XCov (x_cov (nth 0 (p_cx st) XNone) ++ opt_wire g)).
  Proof.
    induction n as [|n IH]; intros typ l sp st st' P L H; cbn [ordered_loop] in H.
    - injection H as <-. repeat split; auto. lia.
    - destruct (find_field typ 0 hs) as [[i h]|] eqn:FF.
      + apply find_data in FF. destruct FF as (Hi & -> & ->). destruct (Z.eqb_spec (p_prog st + 1) (Z.of_nat i)) as [E|E].
        * unfold do_read in H. destruct (fh_read (hd i) ic sp l _ _ _) as [[[[e v] cx] r]| | |] eqn:R; try discriminate. cbn [bind] in H.
          destruct e; try discriminate. cbn [bind] in H. injection H as <-. cbn [p_next p_cx p_rd p_prog].
          apply read_cx in R; auto. destruct R as (R1 & R2 & R3 & R4). split; [auto|]. split; [auto|].
          assert (KB : k_back (kind_at dfs i) = 0%Z) by (clear -Hi; do 7 (destruct i as [|i]; [try lia; reflexivity|]); lia). cbn [fh_kind]. rewrite KB.
          split; [lia|]. split; [auto|]. destruct R4 as [R4|(-> & g & R5 & R6)]; [auto|right]. split; [reflexivity|]. split; [lia|]. exists g, r. auto.
        * destruct (do_pass _ sp hs st) as [st1| | |] eqn:DP; try discriminate. cbn [bind] in H. apply pass_data in DP; auto. destruct DP as (D1 & D2 & D3).
          apply IH in H; cbn [p_next p_cx p_rd p_prog] in *; [|lia|congruence]. rewrite D1, D2, D3 in H. destruct H as (H1 & H2 & H3 & H4 & H5). split; [auto|]. split; [auto|]. split; [lia|]. auto.
      + unfold do_default in H. destruct (negb ic && is_critical typ); [discriminate|].
        pose proof (kr_skip (to_int l) (p_rd st)) as K. destruct (r_skip (to_int l) (p_rd st)) as [[x|e| |] r]; cbn [soft bind] in H; try discriminate.
        injection H as <-. cbn [p_next p_cx p_rd p_prog snd] in *. split; [auto|]. split; [auto|]. split; [lia|]. auto.
  Qed.

  Lemma ord_late : forall n typ l sp st st', (6 <= p_prog st)%Z -> ordered_loop n ic typ l sp hs st = Ok st' ->
    p_vals st' = p_vals st /\ p_cx st' = p_cx st /\ p_done st' = p_done st /\ (6 <= p_prog st')%Z.
  Proof.
    induction n as [|n IH]; intros typ l sp st st' P H; cbn [ordered_loop] in H.
    - injection H as <-. auto.
    - destruct (find_field typ 0 hs) as [[i h]|] eqn:FF.
      + apply find_data in FF. destruct FF as (Hi & -> & ->). destruct (Z.eqb_spec (p_prog st + 1) (Z.of_nat i)) as [E|E]; [lia|].
        unfold do_pass in H. rewrite hs_over in H by lia. cbn [bind] in H. apply IH in H; cbn [p_next p_prog] in *; [|lia]. exact H.
      + unfold do_default in H. destruct (negb ic && is_critical typ); [discriminate|].
        destruct (r_skip (to_int l) (p_rd st)) as [[x|e| |] r]; cbn [soft bind] in H; try discriminate. injection H as <-. cbn [p_next p_cx p_vals p_done p_prog]. split; [auto|]. split; [auto|]. split; [auto|]. lia.
  Qed.

  Lemma loop_inv : forall f o h st b st', reader_buf (p_rd st) = Some b -> parse_loop (S f) o ic h st = Ok st' ->
    exists pos, p_rd st = RBuf b pos /\
      ((zlen b <= pos)%Z /\ st' = st
       \/ (pos < zlen b)%Z /\ exists typ l r1 r2 st1, read_tl (RBuf b pos) = (Ok typ, r1) /\ read_tl r1 = (Ok l, r2) /\ reader_buf r2 = Some b
            /\ do_elem o ic typ l pos h (mkPS (p_vals st) (p_cx st) r2 (p_prog st) (p_done st)) = Ok st1 /\ parse_loop f o ic h st1 = Ok st').
  Proof.
    intros f o h st b st' RB H. destruct (buf_reader _ _ RB) as (pos & E). exists pos. split; [exact E|]. cbn [parse_loop] in H. rewrite E in H. cbn [r_pos r_length bind] in H.
    destruct (Z.leb_spec (zlen b) pos) as [X|X]; [injection H as <-; auto|]. right. split; [exact X|].
    pose proof (kr_tl (RBuf b pos)) as K1. destruct (read_tl (RBuf b pos)) as [[typ|e| |] r1]; cbn [soft] in H; try discriminate.
    pose proof (kr_tl r1) as K2. destruct (read_tl r1) as [[l|e| |] r2] eqn:T2; cbn [soft] in H; try discriminate.
    destruct (do_elem _ _ _ _ _ _ _) as [st1| | |] eqn:DE; try discriminate. cbn [bind] in H. exists typ, l, r1, r2, st1. cbn [snd reader_buf] in *. repeat split; auto. congruence.
  Qed.

  Lemma loop_late : forall f st b st', reader_buf (p_rd st) = Some b -> (6 <= p_prog st)%Z -> length (p_cx st) = 7%nat -> parse_loop f true ic hs st = Ok st' ->
    p_vals st' = p_vals st /\ p_cx st' = p_cx st /\ p_done st' = p_done st.
  Proof.
    induction f as [|f IH]; intros st b st' RB P LC H; [discriminate|]. apply (loop_inv f true hs st b st' RB) in H. destruct H as (pos & _ & [[_ ->]|(_ & typ & l & r1 & r2 & st1 & _ & _ & R2 & DE & H)]); [auto|].
    unfold do_elem in DE. pose proof DE as DE'. apply ord_late in DE; [|exact P]. apply ord_cx in DE'; [|cbn [p_prog]; lia|exact LC]. cbn [p_vals p_cx p_done p_rd] in *.
    destruct DE as (D1 & D2 & D3 & D4). destruct DE' as (E1 & E2 & _). destruct (IH st1 b st') as (A & B & C); auto; [congruence|]. rewrite A, B, C. auto.
  Qed.

  Lemma loop_cov : forall f st b st', reader_buf (p_rd st) = Some b -> (1 <= p_prog st)%Z -> length (p_cx st) = 7%nat -> x_cov (nth 0 (p_cx st) XNone) = [] ->
    parse_loop f true ic hs st = Ok st' ->
    x_cov (nth 0 (p_cx st') XNone) = []
    \/ exists s t r1, read_tl (RBuf b s) = (Ok 23%N, r1) /\ slice b (x_off (nth 1 (p_cx st) XNone)) s = Ok t /\ x_cov (nth 0 (p_cx st') XNone) = [t].
  Proof.
    induction f as [|f IH]; intros st b st' RB P LC X0 H; [discriminate|]. apply (loop_inv f true hs st b st' RB) in H.
    destruct H as (pos & _ & [[_ ->]|(LP & typ & l & r1 & r2 & st1 & T1 & _ & R2 & DE & H)]); [auto|].
    unfold do_elem in DE. apply ord_cx in DE; cbn [p_vals p_cx p_done p_rd p_prog] in *; auto. destruct DE as (E1 & E2 & E3 & E4 & E5).
    destruct E5 as [E5|(-> & E6 & g & r & RG & E7 & E8)].
    - destruct (IH st1 b st') as [Y|(s & t & q1 & Y1 & Y2 & Y3)]; auto; try congruence; [lia|]. right. exists s, t, q1. rewrite E4 in Y2. auto.
    - destruct (loop_late f st1 b st') as (_ & C & _); auto; try congruence. rewrite C, E8, X0. cbn [app x_cov].
      rewrite R2 in RG. destruct (buf_reader _ _ RG) as (q & ->). cbn [r_range] in E7.
      destruct ((_ <? 0) || _ || _)%Z; [injection E7 as <-; auto|]. destruct (slice b _ pos) as [t| | |] eqn:SL; try discriminate. cbn [bind] in E7. injection E7 as <-.
      right. exists pos, t, r1. auto.
  Qed.

  (** the fields that were not met: sigCovered is left alone *)
  Lemma rest_cov : forall k i sp st st', (k + i = 7)%nat -> length (p_cx st) = 7%nat -> skip_rest i sp (skipn i hs) st = Ok st' ->
    nth 0 (p_cx st') XNone = nth 0 (p_cx st) XNone.
  Proof.
    induction k as [|k IH]; intros i sp st st' K L H.
    - replace i with 7%nat in H by lia. change (skipn 7 hs) with (@nil fhandler) in H. cbn [skip_rest] in H. injection H as <-. reflexivity.
    - rewrite (skipn_nth_cons hs i (hd i)) in H by (apply hs_nth; lia). cbn [skip_rest] in H.
      destruct (nth i (p_done st) false); [apply IH in H; auto; lia|].
      destruct (k_skip _ _ _ _ _ _ _) as [[[[e v] cx] r]| | |] eqn:KS; try discriminate. cbn [bind] in H. destruct e; try discriminate.
      assert (C : nth 0 cx XNone = nth 0 (p_cx st) XNone /\ length cx = 7%nat).
      { cbn [fh_typ fh_kind] in KS. destruct i as [|[|[|[|[|[|[|i]]]]]]]; try lia; unfold typ_at, kind_at, dfs in KS; cbn [m_fields spec_Data map nth fst snd k_skip] in KS; injection KS as <- <- <-; auto.
        rewrite upd_length, upd_nth_other by lia. auto. }
      destruct C as [C1 C2]. rewrite <- C1. apply IH in H; auto. lia.
  Qed.
  Lemma rest_done : forall k i sp st st', (k + i = 7)%nat -> length (p_vals st) = 7%nat -> (forall j, (2 <= j <= 6)%nat -> nth j (p_done st) false = true) ->
    skip_rest i sp (skipn i hs) st = Ok st' -> p_vals st' = p_vals st.
  Proof.
    induction k as [|k IH]; intros i sp st st' K L D H.
    - replace i with 7%nat in H by lia. change (skipn 7 hs) with (@nil fhandler) in H. cbn [skip_rest] in H. injection H as <-. reflexivity.
    - rewrite (skipn_nth_cons hs i (hd i)) in H by (apply hs_nth; lia). cbn [skip_rest] in H.
      destruct (nth i (p_done st) false) eqn:DI; [apply IH in H; auto; lia|].
      assert (i < 2)%nat by (destruct (le_lt_dec 2 i); [rewrite D in DI by lia; discriminate|auto]).
      assert (KS : exists cx, k_skip (fh_typ (hd i)) (fh_kind (hd i)) i sp (nth i (p_vals st) VNone) (p_cx st) (p_rd st) = Ok (None, nth i (p_vals st) VNone, cx, p_rd st)).
      { destruct i as [|[|i]]; [..|lia]; eexists; reflexivity. }
      destruct KS as (cx & KS). rewrite KS in H. cbn [bind] in H. rewrite upd_same in H by lia. apply IH in H; auto. lia.
  Qed.

  (** ... the same with an element half read *)
  Lemma elem_cov : forall f n st b st1 st' pos typ l r0, reader_buf (p_rd st) = Some b -> (1 <= p_prog st)%Z -> length (p_cx st) = 7%nat -> x_cov (nth 0 (p_cx st) XNone) = [] ->
    read_tl (RBuf b pos) = (Ok typ, r0) -> ordered_loop n ic typ l pos hs st = Ok st1 -> parse_loop f true ic hs st1 = Ok st' ->
    x_cov (nth 0 (p_cx st') XNone) = []
    \/ exists s t r1, read_tl (RBuf b s) = (Ok 23%N, r1) /\ slice b (x_off (nth 1 (p_cx st) XNone)) s = Ok t /\ x_cov (nth 0 (p_cx st') XNone) = [t].
  Proof.
    intros f n st b st1 st' pos typ l r0 RB P LC X0 T1 DE H. apply ord_cx in DE; auto. destruct DE as (E1 & E2 & E3 & E4 & E5).
    destruct E5 as [E5|(-> & E6 & g & r & RG & E7 & E8)].
    - destruct (loop_cov f st1 b st') as [Y|(s & t & q1 & Y1 & Y2 & Y3)]; auto; try congruence; [lia|]. right. exists s, t, q1. rewrite E4 in Y2. auto.
    - destruct (loop_late f st1 b st') as (_ & C & _); auto; try congruence. rewrite C, E8, X0. cbn [app x_cov].
      rewrite RB in RG. destruct (buf_reader _ _ RG) as (q & ->). cbn [r_range] in E7.
      destruct ((_ <? 0) || _ || _)%Z; [injection E7 as <-; auto|]. destruct (slice b _ pos) as [t| | |] eqn:SL; try discriminate. cbn [bind] in E7. injection E7 as <-.
      right. exists pos, t, r0. auto.
  Qed.

  (** ** Before NameV: the marker is at the first or second element *)
  Definition zs : list value := [VNone; VNone; VNone; VNone; VNone; VNone; VNone].
  Notation cx0 := (m_ctx (Model true true dfs)).
  Lemma enter : forall st typ l sp i h, p_vals st = zs -> length (p_done st) = 7%nat -> (p_prog st = -1 \/ p_prog st = 0)%Z -> find_field typ 0 hs = Some (i, h) ->
    exists n dn, length dn = 7%nat /\ (5 < n)%nat /\ do_elem true ic typ l sp hs st = ordered_loop n ic typ l sp hs (mkPS zs (upd (p_cx st) 1 (XOff sp)) (p_rd st) 1 dn).
  Proof.
    intros [vals cx r q dn] typ l sp i h V LD P FF. cbn [p_vals p_done p_prog p_cx p_rd] in *. subst vals. unfold do_elem.
    pose proof (find_data _ _ _ FF) as (Hi & _ & _).
    destruct P as [-> | ->].
    - exists 6%nat, (upd (upd dn 0 true) 1 true). rewrite !upd_length. split; [auto|]. split; [lia|].
      change (Z.to_nat (zlen hs - p_prog (mkPS zs cx r (-1) dn))) with 8%nat.
      cbn [ordered_loop]. rewrite FF. cbn [p_prog]. destruct (Z.eqb_spec (-1 + 1) (Z.of_nat i)); [lia|]. 
      change (do_pass typ sp hs (mkPS zs cx r (-1) dn)) with (Ok (mkPS zs cx r (-1) (upd dn 0 true))). cbn [bind p_next p_prog p_vals p_cx p_rd p_done].
      destruct (Z.eqb_spec (-1 + 1 + 1) (Z.of_nat i)); [lia|]. reflexivity.
    - exists 6%nat, (upd dn 1 true). rewrite upd_length. split; [auto|]. split; [lia|].
      change (Z.to_nat (zlen hs - p_prog (mkPS zs cx r 0 dn))) with 7%nat.
      cbn [ordered_loop]. rewrite FF. cbn [p_prog]. destruct (Z.eqb_spec (0 + 1) (Z.of_nat i)); [lia|]. reflexivity.
  Qed.

  (** ** Reading the fields one by one *)
  Lemma ord_to : forall d n l sp st i, (2 <= i <= 6)%nat -> (1 <= p_prog st)%Z -> Z.of_nat i = (p_prog st + 1 + Z.of_nat d)%Z -> (d < n)%nat ->
    length (p_vals st) = 7%nat -> length (p_done st) = 7%nat -> (forall j, (p_prog st < Z.of_nat j < Z.of_nat i)%Z -> nth j (p_vals st) VNone = VNone) ->
    exists dn, length dn = 7%nat /\ (forall j, nth j (p_done st) false = true -> nth j dn false = true) /\ (forall j, (p_prog st < Z.of_nat j < Z.of_nat i)%Z -> nth j dn false = true)
      /\ ordered_loop n ic (typ_at dfs i) l sp hs st = (do st' <- do_read ic (typ_at dfs i) l sp i (hd i) (mkPS (p_vals st) (p_cx st) (p_rd st) (Z.of_nat i - 1) dn); Ok (p_next st')).
  Proof.
    induction d as [|d IH]; intros n l sp st i Hi P E N LV LD NV; (destruct n as [|n]; [lia|]); cbn [ordered_loop]; rewrite (find_data_at i Hi).
    - exists (p_done st). split; [auto|]. split; [auto|]. split; [intros; lia|]. destruct (Z.eqb_spec (p_prog st + 1) (Z.of_nat i)); [|lia].
      replace (Z.of_nat i - 1)%Z with (p_prog st) by lia. destruct st; reflexivity.
    - destruct (Z.eqb_spec (p_prog st + 1) (Z.of_nat i)); [lia|].
      set (j := Z.to_nat (p_prog st + 1)). assert (Hj : (2 <= j < i)%nat) by lia.
      assert (DP : do_pass (typ_at dfs i) sp hs st = Ok (mkPS (p_vals st) (p_cx st) (p_rd st) (p_prog st) (upd (p_done st) j true))).
      { unfold do_pass. fold j. rewrite hs_nth by lia.
        assert (KS : k_skip (fh_typ (hd j)) (fh_kind (hd j)) j sp (nth j (p_vals st) VNone) (p_cx st) (p_rd st) = Ok (None, VNone, p_cx st, p_rd st)).
        { cbn [fh_typ fh_kind]. clearbody j. destruct j as [|[|[|[|[|[|[|j]]]]]]]; try lia; reflexivity. }
        rewrite KS. cbn [bind]. rewrite <- (NV j) at 1 by lia. rewrite upd_same by lia. reflexivity. }
      rewrite DP. cbn [bind].
      destruct (IH n l sp (p_next (mkPS (p_vals st) (p_cx st) (p_rd st) (p_prog st) (upd (p_done st) j true))) i) as (dn & D1 & D2 & D3 & D4); cbn [p_next p_vals p_cx p_rd p_prog p_done]; auto; try lia.
      { rewrite upd_length. auto. } { intros k Hk. apply NV. lia. }
      exists dn. cbn [p_next p_vals p_cx p_rd p_prog p_done] in *. split; [auto|]. split; [|split; [|exact D4]].
      + intros k Hk. apply D2. destruct (Nat.eq_dec j k) as [->|NE]; [rewrite upd_nth by lia; auto|rewrite upd_nth_other by auto; auto].
      + intros k Hk. destruct (Nat.eq_dec j k) as [->|NE]; [apply D2; rewrite upd_nth by lia; auto|]. apply D3. lia.
  Qed.

  Notation p0 := (mkEP 0 false).
  (** the state after field [z] *)
  Definition FI (a : Z) (z : nat) (vals : list value) (st : pstate) : Prop :=
    p_prog st = Z.of_nat z /\ p_vals st = vals /\ length vals = 7%nat /\ (forall j, (z < j)%nat -> nth j vals VNone = VNone)
    /\ cxs_ok dfs (p_cx st) /\ length (p_done st) = 7%nat /\ (forall j, (2 <= j <= z)%nat -> nth j (p_done st) false = true).

  Lemma fwd_field : forall a z vals st n i v b sp rem pre, FI a z vals st -> (1 <= z)%nat -> (z < i <= 5)%nat -> (2 <= i)%nat -> (6 < n + z)%nat ->
    k_body p0 [] (kind_at dfs i) v = Some b -> shape (kind_at dfs i) v -> typed (kind_at dfs i) v ->
    At (p_rd st) pre (b ++ rem) -> is_buf_reader (p_rd st) -> (length b < F)%nat -> (zlen b < size_limit)%Z ->
    exists v' st', ordered_loop n ic (typ_at dfs i) (nlen b) sp hs st = Ok st' /\ FI a i (upd vals i v') st' /\ same (back p0 [] (kind_at dfs i) v) v'
      /\ At (p_rd st') (pre ++ b) rem /\ is_buf_reader (p_rd st').
  Proof.
    intros a z vals st n i v b sp rem pre (P & V & LV & NV & CX & LD & DN) Hz Hi Hi2 Hn KB SH TY A BR LB SB.
    destruct (ord_to (i - z - 1) n (nlen b) sp st i) as (dn & D1 & D2 & D3 & D4); rewrite ?V; auto; try lia; [intros; apply NV; lia|].
    assert (PK : plain_kind (kind_at dfs i) = true /\ wf_kind true (kind_at dfs i) = true /\ pk_ok (kind_at dfs i) = true /\ k_back (kind_at dfs i) = 0%Z).
    { clear -Hi Hi2. destruct i as [|[|[|[|[|[|i]]]]]]; try lia; repeat split; reflexivity. }
    destruct PK as (PK1 & PK2 & PK3 & PK4).
    assert (RKI : RK p0 [] (kind_at dfs i)). { pose proof (rks_all p0 [] eq_refl (kind_at dfs i)) as X. destruct (kind_at dfs i); try discriminate; exact X. }
    apply cxs_ok_nth in CX. destruct CX as [LC CX]. change (length dfs) with 7%nat in *.
    destruct (RKI F true (typ_at dfs i) i ic sp (nth i (p_vals st) VNone) (p_cx st) (p_rd st) pre b rem v) as (v' & x & r' & R1 & R2 & R3 & R4 & R5 & _); auto; try lia.
    { left. exact BR. } { apply CX. lia. }
    rewrite D4. unfold do_read. cbn [fh_read fh_kind p_vals p_cx p_rd p_prog p_done]. rewrite R1. cbn [bind]. eexists v', _. split; [reflexivity|]. rewrite PK4. cbn [p_next p_vals p_cx p_rd p_prog p_done].
    split; [|split; [exact R2|split; [exact R3|unfold same_kind in R4; tauto]]].
    unfold FI. cbn [p_next p_vals p_cx p_rd p_prog p_done]. rewrite !upd_length, V. split; [lia|]. split; [auto|]. split; [auto|]. split; [intros j Hj; rewrite upd_nth_other by lia; apply NV; lia|].
    split. { apply cxs_ok_nth. rewrite upd_length. split; [auto|]. intros j Hj. destruct (Nat.eq_dec i j) as [<-|NE]; [rewrite upd_nth by lia; auto|rewrite upd_nth_other by auto; apply CX; auto]. }
    split; [auto|]. intros j Hj. destruct (Nat.eq_dec i j) as [<-|NE]; [rewrite upd_nth by lia; auto|]. rewrite upd_nth_other by auto.
    destruct (le_lt_dec j z); [apply D2, DN; lia|apply D3; lia].
  Qed.

  Lemma at_buf : forall r pre rem, At r pre rem -> is_buf_reader r -> r = RBuf (pre ++ rem) (zlen pre).
  Proof. intros [b p|w s p ac] pre rem [_ A] B; [destruct A as [-> ->]; reflexivity|contradiction]. Qed.

  (** the header of an element, when the loop is known to succeed *)
  Lemma loop_header : forall f st pre t b rem stE, At (p_rd st) pre (tlv t b ++ rem) -> is_buf_reader (p_rd st) -> (t < two64)%N -> (nlen b < two64)%N ->
    parse_loop f true ic hs st = Ok stE ->
    exists f' r st1, At r (pre ++ tl_enc t ++ tl_enc (nlen b)) (b ++ rem) /\ is_buf_reader r
      /\ do_elem true ic t (nlen b) (zlen pre) hs (mkPS (p_vals st) (p_cx st) r (p_prog st) (p_done st)) = Ok st1 /\ parse_loop f' true ic hs st1 = Ok stE.
  Proof.
    intros f st pre t b rem stE A BR Ht Hb H. destruct f as [|f]; [discriminate|]. pose proof (at_buf _ _ _ A BR) as E.
    apply (loop_inv f true hs st (pre ++ tlv t b ++ rem)) in H; [|rewrite E; reflexivity]. destruct H as (pos & E2 & H). assert (pos = zlen pre) by congruence. subst pos. clear E2.
    unfold tlv in *. rewrite <- !app_assoc in *. destruct H as [[L _]|(_ & typ & l & r1 & r2 & st1 & T1 & T2 & _ & DE & H)].
    { rewrite !zlen_app in L. pose proof (tl_enc_pos t). unfold zlen, nlen in *. lia. }
    rewrite E in A. destruct (at_read_tl t _ _ _ Ht A) as (q1 & Q1 & A1 & K1). rewrite T1 in Q1. injection Q1 as -> ->.
    destruct (at_read_tl (nlen b) _ _ _ Hb A1) as (q2 & Q2 & A2 & K2). rewrite T2 in Q2. injection Q2 as -> ->.
    exists f, q2, st1. rewrite <- app_assoc in A2. split; [exact A2|]. split; [|auto]. apply K2, K1. exact I.
  Qed.

  Lemma fwd_elem : forall a z vals st f i v b rem pre stE, FI a z vals st -> (1 <= z)%nat -> (z < i <= 5)%nat -> (2 <= i)%nat ->
    k_body p0 [] (kind_at dfs i) v = Some b -> shape (kind_at dfs i) v -> typed (kind_at dfs i) v ->
    At (p_rd st) pre (tlv (typ_at dfs i) b ++ rem) -> is_buf_reader (p_rd st) -> (length b < F)%nat -> (zlen b < size_limit)%Z ->
    parse_loop f true ic hs st = Ok stE ->
    exists v' st' f', FI a i (upd vals i v') st' /\ same (back p0 [] (kind_at dfs i) v) v'
      /\ At (p_rd st') (pre ++ tlv (typ_at dfs i) b) rem /\ is_buf_reader (p_rd st') /\ parse_loop f' true ic hs st' = Ok stE.
  Proof.
    intros a z vals st f i v b rem pre stE HI Hz Hi Hi2 KB SH TY A BR LB SB H.
    assert (TI : (typ_at dfs i < two64)%N) by (clear -Hi Hi2; destruct i as [|[|[|[|[|[|i]]]]]]; try lia; reflexivity).
    destruct (loop_header f st pre _ b rem stE A BR TI (u64_len b SB) H) as (f' & r & st1 & A1 & B1 & DE & H1).
    assert (PR : p_prog st = Z.of_nat z) by apply HI. unfold do_elem in DE. cbn [p_prog] in DE.
    destruct (fwd_field a z vals (mkPS (p_vals st) (p_cx st) r (p_prog st) (p_done st)) (Z.to_nat (zlen hs - p_prog st)) i v b (zlen pre) rem (pre ++ tl_enc (typ_at dfs i) ++ tl_enc (nlen b)) HI Hz Hi Hi2) as (v' & st' & E & Q1 & Q2 & Q3 & Q4);
      try exact KB; auto; try exact A1.
    { rewrite PR. change (zlen hs) with 7%Z. lia. }
    rewrite E in DE. injection DE as <-. exists v', st', f'. split; [auto|]. split; [auto|]. split; [|auto]. unfold tlv. rewrite <- !app_assoc in *. exact Q3.
  Qed.

  (** a field that may be absent *)
  Lemma fwd_opt : forall a z vals st f i v ob rem pre stE, FI a z vals st -> (1 <= z)%nat -> (z < i <= 5)%nat -> (2 <= i)%nat ->
    (match ob with Some b => k_body p0 [] (kind_at dfs i) v = Some b | None => back p0 [] (kind_at dfs i) v = VNone end) -> shape (kind_at dfs i) v -> typed (kind_at dfs i) v ->
    At (p_rd st) pre (opt_tlv (typ_at dfs i) ob ++ rem) -> is_buf_reader (p_rd st) -> (forall b, ob = Some b -> (length b < F)%nat /\ (zlen b < size_limit)%Z) ->
    parse_loop f true ic hs st = Ok stE ->
    exists v' z' st' f', FI a z' (upd vals i v') st' /\ (z <= z' <= i)%nat /\ same (back p0 [] (kind_at dfs i) v) v'
      /\ At (p_rd st') (pre ++ opt_tlv (typ_at dfs i) ob) rem /\ is_buf_reader (p_rd st') /\ parse_loop f' true ic hs st' = Ok stE.
  Proof.
    intros a z vals st f i v [b|] rem pre stE HI Hz Hi Hi2 KB SH TY A BR LB H; cbn [opt_tlv] in *.
    - destruct (LB b eq_refl) as [L1 L2]. destruct (fwd_elem a z vals st f i v b rem pre stE) as (v' & st' & f' & Q1 & Q2 & Q3 & Q4 & Q5); auto.
      exists v', i, st', f'. split; [exact Q1|]. split; [lia|]. auto.
    - exists VNone, z, st, f. rewrite app_nil_r. assert (EV : upd vals i VNone = vals).
      { destruct HI as (_ & _ & LV & NV & _). rewrite <- (NV i) by lia. apply upd_same. lia. }
      rewrite EV, KB. split; [exact HI|]. split; [lia|]. split; [constructor|]. auto.
  Qed.

  Definition meta_value (c : data_config) : value := VStruct [v_nat (dc_type c); v_time (dc_fresh c); v_bytes (option_map comp_enc (dc_final c))].
  Definition meta_part (c : data_config) : buf :=
    opt_tlv 24 (option_map nat_enc (dc_type c)) ++ opt_tlv 25 (option_map ms_enc (dc_fresh c)) ++ opt_tlv 26 (option_map comp_enc (dc_final c)).
  Definition oinfo_part (osc : option sig_config) : option buf :=
    option_map (fun sc => sig_info_part (sc_type sc) (sc_key sc) None None None (validity sc)) osc.

  Lemma meta_body : forall c, data_config_ok c -> k_body p0 [] (kind_at dfs 3) (meta_value c) = Some (meta_part c).
  Proof.
    intros c (C1 & C2 & C3). change (kind_at dfs 3) with (KStruct spec_MetaInfo false). unfold spec_MetaInfo, meta_value. cbn [k_body]. f_equal. cbn [fs_bytes fst snd].
    rewrite v_nat_bytes, v_time_bytes, v_bytes_bytes by auto. rewrite app_nil_r. reflexivity.
  Qed.
  Lemma info_body : forall sc, data_sig_ok sc -> k_body p0 [] (kind_at dfs 5) (info_value sc) = Some (sig_info_part (sc_type sc) (sc_key sc) None None None (validity sc)).
  Proof.
    intros sc (H & _). change (kind_at dfs 5) with (KStruct spec_SignatureInfo false). unfold spec_SignatureInfo, info_value. cbn [k_body]. f_equal.
    unfold sig_info_part. cbn [fs_bytes fst snd]. rewrite to_u64_small by lia. cbn [option_map opt_tlv app].
    destruct (sc_key sc) as [k|], (validity sc) as [[a b]|]; cbn [option_map opt_tlv app fst snd]; unfold spec_KeyLocator, spec_ValidityPeriod; rewrite ?struct_bytes by reflexivity; cbn [fs_bytes fst snd k_bytes app]; rewrite ?app_nil_r; reflexivity.
  Qed.

  (** what the fields, equal to the given ones up to fragmentation, say *)
  Lemma reads_of : forall n c content osc d, data_config_ok c -> all_of data_sig_ok osc -> (olen (fun x => nlen (comp_enc x)) (dc_final c) < packet_limit)%N ->
    nth 2 d VNone = VName n -> same (back p0 [] (kind_at dfs 3) (meta_value c)) (nth 3 d VNone) -> same (v_wire content) (nth 4 d VNone) ->
    same (back p0 [] (kind_at dfs 5) (oinfo_value osc)) (nth 5 d VNone) -> data_reads n c content osc (d_sig_value d) d.
  Proof.
    intros n c content osc d CO SO SZ S2 S3 S4 S5. unfold data_reads. split; [unfold d_name; rewrite S2; reflexivity|]. change (kind_at dfs 3) with (KStruct spec_MetaInfo false) in S3. change (kind_at dfs 5) with (KStruct spec_SignatureInfo false) in S5. unfold meta_value in S3.
    destruct CO as (C1 & C2 & C3).
    split; [unfold d_content_type; rewrite <- (same_nat _ _ (same_fld _ _ 0 S3)); destruct (dc_type c); reflexivity|].
    split; [unfold d_freshness; rewrite <- (same_time _ _ (same_fld _ _ 1 S3)); destruct (dc_fresh c); reflexivity|].
    split.
    { unfold d_final_block. rewrite <- (same_bytes _ _ (same_fld _ _ 2 S3)). destruct (dc_final c) as [fc|] eqn:EF; [|reflexivity]. cbn [option_map v_bytes back spec_MetaInfo g_fld nth g_bytes snd fst].
      rewrite <- (app_nil_r (comp_enc fc)). destruct C3 as [C3 C4]. rewrite comp_from_bytes_ok; auto. rewrite app_nil_r. cbn [olen] in SZ. unfold packet_limit, mem_limit, zlen, nlen in *. lia. }
    split; [unfold d_content; rewrite <- (same_wire_eq _ _ S4); destruct content; reflexivity|].
    split; [unfold d_sig_type; rewrite <- (same_sig_type _ _ S5); destruct osc as [sc|]; [|reflexivity]; destruct SO as [T _]; cbn; rewrite to_u64_small by lia; rewrite to_int_small by (unfold two63; lia); lia|].
    split; [unfold d_key_name; rewrite <- (same_key_name _ _ S5); destruct osc as [sc|]; [|reflexivity]; cbn; destruct (sc_key sc); reflexivity|].
    split; [|reflexivity].
    unfold d_validity. pose proof (same_fld _ _ 5 S5) as SV. destruct osc as [sc|]; [|cbn in SV; rewrite (same_none_inv _ SV); reflexivity].
    cbn in SV. destruct (validity sc) as [[a b]|]; cbn in SV; [|rewrite (same_none_inv _ SV); reflexivity].
    destruct (same_struct_inv _ _ SV) as (l & -> & SL). inversion SL as [|? a' ? l1 A1 A2]; subst. inversion A2 as [|? b' ? l2 B1 B2]; subst. inversion B2; subst.
    rewrite <- (SpecData.same_bytes _ _ A1), <- (SpecData.same_bytes _ _ B1). reflexivity.
  Qed.

  Lemma data_part_split : forall n c content osc,
    data_part n c content osc = tlv (typ_at dfs 2) (name_enc n) ++ tlv (typ_at dfs 3) (meta_part c) ++ opt_tlv (typ_at dfs 4) (option_map (@concat N) content) ++ opt_tlv (typ_at dfs 5) (oinfo_part osc).
  Proof. reflexivity. Qed.

  Definition fresh (st : pstate) : Prop := p_vals st = zs /\ p_cx st = cx0 /\ length (p_done st) = 7%nat /\ (p_prog st = -1 \/ p_prog st = 0)%Z.

  Lemma body_in_tlv : forall t (b : buf), (length b <= length (tlv t b))%nat.
  Proof. intros. unfold tlv. rewrite !app_length. lia. Qed.

  Lemma fwd_data : forall n c content osc st f pre rest r1 stE sp stF, name_typed n -> data_config_ok c -> all_of data_sig_ok osc ->
    fresh st -> At (p_rd st) pre (data_part n c content osc ++ rest) -> is_buf_reader (p_rd st) ->
    (length (pre ++ data_part n c content osc ++ rest) < F)%nat -> (nlen (pre ++ data_part n c content osc ++ rest) < packet_limit)%N ->
    read_tl (RBuf (pre ++ data_part n c content osc ++ rest) (zlen (pre ++ data_part n c content osc))) = (Ok 23%N, r1) ->
    parse_loop f true ic hs st = Ok stE -> skip_rest 0 sp hs stE = Ok stF ->
    data_reads n c content osc (d_sig_value (p_vals stF)) (p_vals stF) /\ d_sig_value (p_vals stF) <> None.
  Proof.
    intros n c content osc st f pre rest r1 stE sp stF Hn CO SO (V0 & C0 & D0 & P0) A BR FU SZ T23 H HS.
    pose proof (data_shape n c content osc) as SH. pose proof (data_typed n c content osc Hn CO SO) as TY.
    assert (SHi : forall i, (i < 7)%nat -> shape (kind_at dfs i) (nth i (data_vals n c content osc ++ [VNone]) VNone)) by (intros i Hi; exact (F2_at shape dfs _ SH i Hi)).
    assert (TYi : forall i, (i < 7)%nat -> typed (kind_at dfs i) (nth i (data_vals n c content osc ++ [VNone]) VNone)) by (intros i Hi; exact (F2_at typed dfs _ TY i Hi)).
    assert (ZN : forall x : buf, (length x <= length (data_part n c content osc))%nat -> (length x < F)%nat /\ (zlen x < size_limit)%Z).
    { intros x L. rewrite !app_length in FU. unfold packet_limit, nlen in SZ. rewrite !app_length in SZ. unfold zlen, size_limit. lia. }
    assert (LP : length (data_part n c content osc) = (length (tlv (typ_at dfs 2) (name_enc n)) + (length (tlv (typ_at dfs 3) (meta_part c)) + (length (opt_tlv (typ_at dfs 4) (option_map (@concat N) content)) + length (opt_tlv (typ_at dfs 5) (oinfo_part osc)))))%nat)
      by (rewrite data_part_split, !app_length; reflexivity).
    pose proof (body_in_tlv (typ_at dfs 2) (name_enc n)) as B2. pose proof (body_in_tlv (typ_at dfs 3) (meta_part c)) as B3.
    destruct (ZN (name_enc n)) as [F2 Z2]; [lia|]. destruct (ZN (meta_part c)) as [F3 Z3]; [lia|].
    assert (I2' : (2 < 7)%nat) by lia. assert (I3' : (3 < 7)%nat) by lia. assert (I4' : (4 < 7)%nat) by lia. assert (I5' : (5 < 7)%nat) by lia.
    rewrite data_part_split in A. rewrite <- !app_assoc in A.
    (* the name *)
    destruct (loop_header f st pre (typ_at dfs 2) (name_enc n) _ stE A BR eq_refl (u64_len _ Z2) H) as (f1 & q1 & st1 & A1 & BR1 & DE1 & H1).
    destruct (enter (mkPS (p_vals st) (p_cx st) q1 (p_prog st) (p_done st)) (typ_at dfs 2) (nlen (name_enc n)) (zlen pre) 2 (hd 2) V0 D0 P0 eq_refl) as (m & dn & L1 & Hm & EN).
    rewrite EN in DE1. cbn [p_cx p_rd] in DE1.
    destruct (fwd_field 0 1 zs (mkPS zs (upd (p_cx st) 1 (XOff (zlen pre))) q1 1 dn) m 2 (VName n) (name_enc n) (zlen pre) (tlv (typ_at dfs 3) (meta_part c) ++ opt_tlv (typ_at dfs 4) (option_map (@concat N) content) ++ opt_tlv (typ_at dfs 5) (oinfo_part osc) ++ rest) (pre ++ tl_enc (typ_at dfs 2) ++ tl_enc (nlen (name_enc n))))
      as (v2 & st2 & E2 & I2 & S2 & A2 & BR2); try exact A1; try exact (SHi 2%nat I2'); try exact (TYi 2%nat I2'); auto; try lia.
    { unfold FI. cbn [p_prog p_vals p_cx p_done]. split; [reflexivity|]. split; [reflexivity|]. split; [reflexivity|].
      split; [intros j Hj; do 7 (destruct j as [|j]; [reflexivity|]); destruct j; reflexivity|].
      split; [|split; [auto|intros; lia]]. rewrite C0. pose proof (m_ctx_ok true true dfs) as CK. apply cxs_ok_nth in CK. destruct CK as [CL CK]. apply cxs_ok_nth. rewrite upd_length. split; [exact CL|].
      intros i Hi. destruct (Nat.eq_dec 1 i) as [<-|NE]; [rewrite upd_nth by (rewrite CL; cbn; lia); cbn; exact I || (eexists; reflexivity)|]. rewrite upd_nth_other by auto. apply CK. exact Hi. }
    
    rewrite E2 in DE1. injection DE1 as <-. assert (E2v : v2 = VName n) by (apply same_name_inv; exact S2). subst v2.
    rewrite <- !app_assoc in A2.
    change (At (p_rd st2) (pre ++ tlv (typ_at dfs 2) (name_enc n)) (tlv (typ_at dfs 3) (meta_part c) ++ opt_tlv (typ_at dfs 4) (option_map (concat (A:=N)) content) ++ opt_tlv (typ_at dfs 5) (oinfo_part osc) ++ rest)) in A2.
    (* MetaInfo *)
    destruct (fwd_elem 0 2 _ st2 f1 3 (meta_value c) (meta_part c) (opt_tlv (typ_at dfs 4) (option_map (@concat N) content) ++ opt_tlv (typ_at dfs 5) (oinfo_part osc) ++ rest) (pre ++ tlv (typ_at dfs 2) (name_enc n)) stE I2) as (v3 & st3 & f3 & I3 & S3 & A3 & BR3 & H3); try exact A2; try exact (SHi 3%nat I3'); try exact (TYi 3%nat I3'); auto; try lia.
    { apply meta_body. exact CO. } 
    (* Content *)
    destruct (fwd_opt 0 3 _ st3 f3 4 (v_wire content) (option_map (@concat N) content) (opt_tlv (typ_at dfs 5) (oinfo_part osc) ++ rest) ((pre ++ tlv (typ_at dfs 2) (name_enc n)) ++ tlv (typ_at dfs 3) (meta_part c)) stE I3) as (v4 & z4 & st4 & f4 & I4 & Z4 & S4 & A4 & BR4 & H4); try exact A3; try exact (SHi 4%nat I4'); try exact (TYi 4%nat I4'); auto; try lia.
    { destruct content; reflexivity. } 
    { intros b Eb. apply ZN. rewrite LP, Eb. cbn [opt_tlv]. pose proof (body_in_tlv (typ_at dfs 4) b). lia. }
    (* SignatureInfo *)
    destruct (fwd_opt 0 z4 _ st4 f4 5 (oinfo_value osc) (oinfo_part osc) rest (((pre ++ tlv (typ_at dfs 2) (name_enc n)) ++ tlv (typ_at dfs 3) (meta_part c)) ++ opt_tlv (typ_at dfs 4) (option_map (@concat N) content)) stE I4) as (v5 & z5 & st5 & f5 & I5 & Z5 & S5 & A5 & BR5 & H5); try exact A4; try exact (SHi 5%nat I5'); try exact (TYi 5%nat I5'); auto; try lia.
    { destruct osc as [sc|]; [apply info_body; exact SO|reflexivity]. } 
    { intros b Eb. apply ZN. rewrite LP, Eb. cbn [opt_tlv]. pose proof (body_in_tlv (typ_at dfs 5) b). lia. }
    (* SignatureValue *)
    assert (EB : ((((pre ++ tlv (typ_at dfs 2) (name_enc n)) ++ tlv (typ_at dfs 3) (meta_part c)) ++ opt_tlv (typ_at dfs 4) (option_map (@concat N) content)) ++ opt_tlv (typ_at dfs 5) (oinfo_part osc)) = pre ++ data_part n c content osc)
      by (rewrite data_part_split, <- !app_assoc; reflexivity).
    rewrite EB in A5. pose proof (at_buf _ _ _ A5 BR5) as RB5. rewrite <- app_assoc in RB5.
    destruct f5 as [|f5]; [discriminate|]. apply (loop_inv f5 true hs st5 (pre ++ data_part n c content osc ++ rest)) in H5; [|rewrite RB5; reflexivity].
    destruct H5 as (pos & RP & H5). assert (pos = zlen (pre ++ data_part n c content osc)) by congruence. subst pos.
    destruct H5 as [[L _]|(_ & typ & l & q6 & q7 & st6 & T1 & T2 & R6 & DE & H6)].
    { exfalso. unfold read_tl in T23. cbn [r_read_byte] in T23. destruct (Z.leb_spec (zlen (pre ++ data_part n c content osc ++ rest)) (zlen (pre ++ data_part n c content osc))); [discriminate|lia]. }
    rewrite T23 in T1. injection T1 as <- <-.
    unfold do_elem in DE. cbn [p_prog] in DE. destruct I5 as (P5 & V5 & LV5 & NV5 & CX5 & LD5 & DN5).
    destruct (ord_to (6 - z5 - 1) (Z.to_nat (zlen hs - p_prog st5)) l (zlen (pre ++ data_part n c content osc)) (mkPS (p_vals st5) (p_cx st5) q7 (p_prog st5) (p_done st5)) 6) as (dn6 & D1 & D2 & D3 & D4);
      cbn [p_prog p_vals p_done]; try (rewrite V5); auto; try lia.
    { rewrite P5. change (zlen hs) with 7%Z. lia. } { intros j Hj. apply NV5. lia. }
    change (typ_at dfs 6) with 23%N in D4. rewrite D4 in DE. unfold do_read in DE. cbn [fh_read fh_kind p_vals p_cx p_rd p_prog p_done] in DE. unfold kind_at, dfs in DE. cbn [m_fields spec_Data map nth snd k_read] in DE.
    pose proof (kr_wire (to_int l) q7) as KW. destruct (r_read_wire (to_int l) q7) as [[w|e| |] q8]; cbn [soft bind] in DE; try discriminate.
    destruct (r_range _ _ q8) as [g| | |]; try discriminate. cbn [bind k_back] in DE. injection DE as <-. cbn [snd] in KW.
    apply cxs_ok_nth in CX5. destruct CX5 as [LC5 _]. change (length dfs) with 7%nat in LC5.
    apply (loop_late f5 _ (pre ++ data_part n c content osc ++ rest) stE) in H6; cbn [p_next p_rd p_prog p_cx p_vals p_done] in *; [destruct H6 as (VE & _ & DE')|congruence|lia|rewrite upd_length; exact LC5].
    assert (VF : p_vals stF = upd (p_vals st5) 6 (VWire w)).
    { rewrite <- VE. apply (rest_done 7 0 sp stE stF); auto; rewrite ?VE, ?DE'; [rewrite upd_length; congruence|].
      intros j Hj. destruct (Nat.eq_dec 6 j) as [<-|NE]; [apply upd_nth; lia|]. rewrite upd_nth_other by auto.
      destruct (le_lt_dec j z5); [apply D2, DN5; lia|apply D3; lia]. }
    rewrite VF, V5. change zs with [VNone; VNone; VNone; VNone; VNone; VNone; VNone] in *. cbn [upd]. split; [|discriminate].
    apply reads_of; auto.
    unfold packet_limit in *. destruct (dc_final c) as [fc|] eqn:EF; cbn [olen]; [|lia].
    assert (LM : (length (comp_enc fc) <= length (meta_part c))%nat).
    { unfold meta_part. rewrite EF. cbn [option_map opt_tlv]. rewrite !app_length. pose proof (body_in_tlv 26 (comp_enc fc)). lia. }
    unfold nlen in SZ |- *. rewrite !app_length in SZ. lia.
  Qed.
End Data.

Lemma slice_split : forall (b : buf) i j t, slice b i j = Ok t -> exists x y, b = x ++ t ++ y /\ zlen x = i /\ zlen (x ++ t) = j.
Proof.
  intros b i j t H. unfold slice in H. destruct (_ && _ && _)%Z eqn:C; [|discriminate]. injection H as <-. rewrite !andb_true_iff in C. destruct C as [[C1 C2] C3].
  apply Z.leb_le in C1, C2, C3. unfold zlen in *. exists (firstn (Z.to_nat i) b), (skipn (Z.to_nat (j - i)) (skipn (Z.to_nat i) b)).
  rewrite firstn_skipn, firstn_skipn. split; [reflexivity|]. rewrite app_length, !firstn_length, skipn_length. lia.
Qed.

Lemma data_part_head : forall n c content osc, exists x, data_part n c content osc = tl_enc 7 ++ x.
Proof. intros. unfold data_part, tlv at 1. rewrite <- !app_assoc. eexists. reflexivity. Qed.

Theorem run_genuine : forall F ic body n c content osc d cx, name_typed n -> data_config_ok c -> all_of data_sig_ok osc ->
  (length body < F)%nat -> (nlen body < packet_limit)%N ->
  run_parse F true ic (fs_handlers F 0 dfs) (m_ctx (Model true true dfs)) (RBuf body 0) = Ok (d, cx) ->
  concat (x_cov (nth 0 cx XNone)) = data_part n c content osc ->
  data_reads n c content osc (d_sig_value d) d /\ d_sig_value d <> None.
Proof.
  intros F ic body n c content osc d cx Hn CO SO FU SZ H CV. unfold run_parse in H.
  set (st0 := mkPS _ _ _ _ _) in H. destruct (parse_loop _ _ _ _ _) as [stE| | |] eqn:PL; try discriminate. cbn [bind] in H.
  destruct (r_pos (p_rd stE)) as [sp| | |]; try discriminate. cbn [bind] in H. destruct (skip_rest _ _ _ _) as [stF| | |] eqn:SR; try discriminate. cbn [bind] in H. injection H as <- <-.
  destruct (data_part_head n c content osc) as (hx & HX).
  assert (NE : data_part n c content osc <> []) by (rewrite HX; discriminate).
  assert (ML : (zlen body < mem_limit)%Z) by (unfold packet_limit, nlen, mem_limit, zlen in *; lia).
  (* what the covered bytes say, if the marker is at [a] *)
  assert (FIN : forall a, length (p_cx stE) = 7%nat -> x_cov (nth 0 (p_cx stE) XNone) = []
      \/ (exists s t r1, read_tl (RBuf body s) = (Ok 23%N, r1) /\ slice body a s = Ok t /\ x_cov (nth 0 (p_cx stE) XNone) = [t]) ->
      exists pre rest r1, body = pre ++ data_part n c content osc ++ rest /\ zlen pre = a
        /\ read_tl (RBuf (pre ++ data_part n c content osc ++ rest) (zlen (pre ++ data_part n c content osc))) = (Ok 23%N, r1)).
  { intros a LC X. apply (rest_cov F 7 0) in SR; [|reflexivity|exact LC]. rewrite SR in CV. destruct X as [X|(s & t & r1 & X1 & X2 & X3)]; [rewrite X in CV; cbn in CV; congruence|].
    rewrite X3 in CV. cbn [concat] in CV. rewrite app_nil_r in CV. subst t. apply slice_split in X2. destruct X2 as (x & y & -> & <- & <-). exists x, y, r1. auto. }
  assert (RD7 : forall pre rest r typ, body = pre ++ data_part n c content osc ++ rest -> read_tl (RBuf body (zlen pre)) = (Ok typ, r) -> typ = 7%N).
  { intros pre rest r typ EB T. assert (A : At (RBuf body (zlen pre)) pre (data_part n c content osc ++ rest)) by (split; [rewrite <- EB; exact ML|auto]).
    rewrite HX, <- app_assoc in A. destruct (at_read_tl 7 _ _ _ eq_refl A) as (r' & Q & _). congruence. }
  assert (CVE : forall f st st', length (p_cx st) = 7%nat -> (1 <= p_prog st)%Z -> reader_buf (p_rd st) = Some body -> parse_loop f true ic (fs_handlers F 0 dfs) st = Ok st' -> length (p_cx st') = 7%nat).
  { induction f as [|f IH]; intros st st' L P RB H; [discriminate|]. apply (loop_inv ic f true _ st body) in H; auto. destruct H as (pos & _ & [[_ ->]|(_ & typ & l & q1 & q2 & st1 & _ & _ & R2 & DE & H)]); [auto|].
    unfold do_elem in DE. apply (ord_cx F ic) in DE; auto. cbn [p_rd p_prog p_cx] in DE. destruct DE as (D1 & D2 & D3 & _). apply IH in H; auto; [lia|congruence]. }
  (* the end of the proof, from the element where the marker is *)
  assert (GO : forall f st pos typ l r1 r2 st1 i h, fresh st -> p_rd st = RBuf body pos -> (pos < zlen body)%Z -> read_tl (RBuf body pos) = (Ok typ, r1) -> read_tl r1 = (Ok l, r2) -> reader_buf r2 = Some body ->
     do_elem true ic typ l pos (fs_handlers F 0 dfs) (mkPS (p_vals st) (p_cx st) r2 (p_prog st) (p_done st)) = Ok st1 -> parse_loop f true ic (fs_handlers F 0 dfs) st1 = Ok stE ->
     parse_loop (S f) true ic (fs_handlers F 0 dfs) st = Ok stE ->
     find_field typ 0 (fs_handlers F 0 dfs) = Some (i, h) -> data_reads n c content osc (d_sig_value (p_vals stF)) (p_vals stF) /\ d_sig_value (p_vals stF) <> None).
  { intros f st pos typ l r1 r2 st1 i h FR RP LP T1 T2 R2 DE H1 HF FF. pose proof FR as (V0 & C0 & D0 & P0).
    destruct (enter F ic (mkPS (p_vals st) (p_cx st) r2 (p_prog st) (p_done st)) typ l pos i h V0 D0 P0 FF) as (m & dn & L1 & Hm & EN). rewrite EN in DE. cbn [p_cx p_rd] in DE.
    assert (LC1 : length (upd (p_cx st) 1 (XOff pos)) = 7%nat) by (rewrite upd_length, C0; reflexivity).
    pose proof (ord_cx F ic m typ l pos (mkPS zs (upd (p_cx st) 1 (XOff pos)) r2 1 dn) st1 (Z.le_refl 1) LC1 DE) as OC. cbn [p_prog p_rd p_cx] in OC. destruct OC as (O1 & O2 & O3 & _).
    assert (LE : length (p_cx stE) = 7%nat) by (apply (CVE f st1); auto; congruence).
    pose proof (elem_cov F ic f m (mkPS zs (upd (p_cx st) 1 (XOff pos)) r2 1 dn) body st1 stE pos typ l r1) as EC. cbn [p_rd p_prog p_cx] in EC.
    rewrite C0 in EC at 2. specialize (EC R2 (Z.le_refl 1) LC1 eq_refl T1 DE H1).
    assert (XO : x_off (nth 1 (upd (p_cx st) 1 (XOff pos)) XNone) = pos) by (rewrite upd_nth by (rewrite C0; cbn; lia); reflexivity). rewrite XO in EC.
    destruct (FIN pos LE EC) as (pre & rest & q & EB & ZP & T23).
    eapply (fwd_data F ic n c content osc st (S f) pre rest q stE sp stF); eauto.
    - rewrite RP. split; [rewrite <- EB; exact ML|]. auto.
    - rewrite RP. exact I.
    - rewrite <- EB. exact FU.
    - rewrite <- EB. exact SZ. }
  assert (FR0 : fresh st0) by (repeat split; auto).
  destruct F as [|F]; [lia|]. pose proof PL as PL'.
  apply (loop_inv ic F true _ st0 body) in PL; [|reflexivity]. destruct PL as (pos & RP & PL). assert (pos = 0%Z) by (cbn in RP; congruence). subst pos.
  destruct PL as [[_ ->]|(LP & typ & l & r1 & r2 & st1 & T1 & T2 & R2 & DE & H1)].
  { exfalso. destruct (FIN 0%Z eq_refl) as (pre & rest & q & EB & ZP & T23); [left; reflexivity|].
    apply (rest_cov (S F) 7 0) in SR; [|reflexivity|reflexivity]. rewrite SR in CV. cbn in CV. congruence. }
  destruct (find_field typ 0 (fs_handlers (S F) 0 dfs)) as [[i h]|] eqn:FF; [eapply GO; eauto|].
  (* the first element is an unknown one *)
  unfold do_elem in DE. change (Z.to_nat (zlen (fs_handlers (S F) 0 dfs) - p_prog (mkPS (p_vals st0) (p_cx st0) r2 (p_prog st0) (p_done st0)))) with 8%nat in DE. cbn [ordered_loop] in DE. rewrite FF in DE.
  unfold do_default in DE. destruct (negb ic && is_critical typ); [discriminate|]. cbn [p_rd p_vals p_cx p_prog p_done] in DE.
  pose proof (kr_skip (to_int l) r2) as K. destruct (r_skip (to_int l) r2) as [[x|e| |] r3]; cbn [soft bind] in DE; try discriminate. injection DE as <-. cbn [snd] in K. unfold p_next in H1. cbn [p_rd p_vals p_cx p_prog p_done] in H1.
  set (st1 := mkPS _ _ _ _ _) in H1. assert (FR1 : fresh st1) by (repeat split; auto).
  assert (RB1 : reader_buf (p_rd st1) = Some body) by (cbn; congruence).
  destruct F as [|F]; [discriminate|]. pose proof H1 as H1'. apply (loop_inv ic F true _ st1 body) in H1; [|exact RB1]. destruct H1 as (pos & RP1 & H1).
  destruct H1 as [[_ ->]|(LP1 & typ1 & l1 & q1 & q2 & st2 & U1 & U2 & W2 & DE & H2)].
  { exfalso. apply (rest_cov (S (S F)) 7 0) in SR; [|reflexivity|reflexivity]. rewrite SR in CV. cbn in CV. congruence. }
  destruct (find_field typ1 0 (fs_handlers (S (S F)) 0 dfs)) as [[i h]|] eqn:FF1; [eapply GO; eauto|].
  (* so is the second one: the marker stays at 0 *)
  exfalso. unfold do_elem in DE. change (Z.to_nat (zlen (fs_handlers (S (S F)) 0 dfs) - p_prog (mkPS (p_vals st1) (p_cx st1) q2 (p_prog st1) (p_done st1)))) with 7%nat in DE. cbn [ordered_loop] in DE. rewrite FF1 in DE.
  unfold do_default in DE. destruct (negb ic && is_critical typ1); [discriminate|]. cbn [p_rd p_vals p_cx p_prog p_done] in DE.
  pose proof (kr_skip (to_int l1) q2) as K1. destruct (r_skip (to_int l1) q2) as [[x1|e| |] q3]; cbn [soft bind] in DE; try discriminate. injection DE as <-. cbn [snd] in K1. unfold p_next in H2. cbn [p_rd p_vals p_cx p_prog p_done] in H2.
  set (st2 := mkPS _ _ _ _ _) in H2. assert (RB2 : reader_buf (p_rd st2) = Some body) by (cbn; congruence).
  assert (LE : length (p_cx stE) = 7%nat) by (apply (CVE F st2); auto; reflexivity).
  pose proof (loop_cov (S (S F)) ic F st2 body stE RB2 (Z.le_refl 1) eq_refl eq_refl H2) as LC. cbn [p_cx st2 st1 st0] in LC.
  destruct (FIN 0%Z LE LC) as (pre & rest & q & EB & ZP & _).
  assert (T7 : typ = 7%N) by (apply (RD7 pre rest r1); auto; rewrite ZP; exact T1). subst typ. discriminate.
Qed.

(** ** A packet that is one Data element *)
Lemma read_data_one : forall F body d cov, (nlen body < packet_limit)%N -> read_data F (new_buffer_reader (tlv 6 body)) = Ok (d, cov) ->
  exists cx, run_parse F true false (fs_handlers F 0 dfs) (m_ctx (Model true true dfs)) (RBuf body 0) = Ok (d, cx) /\ cov = x_cov (nth 0 cx XNone).
Proof.
  intros F body d cov SZ H. unfold read_data in H. destruct (m_parse _ _ _ _) as [[vs cx]| | |] eqn:MP; try discriminate. cbn [bind] in H.
  unfold m_parse, m_parse_ctx, run_parse in MP. change (m_ordered spec_Packet) with false in MP. set (hp := fs_handlers F 0 (m_fields spec_Packet)) in MP. set (st0 := mkPS _ _ _ _ _) in MP.
  destruct (parse_loop F false false hp st0) as [stE| | |] eqn:PL; try discriminate. cbn [bind] in MP. destruct (r_pos (p_rd stE)) as [sp| | |]; try discriminate. cbn [bind] in MP.
  destruct (skip_rest 0 sp hp stE) as [stF| | |] eqn:SR; try discriminate. cbn [bind] in MP. injection MP as <- <-.
  assert (U : (nlen body < two64)%N) by (unfold packet_limit, two64 in *; lia).
  assert (A0 : At (RBuf (tlv 6 body) 0) [] (tl_enc 6 ++ tl_enc (nlen body) ++ body)).
  { split; [|split; reflexivity]. cbn [app]. change (tl_enc 6 ++ tl_enc (nlen body) ++ body) with (tlv 6 body). pose proof (tlv_le 6 body). unfold packet_limit, mem_limit, zlen, nlen in *. lia. }
  destruct (at_read_tl 6 _ _ _ eq_refl A0) as (r1 & T1 & A1 & K1). destruct (at_read_tl (nlen body) _ _ _ U A1) as (r2 & T2 & A2 & K2).
  assert (B2 : is_buf_reader r2) by (apply K2, K1; exact I). pose proof (at_buf r2 _ _ A2 B2) as E2. cbn [app] in E2.
  set (hd6 := tl_enc 6 ++ tl_enc (nlen body)) in *.
  destruct F as [|F]; [discriminate|]. apply (loop_inv false F false hp st0 (tlv 6 body)) in PL; [|reflexivity]. destruct PL as (pos & RP & PL). assert (pos = 0%Z) by (change (p_rd st0) with (RBuf (tlv 6 body) 0) in RP; congruence). subst pos.
  destruct PL as [[L _]|(_ & typ & l & q1 & q2 & st1 & Q1 & Q2 & _ & DE & H1)].
  { exfalso. unfold tlv in L. rewrite !zlen_app in L. pose proof (tl_enc_pos 6). unfold zlen, nlen in *. lia. }
  rewrite T1 in Q1. injection Q1 as <- <-. rewrite T2 in Q2. injection Q2 as <- <-.
  unfold do_elem in DE. change (find_field 6 0 hp) with (Some (1%nat, mkFH 6 (KStruct spec_Data true) (k_read (S F) 6 1 (KStruct spec_Data true)))) in DE.
  unfold do_read in DE. cbn [fh_read fh_kind p_vals p_cx p_rd p_prog p_done] in DE. change spec_Data with (Model true true dfs) in DE. cbn [k_read] in DE.
  assert (RD : r_delegate (to_int (nlen body)) r2 = Ok (RBuf body 0, RBuf (tlv 6 body) (zlen (tlv 6 body)))).
  { rewrite E2. rewrite to_int_len by (unfold packet_limit, Ztwo63, nlen, zlen in *; lia). change (tlv 6 body) with (tl_enc 6 ++ tl_enc (nlen body) ++ body). rewrite (app_assoc (tl_enc 6)). fold hd6.
    assert (W : wrap64 (zlen hd6 + zlen body) = zlen (hd6 ++ body)).
    { rewrite zlen_app. apply wrap64_id. destruct A2 as [A2 _]. cbn [app] in A2. fold hd6 in A2. rewrite zlen_app in A2. unfold mem_limit, Ztwo63, zlen in *. lia. }
    cbn [r_delegate]. rewrite W.
    match goal with |- (if ?c then _ else _) = _ => assert (C : c = false) by (unfold zlen; lia) end. rewrite C.
    rewrite slice_tail. cbn [bind]. reflexivity. }
  rewrite RD in DE. cbn [bind fst snd] in DE. rewrite handlers_eq in DE.
  change (x_sub (nth 1 (p_cx st0) XNone)) with (m_ctx (Model true true dfs)) in DE.
  destruct (run_parse (S F) true false (fs_handlers (S F) 0 dfs) (m_ctx (Model true true dfs)) (RBuf body 0)) as [[vd cd]|e| |] eqn:RPD; try discriminate. cbn [bind] in DE. injection DE as <-.
  destruct F as [|F]; [discriminate|]. cbn [parse_loop p_rd r_pos r_length bind] in H1. rewrite Z.leb_refl in H1. injection H1 as <-.
  cbn [p_rd] in SR.
  cbn in SR. injection SR as <-. cbn [p_vals p_cx] in H. cbn [nth] in H. 
  destruct (nth 2 vd VNone); try discriminate. injection H as <- <-. exists cd. split; reflexivity.
Qed.

Theorem data_genuine : forall F body n c content osc d cov, name_typed n -> data_config_ok c -> all_of data_sig_ok osc ->
  (length body < F)%nat -> (nlen body < packet_limit)%N ->
  read_data F (new_buffer_reader (tlv 6 body)) = Ok (d, cov) -> concat cov = data_part n c content osc ->
  data_reads n c content osc (d_sig_value d) d /\ d_sig_value d <> None.
Proof.
  intros F body n c content osc d cov Hn CO SO FU SZ H CV. destruct (read_data_one F body d cov SZ H) as (cx & R & ->).
  eapply run_genuine; eauto.
Qed.
