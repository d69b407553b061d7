(** A field that announces more bytes than are left is refused by the parser of
    every model (C86). *)
From Verif Require Import Base BaseProofs PrimModel PrimProofs ReaderModel ReaderSpec ReaderProofs ReaderProofs2 ReaderProofs3 ReaderProofs4 NameModel CodecModel CodecSpec CodecProofs CodecPar.
Open Scope list_scope.

Lemma read_nat_short : forall s F M n v r pre, At r pre s -> (zlen s < n)%Z ->
  forall w r', read_nat F M n v r <> Ok (None, w, r').
Proof.
  induction s as [|x s IH]; intros F M n v r pre A L w r' H; zl.
  - destruct F as [|F]; cbn [read_nat] in H; destruct (Z.leb_spec n 0) as [Q|Q]; try discriminate; try (rewrite zlen_nil in L; lia).
    destruct (at_read_byte_eof _ _ A) as (r1 & E & _). rewrite E in H. cbn [soft] in H. discriminate.
  - rewrite zlen_cons in L.
    destruct F as [|F]; cbn [read_nat] in H; destruct (Z.leb_spec n 0) as [Q|Q]; try discriminate; try lia.
    destruct (at_read_byte _ _ _ _ A) as (r1 & E & A1 & _). rewrite E in H. cbn [soft] in H.
    eapply (IH F M (n - 1)%Z); [exact A1|lia|exact H].
Qed.

(** the kinds whose value is the announced number of bytes, taken as it is: numbers,
    times, byte strings, strings and wires.  Not here: a byte and a boolean, which do
    not look at the length, names, and fields with elements inside. *)
Definition counted (k : kind) : Prop :=
  match k with
  | KNat _ | KTime _ | KBin | KStr _ | KWire => True
  | KFixed w _ => (w <> 1)%nat
  | _ => False
  end.

Lemma counted_short : forall F t i k ic sp l old cx r pre s, counted k -> At r pre s ->
  (zlen s < Z.of_N l)%Z -> (Z.of_N l < mem_limit)%Z ->
  forall v cx' r', k_read F t i k ic sp l old cx r <> Ok (None, v, cx', r').
Proof.
  intros F t i k ic sp l old cx r pre s C A L B v cx' r' H. assert (TI : to_int l = Z.of_N l) by (apply to_int_small; unfold two63, mem_limit in *; lia).
  assert (L' : (zlen s < to_int l)%Z) by (rewrite TI; exact L).
  destruct k; cbn [counted] in C; try contradiction; cbn [k_read] in H.
  - destruct (read_nat _ _ _ _ _) as [[[e n] r1]| | |] eqn:E; try discriminate. cbn [bind] in H. injection H as -> <- <- <-.
    exact (read_nat_short _ _ _ _ _ _ _ A L' _ _ E).
  - destruct (Nat.eqb_spec w 1) as [|_]; [contradiction|].
    destruct (read_nat _ _ _ _ _) as [[[e n] r1]| | |] eqn:E; try discriminate. cbn [bind] in H. injection H as -> <- <- <-.
    exact (read_nat_short _ _ _ _ _ _ _ A L' _ _ E).
  - destruct (read_nat _ _ _ _ _) as [[[e n] r1]| | |] eqn:E; try discriminate. cbn [bind] in H. injection H as -> <- <- <-.
    exact (read_nat_short _ _ _ _ _ _ _ A L' _ _ E).
  - destruct (make_ok _ _); [|discriminate]. destruct (at_read_full_short _ _ _ _ A L) as (r1 & E). rewrite E in H. discriminate.
  - destruct (at_copy_n_short _ _ _ _ A L') as (r1 & E). rewrite E in H. discriminate.
  - destruct (at_read_wire_short _ _ _ (to_int l) A L') as (r1 & E); [rewrite TI; exact B|]. rewrite E in H. discriminate.
Qed.

Lemma find_split : forall F fs1 t k fs2 i0, (0 < t)%N -> ~ In t (map fst fs1) ->
  find_field t i0 (fs_handlers F i0 (fs1 ++ (t, k) :: fs2)) = Some ((i0 + length fs1)%nat, mkFH t k (k_read F t (i0 + length fs1) k)).
Proof.
  intros F. induction fs1 as [|f fs1 IH]; intros t k fs2 i0 T NI; cbn [app fs_handlers find_field fh_typ length fst snd].
  - rewrite Nat.add_0_r. destruct (N.eqb_spec t 0); [lia|]. rewrite N.eqb_refl. reflexivity.
  - destruct (N.eqb_spec (fst f) t) as [E|E]; [exfalso; apply NI; left; exact E|]. rewrite andb_false_r.
    rewrite IH; auto; [|intros X; apply NI; right; exact X]. rewrite Nat.add_succ_r. reflexivity.
Qed.

Lemma k_skip_rd : forall t k i sp v cx r e v' cx' r', k_skip t k i sp v cx r = Ok (e, v', cx', r') -> r' = r.
Proof.
  intros t k i sp v cx r e v' cx' r' H. destruct k; cbn [k_skip] in H; try (destruct opt); try congruence;
    try (destruct (r_range _ _ _) as [w| | |]; try discriminate; cbn [bind] in H; congruence).
Qed.

Section One.
  Variables (F : nat) (hs : list fhandler) (ic : bool) (t l : N) (k : kind) (j : nat) (pre s : buf) (r0 : reader).
  Hypothesis (C : counted k) (A : At r0 pre s) (L : (zlen s < Z.of_N l)%Z) (B : (Z.of_N l < mem_limit)%Z)
    (FF : find_field t 0 hs = Some (j, mkFH t k (k_read F t j k))).

  Lemma do_read_short : forall sp st, p_rd st = r0 -> forall st', do_read ic t l sp j (mkFH t k (k_read F t j k)) st <> Ok st'.
  Proof.
    intros sp st E st' H. unfold do_read in H. cbn [fh_read] in H. rewrite E in H.
    destruct (k_read _ _ _ _ _ _ _ _ _ _) as [[[[e v] cx] r1]| | |] eqn:R; try discriminate. cbn [bind] in H.
    destruct e as [e|]; [discriminate|]. exact (counted_short _ _ _ _ _ _ _ _ _ _ _ _ C A L B _ _ _ R).
  Qed.

  Lemma ordered_short : forall n sp st, p_rd st = r0 -> (p_prog st + 1 <= Z.of_nat j)%Z -> (Z.of_nat j - p_prog st <= Z.of_nat n)%Z ->
    forall st', ordered_loop n ic t l sp hs st <> Ok st'.
  Proof.
    induction n as [|n IH]; intros sp st E P1 P2 st' H; [lia|]. cbn [ordered_loop] in H. rewrite FF in H.
    destruct (Z.eqb_spec (p_prog st + 1) (Z.of_nat j)) as [Q|Q].
    - destruct (do_read _ _ _ _ _ _ _) as [st1| | |] eqn:R; try discriminate. exact (do_read_short _ _ E _ R).
    - destruct (do_pass _ _ _ _) as [st1| | |] eqn:R; try discriminate. cbn [bind] in H.
      assert (X : p_rd st1 = r0 /\ p_prog st1 = p_prog st).
      { unfold do_pass in R. destruct (nth_error _ _) as [h|]; [|injection R as <-; auto].
        destruct (k_skip _ _ _ _ _ _ _) as [[[[e v] cx] r1]| | |] eqn:K; try discriminate. cbn [bind] in R.
        destruct e; [discriminate|]. injection R as <-. cbn [p_rd p_prog]. rewrite (k_skip_rd _ _ _ _ _ _ _ _ _ _ _ K). auto. }
      destruct X as [X1 X2]. apply (IH sp (p_next st1)) in H; auto; unfold p_next; cbn [p_rd p_prog]; rewrite ?X2; try lia; auto.
  Qed.
End One.

Lemma find_lt : forall t hs i0 j h, find_field t i0 hs = Some (j, h) -> (j < i0 + length hs)%nat.
Proof.
  intros t hs. induction hs as [|h0 hs IH]; intros i0 j h H; cbn [find_field] in H; [discriminate|]. cbn [length].
  destruct (_ && _); [injection H as <- _; lia|]. apply IH in H. lia.
Qed.

Theorem field_short : forall m fs1 t k fs2 ic F r l s, m_fields m = fs1 ++ (t, k) :: fs2 -> ~ In t (map fst fs1) ->
  counted k -> (0 < t < two64)%N -> (Z.of_N l < mem_limit)%Z -> (zlen s < Z.of_N l)%Z ->
  At r [] (tl_enc t ++ tl_enc l ++ s) -> forall x, m_parse F m ic r <> Ok x.
Proof.
  intros m fs1 t k fs2 ic F r l s MF NI C T LL LS A x H. unfold m_parse, m_parse_ctx, run_parse in H.
  destruct F as [|F]; [discriminate|]. cbn [parse_loop p_rd] in H. rewrite (at_pos _ _ _ A) in H. cbn [bind] in H. rewrite (at_length _ _ _ A) in H. cbn [bind] in H.
  assert (E2 : (1 <= zlen (tl_enc t))%Z). { pose proof (tl_enc_pos t). unfold zlen, nlen in *. lia. }
  destruct (Z.leb_spec (zlen ([] ++ tl_enc t ++ tl_enc l ++ s)) (zlen (@nil N))) as [Q|Q].
  { cbn [app] in Q. rewrite !zlen_app, zlen_nil in Q. zl. lia. }
  assert (UT : u64_ok t) by (unfold u64_ok; lia). assert (UL : u64_ok l) by (unfold u64_ok; unfold mem_limit, two64 in *; lia).
  destruct (at_read_tl t r [] _ UT A) as (r1 & R1 & A1 & _). rewrite R1 in H. cbn [soft] in H.
  destruct (at_read_tl l r1 _ _ UL A1) as (r2 & R2 & A2 & _). rewrite R2 in H. cbn [soft] in H.
  pose proof (find_split (S F) fs1 t k fs2 0 (proj1 T) NI) as FF. rewrite <- MF in FF. cbn [Nat.add] in FF.
  pose proof (find_lt _ _ _ _ _ FF) as LT. cbn [Nat.add] in LT.
  cbn [p_vals p_cx p_prog p_done] in H.
  match type of H with context [do_elem ?a ?b ?c ?d ?e ?f ?g] => destruct (do_elem a b c d e f g) as [st'| | |] eqn:DE; try discriminate end.
  unfold do_elem in DE. destruct (m_ordered m).
  - eapply ordered_short in DE; eauto; cbn [p_prog]; unfold zlen; lia.
  - rewrite FF in DE. eapply do_read_short in DE; eauto.
Qed.
