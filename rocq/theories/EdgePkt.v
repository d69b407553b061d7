(** Cut packets (proofs for PropsEdge.v). *)
From Verif Require Import Base BaseProofs PrimModel PrimProofs ReaderModel ReaderSpec ReaderProofs ReaderProofs2 ReaderProofs3 ReaderProofs4 ReadInv NameModel NameProofs CodecModel CodecSpec CodecProofs CodecEnc CodecEnc2 CodecEnc3 CodecEnc4 CodecEnc5 CodecSpec2 CodecPar CodecPar2 CodecKeep CodecPar3 CodecPar4 CodecLib SpecModel SpecSpec SpecProofs SpecData SpecInt RecvModel AuthProofs EdgeProofs.

(** the parsers of Data and Interest on an empty value *)
Lemma empty_data : forall F, exists vd cd,
  run_parse (S F) true false (fs_handlers (S F) 0 (m_fields spec_Data)) (m_ctx spec_Data) (RBuf [] 0) = Ok (vd, cd) /\ nth 2 vd VNone = VNone.
Proof.
  intros F. match goal with |- exists vd cd, ?x = _ /\ _ => let y := eval lazy in x in match y with Ok (?v, ?c) => exists v, c; split; [lazy; reflexivity|reflexivity] end end.
Qed.
Lemma empty_interest : forall F, exists vd cd,
  run_parse (S F) true false (fs_handlers (S F) 0 (m_fields spec_Interest)) (m_ctx spec_Interest) (RBuf [] 0) = Ok (vd, cd) /\ nth 2 vd VNone = VNone.
Proof.
  intros F. match goal with |- exists vd cd, ?x = _ /\ _ => let y := eval lazy in x in match y with Ok (?v, ?c) => exists v, c; split; [lazy; reflexivity|reflexivity] end end.
Qed.

(** one element that is read to the end, or an error *)
Lemma loop_end : forall f o ic hs st b, p_rd st = RBuf b (zlen b) -> parse_loop (S f) o ic hs st = Ok st.
Proof. intros f o ic hs st b E. cbn [parse_loop]. rewrite E. cbn [r_pos r_length bind]. rewrite Z.leb_refl. reflexivity. Qed.

Lemma loop_bad_type : forall f o ic hs st b p e r, p_rd st = RBuf b p -> (p < zlen b)%Z -> read_tl (RBuf b p) = (Err e, r) ->
  parse_loop (S f) o ic hs st = Err (EFailToParse 0 e).
Proof. intros f o ic hs st b p e r E L T. cbn [parse_loop]. rewrite E. cbn [r_pos r_length bind]. destruct (Z.leb_spec (zlen b) p); [lia|]. rewrite T. reflexivity. Qed.

Lemma loop_bad_len : forall f o ic hs st b p t r e r', p_rd st = RBuf b p -> (p < zlen b)%Z -> read_tl (RBuf b p) = (Ok t, r) -> read_tl r = (Err e, r') ->
  parse_loop (S f) o ic hs st = Err (EFailToParse 0 e).
Proof. intros f o ic hs st b p t r e r' E L T T2. cbn [parse_loop]. rewrite E. cbn [r_pos r_length bind]. destruct (Z.leb_spec (zlen b) p); [lia|]. rewrite T. cbn [soft]. rewrite T2. reflexivity. Qed.

Lemma loop_step : forall f o ic hs st b p t r l r2, p_rd st = RBuf b p -> (p < zlen b)%Z -> read_tl (RBuf b p) = (Ok t, r) -> read_tl r = (Ok l, r2) ->
  parse_loop (S f) o ic hs st = (do st' <- do_elem o ic t l p hs (mkPS (p_vals st) (p_cx st) r2 (p_prog st) (p_done st)); parse_loop f o ic hs st').
Proof. intros f o ic hs st b p t r l r2 E L T T2. cbn [parse_loop]. rewrite E. cbn [r_pos r_length bind]. destruct (Z.leb_spec (zlen b) p); [lia|]. rewrite T. cbn [soft]. rewrite T2. reflexivity. Qed.

(** Outcome of the packet parser: an error, or nothing that has a name *)
Definition nameless (v : value) : Prop := v = VNone \/ exists l, v = VStruct l /\ nth 2 l VNone = VNone.
Definition no_packet (x : res (list value * list pcx)) : Prop :=
  (exists e, x = Err e) \/ exists vs cx, x = Ok (vs, cx) /\ nameless (nth 0 vs VNone) /\ nameless (nth 1 vs VNone) /\ nth 2 vs VNone = VNone.

Lemma packet_cut : forall F t rest p q, t = 5%N \/ t = 6%N -> bytes_ok rest -> (nlen (7%N :: rest) < packet_limit)%N ->
  tlv t (7%N :: rest) = p ++ q -> q <> [] -> no_packet (m_parse (S (S (S F))) spec_Packet false (new_buffer_reader p)).
Proof.
  intros F t rest p q Ht BR SZ E Q. set (body := 7%N :: rest) in *. unfold m_parse, m_parse_ctx, run_parse. change (m_ordered spec_Packet) with false.
  set (hp := fs_handlers (S (S (S F))) 0 (m_fields spec_Packet)). set (st0 := mkPS _ _ _ _ _).
  assert (UT : u64_ok t) by (unfold u64_ok, two64; destruct Ht; subst; lia).
  assert (U : u64_ok (nlen body)) by (unfold u64_ok, packet_limit, two64 in *; lia).
  assert (ML : (zlen (p ++ q) < mem_limit)%Z) by (rewrite <- E; pose proof (tlv_le t body); unfold packet_limit, mem_limit, zlen, nlen in *; lia).
  assert (BB : bytes_ok body) by (constructor; [exact eq_refl|exact BR]).
  assert (BP : bytes_ok (p ++ q)).
  { rewrite <- E. unfold tlv. apply bytes_ok_app. split; [apply tl_enc_ok|]. apply bytes_ok_app. split; [apply tl_enc_ok|exact BB]. }
  assert (Bp : bytes_ok p) by (apply bytes_ok_app in BP; tauto).
  assert (Lp : (zlen p < mem_limit)%Z) by (rewrite zlen_app in ML; unfold zlen in *; lia).
  pose proof (at_new p Lp) as A0. assert (R0 : p_rd st0 = RBuf p 0) by reflexivity.
  destruct p as [|b0 p0].
  { (* nothing *) right. rewrite (loop_end _ _ _ _ _ [] R0). cbn [bind]. eexists. eexists. split; [cbn; reflexivity|]. split; [left; reflexivity|]. split; [left; reflexivity|reflexivity]. }
  set (p := b0 :: p0) in *. assert (LP : (0 < zlen p)%Z) by (unfold zlen, p; cbn [length]; lia).
  symmetry in E. unfold tlv in E. destruct (cut_cases _ _ _ _ E) as [(z & E1 & Z)|(p1 & Ep & E1)].
  { destruct (read_tl_cut _ _ _ _ _ _ (tl_form_enc t UT) E1 Z A0 Bp) as (r1 & T1). left. rewrite (loop_bad_type _ _ _ _ _ _ _ _ _ R0 LP T1). eexists. reflexivity. }
  rewrite Ep in A0. assert (A0' : At (RBuf p 0) [] (tl_enc t ++ p1)) by (rewrite Ep; exact A0). assert (B1 : bytes_ok p1) by (rewrite Ep in Bp; apply bytes_ok_app in Bp; tauto).
  destruct (at_read_tl t _ _ _ UT A0') as (r1 & T1 & A1 & K1).
  destruct (cut_cases _ _ _ _ E1) as [(z & E2 & Z)|(p2 & Ep1 & E2)].
  { destruct (read_tl_cut _ _ _ _ _ _ (tl_form_enc _ U) E2 Z A1 B1) as (r2 & T2). left. rewrite (loop_bad_len _ _ _ _ _ _ _ _ _ _ _ R0 LP T1 T2). eexists. reflexivity. }
  assert (B2 : bytes_ok p2) by (rewrite Ep1 in B1; apply bytes_ok_app in B1; tauto).
  rewrite Ep1 in A1. destruct (at_read_tl (nlen body) _ _ _ U A1) as (r2 & T2 & A2 & K2). rewrite (loop_step _ _ _ _ _ _ _ _ _ _ _ R0 LP T1 T2).
  assert (KB : is_buf_reader r2) by (apply K2, K1; exact I). set (pre := ([] ++ tl_enc t) ++ tl_enc (nlen body)) in *.
  assert (PP : p = pre ++ p2) by (rewrite Ep, Ep1; unfold pre; rewrite <- app_assoc; reflexivity).
  pose proof (at_buf r2 _ _ A2 KB) as E2'. rewrite <- PP in E2'.
  assert (ZQ : (0 < zlen q)%Z) by (destruct q; [congruence|unfold zlen; cbn [length]; lia]).
  assert (RD : r_delegate (to_int (nlen body)) r2 = Ok (RBuf [] 0, RBuf p (zlen pre))).
  { rewrite E2'. rewrite to_int_len by (unfold packet_limit, Ztwo63, nlen, zlen in *; lia). cbn [r_delegate].
    assert (W : wrap64 (zlen pre + zlen body) = (zlen pre + zlen body)%Z).
    { apply wrap64_id. rewrite PP, zlen_app in Lp. unfold packet_limit, mem_limit, Ztwo63, zlen, nlen in *. lia. }
    rewrite W. match goal with |- (if ?c then _ else _) = _ => assert (C : c = true) end; [|rewrite C; reflexivity].
    apply orb_true_iff. right. apply Z.ltb_lt. rewrite PP, zlen_app, <- E2, zlen_app. lia. }
  assert (DE : exists st1, do_elem false false t (nlen body) 0 hp (mkPS (p_vals st0) (p_cx st0) r2 (p_prog st0) (p_done st0)) = Ok st1 /\ p_rd st1 = RBuf p (zlen pre)
    /\ exists i v cx, (i = 0%nat \/ i = 1%nat) /\ nameless v /\ st1 = mkPS (upd (p_vals st0) i v) cx (RBuf p (zlen pre)) (-1) (upd (p_done st0) i true)).
  { unfold do_elem. destruct Ht as [-> | ->].
    - change (find_field 5 0 hp) with (Some (0%nat, mkFH 5 (KStruct spec_Interest true) (k_read (S (S (S F))) 5 0 (KStruct spec_Interest true)))).
      unfold do_read. cbn [fh_read fh_kind p_vals p_cx p_rd p_prog p_done]. change spec_Interest with (Model true true (m_fields spec_Interest)) at 1. cbn [k_read]. rewrite RD. cbn [bind fst snd]. rewrite handlers_eq.
      change (x_sub (nth 0 (p_cx st0) XNone)) with (m_ctx spec_Interest). destruct (empty_interest (S (S F))) as (vd & cd & -> & V). cbn [bind].
      eexists. split; [reflexivity|]. split; [reflexivity|]. exists 0%nat. eexists. eexists. split; [auto|]. split; [|reflexivity]. right. exists vd. auto.
    - change (find_field 6 0 hp) with (Some (1%nat, mkFH 6 (KStruct spec_Data true) (k_read (S (S (S F))) 6 1 (KStruct spec_Data true)))).
      unfold do_read. cbn [fh_read fh_kind p_vals p_cx p_rd p_prog p_done]. change spec_Data with (Model true true (m_fields spec_Data)) at 1. cbn [k_read]. rewrite RD. cbn [bind fst snd]. rewrite handlers_eq.
      change (x_sub (nth 1 (p_cx st0) XNone)) with (m_ctx spec_Data). destruct (empty_data (S (S F))) as (vd & cd & -> & V). cbn [bind].
      eexists. split; [reflexivity|]. split; [reflexivity|]. exists 1%nat. eexists. eexists. split; [auto|]. split; [|reflexivity]. right. exists vd. auto. }
  destruct DE as (st1 & -> & R1 & i & v & cx & Hi & NV & ES). cbn [bind].
  destruct p2 as [|b2 p2].
  { (* only the header *)
    rewrite app_nil_r in PP. rewrite (loop_end _ _ _ _ st1 p) by (rewrite R1, PP; reflexivity). cbn [bind]. subst st1. right.
    destruct Hi as [-> | ->]; eexists; eexists; (split; [cbn; reflexivity|]); (split; [|split]); try exact NV; try (left; reflexivity); reflexivity. }
  (* the value starts with the Name *)
  left. unfold body in E2. cbn [app] in E2. injection E2 as -> E2.
  assert (A3 : At (RBuf p (zlen pre)) pre (tl_enc 7 ++ p2)) by (rewrite E2' in A2; exact A2).
  assert (LP2 : (zlen pre < zlen p)%Z) by (rewrite PP, zlen_app; unfold zlen; cbn [length]; lia).
  destruct (at_read_tl 7 _ _ _ eq_refl A3) as (r3 & T3 & A4 & K3).
  assert (B4 : bytes_ok p2) by (inversion B2; assumption).
  destruct (read_tl_total _ _ _ A4 B4) as [(l & x & s & r4 & _ & _ & T4 & _)|(r4 & T4)].
  - rewrite (loop_step _ _ _ _ _ _ _ _ _ _ _ R1 LP2 T3 T4). unfold do_elem. change (find_field 7 0 hp) with (@None (nat * fhandler)). eexists. reflexivity.
  - rewrite (loop_bad_len _ _ _ _ _ _ _ _ _ _ _ R1 LP2 T3 T4). eexists. reflexivity.
Qed.

Lemma no_packet_refused : forall sha F r, no_packet (m_parse F spec_Packet false r) ->
  (exists e, read_data F r = Err e) /\ (exists e, read_interest sha F r = Err e) /\ (exists e, read_packet sha F r = Err e) /\ on_packet sha F r = Ok EvDrop.
Proof.
  intros sha F r H.
  assert (P : exists e, read_packet sha F r = Err e).
  { unfold read_packet. destruct H as [(e & ->)|(vs & cx & -> & N0 & N1 & N2)]; [eexists; reflexivity|]. cbn [bind].
    destruct N1 as [-> | (l & -> & ->)]; [|eexists; reflexivity]. destruct N0 as [-> | (l & -> & V)]; [rewrite N2; eexists; reflexivity|].
    unfold check_interest. rewrite V. eexists. reflexivity. }
  split; [|split; [|split; [exact P|unfold on_packet; destruct P as (e & ->); reflexivity]]].
  - unfold read_data. destruct H as [(e & ->)|(vs & cx & -> & N0 & N1 & N2)]; [eexists; reflexivity|]. cbn [bind].
    destruct N1 as [-> | (l & -> & ->)]; eexists; reflexivity.
  - unfold read_interest. destruct H as [(e & ->)|(vs & cx & -> & N0 & N1 & N2)]; [eexists; reflexivity|]. cbn [bind].
    destruct N0 as [-> | (l & -> & V)]; [eexists; reflexivity|]. unfold check_interest. rewrite V. eexists. reflexivity.
Qed.

Lemma packet_cut_refused : forall sha F t rest p q, t = 5%N \/ t = 6%N -> bytes_ok rest -> (nlen (7%N :: rest) < packet_limit)%N ->
  tlv t (7%N :: rest) = p ++ q -> q <> [] -> (3 <= F)%nat ->
  (exists e, read_data F (new_buffer_reader p) = Err e) /\ (exists e, read_interest sha F (new_buffer_reader p) = Err e)
  /\ (exists e, read_packet sha F (new_buffer_reader p) = Err e) /\ on_packet sha F (new_buffer_reader p) = Ok EvDrop.
Proof.
  intros sha F t rest p q Ht BR SZ E Q L. destruct F as [|[|[|F]]]; try lia. apply no_packet_refused. eapply packet_cut; eauto.
Qed.
