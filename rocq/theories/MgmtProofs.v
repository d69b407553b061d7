(** Proofs about management commands. *)
From Verif Require Import Base BaseProofs PrimModel PrimProofs ReaderModel ReaderSpec ReaderProofs NameModel NameProofs PropsNameProofs CodecModel CodecSpec CodecSpec2 CodecLib CodecProofs CodecPar CodecPar4 CodecExact CodecSpec4 CodecWire1.
From Verif Require Import SpecModel SpecSpec SpecMore EngineModel EngineSpec EngineProofs EngineProofs2 EngineProofs3 MgmtModel MgmtSpec.

Lemma nonce_mod : forall sha n a b h x l k app sg,
  make_interest sha (Some n) (Some (mkIC a b h (Some x) l k)) app sg = make_interest sha (Some n) (Some (mkIC a b h (Some (x mod 4294967296)%N) l k)) app sg.
Proof.
  intros. unfold make_interest. 
  assert (E : forall info, interest_values n (mkIC a b h (Some x) l k) app info = interest_values n (mkIC a b h (Some (x mod 4294967296)%N) l k) app info).
  { intros info. unfold interest_values. cbn [ic_nonce ic_prefix ic_fresh ic_hint ic_life ic_hops]. rewrite N.mod_mod by discriminate. reflexivity. }
  destruct (sig_part _ sg) as [[info est]| | |]; cbn [bind]; [|reflexivity..]. destruct (253 <=? est)%Z; [reflexivity|]. rewrite (E info). reflexivity.
Qed.

(** ** Structures in structures *)
Lemma typed_struct2 : forall nc o fs b vs, fs_typed fs vs -> typed (KStruct (Model nc o fs) b) (VStruct vs).
Proof. intros nc o fs b vs H. cbn [typed]. unfold fs_typed in H. induction H; auto. Qed.
Lemma wire_struct2 : forall nc o fs b vs, fs_wire_safe fs vs -> wire_safe (KStruct (Model nc o fs) b) (VStruct vs).
Proof. intros nc o fs b vs H. cbn [wire_safe]. unfold fs_wire_safe in H. induction H; auto. Qed.

Lemma params_ok : forall args, args_ok args -> fs_shape (m_fields mgmt_ControlParameters) [VStruct args] /\ fs_typed (m_fields mgmt_ControlParameters) [VStruct args].
Proof.
  intros args [A B]. unfold fs_shape, fs_typed, mgmt_ControlParameters. cbn [m_fields].
  split; (constructor; [|constructor]); cbn [snd]; unfold mgmt_ControlArgs in *; cbn [m_fields] in *; [apply shape_struct; auto|apply typed_struct2; auto].
Qed.

Lemma params_read : forall args b, args_ok args -> cmd_params args = Ok b -> (zlen b < size_limit)%Z -> forall ic F, (length b < F)%nat ->
  exists cx, m_parse F mgmt_ControlParameters ic (new_buffer_reader b) = Ok ([VStruct args], cx).
Proof.
  intros args b A C Z ic F LF. destruct (params_ok args A) as [SH TY]. unfold cmd_params in C.
  destruct (encode_parts (mkEP 0 false) mgmt_ControlParameters [VStruct args]) as (w0 & ys0 & E0 & C0 & L0); auto; [discriminate|].
  destruct (exact_buffer (mkEP 0 false) mgmt_ControlParameters [VStruct args]) as (w & ys & E & R); auto; [discriminate| |].
  - rewrite L0. change (full_hole (mkEP 0 false)) with (@nil N). rewrite <- C0. rewrite E0 in C. cbn [bind fst] in C. injection C as <-. rewrite zlen_of_nlen. exact Z.
  - rewrite E in C. cbn [bind fst] in C. inversion C as [Q]. subst b. eapply R; eauto.
Qed.

Lemma params_exists : forall args, args_ok args -> exists b, cmd_params args = Ok b.
Proof.
  intros args A. destruct (params_ok args A) as [SH TY]. unfold cmd_params.
  destruct (encode_parts (mkEP 0 false) mgmt_ControlParameters [VStruct args]) as (w0 & ys0 & E0 & C0 & L0); auto; [discriminate|]. rewrite E0. cbn [bind]. eauto.
Qed.

(** ** The command *)
Lemma gen_ok : forall b, bytes_ok b -> (nlen b <= 252)%N -> comp_ok (gen b) /\ comp_short (gen b).
Proof. intros b B L. split; [split; [reflexivity|exact B]|exact L]. Qed.

Lemma cmd_typed : forall local module cmd b, bytes_ok module -> bytes_ok cmd -> bytes_ok b -> (nlen module <= 252)%N -> (nlen cmd <= 252)%N -> (nlen b <= 252)%N ->
  name_typed (cmd_name local module cmd b).
Proof.
  intros local module cmd b B1 B2 B3 L1 L2 L3. unfold name_typed, cmd_name.
  assert (S0 : comp_ok (gen (if local then s_localhost else s_localhop)) /\ comp_short (gen (if local then s_localhost else s_localhop))).
  { apply gen_ok; destruct local; [repeat constructor|repeat constructor|discriminate|discriminate]. }
  assert (S1 : comp_ok (gen s_nfd) /\ comp_short (gen s_nfd)) by (apply gen_ok; [repeat constructor|discriminate]).
  pose proof (gen_ok module B1 L1). pose proof (gen_ok cmd B2 L2). pose proof (gen_ok b B3 L3).
  split; repeat (constructor; [tauto|]); constructor.
Qed.

Lemma cmd_len : forall local module cmd b, (nlen module <= 252)%N -> (nlen cmd <= 252)%N -> (nlen b <= 252)%N ->
  (nlen (name_enc (cmd_name local module cmd b)) <= 1000)%N.
Proof.
  intros local module cmd b L1 L2 L3. unfold cmd_name, name_enc. cbn [map concat]. rewrite !nlen_app. change (nlen (@nil N)) with 0%N.
  assert (G : forall v, (nlen v <= 252)%N -> (nlen (comp_enc (gen v)) <= nlen v + 10)%N).
  { intros v L. rewrite comp_len_enc. unfold comp_len, gen. cbn [ctyp cval]. change (tl_len TypeGeneric) with 1%N. pose proof (nat_len_small (nlen v)). lia. }
  pose proof (G module L1). pose proof (G cmd L2). pose proof (G b L3).
  assert (nlen (comp_enc (gen (if local then s_localhost else s_localhop))) <= 20)%N by (destruct local; vm_compute; discriminate).
  assert (nlen (comp_enc (gen s_nfd)) <= 20)%N by (vm_compute; discriminate). lia.
Qed.

Lemma cmd_base : forall local module cmd b, base_name (cmd_name local module cmd b) = cmd_name local module cmd b.
Proof. reflexivity. Qed.

Theorem command : forall sha local module cmd args b nonce s sc sig, (forall b, length (sha b) = 32%nat /\ bytes_ok (sha b)) ->
  args_ok args -> cmd_params args = Ok b -> bytes_ok module -> bytes_ok cmd -> bytes_ok b -> (nlen module <= 252)%N -> (nlen cmd <= 252)%N -> (nlen b <= 252)%N ->
  interest_sig_ok sc -> sg_info s = Ok (Some sc) -> (0 < nlen sig <= sg_est s)%N -> (sg_est s < 253)%N -> (sig_size sc + 10000 < packet_limit)%N ->
  (forall cov, concat cov = name_enc (cmd_name local module cmd b) ++ signed_params (Some []) (Some sc) -> sg_sign s cov = Ok sig) ->
  let c := mkIC false false None (Some (convert_nonce nonce mod 4294967296)%N) (Some 1000000000%Z) None in
  let fn := cmd_name local module cmd b ++ [digest_comp (sha (params_part (Some []) (Some sc) (Some sig)))] in
  exists w cov, exec_interest sha local module cmd args nonce s = Ok (w, Some cov, fn)
    /\ concat w = interest_packet fn c (Some []) (Some sc) (Some sig)
    /\ concat cov = name_enc (cmd_name local module cmd b) ++ signed_params (Some []) (Some sc)
    /\ (forall F, (length (concat w) < F)%nat -> exists i cov', read_interest sha F (new_buffer_reader (concat w)) = Ok (i, cov')
         /\ interest_reads fn c (Some []) (Some sc) (Some sig) i /\ concat cov' = concat cov)
    /\ (forall ic F, (length b < F)%nat -> exists cx, m_parse F mgmt_ControlParameters ic (new_buffer_reader b) = Ok ([VStruct args], cx)).
Proof.
  intros sha local module cmd args b nonce s sc sig SHA A CP B1 B2 B3 L1 L2 L3 S I LS LE SZ SG c fn.
  pose proof (cmd_typed local module cmd b B1 B2 B3 L1 L2 L3) as TY. pose proof (cmd_len local module cmd b L1 L2 L3) as LN.
  set (n := cmd_name local module cmd b) in *.
  assert (CO : interest_config_ok c).
  { unfold c, interest_config_ok. cbn [ic_hint ic_nonce ic_life ic_hops all_of]. split; [auto|]. split; [apply N.mod_lt; discriminate|]. split; [unfold time_ok; lia|auto]. }
  assert (SZ2 : (interest_size n c (Some []) + sig_size sc + 1000 < packet_limit)%N).
  { unfold interest_size, c. cbn [ic_hint olen concat]. change (nlen (@nil N)) with 0%N. unfold packet_limit in *. lia. }
  assert (SG2 : forall cov, concat cov = name_enc (base_name n) ++ signed_params (Some []) (Some sc) -> sg_sign s cov = Ok sig) by (unfold n; rewrite cmd_base; auto).
  pose proof (fun F => interest_round_trip sha n c [] s sc sig F SHA TY CO S I SG2 LS LE SZ2) as RT. cbv zeta in RT.
  assert (EF : final_interest sha n [] (Some sc) (Some sig) = fn) by reflexivity. rewrite EF in RT.
  assert (EM : exec_interest sha local module cmd args nonce s = make_interest sha (Some n) (Some c) (Some []) (Some s)).
  { unfold exec_interest, make_cmd. rewrite CP. cbn [bind]. fold n. rewrite nonce_mod. reflexivity. }
  destruct (RT (Datatypes.S (length (interest_packet fn c (Some []) (Some sc) (Some sig))))) as (w & cov & i & cov' & M & W & _ & _ & CV & _); [lia|].
  exists w, cov. rewrite EM. split; [auto|]. split; [auto|]. split; [unfold n in CV; rewrite cmd_base in CV; exact CV|]. split.
  - intros F LF. rewrite W in LF. destruct (RT F LF) as (w2 & cov2 & i2 & cov2' & M2 & W2 & R2 & D2 & CV2 & CE2).
    rewrite M in M2. injection M2 as <- <-. exists i2, cov2'. auto.
  - intros ic F LF. eapply params_read; eauto. unfold zlen, nlen, size_limit in *. lia.
Qed.

(** ** Routes *)
Lemma route_ok : forall prefix, name_typed prefix -> args_ok (route_args prefix).
Proof.
  intros prefix T. unfold args_ok, route_args, fs_shape, fs_typed, mgmt_ControlArgs. cbn [m_fields repeat].
  split; repeat (match goal with |- Forall2 _ _ _ => constructor end); cbn; auto.
Qed.
Lemma route_params : forall prefix, cmd_params (route_args prefix) = Ok (tlv 104 (tlv 7 (name_enc prefix))).
Proof.
  intros prefix. unfold cmd_params.
  destruct (encode_parts (mkEP 0 false) mgmt_ControlParameters [VStruct (route_args prefix)]) as (w0 & ys0 & E0 & C0 & L0); [reflexivity| |discriminate|].
  - unfold fs_shape, mgmt_ControlParameters, route_args. cbn [m_fields repeat]. constructor; [|constructor]. cbn. auto 20.
  - rewrite E0. cbn [bind fst]. rewrite C0. f_equal. unfold fs_bytes, mgmt_ControlParameters, mgmt_ControlArgs, route_args.
    cbn [m_fields k_bytes repeat fst snd app]. rewrite !app_nil_r. unfold tlv. reflexivity.
Qed.
Lemma route_bytes : forall prefix, name_typed prefix -> (nlen (name_enc prefix) <= 248)%N ->
  bytes_ok (tlv 104 (tlv 7 (name_enc prefix))) /\ (nlen (tlv 104 (tlv 7 (name_enc prefix))) <= 252)%N.
Proof.
  intros prefix [T1 T2] L. split.
  - unfold tlv. repeat (apply bytes_ok_app; split; [apply tl_enc_ok|]). apply name_enc_bytes_ok. auto.
  - assert (E : nlen (tlv 7 (name_enc prefix)) = (2 + nlen (name_enc prefix))%N) by (rewrite tlv_len; unfold elem_len; rewrite (tl_len_small (nlen (name_enc prefix))), (tl_len_small 7) by lia; lia).
    rewrite tlv_len. unfold elem_len. rewrite E, (tl_len_small 104), (tl_len_small (2 + _)) by lia. lia.
Qed.

(** ** The answer *)
Theorem response_read : forall code text params w ys, response_ok code params ->
  m_encode (mkEP 0 false) mgmt_ControlResponse (response code text params) = Ok (w, ys) -> (zlen (concat w) < size_limit)%Z ->
  forall w' F, concat w' = concat w -> nonempty_segs w' -> (length (concat w) < F)%nat ->
  exec_result F (AData true (Some w')) = Ok (if (code =? 200)%N then MDone else MFailed code text).
Proof.
  intros code text params w ys [C P] E SZ w' F EQ NE LF.
  assert (SH : fs_shape (m_fields mgmt_ControlResponse) (response code text params) /\ fs_typed (m_fields mgmt_ControlResponse) (response code text params)
               /\ fs_wire_safe (m_fields mgmt_ControlResponse) (response code text params)).
  { unfold fs_shape, fs_typed, fs_wire_safe, mgmt_ControlResponse, response. cbn [m_fields].
    assert (Q : shape (KStruct mgmt_ControlArgs false) params /\ typed (KStruct mgmt_ControlArgs false) params /\ wire_safe (KStruct mgmt_ControlArgs false) params).
    { destruct P as [->|(args & -> & [A1 A2] & A3)]; [repeat split|]. unfold mgmt_ControlArgs in *. cbn [m_fields] in *.
      split; [apply shape_struct; auto|]. split; [apply typed_struct2; auto|apply wire_struct2; auto]. }
    destruct Q as (Q1 & Q2 & Q3). split; [|split]; (constructor; [|constructor]); cbn [snd]; unfold mgmt_ControlResponseVal.
    - apply shape_struct. repeat (constructor; [first [exact Q1|exact Logic.I]|]). constructor.
    - apply typed_struct2. repeat (constructor; [first [exact Q2|exact C|exact Logic.I]|]). constructor.
    - apply wire_struct2. repeat (constructor; [first [exact Q3|exact Logic.I]|]). constructor. }
  destruct SH as (S1 & S2 & S3).
  destruct (encode_parts (mkEP 0 false) mgmt_ControlResponse (response code text params)) as (w0 & ys0 & E0 & C0 & L0); auto; [discriminate|].
  rewrite E in E0. injection E0 as <- <-.
  destruct (exact_wire (mkEP 0 false) mgmt_ControlResponse (response code text params)) as (w1 & ys1 & E1 & R); auto; [discriminate| |].
  - rewrite L0. change (full_hole (mkEP 0 false)) with (@nil N). rewrite <- C0, zlen_of_nlen. auto.
  - rewrite E in E1. injection E1 as <- <-. destruct (R w' EQ NE true F LF) as (cx & M). unfold exec_result. cbn [negb]. rewrite M. reflexivity.
Qed.

Theorem answer_safe : forall F valid b, bytes_ok b -> no_huge_number b -> (zlen b < mem_limit)%Z -> (length b < F)%nat ->
  exists r, exec_result F (AData valid (Some [b])) = Ok r.
Proof.
  intros F valid b B N Z L. unfold exec_result. destruct valid; cbn [negb]; [|eauto].
  assert (O : one_struct mgmt_ControlResponse) by (unfold one_struct, mgmt_ControlResponse, mgmt_ControlResponseVal; do 6 eexists; split; [reflexivity|discriminate]).
  destruct (parse_safe_wire1 mgmt_ControlResponse true b F O B N Z L) as [[[vs cx] E]|[e E]]; rewrite E; [|eauto].
  repeat match goal with |- exists y, match ?x with _ => _ end = _ => destruct x end; eauto.
Qed.

(** ** The channel and the engine *)
Theorem channel_safe : forall os g i ans, ~ nacked os i -> e_run eng_new os = Ok g ->
  exists x, exec_calls (exec_start true) (results_for ans g i) = Ok x /\ (forall r, x_result x = Some r <-> results_for ans g i = [r]).
Proof.
  intros os g i ans NN E. pose proof (interest_once os g i E NN) as ONE. unfold results_for, results_of in *.
  destruct (filter _ (callbacks g)) as [|e [|e' l]]; cbn [map exec_calls length] in *; [| |destruct ONE as [ONE|[r ONE]]; discriminate].
  - exists (exec_start true). split; [reflexivity|]. cbn. split; discriminate.
  - eexists. split; [reflexivity|]. cbn. intros r. split; intros H; congruence.
Qed.

Theorem channel_returns : forall os i x ans, ~ nacked os i -> nth_error (expressed 0 os) i = Some x -> (x_deadline x + 10000000 <= elapsed os)%Z ->
  exists g y r, e_run eng_new (os ++ [EFire i; ERun i]) = Ok g /\ exec_calls (exec_start true) (results_for ans g i) = Ok y /\ x_result y = Some r.
Proof.
  intros os i x ans NN N D. destruct (due_called os i x N D) as (g & R & IN).
  destruct (channel_safe (os ++ [EFire i; ERun i]) g i ans) as (y & E & X); auto.
  { intros (x' & b & nm & rs & X' & B & H & K). apply NN. exists x', b, nm, rs. rewrite expressed_app in X'. cbn [expressed] in X'. rewrite app_nil_r in X'.
    split; [auto|]. split; [auto|]. split; [|auto]. apply in_app_iff in H. destruct H as [H|[H|[H|[]]]]; [auto|discriminate|discriminate]. }
  unfold called in IN. apply in_map_iff in IN. destruct IN as ([k rs] & <- & IN). cbn [fst] in *.
  assert (F : In (ans rs) (results_for ans g k)).
  { unfold results_for. apply in_map_iff. exists (k, rs). split; auto. apply filter_In. split; auto. cbn. apply Nat.eqb_refl. }
  exists g, y. destruct (results_for ans g k) as [|r [|r' l]] eqn:Q; [contradiction| |].
  - exists r. split; auto. split; [auto|]. apply X. reflexivity.
  - exfalso. cbn [exec_calls exec_call exec_start x_closed x_waits bind] in E. discriminate.
Qed.
