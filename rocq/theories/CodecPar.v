(** Parsing back what was encoded: fields without structure. *)
From Verif Require Import Base BaseProofs PrimModel PrimProofs ReaderModel ReaderSpec ReaderProofs ReaderProofs2 ReaderProofs3 ReaderProofs4 NameModel NameProofs CodecModel CodecSpec CodecProofs CodecEnc CodecSpec2.

(** 8 TiB: below what make() refuses *)
Definition size_limit : Z := 8796093022208%Z.

(** the content of a field that is one element *)
Definition k_body (p : eparams) (hole : buf) (k : kind) (v : value) : option buf :=
  match k, v with
  | KNat _, VNat n => Some (nat_enc n)
  | KFixed w _, VNat n => Some (be w n)
  | KTime _, VTime ns => Some (nat_enc (ms_of ns))
  | KBin, VBytes b => Some b
  | KStr _, VBytes b => Some b
  | KWire, VWire w => Some (concat w)
  | KName, VName n => Some (name_enc n)
  | KIName _, VName n => Some (name_enc (final_name p n))
  | KBool, VBool true => Some []
  | KStruct (Model _ _ fs) _, VStruct vs => Some (fs_bytes p hole fs vs)
  | KSig _ _, _ => if (0 <? ep_est p)%N then Some hole else None
  | _, _ => None
  end.

Lemma zlen_of_nlen : forall {A} (l : list A), Z.of_N (nlen l) = zlen l.
Proof. intros. unfold nlen, zlen. lia. Qed.

Lemma to_int_len : forall b : buf, (zlen b < Ztwo63)%Z -> to_int (nlen b) = zlen b.
Proof. intros. rewrite to_int_small; [apply zlen_of_nlen|]. unfold two63, Ztwo63 in *. pose proof (zlen_of_nlen b). lia. Qed.

Lemma at_rem_len : forall r pre b rem, At r pre (b ++ rem) -> (zlen b < Ztwo63)%Z.
Proof. intros r pre b rem [H _]. rewrite !zlen_app in H. zl. unfold mem_limit, Ztwo63 in *. lia. Qed.

Lemma at_pre_len : forall r pre rem, At r pre rem -> (zlen pre + zlen rem < mem_limit)%Z.
Proof. intros r pre rem [H _]. rewrite !zlen_app in H. auto. Qed.

Lemma sk_trans : forall a b c, same_kind a b -> same_kind b c -> same_kind a c.
Proof. unfold same_kind. tauto. Qed.
Lemma sk_refl : forall a, same_kind a a.
Proof. unfold same_kind. tauto. Qed.

(** ** numbers *)
Lemma at_read_nat : forall bs F M v r pre s, At r pre (bs ++ s) -> bytes_ok bs -> (length bs <= F)%nat ->
  (v * 256 ^ nlen bs + unbe bs < M)%N ->
  exists r', read_nat F M (zlen bs) v r = Ok (None, v * 256 ^ nlen bs + unbe bs, r')%N
    /\ At r' (pre ++ bs) s /\ same_kind r r'.
Proof.
  induction bs as [|x bs IH]; intros F M v r pre s H B L V.
  - assert (E : read_nat F M (zlen (@nil N)) v r = Ok (None, v, r)) by (destruct F; reflexivity). exists r. rewrite E, app_nil_r.
    change (nlen (@nil N)) with 0%N. change (unbe []) with 0%N. split; [|split; [auto|apply sk_refl]]. f_equal. f_equal. f_equal. change (256 ^ 0)%N with 1%N. lia.
  - destruct F as [|F]; [cbn in L; lia|]. cbn [app] in H. destruct (at_read_byte _ _ _ _ H) as (r1 & E1 & A1 & K1).
    inversion B as [|? ? Bx Bb]; subst. cbn [read_nat]. rewrite zlen_cons. zl. destruct (Z.leb_spec (1 + zlen bs) 0); [lia|].
    rewrite E1. cbn [soft]. replace (1 + zlen bs - 1)%Z with (zlen bs) by lia.
    assert (EP : (256 ^ nlen (x :: bs) = 256 * 256 ^ nlen bs)%N).
    { unfold nlen. cbn [length]. rewrite Nat2N.inj_succ, N.pow_succ_r'. reflexivity. }
    assert (EU : unbe (x :: bs) = (x * 256 ^ nlen bs + unbe bs)%N).
    { clear. unfold unbe. cbn [fold_left]. rewrite N.mul_0_l, N.add_0_l. generalize x as a. induction bs as [|y bs IH]; intros.
      - cbn. unfold nlen. cbn. change (256 ^ 0)%N with 1%N. lia.
      - cbn [fold_left]. rewrite IH, (IH (0 * 256 + y)%N). unfold nlen. cbn [length]. rewrite Nat2N.inj_succ, N.pow_succ_r'. lia. }
    rewrite EP, EU in V. unfold byte_ok in Bx.
    assert (P0 : (0 < 256 ^ nlen bs)%N) by (apply N.neq_0_lt_0, N.pow_nonzero; lia).
    assert (VM : (v * 256 < M)%N) by nia.
    rewrite N.mod_small by auto.
    destruct (IH F M (v * 256 + x)%N r1 (pre ++ [x]) s A1 Bb) as (r2 & E2 & A2 & K2); [cbn in L; lia|nia|].
    exists r2. rewrite E2. rewrite <- app_assoc in A2. split; [|split; [auto|eapply sk_trans; eauto]].
    rewrite EP, EU. f_equal. f_equal. f_equal. lia.
Qed.

Lemma nat_enc_unbe : forall n, (n < two64)%N -> unbe (nat_enc n) = n.
Proof.
  intros n H. unfold nat_enc. unfold two64 in H.
  destruct (N.leb_spec n 255); [cbn; lia|]. destruct (N.leb_spec n 65535); [apply unbe_be_small; cbn; lia|].
  destruct (N.leb_spec n 4294967295); apply unbe_be_small; cbn; lia.
Qed.

Lemma ptl_loop_ok : forall n v r x r', read_tl_loop n v r = (Ok x, r') -> ptl_loop n v r = Ok (None, x, r').
Proof.
  induction n; intros v r x r' H; cbn [ptl_loop read_tl_loop] in *; [congruence|].
  destruct (r_read_byte r) as [[y|e| |] r1]; cbn [soft] in *; try discriminate; [auto|destruct e; discriminate].
Qed.

Lemma ptl_ok : forall r x r', read_tl r = (Ok x, r') -> ptl r = Ok (None, x, r').
Proof.
  intros r x r' H. unfold read_tl in H. unfold ptl. destruct (r_read_byte r) as [[y|e| |] r1]; cbn [soft]; try discriminate.
  destruct (y <=? 252)%N; [congruence|]. destruct (y =? 253)%N; [apply ptl_loop_ok; auto|].
  destruct (y =? 254)%N; apply ptl_loop_ok; auto.
Qed.

(** ** names *)
Lemma at_read_comps : forall n F cnt r pre s acc cov,
  name_typed n -> At r pre (name_enc n ++ s) -> (is_buf_reader r \/ Forall (fun c => cval c <> []) n) ->
  (length n < F)%nat -> (N.of_nat (length n) < cnt)%N ->
  exists r', read_name_f F cnt (zlen (pre ++ name_enc n)) acc cov r
    = Ok (None, acc ++ n, if has_digest n then zlen (pre ++ name_enc (before_digest n)) else cov, r')
    /\ At r' (pre ++ name_enc n) s /\ same_kind r r'.
Proof.
  induction n as [|c n IH]; intros F cnt r pre s acc cov [T1 T2] A K LF LC; (destruct F as [|F]; [cbn in LF; lia|]); cbn [read_name_f].
  - destruct (N.eqb_spec cnt 0); [cbn in LC; lia|]. rewrite (at_pos _ _ _ A). cbn [bind].
    unfold name_enc. cbn [map concat app]. rewrite app_nil_r. rewrite Z.leb_refl. exists r. rewrite app_nil_r. cbn [has_digest].
    split; [reflexivity|]. split; [exact A|apply sk_refl].
  - destruct (N.eqb_spec cnt 0); [cbn in LC; lia|]. rewrite (at_pos _ _ _ A). cbn [bind].
    inversion T1 as [|? ? [O1 O1'] O2]; subst. inversion T2 as [|? ? S1 S2]; subst. unfold comp_short in S1.
    assert (EN : name_enc (c :: n) = comp_enc c ++ name_enc n) by reflexivity. rewrite EN in *.
    assert (E2 : (2 <= zlen (comp_enc c))%Z) by (pose proof (comp_enc_min c); unfold zlen; lia).
    destruct (Z.leb_spec (zlen (pre ++ comp_enc c ++ name_enc n)) (zlen pre)) as [Q|Q].
    { rewrite !zlen_app in Q. zl. lia. }
    assert (EC : comp_enc c = tl_enc (ctyp c) ++ tl_enc (nlen (cval c)) ++ cval c).
    { unfold comp_enc. rewrite nat_tl_short by auto. reflexivity. }
    pose proof A as A0. rewrite EC in A0. rewrite <- !app_assoc in A0.
    destruct (at_read_tl (ctyp c) r pre _ O1 A0) as (r1 & R1 & A1 & K1). rewrite (ptl_ok _ _ _ R1). cbn [bind].
    assert (HL : u64_ok (nlen (cval c))) by (unfold u64_ok, two64; lia).
    destruct (at_read_tl (nlen (cval c)) r1 _ _ HL A1) as (r2 & R2 & A2 & K2). rewrite (ptl_ok _ _ _ R2). cbn [bind].
    rewrite to_int_small by (unfold two63; lia). rewrite zlen_of_nlen.
    destruct (at_read_buf r2 _ (cval c) (name_enc n ++ s) A2) as (r3 & R3 & A3 & K3).
    { destruct K as [K|K]; [left; tauto|right]. inversion K; subst. destruct (cval c); [congruence|discriminate]. }
    { unfold nlen in S1. unfold max_alloc, zlen. lia. }
    rewrite R3. cbn [soft].
    assert (EP : pre ++ comp_enc c = ((pre ++ tl_enc (ctyp c)) ++ tl_enc (nlen (cval c))) ++ cval c) by (rewrite EC, !app_assoc; reflexivity).
    rewrite <- EP in A3. rewrite app_assoc.
    destruct (IH F (cnt - 1)%N r3 (pre ++ comp_enc c) s (acc ++ [mkComp (ctyp c) (cval c)])
       (if (ctyp c =? TypeParametersSha256Digest)%N then zlen pre else cov)) as (r4 & R4 & A4 & K4).
    { split; auto. } { exact A3. }
    { destruct K as [K|K]; [left|right]. - assert (B2 : is_buf_reader r2) by tauto. unfold same_kind in K3. tauto. - inversion K; auto. }
    { cbn in LF; lia. } { cbn [length] in LC. lia. }
    exists r4. rewrite R4. split; [|split; [exact A4|]].
    + destruct c as [ct cv]. cbn [ctyp cval] in *. rewrite <- (app_assoc acc). cbn [app has_digest before_digest ctyp]. f_equal. f_equal. f_equal.
      destruct (has_digest n) eqn:D; [rewrite orb_true_r; unfold name_enc at 2; cbn [map concat]; rewrite app_assoc; reflexivity|].
      rewrite orb_false_r. destruct (ct =? TypeParametersSha256Digest)%N; [|reflexivity]. unfold name_enc. cbn. rewrite app_nil_r. reflexivity.
    + unfold same_kind in *. tauto.
Qed.

Lemma before_none : forall n, has_digest n = false -> before_digest n = n.
Proof. induction n as [|c n IH]; intros H; auto. cbn in *. apply orb_false_iff in H. destruct H as [H1 H2]. rewrite H1, H2. reflexivity. Qed.

Lemma at_read_name_field : forall n F r pre s, name_typed n -> At r pre (name_enc n ++ s) ->
  (is_buf_reader r \/ Forall (fun c => cval c <> []) n) -> (length (name_enc n) < F)%nat -> (zlen (name_enc n) < size_limit)%Z ->
  exists r', read_name_field F (nlen (name_enc n)) r = Ok (None, n, zlen pre, zlen (pre ++ name_enc (before_digest n)), r')
    /\ At r' (pre ++ name_enc n) s /\ same_kind r r'.
Proof.
  intros n F r pre s T A K LF LS. unfold read_name_field, make_ok. pose proof (zlen_of_nlen (name_enc n)) as EZ. zl.
  assert (MA : ((0 <=? Z.of_N (nlen (name_enc n) / 2 + 1)) && (Z.of_N (nlen (name_enc n) / 2 + 1) * 32 <=? max_alloc))%Z = true).
  { unfold size_limit, max_alloc in *. lia. }
  rewrite MA. rewrite (at_pos _ _ _ A). cbn [bind].
  pose proof (at_pre_len _ _ _ A) as PL. rewrite zlen_app in PL. zl.
  rewrite to_int_len by (unfold size_limit, Ztwo63 in *; lia).
  rewrite wrap64_id by (unfold mem_limit, Ztwo63 in *; zl; lia).
  rewrite <- zlen_app. pose proof (name_enc_min n) as NM.
  destruct (at_read_comps n F (nlen (name_enc n) / 2 + 1)%N r pre s [] (zlen (pre ++ name_enc n)) T A K) as (r' & E & A' & K').
  { lia. } { unfold nlen. lia. }
  rewrite E. cbn [bind app]. rewrite (at_pos _ _ _ A'). cbn [bind]. rewrite Z.eqb_refl.
  exists r'. split; [|auto]. destruct (has_digest n) eqn:D; auto. rewrite before_none by auto. reflexivity.
Qed.

(** ** Range on a buffer reader *)
Lemma at_range : forall r pre rem first inner last, is_buf_reader r -> At r pre rem -> pre ++ rem = first ++ inner ++ last ->
  r_range (zlen first) (zlen (first ++ inner)) r = Ok (Some [inner]).
Proof.
  intros r pre rem first inner last B [HL A] E. destruct r as [b pos|]; [|contradiction]. destruct A as [-> _]. rewrite E.
  cbn [r_range]. rewrite !zlen_app. zl.
  replace ((zlen first <? 0) || (zlen first + (zlen inner + zlen last) <? zlen first + zlen inner) || (zlen first + zlen inner <? zlen first))%Z with false.
  2:{ symmetry. rewrite !orb_false_iff. repeat split; lia. }
  rewrite slice_mid. reflexivity.
Qed.

Lemma ms_small : forall ns, (0 <= ns < Ztwo63)%Z -> ms_of ns = Z.to_N (ns / 1000000) /\ (ms_of ns < two64)%N
  /\ wrap64 (to_int (ms_of ns) * 1000000) = (ns / 1000000 * 1000000)%Z.
Proof.
  intros ns H. unfold ms_of, to_u64. unfold Ztwo63, Ztwo64, two64 in *.
  rewrite Z.quot_div_nonneg by lia. rewrite Z.mod_small by lia.
  split; [reflexivity|]. split; [lia|]. rewrite to_int_small by (unfold two63; lia). rewrite Z2N.id by lia. apply wrap64_id. unfold Ztwo63. lia.
Qed.

Definition leaf_single (k : kind) : bool :=
  match k with KNat _ | KFixed _ _ | KTime _ | KBin | KStr _ | KWire | KName | KBool => true | _ => false end.

Lemma read_leaf : forall p hole F nc t i k ic sp old cx r pre b rem v,
  leaf_single k = true -> wf_kind nc k = true -> typed k v -> (is_buf_reader r \/ wire_safe k v) ->
  k_body p hole k v = Some b -> At r pre (b ++ rem) -> (length b < F)%nat -> (zlen b < size_limit)%Z ->
  exists v' r', k_read F t i k ic sp (nlen b) old cx r = Ok (None, v', cx, r') /\ same (back p hole k v) v'
    /\ At r' (pre ++ b) rem /\ same_kind r r'.
Proof.
  intros p hole F nc t i k ic sp old cx r pre b rem v L W T K B A LF LS.
  pose proof (at_rem_len _ _ _ _ A) as L63. 
  destruct k; cbn [leaf_single] in L; try discriminate; destruct v; cbn [k_body] in B; try discriminate; try injection B as B; subst; cbn [k_read typed wire_safe back] in *.
  - rewrite to_int_len by auto. destruct (at_read_nat (nat_enc n) F two64 0 r pre rem A) as (r' & E & A' & K').
    { apply nat_enc_ok. } { lia. } { rewrite nat_enc_unbe by auto. lia. }
    rewrite E. cbn [bind]. rewrite nat_enc_unbe by auto. rewrite N.mul_0_l, N.add_0_l. eexists _, r'. split; [reflexivity|]. split; [constructor|auto].
  - rewrite to_int_len by auto. cbn [wf_kind] in W.
    destruct (Nat.eqb_spec w 1) as [->|Nw].
    + cbn [be] in *. assert (EN : (n mod 256 = n)%N) by (apply N.mod_small; cbn in T; lia). rewrite EN in *. destruct opt.
      * cbn [app] in A |- *. destruct K as [K|K]; [|specialize (K eq_refl); discriminate].
        destruct (at_skip r pre [n] rem A (or_introl K)) as (r' & E & A' & K'). change (zlen [n]) with 1%Z in E. rewrite E. cbn [soft].
        rewrite (at_pos _ _ _ A'). cbn [bind]. assert (B' : is_buf_reader r') by (apply K'; auto).
        pose proof (at_range r' (pre ++ [n]) rem pre [n] rem B' A' ltac:(rewrite app_assoc; reflexivity)) as RG.
        replace (zlen (pre ++ [n]) - 1)%Z with (zlen pre) by (rewrite zlen_app, zlen_cons; change (zlen (@nil N)) with 0%Z; lia).
        rewrite RG. cbn [bind]. eexists _, r'. split; [reflexivity|]. split; [constructor|]. auto.
      * cbn [app] in A |- *. destruct (at_read_byte _ _ _ _ A) as (r' & E & A' & K'). rewrite E. cbn [soft].
        eexists _, r'. split; [reflexivity|]. split; [constructor|]. auto.
    + destruct (at_read_nat (be w n) F (256 ^ N.of_nat w)%N 0 r pre rem A) as (r' & E & A' & K').
      { apply be_ok. } { lia. } { rewrite unbe_be_small by auto. lia. }
      rewrite E. cbn [bind]. rewrite unbe_be_small by auto. rewrite N.mul_0_l, N.add_0_l. eexists _, r'. split; [reflexivity|]. split; [constructor|auto].
  - destruct (ms_small ns T) as (M1 & M2 & M3). rewrite to_int_len by auto. destruct (at_read_nat (nat_enc (ms_of ns)) F two64 0 r pre rem A) as (r' & E & A' & K').
    { apply nat_enc_ok. } { lia. } { rewrite nat_enc_unbe by auto. lia. }
    rewrite E. cbn [bind]. rewrite nat_enc_unbe by auto. rewrite N.mul_0_l, N.add_0_l, M3. eexists _, r'. split; [reflexivity|]. split; [constructor|auto].
  - unfold make_ok. rewrite zlen_of_nlen. zl. replace ((0 <=? zlen b) && (zlen b * 1 <=? max_alloc))%Z with true by (symmetry; unfold size_limit, max_alloc in *; lia).
    destruct (at_read_full r pre b rem A) as (r' & E & A' & K'). rewrite E. cbn [soft]. eexists _, r'. split; [reflexivity|]. split; [constructor|auto].
  - rewrite to_int_len by auto. destruct (at_copy_n r pre b rem A) as (r' & E & A' & K'). rewrite E. cbn [soft]. eexists _, r'. split; [reflexivity|]. split; [constructor|auto].
  - rewrite to_int_len by auto. destruct (at_read_wire r pre (concat w) rem A) as (x & r' & E & C & A' & K'). rewrite E. cbn [soft]. eexists _, r'. split; [reflexivity|].
    split; [constructor; auto|auto].
  - destruct (at_read_name_field n F r pre rem T A K) as (r' & E & A' & K'); [lia|auto|]. rewrite E. cbn [bind]. eexists _, r'. split; [reflexivity|]. split; [constructor|auto].
  - destruct b0; [|discriminate]. injection B as B; subst. exists (VBool true), r. rewrite app_nil_r. cbn [app] in A. split; [reflexivity|]. split; [constructor|]. split; [auto|apply sk_refl].
Qed.
