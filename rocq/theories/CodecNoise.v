(** Unordered models: elements in any order, with elements of other types between them. *)
From Verif Require Import Base BaseProofs PrimModel PrimProofs ReaderModel ReaderSpec ReaderProofs ReaderProofs2 ReaderProofs3 ReaderProofs4 NameModel NameProofs CodecModel CodecSpec CodecProofs CodecEnc CodecEnc2 CodecEnc3 CodecEnc4 CodecSpec2 CodecPar CodecPar2 CodecPar3 CodecPar4 CodecSpec3.

Lemma nth_error_at : forall (fs : list (N * kind)) i f, nth_error fs i = Some f -> (i < length fs)%nat /\ kind_at fs i = snd f /\ typ_at fs i = fst f.
Proof.
  intros fs i f H. assert (L : (i < length fs)%nat) by (apply nth_error_Some; congruence).
  destruct (at_f fs i L) as (g & E1 & E2 & E3). rewrite H in E1. injection E1 as <-. auto.
Qed.

Lemma fs_items_nth : forall p hole fs vs i, length vs = length fs -> (i < length fs)%nat ->
  nth i (fs_items p hole fs vs) [] = items p hole (kind_at fs i) (nth i vs VNone).
Proof.
  intros p hole. unfold kind_at. induction fs as [|f fs IH]; intros [|v vs] [|i] L H; cbn in *; try lia; auto. apply IH; lia.
Qed.
Lemma fs_items_len : forall p hole fs vs, length vs = length fs -> length (fs_items p hole fs vs) = length fs.
Proof. intros p hole. induction fs as [|f fs IH]; intros [|v vs] L; cbn in *; try lia. rewrite IH; lia. Qed.

Lemma find_field_none : forall F fs t i0, ~ In t (elem_types fs) ->
  forallb (fun f => if is_marker (snd f) then (fst f =? 0)%N else ((0 <? fst f) && (fst f <? two64))%N) fs = true ->
  find_field t i0 (fs_handlers F i0 fs) = None.
Proof.
  intros F fs t. induction fs as [|f fs IH]; intros i0 NI X; auto. cbn [forallb] in X. rewrite andb_true_iff in X. destruct X as [X1 X2].
  cbn [fs_handlers find_field fh_typ]. unfold elem_types in NI. cbn [filter] in NI. destruct (is_marker (snd f)) eqn:M; cbn [negb] in NI.
  - rewrite X1. cbn [negb andb]. apply IH; auto.
  - cbn [map In] in NI. assert (E : (fst f =? t)%N = false) by (apply N.eqb_neq; intros E; apply NI; auto). rewrite E, andb_false_r. apply IH; auto.
Qed.

Definition RKN (p : eparams) (hole : buf) (ic : bool) (k : kind) : Prop :=
  forall F nc t i sp old cx r pre b rem v,
  plain_kind k = true -> wf_kind nc k = true -> pk_ok k = true -> shape k v -> typed k v -> is_buf_reader r ->
  mbody p hole ic k v b -> At r pre (b ++ rem) -> (length b < F)%nat -> (zlen b < size_limit)%Z ->
  (i < length cx)%nat -> cx_ok k (nth i cx XNone) ->
  exists v' x r', k_read F t i k ic sp (nlen b) old cx r = Ok (None, v', upd cx i x, r') /\ same (back p hole k v) v'
    /\ At r' (pre ++ b) rem /\ is_buf_reader r' /\ cx_ok k x.
Definition RKNs (p : eparams) (hole : buf) (ic : bool) (k : kind) : Prop :=
  match k with KSeq s => RKN p hole ic s | KMap a _ b => RKN p hole ic b | k => RKN p hole ic k end.

Section Noise.
  Context (p : eparams) (hole : buf) (HH : nlen hole = ep_est p).
  Context (nc ic : bool) (fs : list (N * kind)) (vs : list value) (F : nat).
  Context (WF : wf_fields nc fs = true) (OK : fields_ok false fs = true) (Lv : length vs = length fs).
  Context (SH : fs_shape fs vs) (TY : fs_typed fs vs).
  Context (RKS : forall i, (i < length fs)%nat -> RKNs p hole ic (kind_at fs i)).

  Notation n := (length fs).
  Notation V i := (nth i vs VNone).
  Notation K i := (kind_at fs i).
  Notation T i := (typ_at fs i).
  Notation hs := (fs_handlers F 0 fs).
  Notation bk i := (back p hole (K i) (V i)).

  Definition taken (i : nat) (tk : list value) (v : value) (d : bool) : Prop :=
    match K i with
    | KSeq sub => exists acc, v = VSeq acc /\ Forall2 same (map (back p hole sub) tk) acc
    | KMap key _ val => exists acc l0, v = VMap acc /\ tk = map (fun e => VMap [e]) l0 /\ Forall2 (same_entry p hole key val) l0 acc
    | _ => (tk = [] /\ v = k_zero (K i) /\ d = false) \/ (tk = [V i] /\ same (bk i) v /\ d = true)
    end.
  Definition INV (q : list (list value)) (st : pstate) : Prop :=
    length q = n /\ length (p_vals st) = n /\ length (p_done st) = n /\ cxs_ok fs (p_cx st) /\ is_buf_reader (p_rd st)
    /\ forall i, (i < n)%nat -> exists tk, items p hole (K i) (V i) = tk ++ nth i q [] /\ taken i tk (nth i (p_vals st) VNone) (nth i (p_done st) false).

  Lemma items_single : forall k v, is_rep k = false -> items p hole k v = match k_body p hole k v with Some _ => [v] | None => [] end.
  Proof. intros k v H. destruct k; try discriminate; reflexivity. Qed.

  Lemma inv_upd : forall q st i q' v x r tk, (i < n)%nat -> INV q st -> items p hole (K i) (V i) = tk ++ q' -> taken i tk v true ->
    cx_ok (K i) x -> is_buf_reader r -> INV (upd q i q') (mkPS (upd (p_vals st) i v) (upd (p_cx st) i x) r (p_prog st - k_back (K i)) (upd (p_done st) i true)).
  Proof.
    intros q st i q' v x r tk Hi (L1 & L2 & L3 & CO & B & H) E TK X R. unfold INV. cbn [p_vals p_cx p_rd p_done]. rewrite !upd_length.
    split; [auto|]. split; [auto|]. split; [auto|]. split; [|split; [auto|]].
    - apply cxs_ok_nth in CO. apply cxs_ok_nth. destruct CO as [C1 C2]. split; [rewrite upd_length; auto|]. intros a Ha.
      destruct (Nat.eq_dec i a) as [<-|]; [rewrite upd_nth by lia; auto|rewrite upd_nth_other by auto; auto].
    - intros a Ha. destruct (Nat.eq_dec i a) as [<-|]; [|rewrite !upd_nth_other by auto; auto]. exists tk. rewrite !upd_nth by lia. auto.
  Qed.

  Lemma elem_ok : forall f q st i pre b rem, INV q st -> (i < n)%nat -> is_marker (K i) = false ->
    At (p_rd st) pre (tlv (T i) b ++ rem) -> (zlen b < size_limit)%Z ->
    exists r2, At r2 (pre ++ tl_enc (T i) ++ tl_enc (nlen b)) (b ++ rem) /\ is_buf_reader r2
      /\ parse_loop (S f) false ic hs st = (do st' <- do_read ic (T i) (nlen b) (zlen pre) i (mkFH (T i) (K i) (k_read F (T i) i (K i)))
            (mkPS (p_vals st) (p_cx st) r2 (p_prog st) (p_done st)); parse_loop f false ic hs st').
  Proof.
    intros f q st i pre b rem (L1 & L2 & L3 & CO & B & H) Hi NM A SZ. unfold tlv in A. rewrite <- !app_assoc in A.
    destruct (ok_parts false fs OK) as (_ & D & X & _).
    pose proof (forallb_at _ _ _ X Hi) as Y. cbn [fst snd] in Y. rewrite NM in Y.
    destruct (loop_elem p hole HH nc false ic fs vs F (map (fun _ => XNone) fs) Lv ltac:(rewrite map_length; auto) f st pre (T i) (nlen b) (b ++ rem)) as (r2 & A2 & K2 & E2); auto.
    { unfold u64_ok. lia. } { apply u64_len. auto. }
    exists r2. split; [auto|]. split; [destruct (p_rd st); [|destruct B]; destruct r2; [exact I|discriminate K2]|]. rewrite E2. unfold do_elem.
    rewrite (find_field_at F fs i 0 D X Hi NM). reflexivity.
  Qed.

  Lemma item_step : forall f q st i x q' e pre rem, INV q st -> (i < n)%nat -> nth i q [] = x :: q' -> mitem p hole ic (T i) (K i) x e ->
    At (p_rd st) pre (e ++ rem) -> (length e < F)%nat -> (zlen e < size_limit)%Z ->
    exists st', parse_loop (S f) false ic hs st = parse_loop f false ic hs st' /\ INV (upd q i q') st' /\ At (p_rd st') (pre ++ e) rem.
  Proof.
    intros f q st i x q' e pre rem HI Hi EQ MI A LF LS. pose proof HI as (L1 & L2 & L3 & CO & B & H).
    destruct (H i Hi) as (tk & E & TK). rewrite EQ in E.
    pose proof (wf_at nc fs WF i Hi) as WI. pose proof (pk_at false fs OK i Hi) as PI.
    pose proof (F2_at shape fs vs SH i Hi) as SI. pose proof (F2_at typed fs vs TY i Hi) as TI.
    apply cxs_ok_nth in CO. destruct CO as [C1 C2]. specialize (C2 i Hi). assert (LJ : (i < length (p_cx st))%nat) by lia.
    pose proof (RKS i Hi) as RK. 
    destruct (ok_parts false fs OK) as (_ & _ & _ & NMK). specialize (NMK eq_refl i Hi).
    assert (LB : forall t b y, e = tlv t b ++ y -> (length b < F)%nat /\ (zlen b < size_limit)%Z).
    { intros t b y ->. unfold tlv in *. rewrite !app_length in LF. rewrite !zlen_app in LS. zl. lia. }
    inversion MI as [t k v b NR MB|t sub v b MB|t key vt val a c b1 b2 MB1 MB2]; subst.
    - (* single *)
      destruct (LB (T i) b []) as [BF BS]; [rewrite app_nil_r; auto|].
      assert (PK : plain_kind (K i) = true) by (destruct (K i); try discriminate; reflexivity).
      rewrite items_single in E by auto. assert (EX : k_body p hole (K i) (V i) <> None /\ tk = [] /\ x = V i /\ q' = []).
      { destruct (k_body p hole (K i) (V i)); [|destruct tk; discriminate]. split; [discriminate|]. destruct tk as [|? [|]]; cbn [app] in E; try discriminate.
        injection E as -> <-. auto. }
      destruct EX as (NB & -> & -> & ->).
      assert (NM : is_marker (K i) = false) by (destruct (K i); try discriminate; reflexivity).
      destruct (elem_ok f q st i pre b rem HI Hi NM A BS) as (r2 & A2 & B2 & E2). rewrite E2. unfold do_read. cbn [fh_read fh_kind p_vals p_cx p_rd p_prog p_done].
      assert (RJ : RKN p hole ic (K i)) by (destruct (K i); try discriminate; exact RK).
      destruct (RJ F nc (T i) i (zlen pre) (nth i (p_vals st) VNone) (p_cx st) r2 _ b rem (V i) PK WI PI SI TI B2 MB A2 BF BS LJ C2) as (v' & y & r' & E3 & S3 & A3 & B3 & X3).
      rewrite E3. cbn [bind]. eexists. split; [reflexivity|]. split.
      + apply (inv_upd q st i [] v' y r' [V i]); auto.
        * rewrite items_single by auto. destruct (k_body p hole (K i) (V i)); [reflexivity|contradiction].
        * unfold taken. destruct (K i); try discriminate; right; auto.
      + cbn [p_rd]. unfold tlv. repeat rewrite <- app_assoc in A3. repeat rewrite <- app_assoc. exact A3.
    - (* sequence *)
      match goal with X : KSeq sub = K i |- _ => rename X into EK; symmetry in EK end.
      destruct (LB (T i) b []) as [BF BS]; [rewrite app_nil_r; auto|].
      unfold taken in TK. rewrite EK in *. destruct TK as (acc & EV & FA).
      destruct (V i) as [| | | | | | | |l|] eqn:EVI; cbn [shape] in SI; try contradiction. cbn [items] in E. subst l.
      assert (IX : In x (tk ++ x :: q')) by (apply in_app_iff; right; left; auto).
      cbn [wf_kind] in WI. rewrite andb_true_iff in WI. destruct WI as [PS WS]. cbn [pk_ok] in PI. cbn [typed] in TI. rewrite Forall_forall in SI, TI.
      destruct (TI _ IX) as [_ TX]. specialize (SI _ IX). cbn [RKNs] in RK. cbn [cx_ok] in C2.
      assert (NM : is_marker (K i) = false) by (rewrite EK; reflexivity).
      destruct (elem_ok f q st i pre b rem HI Hi NM A BS) as (r2 & A2 & B2 & E2). rewrite E2. unfold do_read. cbn [fh_read fh_kind p_vals p_cx p_rd p_prog p_done].
      destruct (RK F nc (T i) i (zlen pre) (k_zero sub) (p_cx st) r2 _ b rem x PS WS PI SI TX B2 MB A2 BF BS LJ C2) as (v' & y & r' & E3 & S3 & A3 & B3 & X3).
      rewrite EK. cbn [k_read]. rewrite E3. cbn [bind]. rewrite EV. eexists. split; [reflexivity|]. split.
      + assert (IU := inv_upd q st i q' (VSeq (acc ++ [v'])) y r' (tk ++ [x]) Hi HI). rewrite EK, EVI in IU. apply IU; auto.
        * cbn [items]. rewrite <- app_assoc. reflexivity.
        * unfold taken. rewrite EK. exists (acc ++ [v']). split; auto. rewrite map_app. apply Forall2_app; auto. constructor; auto.
      + cbn [p_rd]. unfold tlv. repeat rewrite <- app_assoc in A3. repeat rewrite <- app_assoc. exact A3.
    - (* map *)
      match goal with X : KMap key vt val = K i |- _ => rename X into EK; symmetry in EK end.
      destruct (LB (T i) b1 (tlv vt b2)) as [BF1 BS1]; [auto|].
      assert (BB : (length b2 < F)%nat /\ (zlen b2 < size_limit)%Z).
      { clear -LF LS. unfold tlv in *. rewrite !app_length in LF. rewrite !zlen_app in LS. zl. lia. }
      destruct BB as [BF BS].
      unfold taken in TK. rewrite EK in *. destruct TK as (acc & l0 & EV & ET & FA).
      destruct (V i) as [| | | | | | | | |l] eqn:EVI; cbn [shape] in SI; try contradiction. cbn [items] in E.
      assert (EL : exists l1, l = l0 ++ (a, c) :: l1 /\ q' = map (fun e => VMap [e]) l1).
      { rewrite ET in E. clear -E. revert l E. induction l0 as [|e l0 IH]; intros l E; destruct l as [|y l]; cbn [map app] in E; try discriminate.
        - injection E as -> <-. exists l. auto.
        - injection E as -> E. destruct (IH l E) as (l1 & -> & ->). exists l1. auto. }
      destruct EL as (l1 & -> & ->).
      assert (IX : In (a, c) (l0 ++ (a, c) :: l1)) by (apply in_app_iff; right; left; auto).
      cbn [wf_kind] in WI. rewrite !andb_true_iff in WI. destruct WI as [[WK PS] WS]. cbn [pk_ok] in PI. rewrite !andb_true_iff in PI. destruct PI as [[_ PI] VT].
      cbn [typed] in TI. destruct TI as [TI ND]. pose proof SI as SI0. rewrite Forall_forall in SI, TI.
      destruct (TI _ IX) as (Tk & _ & TX). destruct (SI _ IX) as [Sk SX]. cbn [fst snd] in Tk, TX, Sk, SX. cbn [RKNs] in RK. cbn [cx_ok] in C2.
      assert (NM : is_marker (K i) = false) by (rewrite EK; reflexivity).
      rewrite <- app_assoc in A.
      destruct (elem_ok f q st i pre b1 (tlv vt b2 ++ rem) HI Hi NM A BS1) as (r2 & A2 & B2 & E2). rewrite E2. unfold do_read. cbn [fh_read fh_kind p_vals p_cx p_rd p_prog p_done].
      assert (LK : leaf_single key = true /\ wf_kind nc key = true).
      { destruct key as [[]| | | |[]| | | | | | | | | | |]; try discriminate; split; reflexivity. }
      destruct LK as (LK & WKk).
      assert (KB : k_body p hole key a = Some b1).
      { inversion MB1; subst; auto. discriminate. }
      destruct (read_leaf p hole F nc (T i) i key ic (zlen pre) (k_zero key) (p_cx st) r2 _ b1 _ a LK WKk Tk (or_introl B2) KB A2 BF1 BS1)
        as (kv & rk & E3 & S3 & A3 & K3).
      assert (EKV : kv = a).
      { clear -S3 Sk WK. destruct key as [[]| | | |[]| | | | | | | | | | |]; try discriminate; destruct a; cbn in Sk; try contradiction; try discriminate; cbn in S3.
        - apply same_nat; auto. - apply same_bytes; auto. }
      assert (UV : u64_ok vt) by (unfold u64_ok; lia). unfold tlv in A3. rewrite <- !app_assoc in A3.
      destruct (at_read_tl vt rk _ _ UV A3) as (r4 & R4 & A4 & K4).
      destruct (at_read_tl (nlen b2) r4 _ _ (u64_len b2 BS) A4) as (r5 & R5 & A5 & K5).
      assert (B5 : is_buf_reader r5) by (unfold same_kind in *; tauto).
      destruct (RK F nc vt i (zlen pre) (k_zero val) (p_cx st) r5 _ b2 _ c PS WS PI SX TX B5 MB2 A5 BF BS LJ C2) as (v' & y & r' & E6 & S6 & A6 & B6 & X6).
      rewrite EK. cbn [k_read]. rewrite E3. cbn [bind]. rewrite R4. cbn [soft]. rewrite R5. cbn [soft]. rewrite N.eqb_refl, E6. cbn [bind].
      rewrite EV.
      assert (MP : map_put kv v' acc = acc ++ [(a, v')]).
      { rewrite EKV. apply map_put_new. rewrite map_app in ND. cbn [map] in ND. apply NoDup_remove_2 in ND.
        assert (NI : ~ In a (map fst l0)) by (intros X; apply ND, in_app_iff; auto).
        assert (SK0 : Forall (fun e0 => shape key (fst e0)) l0).
        { apply Forall_forall. intros z Hz. apply (SI z). apply in_app_iff. auto. }
        clear -FA NI SK0 Sk WK. induction FA as [|u u' l0 acc [Ea _] _ IHF]; [constructor|]. inversion SK0; subst. constructor.
        - rewrite Ea. apply (key_eqb_neq key); auto. intros X. apply NI. left. auto.
        - apply IHF; auto. intros X. apply NI. right. auto. }
      rewrite MP. eexists. split; [reflexivity|]. split.
      + assert (IU := inv_upd q st i (map (fun e => VMap [e]) l1) (VMap (acc ++ [(a, v')])) y r' (tk ++ [VMap [(a, c)]]) Hi HI). rewrite EK, EVI in IU. apply IU; auto.
        * cbn [items]. rewrite <- app_assoc. cbn [app]. rewrite E. reflexivity.
        * unfold taken. rewrite EK. exists (acc ++ [(a, v')]), (l0 ++ [(a, c)]). split; auto. split; [rewrite ET, map_app; reflexivity|].
          apply Forall2_app; auto. constructor; auto. split; auto.
      + cbn [p_rd]. unfold tlv. repeat rewrite <- app_assoc in A6. repeat rewrite <- app_assoc. exact A6.
  Qed.

  Lemma other_step : forall f q st t b pre rem, INV q st -> ~ In t (elem_types fs) -> (t < two64)%N ->
    At (p_rd st) pre (tlv t b ++ rem) -> (zlen b < size_limit)%Z ->
    exists r2, At r2 (pre ++ tl_enc t ++ tl_enc (nlen b)) (b ++ rem) /\ is_buf_reader r2
      /\ parse_loop (S f) false ic hs st = (do st' <- do_default ic t (nlen b) (mkPS (p_vals st) (p_cx st) r2 (p_prog st) (p_done st)); parse_loop f false ic hs st').
  Proof.
    intros f q st t b pre rem (L1 & L2 & L3 & CO & B & H) NI Ht A SZ. unfold tlv in A. rewrite <- !app_assoc in A.
    destruct (ok_parts false fs OK) as (_ & D & X & _).
    destruct (loop_elem p hole HH nc false ic fs vs F (map (fun _ => XNone) fs) Lv ltac:(rewrite map_length; auto) f st pre t (nlen b) (b ++ rem)) as (r2 & A2 & K2 & E2); auto.
    { apply u64_len. auto. }
    exists r2. split; [auto|]. split; [destruct (p_rd st); [|destruct B]; destruct r2; [exact I|discriminate K2]|]. rewrite E2. unfold do_elem. rewrite (find_field_none F fs t 0 NI X). reflexivity.
  Qed.

  Lemma ignore_ok : forall t, may_ignore ic t -> negb ic && is_critical t = false.
  Proof.
    intros t [->|[H1 H2]]; auto. unfold is_critical. rewrite andb_false_iff. right. rewrite orb_false_iff. split; [lia|].
    apply N.even_spec in H2. destruct H2 as (k & ->). rewrite N.mul_comm, N.mod_mul by lia. reflexivity.
  Qed.

  Lemma run_step : forall q b q2, mrun p hole ic fs q b q2 -> forall f st pre rem, INV q st -> At (p_rd st) pre (b ++ rem) ->
    (length b < f)%nat -> (length b < F)%nat -> (zlen b < size_limit)%Z ->
    exists f' st', parse_loop f false ic hs st = parse_loop f' false ic hs st' /\ INV q2 st' /\ At (p_rd st') (pre ++ b) rem /\ (f <= f' + length b)%nat.
  Proof.
    intros q b q2 H. remember fs as fs' eqn:EF. induction H as [fs' q|fs' q i fd x q' e b q2 EI EQ MI R IH|fs' q t v b q2 Ht NI MI R IH]; intros f st pre rem HI A L1 L2 L3; subst fs'.
    - exists f, st. rewrite app_nil_r. split; [auto|]. split; [auto|]. split; [auto|]. lia.
    - destruct (nth_error_at fs i fd EI) as (Hi & EK & ET). rewrite <- EK, <- ET in MI.
      assert (NE : (0 < length e)%nat). { inversion MI; subst; unfold tlv; rewrite ?app_length; pose proof (tl_enc_pos (T i)); unfold nlen in *; lia. }
      rewrite app_length in L1, L2. rewrite zlen_app in L3. zl. destruct f as [|f]; [lia|]. rewrite <- app_assoc in A.
      destruct (item_step f q st i x q' e pre (b ++ rem) HI Hi (nth_error_nth _ _ _ EQ) MI A) as (st1 & E1 & I1 & A1); try lia.
      destruct (IH eq_refl WF OK Lv SH TY RKS f st1 (pre ++ e) rem I1 A1) as (f' & st' & E2 & I2 & A2 & L); try lia.
      exists f', st'. rewrite E1, E2. split; [auto|]. split; [auto|]. split; [rewrite app_assoc; auto|]. rewrite app_length. lia.
    - unfold tlv in L1, L2, L3. rewrite !app_length in L1, L2. rewrite !zlen_app in L3. zl. pose proof (tl_enc_pos t). unfold nlen in *. destruct f as [|f]; [lia|]. rewrite <- app_assoc in A.
      destruct (other_step f q st t v pre (b ++ rem) HI NI Ht A) as (r2 & A1 & B1 & E1); try lia.
      unfold do_default in E1. rewrite (ignore_ok t MI) in E1. cbn [p_rd] in E1.
      rewrite to_int_len in E1 by (unfold size_limit, Ztwo63 in *; lia).
      destruct (at_skip r2 _ v (b ++ rem) A1 (or_introl B1)) as (r3 & E3 & A3 & K3). rewrite E3 in E1. cbn [soft bind p_vals p_cx p_prog p_done] in E1.
      set (st1 := mkPS _ _ r3 _ _) in E1.
      assert (I1 : INV q st1).
      { destruct HI as (M1 & M2 & M3 & M4 & M5 & M6). split; [auto|]. split; [auto|]. split; [auto|]. split; [auto|]. split; [|auto]. apply K3. auto. }
      destruct (IH eq_refl WF OK Lv SH TY RKS f st1 ((pre ++ tl_enc t ++ tl_enc (nlen v)) ++ v) rem I1 A3) as (f' & st' & E2 & I2 & A2 & L); try lia.
      exists f', st'. rewrite E1, E2. split; [auto|]. split; [auto|]. split; [|unfold tlv; rewrite !app_length; lia].
      unfold tlv. repeat rewrite <- app_assoc in A2. repeat rewrite <- app_assoc. exact A2.
  Qed.

  Lemma skip_end : forall d i st sp, (d = n - i)%nat -> (i <= n)%nat -> INV (map (fun _ => []) fs) st \/ True ->
    length (p_vals st) = n -> cxs_ok fs (p_cx st) ->
    (forall a, (a < i)%nat -> same (bk a) (nth a (p_vals st) VNone)) ->
    (forall a, (i <= a < n)%nat -> taken a (items p hole (K a) (V a)) (nth a (p_vals st) VNone) (nth a (p_done st) false)) ->
    exists st', skip_rest i sp (skipn i hs) st = Ok st' /\ length (p_vals st') = n /\ cxs_ok fs (p_cx st')
      /\ (forall a, (a < n)%nat -> same (bk a) (nth a (p_vals st') VNone)).
  Proof.
    induction d as [|d IH]; intros i st sp Hd Hi _ L CO HA HB.
    - assert (i = n) by lia. subst i. rewrite skipn_all2 by (rewrite handlers_len; lia). cbn [skip_rest]. exists st. auto.
    - assert (Hn : (i < n)%nat) by lia. rewrite (skipn_nth_cons hs i _ (handlers_nth F fs i 0 Hn)). cbn [skip_rest fh_typ fh_kind].
      pose proof (F2_at shape fs vs SH i Hn) as SI. pose proof (HB i ltac:(lia)) as TK.
      destruct (ok_parts false fs OK) as (_ & _ & _ & NMK). pose proof (NMK eq_refl i Hn) as NM.
      assert (CASE : (nth i (p_done st) false = true /\ same (bk i) (nth i (p_vals st) VNone)) \/ (nth i (p_done st) false = false /\ skippable p hole fs vs i (nth i (p_vals st) VNone))).
      { unfold taken in TK. destruct (is_rep (K i)) eqn:R.
        - assert (S : same (bk i) (nth i (p_vals st) VNone)).
          { destruct (K i) as [| | | | | | | | |sub|key vt val| | | | |] eqn:EK; try discriminate; destruct (V i) as [| | | | | | | |l|l] eqn:EV; cbn [shape] in SI; try contradiction; cbn [items] in TK.
            - destruct TK as (acc & -> & FA). cbn [back]. constructor. auto.
            - destruct TK as (acc & l0 & -> & EL & FA).
              assert (l0 = l). { clear -EL. revert l0 EL. induction l as [|e l IH]; intros [|e0 l0] E; cbn [map] in E; try discriminate; auto. injection E as -> E. f_equal. auto. }
              subst l0. cbn [back]. constructor.
              pose proof (wf_at nc fs WF i Hn) as WJ. rewrite EK in WJ. cbn [wf_kind] in WJ. rewrite !andb_true_iff in WJ. destruct WJ as [[WK _] _].
              clear -FA SI WK. induction FA as [|e e' l l' [E1 E2] _ IH]; [constructor|]. inversion SI as [|? ? [S1 S2] S3]; subst. constructor; [|auto].
              cbn [fst snd]. split; auto. rewrite E1. destruct key as [[]| | | |[]| | | | | | | | | | |]; try discriminate; destruct (fst e); cbn in S1; try contradiction; try discriminate; constructor. }
          destruct (nth i (p_done st) false); [left|right]; auto. split; auto. left. auto.
        - rewrite items_single in TK by auto.
          assert (TK' : (match k_body p hole (K i) (V i) with Some _ => [V i] | None => [] end = [] /\ nth i (p_vals st) VNone = k_zero (K i) /\ nth i (p_done st) false = false)
            \/ (match k_body p hole (K i) (V i) with Some _ => [V i] | None => [] end = [V i] /\ same (bk i) (nth i (p_vals st) VNone) /\ nth i (p_done st) false = true)).
          { destruct (K i); try discriminate; exact TK. }
          destruct TK' as [(A & B & C)|(A & B & C)]; [right|left; auto]. split; auto. right. split; auto. split; auto.
          destruct (k_body p hole (K i) (V i)); [discriminate|auto]. }
      destruct CASE as [[D SM]|[D SK]]; rewrite D.
      + apply (IH (S i) st sp); auto; try lia.
        * intros a Ha. destruct (Nat.eq_dec a i) as [->|]; [auto|apply HA; lia].
        * intros a Ha. apply HB. lia.
      + pose proof CO as CO'. apply cxs_ok_nth in CO'. destruct CO' as [C1 C2].
        assert (HC : CXI p hole fs vs [] (p_cx st) i 0 (p_cx st)).
        { split; [auto|]. split; [|split; [|split; [|split]]]; auto.
          - intros a Ha E. assert (X : (a < n)%nat) by lia. pose proof (NMK eq_refl a X) as Y. rewrite E in Y. discriminate.
          - intros a E. assert (X : (a < n)%nat) by (apply kind_at_lt; congruence). pose proof (NMK eq_refl a X) as Y. rewrite E in Y. discriminate.
          - intros a Ha. lia. }
        destruct (pass_one p hole HH nc false fs vs [] (p_cx st) WF Lv SH C1 i 0 sp _ (p_cx st) (p_rd st) Hn HC SK) as (v' & cx' & E & C' & S').
        { intros M. rewrite NM in M. discriminate. }
        rewrite E. cbn [bind]. apply (IH (S i)); cbn [p_vals p_cx p_rd p_done]; auto; try lia.
        * rewrite upd_length. auto.
        * apply cxs_ok_nth. destruct C' as (Y1 & _ & _ & Y4 & _). auto.
        * intros a Ha. destruct (Nat.eq_dec i a) as [<-|]; [rewrite upd_nth by lia; auto|]. rewrite upd_nth_other by auto. apply HA. lia.
        * intros a Ha. rewrite upd_nth_other by lia. apply HB. lia.
  Qed.

  Lemma inv_start : forall r cx, cxs_ok fs cx -> is_buf_reader r ->
    INV (fs_items p hole fs vs) (mkPS (map (fun h => k_zero (fh_kind h)) hs) cx r (-1) (map (fun _ => false) hs)).
  Proof.
    intros r cx CO B. rewrite handlers_kinds. unfold INV. cbn [p_vals p_cx p_rd p_done]. rewrite fs_items_len, !map_length, handlers_len by auto.
    split; [auto|]. split; [auto|]. split; [auto|]. split; [auto|]. split; [auto|].
    intros i Hi. exists []. rewrite fs_items_nth, nth_zero, nth_false by auto. split; [auto|]. unfold taken. destruct (K i) eqn:EK; auto.
    - exists []. split; [auto|constructor].
    - exists [], []. split; [auto|]. split; [auto|constructor].
  Qed.

  Lemma parse_mixed : forall r cx pre b, mixed p hole ic fs vs b -> At r pre b -> is_buf_reader r -> cxs_ok fs cx ->
    (length b < F)%nat -> (zlen b < size_limit)%Z ->
    exists vals cx', run_parse F false ic hs cx r = Ok (vals, cx') /\ Forall2 same (fs_back p hole fs vs) vals /\ cxs_ok fs cx'.
  Proof.
    intros r cx pre b M A B CO LF LS. unfold run_parse. pose proof (inv_start r cx CO B) as I0. set (st0 := mkPS _ _ _ _ _) in *.
    assert (A0 : At (p_rd st0) pre (b ++ [])) by (rewrite app_nil_r; exact A).
    destruct (run_step _ _ _ M F st0 pre [] I0 A0 LF LF LS) as (f' & st' & E & I' & A' & LL). rewrite E.
    destruct f' as [|f']; [lia|]. rewrite (loop_end false ic fs F f' st' _ A'). cbn [bind]. rewrite (at_pos _ _ _ A'). cbn [bind].
    destruct I' as (L1 & L2 & L3 & CO' & B' & H).
    destruct (skip_end n 0 st' (zlen (pre ++ b))) as (st2 & E2 & L4 & CO2 & S2); auto; try lia.
    { intros a Ha. destruct (H a) as (tk & E1 & TK); [lia|]. rewrite E1. replace (nth a (map (fun _ => []) fs) []) with (@nil value); [rewrite app_nil_r; exact TK|].
      clear. revert a. induction fs as [|f fs' IH]; intros [|a]; cbn; auto. }
    cbn [skipn] in E2. rewrite E2. cbn [bind]. eexists _, _. split; [reflexivity|]. split; [|auto]. apply nth_same; auto.
  Qed.

  Lemma parse_critical : forall r cx pre b q2 t v rem, mrun p hole ic fs (fs_items p hole fs vs) b q2 -> At r pre (b ++ tlv t v ++ rem) -> is_buf_reader r -> cxs_ok fs cx ->
    (length b < F)%nat -> (zlen (b ++ v) < size_limit)%Z -> ic = false -> is_critical t = true -> (t < two64)%N -> ~ In t (elem_types fs) ->
    run_parse F false ic hs cx r = Err (EUnrecognized t).
  Proof.
    intros r cx pre b q2 t v rem M A B CO LF LS IC CR Ht NI. unfold run_parse. pose proof (inv_start r cx CO B) as I0. set (st0 := mkPS _ _ _ _ _) in *.
    rewrite zlen_app in LS. zl.
    destruct (run_step _ _ _ M F st0 pre _ I0 A LF LF) as (f' & st' & E & I' & A' & LL); [lia|]. rewrite E.
    destruct f' as [|f']; [lia|]. destruct (other_step f' q2 st' t v _ rem I' NI Ht A') as (r2 & A1 & B1 & E1); [lia|].
    rewrite E1. unfold do_default. rewrite CR, IC. reflexivity.
  Qed.
End Noise.

Section AllN.
  Context (p : eparams) (hole : buf) (HH : nlen hole = ep_est p) (ic : bool).

  Lemma rkn_struct : forall nc' o fs bb, Forall (fun f => RKNs p hole ic (snd f)) fs -> RKN p hole ic (KStruct (Model nc' o fs) bb).
  Proof.
    intros nc' o fs bb IH F nc t i sp old cx r pre b rem v P W PK S T R MB A LF LS Hi CO.
    inversion MB as [k v0 b0 KB|nc0 fs0 no0 vs b0 MR]; subst.
    - destruct (rks_all p hole HH (KStruct (Model nc' o fs) bb) F nc t i ic sp old cx r pre b rem v P W PK S T (or_introl R) KB A LF LS Hi CO) as (v' & x & r' & E & S' & A' & K' & X & _).
      exists v', x, r'. split; [auto|]. split; [auto|]. split; [auto|]. split; [apply K'; auto|auto].
    - apply shape_struct in S. assert (Lv : length vs = length fs) by (apply fs_shape_len; auto).
      apply typed_struct in T; auto. apply wf_struct in W. destruct W as (_ & _ & W). rewrite pk_struct in PK.
      apply cx_ok_struct in CO. destruct CO as (l & EL & CO).
      cbn [k_read]. rewrite to_int_len by (unfold size_limit, Ztwo63 in *; lia).
      destruct (at_delegate r pre b rem A) as (d & r' & p' & E & A1 & A2 & K1 & K2). rewrite E. cbn [bind fst snd]. rewrite handlers_eq, EL. cbn [x_sub].
      assert (RKf : forall a, (a < length fs)%nat -> RKNs p hole ic (kind_at fs a)).
      { intros a Ha. destruct (at_f fs a Ha) as (f & E1 & E2 & _). rewrite E2. rewrite Forall_forall in IH. apply IH. eapply nth_error_In; eauto. }
      destruct (parse_mixed p hole HH nc' ic fs vs F W PK Lv S T RKf d l p' b MR A1 (proj1 (K2 R)) CO LF LS) as (vals & c & E3 & S3 & C3).
      rewrite E3. exists (VStruct vals), (XSub c), r'. split; [reflexivity|]. rewrite back_struct. split; [constructor; auto|]. split; [auto|]. split; [apply K1; auto|].
      apply cx_ok_struct. exists c. auto.
  Qed.

  Lemma rkns_all : forall k, RKNs p hole ic k.
  Proof.
    intros k. induction k as [k L|nc o fs b IH|sub IH|key vt val IH1 IH2] using kind_ind2.
    - assert (RKN p hole ic k); [|destruct k; try discriminate; auto].
      intros F nc t i sp old cx r pre b rem v P W PK S T R MB A LF LS Hi CO.
      assert (KB : k_body p hole k v = Some b) by (inversion MB; subst; auto; discriminate).
      assert (RR : RK p hole k) by (apply rk_leaf; auto).
      destruct (RR F nc t i ic sp old cx r pre b rem v P W PK S T (or_introl R) KB A LF LS Hi CO) as (v' & x & r' & E & S' & A' & K' & X & _).
      exists v', x, r'. split; [auto|]. split; [auto|]. split; [auto|]. split; [apply K'; auto|auto].
    - apply rkn_struct. exact IH.
    - cbn [RKNs]. intros F nc t i sp old cx r pre b rem v P. revert F nc t i sp old cx r pre b rem v P.
      destruct sub; try exact IH; intros; discriminate.
    - cbn [RKNs]. destruct val; try exact IH2; intros F nc t i sp old cx r pre b rem v P; discriminate.
  Qed.

  Theorem parse_mixed_ok : forall m vs b F, m_ordered m = false -> wf_model m = true -> parsable m = true ->
    fs_shape (m_fields m) vs -> fs_typed (m_fields m) vs -> mixed p hole ic (m_fields m) vs b ->
    (zlen b < size_limit)%Z -> (length b < F)%nat ->
    exists vals cx, m_parse F m ic (new_buffer_reader b) = Ok (vals, cx) /\ Forall2 same (fs_back p hole (m_fields m) vs) vals.
  Proof.
    intros [nc o fs] vs b F O W PK S T M LS LF. cbn [m_ordered m_fields] in *. subst o. unfold wf_model in W. cbn [m_nocopy m_fields] in W.
    unfold parsable in PK. cbn [m_nocopy] in PK. rewrite pk_struct in PK. assert (Lv : length vs = length fs) by (apply fs_shape_len; auto).
    assert (A : At (new_buffer_reader b) [] b) by (apply at_new_buf; unfold size_limit, mem_limit in *; lia).
    destruct (parse_mixed p hole HH nc ic fs vs F W PK Lv S T (fun i _ => rkns_all (kind_at fs i)) (new_buffer_reader b) (m_ctx (Model nc false fs)) [] b M A I (m_ctx_ok nc false fs) LF LS) as (vals & c & E & S3 & _).
    exists vals, c. auto.
  Qed.

  Theorem parse_critical_ok : forall m vs b q2 t v rest F, m_ordered m = false -> wf_model m = true -> parsable m = true ->
    fs_shape (m_fields m) vs -> fs_typed (m_fields m) vs -> mrun p hole ic (m_fields m) (fs_items p hole (m_fields m) vs) b q2 ->
    (zlen (b ++ tlv t v ++ rest) < size_limit)%Z -> (length b < F)%nat -> ic = false -> is_critical t = true -> (t < two64)%N -> ~ In t (elem_types (m_fields m)) ->
    m_parse F m ic (new_buffer_reader (b ++ tlv t v ++ rest)) = Err (EUnrecognized t).
  Proof.
    intros [nc o fs] vs b q2 t v rest F O W PK S T M LS LF IC CR Ht NI. cbn [m_ordered m_fields] in *. subst o. unfold wf_model in W. cbn [m_nocopy m_fields] in W.
    unfold parsable in PK. cbn [m_nocopy] in PK. rewrite pk_struct in PK. assert (Lv : length vs = length fs) by (apply fs_shape_len; auto).
    assert (A : At (new_buffer_reader (b ++ tlv t v ++ rest)) [] (b ++ tlv t v ++ rest)) by (apply at_new_buf; unfold size_limit, mem_limit in *; lia).
    apply (parse_critical p hole HH nc ic fs vs F W PK Lv S T (fun i _ => rkns_all (kind_at fs i)) (new_buffer_reader (b ++ tlv t v ++ rest)) (m_ctx (Model nc false fs)) [] b q2 t v rest M A I (m_ctx_ok nc false fs) LF); auto.
    unfold tlv in LS. rewrite !zlen_app in *. zl. lia.
  Qed.
End AllN.
