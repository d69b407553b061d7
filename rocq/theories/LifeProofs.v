(** Proofs about a whole engine. *)
From Verif Require Import Base BaseProofs PrimModel ReaderModel ReaderSpec NameModel TrieModel TrieSpec TrieProofs EngineModel EngineSpec EngineProofs EngineProofs2 FibModel FibSpec FibProofs CodecModel CodecSpec4 SpecModel RecvModel RecvSpec RecvProofs RecvProofs2 DummyModel DummyProofs LifeModel LifeSpec.

Section P.
Context (sha : buf -> buf) {H : Type}.
Notation l_step := (l_step sha).
Notation l_run := (l_run sha).

Lemma l_run_app : forall a (s : life H) b, l_run s (a ++ b) = do r <- l_run s a; do t <- l_run (fst r) b; Ok (fst t, snd r ++ snd t).
Proof.
  induction a as [|o a IH]; intros s b; cbn [app LifeModel.l_run].
  - cbn [bind fst snd app]. destruct (l_run s b) as [[? ?]| | |]; reflexivity.
  - destruct (l_step s o) as [r| | |]; cbn [bind]; auto. rewrite IH. destruct (l_run (fst r) a) as [t| | |]; cbn [bind fst snd]; auto.
    destruct (l_run (fst t) b) as [u| | |]; reflexivity.
Qed.

Lemma l_run_snoc : forall a (s : life H) o, l_run s (a ++ [o]) = do r <- l_run s a; do t <- l_step (fst r) o; Ok (fst t, snd r ++ [snd t]).
Proof.
  intros a s o. rewrite l_run_app. destruct (l_run s a) as [r| | |]; cbn [bind]; auto. cbn [LifeModel.l_run].
  destruct (l_step (fst r) o) as [t| | |]; cbn [bind fst snd]; reflexivity.
Qed.

Lemma up_from_app : forall (a b : list (lop H)) x, up_from x (a ++ b) = up_from (up_from x a) b.
Proof. induction a as [|o a IH]; intros b x; cbn [app up_from]; auto. destruct o; auto. Qed.
Lemma l_elapsed_app : forall (a b : list (lop H)), l_elapsed (a ++ b) = (l_elapsed a + l_elapsed b)%Z.
Proof. induction a as [|o a IH]; intros b; cbn [app l_elapsed]; auto. destruct o; rewrite IH; lia. Qed.
Lemma l_expressed_app : forall (a b : list (lop H)) now, l_expressed now (a ++ b) = l_expressed now a ++ l_expressed (now + l_elapsed a) b.
Proof.
  induction a as [|o a IH]; intros b now; cbn [app l_expressed l_elapsed]; [rewrite Z.add_0_r; auto|].
  destruct o; try apply IH. - destruct nm; rewrite IH; reflexivity. - rewrite IH, Z.add_assoc. reflexivity.
Qed.

(** what holds after the calls [os] *)
Definition EngI (os : list (lop H)) (s : life H) : Prop :=
  exists es, e_run eng_new es = Ok (n_eng (lf_node s)) /\ elapsed es = l_elapsed os /\ expressed 0 es = l_expressed 0 os.
Definition FibI (s : life H) : Prop := exists fos rs, f_run fib_new fos = Ok (n_fib (lf_node s), rs) /\ no_nil_handler fos.
Definition FaceI (os : list (lop H)) (s : life H) : Prop :=
  df_running (lf_face s) = up os /\ (df_running (lf_face s) = true -> df_callback (lf_face s) = true).

Lemma send_face : forall (s : life H) w, df_running (lf_face (fst (send_out s w))) = df_running (lf_face s) /\ df_callback (lf_face (fst (send_out s w))) = df_callback (lf_face s)
  /\ lf_node (fst (send_out s w)) = lf_node s /\ lf_calls (fst (send_out s w)) = lf_calls s.
Proof.
  intros s w. unfold send_out. cbn [df_step]. destruct (df_running (lf_face s)) eqn:R; cbn [negb].
  - destruct w as [|b [|b' w]]; cbn [fst lf_face lf_node lf_calls df_running df_callback]; auto.
  - cbn [fst lf_face lf_node lf_calls]. auto.
Qed.

Lemma fib_snoc : forall fos (f0 f : store (option H)) rs o f' r, f_run f0 fos = Ok (f, rs) -> f_step f o = Ok (f', r) -> f_run f0 (fos ++ [o]) = Ok (f', rs ++ [r]).
Proof.
  induction fos as [|x fos IH]; intros f0 f rs o f' r R1 R2; cbn [app f_run] in *.
  - injection R1 as -> <-. rewrite R2. reflexivity.
  - destruct (f_step f0 x) as [y| | |]; try discriminate. cbn [bind] in *. destruct (f_run (fst y) fos) as [[f1 rs1]| | |] eqn:E; try discriminate. cbn [bind fst snd] in *.
    injection R1 as -> <-. rewrite (IH _ _ _ _ _ _ E R2). reflexivity.
Qed.

(** receiving is an operation of EngineModel, or none *)
Lemma recv_es : forall F (nd nd' : node H) b out, node_recv sha F nd b = Ok (nd', out) ->
  n_fib nd' = n_fib nd /\ (n_eng nd' = n_eng nd
    \/ (exists d cov raw tok, on_packet sha F (new_buffer_reader b) = Ok (EvData d cov raw tok) /\ e_step (n_eng nd) (EData (the_name (d_name d)) (sha (concat raw))) = Ok (n_eng nd'))
    \/ exists n r, e_step (n_eng nd) (ENack n r) = Ok (n_eng nd')).
Proof.
  intros F nd nd' b out. unfold node_recv. destruct (on_packet sha F (new_buffer_reader b)) as [ev| | |]; try discriminate. cbn [bind].
  destruct ev as [|n r|i raw cov tok face|d cov raw tok]; cbn [node_event].
  - intros E. injection E as <- _. auto.
  - destruct (e_nack (n_eng nd) (the_name n) r) as [g| | |] eqn:E; try discriminate. cbn [bind]. intros Q. injection Q as <- _. cbn [n_fib n_eng]. split; auto. right. right. exists (the_name n), r. exact E.
  - destruct (f_match (n_fib nd) (the_name (i_name i))) as [h| | |]; try discriminate. cbn [bind]. intros Q. injection Q as <- _. auto.
  - destruct (e_data (n_eng nd) (the_name (d_name d)) (sha (concat raw))) as [g| | |] eqn:E; try discriminate. cbn [bind]. intros Q. injection Q as <- _. cbn [n_fib n_eng]. split; auto. right. left. exists d, cov, raw, tok. split; auto.
Qed.

Lemma eng_snoc : forall es g o g', e_run eng_new es = Ok g -> e_step g o = Ok g' -> e_run eng_new (es ++ [o]) = Ok g'.
Proof. intros es g o g' R1 R2. rewrite e_run_app, R1. cbn [bind e_run]. rewrite R2. reflexivity. Qed.

(** the operation of EngineModel that a call amounts to *)
Lemma step_eng : forall (s s' : life H) o r, l_step s o = Ok (s', r) ->
  (n_eng (lf_node s') = n_eng (lf_node s) /\ l_elapsed [o] = 0%Z /\ (forall now, l_expressed now [o] = []))
  \/ exists eo, e_step (n_eng (lf_node s)) eo = Ok (n_eng (lf_node s')) /\ elapsed [eo] = l_elapsed [o] /\ (forall now, expressed now [eo] = l_expressed now [o])
     /\ (forall nm dg, eo = EData nm dg -> exists b d cov raw tok, o = LFeed b /\ df_running (lf_face s) = true /\ on_packet sha (S (length b)) (new_buffer_reader b) = Ok (EvData d cov raw tok)
          /\ nm = the_name (d_name d) /\ dg = sha (concat raw)).
Proof.
  intros s s' o r. destruct o as [| |nm cbp lt w|nm h|nm|b| |k data|d|id|id]; cbn [LifeModel.l_step].
  - destruct (df_running (lf_face s)); [intros E; injection E as <- _; auto|]. destruct (df_step _ DOpen) as [f2 q]. intros E. injection E as <- _. left. auto.
  - destruct (df_running (lf_face s)); cbn [negb]; [|intros E; injection E as <- _; auto]. destruct (df_step _ DClose) as [f2 q]. intros E. injection E as <- _. left. auto.
  - destruct (e_express (n_eng (lf_node s)) nm cbp lt) as [[g|]| | |] eqn:E; try discriminate; cbn [bind]; intros Q.
    + right. exists (EExpress nm cbp lt). injection Q as Q. pose proof (send_face (mkLife (lf_face s) (mkNode g (n_fib (lf_node s))) (lf_calls s)) w) as (_ & _ & S3 & _). rewrite Q in S3. cbn [fst] in S3. rewrite S3. cbn [lf_node n_eng].
      split; [cbn [e_step]; rewrite E; reflexivity|]. split; [reflexivity|]. split; [intros now; cbn [expressed l_expressed]; destruct nm; reflexivity|]. discriminate.
    + left. injection Q as <- _. split; auto. split; auto. intros now. cbn [l_expressed]. destruct nm as [|c nm]; auto.
      exfalso. unfold e_express, split_digest in E. destruct (rev (c :: nm)) as [|x l] eqn:R; [apply (f_equal (@rev _)) in R; rewrite rev_involutive in R; discriminate|].
      destruct (ctyp x =? TypeImplicitSha256Digest)%N; destruct (t_always _ _ _); try discriminate; cbn [bind] in E; destruct (TrieModel.value _ _); try discriminate; cbn [bind] in E; destruct (set_value _ _ _); discriminate.
  - destruct (f_attach _ _ _) as [q| | |]; try discriminate. cbn [bind]. intros E. injection E as <- _. left. auto.
  - destruct (f_detach _ _) as [q| | |]; try discriminate. cbn [bind]. intros E. injection E as <- _. left. auto.
  - destruct (df_running (lf_face s)) eqn:R; [|intros E; injection E as <- _; auto].
    destruct (node_recv sha (S (length b)) (lf_node s) b) as [[nd out]| | |] eqn:NR; try discriminate. cbn [bind fst snd]. intros E.
    assert (lf_node s' = nd) as -> by (destruct out as [[h a]|]; injection E as <- _; reflexivity).
    destruct (recv_es _ _ _ _ _ NR) as (_ & [K|[(d & cov & raw & tok & K1 & K2)|(n & r0 & K)]]).
    + left. auto.
    + right. exists (EData (the_name (d_name d)) (sha (concat raw))). split; auto. split; auto. split; auto. intros nm dg Q. injection Q as <- <-. exists b, d, cov, raw, tok. auto.
    + right. exists (ENack n r0). split; auto. split; auto. split; auto. discriminate.
  - destruct (df_step (lf_face s) DConsume) as [f q]. intros E. injection E as <- _. left. auto.
  - destruct (nth_error (lf_calls s) k) as [[h a]|]; [|intros E; injection E as <- _; auto].
    destruct (reply _ _ _ _) as [q| | |]; try discriminate. cbn [bind]. intros E. injection E as E. left. split; auto.
    destruct q as [w| |]; [|injection E as <- _; auto|injection E as <- _; auto]. pose proof (send_face s w) as (_ & _ & S3 & _). rewrite E in S3. cbn [fst] in S3. rewrite S3. reflexivity.
  - unfold eng_step. destruct (e_step (n_eng (lf_node s)) (ETick d)) as [g| | |] eqn:E; try discriminate. cbn [bind]. intros Q. injection Q as <- _. right. exists (ETick d). split; auto. split; auto. split; auto. discriminate.
  - unfold eng_step. destruct (e_step (n_eng (lf_node s)) (EFire id)) as [g| | |] eqn:E; try discriminate. cbn [bind]. intros Q. injection Q as <- _. right. exists (EFire id). split; auto. split; auto. split; auto. discriminate.
  - unfold eng_step. destruct (e_step (n_eng (lf_node s)) (ERun id)) as [g| | |] eqn:E; try discriminate. cbn [bind]. intros Q. injection Q as <- _. right. exists (ERun id). split; auto. split; auto. split; auto. discriminate.
Qed.

Lemma eng_step_inv : forall os (s s' : life H) o r, EngI os s -> l_step s o = Ok (s', r) -> EngI (os ++ [o]) s'.
Proof.
  intros os s s' o r (es & R & EL & EX) ST. destruct (step_eng _ _ _ _ ST) as [(A & B & C)|(eo & A & B & C & _)].
  - exists es. rewrite A, l_elapsed_app, l_expressed_app, B, C, app_nil_r, Z.add_0_r. auto.
  - exists (es ++ [eo]). split; [exact (eng_snoc _ _ _ _ R A)|]. rewrite elapsed_app, expressed_app, l_elapsed_app, l_expressed_app, B, EL, EX, C. auto.
Qed.

Lemma up_snoc : forall (os : list (lop H)) o, up (os ++ [o]) = up_from (up os) [o].
Proof. intros. apply up_from_app. Qed.

Lemma face_step_inv : forall os (s s' : life H) o r, FaceI os s -> l_step s o = Ok (s', r) -> FaceI (os ++ [o]) s'.
Proof.
  intros os s s' o r (U & CB) ST. unfold FaceI. rewrite up_snoc, <- U. revert ST. destruct o as [| |nm cbp lt w|nm h|nm|b| |k data|d|id|id]; cbn [LifeModel.l_step up_from].
  - destruct (df_running (lf_face s)) eqn:R.
    + intros E. injection E as <- _. rewrite R. auto.
    + cbn [df_step fst df_callback df_running negb]. rewrite R. intros E. injection E as <- _. cbn [lf_face df_running df_callback]. auto.
  - cbn [df_step]. destruct (df_running (lf_face s)) eqn:R; cbn [negb]; intros E; injection E as <- _.
    + cbn [lf_face df_running df_callback]. split; [auto|discriminate].
    + rewrite R. split; auto; discriminate.
  - destruct (e_express _ _ _ _) as [[g|]| | |]; try discriminate; cbn [bind]; intros Q.
    + injection Q as Q. pose proof (send_face (mkLife (lf_face s) (mkNode g (n_fib (lf_node s))) (lf_calls s)) w) as (S1 & S2 & _). rewrite Q in S1, S2. cbn [fst lf_face] in S1, S2. rewrite S1, S2. auto.
    + injection Q as <- _. auto.
  - destruct (f_attach _ _ _) as [q| | |]; try discriminate. cbn [bind]. intros E. injection E as <- _. auto.
  - destruct (f_detach _ _) as [q| | |]; try discriminate. cbn [bind]. intros E. injection E as <- _. auto.
  - destruct (df_running (lf_face s)) eqn:R; [|intros E; injection E as <- _; rewrite R; auto].
    destruct (node_recv _ _ _ _) as [[nd out]| | |]; try discriminate. cbn [bind fst snd]. intros E.
    destruct out as [[h a]|]; injection E as <- _; cbn [lf_face]; auto.
  - cbn [df_step]. destruct (df_running (lf_face s)) eqn:R; cbn [negb]; [|intros E; injection E as <- _; cbn [lf_face]; rewrite R; split; auto; discriminate].
    destruct (df_pkts (lf_face s)); intros E; injection E as <- _; cbn [lf_face df_running df_callback]; rewrite ?R; auto.
  - destruct (nth_error (lf_calls s) k) as [[h a]|]; [|intros E; injection E as <- _; auto].
    destruct (reply _ _ _ _) as [q| | |]; try discriminate. cbn [bind]. intros E. injection E as E.
    destruct q as [w| |]; [|injection E as <- _; auto|injection E as <- _; auto]. pose proof (send_face s w) as (S1 & S2 & _). rewrite E in S1, S2. cbn [fst] in S1, S2. rewrite S1, S2. auto.
  - unfold eng_step. destruct (e_step _ _) as [g| | |]; try discriminate. cbn [bind]. intros Q. injection Q as <- _. auto.
  - unfold eng_step. destruct (e_step _ _) as [g| | |]; try discriminate. cbn [bind]. intros Q. injection Q as <- _. auto.
  - unfold eng_step. destruct (e_step _ _) as [g| | |]; try discriminate. cbn [bind]. intros Q. injection Q as <- _. auto.
Qed.

Lemma eng_face : forall os (s : life H) tr, l_run l_new os = Ok (s, tr) -> EngI os s /\ FaceI os s.
Proof.
  induction os as [|o os IH] using rev_ind; intros s tr.
  - intros E. injection E as <- _. split; [exists []; auto|]. split; [reflexivity|discriminate].
  - rewrite l_run_snoc. destruct (l_run l_new os) as [[s0 tr0]| | |]; try discriminate. cbn [bind fst snd]. destruct (l_step s0 o) as [[s1 r]| | |] eqn:E; try discriminate. cbn [bind fst snd]. intros Q. injection Q as <- _.
    destruct (IH s0 tr0 eq_refl) as [A B]. split; [exact (eng_step_inv _ _ _ _ _ A E)|exact (face_step_inv _ _ _ _ _ B E)].
Qed.

(** with harmless calls every history runs to its end *)
Lemma life_step_ok : forall os (s : life H) o, EngI os s -> FibI s -> harmless o -> exists s' r, l_step s o = Ok (s', r) /\ FibI s'.
Proof.
  intros os s o (es & R & _) (fos & rs & FR & NN) HO.
  destruct (fib_run_ok H fos fib_new (fib_new_inv H) NN) as (fb' & rs' & E' & FI & _). rewrite FR in E'. injection E' as <- <-.
  assert (STEP : forall eo, exists g, e_step (n_eng (lf_node s)) eo = Ok g).
  { intros eo. destruct (reach (es ++ [eo])) as (g & G & _). rewrite e_run_app, R in G. cbn [bind e_run] in G. destruct (e_step (n_eng (lf_node s)) eo) as [g'| | |]; try discriminate. eauto. }
  assert (KEEP : forall f nd c, n_fib nd = n_fib (lf_node s) -> FibI (mkLife f nd c)) by (intros f nd c Q; exists fos, rs; cbn [lf_node]; rewrite Q; auto).
  destruct o as [| |nm cbp lt w|nm h|nm|b| |k data|d|id|id]; cbn [LifeModel.l_step].
  - destruct (df_running (lf_face s)); [eexists _, _; split; [reflexivity|exists fos, rs; auto]|]. destruct (df_step _ DOpen) as [f2 q]. eexists _, _. split; [reflexivity|]. apply KEEP; auto.
  - destruct (df_running (lf_face s)); cbn [negb]; [|eexists _, _; split; [reflexivity|exists fos, rs; auto]]. destruct (df_step _ DClose) as [f2 q]. eexists _, _. split; [reflexivity|]. apply KEEP; auto.
  - destruct (STEP (EExpress nm cbp lt)) as [g G]. cbn [e_step] in G. destruct (e_express (n_eng (lf_node s)) nm cbp lt) as [[g1|]| | |]; try discriminate; cbn [bind].
    + destruct (send_out _ w) as [s' r] eqn:SO. exists s', r. split; auto.
      pose proof (send_face (mkLife (lf_face s) (mkNode g1 (n_fib (lf_node s))) (lf_calls s)) w) as (_ & _ & S3 & _). rewrite SO in S3. cbn [fst lf_node] in S3. exists fos, rs. rewrite S3. auto.
    + eexists _, _. split; [reflexivity|]. exists fos, rs. auto.
  - destruct h as [h|]; [|contradiction]. destruct (attach_ok H (n_fib (lf_node s)) nm h FI) as (f' & b & E & _ & _). rewrite E. cbn [bind fst snd]. eexists _, _. split; [reflexivity|].
    exists (fos ++ [FAttach nm (Some h)]), (rs ++ [if b then FOk else FErr]). split; [apply (fib_snoc _ _ _ _ _ _ _ FR); cbn [f_step]; rewrite E; reflexivity|].
    intros m IN. apply in_app_or in IN. destruct IN as [IN|[IN|[]]]; [exact (NN m IN)|discriminate].
  - destruct (detach_ok H (n_fib (lf_node s)) nm FI) as (f' & b & E & _ & _). rewrite E. cbn [bind fst snd]. eexists _, _. split; [reflexivity|].
    exists (fos ++ [FDetach nm]), (rs ++ [if b then FOk else FErr]). split; [apply (fib_snoc _ _ _ _ _ _ _ FR); cbn [f_step]; rewrite E; reflexivity|].
    intros m IN. apply in_app_or in IN. destruct IN as [IN|[IN|[]]]; [exact (NN m IN)|discriminate].
  - destruct HO as (H1 & H2 & H3). destruct (df_running (lf_face s)); [|eexists _, _; split; [reflexivity|exists fos, rs; auto]].
    destruct (node_safe H sha (n_fib (lf_node s)) es (n_eng (lf_node s)) fos rs b (S (length b)) R FR NN H1 H2 H3 (Nat.lt_succ_diag_r _)) as (nd & out & E).
    assert (mkNode (n_eng (lf_node s)) (n_fib (lf_node s)) = lf_node s) as Q by (destruct (lf_node s); reflexivity). rewrite Q in E. rewrite E. cbn [bind fst snd].
    destruct (recv_es _ _ _ _ _ E) as (Q' & _). destruct out as [[h a]|]; (eexists _, _; split; [reflexivity|]; apply KEEP; auto).
  - destruct (df_step (lf_face s) DConsume) as [f q]. eexists _, _. split; [reflexivity|]. apply KEEP; auto.
  - destruct (nth_error (lf_calls s) k) as [[h a]|]; [|eexists _, _; split; [reflexivity|exists fos, rs; auto]].
    assert (exists q, reply a (g_now (n_eng (lf_node s))) (df_running (lf_face s)) data = Ok q) as (q & ->).
    { destruct (Z.ltb_spec (ia_deadline a) (g_now (n_eng (lf_node s)))) as [L|L]; [eexists; apply reply_late; exact L|].
      destruct (df_running (lf_face s)); [|eexists; apply reply_down; exact L].
      destruct (ia_token a) as [t|] eqn:T; [destruct (reply_token a (g_now (n_eng (lf_node s))) data t L T) as (w & W & _); eauto|].
      unfold reply. destruct (ia_deadline a <? g_now (n_eng (lf_node s)))%Z; cbn [negb]; [eauto|]. rewrite T. eauto. }
    cbn [bind]. destruct q as [w| |]; [|eexists _, _; split; [reflexivity|exists fos, rs; auto]|eexists _, _; split; [reflexivity|exists fos, rs; auto]].
    destruct (send_out s w) as [s' r] eqn:SO. exists s', r. split; auto. pose proof (send_face s w) as (_ & _ & S3 & _). rewrite SO in S3. cbn [fst] in S3. exists fos, rs. rewrite S3. auto.
  - unfold eng_step. destruct (STEP (ETick d)) as [g ->]. cbn [bind]. eexists _, _. split; [reflexivity|]. apply KEEP; auto.
  - unfold eng_step. destruct (STEP (EFire id)) as [g ->]. cbn [bind]. eexists _, _. split; [reflexivity|]. apply KEEP; auto.
  - unfold eng_step. destruct (STEP (ERun id)) as [g ->]. cbn [bind]. eexists _, _. split; [reflexivity|]. apply KEEP; auto.
Qed.

Lemma life_runs : forall (os : list (lop H)), Forall harmless os -> exists s tr, l_run l_new os = Ok (s, tr) /\ FibI s /\ length tr = length os.
Proof.
  induction os as [|o os IH] using rev_ind; intros HA.
  - exists l_new, []. split; auto. split; auto. exists [], []. split; [reflexivity|]. intros nm [].
  - apply Forall_app in HA. destruct HA as [HA HO]. inversion HO as [|? ? HO1 _]. destruct (IH HA) as (s & tr & R & FB & LE). rewrite l_run_snoc, R. cbn [bind fst snd].
    destruct (eng_face _ _ _ R) as [EI _]. destruct (life_step_ok os s o EI FB HO1) as (s' & r & -> & FB'). cbn [bind fst snd]. exists s', (tr ++ [r]). rewrite !app_length, LE. auto.
Qed.

(** an Interest is called back whatever happened to the face *)
Lemma life_called : forall (os : list (lop H)) i x s tr, l_run l_new os = Ok (s, tr) -> nth_error (l_expressed 0 os) i = Some x -> (x_deadline x + 10000000 <= l_elapsed os)%Z ->
  exists s' tr', l_run l_new (os ++ [LFire i; LRun i]) = Ok (s', tr') /\ In i (called (n_eng (lf_node s'))).
Proof.
  intros os i x s tr R X D. destruct (eng_face _ _ _ R) as [(es & ER & EL & EX) _]. rewrite <- EX in X. rewrite <- EL in D.
  destruct (due_called es i x X D) as (g & G & IN). rewrite e_run_app, ER in G. cbn [bind e_run] in G. destruct (e_step (n_eng (lf_node s)) (EFire i)) as [g1| | |] eqn:E1; try discriminate. cbn [bind] in G.
  destruct (e_step g1 (ERun i)) as [g2| | |] eqn:E2; try discriminate. cbn [bind] in G. injection G as <-.
  rewrite l_run_app, R. cbn [bind fst snd LifeModel.l_run LifeModel.l_step]. unfold eng_step. rewrite E1. cbn [bind fst lf_node n_eng]. rewrite E2. cbn [bind fst snd]. eexists _, _. split; [reflexivity|exact IN].
Qed.

Lemma other_step_log : forall g o g', (forall nm dg, o <> EData nm dg) -> e_step g o = Ok g' -> exists new, callbacks g' = callbacks g ++ new /\ forall i, ~ In (i, RData) new.
Proof.
  assert (NONE : forall g : engine, exists new, callbacks g = callbacks g ++ new /\ forall i, ~ In (i, RData) new) by (intros g; exists []; rewrite app_nil_r; auto).
  intros g o g' ND. destruct o as [nm cbp lt|nm dg|nm r|d|id|id]; cbn [e_step]; unfold callbacks.
  - destruct (e_express g nm cbp lt) as [[g1|]| | |] eqn:E; try discriminate; cbn [bind]; intros Q; injection Q as <-; [|apply NONE].
    unfold e_express in E. destruct (split_digest nm) as [[? ?]|]; try discriminate. destruct (t_always _ _ _); try discriminate; cbn [bind] in E. destruct (TrieModel.value _ _); try discriminate; cbn [bind] in E. destruct (set_value _ _ _); try discriminate. cbn [bind] in E. injection E as <-. cbn [g_log]. apply (NONE g).
  - exfalso. eapply ND; eauto.
  - unfold e_nack. destruct (t_exact _ _) as [[n|]| | |]; try discriminate; cbn [bind]; [|intros Q; injection Q as <-; apply NONE].
    destruct (TrieModel.value _ _) as [l| | |]; try discriminate; cbn [bind]. destruct (t_delete _ _); try discriminate. cbn [bind]. intros Q. injection Q as <-. cbn [g_log]. eexists. split; [reflexivity|].
    intros i IN. apply in_map_iff in IN. destruct IN as (y & Y & _). discriminate.
  - intros Q. injection Q as <-. apply (NONE g).
  - destruct (find _ _) as [t|]; [|intros Q; injection Q as <-; apply NONE]. destruct (tm_due t <=? g_now g)%Z; intros Q; injection Q as <-; [apply (NONE g)|apply NONE].
  - destruct (find _ _) as [t|]; [|intros Q; injection Q as <-; apply NONE]. unfold e_timeout. cbn [g_pit g_now g_armed g_flight g_next g_log].
    destruct (TrieModel.value _ _) as [l| | |]; try discriminate; cbn [bind]. destruct (set_value _ _ _); try discriminate; cbn [bind]. destruct (t_delete_if _ _ _); try discriminate. cbn [bind]. intros Q. injection Q as <-. cbn [g_log]. eexists. split; [reflexivity|].
    intros i IN. apply in_map_iff in IN. destruct IN as (y & Y & _). discriminate.
Qed.

Lemma life_data_cause : forall (os : list (lop H)) s tr i, l_run l_new os = Ok (s, tr) -> In (i, RData) (callbacks (n_eng (lf_node s))) ->
  exists os1 b os2 d cov raw tok x, os = os1 ++ LFeed b :: os2 /\ up os1 = true /\ on_packet sha (S (length b)) (new_buffer_reader b) = Ok (EvData d cov raw tok)
    /\ nth_error (l_expressed 0 os1) i = Some x /\ matches (x_cbp x) (the_name (d_name d)) (sha (concat raw)) (x_name x).
Proof.
  induction os as [|o os IH] using rev_ind; intros s tr i.
  - intros E. injection E as <- _. intros [].
  - rewrite l_run_snoc. destruct (l_run l_new os) as [[s0 tr0]| | |] eqn:R0; try discriminate. cbn [bind fst snd]. destruct (l_step s0 o) as [[s1 r]| | |] eqn:E; try discriminate. cbn [bind fst snd]. intros Q. injection Q as <- _. intros IN.
    assert (OLD : In (i, RData) (callbacks (n_eng (lf_node s0))) -> exists os1 b os2 d cov raw tok x, os ++ [o] = os1 ++ LFeed b :: os2 /\ up os1 = true /\ on_packet sha (S (length b)) (new_buffer_reader b) = Ok (EvData d cov raw tok)
       /\ nth_error (l_expressed 0 os1) i = Some x /\ matches (x_cbp x) (the_name (d_name d)) (sha (concat raw)) (x_name x)).
    { intros IN0. destruct (IH s0 tr0 i eq_refl IN0) as (os1 & b & os2 & d & cov & raw & tok & x & -> & K). exists os1, b, (os2 ++ [o]), d, cov, raw, tok, x. rewrite <- app_assoc. auto. }
    destruct (eng_face _ _ _ R0) as [(es & ER & EL & EX) (U & _)].
    destruct (step_eng _ _ _ _ E) as [(A & _)|(eo & A & _ & _ & DATA)]; [rewrite A in IN; exact (OLD IN)|].
    destruct eo as [nm cbp lt|nm dg|nm q|d|id|id].
    2:{ destruct (DATA nm dg eq_refl) as (b & d & cov & raw & tok & -> & RU & OP & -> & ->). cbn [e_step] in A.
        destruct (data_step es _ (the_name (d_name d)) (sha (concat raw)) ER) as (g' & new & E1 & CB & SND & _). rewrite A in E1. injection E1 as <-. rewrite CB in IN. apply in_app_or in IN. destruct IN as [IN|IN]; [exact (OLD IN)|].
        apply in_map_iff in IN. destruct IN as (j & J & JN). injection J as ->. destruct (SND i JN) as (x & X & MX). rewrite EX in X. exists os, b, [], d, cov, raw, tok, x. split; auto. split; [congruence|]. auto. }
    all: match type of A with e_step _ ?o = _ => destruct (other_step_log _ o _ (fun nm dg K => ltac:(discriminate K)) A) as (new & CB & NO) end; rewrite CB in IN; apply in_app_or in IN; destruct IN as [IN|IN]; [exact (OLD IN)|destruct (NO i IN)].
Qed.

(** ** The packets that leave *)
Lemma sent_app : forall a b : list (lout H), sent (a ++ b) = sent a ++ sent b.
Proof. induction a as [|x a IH]; intros b; cbn [app sent]; auto. destruct x as [| |[|y w]| |]; cbn [app]; rewrite ?IH; auto. Qed.
Lemma taken_app : forall a b : list (lout H), taken (a ++ b) = taken a ++ taken b.
Proof. induction a as [|x a IH]; intros b; cbn [app taken]; auto. destruct x; cbn [app]; rewrite ?IH; auto. Qed.

Lemma send_pkts : forall (s s' : life H) w r, df_running (lf_face s) = true -> send_out s w = (s', r) -> df_pkts (lf_face s') = df_pkts (lf_face s) ++ sent [r] /\ taken [r] = [] /\ df_running (lf_face s') = true.
Proof.
  intros s s' w r R. unfold send_out. cbn [df_step]. rewrite R. cbn [negb]. destruct w as [|b [|b' w]]; cbn [is_dnil]; intros E; injection E as <- <-; cbn [lf_face df_pkts sent taken df_running concat]; rewrite ?app_nil_r; auto.
  rewrite fold_app_concat. cbn [app concat]. rewrite <- app_assoc. auto.
Qed.

Lemma step_pkts : forall (s s' : life H) o r, df_running (lf_face s) = true -> o <> LShutdown -> l_step s o = Ok (s', r) ->
  taken [r] ++ df_pkts (lf_face s') = df_pkts (lf_face s) ++ sent [r] /\ df_running (lf_face s') = true.
Proof.
  intros s s' o r R NS. destruct o as [| |nm cbp lt w|nm h|nm|b| |k data|d|id|id]; cbn [LifeModel.l_step].
  - rewrite R. intros E. injection E as <- <-. cbn [sent taken app]. rewrite app_nil_r. auto.
  - congruence.
  - destruct (e_express _ _ _ _) as [[g|]| | |]; try discriminate; cbn [bind]; intros Q.
    + injection Q as Q. destruct (send_pkts (mkLife (lf_face s) (mkNode g (n_fib (lf_node s))) (lf_calls s)) _ _ _ R Q) as (A & B & C). cbn [lf_face] in A. rewrite A, B. auto.
    + injection Q as <- <-. cbn [sent taken app]. rewrite app_nil_r. auto.
  - destruct (f_attach _ _ _) as [q| | |]; try discriminate. cbn [bind]. intros E. injection E as <- <-. destruct (snd q); cbn [ok_or_err sent taken app lf_face]; rewrite app_nil_r; auto.
  - destruct (f_detach _ _) as [q| | |]; try discriminate. cbn [bind]. intros E. injection E as <- <-. destruct (snd q); cbn [ok_or_err sent taken app lf_face]; rewrite app_nil_r; auto.
  - rewrite R. destruct (node_recv _ _ _ _) as [[nd out]| | |]; try discriminate. cbn [bind fst snd]. destruct out as [[h a]|]; intros E; injection E as <- <-; cbn [sent taken app lf_face]; rewrite app_nil_r; auto.
  - cbn [df_step]. rewrite R. cbn [negb]. destruct (df_pkts (lf_face s)) as [|b l] eqn:P; intros E; injection E as <- <-; cbn [sent taken app lf_face df_pkts df_running]; rewrite ?P, ?app_nil_r; auto.
  - destruct (nth_error (lf_calls s) k) as [[h a]|]; [|intros E; injection E as <- <-; cbn [sent taken app]; rewrite app_nil_r; auto].
    destruct (reply _ _ _ _) as [q| | |]; try discriminate. cbn [bind]. intros E. injection E as E.
    destruct q as [w| |]; [|injection E as <- <-; cbn [sent taken app]; rewrite app_nil_r; auto|injection E as <- <-; cbn [sent taken app]; rewrite app_nil_r; auto].
    destruct (send_pkts _ _ _ _ R E) as (A & B & C). rewrite A, B. auto.
  - unfold eng_step. destruct (e_step _ _) as [g| | |]; try discriminate. cbn [bind]. intros Q. injection Q as <- <-. cbn [sent taken app lf_face]. rewrite app_nil_r. auto.
  - unfold eng_step. destruct (e_step _ _) as [g| | |]; try discriminate. cbn [bind]. intros Q. injection Q as <- <-. cbn [sent taken app lf_face]. rewrite app_nil_r. auto.
  - unfold eng_step. destruct (e_step _ _) as [g| | |]; try discriminate. cbn [bind]. intros Q. injection Q as <- <-. cbn [sent taken app lf_face]. rewrite app_nil_r. auto.
Qed.

Lemma life_fifo : forall os (s s' : life H) tr, df_running (lf_face s) = true -> df_pkts (lf_face s) = [] -> ~ In LShutdown os -> l_run s os = Ok (s', tr) ->
  sent tr = taken tr ++ df_pkts (lf_face s') /\ df_running (lf_face s') = true.
Proof.
  induction os as [|o os IH] using rev_ind; intros s s' tr R P NS.
  - intros E. injection E as <- <-. cbn [sent taken app]. auto.
  - rewrite l_run_snoc. destruct (l_run s os) as [[s0 tr0]| | |] eqn:R0; try discriminate. cbn [bind fst snd]. destruct (l_step s0 o) as [[s1 r]| | |] eqn:E; try discriminate. cbn [bind fst snd]. intros Q. injection Q as <- <-.
    assert (NS0 : ~ In LShutdown os) by (intros K; apply NS, in_or_app; auto). assert (NO : o <> LShutdown) by (intros ->; apply NS, in_or_app; right; left; auto).
    destruct (IH s s0 tr0 R P NS0 R0) as (A & B). destruct (step_pkts _ _ _ _ B NO E) as (C & D). rewrite sent_app, taken_app, A, <- !app_assoc, <- C. auto.
Qed.

Lemma start_ok : forall os (s : life H) tr, l_run l_new os = Ok (s, tr) -> up os = false -> exists s', l_step s LStart = Ok (s', LNil) /\ df_running (lf_face s') = true /\ df_pkts (lf_face s') = [] /\ lf_node s' = lf_node s /\ lf_calls s' = lf_calls s.
Proof.
  intros os s tr R U. destruct (eng_face _ _ _ R) as [_ (A & _)]. rewrite U in A. cbn [LifeModel.l_step]. rewrite A. cbn [df_step fst df_callback df_running negb]. rewrite A. eexists. split; [reflexivity|]. auto.
Qed.

(** ** Calls of handlers and replies *)
Lemma calls_app : forall a b : list (lout H), calls (a ++ b) = calls a ++ calls b.
Proof. induction a as [|x a IH]; intros b; cbn [app calls]; auto. destruct x; cbn [app]; rewrite ?IH; auto. Qed.

Lemma send_nocall : forall (s s' : life H) w r, send_out s w = (s', r) -> calls [r] = [].
Proof. intros s s' w r. unfold send_out. destruct (df_step _ _) as [f q]. intros E. injection E as _ <-. destruct (is_dnil q); reflexivity. Qed.

Lemma step_calls : forall (s s' : life H) o r, l_step s o = Ok (s', r) -> lf_calls s' = lf_calls s ++ calls [r].
Proof.
  intros s s' o r. destruct o as [| |nm cbp lt w|nm h|nm|b| |k data|d|id|id]; cbn [LifeModel.l_step].
  - destruct (df_running (lf_face s)); [intros E; injection E as <- <-; cbn [calls]; rewrite app_nil_r; auto|]. destruct (df_step _ DOpen) as [f2 q]. intros E. injection E as <- <-. destruct (is_dnil q); cbn [ok_or_err calls lf_calls]; rewrite app_nil_r; auto.
  - destruct (df_running (lf_face s)); cbn [negb]; [|intros E; injection E as <- <-; cbn [calls]; rewrite app_nil_r; auto]. destruct (df_step _ DClose) as [f2 q]. intros E. injection E as <- <-. destruct (is_dnil q); cbn [ok_or_err calls lf_calls]; rewrite app_nil_r; auto.
  - destruct (e_express _ _ _ _) as [[g|]| | |]; try discriminate; cbn [bind]; intros Q.
    + injection Q as Q. pose proof (send_face (mkLife (lf_face s) (mkNode g (n_fib (lf_node s))) (lf_calls s)) w) as (_ & _ & _ & S4). rewrite Q in S4. cbn [fst lf_calls] in S4. rewrite S4, (send_nocall _ _ _ _ Q), app_nil_r. auto.
    + injection Q as <- <-. cbn [calls]. rewrite app_nil_r. auto.
  - destruct (f_attach _ _ _) as [q| | |]; try discriminate. cbn [bind]. intros E. injection E as <- <-. destruct (snd q); cbn [ok_or_err calls lf_calls]; rewrite app_nil_r; auto.
  - destruct (f_detach _ _) as [q| | |]; try discriminate. cbn [bind]. intros E. injection E as <- <-. destruct (snd q); cbn [ok_or_err calls lf_calls]; rewrite app_nil_r; auto.
  - destruct (df_running (lf_face s)); [|intros E; injection E as <- <-; cbn [calls]; rewrite app_nil_r; auto].
    destruct (node_recv _ _ _ _) as [[nd out]| | |]; try discriminate. cbn [bind fst snd]. destruct out as [[h a]|]; intros E; injection E as <- <-; cbn [calls lf_calls]; rewrite ?app_nil_r; auto.
  - destruct (df_step (lf_face s) DConsume) as [f q]. intros E. injection E as <- <-. destruct q; cbn [calls lf_calls]; rewrite app_nil_r; auto.
  - destruct (nth_error (lf_calls s) k) as [[h a]|]; [|intros E; injection E as <- <-; cbn [calls]; rewrite app_nil_r; auto].
    destruct (reply _ _ _ _) as [q| | |]; try discriminate. cbn [bind]. intros E. injection E as E.
    destruct q as [w| |]; [|injection E as <- <-; cbn [calls]; rewrite app_nil_r; auto|injection E as <- <-; cbn [calls]; rewrite app_nil_r; auto].
    pose proof (send_face s w) as (_ & _ & _ & S4). rewrite E in S4. cbn [fst] in S4. rewrite S4, (send_nocall _ _ _ _ E), app_nil_r. auto.
  - unfold eng_step. destruct (e_step _ _) as [g| | |]; try discriminate. cbn [bind]. intros Q. injection Q as <- <-. cbn [calls lf_calls]. rewrite app_nil_r. auto.
  - unfold eng_step. destruct (e_step _ _) as [g| | |]; try discriminate. cbn [bind]. intros Q. injection Q as <- <-. cbn [calls lf_calls]. rewrite app_nil_r. auto.
  - unfold eng_step. destruct (e_step _ _) as [g| | |]; try discriminate. cbn [bind]. intros Q. injection Q as <- <-. cbn [calls lf_calls]. rewrite app_nil_r. auto.
Qed.

Lemma life_calls : forall os (s : life H) tr, l_run l_new os = Ok (s, tr) -> lf_calls s = calls tr.
Proof.
  induction os as [|o os IH] using rev_ind; intros s tr.
  - intros E. injection E as <- <-. reflexivity.
  - rewrite l_run_snoc. destruct (l_run l_new os) as [[s0 tr0]| | |]; try discriminate. cbn [bind fst snd]. destruct (l_step s0 o) as [[s1 r]| | |] eqn:E; try discriminate. cbn [bind fst snd]. intros Q. injection Q as <- <-.
    rewrite (step_calls _ _ _ _ E), (IH s0 tr0 eq_refl), calls_app. reflexivity.
Qed.

Lemma life_now : forall os (s : life H) tr, l_run l_new os = Ok (s, tr) -> g_now (n_eng (lf_node s)) = l_elapsed os.
Proof.
  intros os s tr R. destruct (eng_face _ _ _ R) as [(es & ER & EL & _) _]. destruct (reach es) as (g & G & _ & NW). rewrite ER in G. injection G as <-. congruence.
Qed.

Lemma life_reply : forall os (s : life H) tr k h a data, l_run l_new os = Ok (s, tr) -> nth_error (calls tr) k = Some (h, a) ->
  if up os && (l_elapsed os <=? ia_deadline a)%Z
  then exists s' w, l_step s (LReply k data) = Ok (s', LSent w)
       /\ concat w = match ia_token a with Some t => lp_packet (token_only t) (option_map (@concat N) data) | None => match data with Some d => concat d | None => [] end end
  else l_step s (LReply k data) = Ok (s, LErr).
Proof.
  intros os s tr k h a data R K. rewrite <- (life_calls _ _ _ R) in K. destruct (eng_face _ _ _ R) as [_ (U & _)]. cbn [LifeModel.l_step]. rewrite K, (life_now _ _ _ R), U.
  destruct (Z.leb_spec (l_elapsed os) (ia_deadline a)) as [L|L].
  2:{ rewrite andb_false_r, (reply_late a _ (up os) data L). reflexivity. }
  rewrite andb_true_r. destruct (up os) eqn:UP; [|rewrite (reply_down a _ data L); reflexivity].
  assert (SEND : forall w, exists s', send_out s w = (s', LSent w)) by (intros w; unfold send_out; cbn [df_step]; rewrite U; cbn [negb]; destruct w as [|b [|b' w]]; cbn [is_dnil]; eauto).
  destruct (ia_token a) as [t|] eqn:T.
  - destruct (reply_token a _ data t L T) as (w & W & C). rewrite W. cbn [bind]. destruct (SEND w) as (s' & ->). exists s', w. auto.
  - destruct data as [d|].
    + rewrite (reply_bare a _ d L T). cbn [bind]. destruct (SEND d) as (s' & ->). exists s', d. auto.
    + unfold reply. destruct (Z.ltb_spec (ia_deadline a) (l_elapsed os)); [lia|]. cbn [negb]. rewrite T. cbn [bind]. destruct (SEND []) as (s' & ->). exists s', []. auto.
Qed.

(** what a table holds was attached *)
Lemma hist_attached : forall (fos : list (fop H)) t rs t' , fib_hist t fos rs t' -> forall q h, t' q = Some h -> t q = Some h \/ exists nm, In (FAttach nm (Some h)) fos /\ keys nm = q.
Proof.
  induction 1 as [t|t o r t1 os rs t2 S1 HH IH]; intros q h Q; auto. destruct (IH q h Q) as [Q1|(nm & IN & K)]; [|right; exists nm; split; auto; right; auto].
  inversion S1; subst.
  - destruct (list_eq_dec (list_eq_dec N.eq_dec) q (keys nm)) as [->|NE]; [rewrite H1 in Q1; injection Q1 as ->; right; exists nm; split; auto; left; auto|rewrite (H2 q NE) in Q1; auto].
  - rewrite (H2 q) in Q1. auto.
  - destruct (prefix_dec (keys nm) q) as [P|P]; [rewrite (H3 q P) in Q1; discriminate|rewrite (H4 q P) in Q1; auto].
  - rewrite (H2 q) in Q1. auto.
  - destruct q as [|x q]; [rewrite H0 in Q1; auto|rewrite (H1 (x :: q)) in Q1 by discriminate; discriminate].
  - rewrite (H3 q) in Q1. auto.
  - rewrite (H1 q) in Q1. auto.
Qed.

Lemma step_fib : forall (s s' : life H) o r, l_step s o = Ok (s', r) -> n_fib (lf_node s') = n_fib (lf_node s)
  \/ exists fo x, f_step (n_fib (lf_node s)) fo = Ok (n_fib (lf_node s'), x) /\ ((exists nm h, fo = FAttach nm h /\ o = LAttach nm h) \/ exists nm, fo = FDetach nm).
Proof.
  intros s s' o r. destruct o as [| |nm cbp lt w|nm h|nm|b| |k data|d|id|id]; cbn [LifeModel.l_step].
  - destruct (df_running (lf_face s)); [intros E; injection E as <- _; auto|]. destruct (df_step _ DOpen) as [f2 q]. intros E. injection E as <- _. auto.
  - destruct (df_running (lf_face s)); cbn [negb]; [|intros E; injection E as <- _; auto]. destruct (df_step _ DClose) as [f2 q]. intros E. injection E as <- _. auto.
  - destruct (e_express _ _ _ _) as [[g|]| | |]; try discriminate; cbn [bind]; intros Q.
    + injection Q as Q. pose proof (send_face (mkLife (lf_face s) (mkNode g (n_fib (lf_node s))) (lf_calls s)) w) as (_ & _ & S3 & _). rewrite Q in S3. cbn [fst lf_node] in S3. rewrite S3. auto.
    + injection Q as <- _. auto.
  - destruct (f_attach _ _ _) as [q| | |] eqn:F; try discriminate. cbn [bind]. intros E. injection E as <- _. right. exists (FAttach nm h). cbn [f_step]. rewrite F. cbn [bind lf_node n_fib]. eexists. split; [reflexivity|]. left. eauto.
  - destruct (f_detach _ _) as [q| | |] eqn:F; try discriminate. cbn [bind]. intros E. injection E as <- _. right. exists (FDetach nm). cbn [f_step]. rewrite F. cbn [bind lf_node n_fib]. eexists. split; [reflexivity|]. right. eauto.
  - destruct (df_running (lf_face s)); [|intros E; injection E as <- _; auto].
    destruct (node_recv _ _ _ _) as [[nd out]| | |] eqn:NR; try discriminate. cbn [bind fst snd]. intros E. destruct (recv_es _ _ _ _ _ NR) as (Q & _). destruct out as [[h a]|]; injection E as <- _; cbn [lf_node]; auto.
  - destruct (df_step (lf_face s) DConsume) as [f q]. intros E. injection E as <- _. auto.
  - destruct (nth_error (lf_calls s) k) as [[h a]|]; [|intros E; injection E as <- _; auto].
    destruct (reply _ _ _ _) as [q| | |]; try discriminate. cbn [bind]. intros E. injection E as E.
    destruct q as [w| |]; [|injection E as <- _; auto|injection E as <- _; auto]. pose proof (send_face s w) as (_ & _ & S3 & _). rewrite E in S3. cbn [fst] in S3. rewrite S3. auto.
  - unfold eng_step. destruct (e_step _ _) as [g| | |]; try discriminate. cbn [bind]. intros Q. injection Q as <- _. auto.
  - unfold eng_step. destruct (e_step _ _) as [g| | |]; try discriminate. cbn [bind]. intros Q. injection Q as <- _. auto.
  - unfold eng_step. destruct (e_step _ _) as [g| | |]; try discriminate. cbn [bind]. intros Q. injection Q as <- _. auto.
Qed.

Lemma life_fib : forall os (s : life H) tr, l_run l_new os = Ok (s, tr) -> Forall harmless os ->
  exists fos rs, f_run fib_new fos = Ok (n_fib (lf_node s), rs) /\ no_nil_handler fos /\ (forall nm h, In (FAttach nm h) fos -> In (LAttach nm h) os).
Proof.
  induction os as [|o os IH] using rev_ind; intros s tr.
  - intros E _. injection E as <- _. exists [], []. split; [reflexivity|]. split; [intros nm []|intros nm h []].
  - rewrite l_run_snoc. destruct (l_run l_new os) as [[s0 tr0]| | |]; try discriminate. cbn [bind fst snd]. destruct (l_step s0 o) as [[s1 r]| | |] eqn:E; try discriminate. cbn [bind fst snd]. intros Q HA. injection Q as <- _.
    apply Forall_app in HA. destruct HA as [HA HO]. inversion HO as [|? ? HO1 _]. destruct (IH s0 tr0 eq_refl HA) as (fos & rs & FR & NN & AT).
    destruct (step_fib _ _ _ _ E) as [K|(fo & y & K & J)].
    + exists fos, rs. rewrite K. split; auto. split; auto. intros nm h IN. apply in_or_app. left. auto.
    + exists (fos ++ [fo]), (rs ++ [y]). split; [exact (fib_snoc _ _ _ _ _ _ _ FR K)|]. split.
      * intros nm IN. apply in_app_or in IN. destruct IN as [IN|[IN|[]]]; [exact (NN nm IN)|]. destruct J as [(nm' & h & -> & ->)|(nm' & ->)]; [|discriminate]. injection IN as -> ->. exact HO1.
      * intros nm h IN. apply in_or_app. apply in_app_or in IN. destruct IN as [IN|[IN|[]]]; [left; auto|]. right. destruct J as [(nm' & h' & -> & ->)|(nm' & ->)]; [|discriminate]. injection IN as -> ->. left. reflexivity.
Qed.

(** handlers are called while up, with an Interest below the prefix they were attached to *)
Lemma life_handler : forall os (s s' : life H) tr b h a, l_run l_new os = Ok (s, tr) -> Forall harmless os -> l_step s (LFeed b) = Ok (s', LCall h a) ->
  up os = true /\ exists nm raw, In (LAttach nm (Some h)) os /\ prefix (keys nm) (keys (the_name (i_name (ia_int a))))
    /\ on_packet sha (S (length b)) (new_buffer_reader b) = Ok (EvInterest (ia_int a) raw (ia_cov a) (ia_token a) (ia_face a)) /\ raw = ia_raw a
    /\ ia_deadline a = (l_elapsed os + match i_lifetime (ia_int a) with Some l => l | None => 4000000000 end)%Z.
Proof.
  intros os s s' tr b h a R HA. destruct (eng_face _ _ _ R) as [_ (U & _)]. cbn [LifeModel.l_step]. rewrite U. destruct (up os); [|discriminate].
  destruct (node_recv _ _ _ _) as [[nd out]| | |] eqn:NR; try discriminate. cbn [bind fst snd]. destruct out as [[h' a']|]; [|discriminate]. intros E. injection E as _ -> ->. split; auto.
  unfold node_recv in NR. destruct (on_packet sha (S (length b)) (new_buffer_reader b)) as [ev| | |]; try discriminate. cbn [bind] in NR.
  destruct ev as [|n r|i raw cov tok face|d cov raw tok]; cbn [node_event] in NR; try discriminate.
  { destruct (e_nack _ _ _); discriminate. } 2:{ destruct (e_data _ _ _); discriminate. }
  destruct (life_fib _ _ _ R HA) as (fos & rs & FR & NN & AT). destruct (fib_run_ok H fos fib_new (fib_new_inv H) NN) as (fb' & rs' & E' & FI & HI). rewrite FR in E'. injection E' as <- <-.
  destruct (match_ok H (n_fib (lf_node s)) (the_name (i_name i)) FI) as (v & MV & SP). rewrite MV in NR. cbn [bind] in NR. destruct v as [h0|]; [|discriminate]. injection NR as _ -> <-. cbn [ia_int ia_raw ia_cov ia_token ia_face ia_deadline].
  inversion SP; subst. match goal with T : tab _ _ ?p = Some h, PR : prefix ?p _ |- _ => destruct (hist_attached _ _ _ _ HI p h T) as [K|(nm & IN & <-)]; [|exists nm, raw; split; [apply AT; exact IN|]; split; [exact PR|]] end.
  - exfalso. unfold tab, fib_new in K. rewrite new_abs in K. unfold a_new in K. match type of K with context [match ?p with _ => _ end] => destruct p; discriminate end.
  - split; auto. split; auto. unfold deadline_of. rewrite (life_now _ _ _ R). reflexivity.
Qed.
End P.
