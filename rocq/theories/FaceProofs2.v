From Verif Require Import Base FaceModel FaceSpec FaceProofs.

(** a connection is stored only while nobody is in the middle of a packet *)
Definition calm (ls : list label) : Prop := forall ls1 ls2 s t o c i, ls = ls1 ++ LStep t o :: ls2 -> f_run face_new ls1 = Ok s ->
  nth_error (f_threads s) t = Some (mkTh c (OpnStore i)) -> ~ writing s.

Lemma writing_sending : forall s, writing s -> sending s.
Proof.
  intros s (i & pkt & rest & H). unfold sv in H. destruct (nth_error (f_threads s) i) as [[[[pkt'| |]|] p]|] eqn:T; try discriminate. injection H as -> ->.
  exists i, pkt, (SndWrite rest). split; [exact T|discriminate].
Qed.
Lemma separate_calm : forall ls, separate ls -> calm ls.
Proof.
  intros ls S ls1 ls2 s t o c i EQ R T W. apply (S ls1 (LStep t o :: ls2) s EQ R); [|apply writing_sending; auto].
  pose proof (shapes_run _ _ R _ _ T) as SH. exists t, (OpnStore i). split; [|discriminate]. unfold doing. rewrite T. destruct c as [[pkt| |]|]; cbn in SH; auto; exfalso; tauto.
Qed.

(** *** a single Open *)
Definition is_open (th : thread) : bool := match th_call th with Some COpen => true | _ => false end.
Definition n_open (l : list thread) : nat := length (filter is_open l).
Lemma n_open_app : forall a b, n_open (a ++ b) = (n_open a + n_open b)%nat.
Proof. intros. unfold n_open. rewrite filter_app, app_length. auto. Qed.
Lemma n_open_set : forall l t c p q, nth_error l t = Some (mkTh c p) -> n_open (set_nth l t (mkTh c q)) = n_open l.
Proof.
  unfold n_open. induction l as [|a l IH]; intros [|t] c p q H; cbn in *; try discriminate.
  - injection H as ->. cbn. destruct c as [[| |]|]; reflexivity.
  - specialize (IH t c p q H). destruct (is_open a); cbn; auto.
Qed.
Lemma n_open_unique : forall l i j a b, (n_open l <= 1)%nat -> nth_error l i = Some a -> nth_error l j = Some b -> is_open a = true -> is_open b = true -> i = j.
Proof.
  unfold n_open. induction l as [|x l IH]; intros [|i] [|j] a b N A B OA OB; cbn in *; try discriminate; auto.
  - injection A as ->. rewrite OA in N. cbn in N. exfalso. apply nth_error_In in B. assert (IN : In b (filter is_open l)) by (apply filter_In; auto). destruct (filter is_open l); cbn in *; [auto|lia].
  - injection B as ->. rewrite OB in N. cbn in N. exfalso. apply nth_error_In in A. assert (IN : In a (filter is_open l)) by (apply filter_In; auto). destruct (filter is_open l); cbn in *; [auto|lia].
  - f_equal. destruct (is_open x); cbn in N; [|eapply IH; eauto; lia]. eapply IH; eauto. lia.
Qed.

Lemma threads_step : forall s l s', f_step s l = Ok s' -> n_open (f_threads s') = (n_open (f_threads s) + opens [l])%nat.
Proof.
  intros s l s' E. destruct l as [|c|t o]; cbn [f_step] in E.
  - injection E as <-. cbn [f_threads opens]. lia.
  - injection E as <-. cbn [f_threads with_thread]. rewrite n_open_app. destruct c; reflexivity.
  - cbn [opens]. destruct (nth_error (f_threads s) t) as [[c p]|] eqn:TH; [|injection E as <-; lia]. cbn [th_call th_pc] in E.
    assert (K : forall q, n_open (set_nth (f_threads s) t (mkTh c q)) = n_open (f_threads s)) by (intros; eapply n_open_set; eauto).
    destruct p; split_step E; cbn [f_threads with_thread at_pc with_conn with_conns with_lock with_running]; rewrite ?n_open_app, ?K; change (n_open [mkTh None RunStart]) with O; lia.
Qed.
Lemma opens_app : forall a b, opens (a ++ b) = (opens a + opens b)%nat.
Proof. induction a as [|[|[| |]|] a IH]; intros b; cbn; auto. Qed.
Lemma n_open_run : forall ls s, f_run face_new ls = Ok s -> n_open (f_threads s) = opens ls.
Proof.
  induction ls as [|l ls IH] using rev_ind; intros s E; [injection E as <-; reflexivity|]. apply run_snoc in E. destruct E as (s1 & E1 & E2).
  rewrite opens_app, (threads_step _ _ _ E2), (IH _ E1). auto.
Qed.

(** until an Open has set running, no Send gets anywhere *)
Definition idle (s : face) : Prop := f_running s = false /\ forall i th, nth_error (f_threads s) i = Some th ->
  match th_call th with
  | None => False
  | Some (CSend _) => match th_pc th with SndCheck _ | Ret (Some _) => True | _ => False end
  | Some COpen => match th_pc th with OpnGo | Ret None => False | _ => True end
  | Some CClose => True
  end.
Definition opened (s : face) : Prop := exists i p, nth_error (f_threads s) i = Some (mkTh (Some COpen) p) /\ (p = OpnGo \/ p = Ret None).

Lemma idle_step : forall s l s', shapes s -> idle s \/ opened s -> f_step s l = Ok s' -> idle s' \/ opened s'.
Proof.
  intros s l s' SH H E. destruct l as [|c|t o]; cbn [f_step] in E.
  - injection E as <-. exact H.
  - injection E as <-. destruct H as [[R H]|(i & p & T & P)].
    + left. split; [exact R|]. intros i th T. cbn [f_threads with_thread] in T. rewrite nth_app_last in T. destruct (Nat.eqb i (length (f_threads s))); [|exact (H _ _ T)]. injection T as <-. destruct c; exact I.
    + right. exists i, p. split; auto. cbn [f_threads with_thread]. rewrite nth_error_app1; auto. apply nth_error_Some. congruence.
  - destruct (nth_error (f_threads s) t) as [[c p]|] eqn:TH; [|injection E as <-; auto]. cbn [th_call th_pc] in E. pose proof (SH _ _ TH) as S0.
    destruct (step_threads s t o s' _ TH E) as (q & N & _). cbn [th_call th_pc] in N.
    destruct H as [[R H]|(i & p' & T & P)].
    + pose proof (H _ _ TH) as H0. cbn [th_call th_pc] in H0.
      assert (RULE : match c with Some COpen => match q with OpnGo | Ret None => True | _ => False end | _ => False end \/ (f_running s' = false /\ match c with Some (CSend _) => match q with SndCheck _ | Ret (Some _) => True | _ => False end
          | Some COpen => match q with OpnGo | Ret None => False | _ => True end | None => False | _ => True end)).
      { pose proof (N t) as NT. rewrite Nat.eqb_refl in NT. clear N.
        destruct c as [[pkt| |]|]; [| | |contradiction]; destruct p; try (exfalso; unfold shape in S0; cbn in S0; tauto);
        try (rewrite R in E);
        split_step E; cbn [f_threads with_thread at_pc with_conn with_conns with_lock with_running f_running] in *;
        try (rewrite (set_nth_same _ _ _ _ TH) in NT; injection NT as <-);
        try (rewrite TH in NT; injection NT as <-); cbn; auto; try contradiction; try discriminate. }
      destruct RULE as [RULE|[R' RULE]].
      * right. destruct c as [[pkt| |]|]; try contradiction. exists t, q. split; [rewrite N, Nat.eqb_refl; auto|]. destruct q as [| | | | | | | | | | | | | | | | | | |[e|]]; try contradiction; auto.
      * left. split; auto. intros j th T. rewrite N in T. destruct (Nat.eqb_spec j t) as [->|NE].
        -- injection T as <-. cbn [th_call th_pc]. destruct c as [[pkt| |]|]; auto.
        -- destruct (match p with OpnGo => true | _ => false end && Nat.eqb j (length (f_threads s))) eqn:B; [|exact (H _ _ T)].
           exfalso. destruct p; try discriminate. destruct c as [[pkt| |]|]; cbn in *; tauto.
    + right. destruct (Nat.eq_dec i t) as [->|NE].
      * rewrite TH in T. injection T as -> ->. destruct P as [-> | ->].
        -- exists t, q. split; [rewrite N, Nat.eqb_refl; auto|]. right. pose proof (N t) as NT. rewrite Nat.eqb_refl in NT. cbn [t_step] in E. injection E as <-.
           cbn [f_threads with_thread at_pc] in NT. rewrite nth_error_app1, (set_nth_same _ _ _ _ TH) in NT by (rewrite set_nth_length; apply nth_error_Some; congruence). congruence.
        -- cbn [t_step] in E. injection E as <-. exists t, (Ret None). auto.
      * exists i, p'. split; auto. rewrite N. destruct (Nat.eqb_spec i t); [contradiction|].
        destruct (match p with OpnGo => true | _ => false end && Nat.eqb i (length (f_threads s))) eqn:B; auto.
        apply Bool.andb_true_iff in B. destruct B as [_ B]. apply Nat.eqb_eq in B. assert (i < length (f_threads s))%nat by (apply nth_error_Some; congruence). lia.
Qed.
Lemma idle_run : forall ls s, f_run face_new ls = Ok s -> idle s \/ opened s.
Proof.
  induction ls as [|l ls IH] using rev_ind; intros s E; [injection E as <-; left; split; [reflexivity|intros [|i] th H; discriminate]|].
  apply run_snoc in E. destruct E as (s1 & E1 & E2). eapply idle_step; eauto. eapply shapes_run; eauto.
Qed.

Lemma single_calm : forall ls, (opens ls <= 1)%nat -> calm ls.
Proof.
  intros ls N ls1 ls2 s t o c i EQ R T W. destruct (idle_run _ _ R) as [[_ H]|(j & p & TJ & P)].
  - destruct W as (j & pkt & rest & V). unfold sv in V. destruct (nth_error (f_threads s) j) as [[[[pkt'| |]|] p]|] eqn:TJ; try discriminate. injection V as -> ->.
    specialize (H _ _ TJ). cbn in H. exact H.
  - pose proof (shapes_run _ _ R _ _ T) as SH. assert (c = Some COpen) by (destruct c as [[pkt| |]|]; cbn in SH; auto; exfalso; tauto). subst c.
    assert (t = j). { eapply n_open_unique; [|exact T|exact TJ|reflexivity|reflexivity]. rewrite (n_open_run _ _ R). rewrite EQ, opens_app in N. lia. }
    subst j. rewrite TJ in T. injection T as ->. destruct P; discriminate.
Qed.

(** ** histories *)
Lemma J_new : JF face_new (fun _ => []) None.
Proof. constructor; cbn; intros; try discriminate; try contradiction; auto. - unfold sv in H. cbn in H. destruct i; discriminate. - unfold sv in H. cbn in H. destruct i; discriminate. - constructor. - destruct c; discriminate. - unfold sv in H. cbn in H. destruct i; discriminate. Qed.

Lemma J_run : forall ls2 ls1 s1 s2 ord cur, calm (ls1 ++ ls2) -> f_run face_new ls1 = Ok s1 -> JF s1 ord cur -> f_run s1 ls2 = Ok s2 ->
  exists ord' cur', JF s2 ord' cur' /\ forall c, exists new, ord' c = ord c ++ new.
Proof.
  induction ls2 as [|l ls2 IH]; intros ls1 s1 s2 ord cur CA R JJ E.
  - injection E as <-. exists ord, cur. split; auto. intros c. exists []. rewrite app_nil_r. auto.
  - cbn [f_run] in E. destruct (f_step s1 l) as [s3| | |] eqn:ST; cbn [bind] in E; try discriminate.
    destruct (J_step s1 l s3 ord cur (shapes_run _ _ R) JJ ST) as (ord1 & cur1 & J1 & N1).
    { intros t o c i -> T. exact (CA ls1 ls2 s1 t o c i eq_refl R T). }
    destruct (IH (ls1 ++ [l]) s3 s2 ord1 cur1) as (ord2 & cur2 & J2 & N2); auto.
    + rewrite <- app_assoc. exact CA.
    + rewrite f_run_app, R. cbn [bind f_run]. rewrite ST. auto.
    + exists ord2, cur2. split; auto. intros c. destruct (N1 c) as (a & A), (N2 c) as (b & B). exists (a ++ b). rewrite B, A, app_assoc. auto.
Qed.

Lemma bytes_packet : forall s i, bytes_of (sv s) i = packet s i.
Proof. intros. unfold bytes_of, sv, packet. destruct (nth_error (f_threads s) i) as [[[[pkt| |]|] p]|]; auto. Qed.
Lemma sv_sends : forall s i pkt p, sv s i = Some (pkt, p) <-> doing s i (Some (CSend pkt)) p.
Proof.
  intros. unfold sv, doing. destruct (nth_error (f_threads s) i) as [[[[q| |]|] r]|]; split; intros H; try discriminate; inversion H; auto.
Qed.

Lemma threads_grow : forall ls s s', f_run s ls = Ok s' -> (length (f_threads s) <= length (f_threads s'))%nat.
Proof.
  induction ls as [|l ls IH]; intros s s' E; [injection E as <-; auto|]. cbn [f_run] in E. destruct (f_step s l) as [s1| | |] eqn:ST; cbn [bind] in E; try discriminate.
  specialize (IH _ _ E). enough (length (f_threads s) <= length (f_threads s1))%nat by lia. destruct l as [|c|t o]; cbn [f_step] in ST.
  - injection ST as <-. auto.
  - injection ST as <-. cbn [f_threads with_thread]. rewrite app_length. lia.
  - destruct (nth_error (f_threads s) t) as [th|] eqn:TH; [|injection ST as <-; auto]. destruct (step_threads s t o s1 _ TH ST) as (q & _ & ->). lia.
Qed.

Theorem streams : forall ls1 ls2 s1 s2, (opens (ls1 ++ ls2) <= 1)%nat \/ separate (ls1 ++ ls2) -> f_run face_new ls1 = Ok s1 -> f_run s1 ls2 = Ok s2 ->
  exists first later : nat -> list nat,
  (forall c, exists rest, stream s2 c = concat (map (packet s2) (first c ++ later c)) ++ rest /\
     (rest = [] \/ exists i pkt more, sends s2 i pkt /\ ~ returned s2 i None /\ concat pkt = rest ++ more)) /\
  (forall c, NoDup (first c ++ later c)) /\ (forall c c' i, In i (first c ++ later c) -> In i (first c' ++ later c') -> c = c') /\
  (forall c i, In i (first c ++ later c) -> exists pkt, sends s2 i pkt /\ forall e, ~ returned s2 i (Some e)) /\
  (forall i pkt, sends s2 i pkt -> pkt <> [] -> returned s2 i None -> exists c, In i (first c ++ later c)) /\
  (forall i pkt, sends s1 i pkt -> pkt <> [] -> returned s1 i None -> exists c, In i (first c)) /\
  (forall c i, In i (first c) -> (i < length (f_threads s1))%nat).
Proof.
  intros ls1 ls2 s1 s2 H R1 R2. assert (CA : calm (ls1 ++ ls2)) by (destruct H; [apply single_calm|apply separate_calm]; auto).
  assert (CA1 : calm ls1). { intros a b s t o c i EQ R T. apply (CA a (b ++ ls2) s t o c i); auto. rewrite EQ, <- app_assoc. reflexivity. }
  destruct (J_run ls1 [] face_new s1 _ _ CA1 eq_refl J_new R1) as (ord1 & cur1 & J1 & _).
  destruct (J_run ls2 ls1 s1 s2 ord1 cur1 CA R1 J1 R2) as (ord2 & cur2 & J2 & N2).
  exists ord1, (fun c => skipn (length (ord1 c)) (ord2 c)).
  assert (EQ : forall c, ord1 c ++ skipn (length (ord1 c)) (ord2 c) = ord2 c). { intros c. destruct (N2 c) as (new & ->). rewrite skipn_app, Nat.sub_diag, skipn_all. reflexivity. }
  assert (PK : forall l, pk (sv s2) l = concat (map (packet s2) l)). { intros l. unfold pk. f_equal. apply map_ext. intros. apply bytes_packet. }
  destruct J1 as [A1 B1 C1 D1 E1 F1 G1 K1 L1]. destruct J2 as [A B C D E F G K L].
  split; [|split; [|split; [|split; [|split; [|split]]]]].
  - intros c. rewrite EQ. unfold stream. destruct (nth_error (f_conns s2) c) as [x|] eqn:X.
    + assert (CC : cur2 = Some c \/ cur2 <> Some c) by (destruct cur2 as [c2|]; [destruct (Nat.eq_dec c2 c); [left|right]; congruence|right; discriminate]).
      destruct CC as [-> |CC].
      * destruct L as (i & pkt & done & rest & x' & V & P & _ & X' & O & _). assert (x' = x) by congruence. subst x'. exists (concat done). rewrite <- PK. split; auto. right.
        exists i, pkt, (concat rest). apply sv_sends in V. split; [eexists; eauto|]. split; [|rewrite P, concat_app; auto]. intros (c0 & Q). unfold doing in *. congruence.
      * destruct (K c x X CC) as (tail & T1 & T2). exists tail. rewrite <- PK. split; auto. destruct T2 as [T2|(_ & i & pkt & p & more & V & FA & Q)]; auto. right.
        exists i, pkt, more. apply sv_sends in V. split; [eexists; eauto|]. split; auto. intros (c0 & Z). unfold doing in *. destruct FA as (e & FA). rewrite Z in V. injection V as _ <-. destruct FA; discriminate.
    + apply nth_error_None in X. rewrite (G c X). exists []. auto.
  - intros c. rewrite EQ. auto.
  - intros c c' i. rewrite !EQ. apply F.
  - intros c i. rewrite EQ. intros IN. destruct (C c i IN) as (pkt & p & V & FI). exists pkt. apply sv_sends in V. split; [eexists; eauto|]. intros e (c0 & Z). unfold doing in *.
    rewrite Z in V. injection V as _ <-. destruct FI; discriminate.
  - intros i pkt (p & V) NE (c0 & Z). unfold doing in *. rewrite Z in V. injection V as -> <-. destruct (D i pkt (Ret None)) as (c & IN); auto; [apply sv_sends; exact Z|right; auto|]. exists c. rewrite EQ. auto.
  - intros i pkt (p & V) NE (c0 & Z). unfold doing in *. rewrite Z in V. injection V as -> <-. destruct (D1 i pkt (Ret None)) as (c & IN); auto; [apply sv_sends; exact Z|right; auto|]. exists c. auto.
  - intros c i IN. destruct (C1 c i IN) as (pkt & p & V & _). apply sv_sends in V. apply nth_error_Some. unfold doing in V. congruence.
Qed.
