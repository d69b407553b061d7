From Verif Require Import Base FaceModel FaceSpec.

(** ** lists *)
Lemma set_nth_same : forall {A} (l : list A) n x y, nth_error l n = Some y -> nth_error (set_nth l n x) n = Some x.
Proof. induction l as [|a l IH]; intros [|n] x y H; cbn in *; try discriminate; eauto. Qed.
Lemma set_nth_other : forall {A} (l : list A) n m x, m <> n -> nth_error (set_nth l n x) m = nth_error l m.
Proof. induction l as [|a l IH]; intros [|n] [|m] x H; cbn in *; auto; try congruence. Qed.
Lemma set_nth_length : forall {A} (l : list A) n x, length (set_nth l n x) = length l.
Proof. induction l as [|a l IH]; intros [|n] x; cbn; auto. Qed.
Lemma set_nth_nth : forall {A} (l : list A) n m x y, nth_error l n = Some y ->
  nth_error (set_nth l n x) m = if Nat.eqb m n then Some x else nth_error l m.
Proof. intros A l n m x y H. destruct (Nat.eqb_spec m n) as [->|N]; [eapply set_nth_same; eauto|apply set_nth_other; auto]. Qed.
Lemma nth_app_last : forall {A} (l : list A) m x, nth_error (l ++ [x]) m = if Nat.eqb m (length l) then Some x else nth_error l m.
Proof.
  intros A l m x. destruct (Nat.eqb_spec m (length l)) as [->|N]; [rewrite nth_error_app2, Nat.sub_diag by lia; auto|].
  destruct (Nat.lt_ge_cases m (length l)); [apply nth_error_app1; auto|]. rewrite nth_error_app2 by lia. destruct (m - length l)%nat as [|[|k]] eqn:Q; [lia|cbn|cbn]; symmetry; apply nth_error_None; lia.
Qed.

(** ** shapes *)
Definition snd_pc (p : pc) : Prop :=
  match p with SndCheck _ | SndLock _ | SndWrite _ | SndUnlock _ => True | _ => False end.
Definition opn_pc (p : pc) : Prop :=
  match p with OpnCallback | OpnCheck | OpnDial | OpnStore _ | OpnRunning | OpnGo => True | _ => False end.
Definition cls_pc (p : pc) : Prop := match p with ClsCheck | ClsStore | ClsClose => True | _ => False end.
Definition run_pc (p : pc) : Prop := match p with RunStart | RunTest _ | RunRead _ | RunErr | RunStop | RunClear => True | _ => False end.
Definition is_ret (p : pc) : Prop := match p with Ret _ => True | _ => False end.
Definition shape (th : thread) : Prop :=
  match th_call th with
  | Some (CSend pkt) => (snd_pc (th_pc th) \/ is_ret (th_pc th)) /\ match th_pc th with SndCheck q | SndLock q => q = pkt | _ => True end
  | Some COpen => opn_pc (th_pc th) \/ is_ret (th_pc th)
  | Some CClose => cls_pc (th_pc th) \/ is_ret (th_pc th)
  | None => run_pc (th_pc th) \/ is_ret (th_pc th)
  end.
Definition shapes (s : face) : Prop := forall i th, nth_error (f_threads s) i = Some th -> shape th.

(** what a step does to the goroutines: it moves [t], and an Open starts a Run *)
Lemma step_threads : forall s t o s' th, nth_error (f_threads s) t = Some th -> t_step s t (th_call th) (th_pc th) o = Ok s' ->
  exists q, (forall i, nth_error (f_threads s') i = if Nat.eqb i t then Some (mkTh (th_call th) q) else
    if andb (match th_pc th with OpnGo => true | _ => false end) (Nat.eqb i (length (f_threads s))) then Some (mkTh None RunStart) else nth_error (f_threads s) i)
  /\ length (f_threads s') = (length (f_threads s) + match th_pc th with OpnGo => 1 | _ => 0 end)%nat.
Proof.
  intros s t o s' [c p] TH E. cbn [th_call th_pc] in *.
  assert (Q : forall q s1, f_threads s1 = set_nth (f_threads s) t (mkTh c q) -> p <> OpnGo ->
    (forall i, nth_error (f_threads s1) i = if Nat.eqb i t then Some (mkTh c q) else if andb (match p with OpnGo => true | _ => false end) (Nat.eqb i (length (f_threads s))) then Some (mkTh None RunStart) else nth_error (f_threads s) i)
    /\ length (f_threads s1) = (length (f_threads s) + match p with OpnGo => 1 | _ => 0 end)%nat).
  { intros q s1 H N. rewrite H, set_nth_length. split; [|destruct p; try congruence; lia]. intros i. rewrite (set_nth_nth _ _ _ _ _ TH). destruct p; try congruence; reflexivity. }
  assert (Q0 : forall s1, f_threads s1 = f_threads s -> p <> OpnGo ->
    (forall i, nth_error (f_threads s1) i = if Nat.eqb i t then Some (mkTh c p) else if andb (match p with OpnGo => true | _ => false end) (Nat.eqb i (length (f_threads s))) then Some (mkTh None RunStart) else nth_error (f_threads s) i)
    /\ length (f_threads s1) = (length (f_threads s) + match p with OpnGo => 1 | _ => 0 end)%nat).
  { intros s1 H N. rewrite H. split; [|destruct p; try congruence; lia]. intros i. destruct (Nat.eqb_spec i t) as [->|]; [rewrite TH|]; destruct p; try congruence; auto. }
  destruct p; cbn [t_step] in E;
  repeat match type of E with
  | Ok _ = Ok _ => injection E as <-
  | Panic = Ok _ => discriminate
  | context [if ?b then _ else _] => destruct b
  | context [match ?b with _ => _ end] => destruct b
  end;
  try solve [eexists; apply Q; [reflexivity|discriminate]];
  try solve [eexists; apply Q0; [reflexivity|discriminate]].
  exists (Ret None). cbn [f_threads with_thread at_pc]. split.
  - intros i. rewrite nth_app_last, set_nth_length, (set_nth_nth _ _ _ _ _ TH). cbn [andb].
    assert (t < length (f_threads s))%nat by (apply nth_error_Some; congruence).
    destruct (Nat.eqb_spec i (length (f_threads s))), (Nat.eqb_spec i t); auto; lia.
  - rewrite app_length, set_nth_length. cbn. lia.
Qed.

Ltac split_step E :=
  cbn [t_step] in E;
  repeat match type of E with
  | Ok _ = Ok _ => injection E as <-
  | Panic = Ok _ => discriminate
  | context [if ?b then _ else _] => destruct b eqn:?
  | context [match ?b with _ => _ end] => destruct b eqn:?
  end.

Lemma shapes_step : forall s l s', shapes s -> f_step s l = Ok s' -> shapes s'.
Proof.
  intros s l s' SH E. destruct l as [|c|t o]; cbn [f_step] in E.
  - injection E as <-. exact SH.
  - injection E as <-. intros i th H. cbn [f_threads with_thread] in H. rewrite nth_app_last in H. destruct (Nat.eqb i (length (f_threads s))); [|eauto].
    injection H as <-. destruct c; cbn; auto.
  - destruct (nth_error (f_threads s) t) as [[c p]|] eqn:TH; [|injection E as <-; auto]. cbn [th_call th_pc] in E. pose proof (SH _ _ TH) as S0.
    assert (K : forall q s1, f_threads s1 = set_nth (f_threads s) t (mkTh c q) -> shape (mkTh c q) -> shapes s1).
    { intros q s1 H S1 i th G. rewrite H, (set_nth_nth _ _ _ _ _ TH) in G. destruct (Nat.eqb i t); [injection G as <-; auto|eauto]. }
    assert (K0 : forall s1, f_threads s1 = f_threads s -> shapes s1) by (intros s1 H i th G; rewrite H in G; eauto).
    destruct c as [[pkt| |]|]; destruct p; try (exfalso; unfold shape in S0; cbn in S0; destruct S0; contradiction); try (exfalso; unfold shape in S0; cbn in S0; tauto);
    split_step E;
    try solve [eapply K0; reflexivity]; try solve [eapply K; [reflexivity|unfold shape in *; cbn in *; tauto]].
    { destruct b; (eapply K; [reflexivity|unfold shape in *; cbn in *; tauto]). }
    intros i th G. cbn [f_threads with_thread at_pc] in G. rewrite nth_app_last, set_nth_length, (set_nth_nth _ _ _ _ _ TH) in G.
    destruct (Nat.eqb i (length (f_threads s))); [injection G as <-; unfold shape; cbn; auto|]. destruct (Nat.eqb i t); [injection G as <-; unfold shape; cbn; auto|eauto].
Qed.

Lemma f_run_app : forall a s b, f_run s (a ++ b) = bind (f_run s a) (fun s' => f_run s' b).
Proof. induction a as [|l a IH]; intros s b; [reflexivity|]. cbn [app f_run]. destruct (f_step s l); cbn [bind]; auto. Qed.
Lemma run_snoc : forall s ls l s', f_run s (ls ++ [l]) = Ok s' -> exists s1, f_run s ls = Ok s1 /\ f_step s1 l = Ok s'.
Proof. intros s ls l s' E. rewrite f_run_app in E. destruct (f_run s ls) as [s1| | |]; cbn [bind f_run] in E; try discriminate. exists s1. split; auto. destruct (f_step s1 l); cbn [bind] in E; congruence. Qed.
Lemma shapes_run : forall ls s, f_run face_new ls = Ok s -> shapes s.
Proof.
  induction ls as [|l ls IH] using rev_ind; intros s E; [injection E as <-; intros [|i] th H; discriminate|].
  apply run_snoc in E. destruct E as (s1 & E1 & E2). eapply shapes_step; eauto.
Qed.

(** ** the senders *)
Notation sview := (nat -> option (list buf * pc)).
Definition sv (s : face) : sview := fun i =>
  match nth_error (f_threads s) i with Some (mkTh (Some (CSend pkt)) p) => Some (pkt, p) | _ => None end.
Definition upd {A} (f : nat -> A) (n : nat) (x : A) : nat -> A := fun m => if Nat.eqb m n then x else f m.
Lemma upd_same : forall A (f : nat -> A) n x, upd f n x n = x.
Proof. intros. unfold upd. rewrite Nat.eqb_refl. auto. Qed.
Lemma upd_other : forall A (f : nat -> A) n x m, m <> n -> upd f n x m = f m.
Proof. intros. unfold upd. destruct (Nat.eqb_spec m n); congruence. Qed.

Definition bytes_of (v : sview) (i : nat) : buf := match v i with Some (pkt, _) => concat pkt | None => [] end.
Definition pk (v : sview) (l : list nat) : buf := concat (map (bytes_of v) l).
Definition finished (p : pc) : Prop := p = SndUnlock None \/ p = Ret None.
Definition failed (p : pc) : Prop := exists e, p = SndUnlock (Some e) \/ p = Ret (Some e).
Definition dead (x : conn) : bool := c_broken x || c_closed x.

(** the bytes of a packet that could not be sent *)
Definition cut_off (v : sview) (tail : buf) : Prop := exists i pkt p more, v i = Some (pkt, p) /\ failed p /\ concat pkt = tail ++ more.

Record J (v : sview) (lock : option nat) (cs : list conn) (fc : option nat) (ord : nat -> list nat) (cur : option nat) : Prop := {
  j_hold : forall i pkt p, v i = Some (pkt, p) -> match p with SndWrite _ | SndUnlock _ => lock = Some i | _ => True end;
  j_held : forall i, lock = Some i -> exists pkt p, v i = Some (pkt, p) /\ match p with SndWrite _ | SndUnlock _ => True | _ => False end;
  j_done : forall c i, In i (ord c) -> exists pkt p, v i = Some (pkt, p) /\ finished p;
  j_all : forall i pkt p, v i = Some (pkt, p) -> pkt <> [] -> finished p -> exists c, In i (ord c);
  j_nodup : forall c, NoDup (ord c);
  j_disj : forall c c' i, In i (ord c) -> In i (ord c') -> c = c';
  j_range : forall c, (length cs <= c)%nat -> ord c = [];
  j_out : forall c x, nth_error cs c = Some x -> cur <> Some c -> exists tail, c_out x = pk v (ord c) ++ tail
    /\ (tail = [] \/ (dead x = true /\ cut_off v tail));
  j_cur : match cur with
    | None => forall i rest pkt, v i = Some (pkt, SndWrite rest) -> rest = pkt
    | Some c => exists i pkt done rest x, v i = Some (pkt, SndWrite rest) /\ pkt = done ++ rest /\ done <> [] /\ nth_error cs c = Some x
        /\ c_out x = pk v (ord c) ++ concat done /\ (fc = None \/ fc = Some c)
    end
}.

Lemma J_ext : forall v v' lock cs fc ord cur, (forall i, v' i = v i) -> J v lock cs fc ord cur -> J v' lock cs fc ord cur.
Proof.
  intros v v' lock cs fc ord cur H [A B C D E F G K L].
  assert (P : forall l, pk v' l = pk v l). { intros l. unfold pk. f_equal. apply map_ext. intros i. unfold bytes_of. rewrite H. auto. }
  constructor; auto.
  - intros i. rewrite H. apply A.
  - intros i Q. rewrite H. apply B; auto.
  - intros c i Q. rewrite H. eauto.
  - intros i pkt p. rewrite H. apply D.
  - intros c x Q N. destruct (K c x Q N) as (tail & T1 & T2). exists tail. rewrite P. split; auto.
    destruct T2 as [T2|(DX & i & pkt & p & more & T2)]; auto. right. split; auto. exists i, pkt, p, more. rewrite H. auto.
  - destruct cur as [c|]; [|intros i rest pkt; rewrite H; apply L]. destruct L as (i & pkt & done & rest & x & L). exists i, pkt, done, rest, x. rewrite H, P. auto.
Qed.

(** connections may be made, closed, and forgotten *)
Lemma J_conns : forall v lock cs cs' fc fc' ord cur, J v lock cs fc ord cur ->
  (forall c x, nth_error cs c = Some x -> exists x', nth_error cs' c = Some x' /\ c_out x' = c_out x /\ (dead x = true -> dead x' = true)) ->
  (length cs <= length cs')%nat -> (forall c x, (length cs <= c)%nat -> nth_error cs' c = Some x -> c_out x = []) ->
  (fc' = fc \/ fc' = None \/ cur = None) -> J v lock cs' fc' ord cur.
Proof.
  intros v lock cs cs' fc fc' ord cur [A B C D E F G K L] OLD LEN NEW FC. constructor; auto.
  - intros c H. apply G. lia.
  - intros c x X N. destruct (nth_error cs c) as [x0|] eqn:X0.
    + destruct (OLD c x0 X0) as (x1 & X1 & O & DD). assert (x1 = x) by congruence. subst x1. destruct (K c x0 X0 N) as (tail & T1 & T2). exists tail. rewrite O. split; auto. tauto.
    + apply nth_error_None in X0. exists []. rewrite (NEW c x X0 X), (G c X0). auto.
  - destruct cur as [c|]; auto. destruct L as (i & pkt & done & rest & x & L1 & L2 & L3 & L4 & L5 & L6). destruct (OLD c x L4) as (x1 & X1 & O & _).
    exists i, pkt, done, rest, x1. rewrite O. repeat (split; auto). destruct FC as [->|[->|]]; auto. discriminate.
Qed.

Lemma bytes_upd : forall v i pkt p q, v i = Some (pkt, p) -> forall j, bytes_of (upd v i (Some (pkt, q))) j = bytes_of v j.
Proof. intros v i pkt p q H j. unfold bytes_of, upd. destruct (Nat.eqb_spec j i) as [->|]; [rewrite H|]; auto. Qed.
Lemma pk_upd : forall v i pkt p q l, v i = Some (pkt, p) -> pk (upd v i (Some (pkt, q))) l = pk v l.
Proof. intros. unfold pk. f_equal. apply map_ext. intros j. eapply bytes_upd; eauto. Qed.
Lemma cut_upd : forall v i x tail, (forall pkt p, v i = Some (pkt, p) -> ~ failed p) -> cut_off v tail -> cut_off (upd v i x) tail.
Proof. intros v i x tail H (j & pkt & p & more & V & FA & EQ). exists j, pkt, p, more. rewrite upd_other; auto. intros ->. eapply H; eauto. Qed.

(** a Send begins, finds the face running or not *)
Lemma J_quiet : forall v lock cs fc ord cur i pkt q, J v lock cs fc ord cur ->
  (v i = None \/ exists p, v i = Some (pkt, p) /\ match p with SndCheck _ | SndLock _ => True | _ => False end) ->
  match q with SndCheck _ | SndLock _ | Ret (Some _) => True | _ => False end ->
  J (upd v i (Some (pkt, q))) lock cs fc ord cur.
Proof.
  intros v lock cs fc ord cur i pkt q [A B C D E F G K L] P Q.
  assert (NI : forall j, (exists c, In j (ord c)) -> j <> i).
  { intros j (c & H) ->. destruct (C c i H) as (pkt' & p & V & FI). destruct P as [P|(p' & P & PP)]; [congruence|]. assert (p' = p) by congruence. subst p'. destruct FI as [->| ->]; contradiction. }
  assert (PK : forall c, pk (upd v i (Some (pkt, q))) (ord c) = pk v (ord c)).
  { intros c. unfold pk. f_equal. apply map_ext_in. intros j H. unfold bytes_of. rewrite upd_other; auto. apply NI. eauto. }
  assert (NW : forall rest pkt', v i <> Some (pkt', SndWrite rest)).
  { intros rest pkt' H. destruct P as [P|(p' & P & PP)]; [congruence|]. assert (p' = SndWrite rest) by congruence. subst. contradiction. }
  constructor; auto.
  - intros j pkt' p. unfold upd. destruct (Nat.eqb_spec j i) as [->|]; [|apply A]. intros H. injection H as <- <-. destruct q; auto; contradiction.
  - intros j H. destruct (B j H) as (pkt' & p & V & HO). exists pkt', p. rewrite upd_other; auto. intros ->. destruct P as [P|(p' & P & PP)]; [congruence|]. assert (p' = p) by congruence. subst. destruct p; contradiction.
  - intros c j H. destruct (C c j H) as (pkt' & p & V & FI). exists pkt', p. rewrite upd_other; eauto.
  - intros j pkt' p. unfold upd. destruct (Nat.eqb_spec j i) as [->|]; [|apply D]. intros H _ FI. injection H as <- <-. destruct FI as [-> | ->]; contradiction.
  - intros c x X N. destruct (K c x X N) as (tail & T1 & T2). exists tail. rewrite PK. split; auto. destruct T2 as [T2|(DX & T2)]; auto. right. split; auto.
    apply cut_upd; auto. intros pkt' p V FA. destruct P as [P|(p' & P & PP)]; [congruence|]. assert (p' = p) by congruence. subst. destruct FA as (e & [-> | ->]); contradiction.
  - destruct cur as [c|].
    + destruct L as (j & pkt' & done & rest & x & L1 & L2 & L3 & L4 & L5 & L6). exists j, pkt', done, rest, x. rewrite PK. rewrite upd_other by (intros ->; eapply NW; eauto). auto 10.
    + intros j rest pkt'. unfold upd. destruct (Nat.eqb_spec j i) as [->|]; [|apply L]. intros H. injection H as <- ->. contradiction.
Qed.

Lemma J_lock : forall v cs fc ord cur i pkt, J v None cs fc ord cur -> v i = Some (pkt, SndLock pkt) ->
  J (upd v i (Some (pkt, SndWrite pkt))) (Some i) cs fc ord cur.
Proof.
  intros v cs fc ord cur i pkt [A B C D E F G K L] V. assert (PK : forall l, pk (upd v i (Some (pkt, SndWrite pkt))) l = pk v l) by (intros; eapply pk_upd; eauto).
  constructor; auto.
  - intros j pkt' p. unfold upd. destruct (Nat.eqb_spec j i) as [->|]; [intros H; injection H as <- <-; auto|]. intros H. specialize (A j pkt' p H). destruct p; auto; discriminate.
  - intros j H. injection H as <-. exists pkt, (SndWrite pkt). rewrite upd_same. auto.
  - intros c j H. destruct (C c j H) as (pkt' & p & V' & FI). exists pkt', p. rewrite upd_other; auto. intros ->. destruct FI as [-> | ->]; congruence.
  - intros j pkt' p. unfold upd. destruct (Nat.eqb_spec j i) as [->|]; [|apply D]. intros H _ FI. injection H as <- <-. destruct FI as [H|H]; discriminate.
  - intros c x X N. destruct (K c x X N) as (tail & T1 & T2). exists tail. rewrite PK. split; auto. destruct T2 as [T2|(DX & T2)]; auto. right. split; auto.
    apply cut_upd; auto. intros pkt' p V' FA. rewrite V in V'. injection V' as <- <-. destruct FA as (e & [H|H]); discriminate.
  - destruct cur as [c|].
    + destruct L as (j & pkt' & done & rest & x & L1 & _). specialize (A _ _ _ L1). discriminate.
    + intros j rest pkt'. unfold upd. destruct (Nat.eqb_spec j i) as [->|]; [|apply L]. intros H. injection H as <- ->. auto.
Qed.

(** what is known of the one that writes *)
Lemma J_writer : forall v lock cs fc ord cur i pkt rest, J v lock cs fc ord cur -> v i = Some (pkt, SndWrite rest) ->
  lock = Some i /\ exists done, pkt = done ++ rest /\
  match cur with
  | None => done = []
  | Some c => done <> [] /\ (exists x, nth_error cs c = Some x /\ c_out x = pk v (ord c) ++ concat done) /\ (fc = None \/ fc = Some c)
  end.
Proof.
  intros v lock cs fc ord cur i pkt rest [A B C D E F G K L] V. pose proof (A _ _ _ V) as LK. cbn in LK. split; auto. destruct cur as [c|].
  - destruct L as (j & pkt' & done & rest' & x & L1 & L2 & L3 & L4 & L5 & L6). pose proof (A _ _ _ L1) as LK'. cbn in LK'. assert (j = i) by congruence. subst j.
    rewrite V in L1. injection L1 as <- <-. exists done. split; auto. split; auto. split; eauto.
  - exists []. split; auto. rewrite (L i rest pkt V). auto.
Qed.

Lemma J_others : forall v lock cs fc ord cur i pkt rest q, J v lock cs fc ord cur -> v i = Some (pkt, SndWrite rest) ->
  match q with SndWrite _ | SndUnlock _ => True | _ => False end ->
  let v' := upd v i (Some (pkt, q)) in
  (forall j pkt' p, v' j = Some (pkt', p) -> match p with SndWrite _ | SndUnlock _ => lock = Some j | _ => True end) /\
  (forall j, lock = Some j -> exists pkt' p, v' j = Some (pkt', p) /\ match p with SndWrite _ | SndUnlock _ => True | _ => False end) /\
  (forall c j, In j (ord c) -> exists pkt' p, v' j = Some (pkt', p) /\ finished p) /\
  (forall j pkt' p, j <> i -> v' j = Some (pkt', p) -> pkt' <> [] -> finished p -> exists c, In j (ord c)) /\
  (forall l, pk v' l = pk v l) /\ (forall j rest' pkt', j <> i -> v' j <> Some (pkt', SndWrite rest')) /\
  (forall tail, cut_off v tail -> cut_off v' tail) /\ (forall c, ~ In i (ord c)).
Proof.
  intros v lock cs fc ord cur i pkt rest q [A B C D E F G K L] V Q v'. pose proof (A _ _ _ V) as LK. cbn in LK.
  assert (NI : forall c, ~ In i (ord c)). { intros c H. destruct (C c i H) as (pkt' & p & V' & FI). rewrite V in V'. injection V' as <- <-. destruct FI; discriminate. }
  split; [|split; [|split; [|split; [|split; [|split; [|split]]]]]]; auto.
  - intros j pkt' p. unfold v', upd. destruct (Nat.eqb_spec j i) as [->|]; [|apply A]. intros H. injection H as <- <-. destruct q; auto.
  - intros j H. assert (j = i) by congruence. subst. exists pkt, q. unfold v'. rewrite upd_same. auto.
  - intros c j H. destruct (C c j H) as (pkt' & p & V' & FI). exists pkt', p. unfold v'. rewrite upd_other; auto. intros ->. apply (NI c); auto.
  - intros j pkt' p N. unfold v'. rewrite upd_other by auto. apply D.
  - intros l. eapply pk_upd; eauto.
  - intros j rest' pkt' N. unfold v'. rewrite upd_other by auto. intros H. specialize (A _ _ _ H). cbn in A. congruence.
  - intros tail. apply cut_upd. intros pkt' p V' (e & FA). rewrite V in V'. injection V' as <- <-. destruct FA; discriminate.
Qed.

Lemma pk_app : forall v a b, pk v (a ++ b) = pk v a ++ pk v b.
Proof. intros. unfold pk. rewrite map_app, concat_app. auto. Qed.

Lemma J_write : forall v lock cs c ord cur i pkt b rest o cs' ok, J v lock cs (Some c) ord cur -> v i = Some (pkt, SndWrite (b :: rest)) ->
  write cs c b o = (cs', ok) ->
  exists cur', J (upd v i (Some (pkt, if ok then SndWrite rest else SndUnlock (Some FWrite)))) lock cs' (Some c) ord cur'.
Proof.
  intros v lock cs c ord cur i pkt b rest o cs' ok JJ V W. pose proof JJ as [A B C D E F G K L].
  destruct (J_writer _ _ _ _ _ _ _ _ _ JJ V) as (LK & done & PK & CUR).
  assert (CC : cur = None \/ cur = Some c). { destruct cur; auto. destruct CUR as (_ & _ & [H|H]); [discriminate|]. right. congruence. }
  assert (NF : ~ finished (SndUnlock (Some FWrite))) by (intros [H|H]; discriminate).
  (** the write failed, with this on the connection *)
  assert (BAD : forall x k, nth_error cs' c = Some x -> (forall c', c' <> c -> nth_error cs' c' = nth_error cs c') -> length cs' = length cs -> dead x = true ->
    ((c_out x = pk v (ord c) ++ concat done ++ k /\ exists m, b = k ++ m) \/ (cur = None /\ nth_error cs c = Some x)) ->
    exists cur', J (upd v i (Some (pkt, SndUnlock (Some FWrite)))) lock cs' (Some c) ord cur').
  { intros x k X SAME LEN DX OUT. destruct (J_others _ _ _ _ _ _ _ _ _ (SndUnlock (Some FWrite)) JJ V I) as (O1 & O2 & O3 & O4 & O5 & O6 & O7 & O8).
    exists None. constructor; auto.
    - intros j pkt' p H NE FI. destruct (Nat.eq_dec j i) as [->|N]; [|eapply O4; eauto]. rewrite upd_same in H. injection H as <- <-. contradiction.
    - intros c' H. apply G. lia.
    - intros c' x' X' _. rewrite O5. destruct (Nat.eq_dec c' c) as [->|N].
      + assert (x' = x) by congruence. subst x'.
        destruct OUT as [(EQ & m & BM)|[C0 K0]].
        * exists (concat done ++ k). split; auto. right. split; auto.
          exists i, pkt, (SndUnlock (Some FWrite)), (m ++ concat rest). rewrite upd_same. split; auto. split; [exists FWrite; auto|].
          rewrite PK, concat_app. cbn [concat]. rewrite BM, <- !app_assoc. auto.
        * destruct (K c x K0) as (tail & T1 & T2); [congruence|]. exists tail. split; auto. destruct T2 as [T2|[T2 T3]]; auto.
      + rewrite (SAME c' N) in X'. destruct (K c' x' X') as (tail & T1 & T2); [destruct CC as [-> | ->]; congruence|]. exists tail. split; auto. destruct T2 as [T2|[T2 T3]]; auto.
    - intros j rest' pkt' H. destruct (Nat.eq_dec j i) as [->|N]; [rewrite upd_same in H; discriminate|]. exfalso. eapply O6; eauto. }
  unfold write in W. destruct (nth_error cs c) as [x|] eqn:X.
  2:{ injection W as <- <-. destruct (J_others _ _ _ _ _ _ _ _ _ (SndUnlock (Some FWrite)) JJ V I) as (O1 & O2 & O3 & O4 & O5 & O6 & O7 & O8).
      exists None. constructor; auto.
      - intros j pkt' p H NE FI. destruct (Nat.eq_dec j i) as [->|N]; [|eapply O4; eauto]. rewrite upd_same in H. injection H as <- <-. contradiction.
      - intros c' x' X' _. destruct (K c' x' X') as (tail & T1 & T2); [destruct CC as [-> | ->]; congruence|]. exists tail. rewrite O5. split; auto. destruct T2 as [T2|[T2 T3]]; auto.
      - intros j rest' pkt' H. destruct (Nat.eq_dec j i) as [->|N]; [rewrite upd_same in H; discriminate|]. exfalso. eapply O6; eauto. }
  destruct (c_broken x || c_closed x) eqn:DX.
  { injection W as <- <-. apply (BAD x []); auto. destruct CC as [-> | ->]; [auto|]. left. rewrite app_nil_r. destruct CUR as (_ & (x' & X' & O) & _).
    split; [congruence|]. exists b. auto. }
  assert (TL : c_out x = pk v (ord c) ++ concat done).
  { destruct CC as [-> | ->].
    - subst done. destruct (K c x X) as (tail & T1 & [-> | [T2 _]]); [discriminate|auto|]. unfold dead in T2. congruence.
    - destruct CUR as (_ & (x' & X' & O) & _). congruence. }
  assert (OKCASE : cs' = set_nth cs c (mkConn (c_out x ++ b) false false) -> ok = true -> exists cur', J (upd v i (Some (pkt, if ok then SndWrite rest else SndUnlock (Some FWrite)))) lock cs' (Some c) ord cur').
  { intros -> ->. destruct (J_others _ _ _ _ _ _ _ _ _ (SndWrite rest) JJ V I) as (O1 & O2 & O3 & O4 & O5 & O6 & O7 & O8).
    exists (Some c). constructor; auto.
    - intros j pkt' p H NE FI. destruct (Nat.eq_dec j i) as [->|N]; [|eapply O4; eauto]. rewrite upd_same in H. injection H as <- <-. destruct FI; discriminate.
    - intros c' H. rewrite set_nth_length in H. auto.
    - intros c' x' X' N. rewrite (set_nth_nth _ _ _ _ _ X) in X'. rewrite O5. destruct (Nat.eqb_spec c' c) as [->|N']; [congruence|].
      destruct (K c' x' X') as (tail & T1 & T2); [destruct CC as [-> | ->]; congruence|]. exists tail. split; auto. destruct T2 as [T2|[T2 T3]]; auto.
    - exists i, pkt, (done ++ [b]), rest, (mkConn (c_out x ++ b) false false). rewrite upd_same. split; auto. split; [rewrite <- app_assoc; auto|].
      split; [destruct done; discriminate|]. split; [eapply set_nth_same; eauto|]. split; auto. cbn [c_out]. rewrite O5, TL, concat_app. cbn [concat]. rewrite app_nil_r, app_assoc. auto. }
  destruct o as [|k|]; injection W as <- <-; [apply OKCASE; auto| |apply OKCASE; auto].
  apply (BAD (mkConn (c_out x ++ firstn k b) true false) (firstn k b)); auto.
  - eapply set_nth_same; eauto.
  - intros c' N. apply set_nth_other; auto.
  - apply set_nth_length.
  - left. cbn [c_out]. rewrite TL, <- app_assoc. split; auto. exists (skipn k b). rewrite firstn_skipn. auto.
Qed.

Lemma J_written : forall v lock cs fc ord cur i pkt, J v lock cs fc ord cur -> v i = Some (pkt, SndWrite []) ->
  exists ord', J (upd v i (Some (pkt, SndUnlock None))) lock cs fc ord' None /\ forall c, exists new, ord' c = ord c ++ new.
Proof.
  intros v lock cs fc ord cur i pkt JJ V. pose proof JJ as [A B C D E F G K L].
  destruct (J_writer _ _ _ _ _ _ _ _ _ JJ V) as (LK & done & PK & CUR). rewrite app_nil_r in PK. subst done.
  destruct (J_others _ _ _ _ _ _ _ _ _ (SndUnlock None) JJ V I) as (O1 & O2 & O3 & O4 & O5 & O6 & O7 & O8).
  assert (PB : bytes_of (upd v i (Some (pkt, SndUnlock None))) i = concat pkt) by (unfold bytes_of; rewrite upd_same; auto).
  destruct cur as [c|].
  - destruct CUR as (NE & (x & X & O) & FC). exists (upd ord c (ord c ++ [i])). split.
    + constructor; auto.
      * intros c' j. unfold upd at 1. destruct (Nat.eqb_spec c' c) as [->|]; [|apply O3]. intros H. apply in_app_iff in H. destruct H as [H|[<-|[]]]; [eapply O3; eauto|].
        exists pkt, (SndUnlock None). rewrite upd_same. split; auto. left. auto.
      * intros j pkt' p H NE' FI. destruct (Nat.eq_dec j i) as [->|N].
        -- exists c. rewrite upd_same. apply in_or_app. right. left. auto.
        -- destruct (O4 j pkt' p N H NE' FI) as (c' & H'). exists c'. unfold upd. destruct (Nat.eqb_spec c' c) as [->|]; auto. apply in_or_app. auto.
      * intros c'. unfold upd. destruct (Nat.eqb_spec c' c) as [->|]; auto.
        specialize (E c). clear -E O8. specialize (O8 c). induction (ord c) as [|a l IH]; cbn [app]; [repeat constructor; auto|]. inversion E; subst. constructor.
        -- rewrite in_app_iff. intros [H|[H|[]]]; [contradiction|]. subst. apply O8. left. auto.
        -- apply IH; auto. intros H. apply O8. right. auto.
      * intros c1 c2 j. unfold upd. destruct (Nat.eqb_spec c1 c) as [->|], (Nat.eqb_spec c2 c) as [->|]; auto; rewrite ?in_app_iff; cbn [In]; intros H1 H2; eauto.
        -- destruct H1 as [H1|[<-|[]]]; eauto. exfalso. eapply O8; eauto.
        -- destruct H2 as [H2|[<-|[]]]; eauto. exfalso. eapply O8; eauto.
      * intros c' H. unfold upd. destruct (Nat.eqb_spec c' c) as [->|]; auto. apply nth_error_None in H. congruence.
      * intros c' x' X' _. unfold upd at 2. destruct (Nat.eqb_spec c' c) as [->|N].
        -- assert (x' = x) by congruence. subst. exists []. rewrite pk_app, O5. unfold pk at 2. cbn [map concat]. rewrite PB, !app_nil_r. auto.
        -- destruct (K c' x' X') as (tail & T1 & T2); [congruence|]. exists tail. rewrite O5. split; auto. destruct T2 as [T2|[T2 T3]]; auto.
      * intros j rest' pkt' H. destruct (Nat.eq_dec j i) as [->|N]; [rewrite upd_same in H; discriminate|]. exfalso. eapply O6; eauto.
    + intros c'. unfold upd. destruct (Nat.eqb_spec c' c) as [->|]; [exists [i]; auto|exists []; rewrite app_nil_r; auto].
  - subst pkt. exists ord. split; [|intros c; exists []; rewrite app_nil_r; auto]. constructor; auto.
    + intros j pkt' p H NE FI. destruct (Nat.eq_dec j i) as [->|N]; [|eapply O4; eauto]. rewrite upd_same in H. injection H as <- <-. congruence.
    + intros c x X N. destruct (K c x X N) as (tail & T1 & T2). exists tail. rewrite O5. split; auto. destruct T2 as [T2|[T2 T3]]; auto.
    + intros j rest' pkt' H. destruct (Nat.eq_dec j i) as [->|N]; [rewrite upd_same in H; discriminate|]. exfalso. eapply O6; eauto.
Qed.

Lemma J_unlock : forall v lock cs fc ord cur i pkt e, J v lock cs fc ord cur -> v i = Some (pkt, SndUnlock e) ->
  J (upd v i (Some (pkt, Ret e))) None cs fc ord cur.
Proof.
  intros v lock cs fc ord cur i pkt e [A B C D E F G K L] V. assert (PK : forall l, pk (upd v i (Some (pkt, Ret e))) l = pk v l) by (intros; eapply pk_upd; eauto).
  pose proof (A _ _ _ V) as LK. cbn in LK. constructor; auto.
  - intros j pkt' p. unfold upd. destruct (Nat.eqb_spec j i) as [->|]; [intros H; injection H as <- <-; auto|]. intros H. specialize (A j pkt' p H). destruct p; auto; congruence.
  - discriminate.
  - intros c j H. destruct (C c j H) as (pkt' & p & V' & FI). destruct (Nat.eq_dec j i) as [->|N]; [|exists pkt', p; rewrite upd_other; auto].
    rewrite V in V'. injection V' as <- <-. exists pkt, (Ret e). rewrite upd_same. split; auto. destruct FI as [H1|H1]; [injection H1 as ->; right; auto|discriminate].
  - intros j pkt' p. unfold upd. destruct (Nat.eqb_spec j i) as [->|]; [|apply D]. intros H NE FI. injection H as <- <-. destruct FI as [H|H]; [discriminate|]. injection H as ->. apply (D i pkt _ V); auto. left. auto.
  - intros c x X N. destruct (K c x X N) as (tail & T1 & T2). exists tail. rewrite PK. split; auto. destruct T2 as [T2|(DX & j & pkt' & p & more & V' & FA & EQ)]; auto. right. split; auto.
    destruct (Nat.eq_dec j i) as [->|N']; [|exists j, pkt', p, more; rewrite upd_other; auto].
    rewrite V in V'. injection V' as <- <-. exists i, pkt, (Ret e), more. rewrite upd_same. split; auto. split; auto. destruct FA as (f & [H|H]); [injection H as ->; exists f; auto|discriminate].
  - destruct cur as [c|].
    + destruct L as (j & pkt' & done & rest & x & L1 & _). pose proof (A _ _ _ L1) as LK'. cbn in LK'. assert (j = i) by congruence. subst. congruence.
    + intros j rest pkt'. unfold upd. destruct (Nat.eqb_spec j i) as [->|]; [discriminate|apply L].
Qed.

(** ** one step *)
Definition JF (s : face) ord cur : Prop := J (sv s) (f_lock s) (f_conns s) (f_conn s) ord cur.
Definition writing (s : face) : Prop := exists i pkt rest, sv s i = Some (pkt, SndWrite rest).

Lemma sv_set : forall s s' t pkt p q, nth_error (f_threads s) t = Some (mkTh (Some (CSend pkt)) p) -> f_threads s' = set_nth (f_threads s) t (mkTh (Some (CSend pkt)) q) ->
  forall i, sv s' i = upd (sv s) t (Some (pkt, q)) i.
Proof. intros s s' t pkt p q T H i. unfold sv, upd. rewrite H, (set_nth_nth _ _ _ _ _ T). destruct (Nat.eqb i t); auto. Qed.
Lemma sv_set_other : forall s s' t c p q, nth_error (f_threads s) t = Some (mkTh c p) -> (forall pkt, c <> Some (CSend pkt)) -> f_threads s' = set_nth (f_threads s) t (mkTh c q) ->
  forall i, sv s' i = sv s i.
Proof.
  intros s s' t c p q T N H i. unfold sv. rewrite H, (set_nth_nth _ _ _ _ _ T). destruct (Nat.eqb_spec i t) as [->|]; auto. rewrite T. destruct c as [[pkt| |]|]; auto. exfalso. eapply N; eauto.
Qed.
Lemma sv_new : forall s th i, sv (with_thread s th) i = if Nat.eqb i (length (f_threads s)) then match th with mkTh (Some (CSend pkt)) p => Some (pkt, p) | _ => None end else sv s i.
Proof. intros. unfold sv. cbn [f_threads with_thread]. rewrite nth_app_last. destruct (Nat.eqb i (length (f_threads s))); auto. Qed.
Lemma sv_none : forall s, sv s (length (f_threads s)) = None.
Proof. intros. unfold sv. destruct (nth_error (f_threads s) (length (f_threads s))) eqn:H; auto. assert (length (f_threads s) < length (f_threads s))%nat by (apply nth_error_Some; congruence). lia. Qed.

Lemma close_old : forall cs i c x, nth_error cs c = Some x -> exists x', nth_error (close_conn cs i) c = Some x' /\ c_out x' = c_out x /\ (dead x = true -> dead x' = true).
Proof.
  intros cs i c x H. unfold close_conn. destruct (nth_error cs i) as [y|] eqn:Y; [|eauto]. rewrite (set_nth_nth _ _ _ _ _ Y). destruct (Nat.eqb_spec c i) as [->|]; [|eauto].
  eexists. split; [reflexivity|]. assert (y = x) by congruence. subst. split; auto. intros _. unfold dead. cbn. apply Bool.orb_true_r.
Qed.
Lemma close_length : forall cs i, length (close_conn cs i) = length cs.
Proof. intros. unfold close_conn. destruct (nth_error cs i); auto. apply set_nth_length. Qed.

Lemma J_step : forall s l s' ord cur, shapes s -> JF s ord cur -> f_step s l = Ok s' ->
  (forall t o c i, l = LStep t o -> nth_error (f_threads s) t = Some (mkTh c (OpnStore i)) -> ~ writing s) ->
  exists ord' cur', JF s' ord' cur' /\ forall c, exists new, ord' c = ord c ++ new.
Proof.
  intros s l s' ord cur SH JJ E NS.
  assert (SAME : forall (X : Prop), X -> (forall c : nat, exists new, ord c = ord c ++ new)) by (intros X _ c; exists []; rewrite app_nil_r; auto).
  assert (KEEP : JF s' ord cur -> exists ord' cur', JF s' ord' cur' /\ forall c, exists new, ord' c = ord c ++ new).
  { intros H. exists ord, cur. split; auto. apply (SAME True); auto. }
  unfold JF in *. destruct l as [|c|t o]; cbn [f_step] in E.
  - injection E as <-. apply KEEP. exact JJ.
  - injection E as <-. apply KEEP. cbn [f_lock f_conns f_conn with_thread].
    destruct c as [pkt| |].
    + eapply J_ext; [|apply J_quiet with (i := length (f_threads s)) (pkt := pkt) (q := SndCheck pkt); [exact JJ|left; apply sv_none|exact I]].
      intros i. rewrite sv_new. unfold upd. destruct (Nat.eqb i (length (f_threads s))); auto.
    + eapply J_ext; [|exact JJ]. intros i. rewrite sv_new. destruct (Nat.eqb_spec i (length (f_threads s))) as [->|]; auto. rewrite sv_none. auto.
    + eapply J_ext; [|exact JJ]. intros i. rewrite sv_new. destruct (Nat.eqb_spec i (length (f_threads s))) as [->|]; auto. rewrite sv_none. auto.
  - destruct (nth_error (f_threads s) t) as [[c p]|] eqn:TH; [|injection E as <-; apply KEEP; exact JJ]. cbn [th_call th_pc] in E. pose proof (SH _ _ TH) as S0.
    assert (OTHER : forall q, (forall pkt, c <> Some (CSend pkt)) -> f_threads s' = set_nth (f_threads s) t (mkTh c q) -> f_lock s' = f_lock s -> f_conns s' = f_conns s ->
      (f_conn s' = f_conn s \/ f_conn s' = None \/ cur = None) -> J (sv s') (f_lock s') (f_conns s') (f_conn s') ord cur).
    { intros q NC T1 T2 T3 T4. rewrite T2, T3. eapply J_ext; [eapply sv_set_other; eauto|]. eapply J_conns; eauto. intros c0 x H H0.       assert (c0 < length (f_conns s))%nat by (apply nth_error_Some; congruence). lia. }
    destruct c as [[pkt| |]|].
    + destruct S0 as [S1 S2]. cbn [th_pc th_call] in S1, S2. assert (V : sv s t = Some (pkt, p)) by (unfold sv; rewrite TH; auto).
      destruct p as [q|q|[|b rest]|e| | | | | | | | | | | | | | | |e]; try (exfalso; destruct S1; contradiction); cbn [t_step] in E.
      * subst q. apply KEEP. destruct (f_running s); injection E as <-; (eapply J_ext; [eapply sv_set; [exact TH|reflexivity]|]; apply J_quiet; [exact JJ|right; eexists; split; [exact V|exact I]|exact I]).
      * subst q. apply KEEP. destruct (f_lock s) as [h|] eqn:LK; injection E as <-; [rewrite LK; exact JJ|].
        eapply J_ext; [eapply sv_set; [exact TH|reflexivity]|]. cbn [f_lock f_conns f_conn with_lock at_pc]. apply J_lock; auto.
      * injection E as <-. destruct (J_written _ _ _ _ _ _ _ _ JJ V) as (ord' & J' & NEW). exists ord', None. split; auto.
        eapply J_ext; [eapply sv_set; [exact TH|reflexivity]|]. exact J'.
      * destruct (f_conn s) as [i|] eqn:FC; [|discriminate]. destruct (write (f_conns s) i b o) as [cs' ok] eqn:W. injection E as <-.
        destruct (J_write _ _ _ _ _ _ _ _ _ _ _ _ _ JJ V W) as (cur' & J'). exists ord, cur'. split; [|apply (SAME True); auto].
        eapply J_ext; [eapply sv_set; [exact TH|reflexivity]|]. cbn [f_lock f_conns f_conn with_conns at_pc]. rewrite FC. exact J'.
      * injection E as <-. apply KEEP. eapply J_ext; [eapply sv_set; [exact TH|reflexivity]|]. eapply J_unlock; eauto.
      * injection E as <-. apply KEEP. exact JJ.
    + destruct p; try (exfalso; destruct S0; contradiction); split_step E; apply KEEP;
      try solve [eapply OTHER; [discriminate|reflexivity|reflexivity|reflexivity|auto]]; try exact JJ.
      * eapply J_ext; [eapply sv_set_other; [exact TH|discriminate|reflexivity]|]. cbn [f_lock f_conns f_conn with_conns at_pc].
        eapply J_conns; [exact JJ| | | |auto].
        -- intros c0 x H. exists x. split; auto. rewrite nth_error_app1; auto. apply nth_error_Some. congruence.
        -- rewrite app_length. cbn. lia.
        -- intros c0 x H H0. rewrite nth_app_last in H0. destruct (Nat.eqb c0 (length (f_conns s))); [injection H0 as <-; auto|]. assert (c0 < length (f_conns s))%nat by (apply nth_error_Some; congruence). lia.
      * eapply OTHER; [discriminate|reflexivity|reflexivity|reflexivity|]. right. right. destruct cur as [c0|] eqn:CU; auto. exfalso.
        pose proof (j_cur _ _ _ _ _ _ JJ) as (j & pkt & done & rest & x & L1 & _). apply (NS t o (Some COpen) c eq_refl TH). exists j, pkt, rest. exact L1.
      * eapply J_ext; [|exact JJ]. intros i. rewrite sv_new. cbn [f_threads at_pc]. rewrite set_nth_length. destruct (Nat.eqb_spec i (length (f_threads s))) as [->|]; [rewrite sv_none; auto|].
        eapply sv_set_other; [exact TH|discriminate|reflexivity].
    + destruct p; try (exfalso; destruct S0; contradiction); split_step E; apply KEEP;
      try solve [eapply OTHER; [discriminate|reflexivity|reflexivity|reflexivity|auto]]; try exact JJ.
      * eapply J_ext; [eapply sv_set_other; [exact TH|discriminate|reflexivity]|]. cbn [f_lock f_conns f_conn with_conns at_pc].
        eapply J_conns; [exact JJ| | | |auto]; [intros; apply close_old; auto|rewrite close_length; auto|].
        intros c0 x H H0. assert (c0 < length (close_conn (f_conns s) n))%nat by (apply nth_error_Some; congruence). rewrite close_length in *. lia.
    + destruct p; try (exfalso; destruct S0; contradiction); split_step E; apply KEEP;
      try solve [eapply OTHER; [discriminate|reflexivity|reflexivity|reflexivity|auto]]; try exact JJ.
Qed.
