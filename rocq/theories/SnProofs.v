(** Lemmas for C64 and C65: one node of State Vector Sync. *)
From Verif Require Import Base PrimModel NameModel OrderProofs SnModel SnSpec.
Ltac same_id a b := let E := fresh "E" in destruct (bytes_eqb a b) eqn:E; [apply bytes_eqb_eq in E; match type of E with ?u = ?w => (subst u || subst w || idtac) end|apply bytes_eqb_neq in E].

Lemma get_app : forall id v w, sv_get id (v ++ w) = match sv_get id v with Some x => Some x | None => sv_get id w end.
Proof. induction v as [|[i x] v IH]; intros w; cbn [sv_get app]; [reflexivity|]. destruct (bytes_eqb i id); auto. Qed.
Lemma get_set : forall id id' y v, sv_get id (sv_set id' y v) = if bytes_eqb id' id then match sv_get id v with Some _ => Some y | None => None end else sv_get id v.
Proof.
  induction v as [|[i x] v IH]; cbn [sv_get sv_set]; [destruct (bytes_eqb id' id); reflexivity|].
  same_id i id'; cbn [sv_get].
  - same_id id' id; reflexivity.
  - same_id i id; [|exact IH]. replace (bytes_eqb id' id) with false by (symmetry; apply bytes_eqb_neq; congruence). reflexivity.
Qed.
Lemma set_ids : forall id y v, map fst (sv_set id y v) = map fst v.
Proof. induction v as [|[i x] v IH]; cbn [sv_set map]; [reflexivity|]. destruct (bytes_eqb i id); cbn [map fst]; [reflexivity|now rewrite IH]. Qed.
Lemma get_none : forall id v, sv_get id v = None <-> ~ mentions id v.
Proof.
  unfold mentions. induction v as [|[i x] v IH]; cbn [sv_get map In fst]; [tauto|]. same_id i id; [split; [discriminate|tauto]|]. rewrite IH. tauto.
Qed.
Lemma get_in : forall id v x, sv_get id v = Some x -> In (id, x) v.
Proof. induction v as [|[i y] v IH]; cbn [sv_get]; intros x H; [discriminate|]. same_id i id; [injection H as ->; now left|right; auto]. Qed.
Lemma get_nodup : forall id v x, NoDup (map fst v) -> In (id, x) v -> sv_get id v = Some x.
Proof.
  induction v as [|[i y] v IH]; cbn [map fst sv_get]; intros x N I; [destruct I|]. inversion N as [|? ? N1 N2]; subst. destruct I as [E|I].
  - injection E as -> ->. now rewrite bytes_eqb_refl.
  - same_id i id; [|auto]. exfalso. apply N1. apply in_map_iff. exists (id, x). auto.
Qed.
Lemma seq_app1 : forall id v i x, sv_get i v = None -> seq_in id (v ++ [(i, x)]) = if bytes_eqb i id then x else seq_in id v.
Proof. intros. unfold seq_in. rewrite get_app. cbn [sv_get]. same_id i id; [rewrite H; reflexivity|]. destruct (sv_get id v); reflexivity. Qed.
Lemma seq_set : forall id i y v, mentions i v -> seq_in id (sv_set i y v) = if bytes_eqb i id then y else seq_in id v.
Proof.
  intros id i y v M. unfold seq_in. rewrite get_set. same_id i id; [|reflexivity]. destruct (sv_get id v) eqn:E; [reflexivity|]. apply get_none in E. contradiction.
Qed.

Lemma chain_app : forall a l b, chain a l b -> forall m c, chain b m c -> chain a (l ++ m) c.
Proof. induction 1; intros; cbn [app]; [auto|]. constructor; auto. Qed.
Lemma chain_le : forall a l b, chain a l b -> (a <= b)%N.
Proof. induction 1; lia. Qed.
Lemma reported_app : forall id a b, reported id (a ++ b) = reported id a ++ reported id b.
Proof. intros. unfold reported. now rewrite filter_app, map_app. Qed.

Lemma NoDup_app_snoc : forall {A} (l : list A) x, NoDup l -> ~ In x l -> NoDup (l ++ [x]).
Proof. intros A l x N I. apply NoDup_rev in N. rewrite <- (rev_involutive (l ++ [x])). apply NoDup_rev. rewrite rev_app_distr. cbn [rev app]. constructor; [now rewrite <- in_rev|auto]. Qed.

(** ** The loop over the entries *)
Definition top (id : buf) (r : bvec) : N := fold_right (fun e m => if bytes_eqb (fst e) id then N.max (snd e) m else m) 0%N r.

Lemma sync_one : forall local miss need e l' m' n', NoDup (map fst local) -> sync_entry (local, miss, need) e = (l', m', n') ->
  NoDup (map fst l') /\ (forall id, seq_in id l' = if bytes_eqb (fst e) id then N.max (seq_in id local) (snd e) else seq_in id local) /\
  (forall id, mentions id l' <-> mentions id local \/ id = fst e) /\
  exists add, m' = miss ++ add /\ (forall m, In m add -> fst (fst m) = fst e /\ (seq_in (fst e) local < snd e \/ ~ mentions (fst e) local)%N) /\
    (forall id, (bytes_eqb (fst e) id = true -> (snd e + 1 < two64)%N) -> chain (seq_in id local + 1) (reported id add) (seq_in id l' + 1)).
Proof.
  intros local miss need [i x] l' m' n' ND E. cbn [sync_entry] in E. cbn [fst snd]. destruct (sv_get i local) as [l|] eqn:G.
  - assert (M : mentions i local) by (destruct (in_dec (list_eq_dec N.eq_dec) i (map fst local)) as [I|I]; [exact I|apply get_none in I; congruence]).
    assert (SI : seq_in i local = l) by (unfold seq_in; now rewrite G).
    destruct (N.ltb_spec l x) as [L|L]; [|destruct (N.ltb_spec x l)].
    + injection E as <- <- <-. split; [now rewrite set_ids|]. split; [intros id; rewrite seq_set by auto; same_id i id; [|reflexivity]; rewrite SI; lia|].
      split; [intros id; unfold mentions; rewrite set_ids; split; [tauto|intros [|]; subst; auto]|]. eexists. split; [reflexivity|]. split; [intros m [<-|[]]; split; [reflexivity|left; cbn [fst snd]; lia]|].
      intros id B. rewrite seq_set by auto. unfold reported. cbn [filter fst]. same_id i id; cbn [map fst snd]; [|constructor]. specialize (B eq_refl). rewrite SI, !N.mod_small by lia. constructor; [lia|constructor].
    + injection E as <- <- <-. split; [auto|]. split; [intros id; same_id i id; [rewrite SI; lia|reflexivity]|]. split; [intros id; split; [tauto|intros [|]; subst; auto]|].
      exists []. split; [now rewrite app_nil_r|]. split; [intros m []|]. intros id _. constructor.
    + injection E as <- <- <-. split; [auto|]. split; [intros id; same_id i id; [rewrite SI; lia|reflexivity]|]. split; [intros id; split; [tauto|intros [|]; subst; auto]|].
      exists []. split; [now rewrite app_nil_r|]. split; [intros m []|]. intros id _. constructor.
  - injection E as <- <- <-. assert (M : ~ mentions i local) by (now apply get_none). assert (SI : seq_in i local = 0%N) by (unfold seq_in; now rewrite G).
    split; [rewrite map_app; cbn [map fst]; apply NoDup_app_snoc|]; auto.
    split; [intros id; rewrite seq_app1 by auto; same_id i id; [rewrite SI; lia|reflexivity]|].
    split; [intros id; unfold mentions; rewrite map_app, in_app_iff; cbn [map In fst]; intuition auto|].
    eexists. split; [reflexivity|]. split; [intros m [<-|[]]; split; [reflexivity|now right]|].
    intros id B. rewrite seq_app1 by auto. unfold reported. cbn [filter fst]. same_id i id; cbn [map fst snd]; [|constructor]. specialize (B eq_refl). rewrite SI, !N.mod_small by lia. constructor; [lia|constructor].
Qed.
Lemma top_cons : forall id i x r, top id ((i, x) :: r) = if bytes_eqb i id then N.max x (top id r) else top id r. Proof. reflexivity. Qed.
Lemma top_ge : forall id r x, In (id, x) r -> (x <= top id r)%N.
Proof.
  induction r as [|[i y] r IH]; intros x I; [destruct I|]. rewrite top_cons. destruct I as [E|I]; [injection E as -> ->; rewrite bytes_eqb_refl; lia|]. specialize (IH x I). destruct (bytes_eqb i id); lia.
Qed.
Lemma top_in : forall id r, top id r = 0%N \/ In (id, top id r) r.
Proof.
  induction r as [|[i y] r IH]; [now left|]. rewrite top_cons. same_id i id; [|destruct IH; [auto|right; now right]].
  destruct (N.max_spec y (top id r)) as [[_ ->]|[_ ->]]; [destruct IH as [E|I]; [left; auto|right; now right]|right; now left].
Qed.

Lemma sync_fold : forall r local miss need l' m' n', NoDup (map fst local) -> fold_left sync_entry r (local, miss, need) = (l', m', n') ->
  NoDup (map fst l') /\ (forall id, seq_in id l' = N.max (seq_in id local) (top id r)) /\ (forall id, mentions id l' <-> mentions id local \/ mentions id r) /\
  exists add, m' = miss ++ add /\ (forall m, In m add -> mentions (fst (fst m)) r /\ ((seq_in (fst (fst m)) local < seq_in (fst (fst m)) l')%N \/ ~ mentions (fst (fst m)) local)) /\
    (forall id, (forall x, In (id, x) r -> (x + 1 < two64)%N) -> chain (seq_in id local + 1) (reported id add) (seq_in id l' + 1)).
Proof.
  induction r as [|[i x] r IH]; intros local miss need l' m' n' ND E; cbn [fold_left] in E.
  - injection E as <- <- <-. split; [auto|]. split; [intros; cbn; lia|]. split; [unfold mentions; cbn; tauto|]. exists []. split; [now rewrite app_nil_r|]. split; [intros m []|]. intros. constructor.
  - destruct (sync_entry (local, miss, need) (i, x)) as [[l1 m1] n1] eqn:E1. destruct (sync_one _ _ _ _ _ _ _ ND E1) as (ND1 & S1 & M1 & a1 & -> & A1 & C1). cbn [fst snd] in *.
    destruct (IH _ _ _ _ _ _ ND1 E) as (ND2 & S2 & M2 & a2 & -> & A2 & C2). split; [auto|].
    assert (SS : forall id, seq_in id l' = N.max (seq_in id local) (top id ((i, x) :: r))).
    { intros id. rewrite S2, S1, top_cons. destruct (bytes_eqb i id); lia. }
    split; [auto|]. split; [intros id; rewrite M2, M1; unfold mentions; cbn [map fst In]; intuition auto|].
    exists (a1 ++ a2). split; [now rewrite app_assoc|]. split.
    + intros m I. apply in_app_iff in I. destruct I as [I|I].
      * destruct (A1 m I) as (Em & Hm). rewrite Em. split; [now left|]. destruct Hm as [Hm|Hm]; [left|right; auto]. rewrite SS, top_cons, bytes_eqb_refl. lia.
      * destruct (A2 m I) as (Mm & Hm). split; [now right|]. destruct Hm as [Hm|Hm]; [left; rewrite S1 in Hm; destruct (bytes_eqb i (fst (fst m))); lia|right]. intros X. apply Hm. apply M1. auto.
    + intros id B. rewrite reported_app. eapply chain_app; [apply C1|apply C2].
      * intros X. apply bytes_eqb_eq in X. subst. apply B. now left.
      * intros y I. apply B. now right.
Qed.
Lemma need_fold : forall r local miss need l' m' n', NoDup (map fst r) -> NoDup (map fst local) -> fold_left sync_entry r (local, miss, need) = (l', m', n') ->
  n' = need || existsb (fun e => (snd e <? seq_in (fst e) local)%N) r.
Proof.
  induction r as [|[i x] r IH]; intros local miss need l' m' n' NR ND E; cbn [fold_left] in E.
  - injection E as <- <- <-. cbn [existsb]. now rewrite orb_false_r.
  - inversion NR as [|? ? N1 N2]; subst. destruct (sync_entry (local, miss, need) (i, x)) as [[l1 m1] n1] eqn:E1. destruct (sync_one _ _ _ _ _ _ _ ND E1) as (ND1 & S1 & _). cbn [fst snd] in *.
    rewrite (IH _ _ _ _ _ _ N2 ND1 E). cbn [existsb fst snd]. rewrite orb_assoc. f_equal.
    + cbn [sync_entry] in E1. unfold seq_in. destruct (sv_get i local) as [l|] eqn:G.
      * destruct (N.ltb_spec l x) as [L|L]; [|destruct (N.ltb_spec x l) as [L2|L2]]; injection E1 as <- <- <-; destruct (N.ltb_spec x l); try lia; now rewrite ?orb_false_r, ?orb_true_r.
      * injection E1 as <- <- <-. destruct (N.ltb_spec x 0); [lia|]. now rewrite orb_false_r.
    + clear -S1 N1. induction r as [|[j y] r IHr]; [reflexivity|]. cbn [existsb fst snd map In] in *. rewrite S1. same_id i j; [exfalso; apply N1; now left|]. f_equal. apply IHr. tauto.
Qed.

(** ** Steps *)
Definition effect (s : sn) (o : snop) (s' : sn) : Prop :=
  n_id s' = n_id s /\
  match o with
  | SnSync None => False
  | SnSync (Some r) => exists add need, fold_left sync_entry r (n_local s, [], false) = (n_local s', add, need) /\ n_miss s' = n_miss s ++ add /\ n_seq s' = n_seq s /\ n_sent s' = n_sent s
  | SnNew true => n_seq s' = ((n_seq s + 1) mod two64)%N /\ n_local s' = sv_set (n_id s) (n_seq s') (n_local s) /\ n_miss s' = n_miss s /\ n_sent s' = n_sent s ++ [n_local s']
  | _ => n_local s' = n_local s /\ n_seq s' = n_seq s /\ n_miss s' = n_miss s /\ (n_sent s' = n_sent s \/ n_sent s' = n_sent s ++ [n_local s])
  end.
Lemma step_effect : forall s o s', sn_step s o = Ok s' -> effect s o s'.
Proof.
  intros s o s' E. destruct o as [[r|]|k|k|[|]|]; cbn [sn_step] in E; unfold effect.
  - unfold on_sync_int in E. destruct (fold_left sync_entry r (n_local s, [], false)) as [[l m] n] eqn:F. destruct (n_closed s && _); [discriminate|].
    destruct (_ || n_supp s) eqn:B; [destruct (n_supp s)|]; injection E as <-; (split; [reflexivity|]); exists m, n; (split; [reflexivity|]); (split; [reflexivity|]); split; reflexivity.
  - discriminate.
  - destruct (nth_error (n_sched s) k) as [[t b]|]; injection E as <-; repeat split; auto.
  - destruct (nth_error (n_fired s) k); [|injection E as <-; repeat split; auto]. injection E as <-. unfold on_sync_timer, reschedule, express. cbn [n_id n_local n_seq n_miss n_sent n_supp n_agg].
    destruct (n_supp s && _); cbn [n_id n_local n_seq n_miss n_sent]; repeat split; auto.
  - injection E as <-. unfold new_data, express. cbn [n_id n_local n_seq n_miss n_sent]. auto.
  - injection E as <-. cbn [new_data]. repeat split; auto.
  - unfold on_detach in E. destruct (n_closed s); [discriminate|]. injection E as <-. repeat split; auto.
Qed.
Definition sn_inv (s : sn) : Prop := NoDup (map fst (n_local s)) /\ mentions (n_id s) (n_local s).
Lemma attach_inv : forall id, sn_inv (sn_attach id).
Proof. intros. split; cbn; [repeat constructor; intros []|now left]. Qed.
Lemma effect_inv : forall s o s', sn_inv s -> effect s o s' -> sn_inv s'.
Proof.
  intros s o s' (ND & M) (Ei & E). unfold sn_inv. rewrite Ei. destruct o as [[r|]|k|k|[|]|]; try contradiction.
  - destruct E as (add & need & F & _). destruct (sync_fold _ _ _ _ _ _ _ ND F) as (N2 & _ & M2 & _). split; [auto|]. apply M2. auto.
  - destruct E as (-> & _); auto.
  - destruct E as (-> & _); auto.
  - destruct E as (_ & -> & _). unfold mentions. rewrite set_ids. auto.
  - destruct E as (-> & _); auto.
  - destruct E as (-> & _); auto.
Qed.

(** ** Histories: nodes other than this one *)
Definition top_all (id : buf) (vs : list bvec) : N := fold_right (fun v m => N.max (top id v) m) 0%N vs.
Lemma top_all_greatest : forall id vs, greatest id vs (top_all id vs).
Proof.
  intros id; induction vs as [|v vs (A & B)]; [split; [intros v y []|now left]|]. cbn [top_all fold_right]. fold (top_all id vs). split.
  - intros w y [<-|I] J; [pose proof (top_ge _ _ _ J); lia|]. specialize (A w y I J). lia.
  - destruct (N.max_spec (top id v) (top_all id vs)) as [[_ ->]|[_ ->]].
    + destruct B as [B|(w & I & J)]; [auto|right; exists w; split; [now right|auto]].
    + destruct (top_in id v) as [T|T]; [auto|right; exists v; split; [now left|auto]].
Qed.
Lemma run_learned : forall os s s' id, sn_inv s -> sn_run s os = Ok s' -> id <> n_id s ->
  sn_inv s' /\ n_id s' = n_id s /\ seq_in id (n_local s') = N.max (seq_in id (n_local s)) (top_all id (received os)) /\
  (mentions id (n_local s') <-> mentions id (n_local s) \/ exists v, In v (received os) /\ mentions id v) /\
  exists add, n_miss s' = n_miss s ++ add /\
    ((forall v x, In v (received os) -> In (id, x) v -> (x + 1 < two64)%N) -> chain (seq_in id (n_local s) + 1) (reported id add) (seq_in id (n_local s') + 1)).
Proof.
  induction os as [|o os IH]; intros s s' id I E NE; cbn [sn_run] in E.
  - injection E as <-. split; [auto|]. split; [auto|]. split; [cbn; lia|]. split; [cbn; split; [auto|intros [|(v & [] & _)]; auto]|]. exists []. split; [now rewrite app_nil_r|]. intros. constructor.
  - destruct (sn_step s o) as [s1| | |] eqn:E1; try discriminate. cbn [bind] in E. pose proof (step_effect _ _ _ E1) as F. pose proof (effect_inv _ _ _ I F) as I1. destruct F as (Ei & F).
    destruct (IH s1 s' id I1 E) as (I2 & Ei2 & S2 & M2 & a2 & A2 & C2); [congruence|].
    split; [auto|]. split; [congruence|].
    assert (K : o <> SnNew true -> (forall r, o <> SnSync (Some r)) -> n_local s1 = n_local s /\ n_miss s1 = n_miss s /\ received (o :: os) = received os).
    { clear -F. destruct o as [[r|]|k|k|[|]|]; intros X Y; try congruence; try contradiction; try (destruct F as (F1 & F2 & F3 & _); split; [exact F1|]; split; [exact F3|]; reflexivity). }
    destruct o as [[r|]|k|k|[|]|]; try contradiction; try (destruct K as (K1 & K2 & K3); [discriminate|intros ? X; discriminate|]; rewrite K3; rewrite K1 in *; split; [auto|]; split; [auto|]; exists a2; split; [congruence|auto]).
    + destruct F as (add & need & Fo & F2 & _). destruct I as (ND & _). destruct (sync_fold _ _ _ _ _ _ _ ND Fo) as (_ & S1 & M1 & a & -> & _ & C1). cbn [received top_all fold_right app] in *. fold (top_all id (received os)).
      split; [rewrite S2, S1; lia|]. split; [rewrite M2, M1; split; [intros [[|]|(v & ? & ?)]; [auto|right; exists r; split; [now left|auto]|right; exists v; split; [now right|auto]]|intros [|(v & [<-|] & ?)]; [auto|auto|right; eauto]]|].
      exists (a ++ a2). split; [rewrite A2, F2, app_assoc; reflexivity|]. intros B. rewrite reported_app. eapply chain_app; [apply C1; intros; eapply B; [now left|eauto]|apply C2; intros; eapply B; [right; eauto|eauto]].
    + destruct F as (F1 & F2 & F3 & _). cbn [received]. assert (M0 : mentions (n_id s) (n_local s)) by (destruct I; auto).
      assert (SE : seq_in id (n_local s1) = seq_in id (n_local s)) by (rewrite F2, seq_set by auto; replace (bytes_eqb (n_id s) id) with false by (symmetry; apply bytes_eqb_neq; auto); reflexivity).
      rewrite SE in *. split; [auto|]. split; [rewrite M2; unfold mentions; rewrite F2, set_ids; tauto|]. exists a2. split; [congruence|auto].
Qed.
