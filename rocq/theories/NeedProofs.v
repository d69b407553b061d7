(** Proofs about the nodes of a schema. *)
From Coq Require Import Permutation.
From Verif Require Import Base NameModel NameProofs TextModel TrieModel TrieSpec PrimModel ReaderModel CodecModel CodecLib SpecModel SchemaModel StoreModel StoreSpec StoreProofs NeedModel NeedSpec.

Section Val.
  Context {D : Type}.
  Implicit Types (e : event D).

  Lemma not_decisive : forall v, ~ decisive v -> v = Verdict 0 \/ v = Verdict 1.
  Proof.
    intros [z|] H; [|exfalso; apply H; constructor].
    destruct (Z.ltb_spec z 0); [exfalso; apply H; constructor 2; auto|].
    destruct (Z.leb_spec 2 z); [exfalso; apply H; constructor 3; auto|].
    assert (z = 0 \/ z = 1)%Z as [-> | ->] by lia; auto.
  Qed.

  Lemma accept_spec : forall v e, fst (accept_verdict v e) = true <-> decisive v.
  Proof.
    intros [z|] e; cbn [accept_verdict fst].
    - unfold VrSilence, VrBypass. rewrite orb_true_iff, Z.ltb_lt, Z.leb_le. split.
      + intros [H|H]; [constructor 2|constructor 3]; auto.
      + intros H. inversion H; auto.
    - split; intros _; [constructor|reflexivity].
  Qed.

  Lemma asked_dec : forall vs e, exists l, asked vs e l.
  Proof.
    induction vs as [|f vs IH]; intros e; [exists []; constructor|].
    destruct (fst (accept_verdict (f e) e)) eqn:A.
    - exists [f e]. constructor. apply accept_spec in A. exact A.
    - assert (N : ~ decisive (f e)) by (intros H; apply (accept_spec _ e) in H; congruence).
      destruct (f e) as [z|] eqn:E; [|exfalso; apply N; constructor]. destruct (IH (with_valid z e)) as (l & H).
      exists (f e :: l). apply (AskNext _ _ _ _ z); auto. rewrite E. exact N.
  Qed.

  Lemma asked_unique : forall vs e l, asked vs e l -> forall l', asked vs e l' -> l = l'.
  Proof.
    intros vs e l H. induction H as [e|f fs e Dc|f fs e z l E N H IH]; intros l' H'; inversion H'; subst; auto; try contradiction.
    f_equal. apply IH. replace z with z0 by congruence. auto.
  Qed.

  Lemma snoc_cons : forall {A} (a b : A) l l' x, b :: l = l' ++ [x] -> l = [] /\ b = x /\ l' = [] \/ exists l2, l = l2 ++ [x] /\ l' = b :: l2.
  Proof. intros A a b l [|c l'] x H; cbn in H; injection H as H1 H2; [left; auto|right; subst; eauto]. Qed.

  Lemma accepted_cons : forall v w l, accepted (v :: w :: l) <-> accepted (w :: l).
  Proof.
    intros v w l. split; intros (l' & z & E & H).
    - destruct l' as [|a l']; [discriminate|]. injection E as _ E. exists l', z. auto.
    - exists (v :: l'), z. rewrite E. auto.
  Qed.

  Lemma dispatch_asked : forall vs e l ret, asked vs e l -> exists e',
    dispatch_until accept_verdict vs ret e = (match l with [] => ret | _ => Some (last l NoVerdict) end, e')
    /\ ev_target e' = ev_target e /\ ev_deadline e' = ev_deadline e /\ ev_raw e' = ev_raw e /\ ev_cov e' = ev_cov e /\ ev_int e' = ev_int e /\ ev_data e' = ev_data e
    /\ ev_content e' = ev_content e /\ ev_nack e' = ev_nack e.
  Proof.
    intros vs e l ret H. revert ret. induction H as [e|f fs e Dc|f fs e z l E N H IH]; intros ret.
    - exists e. cbn. auto 10.
    - cbn [dispatch_until]. apply (accept_spec _ e) in Dc. destruct (accept_verdict (f e) e) as [s e'] eqn:A. cbn [fst] in Dc. subst s.
      exists e'. cbn [last]. split; [reflexivity|]. destruct (f e); cbn in A; inversion A; cbn; auto 10.
    - cbn [dispatch_until]. assert (A : fst (accept_verdict (f e) e) = false).
      { destruct (fst (accept_verdict (f e) e)) eqn:A; auto. apply accept_spec in A. contradiction. }
      destruct (accept_verdict (f e) e) as [s e1] eqn:A1. cbn [fst] in A. subst s.
      assert (E1 : e1 = with_valid z e) by (rewrite E in A1; cbn in A1; congruence). subst e1.
      destruct (IH (Some (f e))) as (e' & Q & R). exists e'. rewrite Q. split; [|exact R].
      destruct l; cbn [last]; reflexivity.
  Qed.

  Lemma accepted_last : forall l, accepted l <-> match l with [] => False | _ => exists z, last l NoVerdict = Verdict z /\ (0 < z)%Z end.
  Proof.
    intros l. destruct l as [|v l].
    - split; [intros (l' & z & E & _); destruct l'; discriminate|contradiction].
    - split.
      + intros (l' & z & E & H). rewrite E, last_last. eauto.
      + intros (z & E & H). exists (removelast (v :: l)), z. split; auto. rewrite <- E. apply app_removelast_last. discriminate.
  Qed.

  Lemma validate_ok : forall vs e l, asked vs (with_valid 0 e) l -> exists b e',
    validate vs e = (b, e') /\ (b = true <-> accepted l)
    /\ ev_target e' = ev_target e /\ ev_deadline e' = ev_deadline e /\ ev_raw e' = ev_raw e /\ ev_cov e' = ev_cov e /\ ev_int e' = ev_int e /\ ev_data e' = ev_data e
    /\ ev_content e' = ev_content e /\ ev_nack e' = ev_nack e.
  Proof.
    intros vs e l H. destruct (dispatch_asked _ _ _ None H) as (e' & Q & R). unfold validate. unfold VrSilence at 1.
    change VrSilence with 0%Z. rewrite Q. cbn [with_valid ev_target ev_deadline ev_raw ev_cov ev_int ev_data ev_content ev_nack] in R.
    pose proof (accepted_last l) as AL. destruct l as [|v l].
    - exists false, e'. split; [reflexivity|]. split; [rewrite AL; split; [discriminate|contradiction]|exact R].
    - destruct (last (v :: l) NoVerdict) as [z|].
      + exists (0 <? z)%Z, e'. split; [reflexivity|]. split; [|exact R]. rewrite AL, Z.ltb_lt. split; [eauto|]. intros (z' & E & P). congruence.
      + exists false, e'. split; [reflexivity|]. split; [|exact R]. rewrite AL. split; [discriminate|]. intros (z' & E & _). discriminate.
  Qed.

  Lemma asked_sound : forall vs e l, asked vs e l -> accepted l -> valid_by_rule l.
  Proof.
    intros vs e l H. induction H as [e|f fs e Dc|f fs e z l E N H IH]; intros A.
    - destruct A as (l' & z & E & _). destruct l'; discriminate.
    - destruct A as (l' & z & E & P). destruct l' as [|? [|]]; try discriminate. injection E as E. split.
      + exists z. rewrite E. split; [left; auto|auto].
      + intros v [<-|[]]. exists z. split; [auto|lia].
    - destruct (not_decisive _ N) as [Z0|Z0].
      + destruct l as [|v l].
        { destruct A as (l' & z' & E' & P). destruct l' as [|? [|]]; try discriminate. injection E' as E'. rewrite E' in Z0. injection Z0 as ->. lia. }
        apply (proj1 (accepted_cons _ _ _)) in A. destruct (IH A) as [(z' & I' & P) Q]. split; [exists z'; split; [right; auto|auto]|].
        intros w [<-|W]; [|auto]. rewrite Z0. exists 0%Z. split; [auto|lia].
      + split; [exists 1%Z; split; [left; auto|lia]|]. intros w [<-|W]; [rewrite Z0; exists 1%Z; split; [auto|lia]|].
        destruct l as [|v l]; [destruct W|]. apply (proj1 (accepted_cons _ _ _)) in A. apply IH; auto.
  Qed.
End Val.

Section Node.
  Context {D : Type} (sha : buf -> buf).
  Implicit Types (e : event D) (p : point D) (x : mnode D).

  Lemma refine_total : forall x n, exists t, refine x n = Ok t.
  Proof.
    intros x n. unfold refine. destruct (is_prefix (m_name x) n) eqn:P; cbn [negb]; [eauto|].
    destruct (rev (m_name x)) as [|c r] eqn:R.
    - apply (f_equal (@rev comp)) in R. rewrite rev_involutive in R. cbn in R. rewrite R in P. discriminate.
    - destruct (_ || _)%bool; eauto.
  Qed.

  Lemma need_result_one : forall p x dl a, exists acts, need_result p x dl a = Ok acts /\ calls acts = 1%nat /\ expressed_in acts = 0%nat.
  Proof.
    intros p x dl [d raw cov|r|]; cbn [need_result]; [|eexists; split; [reflexivity|split; reflexivity]..].
    destruct (refine_total x (the_name (d_name d))) as (t & ->). cbn [bind]. destruct (validate _ _) as [[] e2]; eexists; split; [reflexivity|split; reflexivity|reflexivity|split; reflexivity].
  Qed.

  Lemma need_start : forall F p x app cfg sup nonce acts ok, need sha F p x app cfg sup nonce = Ok (acts, ok) ->
    (calls acts = 1%nat /\ expressed_in acts = 0%nat) \/ (exists w fn c, acts = [AExpress w fn c] /\ ok = true).
  Proof.
    intros F p x app cfg sup nonce acts ok H. unfold need in H.
    match type of H with bind ?M _ = _ => destruct M as [[ev|]| | |] end; cbn [bind] in H; try discriminate.
    - injection H as <- <-. left. split; reflexivity.
    - destruct (make_interest _ _ _ _ _) as [[[w cv] fn]| | |]; try discriminate.
      + destruct (p_supress p || sup)%bool; injection H as <- <-; [left; split; reflexivity|right; eauto].
      + injection H as <- <-. left; split; reflexivity.
  Qed.

  Lemma data_result : forall p x dl d raw cov, exists e0 l acts,
    ev_data e0 = Some d /\ ev_raw e0 = Some raw /\ ev_cov e0 = Some cov /\ ev_content e0 = d_content d /\ ev_valid e0 = Some 0%Z
    /\ (exists t, refine x (the_name (d_name d)) = Ok t /\ ev_target e0 = t)
    /\ asked (p_valid_data p) e0 l /\ need_result p x dl (XData d raw cov) = Ok acts
    /\ (accepted l -> exists e, acts = [ASave e; ACall e] /\ ev_status e = Some SData /\ ev_content e = d_content d /\ ev_data e = Some d
          /\ ev_raw e = Some raw /\ ev_dur e = d_freshness d /\ ev_target e = ev_target e0)
    /\ (~ accepted l -> exists e, acts = [ACall e] /\ ev_status e = Some SUnverified /\ ev_content e = None).
  Proof.
    intros p x dl d raw cov. destruct (refine_total x (the_name (d_name d))) as (t & R).
    set (e1 := mkEvent t dl (Some raw) (Some cov) None (Some d) None None (d_content d) None None (Some false) None None).
    destruct (asked_dec (p_valid_data p) (with_valid 0 e1)) as (l & A). destruct (validate_ok _ _ _ A) as (b & e2 & V & B & E1 & E2 & E3 & E4 & E5 & E6 & E7 & E8).
    exists (with_valid 0 e1), l, (if b then [ASave (finished SData (d_content d) (d_freshness d) e2); ACall (finished SData (d_content d) (d_freshness d) e2)] else [ACall (finished SUnverified None None e2)]).
    repeat (split; [reflexivity|]). split; [exists t; split; [exact R|reflexivity]|]. split; [exact A|].
    cbn [need_result]. rewrite R. cbn [bind]. fold e1. rewrite V. split; [destruct b; reflexivity|].
    destruct b.
    - split; [intros _|intros N; exfalso; apply N, B; auto]. eexists. split; [reflexivity|]. cbn. rewrite E6, E3, E1. auto 10.
    - split; [intros X; apply B in X; discriminate|]. intros _. eexists. split; [reflexivity|]. split; reflexivity.
  Qed.
End Node.

Section Search.
  Context {D : Type}.
  Implicit Types (e : event D) (p : point D) (x : mnode D).

  Definition search_acc : option wire -> event D -> bool * event D := fun a e => (match a with Some w => (0 <? length w)%nat | None => false end, e).

  Lemma dispatch_finds : forall ls e w ret, finds e ls w -> fst (dispatch_until search_acc ls ret e) = Some (Some w).
  Proof.
    intros ls e w ret H. revert ret. induction H as [f fs b w E|f fs w N H IH]; intros ret; cbn [dispatch_until search_acc].
    - rewrite E. reflexivity.
    - destruct (f e) as [[|b w']|] eqn:E; cbn [length Nat.ltb Nat.leb]; try apply IH. exfalso. apply N. exists b, w'. auto.
  Qed.

  Lemma dispatch_nothing : forall ls e ret, (forall f, In f ls -> ~ has_something (f e)) -> (forall r, ret = Some r -> ~ has_something r) ->
    forall r, fst (dispatch_until search_acc ls ret e) = Some r -> ~ has_something r.
  Proof.
    induction ls as [|f ls IH]; intros e ret H R r E; cbn [dispatch_until search_acc fst] in E; [auto|].
    assert (N : ~ has_something (f e)) by (apply H; left; auto).
    assert (B : match f e with Some w => (0 <? length w)%nat | None => false end = false).
    { destruct (f e) as [[|b w]|]; auto. exfalso. apply N. exists b, w. auto. }
    rewrite B in E. apply (IH e (Some (f e))) with (r := r); auto.
    - intros g G. apply H. right. auto.
    - intros r' [= <-]. exact N.
  Qed.

  Lemma finds_dec : forall ls e, (exists w, finds e ls w) \/ (forall f, In f ls -> ~ has_something (f e)).
  Proof.
    induction ls as [|f ls IH]; intros e; [right; intros f []|].
    destruct (f e) as [[|b w]|] eqn:E.
    2: left; exists (b :: w); constructor; auto.
    all: assert (N : ~ has_something (f e)) by (rewrite E; intros (b & w & H); discriminate);
      destruct (IH e) as [(w & H)|H]; [left; exists w; apply FindLater; auto|right; intros g [<-|G]; auto].
  Qed.

  (** the event search listeners see *)
  Definition search_event (c : interest_config) e : event D := with_int_cfg (Some c) e.
  Lemma search_found : forall p e c w, ev_int_cfg e = Some c -> finds (search_event c e) (p_search p) w -> search_cache p e = Some w.
  Proof. intros p e c w C H. unfold search_cache. rewrite C. fold search_acc. change (with_int_cfg (Some c) e) with (search_event c e). rewrite (dispatch_finds _ _ _ None H). reflexivity. Qed.
  Lemma search_none : forall p e c, ev_int_cfg e = Some c -> (forall f, In f (p_search p) -> ~ has_something (f (search_event c e))) -> ~ has_something (search_cache p e).
  Proof.
    intros p e c C H. unfold search_cache. rewrite C. fold search_acc. change (with_int_cfg (Some c) e) with (search_event c e).
    destruct (fst (dispatch_until search_acc (p_search p) None (search_event c e))) as [r|] eqn:E.
    - apply (dispatch_nothing _ _ None H) in E; auto. discriminate.
    - intros (b & w & X). discriminate.
  Qed.
  Definition int_flags (i : list value) : interest_config := mkIC (i_can_be_prefix i) (i_must_be_fresh i) None None None None.
  Lemma search_found_int : forall p e i w, ev_int_cfg e = None -> ev_int e = Some i -> finds (search_event (int_flags i) e) (p_search p) w -> search_cache p e = Some w.
  Proof. intros p e i w C I H. unfold search_cache. rewrite C, I. fold search_acc. change (with_int_cfg _ e) with (search_event (int_flags i) e). rewrite (dispatch_finds _ _ _ None H). reflexivity. Qed.
  Lemma search_none_int : forall p e i, ev_int_cfg e = None -> ev_int e = Some i -> (forall f, In f (p_search p) -> ~ has_something (f (search_event (int_flags i) e))) -> ~ has_something (search_cache p e).
  Proof.
    intros p e i C I H. unfold search_cache. rewrite C, I. fold search_acc. change (with_int_cfg _ e) with (search_event (int_flags i) e).
    destruct (fst (dispatch_until search_acc (p_search p) None (search_event (int_flags i) e))) as [r|] eqn:E.
    - apply (dispatch_nothing _ _ None H) in E; auto. discriminate.
    - intros (b & w & X). discriminate.
  Qed.

  (** the name looked up for an Interest: without a final implicit digest *)
  Definition lookup_name (n : name) : name :=
    match rev n with c :: r => if (ctyp c =? TypeImplicitSha256Digest)%N then rev r else n | [] => [] end.
  Definition int_event (path : list pat) (nd : stree D) (m : matching) (i : list value) (raw cov : wire) (dl : Z) : event D :=
    mkEvent (Some (mkM path nd m (lookup_name (the_name (i_name i))))) (Some dl) (Some raw) (Some cov) (Some i) None None None (i_app_param i) None None None None None.

  Lemma on_interest_eq : forall p path nd m i raw cov dl, the_name (i_name i) <> [] ->
    on_interest p path nd m i raw cov dl =
    match search_cache p (int_event path nd m i raw cov dl) with
    | Some (b :: w) => Ok [AReply (b :: w)]
    | _ => if negb (i_sig_type i =? SigNone)%Z || match i_app_param i with Some _ => true | None => false end then
             Ok (if fst (validate (p_valid_int p) (int_event path nd m i raw cov dl)) then [AHandle (snd (validate (p_valid_int p) (int_event path nd m i raw cov dl)))] else [])
           else Ok [AHandle (int_event path nd m i raw cov dl)]
    end.
  Proof.
    intros p path nd m i raw cov dl NE. unfold on_interest, int_event, lookup_name. destruct (rev (the_name (i_name i))) as [|c r] eqn:R.
    - apply (f_equal (@rev comp)) in R. rewrite rev_involutive in R. cbn in R. contradiction.
    - cbv zeta. destruct (validate _ _) as [b e']. reflexivity.
  Qed.

  Lemma interest_result : forall p path nd m i raw cov dl, the_name (i_name i) <> [] -> exists e0 acts,
    ev_int e0 = Some i /\ ev_raw e0 = Some raw /\ ev_cov e0 = Some cov /\ ev_content e0 = i_app_param i /\ ev_deadline e0 = Some dl
    /\ (exists x, ev_target e0 = Some x /\ m_path x = path /\ m_node x = nd /\ m_match x = m /\ m_name x = lookup_name (the_name (i_name i)))
    /\ on_interest p path nd m i raw cov dl = Ok acts
    /\ (forall w, finds (search_event (int_flags i) e0) (p_search p) w -> acts = [AReply w])
    /\ ((forall f, In f (p_search p) -> ~ has_something (f (search_event (int_flags i) e0))) ->
        exists l, asked (p_valid_int p) (with_valid 0 e0) l /\
          ((i_sig_type i <> SigNone \/ i_app_param i <> None) -> accepted l -> exists e, acts = [AHandle e] /\ ev_int e = Some i /\ ev_content e = i_app_param i)
          /\ ((i_sig_type i <> SigNone \/ i_app_param i <> None) -> ~ accepted l -> acts = [])
          /\ (i_sig_type i = SigNone -> i_app_param i = None -> acts = [AHandle e0])).
  Proof.
    intros p path nd m i raw cov dl NE. set (e0 := int_event path nd m i raw cov dl).
    assert (Q : exists acts, on_interest p path nd m i raw cov dl = Ok acts).
    { rewrite on_interest_eq by auto. destruct (search_cache _ _) as [[|b w]|]; try (eexists; reflexivity); destruct (_ || _)%bool; eexists; reflexivity. }
    destruct Q as (acts & Q). exists e0, acts. repeat (split; [reflexivity|]).
    split; [eexists; split; [reflexivity|]; repeat split|]. split; [exact Q|]. rewrite on_interest_eq in Q by auto. fold e0 in Q. split.
    - intros w F. rewrite (search_found_int p e0 i w eq_refl eq_refl F) in Q. inversion F; subst; [congruence|].
      destruct w as [|b w]; [exfalso|congruence].
      clear - F. assert (X : forall ls (e : event D), finds e ls [] -> False); [|eapply X; eauto].
      intros ls e Y. remember ([] : wire) as z. induction Y; [discriminate|auto].
    - intros N. pose proof (search_none_int p e0 i eq_refl eq_refl N) as SN.
      assert (Q1 : (if negb (i_sig_type i =? SigNone)%Z || match i_app_param i with Some _ => true | None => false end
                   then Ok (if fst (validate (p_valid_int p) e0) then [AHandle (snd (validate (p_valid_int p) e0))] else [])
                   else Ok [AHandle e0]) = Ok acts).
      { destruct (search_cache p e0) as [[|b w]|]; auto. exfalso. apply SN. exists b, w. auto. }
      clear Q SN. destruct (asked_dec (p_valid_int p) (with_valid 0 e0)) as (l & A). exists l. split; [exact A|].
      destruct (validate_ok _ _ _ A) as (b & e2 & V & B & _ & _ & _ & _ & E5 & _ & E7 & _). rewrite V in Q1. cbn [fst snd] in Q1.
      assert (C : (i_sig_type i <> SigNone \/ i_app_param i <> None) -> (negb (i_sig_type i =? SigNone)%Z || match i_app_param i with Some _ => true | None => false end) = true).
      { intros [H|H]; [apply orb_true_iff; left; apply negb_true_iff, Z.eqb_neq; auto|apply orb_true_iff; right; destruct (i_app_param i); congruence]. }
      split; [|split].
      + intros H AC. rewrite (C H) in Q1. apply B in AC. subst b. exists e2. split; [congruence|]. rewrite E5, E7. split; reflexivity.
      + intros H AC. rewrite (C H) in Q1. destruct b; [exfalso; apply AC, B; auto|congruence].
      + intros H1 H2. rewrite H1, H2, Z.eqb_refl in Q1. cbn in Q1. congruence.
  Qed.
End Search.

(** ** with the memory storage *)
From Verif Require Import PropsStore.
Section Mem.
  Context {D : Type}.
  Implicit Types (e : event D) (p : point D) (x : mnode D).

  Lemma puts_app : forall a b h, s_puts h (a ++ b) = (do h' <- s_puts h a; s_puts h' b).
  Proof.
    induction a as [|[[n w] v] a IH]; intros b h; cbn [app s_puts]; [reflexivity|].
    destruct (s_put h n w v); cbn [bind]; auto.
  Qed.

  Lemma mem_finds : forall ord puts h now n w v e x c, (forall m l, Permutation l (ord m l)) -> s_puts s_new puts = Ok h -> latest puts (n, w, v) -> w <> [] ->
    ev_target e = Some x -> same_name (m_name x) n -> ev_int_cfg e = Some c -> (ic_fresh c = true -> (now < v)%Z) -> mem_search ord h now e = Some w.
  Proof.
    intros ord puts h now n w v e x c O E L NE T S C F. unfold mem_search. rewrite T, C.
    destruct (C39_get puts) as (h' & E' & G). assert (h' = h) by congruence. subst h'. destruct (G ord now (m_name x) (ic_prefix c) (ic_fresh c) O) as (r & R & _ & _ & X).
    rewrite R. apply (X n w v S L). split; auto.
  Qed.

  Lemma saved : forall puts h now e x d w, s_puts s_new puts = Ok h -> ev_target e = Some x -> ev_dur e = Some d -> ev_raw e = Some w ->
    exists h', mem_save h now e = Ok h' /\ s_puts s_new (puts ++ [(m_name x, w, now + d)%Z]) = Ok h'.
  Proof.
    intros puts h now e x d w E T Du Ra. destruct (C39_get (puts ++ [(m_name x, w, now + d)%Z])) as (h' & E' & _). exists h'. split; [|auto].
    rewrite puts_app, E in E'. cbn [bind s_puts] in E'. unfold mem_save. rewrite T, Du, Ra. destruct (s_put _ _ _ _); cbn [bind] in E'; congruence.
  Qed.

  Lemma latest_last : forall puts (a : name * wire * Z), latest (puts ++ [a]) a.
  Proof. intros puts a. exists puts, []. split; [reflexivity|]. intros q []. Qed.
End Mem.

(** ** with the engine *)
From Verif Require Import EngineModel EngineSpec EngineProofs EngineProofs2 PropsEngine.
Lemma expressed_app : forall os1 os2 now, expressed now (os1 ++ os2) = expressed now os1 ++ expressed (now + elapsed os1) os2.
Proof.
  induction os1 as [|o os1 IH]; intros os2 now; cbn [app expressed elapsed]; [rewrite Z.add_0_r; reflexivity|].
  destruct o as [nm cbp life| | |d| |]; try apply IH.
  - destruct nm; rewrite IH; reflexivity.
  - rewrite IH, Z.add_assoc. reflexivity.
Qed.

Lemma run_grows : forall later os g1 g, e_run eng_new os = Ok g1 -> e_run eng_new (os ++ later) = Ok g -> exists new, g_log g = g_log g1 ++ new.
Proof.
  induction later as [|o later IH] using rev_ind; intros os g1 g E1 E.
  - rewrite app_nil_r in E. exists []. rewrite app_nil_r. congruence.
  - rewrite app_assoc, e_run_app in E. destruct (e_run eng_new (os ++ later)) as [g2| | |] eqn:E2; cbn [bind e_run] in E; try discriminate.
    destruct (IH os g1 g2 E1 E2) as (new & H). destruct (reach_inv _ _ E2) as [EI _].
    destruct (e_step g2 o) as [g3| | |] eqn:ST; cbn [bind] in E; try discriminate. destruct (step_cause _ _ _ _ EI ST) as (new2 & H2 & _).
    exists (new ++ new2). assert (g3 = g) by congruence. subst g3. rewrite H2, H, app_assoc. reflexivity.
Qed.

Lemma called_grows : forall os later g1 g i, e_run eng_new os = Ok g1 -> e_run eng_new (os ++ later) = Ok g -> In i (called g1) -> In i (called g).
Proof. intros os later g1 g i E1 E H. destruct (run_grows later os g1 g E1 E) as (new & L). unfold called in *. rewrite L, map_app. apply in_or_app. auto. Qed.

Lemma count_results : forall g i, count_occ Nat.eq_dec (called g) i = length (results_of g i).
Proof.
  intros g i. unfold called, results_of, callbacks. rewrite map_length. induction (g_log g) as [|[j r] l IH]; [reflexivity|]. cbn [map fst count_occ filter].
  destruct (Nat.eq_dec j i) as [->|NE]; [rewrite Nat.eqb_refl; cbn [length]; rewrite IH; reflexivity|]. apply Nat.eqb_neq in NE. rewrite NE. exact IH.
Qed.

Lemma need_once : forall fn c, fn <> [] -> forall before after later, let i := length (expressed 0 before) in
  let os := before ++ EExpress fn (ic_prefix c) (ic_life c) :: after in
  ~ nacked (os ++ later) i -> (elapsed before + match ic_life c with Some l => l | None => 4000000000 end + 10000000 <= elapsed os)%Z ->
  exists g, e_run eng_new (os ++ EFire i :: ERun i :: later) = Ok g /\ count_occ Nat.eq_dec (called g) i = 1%nat.
Proof.
  intros fn c NE before after later i os NN DUE.
  destruct (C25_called_when_due os i (mkX fn (ic_prefix c) (elapsed before + match ic_life c with Some l => l | None => 4000000000 end))) as (g1 & R1 & IN1).
  - unfold os, i. rewrite expressed_app. rewrite nth_error_app2, Nat.sub_diag by lia. cbn [expressed]. destruct fn; [congruence|]. reflexivity.
  - exact DUE.
  - destruct (C25_callback_or_timer (os ++ EFire i :: ERun i :: later)) as (g & R & _). exists g. split; [exact R|].
    assert (NN' : ~ nacked (os ++ EFire i :: ERun i :: later) i).
    { intros (x & b & nm & r & X & B & H & K). apply NN. exists x, b, nm, r. rewrite expressed_app in *. cbn [expressed] in X. split; [exact X|]. split; [exact B|].
      split; [|exact K]. apply in_app_iff in H. apply in_app_iff. destruct H as [H|[H|[H|H]]]; auto; discriminate. }
    pose proof (C25_at_most_once_partial _ g i R NN') as ONE.
    assert (INg : In i (called g)).
    { replace (os ++ EFire i :: ERun i :: later) with ((os ++ [EFire i; ERun i]) ++ later) in R by (rewrite <- app_assoc; reflexivity).
      exact (called_grows _ _ _ _ _ R1 R IN1). }
    apply (count_occ_In Nat.eq_dec) in INg. rewrite count_results in *. destruct ONE as [Z|[r Z]]; rewrite Z in *; cbn [length] in *; lia.
Qed.

Lemma lookup_bare : forall n b, bare n b -> n <> [] /\ lookup_name n = b.
Proof.
  intros n b H. unfold lookup_name. destruct H as [nm c T|nm c T]; rewrite rev_unit; (split; [destruct nm; discriminate|]).
  - apply N.eqb_neq in T. rewrite T. reflexivity.
  - apply N.eqb_eq in T. rewrite T, rev_involutive. reflexivity.
Qed.

Lemma interest_at_node : forall D (p : point D) path nd m i raw cov dl n b, i_name i = Some n -> bare n b -> exists e0 acts,
  ev_int e0 = Some i /\ ev_raw e0 = Some raw /\ ev_cov e0 = Some cov /\ ev_content e0 = i_app_param i /\ ev_deadline e0 = Some dl
  /\ ev_target e0 = Some (mkM path nd m b)
  /\ on_interest p path nd m i raw cov dl = Ok acts
  /\ let query := with_int_cfg (Some (mkIC (i_can_be_prefix i) (i_must_be_fresh i) None None None None)) e0 in
     (forall w, finds query (p_search p) w -> acts = [AReply w])
     /\ ((forall f, In f (p_search p) -> ~ has_something (f query)) ->
         exists l, asked (p_valid_int p) (with_valid 0 e0) l
           /\ ((i_sig_type i <> SigNone \/ i_app_param i <> None) -> accepted l -> exists e, acts = [AHandle e] /\ ev_int e = Some i /\ ev_content e = i_app_param i)
           /\ ((i_sig_type i <> SigNone \/ i_app_param i <> None) -> ~ accepted l -> acts = [])
           /\ (i_sig_type i = SigNone -> i_app_param i = None -> acts = [AHandle e0])).
Proof.
  intros D p path nd m i raw cov dl n b N B. destruct (lookup_bare n b B) as [NE LB].
  destruct (interest_result p path nd m i raw cov dl) as (e0 & acts & H1 & H2 & H3 & H4 & H5 & (x & T & X1 & X2 & X3 & X4) & H6 & H7 & H8).
  - rewrite N. exact NE.
  - exists e0, acts. repeat (split; [assumption|]). split; [|split; [exact H6|split; [exact H7|exact H8]]].
    rewrite T. destruct x as [a1 a2 a3 a4]. cbn in X1, X2, X3, X4. subst a1 a2 a3. rewrite X4, N. cbn [the_name]. rewrite LB. reflexivity.
Qed.

Lemma finds_nonempty : forall E (e : E) ls w, finds e ls w -> w <> [].
Proof. intros E e ls w H. induction H; [discriminate|auto]. Qed.

Lemma finds_cases : forall E (e : E) ls, (exists w, finds e ls w) \/ (forall f, In f ls -> ~ has_something (f e)).
Proof.
  intros E e ls. induction ls as [|f ls IH]; [right; intros f []|].
  destruct (f e) as [[|b w]|] eqn:Q.
  2: left; exists (b :: w); constructor; auto.
  all: assert (N : ~ has_something (f e)) by (rewrite Q; intros (b & w & H); discriminate);
    destruct IH as [(w & H)|H]; [left; exists w; apply FindLater; auto|right; intros g [<-|G]; auto].
Qed.

(** ** provided and fetched Data is served *)
Lemma refine_name : forall D (x : mnode D) n t, refine x n = Ok (Some t) -> m_name t = n.
Proof.
  intros D x n t H. unfold refine in H. destruct (negb _).
  - destruct (rev (m_name x)); [discriminate|]. destruct (_ || _)%bool; [discriminate|]. injection H as <-. reflexivity.
  - destruct (continue_match _ _ _) as [[[q u] m]|]; [|discriminate]. injection H as <-. reflexivity.
Qed.

Lemma latest_other : forall puts more a, (forall q, In q more -> ~ same_name (fst (fst q)) (fst (fst a))) -> latest (puts ++ a :: more) a.
Proof. intros puts more a H. exists puts, more. auto. Qed.

Lemma reply_latest : forall D (p : point D) ord puts h now n w v rest path nd m i raw cov dl nm b, (forall k l, Permutation l (ord k l)) -> s_puts s_new puts = Ok h ->
  latest puts (n, w, v) -> w <> [] -> p_search p = mem_search ord h now :: rest ->
  i_name i = Some nm -> bare nm b -> same_name b n -> (i_must_be_fresh i = true -> (now < v)%Z) ->
  on_interest p path nd m i raw cov dl = Ok [AReply w].
Proof.
  intros D p ord puts h now n w v rest path nd m i raw cov dl nm b O E L NE P N B S F.
  destruct (interest_at_node D p path nd m i raw cov dl nm b N B) as (e0 & acts & _ & _ & _ & _ & _ & T & R & Q & _). rewrite R. f_equal. apply Q. rewrite P.
  destruct w as [|w0 w]; [congruence|]. apply FindHere.
  exact (mem_finds ord puts h now n (w0 :: w) v (with_int_cfg (Some (int_flags i)) e0) _ (int_flags i) O E L NE T S eq_refl F).
Qed.

Lemma provide_saves : forall D (l : leaf D) x content cfg now acts w puts h, provide l x content cfg now = Ok (acts, Some w) -> s_puts s_new puts = Ok h ->
  exists e h', acts = [ASave e] /\ mem_save h now e = Ok h' /\ s_puts s_new (puts ++ [(m_name x, w, now + l_valid l)%Z]) = Ok h'.
Proof.
  intros D l x content cfg now acts w puts h H E. unfold provide in H.
  destruct (make_data _ _ _ _) as [[w1 cv]| | |]; try discriminate. injection H as <- <-.
  match goal with |- context [ASave ?ev] => destruct (saved puts h now ev x (l_valid l) w1 E eq_refl eq_refl eq_refl) as (h' & S1 & S2); exists ev, h' end. auto.
Qed.

From Verif Require Import CodecSpec.
Lemma tlv_nonempty : forall t b, tlv t b <> [].
Proof.
  intros t b H. unfold tlv in H. apply app_eq_nil in H. destruct H as [H _]. revert H.
  unfold tl_enc. repeat match goal with |- context [if ?c then _ else _] => destruct c end; discriminate.
Qed.

From Verif Require Import CodecSpec2 SpecSpec PropsSpec.
Lemma search_nothing : forall D (p : point D) e, (forall f c, In f (p_search p) -> f (with_int_cfg c e) = None) -> search_cache p e = None.
Proof.
  intros D p e H. unfold search_cache. match goal with |- context [with_int_cfg ?c e] => specialize (fun f => H f c); generalize dependent (with_int_cfg c e) end.
  intros e1 H. assert (X : forall ls ret, (forall f, In f ls -> f e1 = None) -> (ret = None \/ ret = Some None) ->
    match fst (dispatch_until (fun (a : option wire) (e : event D) => (match a with Some w => (0 <? length w)%nat | None => false end, e)) ls ret e1) with Some r => r | None => None end = None).
  { induction ls as [|f ls IH]; intros ret A B; cbn [dispatch_until].
    - destruct B as [-> | ->]; reflexivity.
    - rewrite (A f) by (left; auto). apply IH; auto. intros g G. apply A. right. auto. }
  apply X; auto.
Qed.

Lemma need_plain : forall D sha F (p : point D) x cfg sup nonce, p_signers p = [] -> name_typed (m_name x) -> interest_config_ok (int_config p cfg nonce) ->
  (interest_size (m_name x) (int_config p cfg nonce) None + 1000 < packet_limit)%N ->
  (forall f e, In f (p_search p) -> ev_target e = Some x -> f e = None) ->
  exists acts, need sha F p x None cfg sup nonce = Ok (acts, true) /\
    (p_supress p = false -> sup = false -> exists w, acts = [AExpress w (base_name (m_name x)) (int_config p cfg nonce)]
       /\ concat w = interest_packet (base_name (m_name x)) (int_config p cfg nonce) None None None).
Proof.
  intros D sha F p x cfg sup nonce SG NT IC SZ NO.
  destruct (C21_plain_partial sha (m_name x) (int_config p cfg nonce) None (S (length (interest_packet (base_name (m_name x)) (int_config p cfg nonce) None None None))) NT IC eq_refl SZ (Nat.lt_succ_diag_r _))
    as (w & i & cv & M & CW & _).
  unfold need. rewrite SG. unfold get_signer. cbn [dispatch_until fst].
  rewrite search_nothing by (intros f c IN; apply NO; auto). cbn [bind]. rewrite M.
  destruct (p_supress p || sup)%bool eqn:SU.
  - eexists. split; [reflexivity|]. intros H1 H2. rewrite H1, H2 in SU. discriminate.
  - eexists. split; [reflexivity|]. intros _ _. exists w. auto.
Qed.

Lemma provide_unsigned : forall D (l : leaf D) x content cfg now, l_signers l = [] -> let c := match cfg with Some c => c | None => mkDC (Some (l_type l)) (Some (l_fresh l)) None end in
  name_typed (m_name x) -> data_config_ok c -> (data_size (m_name x) c content < packet_limit)%N ->
  exists acts w, provide l x content cfg now = Ok (acts, Some w) /\ concat w = data_packet (m_name x) c content None None.
Proof.
  intros D l x content cfg now SG c NT DC SZ.
  destruct (C19_unsigned_partial (m_name x) c content None None (S (length (data_packet (m_name x) c content None None))) NT DC eq_refl) as (w & d & cv & M & CW & _); [cbn [olen]; lia|lia|].
  unfold provide. fold c. rewrite SG. unfold get_signer. cbn [dispatch_until fst]. rewrite M. eauto.
Qed.

Lemma provide_signed : forall D (l : leaf D) x content cfg now s ls sc sig, l_signers l = (fun _ => Some s) :: ls -> let c := match cfg with Some c => c | None => mkDC (Some (l_type l)) (Some (l_fresh l)) None end in
  name_typed (m_name x) -> data_config_ok c -> data_sig_ok sc -> sg_info s = Ok (Some sc) ->
  (forall cov, concat cov = data_part (m_name x) c content (Some sc) -> sg_sign s cov = Ok sig) ->
  fits (sg_est s) (nlen sig) -> (data_size (m_name x) c content + sig_size sc + sg_est s < packet_limit)%N ->
  exists acts w, provide l x content cfg now = Ok (acts, Some w) /\ concat w = data_packet (m_name x) c content (Some sc) (Some sig).
Proof.
  intros D l x content cfg now s ls sc sig SG c NT DC DS SI SS FI SZ.
  destruct (C19_signed_partial (m_name x) c content s sc sig (S (length (data_packet (m_name x) c content (Some sc) (Some sig)))) NT DC DS SI SS FI SZ (Nat.lt_succ_diag_r _)) as (w & cv & d & cv' & M & CW & _).
  unfold provide. fold c. rewrite SG. unfold get_signer. cbn [dispatch_until fst]. rewrite M. eauto.
Qed.

Lemma app_cons_assoc : forall {A} (l : list A) a m, l ++ a :: m = (l ++ [a]) ++ m.
Proof. intros A l a m. rewrite <- app_assoc. reflexivity. Qed.

Lemma accepted_dec : forall l, accepted l \/ ~ accepted l.
Proof.
  intros l. pose proof (accepted_last l) as H. destruct l as [|v l]; [right; rewrite H; auto|].
  destruct (last (v :: l) NoVerdict) as [z|]; [|right; rewrite H; intros (z & E & _); discriminate].
  destruct (Z.ltb_spec 0 z); [left; apply H; eauto|right; rewrite H; intros (z' & E & P); injection E as ->; lia].
Qed.

(** ** Need answered from the memory storage *)
From Verif Require Import PropsName.
Lemma refine_same : forall D (x : mnode D), refine x (m_name x) = Ok (Some x).
Proof.
  intros D [pa nd m n]. unfold refine. cbn [m_name m_path m_node m_match]. rewrite (proj1 C08_partial_order n). cbn [negb]. rewrite skipn_all. cbn [continue_match]. rewrite app_nil_r. reflexivity.
Qed.
Lemma no_signer : forall D (p : point D) e, (forall f e, In f (p_signers p) -> f e = None) -> get_signer (p_signers p) e = None.
Proof.
  intros D p e H. unfold get_signer. generalize dependent (p_signers p). intros ls H.
  assert (X : forall ret, ret = None \/ ret = Some None -> match fst (dispatch_until (fun (a : option signer) (e : event D) => (match a with Some _ => true | None => false end, e)) ls ret e) with Some r => r | None => None end = None).
  { induction ls as [|f ls IH]; intros ret B; cbn [dispatch_until].
    - destruct B as [-> | ->]; reflexivity.
    - rewrite (H f) by (left; auto). apply IH; auto. intros g e0 G. apply H. right. auto. }
  apply X. auto.
Qed.
Lemma need_latest : forall D sha F (p : point D) ord puts h now w v rest x cfg sup nonce d cov, (forall k l, Permutation l (ord k l)) -> s_puts s_new puts = Ok h ->
  latest puts (m_name x, w, v) -> w <> [] -> (forall f e, In f (p_signers p) -> f e = None) -> p_search p = mem_search ord h now :: rest ->
  (ic_fresh (int_config p cfg nonce) = true -> (now < v)%Z) -> read_data F (new_wire_reader w) = Ok (d, cov) -> d_name d = Some (m_name x) ->
  need sha F p x None cfg sup nonce = Ok ([ACall (cached_event (Some x) w d cov)], true).
Proof.
  intros D sha F p ord puts h now w v rest x cfg sup nonce d cov O E L NE SG PS FR RD DN. unfold need. rewrite (no_signer D p) by exact SG.
  set (e := mkEvent (Some x) None None None None None (Some (int_config p cfg nonce)) None None None None None None None).
  assert (SC : search_cache p e = Some w).
  { apply (search_found p e (int_config p cfg nonce) w eq_refl). rewrite PS. destruct w as [|b w]; [congruence|]. apply FindHere.
    exact (mem_finds ord puts h now (m_name x) (b :: w) v (search_event (int_config p cfg nonce) e) x (int_config p cfg nonce) O E L NE eq_refl eq_refl eq_refl FR). }
  cbv zeta. fold e. rewrite SC, RD, DN. cbn [the_name]. rewrite refine_same. reflexivity.
Qed.

(** a wire of a Data packet that was stored: what Need makes of it *)
Lemma need_stored : forall D sha F (p : point D) ord puts h now w v rest x cfg sup nonce c content osc osig, (forall k l, Permutation l (ord k l)) -> s_puts s_new puts = Ok h ->
  latest puts (m_name x, w, v) -> (forall f e, In f (p_signers p) -> f e = None) -> p_search p = mem_search ord h now :: rest ->
  (ic_fresh (int_config p cfg nonce) = true -> (now < v)%Z) ->
  (exists d cov, read_data F (new_wire_reader w) = Ok (d, cov) /\ data_reads (m_name x) c content osc osig d) -> w <> [] ->
  exists ev, need sha F p x None cfg sup nonce = Ok ([ACall ev], true) /\ answered_with ev x w (m_name x) c content osc osig.
Proof.
  intros D sha F p ord puts h now w v rest x cfg sup nonce c content osc osig O E L SG PS FR (d & cov & RD & DR) NE. pose proof DR as (DN & _ & _ & _ & DC & _).
  exists (cached_event (Some x) w d cov). split; [apply (need_latest D sha F p ord puts h now w v rest); auto|].
  repeat split; [|exists d; split; [reflexivity|exact DR]]. exact DC.
Qed.
