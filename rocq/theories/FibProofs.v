From Verif Require Import Base BaseProofs NameModel TextModel TrieModel TrieSpec TrieProofs FibModel FibSpec.

Section Fib.
Variable H : Type.
Notation fib := (store (option H)).
Notation VT := (option H).

Definition tab (f : fib) : table H := fun p => match abs _ f p with Some v => v | None => None end.

Record FInv (f : fib) : Prop := {
  fi_inv : Inv _ f;
  fi_leaf : forall p h k, abs _ f p = Some (Some h) -> abs _ f (p ++ [k]) = None;
  fi_grow : forall p, p <> [] -> abs _ f p = Some None -> exists k, abs _ f (p ++ [k]) <> None
}.

Lemma tab_some : forall f p h, tab f p = Some h <-> abs _ f p = Some (Some h).
Proof. intros. unfold tab. destruct (abs _ f p) as [[v|]|]; split; congruence. Qed.

Lemma prefix_antisym_len : forall {A} (p q : list A), prefix p q -> (length q <= length p)%nat -> p = q.
Proof. intros A p q (s & ->) L. rewrite app_length in L. destruct s; [rewrite app_nil_r; auto|simpl in L; lia]. Qed.

Lemma prefix_cases : forall {A} (p q r : list A), prefix p r -> prefix q r -> prefix p q \/ prefix q p.
Proof.
  induction p as [|a p IH]; intros q r P Q; [left; exists q; auto|]. destruct q as [|b q]; [right; exists (a :: p); auto|].
  destruct P as (s & ->), Q as (s' & E). simpl in E. inversion E; subst.
  destruct (IH q (p ++ s)) as [(u & ->)|(u & ->)]; [exists s; auto|exists s'; auto| |]; [left; exists u; auto|right; exists u; auto].
Qed.

(** ** existence of a handler at or below a node *)
Lemma below : forall f, FInv f -> forall d p n, (length f - n <= d)%nat -> walk _ f 0 p = Some n -> p <> [] ->
  exists q, prefix p q /\ tab f q <> None.
Proof.
  intros f FI. pose proof (fi_inv _ FI) as I. induction d; intros p n D W NE.
  - destruct (walk_root _ f p n I W) as (x & X & _). apply nth_lt in X. lia.
  - destruct (walk_root _ f p n I W) as (x & X & _). pose proof (walk_abs _ _ _ _ _ W X) as A.
    destruct (t_val x) as [h|] eqn:V.
    + exists p. split; [apply prefix_refl|]. unfold tab. rewrite A. discriminate.
    + destruct (fi_grow _ FI p NE) as (k & K); auto.
      destruct (walk _ f 0 (p ++ [k])) as [c|] eqn:WC; [|exfalso; apply K; apply abs_none; auto].
      assert (LT : (n < c)%nat).
      { rewrite walk_snoc, W in WC. destruct (step_child _ f n k c I WC) as (a & b & A1 & A2 & A3 & A4 & A5 & A6 & A7).
        destruct I as (_ & I1 & _). destruct (I1 c b A2 A7) as (p' & y & Q1 & Q2 & _). congruence. }
      destruct (IHd (p ++ [k]) c) as (q & Q1 & Q2); [lia|auto|destruct p; discriminate|].
      exists q. split; auto. eapply prefix_trans; [|exact Q1]. exists [k]. auto.
Qed.

Lemma below_abs : forall f p, FInv f -> p <> [] -> abs _ f p <> None -> exists q, prefix p q /\ tab f q <> None.
Proof.
  intros f p FI NE A. destruct (walk _ f 0 p) as [n|] eqn:W; [|exfalso; apply A; apply abs_none; auto; apply FI].
  eapply below; eauto.
Qed.

(** attached prefixes are unrelated *)
Lemma tab_leaf : forall f p h q, FInv f -> tab f p = Some h -> prefix p q -> abs _ f q <> None -> q = p.
Proof.
  intros f p h q FI T (s & ->) A. destruct s as [|k s]; [apply app_nil_r|]. exfalso. apply tab_some in T.
  pose proof (fi_leaf _ FI p h k T) as L. apply A. destruct (abs _ f (p ++ k :: s)) eqn:E; auto. exfalso.
  apply (abs_prefix_closed _ f (p ++ [k]) (p ++ k :: s)); auto; [apply FI|exists s; rewrite <- app_assoc; auto|congruence].
Qed.

Lemma has_children_ok : forall (f : fib) p n, Inv _ f -> walk _ f 0 p = Some n -> exists b, has_children f n = Ok b /\
  (b = true <-> exists k, abs _ f (p ++ [k]) <> None).
Proof.
  intros f p n I W. destruct (walk_root _ f p n I W) as (x & X & _ & C). unfold has_children. rewrite (get_ok _ _ _ _ X). cbn [bind].
  eexists. split; [reflexivity|]. destruct (t_chd x) as [m|] eqn:M; [|congruence]. simpl. split.
  - intros L. apply Nat.ltb_lt in L. destruct m as [|[k c] m]; [simpl in L; lia|]. exists k. rewrite abs_none by auto. rewrite walk_snoc, W.
    unfold step. rewrite X. unfold chd_get. rewrite M. cbn [find_key]. rewrite beqb_refl. discriminate.
  - intros (k & K). apply Nat.ltb_lt. destruct m; simpl; [|lia]. exfalso. apply K. apply abs_none; auto. rewrite walk_snoc, W.
    unfold step. rewrite X. unfold chd_get. rewrite M. reflexivity.
Qed.

Lemma finv_same : forall f f', FInv f -> Inv _ f' -> (forall p, abs _ f' p = abs _ f p) -> FInv f'.
Proof. intros f f' [I L G] I' E. constructor; auto; intros p; [intros h k|intros NE]; rewrite !E; [apply L|]. intros A. destruct (G p NE A) as (k & K). exists k. rewrite E. auto. Qed.

Lemma added_same : forall (f f' : fib) q, Inv _ f -> abs _ f q <> None -> a_added None (abs _ f) q (abs _ f') -> forall p, abs _ f' p = abs _ f p.
Proof.
  intros f f' q I A [A1 A2] p. destruct (prefix_dec p q) as [D|D]; [|auto]. rewrite A1 by auto. unfold a_val.
  destruct (abs _ f p) eqn:E; auto. exfalso. eapply abs_prefix_closed; eauto.
Qed.

Lemma attach_ok : forall f nm h, FInv f -> exists f' b, f_attach f nm (Some h) = Ok (f', b) /\ FInv f' /\
  fib_spec (tab f) (FAttach nm (Some h)) (if b then FOk else FErr) (tab f').
Proof.
  intros f nm h FI. pose proof (fi_inv _ FI) as I. unfold f_attach, t_first. fold (keys nm). set (p := keys nm).
  destruct (first_loop _ None not_nil p (S (length p)) f [] 0 I eq_refl (prefix_nil _)) as (f1 & m & q & E & I1 & W & _ & PQ & AD & NO & Q); [simpl; lia|].
  rewrite E. cbn [bind fst snd].
  destruct (walk_root _ f1 q m I1 W) as (x & X & _). unfold value. rewrite (get_ok _ _ _ _ X). cbn [bind].
  destruct (has_children_ok f1 q m I1 W) as (c & HC & CK). rewrite HC. cbn [bind].
  pose proof (walk_abs _ _ _ _ _ W X) as AX.
  assert (VX : t_val x = a_val None (abs _ f) q).
  { destruct AD as [AD1 _]. rewrite AD1 in AX by apply prefix_refl. congruence. }
  destruct (not_nil (t_val x)) eqn:NV; cbn [orb].
  - (* a handler at q *)
    assert (T : exists h0, tab f q = Some h0).
    { rewrite VX in NV. unfold a_val, tab in *. destruct (abs _ f q) as [[h0|]|]; try discriminate. eauto. }
    destruct T as (h0 & T). assert (AQ : abs _ f q <> None) by (apply tab_some in T; congruence).
    pose proof (added_same f f1 q I AQ AD) as SAME.
    exists f1, false. split; auto. split; [eapply finv_same; eauto|]. apply SAttachErr with q; [congruence|left; exact PQ|].
    intros r. unfold tab. rewrite SAME. auto.
  - assert (QP : q = p) by (destruct Q as [Q|Q]; auto; rewrite <- VX, NV in Q; discriminate). subst q.
    destruct c.
    + destruct (proj1 CK eq_refl) as (k & K).
      assert (AK : abs _ f (p ++ [k]) <> None).
      { destruct AD as [_ AD2]. rewrite <- AD2; auto. intros (s & Z). apply (f_equal (@length _)) in Z. rewrite !app_length in Z. simpl in Z. lia. }
      assert (AP : abs _ f p <> None) by (eapply abs_prefix_closed; [exact I| |exact AK]; exists [k]; auto).
      pose proof (added_same f f1 p I AP AD) as SAME.
      destruct (below_abs f (p ++ [k]) FI) as (r & R1 & R2); auto; [destruct p; discriminate|].
      exists f1, false. split; auto. split; [eapply finv_same; eauto|]. apply SAttachErr with r; auto.
      * right. eapply prefix_trans; [|exact R1]. exists [k]. auto.
      * intros r0. unfold tab. rewrite SAME. auto.
    + destruct (set_value_ok _ f1 m x (Some h) I1 X) as (f2 & SV & I2 & W2 & N2). rewrite SV. cbn [bind].
      assert (ABS : forall r, abs _ f2 r = if list_eq_dec key_dec r p then Some (Some h) else abs _ f1 r).
      { intros r. unfold abs. rewrite W2. destruct (list_eq_dec key_dec r p) as [->|NR].
        - rewrite W, N2, Nat.eqb_refl. auto.
        - destruct (walk _ f1 0 r) as [m'|] eqn:WR; auto. rewrite N2. destruct (Nat.eqb_spec m' m) as [->|]; auto.
          exfalso. apply NR. apply (walk_inj _ f1 r p m); auto. }
      assert (NOC : forall k, abs _ f1 (p ++ [k]) = None).
      { intros k. destruct (abs _ f1 (p ++ [k])) eqn:A; auto. assert (false = true); [|discriminate]. apply CK. exists k. congruence. }
      assert (PN : forall k, p ++ [k] <> p).
      { intros k Z. apply (f_equal (@length _)) in Z. rewrite app_length in Z. simpl in Z. lia. }
      destruct AD as [AD1 AD2].
      assert (TAB1 : forall r, r <> p -> tab f2 r = tab f r).
      { intros r NR. unfold tab. rewrite ABS. destruct (list_eq_dec key_dec r p); [congruence|].
        destruct (prefix_dec r p) as [D|D]; [|rewrite AD2; auto]. rewrite AD1 by auto. unfold a_val. destruct (abs _ f r); auto. }
      assert (ABOVE : forall r h0, prefix r p -> r <> p -> abs _ f r <> Some (Some h0)).
      { intros r h0 PR NR A. specialize (NO r PR (prefix_nil _) NR). unfold a_val in NO. rewrite A in NO. discriminate. }
      exists f2, true. split; auto. split.
      * constructor; auto.
        -- intros r h0 k A. rewrite ABS in A. rewrite ABS. destruct (list_eq_dec key_dec r p) as [->|NR].
           ++ destruct (list_eq_dec key_dec (p ++ [k]) p) as [Z|_]; [exfalso; eapply PN; eauto|auto].
           ++ destruct (prefix_dec r p) as [D|D].
              ** rewrite AD1 in A by auto. unfold a_val in A. destruct (abs _ f r) as [v|] eqn:AR; [|discriminate]. exfalso. inversion A; subst. eapply ABOVE; eauto.
              ** rewrite AD2 in A by auto. destruct (list_eq_dec key_dec (r ++ [k]) p) as [Z|_]; [exfalso; apply D; exists [k]; auto|].
                 destruct (prefix_dec (r ++ [k]) p) as [D2|D2]; [exfalso; apply D; eapply prefix_trans; [|exact D2]; exists [k]; auto|].
                 rewrite AD2 by auto. eapply fi_leaf; eauto.
        -- intros r NE A. rewrite ABS in A. destruct (list_eq_dec key_dec r p) as [->|NR]; [discriminate|].
           destruct (prefix_dec r p) as [D|D].
           ++ destruct D as (s & Z). destruct s as [|k s]; [rewrite app_nil_r in Z; congruence|]. exists k. rewrite ABS.
              destruct (list_eq_dec key_dec (r ++ [k]) p); [discriminate|]. rewrite AD1; [discriminate|]. exists s. rewrite <- app_assoc. auto.
           ++ rewrite AD2 in A by auto. destruct (fi_grow _ FI r NE A) as (k & K). exists k. rewrite ABS.
              destruct (list_eq_dec key_dec (r ++ [k]) p); [discriminate|].
              destruct (prefix_dec (r ++ [k]) p) as [D2|D2]; [exfalso; apply D; eapply prefix_trans; [|exact D2]; exists [k]; auto|]. rewrite AD2; auto.
      * apply SAttach; [| |exact TAB1].
        -- intros r TR REL. destruct (tab f r) as [h0|] eqn:T0; [|congruence]. apply tab_some in T0.
           assert (RP : r <> p).
           { intros ->. unfold a_val in VX. rewrite T0 in VX. rewrite VX in NV. discriminate. }
           destruct REL as [PR|PR]; fold p in PR.
           ++ eapply ABOVE; eauto.
           ++ destruct PR as (s & Z). destruct s as [|k s]; [rewrite app_nil_r in Z; congruence|].
              assert (AK : abs _ f (p ++ [k]) <> None).
              { eapply abs_prefix_closed; [exact I| |rewrite T0; discriminate]. exists s. rewrite <- app_assoc. auto. }
              apply AK. rewrite <- AD2; auto. intros (s' & Z'). apply (f_equal (@length _)) in Z'. rewrite !app_length in Z'. simpl in Z'. lia.
        -- fold p. unfold tab. rewrite ABS. destruct (list_eq_dec key_dec p p); [auto|congruence].
Qed.

Lemma cut_sub : forall (a : amap VT) pred p c q, (forall r s, prefix r s -> a s <> None -> a r <> None) ->
  cut a pred p c -> prefix c q -> a q <> None -> prefix p q \/ prefix q p.
Proof.
  intros a pred p c q CL C. induction C as [|p0 k B|p0 k w OC A PV|p0 k w c OC A PV CU IH]; intros P AQ; auto.
  destruct (IH P AQ) as [(s & ->)|(s & ->)].
  - destruct s as [|k' s].
    + right. rewrite app_nil_r. exists [k]. auto.
    + left. assert (k' = k). { apply OC. apply CL with (p0 ++ k' :: s); [exists s; rewrite <- app_assoc; auto|congruence]. } subst k'.
      exists s. rewrite <- app_assoc. auto.
  - right. exists (s ++ [k]). rewrite app_assoc. auto.
Qed.

Lemma cut_prefix : forall (a : amap VT) pred p c, cut a pred p c -> prefix c p.
Proof. intros a pred p c C. induction C; try apply prefix_refl. eapply prefix_trans; [exact IHC|]. exists [k]. auto. Qed.

Lemma cut_top : forall (a : amap VT) p c, cut a (fun _ => true) p c -> c = [] \/ exists p0 k, c = p0 ++ [k] /\ exists k', k' <> k /\ a (p0 ++ [k']) <> None.
Proof. intros a p c C. induction C; auto; [|discriminate]. right. exists p, k. auto. Qed.

Lemma detach_ok : forall f nm, FInv f -> exists f' b, f_detach f nm = Ok (f', b) /\ FInv f' /\
  fib_spec (tab f) (FDetach nm) (if b then FOk else FErr) (tab f').
Proof.
  intros f nm FI. pose proof (fi_inv _ FI) as I. unfold f_detach. fold (keys nm).
  rewrite t_exact_ok by auto. cbn [bind]. destruct (walk _ f 0 (keys nm)) as [n|] eqn:W.
  - destruct (walk_root _ f _ n I W) as (x & X & _). unfold t_delete.
    destruct (t_delete_if_ok _ None (fun _ => true) f n x _ I W X) as (f' & D & I' & _ & c & CU & RE1 & RE2). rewrite D. cbn [bind].
    exists f', true. split; auto.
    pose proof (cut_prefix _ _ _ _ CU) as CP.
    assert (CLO : forall r s, prefix r s -> abs _ f s <> None -> abs _ f r <> None) by (intros; eapply abs_prefix_closed; eauto).
    assert (KEEP : forall r, abs _ f' r <> None -> abs _ f' r = abs _ f r).
    { intros r A. destruct r as [|k r]; auto. destruct (RE2 (k :: r)) as [R1 R2]; [discriminate|].
      destruct (prefix_dec c (k :: r)) as [Z|Z]; [rewrite R1 in A; congruence|auto]. }
    split.
    + constructor; auto.
      * intros r h k A. rewrite KEEP in A by congruence.
        destruct (abs _ f' (r ++ [k])) eqn:B; auto. rewrite KEEP in B by congruence. rewrite (fi_leaf _ FI r h k A) in B. discriminate.
      * intros r NE A. pose proof A as A0. rewrite KEEP in A by congruence. destruct (fi_grow _ FI r NE A) as (k & K).
        assert (NC : ~ prefix c r).
        { intros Z. destruct (RE2 r NE) as [R1 _]. assert (abs _ f' r = None) by auto. congruence. }
        assert (RK : forall k', r ++ [k'] <> []) by (intros k'; destruct r; discriminate).
        destruct (prefix_dec c (r ++ [k])) as [Z|Z].
        -- apply prefix_snoc in Z. destruct Z as [Z|Z]; [tauto|].
           destruct (cut_top _ _ _ CU) as [->|(p0 & k0 & Z1 & k' & K1 & K2)]; [exfalso; apply NC; apply prefix_nil|].
           rewrite Z1 in Z. apply app_inj_tail in Z. destruct Z as [-> ->]. exists k'. destruct (RE2 (r ++ [k']) (RK k')) as [_ R2]. rewrite R2; auto.
           rewrite Z1. intros Z. apply prefix_snoc in Z. destruct Z as [Z|Z]; [apply (snoc_not_prefix _ _ Z)|]. apply app_inj_tail in Z. destruct Z; congruence.
        -- exists k. destruct (RE2 (r ++ [k]) (RK k)) as [_ R2]. rewrite R2; auto.
    + destruct nm as [|c0 nm].
      * (* root *)
        assert (c = []) by (destruct CP as (s & Z); symmetry in Z; apply app_eq_nil in Z; tauto). subst c.
        apply SDetachRoot; [unfold tab; rewrite RE1; auto|]. intros q NQ. unfold tab. destruct (RE2 q NQ) as [R1 _]. rewrite R1; auto. apply prefix_nil.
      * set (p := keys (c0 :: nm)) in *. assert (NP : p <> []) by discriminate.
        destruct (below_abs f p FI NP) as (q & Q1 & Q2); [rewrite (walk_abs _ _ _ _ _ W X); discriminate|].
        apply SDetach with q; auto; [discriminate| |]; fold p.
        -- intros r PR. unfold tab. destruct (RE2 r) as [R1 _]; [intros ->; destruct PR as (s & Z); symmetry in Z; apply app_eq_nil in Z; tauto|]. rewrite R1; auto.
           eapply prefix_trans; eauto.
        -- intros r NR. unfold tab. destruct r as [|k r]; [rewrite RE1; auto|]. destruct (RE2 (k :: r)) as [R1 R2]; [discriminate|].
           destruct (prefix_dec c (k :: r)) as [Z|Z]; [|rewrite R2; auto]. rewrite R1 by auto.
           destruct (abs _ f (k :: r)) as [[h|]|] eqn:A; auto. exfalso.
           destruct (cut_sub _ _ _ _ _ CLO CU Z) as [B|B]; [congruence|tauto|].
           assert (p = k :: r). { eapply tab_leaf; [exact FI|apply tab_some; exact A|exact B|]. rewrite (walk_abs _ _ _ _ _ W X); discriminate. }
           apply NR. rewrite H0. apply prefix_refl.
  - exists f, false. split; auto. split; auto. destruct nm as [|c nm]; [discriminate|]. apply SDetachErr; [discriminate| |auto].
    intros q PQ. unfold tab. destruct (abs _ f q) as [v|] eqn:A; auto. exfalso.
    apply (abs_prefix_closed _ f _ _ I PQ); [congruence|]. apply abs_none; auto.
Qed.

Lemma match_ok : forall f nm, FInv f -> exists v, f_match f nm = Ok v /\
  fib_spec (tab f) (FInterest nm) (match v with Some h => FDeliver h | None => FDrop end) (tab f).
Proof.
  intros f nm FI. pose proof (fi_inv _ FI) as I. unfold f_match. fold (keys nm).
  destruct (t_prefix_ok _ f (keys nm) I) as (q & m & TP & WQ & PQ & MAX). rewrite TP. cbn [bind].
  destruct (walk_root _ f q m I WQ) as (x & X & _). unfold value. rewrite (get_ok _ _ _ _ X). cbn [bind].
  pose proof (walk_abs _ _ _ _ _ WQ X) as A. exists (t_val x). split; auto.
  assert (ALL : forall p h, prefix p (keys nm) -> tab f p = Some h -> p = q).
  { intros p h P T. assert (AP : abs _ f p <> None) by (apply tab_some in T; congruence).
    assert (L : (length p <= length q)%nat) by (apply MAX; auto; intros Z; apply AP; apply abs_none; auto).
    destruct (prefix_cases p q (keys nm) P PQ) as [B|B].
    - symmetry. eapply tab_leaf; eauto. congruence.
    - symmetry. apply prefix_antisym_len; auto. }
  destruct (t_val x) as [h|].
  - apply SDeliver with q; auto; [apply tab_some; auto|]. intros r PR NR. destruct (tab f r) eqn:T; auto. exfalso. apply NR. eapply ALL; eauto.
  - apply SDrop; auto. intros p P. destruct (tab f p) eqn:T; auto. exfalso. assert (p = q) by (eapply ALL; eauto). subst p.
    apply tab_some in T. congruence.
Qed.

Lemma fib_new_inv : FInv fib_new.
Proof.
  constructor; [apply new_inv| |].
  - intros p h k A. unfold fib_new in A; rewrite new_abs in A; unfold a_new in A. destruct p; discriminate.
  - intros p NE A. unfold fib_new in A; rewrite new_abs in A; unfold a_new in A. destruct p; [congruence|discriminate].
Qed.

Lemma fib_step_ok : forall f o, FInv f -> (forall nm, o <> FAttach nm None) -> exists f' r, f_step f o = Ok (f', r) /\ FInv f' /\ fib_spec (tab f) o r (tab f').
Proof.
  intros f o FI NN. destruct o as [nm [h|]|nm|nm]; cbn [f_step].
  - destruct (attach_ok f nm h FI) as (f' & b & E & FI' & S1). rewrite E. cbn [bind fst snd]. eauto.
  - exfalso. eapply NN; eauto.
  - destruct (detach_ok f nm FI) as (f' & b & E & FI' & S1). rewrite E. cbn [bind fst snd]. eauto.
  - destruct (match_ok f nm FI) as (v & E & S1). rewrite E. cbn [bind]. eauto.
Qed.

Lemma fib_run_ok : forall os f, FInv f -> no_nil_handler os -> exists f' rs, f_run f os = Ok (f', rs) /\ FInv f' /\ fib_hist (tab f) os rs (tab f').
Proof.
  induction os as [|o os IH]; intros f FI NN; cbn [f_run].
  - exists f, []. split; auto. split; auto. constructor.
  - destruct (fib_step_ok f o FI) as (f1 & r & E & FI1 & S1).
    { intros nm ->. apply (NN nm). left. auto. }
    rewrite E. cbn [bind fst snd]. destruct (IH f1 FI1) as (f2 & rs & E2 & FI2 & H2).
    { intros nm Q. apply (NN nm). right. auto. }
    rewrite E2. cbn [bind fst snd]. exists f2, (r :: rs). split; auto. split; auto. econstructor; eauto.
Qed.

Lemma tab_new : forall p, tab fib_new p = None.
Proof. intros p. unfold tab, fib_new. rewrite new_abs. unfold a_new. destruct p; auto. Qed.

End Fib.
