(** Encoding: the wire plan, and the state of EncodeInto. *)
From Verif Require Import Base BaseProofs PrimModel PrimProofs ReaderModel ReaderProofs ReaderProofs2 NameModel NameProofs CodecModel CodecSpec CodecProofs.

(** ** What a sequence of tokens makes of a wire and of a plan *)
Notation tst := (wire * buf)%type.
Definition tstep (st : tst) (x : tok) : tst :=
  match x with TB b => (fst st, snd st ++ b) | TW w => (fst st ++ snd st :: w, []) end.
Definition tsplit (st : tst) (ts : list tok) : tst := fold_left tstep ts st.

Definition pstep (s : wplan) (x : tok) : wplan :=
  match x with TB b => (fst s, (snd s + nlen b)%N) | TW w => (fst s ++ snd s :: repeat 0%N (length w), 0%N) end.
Definition psplit (s : wplan) (ts : list tok) : wplan := fold_left pstep ts s.
Definition psp (l : N) (ts : list tok) : wplan := psplit ([], l) ts.

Definition lay (e l : N) (ts : list tok) : list N :=
  let q := psp l (strip ts) in fst q ++ (if (0 <? snd q)%N then [(snd q + e)%N] else []).

Lemma tsplit_app : forall a b st, tsplit st (a ++ b) = tsplit (tsplit st a) b.
Proof. intros. unfold tsplit. apply fold_left_app. Qed.
Lemma psplit_app : forall a b st, psplit st (a ++ b) = psplit (psplit st a) b.
Proof. intros. unfold psplit. apply fold_left_app. Qed.

Lemma psplit_gen : forall ts pl l, psplit (pl, l) ts = (pl ++ fst (psp l ts), snd (psp l ts)).
Proof.
  induction ts as [|[b|w] ts IH]; intros.
  - cbn. rewrite app_nil_r. reflexivity.
  - cbn [psplit psp fold_left pstep fst snd]. fold (psplit (pl, (l + nlen b)%N) ts). rewrite IH. reflexivity.
  - unfold psp. cbn [psplit fold_left pstep fst snd app].
    fold (psplit (pl ++ l :: repeat 0%N (length w), 0%N) ts). fold (psplit (l :: repeat 0%N (length w), 0%N) ts).
    rewrite !IH. cbn [fst snd]. rewrite <- app_assoc. reflexivity.
Qed.

Lemma psp_app : forall a b l, psp l (a ++ b)
  = (fst (psp l a) ++ fst (psp (snd (psp l a)) b), snd (psp (snd (psp l a)) b)).
Proof.
  intros. unfold psp at 1. rewrite psplit_app. fold (psp l a). destruct (psp l a) as [P m]. rewrite psplit_gen. reflexivity.
Qed.

Lemma psp_tb : forall l b ts, psp l (TB b :: ts) = psp (l + nlen b)%N ts.
Proof. reflexivity. Qed.
Lemma psp_tw : forall l w ts, psp l (TW w :: ts) = (l :: repeat 0%N (length w) ++ fst (psp 0 ts), snd (psp 0 ts)).
Proof. intros. change (TW w :: ts) with ([TW w] ++ ts). rewrite psp_app. reflexivity. Qed.

Lemma tsplit_psp : forall ts S c,
  length (fst (tsplit (S, c) ts)) = (length S + length (fst (psp (nlen c) ts)))%nat
  /\ nlen (snd (tsplit (S, c) ts)) = snd (psp (nlen c) ts).
Proof.
  induction ts as [|[b|w] ts IH]; intros.
  - cbn. split; auto.
  - rewrite psp_tb. cbn [tsplit fold_left tstep fst snd]. fold (tsplit (S, c ++ b) ts).
    destruct (IH S (c ++ b)) as [E1 E2]. rewrite nlen_app in *. auto.
  - rewrite psp_tw. cbn [tsplit fold_left tstep fst snd]. fold (tsplit (S ++ c :: w, []) ts).
    destruct (IH (S ++ c :: w) []) as [E1 E2]. change (nlen []) with 0%N in *. split; auto.
    rewrite E1. rewrite app_length. cbn [length]. rewrite app_length, repeat_length. lia.
Qed.

(** relative to the start *)
Definition tjoin (S : wire) (c : buf) (r : tst) : tst :=
  match fst r with [] => (S, c ++ snd r) | a :: q => (S ++ (c ++ a) :: q, snd r) end.
Definition pjoin (l : N) (r : wplan) : wplan :=
  match fst r with [] => ([], (l + snd r)%N) | a :: q => ((l + a)%N :: q, snd r) end.

Lemma tsplit_gen : forall ts S c, tsplit (S, c) ts = tjoin S c (tsplit ([], []) ts).
Proof.
  induction ts as [|x ts IH] using rev_ind; intros.
  - cbn. rewrite app_nil_r. reflexivity.
  - rewrite !tsplit_app, IH. destruct (tsplit ([], []) ts) as [[|a q] c0]; destruct x as [b|w]; unfold tjoin; cbn [fst snd tsplit fold_left tstep app].
    + rewrite app_assoc. reflexivity.
    + reflexivity.
    + reflexivity.
    + rewrite <- app_assoc. reflexivity.
Qed.

Lemma psp_gen : forall ts l, psp l ts = pjoin l (psp 0 ts).
Proof.
  induction ts as [|x ts IH] using rev_ind; intros.
  - cbn. rewrite N.add_0_r. reflexivity.
  - rewrite !psp_app, IH. destruct (psp 0 ts) as [[|a q] m]; unfold pjoin; destruct x as [b|w]; cbn [fst snd psp psplit fold_left pstep app].
    + f_equal. lia.
    + reflexivity.
    + rewrite app_nil_r. reflexivity.
    + reflexivity.
Qed.

Lemma tsplit_concat : forall ts S c, concat (fst (tsplit (S, c) ts)) ++ snd (tsplit (S, c) ts) = concat S ++ c ++ tbytes ts.
Proof.
  induction ts as [|[b|w] ts IH]; intros.
  - cbn. rewrite app_nil_r. reflexivity.
  - cbn [tsplit fold_left tstep fst snd]. fold (tsplit (S, c ++ b) ts). rewrite IH.
    unfold tbytes. cbn [map concat tok_bytes]. rewrite !app_assoc. reflexivity.
  - cbn [tsplit fold_left tstep fst snd]. fold (tsplit (S ++ c :: w, []) ts). rewrite IH.
    unfold tbytes. cbn [map concat tok_bytes]. rewrite concat_app. cbn [concat]. rewrite <- !app_assoc. reflexivity.
Qed.

(** ** strip *)
Lemma strip_snoc : forall a b, b <> [] -> strip (a ++ b) = a ++ strip b.
Proof.
  intros a b H. destruct (exists_last H) as (b0 & x & ->). unfold strip.
  rewrite app_assoc, !rev_app_distr. cbn [rev app]. destruct x as [y|[|y w]]; auto.
  - rewrite <- app_assoc. reflexivity.
  - rewrite rev_app_distr. rewrite !rev_involutive. reflexivity.
  - rewrite <- app_assoc. reflexivity.
Qed.

Lemma strip_tb : forall b ts, strip (TB b :: ts) = TB b :: strip ts.
Proof.
  intros. destruct ts as [|x ts]; [reflexivity|].
  change (TB b :: x :: ts) with ([TB b] ++ (x :: ts)). rewrite strip_snoc by discriminate. reflexivity.
Qed.

Lemma strip_tw : forall w ts, ts <> [] -> strip (TW w :: ts) = TW w :: strip ts.
Proof. intros. change (TW w :: ts) with ([TW w] ++ ts). rewrite strip_snoc by auto. reflexivity. Qed.

Lemma strip_tw1 : forall a w, strip [TW (a :: w)] = [TW (a :: w)].
Proof. reflexivity. Qed.

(** ** lay *)
Lemma lay_tb : forall e l b ts, lay e l (TB b :: ts) = lay e (l + nlen b) ts.
Proof. intros. unfold lay. rewrite strip_tb, psp_tb. reflexivity. Qed.

Lemma lay_app : forall e l a b, (b = [] -> strip a = a) ->
  b <> [] \/ strip a = a ->
  lay e l (a ++ b) = fst (psp l a) ++ lay e (snd (psp l a)) b.
Proof.
  intros e l a b H _. unfold lay. destruct b as [|x b].
  - rewrite app_nil_r, H by auto. cbn. reflexivity.
  - rewrite strip_snoc by discriminate. rewrite psp_app. cbn [fst snd]. rewrite <- app_assoc. reflexivity.
Qed.

Lemma psp_pos : forall ts l, (0 < l)%N ->
  match fst (psp l ts) with [] => (l <= snd (psp l ts))%N | a :: _ => (l <= a)%N end.
Proof.
  intros. rewrite psp_gen. unfold pjoin. destruct (psp 0 ts) as [[|a q] m]; cbn [fst snd]; lia.
Qed.

Lemma lay_pos : forall e l ts, (0 < l)%N -> exists d T, lay e l ts = (l + d)%N :: T.
Proof.
  intros. unfold lay. pose proof (psp_pos (strip ts) l H). destruct (psp l (strip ts)) as [[|a q] m]; cbn [fst snd app] in *.
  - destruct (0 <? m)%N eqn:E; [|lia]. exists (m + e - l)%N, []. f_equal. lia.
  - exists (a - l)%N. eexists. f_equal. lia.
Qed.

Lemma lay_end : forall e l, (0 < l)%N -> lay e l [] = [(l + e)%N].
Proof. intros. unfold lay. cbn. destruct (0 <? l)%N eqn:E; [reflexivity|lia]. Qed.

Lemma lay_tw_nil : forall e l, (0 < l)%N -> lay e l [TW []] = [(l + e)%N].
Proof. intros. unfold lay. cbn. destruct (0 <? l)%N eqn:E; [reflexivity|lia]. Qed.

Lemma lay_tw : forall e l w ts, w <> [] \/ ts <> [] -> lay e l (TW w :: ts) = l :: repeat 0%N (length w) ++ lay e 0 ts.
Proof.
  intros e l w ts H. unfold lay. destruct ts as [|x ts].
  - destruct H as [H|H]; [|congruence]. destruct w as [|a w]; [congruence|]. rewrite strip_tw1, psp_tw. cbn [fst snd].
    cbn. rewrite app_nil_r. reflexivity.
  - rewrite strip_tw by discriminate. rewrite psp_tw. cbn [fst snd app]. rewrite <- app_assoc. reflexivity.
Qed.

(** ** The tokens of a field are well ordered: bytes are written before a buffer is added *)
Fixpoint good (b : bool) (ts : list tok) : Prop :=
  match ts with
  | [] => True
  | TB x :: ts' => x <> [] /\ good true ts'
  | TW _ :: ts' => b = true /\ good false ts'
  end.

Lemma good_weaken : forall ts, good false ts -> forall b, good b ts.
Proof. intros [|[x|w] ts] H b; auto. destruct H; discriminate. Qed.

Lemma good_app : forall a b f, good f a -> good false b -> good f (a ++ b).
Proof.
  induction a as [|[x|w] a IH]; intros b f Ha Hb; cbn [good app] in *.
  - apply good_weaken. auto.
  - destruct Ha. split; auto.
  - destruct Ha. split; auto.
Qed.

Lemma good_prefix : forall a b f, good f (a ++ b) -> good f a.
Proof. induction a as [|[x|w] a IH]; intros b f H; cbn [good app] in *; auto; destruct H; split; eauto. Qed.

Lemma good_strip : forall ts f, good f ts -> good f (strip ts).
Proof.
  intros. destruct (strip_cases ts) as [(t0 & E & ->)|(-> & _)]; auto. rewrite E in H. apply good_prefix in H. auto.
Qed.

Lemma good_no_tw2 : forall a w1 w2 f, ~ good f (a ++ [TW w1; TW w2]).
Proof.
  induction a as [|[x|w] a IH]; intros w1 w2 f H; cbn [good app] in *.
  - destruct H as (_ & H & _). discriminate.
  - destruct H. eapply IH; eauto.
  - destruct H. eapply IH; eauto.
Qed.

Lemma strip_strip : forall ts f, good f ts -> strip (strip ts) = strip ts.
Proof.
  intros. destruct (strip_cases ts) as [(t0 & E & E')|(E & _)].
  - rewrite E'. destruct (strip_cases t0) as [(t1 & E1 & _)|(E1 & _)]; auto.
    exfalso. rewrite E1, <- app_assoc in E. rewrite E in H. exact (good_no_tw2 _ _ _ _ H).
  - rewrite !E. auto.
Qed.

Lemma leaf_good : forall b, good false (leaf_tok b).
Proof. intros [|x b]; cbn; auto. split; auto. discriminate. Qed.

Lemma tl_app_nonnil : forall t (x : buf), tl_enc t ++ x <> [].
Proof. intros t x H. apply app_eq_nil in H. destruct H as [H _]. pose proof (tl_enc_pos t). rewrite H in *. cbn in *. lia. Qed.

Lemma concat_good : forall {A} (f : A -> list tok) l, (forall x, good false (f x)) -> good false (concat (map f l)).
Proof. induction l; intros; cbn [map concat]; [exact I|]. apply good_app; auto. Qed.

Lemma toks_good : forall k p nc t v, good false (toks p nc t k v).
Proof.
  induction k as [k L|nc' o fs b IH|s IH|k vt v IHk IHv] using kind_ind2; intros p nc t w.
  - destruct k; cbn [leaf_kind] in L; try discriminate; cbn [toks]; destruct w; try apply leaf_good;
      try (destruct (0 <? ep_est p)%N; [|exact I]; cbn; repeat split; apply tl_app_nonnil).
    destruct nc; [|apply leaf_good]. cbn. repeat split; apply tl_app_nonnil.
  - destruct w; try apply leaf_good. destruct b; [|apply leaf_good]. rewrite toks_struct. cbn [good]. split; [apply tl_app_nonnil|].
    destruct (0 <? fs_len p fs vs)%N; [|exact I]. apply good_strip. apply good_weaken.
    revert vs. induction IH; intros [|v vs]; cbn [fs_toks]; try exact I. apply good_app; auto.
  - destruct w; try apply leaf_good. apply concat_good. auto.
  - destruct w; try apply leaf_good. apply concat_good. intros. apply good_app; auto.
Qed.

Lemma fs_toks_good : forall fs p nc vs, good false (fs_toks p nc fs vs).
Proof. induction fs; intros p nc [|v vs]; cbn [fs_toks]; try exact I. apply good_app; auto. apply toks_good. Qed.

(** ** The plan is what the tokens say *)
Lemma iter_plan_ok : forall n pl, iter_plan n (pl, 0%N) = (pl ++ repeat 0%N n, 0%N).
Proof.
  induction n; intros pl; cbn [iter_plan repeat].
  - rewrite app_nil_r. reflexivity.
  - unfold plan_switch. cbn [fst snd]. rewrite IHn, <- app_assoc. reflexivity.
Qed.

Lemma psplit_leaf : forall b s, psplit s (leaf_tok b) = (fst s, (snd s + nlen b)%N).
Proof. intros [|x b] [pl l]; cbn [leaf_tok psplit fold_left pstep fst snd]; auto. change (nlen []) with 0%N. rewrite N.add_0_r. reflexivity. Qed.

Lemma fold_switch : forall r s, fold_left (fun s n => (fst s ++ [snd s], n)) r s
  = (fst s ++ removelast (snd s :: r), last (snd s :: r) 0%N).
Proof.
  induction r as [|a r IH]; intros [pl l].
  - cbn. rewrite app_nil_r. reflexivity.
  - cbn [fold_left]. rewrite IH. cbn [fst snd]. rewrite <- app_assoc. reflexivity.
Qed.

Lemma removelast_cons : forall {A} (x y : A) l, removelast (x :: y :: l) = x :: removelast (y :: l).
Proof. reflexivity. Qed.

Lemma plan_close_good : forall ts, good false ts -> plan_close (psplit ([], 0%N) ts) = lay 0 0 ts.
Proof.
  intros ts G. unfold plan_close, lay. fold (psp 0 ts).
  destruct (strip_cases ts) as [(t0 & -> & ->)|(-> & _)].
  - rewrite psp_app. cbn. rewrite N.add_0_r.
    destruct (0 <? snd (psp 0 t0))%N eqn:E; auto. exfalso.
    (* a buffer is added only after bytes *)
    assert (Q : forall ts f l w, good f (ts ++ [TW w]) -> (f = true -> 0 < l)%N -> (0 < snd (psp l ts))%N).
    { induction ts as [|[x|w0] ts IH]; intros f l w G1 Hl; cbn [good app] in G1.
      - cbn. apply Hl. tauto.
      - rewrite psp_tb. destruct G1 as [G1 G2]. eapply IH; eauto. intros _. destruct x; [congruence|]. unfold nlen. cbn [length]. lia.
      - rewrite psp_tw. cbn [snd]. destruct G1. eapply IH; eauto. discriminate. }
    specialize (Q t0 false 0%N [] G). assert (0 < snd (psp 0 t0))%N by (apply Q; discriminate). lia.
  - rewrite N.add_0_r. destruct (0 <? snd (psp 0 ts))%N; auto. rewrite app_nil_r. reflexivity.
Qed.

Lemma good_ends : forall ts f, good f ts -> snd (psp 0 ts) = 0%N -> strip ts = ts -> ts <> [] ->
  exists t0 a w, ts = t0 ++ [TW (a :: w)].
Proof.
  intros ts f G E St H. destruct (exists_last H) as (t0 & x & ->). destruct x as [b|[|a w]].
  - exfalso. rewrite psp_app in E. cbn in E. assert (b <> []).
    { clear -G. revert f G. induction t0 as [|[y|w] t0 IH]; intros f G; cbn [good app] in G; destruct G; eauto. }
    destruct b; [congruence|]. unfold nlen in E. cbn [length] in E. lia.
  - exfalso. unfold strip in St. rewrite rev_app_distr in St. cbn [rev app] in St. rewrite rev_involutive in St.
    apply (f_equal (@length tok)) in St. rewrite app_length in St. cbn in St. lia.
  - eauto.
Qed.

(** merging the plan of a nested structure *)
Lemma plan_merge_ok : forall ts s, good false ts -> ts <> [] -> plan_merge (lay 0 0 ts) s = psplit s (strip ts).
Proof.
  intros ts [pl l] G NE. pose proof (strip_strip ts false G) as SS.
  assert (SN : strip ts <> []).
  { intros E. destruct (strip_cases ts) as [(t0 & E1 & E2)|(E2 & _)]; [|congruence]. rewrite E2 in E. subst t0. subst ts. cbn in G. destruct G; discriminate. }
  pose proof (good_strip ts false G) as G1. unfold lay.
  remember (strip ts) as u eqn:Eu. clear Eu G NE ts.
  rewrite psplit_gen, (psp_gen u l). destruct (psp 0 u) as [P m] eqn:E. cbn [fst snd].
  assert (E2 : snd (psp 0 u) = m) by (rewrite E; reflexivity). assert (E1 : fst (psp 0 u) = P) by (rewrite E; reflexivity).
  unfold pjoin. cbn [fst snd].
  destruct (0 <? m)%N eqn:Em.
  - rewrite N.add_0_r. destruct P as [|a q]; cbn [app plan_merge].
    + unfold plan_add. cbn [fst snd fold_left]. destruct (l + m =? 0)%N eqn:Z; [lia|]. rewrite app_nil_r. reflexivity.
    + rewrite fold_switch. unfold plan_add. cbn [fst snd].
      assert (La : last ((l + a)%N :: q ++ [m]) 0%N = m).
      { change ((l + a)%N :: q ++ [m]) with (((l + a)%N :: q) ++ [m]). apply last_last. }
      assert (Lr : removelast ((l + a)%N :: q ++ [m]) = (l + a)%N :: q).
      { change ((l + a)%N :: q ++ [m]) with (((l + a)%N :: q) ++ [m]). apply removelast_last. }
      rewrite La, Lr. cbn [snd]. destruct (m =? 0)%N eqn:Z; [lia|]. reflexivity.
  - assert (m = 0%N) by lia. subst m.
    destruct (good_ends u false G1 H SS SN) as (t0 & a0 & w & Hu). 
    assert (LP : exists P0, P = P0 ++ [0%N] /\ P0 <> []).
    { rewrite Hu in E1. rewrite psp_app in E1. rewrite psp_tw in E1. cbn [fst snd psp psplit fold_left length] in E1.
      rewrite app_nil_r in E1. 
      exists (fst (psp 0 t0) ++ snd (psp 0 t0) :: repeat 0%N (length w)). split.
      - rewrite <- E1. rewrite <- app_assoc. cbn [app]. f_equal. f_equal.
        change [0%N] with (repeat 0%N 1). rewrite <- repeat_app. rewrite Nat.add_comm. reflexivity.
      - intros X. apply app_eq_nil in X. destruct X; discriminate. }
    destruct LP as (P0 & -> & NP). destruct P0 as [|b q]; [congruence|]. cbn [app plan_merge].
    rewrite app_nil_r. rewrite fold_switch. unfold plan_add. cbn [fst snd].
    assert (La : last ((l + b)%N :: q ++ [0%N]) 0%N = 0%N).
    { change ((l + b)%N :: q ++ [0%N]) with (((l + b)%N :: q) ++ [0%N]). apply last_last. }
    assert (Lr : removelast ((l + b)%N :: q ++ [0%N]) = (l + b)%N :: q).
    { change ((l + b)%N :: q ++ [0%N]) with (((l + b)%N :: q) ++ [0%N]). apply removelast_last. }
    rewrite La, Lr. unfold plan_switch. cbn [fst snd]. rewrite N.eqb_refl, <- app_assoc, H. reflexivity.
Qed.

Lemma fs_plan_ok : forall fs p nc vs s, Forall (fun f => forall t v s, k_plan p nc t (snd f) v s = psplit s (toks p nc t (snd f) v)) fs ->
  fs_plan p nc fs vs s = psplit s (fs_toks p nc fs vs).
Proof.
  induction fs as [|f fs IH]; intros p nc [|v vs] s H; auto. inversion H; subst. cbn [fs_plan fs_toks].
  rewrite IH by auto. rewrite H2. rewrite psplit_app. reflexivity.
Qed.

Lemma wf_fields_nosig : forall fs nc, wf_fields nc fs = true -> nc = false ->
  Forall (fun f => match snd f with KSig _ _ | KIName _ => False | _ => True end) fs.
Proof.
  intros fs nc H ->. unfold wf_fields in H. rewrite andb_true_iff in H. destruct H as (_ & H).
  cut (forall l i, wf_marks_from false fs i l = true -> Forall (fun f => match snd f with KSig _ _ | KIName _ => False | _ => True end) l).
  { intros Q. eapply Q. eauto. }
  induction l as [|f l IH]; intros i Hl; constructor.
  - cbn [wf_marks_from] in Hl. rewrite andb_true_iff in Hl. destruct Hl as [Hl _]. unfold wf_mark in Hl.
    destruct (snd f); auto; cbn in Hl; discriminate.
  - cbn [wf_marks_from] in Hl. rewrite andb_true_iff in Hl. destruct Hl as [_ Hl]. eauto.
Qed.

(** the bytes of a structure that copies do not depend on the hole *)
Definition nosig (k : kind) : Prop := match k with KSig _ _ | KIName _ => False | _ => True end.

Lemma plain_nosig : forall k, plain_kind k = true -> nosig k.
Proof. destruct k; cbn; auto; discriminate. Qed.

Lemma no_hole : forall k p h t v, wf_kind false k = true -> nosig k -> k_bytes p h t k v = k_bytes p [] t k v.
Proof.
  induction k as [k L|nc' o fs b IH|s IH|k vt v IHk IHv] using kind_ind2; intros p h t w W NS.
  - destruct k; cbn [nosig] in NS; try contradiction; cbn [leaf_kind] in L; try discriminate; destruct w; reflexivity.
  - destruct w; auto. rewrite !k_bytes_struct. f_equal. f_equal.
    apply wf_struct in W. destruct W as (E & W1 & W). subst nc'. assert (b = false) by (destruct b; [symmetry; auto|auto]). subst b.
    pose proof (wf_fields_nosig _ _ W eq_refl) as N0. apply wf_fields_all in W.
    clear -IH W N0. revert vs. induction fs as [|f fs IHf]; intros [|v vs]; auto. inversion IH; subst. inversion W; subst. inversion N0; subst.
    cbn [fs_bytes]. rewrite (H1 p h), IHf; auto.
  - destruct w; auto. cbn [wf_kind] in W. rewrite andb_true_iff in W. destruct W as (W0 & W).
    cbn [k_bytes]. f_equal. apply map_ext. intros. apply IH; auto. apply plain_nosig; auto.
  - destruct w; auto. cbn [wf_kind] in W. rewrite !andb_true_iff in W. destruct W as ((W1 & W0) & W2).
    cbn [k_bytes]. f_equal. apply map_ext. intros. rewrite IHk, IHv; auto.
    + apply plain_nosig; auto.
    + destruct k; try discriminate; auto.
    + destruct k; try discriminate; cbn; auto.
Qed.

Lemma fs_no_hole : forall fs p h vs, wf_fields false fs = true -> fs_bytes p h fs vs = fs_bytes p [] fs vs.
Proof.
  intros fs p h vs W. pose proof (wf_fields_nosig _ _ W eq_refl) as N0. apply wf_fields_all in W.
  revert vs. induction fs as [|f fs IHf]; intros [|v vs]; auto. inversion W; subst. inversion N0; subst.
  cbn [fs_bytes]. rewrite (no_hole _ p h), IHf; auto.
Qed.

Lemma struct_copy_wf : forall nc nc' o fs, wf_kind nc (KStruct (Model nc' o fs) false) = true -> nc' = false /\ wf_fields false fs = true.
Proof. intros. apply wf_struct in H. destruct H as (<- & _ & H). auto. Qed.

Lemma leaf_len : forall k p nc t v, wf_kind nc k = true ->
  match k with KSig _ _ => false | KStruct _ b => negb b | KSeq _ | KMap _ _ _ => false | _ => true end = true ->
  k_len p t k v = nlen (k_bytes p [] t k v).
Proof.
  intros k p nc t v W H. rewrite (k_len_ok k p nc) by auto. destruct k; try discriminate; try (destruct v; reflexivity).
  destruct nocopy; [discriminate|]. destruct sub as [nc' o fs]. destruct v; try reflexivity.
  apply struct_copy_wf in W. destruct W as (-> & W). rewrite !k_bytes_struct. rewrite (fs_no_hole fs p (full_hole p)) by auto. reflexivity.
Qed.

Lemma leaf_tok_nil : forall b, leaf_tok b = [] -> b = [].
Proof. intros [|x b] H; auto. discriminate. Qed.

(** a field without tokens has no bytes *)
Lemma toks_nil : forall k p nc t v, wf_kind nc k = true -> toks p nc t k v = [] -> forall h, k_bytes p h t k v = [].
Proof.
  induction k as [k L|nc' o fs b IH|sk IH|k vt v IHk IHv] using kind_ind2; intros p nc t w W X h.
  - destruct k; cbn [leaf_kind] in L; try discriminate; cbn [toks] in X.
    all: try (destruct w; apply leaf_tok_nil in X; auto; fail).
    + destruct w; try (apply leaf_tok_nil in X; auto; fail). destruct nc; [discriminate|apply leaf_tok_nil in X; auto].
    + cbn [k_bytes]. destruct w; destruct (0 <? ep_est p)%N; try discriminate; auto.
  - destruct w; auto. destruct b; [rewrite toks_struct in X; discriminate|]. cbn [toks] in X. apply leaf_tok_nil in X.
    rewrite k_bytes_struct in X. apply tl_app_nonnil in X. contradiction.
  - destruct w; auto. cbn [wf_kind] in W. rewrite andb_true_iff in W. destruct W as (_ & W). cbn [toks k_bytes] in *.
    induction l as [|x l IHl]; auto. cbn [map concat] in *. apply app_eq_nil in X. destruct X as [X1 X2].
    rewrite (IH p nc), IHl; auto.
  - destruct w; auto. cbn [wf_kind] in W. rewrite !andb_true_iff in W. destruct W as ((W1 & W0) & W2). cbn [toks k_bytes] in *.
    induction l as [|x l IHl]; auto. cbn [map concat] in *. apply app_eq_nil in X. destruct X as [X1 X2].
    apply app_eq_nil in X1. destruct X1 as [X1 X3].
    rewrite (IHk p nc), (IHv p nc), IHl; auto. destruct k; try discriminate; auto.
Qed.

Lemma fs_toks_nil : forall fs p nc vs, Forall (fun f => wf_kind nc (snd f) = true) fs -> fs_toks p nc fs vs = [] ->
  forall h, fs_bytes p h fs vs = [].
Proof.
  induction fs as [|f fs IH]; intros p nc [|v vs] W X h; auto. cbn [fs_toks fs_bytes] in *. inversion W; subst.
  apply app_eq_nil in X. destruct X as [X1 X2]. rewrite (IH p nc), (toks_nil _ p nc); auto.
Qed.

Lemma k_plan_ok : forall k p nc t v s, wf_kind nc k = true -> k_plan p nc t k v s = psplit s (toks p nc t k v).
Proof.
  induction k as [k L|nc' o fs b IH|sk IH|k vt v IHk IHv] using kind_ind2; intros p nc t w s W.
  - destruct k; cbn [leaf_kind] in L; try discriminate; cbn [toks k_plan];
      try (destruct w; rewrite psplit_leaf; unfold plan_add; rewrite (leaf_len _ p nc) by auto; reflexivity).
    + destruct w; try (rewrite psplit_leaf; unfold plan_add; rewrite (leaf_len _ p nc) by auto; reflexivity).
      destruct nc.
      * unfold plan_switch, plan_add. cbn [fst snd psplit fold_left pstep]. rewrite iter_plan_ok. rewrite <- app_assoc.
        rewrite nlen_app, !tl_len_enc. reflexivity.
      * rewrite psplit_leaf; unfold plan_add; rewrite (leaf_len _ p false) by auto; reflexivity.
    + destruct w; (destruct (0 <? ep_est p)%N; [|reflexivity]); unfold plan_switch, plan_add; cbn [fst snd psplit fold_left pstep];
        rewrite nlen_app, !tl_len_enc, <- app_assoc; reflexivity.
  - destruct w; try (cbn [toks k_plan]; rewrite psplit_leaf; unfold plan_add; cbn; rewrite N.add_0_r; reflexivity).
    destruct b.
    + rewrite k_plan_struct, toks_struct. unfold plan_add. cbv zeta.
      cbn [psplit fold_left pstep]. rewrite nlen_app, !tl_len_enc.
      destruct (0 <? fs_len p fs vs)%N eqn:E; [|reflexivity].
      pose proof W as W0. apply wf_struct in W0. destruct W0 as (_ & _ & W0). apply wf_fields_all in W0.
      rewrite fs_plan_ok. 2:{ clear -IH W0. induction fs; constructor; inversion IH; inversion W0; subst; auto. }
      rewrite plan_close_good by apply fs_toks_good. rewrite plan_merge_ok.
      * reflexivity.
      * apply fs_toks_good.
      * intros X. rewrite (fs_len_ok fs p nc') in E by auto.
        rewrite (fs_toks_nil fs p nc' vs W0 X) in E. discriminate.
    + cbn [toks k_plan]. rewrite psplit_leaf. unfold plan_add. rewrite (leaf_len _ p nc) by auto. reflexivity.
  - destruct w; try (cbn [toks k_plan]; rewrite psplit_leaf; unfold plan_add; cbn; rewrite N.add_0_r; reflexivity).
    cbn [wf_kind] in W. rewrite andb_true_iff in W. destruct W as (_ & W).
    cbn [toks k_plan]. revert s. induction l as [|x l IHl]; intros s; auto. cbn [map concat fold_left].
    rewrite psplit_app, <- IHl. rewrite IH by auto. reflexivity.
  - destruct w; try (cbn [toks k_plan]; rewrite psplit_leaf; unfold plan_add; cbn; rewrite N.add_0_r; reflexivity).
    cbn [wf_kind] in W. rewrite !andb_true_iff in W. destruct W as ((W1 & W0) & W2).
    cbn [toks k_plan]. revert s. induction l as [|x l IHl]; intros s; auto. cbn [map concat fold_left].
    rewrite !psplit_app, <- IHl. rewrite IHk, IHv; auto. destruct k; try discriminate; auto.
Qed.
