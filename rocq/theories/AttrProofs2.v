(** Attributes of a description: proofs. *)
From Coq Require Import String.
From Verif Require Import Base BaseProofs NameModel OrderProofs TextModel SchemaModel AttrModel AttrSpec.

Section AvalInd.
  Variable P : aval -> Prop.
  Hypothesis HMap : forall d, Forall (fun e => P (snd e)) d -> P (AMap d).
  Hypothesis HList : forall l, Forall P l -> P (AList l).
  Hypothesis HOther : forall v, (forall d, v <> AMap d) -> (forall l, v <> AList l) -> P v.
  Fixpoint aval_ind2 (v : aval) : P v :=
    match v with
    | AMap d => HMap d ((fix go (d : list (buf * aval)) : Forall (fun e => P (snd e)) d :=
                           match d with [] => Forall_nil _ | (k, x) :: r => Forall_cons (P := fun e => P (snd e)) (k, x) (aval_ind2 x) (go r) end) d)
    | AList l => HList l ((fix go (l : list aval) : Forall P l :=
                             match l with [] => Forall_nil _ | x :: r => Forall_cons x (aval_ind2 x) (go r) end) l)
    | ANil => HOther ANil ltac:(discriminate) ltac:(discriminate)
    | ABool b => HOther (ABool b) ltac:(discriminate) ltac:(discriminate)
    | AF64 f => HOther (AF64 f) ltac:(discriminate) ltac:(discriminate)
    | AF32 f => HOther (AF32 f) ltac:(discriminate) ltac:(discriminate)
    | AI64 z => HOther (AI64 z) ltac:(discriminate) ltac:(discriminate)
    | AU64 n => HOther (AU64 n) ltac:(discriminate) ltac:(discriminate)
    | AInt z => HOther (AInt z) ltac:(discriminate) ltac:(discriminate)
    | AUint n => HOther (AUint n) ltac:(discriminate) ltac:(discriminate)
    | ADur z => HOther (ADur z) ltac:(discriminate) ltac:(discriminate)
    | ACType n => HOther (ACType n) ltac:(discriminate) ltac:(discriminate)
    | AStr s => HOther (AStr s) ltac:(discriminate) ltac:(discriminate)
    | ABytes b => HOther (ABytes b) ltac:(discriminate) ltac:(discriminate)
    | ABuffer b => HOther (ABuffer b) ltac:(discriminate) ltac:(discriminate)
    | AName n => HOther (AName n) ltac:(discriminate) ltac:(discriminate)
    | AMatch m => HOther (AMatch m) ltac:(discriminate) ltac:(discriminate)
    | AOther t x => HOther (AOther t x) ltac:(discriminate) ltac:(discriminate)
    end.
End AvalInd.

Section Inst.
  Variable env : environ.

  Fixpoint inst_list (l : list aval) : res (list aval) :=
    match l with
    | [] => Ok []
    | x :: r => do x' <- inst_val env x; do r' <- inst_list r; Ok (x' :: r')
    end.
  Lemma inst_map_eq : forall d, inst_val env (AMap d) = do d' <- inst_attrs env d; Ok (AMap d').
  Proof. intros d. cbn [inst_val]. apply (f_equal (fun x => do d' <- x; Ok (AMap d'))). induction d as [|[k x] d IH]; [reflexivity|]. cbn [inst_attrs]. rewrite <- IH. reflexivity. Qed.
  Lemma inst_list_eq : forall l, inst_val env (AList l) = do l' <- inst_list l; Ok (AList l').
  Proof. reflexivity. Qed.

  Lemma env_name_dec : forall s, {exists r, s = 36%N :: r} + {~ exists r, s = 36%N :: r}.
  Proof.
    intros [|c s]; [right; intros (r & H); discriminate|]. destruct (N.eq_dec c 36) as [->|N]; [left; exists s; reflexivity|right]. intros (r & H). injection H as H _. contradiction.
  Qed.
  Lemma inst_str_var : forall r, inst_val env (AStr (36%N :: r)) = match e_get env (36%N :: r) with Some w => Ok w | None => Panic end.
  Proof. reflexivity. Qed.
  Lemma inst_str_other : forall s, ~ env_name s -> inst_val env (AStr s) = Ok (AStr s).
  Proof.
    intros [|c s] H; [reflexivity|]. cbn [inst_val]. assert (N : c <> 36%N) by (intros ->; apply H; exists s; reflexivity).
    destruct c as [|c]; [reflexivity|]. do 6 (try (destruct c as [c|c|]; try reflexivity)). exfalso. apply N. reflexivity.
  Qed.

  Definition inst_sub (v : aval) : Prop := forall v', inst_val env v = Ok v' <-> subst (e_get env) v v'.
  Lemma inst_attrs_sub : forall d, Forall (fun e => inst_sub (snd e)) d -> forall d', inst_attrs env d = Ok d' <-> substs (e_get env) d d'.
  Proof.
    induction d as [|[k x] d IH]; intros F d'; cbn [inst_attrs].
    - split; [intros H; injection H as <-; constructor|]. intros H. inversion H. reflexivity.
    - inversion F as [|? ? F1 F2]; subst. cbn [snd] in F1. specialize (IH F2). split.
      + destruct (inst_val env x) as [x'| | |] eqn:E; try discriminate. destruct (inst_attrs env d) as [r| | |] eqn:G; try discriminate. intros H. cbn [bind] in H. injection H as <-.
        constructor; [apply F1; exact E|apply IH; reflexivity].
      + intros H. inversion H as [|? ? v' ? r' S1 S2]; subst. apply F1 in S1. apply IH in S2. rewrite S1, S2. reflexivity.
  Qed.
  Lemma inst_list_sub : forall l, Forall inst_sub l -> forall l', inst_list l = Ok l' <-> substl (e_get env) l l'.
  Proof.
    induction l as [|x l IH]; intros F d'; cbn [inst_list].
    - split; [intros H; injection H as <-; constructor|]. intros H. inversion H. reflexivity.
    - inversion F as [|? ? F1 F2]; subst. specialize (IH F2). split.
      + destruct (inst_val env x) as [x'| | |] eqn:E; try discriminate. destruct (inst_list l) as [r| | |] eqn:G; try discriminate. intros H. cbn [bind] in H. injection H as <-.
        constructor; [apply F1; exact E|apply IH; reflexivity].
      + intros H. inversion H as [|? v' ? r' S1 S2]; subst. apply F1 in S1. apply IH in S2. rewrite S1, S2. reflexivity.
  Qed.

  Lemma inst_val_sub : forall v, inst_sub v.
  Proof.
    apply aval_ind2.
    - intros d F v'. rewrite inst_map_eq. pose proof (inst_attrs_sub d F) as I. split.
      + destruct (inst_attrs env d) as [r| | |]; try discriminate. intros H. cbn [bind] in H. injection H as <-. constructor. apply I. reflexivity.
      + intros H. inversion H as [| |? d' S| |? N1 N2 N3]; subst; [|exfalso; eapply N2; reflexivity]. apply I in S. rewrite S. reflexivity.
    - intros l F v'. rewrite inst_list_eq. pose proof (inst_list_sub l F) as I. split.
      + destruct (inst_list l) as [r| | |]; try discriminate. intros H. cbn [bind] in H. injection H as <-. constructor. apply I. reflexivity.
      + intros H. inversion H as [| | |? d' S|? N1 N2 N3]; subst; [|exfalso; eapply N3; reflexivity]. apply I in S. rewrite S. reflexivity.
    - intros v NM NL v'. destruct v; try (split; [intros H; injection H as <-; apply SbOther; discriminate|intros H; inversion H; subst; reflexivity]).
      + destruct (env_name_dec s) as [(r & ->)|N].
        * rewrite inst_str_var. split.
          -- destruct (e_get env (36%N :: r)) as [w|] eqn:E; [|discriminate]. intros H. injection H as <-. apply SbVar; [exists r; reflexivity|exact E].
          -- intros H. inversion H as [? ? _ E|? N| | |? N1]; subst; [rewrite E; reflexivity|exfalso; apply N; exists r; reflexivity|exfalso; eapply N1; reflexivity].
        * rewrite (inst_str_other s N). split; [intros H; injection H as <-; apply SbStr; exact N|].
          intros H. inversion H as [? ? E _|? E| | |? N1]; subst; [contradiction|reflexivity|exfalso; eapply N1; reflexivity].
      + exfalso. eapply NM. reflexivity.
      + exfalso. eapply NL. reflexivity.
  Qed.

  (** when the description cannot be instantiated *)
  Definition missing (v : aval) : Prop := exists s, mentions v s /\ env_name s /\ e_get env s = None.
  Definition inst_fail (v : aval) : Prop := (inst_val env v = Panic /\ missing v) \/ (exists v', inst_val env v = Ok v' /\ ~ missing v).

  Lemma inst_attrs_fail : forall d, Forall (fun e => inst_fail (snd e)) d ->
    (inst_attrs env d = Panic /\ missing (AMap d)) \/ (exists d', inst_attrs env d = Ok d' /\ ~ missing (AMap d)).
  Proof.
    induction d as [|[k x] d IH]; intros F; cbn [inst_attrs].
    - right. exists []. split; [reflexivity|]. intros (s & M & _). inversion M; subst. contradiction.
    - inversion F as [|? ? F1 F2]; subst. cbn [snd] in F1. destruct F1 as [[E (s & M & N & G)]|(x' & E & A)].
      + rewrite E. left. split; [reflexivity|]. exists s. split; [|auto]. eapply MtMap; [left; reflexivity|exact M].
      + rewrite E. cbn [bind]. destruct (IH F2) as [[E2 (s & M & N & G)]|(d' & E2 & A2)]; rewrite E2; cbn [bind].
        * left. split; [reflexivity|]. exists s. split; [|auto]. inversion M as [|? k' v ? I M'|]; subst. eapply MtMap; [right; exact I|exact M'].
        * right. eexists. split; [reflexivity|]. intros (s & M & N & G). inversion M as [|? k' v ? I M'|]; subst. destruct I as [I|I].
          -- injection I as <- <-. apply A. exists s. auto.
          -- apply A2. exists s. split; [|auto]. eapply MtMap; eassumption.
  Qed.
  Lemma inst_list_fail : forall d, Forall inst_fail d ->
    (inst_list d = Panic /\ missing (AList d)) \/ (exists d', inst_list d = Ok d' /\ ~ missing (AList d)).
  Proof.
    induction d as [|x d IH]; intros F; cbn [inst_list].
    - right. exists []. split; [reflexivity|]. intros (s & M & _). inversion M; subst. contradiction.
    - inversion F as [|? ? F1 F2]; subst. destruct F1 as [[E (s & M & N & G)]|(x' & E & A)].
      + rewrite E. left. split; [reflexivity|]. exists s. split; [|auto]. eapply MtList; [left; reflexivity|exact M].
      + rewrite E. cbn [bind]. destruct (IH F2) as [[E2 (s & M & N & G)]|(d' & E2 & A2)]; rewrite E2; cbn [bind].
        * left. split; [reflexivity|]. exists s. split; [|auto]. inversion M as [| |? v ? I M']; subst. eapply MtList; [right; exact I|exact M'].
        * right. eexists. split; [reflexivity|]. intros (s & M & N & G). inversion M as [| |? v ? I M']; subst. destruct I as [I|I].
          -- subst v. apply A. exists s. auto.
          -- apply A2. exists s. split; [|auto]. eapply MtList; eassumption.
  Qed.
  Lemma inst_val_fail : forall v, inst_fail v.
  Proof.
    apply aval_ind2.
    - intros d F. unfold inst_fail. rewrite inst_map_eq. destruct (inst_attrs_fail d F) as [[-> M]|(d' & -> & M)]; cbn [bind]; [left; auto|right; eauto].
    - intros l F. unfold inst_fail. rewrite inst_list_eq. destruct (inst_list_fail l F) as [[-> M]|(d' & -> & M)]; cbn [bind]; [left; auto|right; eauto].
    - intros v NM NL. destruct v; try (right; eexists; split; [reflexivity|]; intros (s0 & M & _); inversion M; fail).
      + destruct (env_name_dec s) as [(r & ->)|N]; unfold inst_fail.
        * rewrite inst_str_var. destruct (e_get env (36%N :: r)) as [w|] eqn:E; [right; exists w; split; [reflexivity|]|left; split; [reflexivity|]].
          -- intros (s & M & _ & G). inversion M; subst. congruence.
          -- exists (36%N :: r). split; [constructor|]. split; [exists r; reflexivity|exact E].
        * rewrite (inst_str_other s N). right. eexists. split; [reflexivity|]. intros (s' & M & E & _). inversion M; subst. contradiction.
      + exfalso. eapply NM. reflexivity.
      + exfalso. eapply NL. reflexivity.
  Qed.
  Lemma attrs_fail : forall d, (inst_attrs env d = Panic /\ missing (AMap d)) \/ (exists d', inst_attrs env d = Ok d' /\ ~ missing (AMap d)).
  Proof. intros d. apply inst_attrs_fail. apply Forall_forall. intros e _. apply inst_val_fail. Qed.
  Lemma attrs_sub : forall d d', inst_attrs env d = Ok d' <-> substs (e_get env) d d'.
  Proof. intros d. apply inst_attrs_sub. apply Forall_forall. intros e _. apply inst_val_sub. Qed.
  Lemma substs_keys : forall f d d', substs f d d' -> map fst d' = map fst d.
  Proof. intros f d d' H. induction H; cbn [map fst]; congruence. Qed.
End Inst.
