From Coq Require Import Permutation.
From Verif Require Import Base NameModel TextModel TextProofs TextProofs2 TrieModel TrieSpec TrieProofs StoreModel StoreSpec.

Section FirstP.
  Context {V : Type} (ord : nat -> list (key * nat) -> list (key * nat)) (pred : V -> bool).
  Hypothesis ord_perm : forall n l, Permutation l (ord n l).

  (** where the search ends: a node below, with the predicate; or nowhere, and then there is none *)
  Lemma first_ok : forall h, Inv V h -> forall f p n, walk V h 0 p = Some n -> (length h - n < f)%nat ->
    exists r, first_node_if ord pred f h n = Ok r /\
      match r with
      | Some m => exists q x, walk V h 0 (p ++ q) = Some m /\ nth_error h m = Some x /\ pred (t_val x) = true
      | None => forall q v, abs V h (p ++ q) = Some v -> pred v = false
      end.
  Proof.
    intros h I. induction f as [|f IH]; intros p n W F; [lia|]. cbn [first_node_if].
    destruct (walk_root V h p n I W) as (x & X & D & C). rewrite (get_ok V h n x X). cbn [bind].
    destruct (pred (t_val x)) eqn:P.
    - exists (Some n). split; [reflexivity|]. exists [], x. rewrite app_nil_r. auto.
    - assert (L : forall l, (forall k c, In (k, c) l -> In (k, c) (chd_list (t_chd x))) ->
        exists r, (fix go (l : list (key * nat)) : res (option nat) :=
              match l with
              | [] => Ok None
              | (_, c) :: l' => do r <- first_node_if ord pred f h c; match r with Some m => Ok (Some m) | None => go l' end
              end) l = Ok r /\
          match r with
          | Some m => exists q x, walk V h 0 (p ++ q) = Some m /\ nth_error h m = Some x /\ pred (t_val x) = true
          | None => forall k c q v, In (k, c) l -> abs V h (p ++ k :: q) = Some v -> pred v = false
          end).
      { induction l as [|[k c] l IHl]; intros S.
        - exists None. split; [reflexivity|]. intros k c q v [].
        - assert (K : In (k, c) (chd_list (t_chd x))) by (apply S; left; reflexivity).
          assert (ST : step V h n k = Some c).
          { unfold step. rewrite X. unfold chd_list in K. destruct (t_chd x) as [m|] eqn:M; [|destruct K]. cbn [chd_get]. apply in_find; auto.
            destruct I as (_ & _ & I2). apply (I2 n x m X M). }
          assert (WC : walk V h 0 (p ++ [k]) = Some c) by (rewrite walk_snoc, W; auto).
          destruct (step_child V h n k c I ST) as (x' & y & A1 & A2 & A3 & A4 & A5 & A6 & A7).
          assert (NC : (n < c)%nat). { destruct I as (_ & I1 & _). destruct (I1 c y A2 A7) as (q & z & Q1 & Q2 & _). rewrite A3 in Q1. inversion Q1; subst. auto. }
          pose proof (nth_lt V _ _ _ A2) as LC.
          destruct (IH (p ++ [k]) c WC) as (r & E & R); [lia|]. rewrite E. cbn [bind]. destruct r as [m|].
          + exists (Some m). split; [reflexivity|]. destruct R as (q & z & R1 & R2 & R3). rewrite <- app_assoc in R1. exists (k :: q), z. auto.
          + destruct IHl as (r & E' & R'); [intros; apply S; right; auto|]. exists r. split; [exact E'|]. destruct r as [m|]; [exact R'|].
            intros k' c' q v [J|J] A; [|eapply R'; eauto]. inversion J; subst. apply (R q). rewrite <- app_assoc. auto. }
      destruct (L (ord n (chd_list (t_chd x)))) as (r & E & R).
      { intros k c K. eapply Permutation_in; [apply Permutation_sym, ord_perm|exact K]. }
      exists r. split; [exact E|]. destruct r as [m|]; [exact R|]. intros q v A. destruct q as [|k q].
      + rewrite app_nil_r, (walk_abs V h p n x W X) in A. inversion A; subst. auto.
      + destruct (step V h n k) as [c|] eqn:ST.
        * apply (R k c q v); auto. eapply Permutation_in; [apply ord_perm|]. unfold step in ST. rewrite X in ST. destruct (t_chd x) as [m|]; [|discriminate]. cbn [chd_get] in ST. apply find_in. auto.
        * exfalso. assert (walk V h 0 (p ++ k :: q) = None) by (rewrite walk_app, W; cbn [walk]; rewrite ST; auto).
          apply (abs_none V) in H; auto. congruence.
  Qed.
End FirstP.

(** ** what the trie holds after a history of Put *)
Fixpoint last_put (k : path) (l : list (name * wire * Z)) : option entry :=
  match l with
  | [] => None
  | (n, raw, v) :: l' => match last_put k l' with
                         | Some e => Some e
                         | None => if path_dec (keys n) k then Some (mkEntry raw v) else None
                         end
  end.
Definition holds (h : store entry) (f : path -> option entry) : Prop :=
  Inv entry h /\ (forall p e, f p = Some e -> abs entry h p = Some e) /\ (forall p, f p = None -> abs entry h p = None \/ abs entry h p = Some no_entry).

Lemma put_holds : forall h n raw v f, holds h f -> exists h', s_put h n raw v = Ok h' /\ holds h' (fun p => if path_dec (keys n) p then Some (mkEntry raw v) else f p).
Proof.
  intros h n raw v f (I & A & B). unfold s_put, t_always, match_always. fold (keys n).
  destruct (first_loop entry no_entry (fun _ => false) (keys n) (S (length (keys n))) h [] 0 I eq_refl (prefix_nil _)) as (h' & m & q & E & I' & W & P1 & P2 & [AD1 AD2] & _ & Q); [simpl; lia|].
  rewrite E. cbn [bind fst snd]. destruct Q as [->|Q]; [|discriminate].
  destruct (walk_root entry h' _ m I' W) as (x & X & _). destruct (set_value_ok entry h' m x (mkEntry raw v) I' X) as (h2 & S & I2 & WK & NTH).
  exists h2. split; [exact S|].
  assert (AB : forall p, abs entry h2 p = if path_dec (keys n) p then Some (mkEntry raw v) else abs entry h' p).
  { intros p. unfold abs. rewrite WK. destruct (path_dec (keys n) p) as [<-|N].
    - rewrite W, NTH, Nat.eqb_refl. reflexivity.
    - destruct (walk entry h' 0 p) as [k|] eqn:Wp; [|reflexivity]. rewrite NTH. destruct (Nat.eqb_spec k m) as [->|]; [|reflexivity]. exfalso. apply N. apply (walk_inj entry h' _ _ m); auto. }
  split; [exact I2|]. split; intros p.
  - intros e. rewrite AB. destruct (path_dec (keys n) p) as [<-|N]; [auto|]. intros F. destruct (prefix_dec p (keys n)) as [P|P].
    + rewrite AD1 by auto. unfold a_val. rewrite (A _ _ F). reflexivity.
    + rewrite AD2 by auto. auto.
  - rewrite AB. destruct (path_dec (keys n) p) as [<-|N]; [discriminate|]. intros F. destruct (prefix_dec p (keys n)) as [P|P].
    + rewrite AD1 by auto. unfold a_val. destruct (B p F) as [-> | ->]; auto.
    + rewrite AD2 by auto. auto.
Qed.

Lemma holds_ext : forall h f g, (forall p, f p = g p) -> holds h f -> holds h g.
Proof. intros h f g E (A & B & C). split; [auto|]. split; intros p; rewrite <- E; auto. Qed.

Lemma puts_holds : forall l h f, holds h f -> exists h', s_puts h l = Ok h' /\ holds h' (fun p => match last_put p l with Some e => Some e | None => f p end).
Proof.
  induction l as [|[[n raw] v] l IH]; intros h f H; cbn [s_puts].
  - exists h. split; [reflexivity|]. exact H.
  - destruct (put_holds h n raw v f H) as (h1 & E & H1). rewrite E. cbn [bind]. destruct (IH h1 _ H1) as (h2 & E2 & H2). exists h2. split; [exact E2|].
    eapply holds_ext; [|exact H2]. intros p. cbn [last_put]. destruct (last_put p l); [reflexivity|]. destruct (path_dec (keys n) p); reflexivity.
Qed.

Lemma new_holds : holds s_new (fun _ => None).
Proof.
  split; [apply new_inv|]. split; [discriminate|]. intros p _. unfold s_new. rewrite new_abs. destruct p; [right|left]; reflexivity.
Qed.

Lemma last_put_latest : forall l k e, last_put k l = Some e <-> exists n, keys n = k /\ latest l (n, en_raw e, en_valid e).
Proof.
  induction l as [|[[n raw] v] l IH]; intros k e; cbn [last_put].
  - split; [discriminate|]. intros (n & _ & a & b & E & _). destruct a; discriminate.
  - split.
    + destruct (last_put k l) as [e'|] eqn:L.
      * intros H. inversion H; subst e'. apply IH in L. destruct L as (m & K & a & b & -> & Q). exists m. split; [exact K|]. exists ((n, raw, v) :: a), b. split; [reflexivity|exact Q].
      * destruct (path_dec (keys n) k) as [<-|]; [|discriminate]. intros H. inversion H; subst e. exists n. split; [reflexivity|]. exists [], l. split; [reflexivity|].
        intros q IQ SQ. assert (N : last_put (keys n) l <> None).
        { clear -IQ SQ. induction l as [|[[n' raw'] v'] l IH]; [destruct IQ|]. cbn [last_put]. destruct IQ as [<-|IQ].
          - destruct (last_put (keys n) l); [discriminate|]. cbn in SQ. unfold same_name in SQ. rewrite SQ. destruct (path_dec (keys n) (keys n)); congruence.
          - destruct (last_put (keys n) l); [discriminate|]. exfalso. apply IH; auto. }
        congruence.
    + intros (m & K & a & b & E & Q). destruct a as [|z a].
      * inversion E; subst. destruct (last_put (keys m) b) as [e'|] eqn:L.
        -- apply IH in L. destruct L as (m' & K' & a' & b' & -> & _). exfalso. apply (Q (m', en_raw e', en_valid e')); [apply in_or_app; right; left; reflexivity|]. exact K'.
        -- destruct (path_dec (keys m) (keys m)); [|congruence]. destruct e; reflexivity.
      * inversion E; subst. assert (L : last_put (keys m) (a ++ (m, en_raw e, en_valid e) :: b) = Some e) by (apply IH; exists m; split; [reflexivity|]; exists a, b; auto).
        rewrite L. reflexivity.
Qed.

Lemma fresh_iff : forall mbf now e, fresh_test mbf now e = true <-> en_raw e <> [] /\ (mbf = true -> (now < en_valid e)%Z).
Proof.
  intros mbf now e. unfold fresh_test. rewrite Bool.andb_true_iff, Bool.orb_true_iff, Nat.ltb_lt, Z.ltb_lt. destruct (en_raw e); cbn [length].
  - split; [lia|]. intros [H _]. congruence.
  - destruct mbf; cbn [negb]; split; intros [A B]; (split; [try discriminate; lia|]); intuition congruence.
Qed.

(** the answer of Get *)
Lemma get_ok : forall puts h ord now n cbp mbf, (forall m l, Permutation l (ord m l)) -> s_puts s_new puts = Ok h ->
  exists r, s_get ord h now n cbp mbf = Ok r /\
    match last_put (keys n) puts with
    | Some e => if fresh_test mbf now e then r = Some (en_raw e) else True
    | None => True
    end /\
    match r with
    | Some w => exists k e, prefix (keys n) k /\ last_put k puts = Some e /\ fresh_test mbf now e = true /\ w = en_raw e
    | None => forall k e, prefix (keys n) k -> last_put k puts = Some e -> fresh_test mbf now e = false
    end.
Proof.
  intros puts h ord now n cbp mbf O E. destruct (puts_holds puts s_new _ new_holds) as (h' & E' & HH). rewrite E in E'. inversion E'; subst h'. clear E'.
  apply (holds_ext _ _ (fun p => last_put p puts)) in HH; [|intros p; destruct (last_put p puts); reflexivity].
  destruct HH as (I & A & B). unfold s_get. fold (keys n). rewrite t_exact_ok by auto. cbn [bind].
  destruct (walk entry h 0 (keys n)) as [nd|] eqn:W.
  - destruct (walk_root entry h _ nd I W) as (x & X & _). unfold value. rewrite (TrieProofs.get_ok entry h nd x X). cbn [bind].
    pose proof (walk_abs entry h _ nd x W X) as AX.
    destruct (fresh_test mbf now (t_val x)) eqn:F.
    + exists (Some (en_raw (t_val x))). split; [reflexivity|].
      destruct (last_put (keys n) puts) as [e|] eqn:L.
      * rewrite (A _ _ L) in AX. inversion AX; subst e. rewrite F. split; [reflexivity|]. exists (keys n), (t_val x). split; [apply prefix_refl|]. auto.
      * exfalso. destruct (B _ L) as [Y|Y]; rewrite Y in AX; inversion AX as [Z]. rewrite <- Z in F. discriminate F.
    + destruct (first_ok ord (fresh_test mbf now) O h I (S (length h)) (keys n) nd W) as (r & R & Q); [lia|]. rewrite R. cbn [bind].
      assert (TOP : match last_put (keys n) puts with Some e => fresh_test mbf now e = false | None => True end).
      { destruct (last_put (keys n) puts) as [e|] eqn:L; [|auto]. rewrite (A _ _ L) in AX. inversion AX; subst. auto. }
      destruct r as [m|].
      * destruct Q as (q & y & Q1 & Q2 & Q3). rewrite (TrieProofs.get_ok entry h m y Q2). cbn [bind]. eexists. split; [reflexivity|].
        split; [destruct (last_put (keys n) puts); [rewrite TOP|]; exact Logic.I|].
        pose proof (walk_abs entry h _ m y Q1 Q2) as AY. exists (keys n ++ q), (t_val y). split; [exists q; reflexivity|].
        destruct (last_put (keys n ++ q) puts) as [e|] eqn:L.
        -- rewrite (A _ _ L) in AY. inversion AY; subst. auto.
        -- exfalso. destruct (B _ L) as [Y|Y]; rewrite Y in AY; inversion AY as [Z]. rewrite <- Z in Q3. discriminate Q3.
      * exists None. split; [reflexivity|]. split; [destruct (last_put (keys n) puts); [rewrite TOP|]; exact Logic.I|].
        intros k e (q & ->) L. apply (Q q). auto.
  - exists None. split; [reflexivity|].
    assert (N : forall k e, prefix (keys n) k -> last_put k puts <> Some e).
    { intros k e P L. apply (abs_none entry) in W; auto. apply (abs_prefix_closed entry h (keys n) k I P); auto. rewrite (A _ _ L). discriminate. }
    split; [destruct (last_put (keys n) puts) eqn:L; [exfalso; eapply N; [apply prefix_refl|exact L]|exact Logic.I]|].
    intros k e P L. exfalso. eapply N; eauto.
Qed.
