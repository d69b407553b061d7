From Verif Require Import Base BaseProofs PrimModel PrimProofs ReaderProofs2 NameModel NameProofs OrderProofs PropsNameProofs
  TextModel TextProofs TextProofs2.

(** ** no panics *)
(** neither a panic nor an endless loop *)
Definition returns {A} (x : res A) : Prop := match x with Ok _ | Err _ => True | _ => False end.

Lemma returns_bind : forall {A B} (x : res A) (f : A -> res B), returns x -> (forall a, returns (f a)) -> returns (bind x f).
Proof. intros A B x f H1 H2. destruct x; simpl in *; auto. Qed.

Lemma text_loop_returns : forall n s, (length s <= n)%nat -> returns (text_loop s).
Proof.
  induction n; intros s H; destruct s as [|c s]; simpl in H; try lia; try exact I. cbn [text_loop].
  destruct (is_legal c); [apply returns_bind; [apply IHn; lia|intros; exact I]|].
  destruct (_ =? _)%N.
  - destruct s as [|h [|l s]]; try exact I. destruct (parse_hex2 h l); [|exact I].
    apply returns_bind; [apply IHn; simpl in H; lia|intros; exact I].
  - destruct (is_special c); [exact I|]. apply returns_bind; [apply IHn; lia|intros; exact I].
Qed.

Lemma hex_returns : forall n s, (length s <= n)%nat -> returns (hex_from_str s).
Proof.
  induction n; intros s H; destruct s as [|a [|b s]]; simpl in H; try lia; try exact I. cbn [hex_from_str].
  destruct (parse_hex2 a b); [|exact I]. apply returns_bind; [apply IHn; lia|intros; exact I].
Qed.

Lemma fmt_returns : forall f s, returns (fmt_from_str f s).
Proof.
  destruct f; intros s; simpl.
  - exact I.
  - unfold text_from_str. destruct (existsb is_special s); [eapply text_loop_returns; eauto|exact I].
  - unfold dec_from_str. destruct (parse_dec s); [rewrite nat_bytes_ok; exact I|exact I].
  - eapply hex_returns; eauto.
Qed.

Lemma parse_type_returns : forall s, s <> [] -> returns (parse_type s).
Proof.
  intros [|c s] H; [congruence|]. unfold parse_type. replace (index (c :: s) 0) with (Ok c) by reflexivity. cbn [bind].
  destruct (is_alpha c); [destruct (conv_by_str _); exact I|destruct (parse_dec _); exact I].
Qed.

Lemma split_two : forall sep s a b, split_on sep s = [a; b] -> s = a ++ sep :: b /\ ~ In sep a /\ ~ In sep b.
Proof.
  intros sep s a b H. pose proof (join_split sep s) as J. pose proof (split_pieces sep s) as P. rewrite H in *.
  inversion P as [|? ? H1 P2]; subst. inversion P2; subst. auto.
Qed.

Theorem comp_from_str_panics : forall s,
  (comp_from_str s = Panic <-> exists t, s = chEq :: t /\ ~ In chEq t) /\ comp_from_str s <> Hang.
Proof.
  intros s.
  assert (G : (exists t, s = chEq :: t /\ ~ In chEq t) -> comp_from_str s = Panic).
  { intros (t & -> & H). unfold comp_from_str. cbn [split_on]. change (chEq =? chEq)%N with true. cbv iota.
    rewrite split_none by auto. reflexivity. }
  assert (K : returns (comp_from_str s) \/ exists t, s = chEq :: t /\ ~ In chEq t).
  { unfold comp_from_str. destruct (split_on chEq s) as [|a [|b [|c l]]] eqn:E; try (left; exact I).
    - left. apply returns_bind; [apply (fmt_returns FText)|intros; exact I].
    - destruct (split_two _ _ _ _ E) as (-> & Ha & Hb). destruct a as [|x a].
      + right. exists b. auto.
      + left. apply returns_bind; [apply parse_type_returns; discriminate|]. intros [t f].
        destruct (_ || _); [exact I|]. apply returns_bind; [apply fmt_returns|intros; exact I]. }
  split.
  - split; auto. intros P. destruct K as [K|]; auto. rewrite P in K. destruct K.
  - destruct K as [K|K]; [|rewrite (G K); discriminate]. intros Q. rewrite Q in K. destruct K.
Qed.

Lemma map_res_returns : forall {A B} (f : A -> res B) l, Forall (fun a => returns (f a)) l -> returns (map_res f l).
Proof. intros A B f l H. induction H; simpl; [exact I|]. repeat (apply returns_bind; auto; intros). exact I. Qed.

(** a piece of [s] between separators stands at the start or behind a separator *)
Lemma join_piece_at : forall sep xs p, In p xs -> exists a b, join_with sep xs = a ++ p ++ b /\
  (a = [] \/ exists a', a = a' ++ [sep]).
Proof.
  induction xs as [|x xs IH]; intros p I; [destruct I|]. destruct I as [<-|I].
  - exists []. destruct xs as [|y ys].
    + exists []. split; auto. simpl. rewrite app_nil_r. auto.
    + exists (sep :: join_with sep (y :: ys)). split; auto.
  - destruct (IH p I) as (a & b & E & Ha). destruct xs as [|y ys]; [destruct I|].
    exists (x ++ sep :: a), b. split.
    + change (join_with sep (x :: y :: ys)) with (x ++ sep :: join_with sep (y :: ys)). rewrite E, <- app_assoc. reflexivity.
    + right. destruct Ha as [->|(a' & ->)]; [exists x; auto|]. exists (x ++ sep :: a'). rewrite <- app_assoc. reflexivity.
Qed.

Lemma split_piece_at : forall sep s p, In p (split_on sep s) ->
  exists a b, s = a ++ p ++ b /\ (a = [] \/ exists a', a = a' ++ [sep]).
Proof. intros sep s p I. apply (join_piece_at sep) in I. rewrite join_split in I. exact I. Qed.

Lemma in_drop_first : forall l p, In p (drop_first_empty l) -> In p l.
Proof. destruct l as [|[|c x] l]; simpl; auto. Qed.
Lemma in_drop_last : forall l p, In p (drop_last_empty l) -> In p l.
Proof.
  intros l p I. unfold drop_last_empty in I. destruct (rev l) as [|[|c x] r] eqn:E; auto.
  apply in_rev. rewrite E. right. apply in_rev. auto.
Qed.

(** [w] occurs in [s] at the start of a name component *)
Definition starts_component (w s : buf) : Prop :=
  exists a b, s = a ++ w ++ b /\ (a = [] \/ exists a', a = a' ++ [chSlash]).

Theorem name_from_str_returns : forall s, ~ starts_component [chEq] s -> returns (name_from_str s).
Proof.
  intros s H. unfold name_from_str. apply map_res_returns. apply Forall_forall. intros p I.
  apply in_drop_last, in_drop_first in I.
  destruct (split_piece_at _ _ _ I) as (a & b & E & Ha).
  pose proof (comp_from_str_panics p) as [P1 P2].
  destruct (comp_from_str p) eqn:Q; simpl; auto.
  destruct (proj1 P1 eq_refl) as (t & -> & _). apply H. exists a, (t ++ b). auto.
Qed.

Lemma pat_from_str_returns : forall p, (forall t, p <> chEq :: t) -> (forall t, p <> chLt :: chEq :: t) ->
  returns (pat_from_str p).
Proof.
  intros p H1 H2.
  assert (C : returns (comp_from_str p)).
  { pose proof (comp_from_str_panics p) as [P1 P2]. destruct (comp_from_str p); simpl; auto.
    destruct (proj1 P1 eq_refl) as (t & -> & _). eapply H1; eauto. }
  unfold pat_from_str. destruct p as [|c p].
  - apply returns_bind; [exact C|intros; exact I].
  - destruct (N.eqb_spec c chLt) as [->|].
    2: { apply returns_bind; [exact C|intros; exact I]. }
    assert (L : exists x q, chLt :: p = q ++ [x]).
    { destruct (@exists_last _ (chLt :: p)) as (q & x & E); [discriminate|]. eauto. }
    destruct L as (x & q & E).
    assert (ZL : (zlen (chLt :: p) - 1 = zlen q)%Z) by (rewrite E, zlen_app; change (zlen [x]) with 1%Z; lia).
    rewrite ZL. rewrite E at 1.
    rewrite index_app. cbn [bind].
    destruct (N.eqb_spec x chGt) as [->|]; [|exact I].
    destruct q as [|c2 q].
    { simpl in E. inversion E. }
    inversion E; subst c2. 
    assert (SL : slice (chLt :: q ++ [chGt]) 1 (zlen (chLt :: q)) = Ok q).
    { change (chLt :: q ++ [chGt]) with ([chLt] ++ q ++ [chGt]). rewrite zlen_cons.
      apply (slice_mid [chLt] q [chGt]). }
    rewrite SL. cbn [bind].
    destruct (split_on chEq q) as [|t0 [|t1 [|t2 tl]]] eqn:S; try exact I.
    destruct (split_two _ _ _ _ S) as (-> & _ & _).
    apply returns_bind; [|intros; exact I]. apply parse_type_returns. intros ->.
    apply (H2 (t1 ++ [chGt])). rewrite E. reflexivity.
Qed.

Theorem np_from_str_returns : forall s, s <> [] -> ~ starts_component [chEq] s -> ~ starts_component [chLt; chEq] s ->
  returns (np_from_str s).
Proof.
  intros s NE H1 H2. unfold np_from_str.
  assert (NN : drop_first_empty (split_on chSlash s) <> []).
  { intros E. pose proof (join_split chSlash s) as J. destruct (split_on chSlash s) as [|[|c x] l] eqn:Q; simpl in *.
    - pose proof (split_nonempty chSlash s). congruence.
    - subst l. simpl in J. congruence.
    - discriminate. }
  destruct (drop_first_empty (split_on chSlash s)) as [|x l] eqn:E; [congruence|]. rewrite <- E.
  apply map_res_returns. apply Forall_forall. intros p I.
  apply in_drop_last, in_drop_first in I.
  destruct (split_piece_at _ _ _ I) as (a & b & Es & Ha).
  apply pat_from_str_returns; intros t ->.
  - apply H1. exists a, (t ++ b). auto.
  - apply H2. exists a, (t ++ b). auto.
Qed.

(** ** pattern text round trip *)
Definition pat_uri_ok (p : pat) : Prop :=
  match p with
  | PComp c => uri_ok c
  | PVar t tag => u64_ok t /\ ~ In chEq tag /\ ~ In chSlash tag
  end.

Lemma pat_var_roundtrip : forall t tag, u64_ok t -> ~ In chEq tag -> pat_from_str (pat_var_str t tag) = Ok (PVar t tag).
Proof.
  intros t tag U NE. unfold pat_var_str, pat_from_str.
  set (T := if (t =? TypeGeneric)%N then [] else match conv_by_type t with Some (nm, _) => nm ++ [chEq] | None => fmt_dec t ++ [chEq] end).
  change (chLt =? chLt)%N with true. cbv iota.
  assert (E0 : chLt :: T ++ tag ++ [chGt] = ([chLt] ++ T ++ tag) ++ [chGt]) by (rewrite <- !app_assoc; reflexivity).
  assert (ZL : (zlen (chLt :: T ++ tag ++ [chGt]) - 1 = zlen ([chLt] ++ (T ++ tag)))%Z).
  { rewrite E0, zlen_app. change (zlen [chGt]) with 1%Z. lia. }
  rewrite ZL. rewrite E0 at 1. rewrite index_app. cbn [bind]. change (chGt =? chGt)%N with true. cbv iota.
  assert (SL : slice (chLt :: T ++ tag ++ [chGt]) 1 (zlen ([chLt] ++ (T ++ tag))) = Ok (T ++ tag)).
  { replace (chLt :: T ++ tag ++ [chGt]) with ([chLt] ++ (T ++ tag) ++ [chGt]) by (rewrite <- app_assoc; reflexivity).
    rewrite zlen_app. change (zlen [chLt]) with 1%Z. apply (slice_mid [chLt] (T ++ tag) [chGt]). }
  rewrite SL. cbn [bind]. unfold T. destruct (N.eqb_spec t TypeGeneric) as [->|NG].
  - cbn [app]. rewrite split_none by auto. reflexivity.
  - destruct (conv_by_type_cases t) as [[E NI]|(nm & f & E & I & P & F & NN & K)]; rewrite E.
    + rewrite <- app_assoc. cbn [app]. rewrite split_app by (apply no_eq_uri, fmt_dec_uri). rewrite split_none by auto.
      rewrite parse_type_dec by auto. reflexivity.
    + rewrite <- app_assoc. cbn [app]. rewrite split_app by (apply no_eq_uri; auto). rewrite split_none by auto.
      rewrite P. reflexivity.
Qed.

Lemma comp_str_not_lt : forall c s, comp_ok c -> comp_str c <> chLt :: s.
Proof.
  intros [t v] s [U B] E. unfold comp_str in E. cbn [ctyp cval] in *.
  assert (X : forall (l m : buf), Forall uri_char l -> l <> [] -> l ++ m <> chLt :: s).
  { intros [|x l] m F NN Q; [congruence|]. inversion Q; subst. inversion F; subst. apply (uri_not chLt chLt); auto. }
  destruct (conv_by_type_cases t) as [[Ec NI]|(nm & f & Ec & I & P & F & NN & K)]; rewrite Ec in E.
  - destruct (_ =? _)%N.
    + cbn [app] in E. pose proof (text_uri v B). rewrite E in H. inversion H; subst. apply (uri_not chLt chLt); auto.
    + rewrite <- app_assoc in E. eapply X; [| |exact E]; [apply fmt_dec_uri|apply fmt_dec_nonempty].
  - rewrite <- app_assoc in E. eapply X; [| |exact E]; auto.
Qed.

Lemma pat_str_roundtrip : forall p, pat_uri_ok p -> pat_from_str (pat_str p) = Ok p.
Proof.
  intros [c|t tag] H; simpl in *.
  - unfold pat_from_str. destruct (comp_str c) as [|x s] eqn:E.
    + rewrite <- E, comp_str_roundtrip by auto. reflexivity.
    + destruct (N.eqb_spec x chLt) as [->|]; [exfalso; eapply comp_str_not_lt; [apply H|exact E]|].
      rewrite <- E, comp_str_roundtrip by auto. reflexivity.
  - destruct H as (U & NE & _). apply pat_var_roundtrip; auto.
Qed.

Lemma pat_str_no_slash : forall p, pat_uri_ok p -> ~ In chSlash (pat_str p).
Proof.
  intros [c|t tag] H; simpl in *.
  - apply comp_str_uri. apply H.
  - destruct H as (U & NE & NS). unfold pat_var_str. intros [I|I]; [discriminate|].
    apply in_app_or in I. destruct I as [I|I].
    + destruct (_ =? _)%N; [destruct I|].
      destruct (conv_by_type_cases t) as [[Ec NI]|(nm & f & Ec & _ & P & F & NN & K)]; rewrite Ec in I;
        apply in_app_or in I; destruct I as [I|[I|[]]]; try discriminate.
      * apply (no_slash_uri _ (fmt_dec_uri t)); auto.
      * apply (no_slash_uri _ F); auto.
    + apply in_app_or in I. destruct I as [I|[I|[]]]; [auto|discriminate].
Qed.

Theorem np_str_roundtrip : forall p, Forall pat_uri_ok p ->
  (forall q, p <> q ++ [PComp (mkComp TypeGeneric [])]) -> np_from_str (np_str p) = Ok p.
Proof.
  intros p O L. unfold np_str. destruct p as [|x p]; [reflexivity|].
  replace (concat (map (fun c => chSlash :: pat_str c) (x :: p)))
    with (concat (map (cons chSlash) (map pat_str (x :: p)))) by (rewrite map_map; reflexivity).
  unfold np_from_str. rewrite split_slashed.
  2: { apply Forall_forall. intros y I. apply in_map_iff in I. destruct I as (d & <- & I).
       apply pat_str_no_slash. rewrite Forall_forall in O. auto. }
  cbn [drop_first_empty map]. 
  assert (E : drop_last_empty (map pat_str (x :: p)) = map pat_str (x :: p)).
  { destruct (@exists_last _ (x :: p)) as (q & y & E); [discriminate|]. rewrite E, map_app. cbn [map]. rewrite drop_last_app.
    destruct (pat_str y) as [|a b] eqn:Q; auto. destruct y as [c|t tag]; [|simpl in Q; discriminate].
    simpl in Q. apply comp_str_nil in Q. destruct c; simpl in *. destruct Q; subst. exfalso. eapply L; eauto. }
  change (pat_str x :: map pat_str p) with (map pat_str (x :: p)). rewrite E.
  apply map_res_map. eapply Forall_impl; [|exact O]. apply pat_str_roundtrip.
Qed.

(** ** valid types *)
Lemma nat_enc_bytes : forall x, bytes_ok (nat_enc x).
Proof. exact nat_enc_ok. Qed.

Theorem comp_from_str_type : forall s c, comp_from_str s = Ok c ->
  (1 <= ctyp c <= 65535)%N \/ (two63 <= ctyp c < two64)%N.
Proof.
  intros s c H. unfold comp_from_str in H. destruct (split_on chEq s) as [|a [|b [|d l]]]; try discriminate.
  - destruct (text_from_str a); try discriminate. inversion H; subst. left. simpl. unfold TypeGeneric. lia.
  - destruct (parse_type a) as [[t f]| | |] eqn:P; try discriminate. cbn [bind] in H.
    destruct ((t <=? 0)%N || (65535 <? to_int t)%Z) eqn:Q; [discriminate|].
    destruct (fmt_from_str f b); try discriminate. inversion H; subst. cbn [ctyp].
    apply orb_false_elim in Q. destruct Q as [Q1 Q2]. apply N.leb_gt in Q1. apply Z.ltb_ge in Q2.
    assert (U : (t < two64)%N).
    { unfold parse_type in P. destruct (index a 0) as [x| | |]; try discriminate. cbn [bind] in P.
      destruct (is_alpha x).
      - destruct (conv_by_str a) as [[t' f']|] eqn:C; [|discriminate]. inversion P; subst.
        unfold conv_by_str, conv_by_str_in, conventions in C.
        repeat match type of C with (if ?x then _ else _) = _ => destruct x; [inversion C; subst; reflexivity|] end. discriminate.
      - destruct (parse_dec a) as [z|] eqn:C; [|discriminate]. inversion P; subst.
        assert (G : forall s x z, parse_dec_loop x s = Some z -> (x < two64)%N -> (z < two64)%N).
        { induction s0 as [|ch s0 IH]; intros x1 z1 HH LL; simpl in HH; [inversion HH; subst; auto|].
          destruct (is_digit ch); [|discriminate]. destruct (N.ltb_spec (x1 * 10 + (ch - 48)) two64); [|discriminate]. eauto. }
        unfold parse_dec in C. destruct a; [discriminate|]. eapply G; [exact C|]. reflexivity. }
    destruct (N.lt_ge_cases t two63) as [L|L].
    + left. rewrite to_int_small in Q2 by auto. lia.
    + right. auto.
Qed.
