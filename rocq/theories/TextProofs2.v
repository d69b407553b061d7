From Verif Require Import Base BaseProofs PrimModel PrimProofs NameModel NameProofs OrderProofs PropsNameProofs TextModel TextProofs.

Definition dec_type (t : N) : Prop := In t [50; 52; 54; 56; 58]%N.
Definition uri_ok (c : comp) : Prop :=
  comp_ok c /\ (1 <= ctyp c <= 65535)%N /\ (dec_type (ctyp c) -> shortest_number (cval c)).

Lemma parse_type_dec : forall t, u64_ok t -> parse_type (fmt_dec t) = Ok (t, FText).
Proof.
  intros t U. pose proof (fmt_dec_nonempty t). pose proof (fmt_dec_isdigits t).
  pose proof (dec_parse t U). unfold parse_type. destruct (fmt_dec t) as [|c s]; [congruence|].
  inversion H0; subst. cbn [index].
  replace (index (c :: s) 0) with (Ok c) by reflexivity. cbn [bind].
  assert (is_alpha c = false).
  { unfold is_digit in H4. unfold is_alpha. nb.
    destruct (N.leb_spec 65 c), (N.leb_spec c 90), (N.leb_spec 97 c), (N.leb_spec c 122); auto; lia. }
  rewrite H2. rewrite H1. reflexivity.
Qed.

Lemma no_eq_uri : forall s, Forall uri_char s -> ~ In chEq s.
Proof. intros. apply uri_no; auto. Qed.
Lemma no_slash_uri : forall s, Forall uri_char s -> ~ In chSlash s.
Proof. intros. apply uri_no; auto. Qed.

Lemma from_typed : forall T V, Forall uri_char T -> Forall uri_char V ->
  split_on chEq ((T ++ [chEq]) ++ V) = [T; V].
Proof.
  intros. rewrite <- app_assoc. cbn [app]. rewrite split_app by (apply no_eq_uri; auto).
  rewrite split_none by (apply no_eq_uri; auto). reflexivity.
Qed.

Lemma conv_by_type_cases : forall t,
  (conv_by_type t = None /\ ~ In t [1; 2; 50; 52; 54; 56; 58]%N) \/
  (exists nm f, conv_by_type t = Some (nm, f) /\ In t [1; 2; 50; 52; 54; 56; 58]%N /\
     parse_type nm = Ok (t, f) /\ Forall uri_char nm /\ nm <> [] /\
     ((f = FHex /\ (t = 1 \/ t = 2)%N) \/ (f = FDec /\ dec_type t))).
Proof.
  intros t.
  assert (G : forall k, In k [1; 2; 50; 52; 54; 56; 58]%N -> exists nm f, conv_by_type k = Some (nm, f) /\
     parse_type nm = Ok (k, f) /\ Forall uri_char nm /\ nm <> [] /\
     ((f = FHex /\ (k = 1 \/ k = 2)%N) \/ (f = FDec /\ dec_type k))).
  { intros k I. assert (A : forall s, forallb is_legal s = true -> Forall uri_char s).
    { intros s H. rewrite forallb_forall in H. apply Forall_forall. intros x Hx. left. auto. }
    unfold dec_type. simpl in I.
    repeat (destruct I as [<-|I]; [do 2 eexists; split; [reflexivity|split; [reflexivity|split;
      [apply A; reflexivity|split; [discriminate|simpl; tauto]]]]|]). destruct I. }
  destruct (in_dec N.eq_dec t [1; 2; 50; 52; 54; 56; 58]%N) as [I|I].
  - right. destruct (G t I) as (nm & f & H). exists nm, f. tauto.
  - left. split; auto. unfold conv_by_type, conventions, conv_by_type_in.
    repeat match goal with |- context [(?a =? t)%N] => destruct (N.eqb_spec a t) as [<-|]; [exfalso; apply I; simpl; tauto|] end.
    reflexivity.
Qed.

Lemma fmt_uri : forall f v, bytes_ok v -> Forall uri_char (fmt_to_str f v).
Proof.
  destruct f; intros; simpl; [constructor|apply text_uri; auto|apply fmt_dec_uri|apply hex_uri; auto].
Qed.

Lemma type_range : forall t, (1 <= t <= 65535)%N -> ((t <=? 0)%N || (65535 <? to_int t)%Z) = false.
Proof.
  intros t H. rewrite to_int_small by (unfold two63; lia).
  destruct (N.leb_spec t 0); [lia|]. destruct (Z.ltb_spec 65535 (Z.of_N t)); [lia|]. auto.
Qed.

Theorem comp_canonical_roundtrip : forall c, comp_ok c -> (1 <= ctyp c <= 65535)%N ->
  comp_from_str (comp_canonical c) = Ok c.
Proof.
  intros [t v] [U B] R. simpl in *. unfold comp_canonical, comp_from_str. cbn [ctyp cval].
  destruct (N.eqb_spec t TypeGeneric) as [->|NG].
  - cbn [app]. rewrite split_none by (apply no_eq_uri, text_uri; auto).
    rewrite text_roundtrip by auto. reflexivity.
  - rewrite from_typed by (auto using fmt_dec_uri, text_uri).
    rewrite parse_type_dec by auto. cbn [bind]. rewrite type_range by auto.
    cbn [fmt_from_str]. rewrite text_roundtrip by auto. reflexivity.
Qed.

Theorem comp_str_roundtrip : forall c, uri_ok c -> comp_from_str (comp_str c) = Ok c.
Proof.
  intros [t v] ([U B] & R & D). cbn [ctyp cval] in *. unfold comp_str, comp_from_str. cbn [ctyp cval].
  destruct (conv_by_type_cases t) as [[E NI]|(nm & f & E & I & P & F & NE & K)]; rewrite E.
  - destruct (N.eqb_spec t TypeGeneric) as [->|NG].
    + cbn [app]. rewrite split_none by (apply no_eq_uri, text_uri; auto).
      rewrite text_roundtrip by auto. reflexivity.
    + rewrite from_typed by (auto using fmt_dec_uri, text_uri).
      rewrite parse_type_dec by auto. cbn [bind]. rewrite type_range by auto.
      cbn [fmt_from_str]. rewrite text_roundtrip by auto. reflexivity.
  - rewrite from_typed by (auto using fmt_uri). rewrite P. cbn [bind]. rewrite type_range by auto.
    destruct K as [[-> _]|[-> DT]]; cbn [fmt_from_str fmt_to_str].
    + rewrite hex_roundtrip by auto. reflexivity.
    + rewrite dec_roundtrip by auto. reflexivity.
Qed.

(** ** names *)
Lemma split_segs : forall sep l x, ~ In sep x -> Forall (fun y => ~ In sep y) l ->
  split_on sep (x ++ concat (map (cons sep) l)) = x :: l.
Proof.
  induction l as [|y l IH]; intros x H F.
  - simpl. rewrite app_nil_r. apply split_none; auto.
  - inversion F; subst. cbn [map concat]. change ((sep :: y) ++ concat (map (cons sep) l)) with (sep :: (y ++ concat (map (cons sep) l))).
    rewrite split_app by auto. rewrite IH; auto.
Qed.

Lemma split_slashed : forall sep l, Forall (fun y => ~ In sep y) l ->
  split_on sep (concat (map (cons sep) l)) = [] :: l.
Proof. intros. apply (split_segs sep l []); auto. Qed.

Lemma comp_str_uri : forall c, comp_ok c -> ~ In chSlash (comp_str c).
Proof.
  intros [t v] [U B] I. unfold comp_str in I. cbn [ctyp cval] in I.
  destruct (conv_by_type_cases t) as [[E NI]|(nm & f & E & _ & P & F & NE & K)]; rewrite E in I.
  - apply in_app_or in I. destruct I as [I|I].
    + destruct (_ =? _)%N; [destruct I|]. apply in_app_or in I. destruct I as [I|[I|[]]]; [|discriminate].
      apply (no_slash_uri _ (fmt_dec_uri t)); auto.
    + apply (no_slash_uri _ (text_uri v B)); auto.
  - apply in_app_or in I. destruct I as [I|I].
    + apply in_app_or in I. destruct I as [I|[I|[]]]; [|discriminate].
      apply (no_slash_uri _ F); auto.
    + apply (no_slash_uri _ (fmt_uri f v B)); auto.
Qed.

Lemma text_nil : forall v, text_to_str v = [] -> v = [].
Proof. destruct v as [|b v]; auto. unfold text_to_str. simpl. destruct (is_legal b); discriminate. Qed.

Lemma comp_str_nil : forall c, comp_str c = [] <-> ctyp c = TypeGeneric /\ cval c = [].
Proof.
  intros [t v]. unfold comp_str. cbn [ctyp cval].
  destruct (conv_by_type_cases t) as [[E NI]|(nm & f & E & I & P & F & NE & K)]; rewrite E.
  - destruct (N.eqb_spec t TypeGeneric) as [->|NG].
    + cbn [app]. split; [intros H; split; auto; apply text_nil; auto|]. intros [_ ->]. reflexivity.
    + split; [|intros [? _]; congruence]. intros H. apply app_eq_nil in H. destruct H as [H _].
      apply app_eq_nil in H. destruct H. discriminate.
  - split.
    + intros H. apply app_eq_nil in H. destruct H as [H _]. apply app_eq_nil in H. destruct H. discriminate.
    + intros [-> _]. simpl in I. unfold TypeGeneric in I. lia.
Qed.

Lemma drop_last_app : forall l x, drop_last_empty (l ++ [x]) = match x with [] => l | _ => l ++ [x] end.
Proof.
  intros. unfold drop_last_empty. rewrite rev_app_distr. cbn [rev app]. destruct x; auto. apply rev_involutive.
Qed.

Definition pieces (s : buf) : list buf := drop_last_empty (drop_first_empty (split_on chSlash s)).

Lemma concat_map_cons : forall (n : name), concat (map (fun c => chSlash :: comp_str c) n) = concat (map (cons chSlash) (map comp_str n)).
Proof. intros. rewrite map_map. reflexivity. Qed.

Lemma name_pieces : forall n, Forall comp_ok n -> pieces (name_str n) = map comp_str n.
Proof.
  intros n O. unfold pieces, name_str.
  destruct n as [|c n _] using rev_ind; [reflexivity|].
  rewrite rev_app_distr. cbn [rev app]. rewrite concat_map_cons.
  assert (NS : Forall (fun y => ~ In chSlash y) (map comp_str (n ++ [c]))).
  { apply Forall_forall. intros y I. apply in_map_iff in I. destruct I as (d & <- & I).
    apply comp_str_uri. rewrite Forall_forall in O. auto. }
  destruct ((ctyp c =? TypeGeneric)%N && (length (cval c) =? 0)%nat) eqn:E.
  - apply andb_prop in E. destruct E as [E1 E2]. apply N.eqb_eq in E1. apply Nat.eqb_eq in E2. apply length_zero_iff_nil in E2.
    assert (CS : comp_str c = []) by (apply comp_str_nil; auto).
    replace (concat (map (cons chSlash) (map comp_str (n ++ [c]))) ++ [chSlash])
      with (concat (map (cons chSlash) (map comp_str (n ++ [c]) ++ [[]]))) by (rewrite map_app, concat_app; reflexivity).
    rewrite split_slashed.
    + cbn [drop_first_empty]. rewrite drop_last_app. reflexivity.
    + apply Forall_app. split; auto.
  - rewrite split_slashed by auto. cbn [drop_first_empty]. rewrite map_app. cbn [map]. rewrite drop_last_app.
    destruct (comp_str c) as [|x y] eqn:Q; auto. apply comp_str_nil in Q. destruct Q as [Q1 Q2].
    rewrite Q1, Q2, N.eqb_refl in E. discriminate.
Qed.

Lemma map_res_map : forall {A B} (f : B -> res A) (g : A -> B) l, Forall (fun a => f (g a) = Ok a) l ->
  map_res f (map g l) = Ok l.
Proof. intros A B f g l H. induction H; simpl; auto. rewrite H, IHForall. reflexivity. Qed.

Theorem name_str_roundtrip : forall n, Forall uri_ok n -> name_from_str (name_str n) = Ok n.
Proof.
  intros n H. unfold name_from_str. change (drop_last_empty _) with (pieces (name_str n)).
  rewrite name_pieces by (eapply Forall_impl; [|exact H]; intros c Hc; apply Hc).
  apply map_res_map. eapply Forall_impl; [|exact H]. apply comp_str_roundtrip.
Qed.

(** ** injectivity *)
Lemma text_inj : forall v w, bytes_ok v -> bytes_ok w -> text_to_str v = text_to_str w -> v = w.
Proof.
  intros v w H1 H2 E. pose proof (text_roundtrip v H1). rewrite E, text_roundtrip in H by auto. congruence.
Qed.
Lemma hex_inj : forall v w, bytes_ok v -> bytes_ok w -> hex_to_str v = hex_to_str w -> v = w.
Proof.
  intros v w H1 H2 E. pose proof (hex_roundtrip v H1). rewrite E, hex_roundtrip in H by auto. congruence.
Qed.
Lemma fmt_dec_inj : forall x y, u64_ok x -> u64_ok y -> fmt_dec x = fmt_dec y -> x = y.
Proof. intros x y H1 H2 E. pose proof (dec_parse x H1). rewrite E, dec_parse in H by auto. congruence. Qed.

Theorem comp_canonical_inj : forall c d, comp_ok c -> comp_ok d -> comp_canonical c = comp_canonical d -> c = d.
Proof.
  intros [t v] [u w] [U1 B1] [U2 B2] E. unfold comp_canonical in E. cbn [ctyp cval] in *.
  assert (S1 : split_on chEq (text_to_str v) = [text_to_str v]) by (apply split_none, no_eq_uri, text_uri; auto).
  assert (S2 : split_on chEq (text_to_str w) = [text_to_str w]) by (apply split_none, no_eq_uri, text_uri; auto).
  apply (f_equal (split_on chEq)) in E.
  destruct (N.eqb_spec t TypeGeneric) as [->|N1], (N.eqb_spec u TypeGeneric) as [->|N2];
    rewrite ?from_typed in E by (auto using fmt_dec_uri, text_uri); cbn [app] in E; rewrite ?S1, ?S2 in E.
  - inversion E. f_equal. apply text_inj; auto.
  - discriminate.
  - discriminate.
  - inversion E. f_equal; [apply fmt_dec_inj|apply text_inj]; auto.
Qed.

(** the pairs of components with the same String() *)
Definition same_uri (c d : comp) : Prop :=
  c = d \/ (dec_type (ctyp c) /\ ctyp c = ctyp d /\ unbe64 (cval c) = unbe64 (cval d)).

Lemma unbe64_ok : forall v, bytes_ok v -> u64_ok (unbe64 v).
Proof. intros. rewrite unbe64_mod by auto. unfold u64_ok. apply N.mod_lt. unfold two64. lia. Qed.

Lemma conv_name_digits : forall t nm f, conv_by_type t = Some (nm, f) -> exists u, parse_type nm = Ok (u, f) /\ u = t /\ f <> FText.
Proof.
  intros t nm f E. destruct (conv_by_type_cases t) as [[E' _]|(nm' & f' & E' & _ & P & _ & _ & K)]; rewrite E' in E; [discriminate|].
  inversion E; subst. exists t. split; auto. split; auto. destruct K as [[-> _]|[-> _]]; discriminate.
Qed.

Theorem comp_str_collisions : forall c d, comp_ok c -> comp_ok d ->
  (comp_str c = comp_str d <-> same_uri c d).
Proof.
  intros [t v] [u w] [U1 B1] [U2 B2]. cbn [ctyp cval] in *. split.
  2: { intros [E|(D & E1 & E2)]; [congruence|]. cbn [ctyp cval] in *. subst u. unfold comp_str. cbn [ctyp cval].
       destruct (conv_by_type_cases t) as [[E NI]|(nm & f & E & I & P & F & NE & K)]; rewrite E.
       - exfalso. apply NI. unfold dec_type in D. simpl in *. tauto.
       - destruct K as [[-> [K|K]]|[-> _]]; [exfalso; unfold dec_type in D; simpl in D; lia|exfalso; unfold dec_type in D; simpl in D; lia|].
         cbn [fmt_to_str]. unfold dec_to_str. rewrite E2. reflexivity. }
  intros E. unfold comp_str in E. cbn [ctyp cval] in E.
  assert (S1 : split_on chEq (text_to_str v) = [text_to_str v]) by (apply split_none, no_eq_uri, text_uri; auto).
  assert (S2 : split_on chEq (text_to_str w) = [text_to_str w]) by (apply split_none, no_eq_uri, text_uri; auto).
  apply (f_equal (split_on chEq)) in E.
  destruct (conv_by_type_cases t) as [[E1 NI1]|(nm1 & f1 & E1 & I1 & P1 & F1 & NE1 & K1)];
  destruct (conv_by_type_cases u) as [[E2 NI2]|(nm2 & f2 & E2 & I2 & P2 & F2 & NE2 & K2)]; rewrite E1, E2 in E.
  - left. destruct (N.eqb_spec t TypeGeneric) as [->|N1], (N.eqb_spec u TypeGeneric) as [->|N2];
      rewrite ?from_typed in E by (auto using fmt_dec_uri, text_uri); cbn [app] in E; rewrite ?S1, ?S2 in E.
    + inversion E. f_equal. apply text_inj; auto.
    + discriminate.
    + discriminate.
    + inversion E. f_equal; [apply fmt_dec_inj|apply text_inj]; auto.
  - exfalso. rewrite (from_typed nm2) in E by (auto using fmt_uri).
    destruct (N.eqb_spec t TypeGeneric) as [->|N1].
    + cbn [app] in E. rewrite S1 in E. discriminate.
    + rewrite from_typed in E by (auto using fmt_dec_uri, text_uri). inversion E. 
      rewrite <- H0, parse_type_dec in P2 by auto. inversion P2; subst.
      destruct K2 as [[? _]|[? _]]; discriminate.
  - exfalso. rewrite (from_typed nm1) in E by (auto using fmt_uri).
    destruct (N.eqb_spec u TypeGeneric) as [->|N1].
    + cbn [app] in E. rewrite S2 in E. discriminate.
    + rewrite from_typed in E by (auto using fmt_dec_uri, text_uri). inversion E. 
      rewrite H0, parse_type_dec in P1 by auto. inversion P1; subst.
      destruct K1 as [[? _]|[? _]]; discriminate.
  - rewrite !from_typed in E by (auto using fmt_uri). inversion E. subst nm2. rewrite P1 in P2. inversion P2; subst u f2.
    destruct K1 as [[-> _]|[-> D]]; cbn [fmt_to_str] in H1.
    + left. f_equal. apply hex_inj; auto.
    + right. cbn [ctyp cval]. split; auto. split; auto. apply fmt_dec_inj; auto using unbe64_ok.
Qed.

Theorem name_str_collisions : forall n m, Forall comp_ok n -> Forall comp_ok m ->
  (name_str n = name_str m <-> Forall2 same_uri n m).
Proof.
  intros n m O1 O2. split.
  - intros E. apply (f_equal pieces) in E. rewrite !name_pieces in E by auto.
    revert m O1 O2 E. induction n as [|c n IH]; intros [|d m] O1 O2 E; try discriminate; constructor.
    + inversion E. inversion O1; inversion O2; subst. apply comp_str_collisions; auto.
    + inversion E. inversion O1; inversion O2; subst. auto.
  - intros F. assert (E : map comp_str n = map comp_str m).
    { revert O1 O2. induction F; intros; simpl; auto. inversion O1; inversion O2; subst. f_equal; auto.
      apply comp_str_collisions; auto. }
    unfold name_str. rewrite !concat_map_cons, E.
    destruct n as [|c n _] using rev_ind; destruct m as [|d m _] using rev_ind.
    + reflexivity.
    + exfalso. apply (f_equal (@length _)) in E. rewrite map_app, app_length in E. simpl in E. lia.
    + exfalso. apply (f_equal (@length _)) in E. rewrite map_app, app_length in E. simpl in E. lia.
    + rewrite !rev_app_distr. cbn [rev app]. rewrite !map_app in E. apply app_inj_tail in E. destruct E as [_ E].
      assert (G : forall x, ((ctyp x =? TypeGeneric)%N && (length (cval x) =? 0)%nat) = true <-> comp_str x = []).
      { intros x. rewrite andb_true_iff, N.eqb_eq, Nat.eqb_eq, length_zero_iff_nil, comp_str_nil. tauto. }
      destruct ((ctyp c =? TypeGeneric)%N && (length (cval c) =? 0)%nat) eqn:Q1;
      destruct ((ctyp d =? TypeGeneric)%N && (length (cval d) =? 0)%nat) eqn:Q2; auto.
      * apply G in Q1. rewrite E in Q1. apply G in Q1. congruence.
      * apply G in Q2. rewrite <- E in Q2. apply G in Q2. congruence.
Qed.
