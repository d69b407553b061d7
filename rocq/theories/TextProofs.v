From Verif Require Import Base BaseProofs PrimModel PrimProofs NameModel NameProofs OrderProofs PropsNameProofs TextModel.

Ltac nb := repeat match goal with
  | H : (_ && _)%bool = true |- _ => apply andb_prop in H; destruct H
  | H : (_ || _)%bool = true |- _ => apply orb_prop in H; destruct H
  | H : (_ <=? _)%N = true |- _ => apply N.leb_le in H
  | H : (_ <? _)%N = true |- _ => apply N.ltb_lt in H
  | H : (_ =? _)%N = true |- _ => apply N.eqb_eq in H
  | H : (_ <=? _)%N = false |- _ => apply N.leb_gt in H
  | H : (_ <? _)%N = false |- _ => apply N.ltb_ge in H
  | H : (_ =? _)%N = false |- _ => apply N.eqb_neq in H
  end.

(** ** splitting *)
Lemma split_none : forall sep a, ~ In sep a -> split_on sep a = [a].
Proof.
  induction a as [|c a IH]; intros H; auto. simpl.
  destruct (N.eqb_spec c sep); [subst; exfalso; apply H; left; auto|].
  rewrite IH; auto. intros I. apply H. right; auto.
Qed.

Lemma split_app : forall sep a b, ~ In sep a -> split_on sep (a ++ sep :: b) = a :: split_on sep b.
Proof.
  induction a as [|c a IH]; intros b H; simpl.
  - rewrite N.eqb_refl. auto.
  - destruct (N.eqb_spec c sep); [subst; exfalso; apply H; left; auto|].
    rewrite IH; auto. intros I. apply H. right; auto.
Qed.

Lemma split_nonempty : forall sep a, split_on sep a <> [].
Proof. destruct a; simpl; [discriminate|]. destruct (_ =? _)%N; [discriminate|]. destruct (split_on sep a); discriminate. Qed.

(** Split is the inverse of joining pieces without separator. *)
Lemma split_pieces : forall sep s, Forall (fun p => ~ In sep p) (split_on sep s).
Proof.
  induction s as [|c s IH]; simpl.
  - repeat constructor. auto.
  - destruct (N.eqb_spec c sep); [constructor; auto|].
    destruct (split_on sep s) as [|x xs]; [repeat constructor; simpl; tauto|].
    inversion IH; subst. constructor; auto. simpl. intros [|]; auto.
Qed.

Fixpoint join_with (sep : N) (l : list buf) : buf :=
  match l with
  | [] => []
  | [x] => x
  | x :: l' => x ++ sep :: join_with sep l'
  end.

Lemma join_split : forall sep s, join_with sep (split_on sep s) = s.
Proof.
  induction s as [|c s IH]; auto. simpl. pose proof (split_nonempty sep s).
  destruct (N.eqb_spec c sep).
  - subst. destruct (split_on sep s) as [|x xs] eqn:E; [congruence|]. rewrite <- IH. reflexivity.
  - destruct (split_on sep s) as [|x xs] eqn:E; [congruence|]. rewrite <- IH. destruct xs; reflexivity.
Qed.

(** ** hexadecimal digits *)
Lemma hex_val_digit : forall up d, (d < 16)%N -> hex_val (hex_digit up d) = Some d.
Proof.
  intros up d H. unfold hex_val, hex_digit, is_digit.
  destruct (N.ltb_spec d 10) as [L|L].
  - destruct (N.leb_spec 48 (48 + d)), (N.leb_spec (48 + d) 57); simpl; try lia. f_equal. lia.
  - destruct up.
    + destruct (N.leb_spec 48 (55 + d)), (N.leb_spec (55 + d) 57); simpl; try lia;
      destruct (N.leb_spec 65 (55 + d)), (N.leb_spec (55 + d) 70); simpl; try lia; f_equal; lia.
    + destruct (N.leb_spec 48 (87 + d)), (N.leb_spec (87 + d) 57); simpl; try lia;
      destruct (N.leb_spec 65 (87 + d)), (N.leb_spec (87 + d) 70); simpl; try lia;
      destruct (N.leb_spec 97 (87 + d)), (N.leb_spec (87 + d) 102); simpl; try lia; f_equal; lia.
Qed.

Lemma parse_hex2_ok : forall up b, byte_ok b ->
  parse_hex2 (hex_digit up (b / 16)) (hex_digit up (b mod 16)) = Some b.
Proof.
  intros up b H. unfold byte_ok in H. unfold parse_hex2.
  assert (b / 16 < 16)%N by (apply N.div_lt_upper_bound; lia).
  assert (b mod 16 < 16)%N by (apply N.mod_lt; lia).
  rewrite !hex_val_digit by auto. f_equal. pose proof (N.div_mod b 16). lia.
Qed.

Lemma hex_digit_legal : forall up d, (d < 16)%N -> is_legal (hex_digit up d) = true.
Proof.
  intros up d H. unfold hex_digit, is_legal, is_alpha, is_digit.
  destruct (N.ltb_spec d 10).
  - destruct (N.leb_spec 48 (48 + d)), (N.leb_spec (48 + d) 57); try lia; simpl; rewrite !orb_true_r; auto.
  - destruct up.
    + destruct (N.leb_spec 65 (55 + d)), (N.leb_spec (55 + d) 90); try lia; auto.
    + destruct (N.leb_spec 97 (87 + d)), (N.leb_spec (87 + d) 122); try lia; simpl; rewrite !orb_true_r; auto.
Qed.

Lemma digit_legal : forall c, is_digit c = true -> is_legal c = true.
Proof. intros c H. unfold is_legal. rewrite H, !orb_true_r. auto. Qed.

Lemma alpha_legal : forall c, is_alpha c = true -> is_legal c = true.
Proof. intros c H. unfold is_legal. rewrite H. auto. Qed.

(** the output of text_to_str: legal characters and '%' *)
Definition uri_char (c : N) : Prop := is_legal c = true \/ c = chPct.

Lemma uri_not : forall c x, uri_char c -> (x = chEq \/ x = chSlash \/ x = chLt \/ x = chGt) -> c <> x.
Proof.
  intros c x [H|H] X E; subst.
  - destruct X as [->|[->|[->| ->]]]; discriminate.
  - destruct X as [X|[X|[X|X]]]; discriminate.
Qed.

Lemma hex2_uri : forall up b, byte_ok b -> Forall uri_char (hex2 up b).
Proof.
  intros up b H. unfold byte_ok in H. unfold hex2.
  constructor; [|constructor; [|constructor]]; left; apply hex_digit_legal;
    [apply N.div_lt_upper_bound; lia|apply N.mod_lt; lia].
Qed.

Lemma text_uri : forall v, bytes_ok v -> Forall uri_char (text_to_str v).
Proof.
  intros v H. unfold text_to_str. induction H as [|b v Hb _ IH]; simpl; [constructor|]. apply Forall_app. split; auto.
  destruct (is_legal b) eqn:E.
  - constructor; [left; auto|constructor].
  - constructor; [right; reflexivity|]. apply hex2_uri; auto.
Qed.

Lemma hex_uri : forall v, bytes_ok v -> Forall uri_char (hex_to_str v).
Proof.
  intros v H. unfold hex_to_str. induction H as [|b v Hb _ IH]; simpl; [constructor|].
  apply (Forall_app uri_char (hex2 false b) _). split; auto. apply hex2_uri; auto.
Qed.

Lemma uri_no : forall s x, Forall uri_char s -> (x = chEq \/ x = chSlash \/ x = chLt \/ x = chGt) -> ~ In x s.
Proof.
  intros s x F X I. rewrite Forall_forall in F. apply (uri_not x x (F x I)); auto.
Qed.

(** ** text values *)
Lemma text_loop_ok : forall v, bytes_ok v -> text_loop (text_to_str v) = Ok v.
Proof.
  intros v H. induction H as [|b v Hb Hv IH]; [reflexivity|].
  unfold text_to_str in *. cbn [map concat].
  destruct (is_legal b) eqn:E.
  - cbn [app text_loop]. rewrite E, IH. reflexivity.
  - cbn [app hex2 text_loop].
    change (is_legal chPct) with false. change (chPct =? chPct)%N with true. cbv iota.
    rewrite parse_hex2_ok by auto. rewrite IH. reflexivity.
Qed.

Lemma text_no_special : forall v, existsb is_special (text_to_str v) = false -> text_to_str v = v.
Proof.
  induction v as [|b v IH]; intros H; [reflexivity|]. unfold text_to_str in *. cbn [map concat] in *.
  rewrite existsb_app in H. apply orb_false_elim in H. destruct H as [H1 H2]. rewrite IH by auto.
  destruct (is_legal b); [reflexivity|]. simpl in H1. discriminate.
Qed.

Lemma text_roundtrip : forall v, bytes_ok v -> text_from_str (text_to_str v) = Ok v.
Proof.
  intros v H. unfold text_from_str. destruct (existsb is_special (text_to_str v)) eqn:E.
  - apply text_loop_ok; auto.
  - rewrite text_no_special; auto.
Qed.

Lemma hex_roundtrip : forall v, bytes_ok v -> hex_from_str (hex_to_str v) = Ok v.
Proof.
  intros v H. induction H as [|b v Hb Hv IH]; [reflexivity|].
  unfold hex_to_str in *. cbn [map concat hex2 app hex_from_str]. rewrite parse_hex2_ok by auto. rewrite IH. reflexivity.
Qed.

(** ** decimal numbers *)
Lemma parse_dec_loop_app : forall a b x y, parse_dec_loop x a = Some y -> parse_dec_loop x (a ++ b) = parse_dec_loop y b.
Proof.
  induction a as [|c a IH]; intros b x y H; simpl in *; [inversion H; auto|].
  destruct (is_digit c); [|discriminate]. destruct (_ <? _)%N; [|discriminate]. auto.
Qed.

Lemma fmt_dec_loop_acc : forall f x acc, fmt_dec_loop f x acc = fmt_dec_loop f x [] ++ acc.
Proof.
  induction f; intros x acc; simpl; auto.
  destruct (_ =? _)%N; auto. rewrite IHf, (IHf _ [_]). rewrite <- app_assoc. reflexivity.
Qed.

Lemma fmt_dec_loop_parse : forall f x, (x < 10 ^ N.of_nat f)%N -> u64_ok x -> (0 < f)%nat ->
  parse_dec_loop 0 (fmt_dec_loop f x []) = Some x.
Proof.
  induction f; intros x H U F; [lia|]. cbn [fmt_dec_loop].
  assert (D : (x mod 10 < 10)%N) by (apply N.mod_lt; lia).
  assert (DM := N.div_mod x 10). 
  assert (Dg : is_digit (48 + x mod 10) = true).
  { unfold is_digit. apply andb_true_intro. split; apply N.leb_le; lia. }
  destruct (N.eqb_spec (x / 10) 0) as [E|E].
  - cbn [parse_dec_loop]. rewrite Dg. unfold u64_ok in U. 
    replace (0 * 10 + (48 + x mod 10 - 48))%N with x by lia.
    destruct (N.ltb_spec x two64); [reflexivity|lia].
  - rewrite fmt_dec_loop_acc.
    assert (x / 10 < 10 ^ N.of_nat f)%N.
    { apply N.div_lt_upper_bound; [lia|]. rewrite <- N.pow_succ_r', <- Nat2N.inj_succ. auto. }
    assert (f <> O).
    { intros ->. simpl in H0. change (10 ^ 0)%N with 1%N in H0. lia. }
    rewrite (parse_dec_loop_app _ _ 0%N (x / 10)%N).
    + cbn [parse_dec_loop]. rewrite Dg. unfold u64_ok in U.
      replace (x / 10 * 10 + (48 + x mod 10 - 48))%N with x by lia.
      destruct (N.ltb_spec x two64); [reflexivity|lia].
    + apply IHf; auto; [|lia]. unfold u64_ok, two64 in *. lia.
Qed.

Lemma fmt_dec_digits : forall f x acc, Forall (fun c => is_digit c = true) acc ->
  Forall (fun c => is_digit c = true) (fmt_dec_loop f x acc).
Proof.
  induction f; intros x acc H; simpl; auto.
  assert (D : (x mod 10 < 10)%N) by (apply N.mod_lt; lia).
  assert (Dg : is_digit (48 + x mod 10) = true).
  { unfold is_digit. apply andb_true_intro. split; apply N.leb_le; lia. }
  destruct (_ =? _)%N; auto.
Qed.

Lemma fmt_dec_nonempty : forall x, fmt_dec x <> [].
Proof.
  assert (G : forall f x acc, (0 < f)%nat -> fmt_dec_loop f x acc <> []).
  { induction f; intros x acc H; [lia|]. cbn [fmt_dec_loop]. destruct (_ =? _)%N; [discriminate|].
    destruct f; [simpl; discriminate|]. apply IHf. lia. }
  intros x. apply G. lia.
Qed.

Lemma fmt_dec_isdigits : forall x, Forall (fun c => is_digit c = true) (fmt_dec x).
Proof. intros. apply fmt_dec_digits. constructor. Qed.

Lemma dec_parse : forall x, u64_ok x -> parse_dec (fmt_dec x) = Some x.
Proof.
  intros x U. unfold parse_dec. pose proof (fmt_dec_nonempty x).
  destruct (fmt_dec x) eqn:E; [congruence|]. rewrite <- E. apply fmt_dec_loop_parse; auto; [|lia].
  unfold u64_ok, two64 in U. change (10 ^ N.of_nat 20)%N with 100000000000000000000%N. lia.
Qed.

Lemma fmt_dec_uri : forall x, Forall uri_char (fmt_dec x).
Proof. intros. eapply Forall_impl; [|apply fmt_dec_isdigits]. intros c H. left. apply digit_legal; auto. Qed.

(** shortest-form numbers *)
Definition shortest_number (v : buf) : Prop := exists x, u64_ok x /\ v = nat_enc x.

Lemma unbe64_nat_enc : forall x, u64_ok x -> unbe64 (nat_enc x) = x.
Proof.
  intros x U. unfold u64_ok, two64 in U. 
  assert (E : unbe (nat_enc x) = x /\ (length (nat_enc x) <= 8)%nat).
  { unfold nat_enc. destruct (N.leb_spec x 255); [|destruct (N.leb_spec x 65535); [|destruct (N.leb_spec x 4294967295)]].
    - rewrite N.mod_small by lia. split; [|simpl; lia]. unfold unbe. simpl. lia.
    - rewrite unbe_be_small, be_length; [split; auto; lia|]. change (256 ^ N.of_nat 2)%N with 65536%N. lia.
    - rewrite unbe_be_small, be_length; [split; auto; lia|]. change (256 ^ N.of_nat 4)%N with 4294967296%N. lia.
    - rewrite unbe_be_small, be_length; [split; auto; lia|]. change (256 ^ N.of_nat 8)%N with 18446744073709551616%N. lia. }
  destruct E as [E L]. rewrite unbe64_mod, E by apply nat_enc_ok. apply N.mod_small. unfold two64. lia.
Qed.

Lemma dec_roundtrip : forall v, shortest_number v -> dec_from_str (dec_to_str v) = Ok v.
Proof.
  intros v (x & U & ->). unfold dec_from_str, dec_to_str. rewrite unbe64_nat_enc by auto.
  rewrite dec_parse by auto. apply nat_bytes_ok.
Qed.
