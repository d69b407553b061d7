(** The text forms of TextModel are those of UriSpec. *)
From Verif Require Import Base BaseProofs PrimModel PrimProofs ReaderProofs2 NameModel NameProofs OrderProofs PropsNameProofs TextModel TextProofs TextProofs2 TextProofs3 UriSpec.
Open Scope list_scope.

(** a property of all numbers below 128 *)
Lemma below_128 : forall P : N -> bool, forallb P (map N.of_nat (seq 0 128)) = true -> forall c, (c < 128)%N -> P c = true.
Proof.
  intros P H c L. rewrite forallb_forall in H. apply H. apply in_map_iff. exists (N.to_nat c). split; [lia|]. apply in_seq. lia.
Qed.

Definition inb (c : N) (l : text) : bool := existsb (N.eqb c) l.
Lemma inb_in : forall c l, inb c l = true <-> In c l.
Proof.
  intros c l. unfold inb. rewrite existsb_exists. split; [intros (x & I & E); apply N.eqb_eq in E; subst; auto|intros I; exists c; split; [auto|apply N.eqb_refl]].
Qed.

Lemma legal_small : forall c, is_legal c = true -> (c < 128)%N.
Proof. intros c H. unfold is_legal, is_alpha, is_digit in H. nb; subst; lia. Qed.
Lemma legal_iff : forall c, is_legal c = true <-> In c unreserved.
Proof.
  intros c. assert (B : forall c, (c < 128)%N -> Bool.eqb (is_legal c) (inb c unreserved) = true) by (apply below_128; vm_compute; reflexivity).
  assert (U : Forall (fun x => (x < 128)%N) unreserved) by (unfold unreserved; vm_compute; repeat constructor).
  rewrite <- inb_in. split; intros H.
  - specialize (B c (legal_small c H)). apply Bool.eqb_prop in B. congruence.
  - assert (L : (c < 128)%N) by (rewrite Forall_forall in U; apply U; apply inb_in; auto).
    specialize (B c L). apply Bool.eqb_prop in B. congruence.
Qed.
Lemma special_iff : forall c, is_special c = true <-> In c reserved.
Proof.
  intros c. unfold is_special, chPct, chEq, chSlash, chBack.
  assert (E : In c [37; 61; 47; 92]%N <-> c = 37%N \/ c = 61%N \/ c = 47%N \/ c = 92%N) by (cbn [In]; intuition).
  change (In c _) with (In c [37; 61; 47; 92]%N). rewrite E. split.
  - intros H. nb; auto.
  - intros [->|[->|[->| ->]]]; reflexivity.
Qed.
Lemma legal_not_special : forall c, is_legal c = true -> is_special c = false.
Proof.
  intros c H. destruct (is_special c) eqn:E; auto. apply special_iff in E. 
  change (In c reserved) with (In c [37; 61; 47; 92]%N) in E. cbn [In] in E. destruct E as [<-|[<-|[<-|[<-|[]]]]]; discriminate H.
Qed.

Lemma hex_digit_for : forall (up : bool) d, (d < 16)%N -> digit_for (if up then hex_capital else hex_small) d (hex_digit up d).
Proof.
  intros up d L. unfold digit_for.
  assert (B : forall (up : bool) d, In d (map N.of_nat (seq 0 16)) -> nth_error (if up then hex_capital else hex_small) (N.to_nat d) = Some (hex_digit up d)).
  { clear. intros up d I. cbn [seq map In] in I. destruct up; repeat (destruct I as [<-|I]; [vm_compute; reflexivity|]); destruct I. }
  apply B. apply in_map_iff. exists (N.to_nat d). split; [lia|apply in_seq; lia].
Qed.
Lemma nth_small : forall (l : text) d c, digit_for l d c -> (d < N.of_nat (length l))%N.
Proof. intros l d c H. assert (N.to_nat d < length l)%nat by (apply nth_error_Some; unfold digit_for in H; congruence). lia. Qed.
Lemma hex_val_iff : forall c d, hex_val c = Some d <-> HexDigit c d.
Proof.
  intros c d. split; intros H.
  - assert (L : (c < 128)%N). { unfold hex_val, is_digit in H. destruct ((48 <=? c) && (c <=? 57))%N eqn:E1; [nb; lia|]. destruct ((65 <=? c) && (c <=? 70))%N eqn:E2; [nb; lia|]. destruct ((97 <=? c) && (c <=? 102))%N eqn:E3; [nb; lia|discriminate]. }
    assert (B : forall c, (c < 128)%N -> match hex_val c with Some d => match nth_error hex_capital (N.to_nat d), nth_error hex_small (N.to_nat d) with Some a, Some b => (a =? c)%N || (b =? c)%N | _, _ => false end | None => true end = true)
      by (apply below_128; vm_compute; reflexivity).
    specialize (B c L). rewrite H in B. unfold HexDigit, digit_for.
    destruct (nth_error hex_capital (N.to_nat d)); [|discriminate]. destruct (nth_error hex_small (N.to_nat d)); [|discriminate]. nb; subst; auto.
  - assert (L : (d < 16)%N) by (destruct H as [H|H]; apply nth_small in H; exact H).
    destruct H as [H|H]; pose proof (hex_digit_for true d L) as A; pose proof (hex_digit_for false d L) as A'; unfold digit_for in *; cbn iota in A, A';
      [rewrite A in H|rewrite A' in H]; injection H as <-; apply hex_val_digit; auto.
Qed.
Lemma parse_hex2_iff : forall h l b, parse_hex2 h l = Some b <-> exists x y, HexDigit h x /\ HexDigit l y /\ b = (16 * x + y)%N.
Proof.
  intros h l b. unfold parse_hex2. split.
  - destruct (hex_val h) as [x|] eqn:X; [|discriminate]. destruct (hex_val l) as [y|] eqn:Y; [|discriminate]. intros [= <-].
    exists x, y. rewrite <- !hex_val_iff. split; [auto|split; [auto|lia]].
  - intros (x & y & X & Y & ->). apply hex_val_iff in X, Y. rewrite X, Y. f_equal. lia.
Qed.

(** ** text *)
Lemma text_written : forall v, bytes_ok v -> WritesText v (text_to_str v).
Proof.
  induction v as [|c v IH]; intros B; [constructor|]. inversion B as [|? ? B1 B2]; subst. unfold text_to_str. cbn [map concat].
  change (concat (map _ v)) with (text_to_str v). destruct (is_legal c) eqn:E.
  - apply WText_plain; [apply legal_iff; auto|auto].
  - unfold hex2. cbn [app]. apply WText_escape; auto.
    + intros I. apply legal_iff in I. congruence.
    + apply (hex_digit_for true). apply N.div_lt_upper_bound; [lia|]. unfold byte_ok in B1. lia.
    + apply (hex_digit_for true). apply N.mod_lt. lia.
Qed.
Lemma hex_written : forall v, bytes_ok v -> WritesHex v (hex_to_str v).
Proof.
  induction v as [|c v IH]; intros B; [constructor|]. inversion B as [|? ? B1 B2]; subst. unfold hex_to_str. cbn [map concat].
  change (concat (map _ v)) with (hex_to_str v). unfold hex2. cbn [app]. apply WHex_byte; auto.
  - apply (hex_digit_for false). apply N.div_lt_upper_bound; [lia|]. unfold byte_ok in B1. lia.
  - apply (hex_digit_for false). apply N.mod_lt. lia.
Qed.

Lemma text_loop_plain : forall s, existsb is_special s = false -> text_loop s = Ok s.
Proof.
  induction s as [|c s IH]; intros H; [reflexivity|]. cbn [existsb] in H. apply orb_false_elim in H. destruct H as [H1 H2].
  cbn [text_loop]. rewrite (IH H2). cbn [bind]. destruct (is_legal c); [reflexivity|].
  destruct (N.eqb_spec c chPct) as [->|]; [discriminate H1|]. rewrite H1. reflexivity.
Qed.
Lemma text_from_loop : forall s, text_from_str s = text_loop s.
Proof. intros s. unfold text_from_str. destruct (existsb is_special s) eqn:E; [reflexivity|]. rewrite text_loop_plain; auto. Qed.
Lemma text_read : forall n s v, (length s <= n)%nat -> (text_loop s = Ok v <-> ReadsText s v).
Proof.
  induction n as [|n IH]; intros s v L.
  - destruct s; [|simpl in L; lia]. split; [intros [= <-]; constructor|intros H; inversion H; reflexivity].
  - destruct s as [|c s]; [split; [intros [= <-]; constructor|intros H; inversion H; reflexivity]|]. cbn [length] in L. split.
    + cbn [text_loop]. destruct (is_legal c) eqn:E1.
      { destruct (text_loop s) as [w| | |] eqn:W; cbn [bind]; try discriminate. intros [= <-]. apply RText_char; [|apply IH; [lia|auto]].
        intros I. apply special_iff in I. rewrite (legal_not_special c E1) in I. discriminate. }
      destruct (N.eqb_spec c chPct) as [->|NE].
      { destruct s as [|h [|l s]]; try discriminate. destruct (parse_hex2 h l) as [b|] eqn:P; [|discriminate].
        apply parse_hex2_iff in P. destruct P as (x & y & X & Y & ->).
        destruct (text_loop s) as [w| | |] eqn:W; cbn [bind]; try discriminate. intros [= <-]. apply RText_escape; auto. apply IH; [cbn [length] in L; lia|auto]. }
      destruct (is_special c) eqn:E2; [discriminate|].
      destruct (text_loop s) as [w| | |] eqn:W; cbn [bind]; try discriminate. intros [= <-]. apply RText_char; [|apply IH; [lia|auto]].
      intros I. apply special_iff in I. congruence.
    + intros H. inversion H as [|? ? w NI R|h l x y s' w X Y R]; subst.
      * apply IH in R; [|lia]. cbn [text_loop]. rewrite R. cbn [bind]. destruct (is_legal c); [reflexivity|].
        destruct (is_special c) eqn:E2; [exfalso; apply NI; apply special_iff; auto|].
        destruct (N.eqb_spec c chPct) as [->|]; [discriminate E2|reflexivity].
      * cbn [length] in L. apply IH in R; [|lia]. change percent with chPct. cbn [text_loop]. change (is_legal chPct) with false. cbn iota.
        rewrite N.eqb_refl. replace (parse_hex2 h l) with (Some (16 * x + y)%N) by (symmetry; apply parse_hex2_iff; eauto 10). rewrite R. reflexivity.
Qed.
Lemma text_from_iff : forall s v, text_from_str s = Ok v <-> ReadsText s v.
Proof. intros s v. rewrite text_from_loop. apply (text_read (length s)). lia. Qed.
Lemma hex_from_iff : forall s v, hex_from_str s = Ok v <-> ReadsHex s v.
Proof.
  assert (G : forall n s v, (length s <= n)%nat -> (hex_from_str s = Ok v <-> ReadsHex s v)); [|intros s v; apply (G (length s)); lia].
  induction n as [|n IH]; intros s v L.
  - destruct s; [|simpl in L; lia]. split; [intros [= <-]; constructor|intros H; inversion H; reflexivity].
  - destruct s as [|h [|l s]]; [split; [intros [= <-]; constructor|intros H; inversion H; reflexivity]|split; [discriminate|intros H; inversion H]|].
    cbn [length] in L. cbn [hex_from_str]. split.
    + destruct (parse_hex2 h l) as [b|] eqn:P; [|discriminate]. apply parse_hex2_iff in P. destruct P as (x & y & X & Y & ->).
      destruct (hex_from_str s) as [w| | |] eqn:W; cbn [bind]; try discriminate. intros [= <-]. apply RHex_byte; auto. apply IH; [lia|auto].
    + intros H. inversion H as [|? ? x y s' w X Y R]; subst. apply IH in R; [|lia].
      replace (parse_hex2 h l) with (Some (16 * x + y)%N) by (symmetry; apply parse_hex2_iff; eauto 10). rewrite R. reflexivity.
Qed.

(** ** numbers *)
Lemma digit_iff : forall c d, digit_for digits d c <-> is_digit c = true /\ d = (c - 48)%N.
Proof.
  intros c d. split.
  - intros H. pose proof (nth_small _ _ _ H) as L. change (N.of_nat (length digits)) with 10%N in L.
    assert (B : forall d c, In d (map N.of_nat (seq 0 10)) -> nth_error digits (N.to_nat d) = Some c -> is_digit c = true /\ d = (c - 48)%N).
    { clear. intros d c I. cbn [seq map In] in I. repeat (destruct I as [<-|I]; [intros H; vm_compute in H; injection H as <-; split; reflexivity|]). destruct I. }
    apply B; [|exact H]. apply in_map_iff. exists (N.to_nat d). split; [lia|apply in_seq; lia].
  - intros [H ->]. assert (L : (c < 128)%N) by (unfold is_digit in H; nb; lia).
    assert (B : forall c, (c < 128)%N -> (if is_digit c then match nth_error digits (N.to_nat (c - 48)) with Some x => (x =? c)%N | None => false end else true) = true)
      by (apply below_128; vm_compute; reflexivity).
    specialize (B c L). rewrite H in B. unfold digit_for. destruct (nth_error digits _); [|discriminate]. apply N.eqb_eq in B. congruence.
Qed.
Lemma dec_loop_numeral : forall s p x y, Numeral p x -> (x < two64)%N -> parse_dec_loop x s = Some y -> Numeral (p ++ s) y /\ (y < two64)%N.
Proof.
  induction s as [|c s IH]; intros p x y N1 L H; cbn [parse_dec_loop] in H.
  - injection H as <-. rewrite app_nil_r. auto.
  - destruct (is_digit c) eqn:D; [|discriminate]. destruct (N.ltb_spec (x * 10 + (c - 48)) two64) as [L2|]; [|discriminate].
    replace (p ++ c :: s) with ((p ++ [c]) ++ s) by (rewrite <- app_assoc; reflexivity). apply (IH _ (x * 10 + (c - 48))%N); auto.
    replace (x * 10 + (c - 48))%N with (10 * x + (c - 48))%N by lia. apply Num_more; [auto|]. apply digit_iff. auto.
Qed.
Lemma dec_iff : forall s x, parse_dec s = Some x <-> Numeral s x /\ (x < two64)%N.
Proof.
  intros s x. split.
  - unfold parse_dec. destruct s as [|c s]; [discriminate|]. cbn [parse_dec_loop]. destruct (is_digit c) eqn:D; [|discriminate].
    change (0 * 10 + (c - 48))%N with (c - 48)%N. destruct (N.ltb_spec (c - 48) two64) as [L|]; [|discriminate]. intros H.
    apply (dec_loop_numeral s [c] (c - 48)%N x); auto. apply Num_digit. apply digit_iff. auto.
  - intros [H L]. assert (G : parse_dec_loop 0 s = Some x /\ s <> []).
    { induction H as [c d D|s y c d H IH D]; apply digit_iff in D; destruct D as [D ->].
      - split; [|discriminate]. cbn [parse_dec_loop]. rewrite D. change (0 * 10 + (c - 48))%N with (c - 48)%N. destruct (N.ltb_spec (c - 48) two64); [reflexivity|lia].
      - split; [|intros E; destruct s; discriminate]. rewrite (parse_dec_loop_app s [c] 0 y) by (apply IH; lia). cbn [parse_dec_loop]. rewrite D.
        replace (y * 10 + (c - 48))%N with (10 * y + (c - 48))%N by lia. destruct (N.ltb_spec (10 * y + (c - 48)) two64); [reflexivity|lia]. }
    unfold parse_dec. destruct s; [tauto|apply G].
Qed.
Lemma dec_loop_head : forall f x acc r, (x <> 0)%N -> (x < 10 ^ N.of_nat f)%N -> fmt_dec_loop f x acc <> 48%N :: r.
Proof.
  induction f as [|f IH]; intros x acc r NZ L; [cbn in L; lia|]. cbn [fmt_dec_loop].
  destruct (N.eqb_spec (x / 10) 0) as [E|E].
  - intros H. injection H as H _. assert (x < 10)%N by (apply N.div_small_iff in E; lia). rewrite N.mod_small in H by lia. lia.
  - apply IH; [auto|]. replace (N.of_nat (S f)) with (N.succ (N.of_nat f)) in L by lia. rewrite N.pow_succ_r' in L. apply N.div_lt_upper_bound; lia.
Qed.
Lemma dec_written : forall x, (x < two64)%N -> PlainNumeral (fmt_dec x) x.
Proof.
  intros x L. split; [apply dec_iff; apply dec_parse; exact L|]. destruct (N.eq_dec x 0) as [->|NZ]; [left; vm_compute; reflexivity|right].
  intros r. apply dec_loop_head; auto. unfold two64 in L. change (10 ^ N.of_nat 20)%N with 100000000000000000000%N. lia.
Qed.
Lemma shortest_iff : forall x v, (x < two64)%N -> (v = nat_enc x <-> ShortestBytes x v).
Proof.
  intros x v L. assert (G : ShortestBytes x (nat_enc x)).
  { split; [apply nat_enc_ok|]. change (big_endian (nat_enc x)) with (unbe (nat_enc x)). split.
    - pose proof (unbe64_nat_enc x L) as H. rewrite unbe64_mod in H by apply nat_enc_ok. rewrite <- H at 2. symmetry. apply N.mod_small.
      unfold nat_enc. unfold two64 in *. destruct (N.leb_spec x 255); [rewrite N.mod_small by lia; unfold unbe; cbn [fold_left]; lia|].
      destruct (N.leb_spec x 65535); [|destruct (N.leb_spec x 4294967295)]; rewrite unbe_be; (eapply N.lt_le_trans; [apply N.mod_lt; discriminate|vm_compute; discriminate]).
    - unfold nat_enc. destruct (N.leb_spec x 255), (N.ltb_spec x 256); try lia; [reflexivity|].
      destruct (N.leb_spec x 65535), (N.ltb_spec x 65536); try lia; [apply be_length|].
      destruct (N.leb_spec x 4294967295), (N.ltb_spec x 4294967296); try lia; apply be_length. }
  split; [intros ->; exact G|]. intros (B & E & Len). destruct G as (B' & E' & Len'). apply unbe_inj; auto; [congruence|].
  change (big_endian v = big_endian (nat_enc x)). congruence.
Qed.

(** ** components *)
Lemma type_text : forall t, u64_ok t -> t <> generic -> forall v, bytes_ok v ->
  exists ts s, (if (t =? TypeGeneric)%N then [] else fmt_dec t ++ [chEq]) ++ text_to_str v = ts ++ equals :: s /\ PlainNumeral ts t /\ WritesText v s.
Proof.
  intros t U NG v B. destruct (N.eqb_spec t TypeGeneric) as [E|]; [exfalso; exact (NG E)|].
  exists (fmt_dec t), (text_to_str v). rewrite <- app_assoc. split; [reflexivity|split; [apply dec_written; exact U|apply text_written; exact B]].
Qed.
Lemma canonical_written : forall c, comp_ok c -> WritesCanonical (ctyp c) (cval c) (comp_canonical c).
Proof.
  intros [t v] [U B]. cbn [ctyp cval] in *. unfold comp_canonical. cbn [ctyp cval]. destruct (N.eq_dec t generic) as [->|NG].
  - apply WK_generic; [reflexivity|]. apply text_written. exact B.
  - destruct (type_text t U NG v B) as (ts & s & -> & P & W). apply WK_other; auto.
Qed.
Lemma conv_table : forall t, (conv_by_type t = None /\ ~ In t (map fst (hex_types ++ number_types)))
  \/ (exists nm, conv_by_type t = Some (nm, FHex) /\ In (t, nm) hex_types) \/ (exists nm, conv_by_type t = Some (nm, FDec) /\ In (t, nm) number_types).
Proof.
  intros t. destruct (in_dec N.eq_dec t [1; 2; 50; 52; 54; 56; 58]%N) as [I|I].
  - right. cbn [In] in I. destruct I as [<-|[<-|I]]; [left|left|right].
    1, 2: eexists; split; [reflexivity|vm_compute; tauto].
    repeat (destruct I as [<-|I]; [eexists; split; [reflexivity|vm_compute; tauto]|]). destruct I.
  - left. split; [|exact I]. destruct (conv_by_type_cases t) as [[H _]|(nm & f & _ & H & _)]; [exact H|tauto].
Qed.
Lemma component_written : forall c, comp_ok c -> WritesComponent (ctyp c) (cval c) (comp_str c).
Proof.
  intros [t v] [U B]. cbn [ctyp cval] in *. unfold comp_str. cbn [ctyp cval].
  destruct (conv_table t) as [[-> NI]|[(nm & -> & I)|(nm & -> & I)]].
  - destruct (N.eq_dec t generic) as [->|NG]; [apply WC_generic; [reflexivity|apply text_written; exact B]|].
    destruct (type_text t U NG v B) as (ts & s & -> & P & W). apply WC_other; auto.
  - rewrite <- app_assoc. apply WC_hex; [exact I|]. apply hex_written. exact B.
  - rewrite <- app_assoc. apply WC_number; [exact I|]. cbn [fmt_to_str]. unfold dec_to_str.
    rewrite unbe64_mod by exact B. apply dec_written. apply N.mod_lt. discriminate.
Qed.
Lemma name_written : forall n, Forall comp_ok n -> exists parts,
  Forall2 (fun c p => WritesComponent (ctyp c) (cval c) p) n parts /\ name_str n = slashed parts.
Proof.
  intros n F. exists (map comp_str n). split.
  - induction F; [constructor|]. cbn [map]. constructor; [apply component_written; auto|auto].
  - unfold name_str, slashed. rewrite concat_map_cons. change slash with chSlash. destruct n as [|c0 n0] using rev_ind; [reflexivity|].
    rewrite rev_app_distr, map_app. cbn [rev app map]. rewrite last_last.
    assert (E : ((ctyp c0 =? TypeGeneric)%N && (length (cval c0) =? 0)%nat)%bool = match comp_str c0 with [] => true | _ => false end).
    { destruct (comp_str c0) eqn:CS.
      - apply comp_str_nil in CS. destruct CS as [-> ->]. reflexivity.
      - destruct (N.eqb_spec (ctyp c0) TypeGeneric) as [T|]; [|reflexivity]. destruct (cval c0) eqn:V; [|reflexivity].
        exfalso. assert (comp_str c0 = []) by (apply comp_str_nil; auto). congruence. }
    rewrite E. destruct (comp_str c0); [reflexivity|rewrite app_nil_r; reflexivity].
Qed.

Lemma no_eq_text : forall s v, ReadsText s v -> ~ In chEq s.
Proof.
  intros s v H. assert (HD : forall c d, HexDigit c d -> c <> chEq) by (intros c d HH ->; apply hex_val_iff in HH; discriminate).
  induction H; [intros []|intros [->|I]; [apply H; vm_compute; tauto|tauto]|]. intros [E|[E|[E|I]]]; [discriminate E|exact (HD _ _ H E)|exact (HD _ _ H0 E)|tauto].
Qed.
Lemma no_eq_hex : forall s v, ReadsHex s v -> ~ In chEq s.
Proof.
  intros s v H. assert (HD : forall c d, HexDigit c d -> c <> chEq) by (intros c d HH ->; apply hex_val_iff in HH; discriminate).
  induction H; [intros []|]. intros [E|[E|I]]; [exact (HD _ _ H E)|exact (HD _ _ H0 E)|tauto].
Qed.
Lemma numeral_digits : forall s x, Numeral s x -> s <> [] /\ Forall (fun c => is_digit c = true) s.
Proof.
  intros s x H. induction H as [c d D|s x c d H [IH1 IH2] D]; apply digit_iff in D; destruct D as [D _].
  - split; [discriminate|]. constructor; [exact D|constructor].
  - split; [destruct s; discriminate|]. apply Forall_app. auto.
Qed.
Lemma no_eq_digits : forall s, Forall (fun c => is_digit c = true) s -> ~ In chEq s.
Proof. intros s F I. rewrite Forall_forall in F. specialize (F _ I). discriminate. Qed.

Lemma split_eq_iff : forall s a b, ~ In chEq a -> ~ In chEq b -> s = a ++ equals :: b -> split_on chEq s = [a; b].
Proof. intros s a b A B ->. change equals with chEq. rewrite split_app by auto. rewrite split_none by auto. reflexivity. Qed.

Lemma parse_type_iff : forall s t f, parse_type s = Ok (t, f) <->
  (In (t, s) hex_types /\ f = FHex) \/ (In (t, s) number_types /\ f = FDec) \/ (Numeral s t /\ (t < two64)%N /\ f = FText).
Proof.
  intros s t f. split.
  - unfold parse_type. destruct s as [|c s]; [discriminate|]. change (index (c :: s) 0) with (Ok c). cbn [bind].
    destruct (is_alpha c).
    + unfold conv_by_str, conv_by_str_in, conventions.
      repeat match goal with |- context [bytes_eqb ?a (c :: s)] => let E := fresh in destruct (bytes_eqb a (c :: s)) eqn:E; [apply bytes_eqb_eq in E; rewrite <- E; intros H'; injection H' as <- <-; vm_compute; tauto|clear E] end.
      discriminate.
    + destruct (parse_dec (c :: s)) as [x|] eqn:P; [|discriminate]. intros [= <- <-]. apply dec_iff in P. tauto.
  - intros [[I ->]|[[I ->]|(N1 & L & ->)]].
    + unfold hex_types in I. cbn [In] in I. repeat (destruct I as [I|I]; [injection I as <- <-; vm_compute; reflexivity|]). destruct I.
    + unfold number_types in I. cbn [In] in I. repeat (destruct I as [I|I]; [injection I as <- <-; vm_compute; reflexivity|]). destruct I.
    + assert (P : parse_dec s = Some t) by (apply dec_iff; auto). destruct (numeral_digits s t N1) as [NE D].
      unfold parse_type. destruct s as [|c s]; [congruence|]. change (index (c :: s) 0) with (Ok c). cbn [bind]. inversion D as [|? ? Dc _]; subst.
      replace (is_alpha c) with false; [rewrite P; reflexivity|].
      symmetry. unfold is_alpha. unfold is_digit in Dc. nb. destruct (N.leb_spec 65 c); [lia|]. destruct (N.leb_spec 97 c); [lia|reflexivity].
Qed.
Lemma type_test : forall t, (t < two64)%N -> (((t <=? 0)%N || (65535 <? to_int t)%Z) = false <-> readable_type t).
Proof.
  intros t U. unfold readable_type. change (2 ^ 63)%N with two63. change (2 ^ 64)%N with two64. unfold to_int. split.
  - intros H. apply orb_false_elim in H. destruct H as [H1 H2]. apply N.leb_gt in H1. apply Z.ltb_ge in H2.
    destruct (N.ltb_spec t two63) as [L|G]; [left; lia|right; lia].
  - intros H. apply orb_false_intro; [apply N.leb_gt|apply Z.ltb_ge].
    + unfold two63, two64 in *. lia.
    + destruct (N.ltb_spec t two63) as [L|G]; unfold two63, two64, Ztwo64 in *; lia.
Qed.
Lemma component_read : forall s c, comp_from_str s = Ok c <-> ReadsComponent s (ctyp c) (cval c).
Proof.
  intros s [t v]. cbn [ctyp cval]. split.
  - unfold comp_from_str. destruct (split_on chEq s) as [|a [|b [|? ?]]] eqn:Sp; try discriminate.
    + intros H. assert (a = s) by (pose proof (join_split chEq s) as J; rewrite Sp in J; exact J). subst a.
      destruct (text_from_str s) as [x| | |] eqn:T; try discriminate. injection H as <- <-. apply RC_generic. apply text_from_iff. exact T.
    + intros H. apply split_two in Sp. destruct Sp as (-> & _ & _). change chEq with equals.
      destruct (parse_type a) as [[t' f]| | |] eqn:P; try discriminate. cbn [bind] in H.
      destruct ((t' <=? 0)%N || (65535 <? to_int t')%Z) eqn:Q; [discriminate|].
      destruct (fmt_from_str f b) as [x| | |] eqn:Fm; try discriminate. injection H as -> ->.
      apply parse_type_iff in P. destruct P as [[I ->]|[[I ->]|(N1 & L & ->)]]; cbn [fmt_from_str] in Fm.
      * apply RC_hex; [exact I|]. apply hex_from_iff. exact Fm.
      * unfold dec_from_str in Fm. destruct (parse_dec b) as [y|] eqn:D; [|discriminate]. rewrite nat_bytes_ok in Fm. injection Fm as <-.
        apply dec_iff in D. destruct D as [D L]. apply (RC_number t a b y); auto. apply shortest_iff; auto.
      * apply RC_other; [exact N1|apply type_test; auto|]. apply text_from_iff. exact Fm.
  - assert (NEQ : forall t nm, In (t, nm) (hex_types ++ number_types) -> ~ In chEq nm).
    { intros t0 nm I. unfold hex_types, number_types in I. cbn [In app] in I.
      repeat (destruct I as [I|I]; [injection I as <- <-; vm_compute; intuition discriminate|]). destruct I. }
    assert (TR : forall t nm, In (t, nm) (hex_types ++ number_types) -> ((t <=? 0)%N || (65535 <? to_int t)%Z) = false).
    { intros t0 nm I. unfold hex_types, number_types in I. cbn [In app] in I.
      repeat (destruct I as [I|I]; [injection I as <- <-; vm_compute; reflexivity|]). destruct I. }
    intros H. unfold comp_from_str. inversion H as [s' v' R|t' nm s' v' I R|t' nm s' x v' I N1 L Sh|ts t' s' v' N1 Rt R]; subst.
    + rewrite (split_none chEq s (no_eq_text _ _ R)). apply text_from_iff in R. rewrite R. reflexivity.
    + rewrite (split_eq_iff _ nm s'); [|apply (NEQ t); apply in_or_app; auto|exact (no_eq_hex _ _ R)|reflexivity].
      replace (parse_type nm) with (@Ok (N * vfmt) (t, FHex)) by (symmetry; apply parse_type_iff; auto). cbn [bind].
      rewrite (TR t nm) by (apply in_or_app; auto). cbn [fmt_from_str]. apply hex_from_iff in R. rewrite R. reflexivity.
    + destruct (numeral_digits _ _ N1) as [_ D]. rewrite (split_eq_iff _ nm s'); [|apply (NEQ t); apply in_or_app; auto|apply no_eq_digits; auto|reflexivity].
      replace (parse_type nm) with (@Ok (N * vfmt) (t, FDec)) by (symmetry; apply parse_type_iff; auto). cbn [bind].
      rewrite (TR t nm) by (apply in_or_app; auto). cbn [fmt_from_str]. unfold dec_from_str.
      replace (parse_dec s') with (Some x) by (symmetry; apply dec_iff; auto). rewrite nat_bytes_ok. apply shortest_iff in Sh; [|exact L]. subst v. reflexivity.
    + destruct (numeral_digits _ _ N1) as [_ D]. rewrite (split_eq_iff _ ts s'); [|apply no_eq_digits; auto|exact (no_eq_text _ _ R)|reflexivity].
      assert (L : (t < two64)%N) by (unfold readable_type in Rt; change (2 ^ 64)%N with two64 in Rt; unfold two64 in *; lia).
      replace (parse_type ts) with (@Ok (N * vfmt) (t, FText)) by (symmetry; apply parse_type_iff; auto). cbn [bind].
      replace ((t <=? 0)%N || (65535 <? to_int t)%Z) with false by (symmetry; apply type_test; auto). cbn [fmt_from_str].
      apply text_from_iff in R. rewrite R. reflexivity.
Qed.

(** ** names *)
Lemma map_res_iff : forall {A B} (f : A -> res B) l bs, map_res f l = Ok bs <-> Forall2 (fun a b => f a = Ok b) l bs.
Proof.
  intros A B f. induction l as [|a l IH]; intros bs; cbn [map_res].
  - split; [intros [= <-]; constructor|intros H; inversion H; reflexivity].
  - split.
    + destruct (f a) as [b| | |] eqn:E; try discriminate. cbn [bind]. destruct (map_res f l) as [bs'| | |] eqn:M; try discriminate. cbn [bind].
      intros [= <-]. constructor; [exact E|]. apply IH. reflexivity.
    + intros H. inversion H as [|? b ? bs' E F]; subst. rewrite E. cbn [bind]. apply IH in F. rewrite F. reflexivity.
Qed.
Lemma between_join : forall l, between l = join_with slash l.
Proof. induction l as [|a [|b l] IH]; [reflexivity|reflexivity|]. cbn [between join_with] in *. rewrite IH. reflexivity. Qed.
Lemma split_between : forall l, l <> [] -> Forall (fun p => ~ In slash p) l -> split_on chSlash (between l) = l.
Proof.
  induction l as [|a l IH]; intros NE F; [congruence|]. inversion F; subst. destruct l as [|b l]; [apply split_none; auto|].
  change (between (a :: b :: l)) with (a ++ chSlash :: between (b :: l)). rewrite split_app by auto. rewrite IH; [reflexivity|discriminate|auto].
Qed.
Lemma between_front : forall l, l <> [] -> between ([] :: l) = slash :: between l.
Proof. destruct l; [congruence|reflexivity]. Qed.
Lemma between_back : forall l, l <> [] -> between (l ++ [[]]) = between l ++ [slash].
Proof.
  induction l as [|a l IH]; intros NE; [congruence|]. destruct l as [|b l]; [reflexivity|].
  change (between ((a :: b :: l) ++ [[]])) with (a ++ slash :: between ((b :: l) ++ [[]])). rewrite IH by discriminate.
  change (between (a :: b :: l)) with (a ++ slash :: between (b :: l)). rewrite <- app_assoc. reflexivity.
Qed.
Lemma parts_iff : forall s parts, pieces s = parts <-> PartsOf s parts.
Proof.
  intros s parts. split.
  - intros <-. pose proof (join_split chSlash s) as J. pose proof (split_pieces chSlash s) as SP. pose proof (split_nonempty chSlash s) as NE. unfold pieces.
    change chSlash with slash in J at 1. rewrite <- (between_join (split_on chSlash s)) in J. destruct (split_on chSlash s) as [|a L]; [congruence|]. clear NE.
    (* the end *)
    assert (Tail : forall M front, M <> [] -> Forall (fun p => ~ In slash p) M -> (front = [] \/ front = [slash]) -> (forall ps, M = [] :: ps -> front = [slash]) ->
       PartsOf (front ++ between M) (drop_last_empty M)).
    { clear. intros M front NE F Fr Hd. destruct (exists_last NE) as (P & x & ->). rewrite drop_last_app. apply Forall_app in F. destruct F as [F1 F2]. destruct x as [|c x].
      - split; [exact F1|]. destruct P as [|p P].
        + exists front, []. split; [exact Fr|split; [auto|split; [cbn [between app]; reflexivity|split; [auto|split; [discriminate|]]]]]. intros ps E. destruct ps; discriminate.
        + exists front, [slash]. split; [exact Fr|split; [auto|split; [rewrite between_back by discriminate; reflexivity|split; [discriminate|split; [|auto]]]]].
          intros ps E. injection E as -> ->. apply (Hd (ps ++ [[]])). reflexivity.
      - split; [apply Forall_app; auto|]. exists front, []. split; [exact Fr|split; [auto|split; [rewrite app_nil_r; reflexivity|split; [auto|split; [exact Hd|]]]]].
        intros ps E. apply app_inj_tail in E. destruct E as [_ E]. discriminate E. }
    rewrite <- J. inversion SP as [|? ? Sa SL]; subst. destruct a as [|c a].
    + cbn [drop_first_empty]. destruct L as [|b L].
      * split; [constructor|]. exists [], []. split; [auto|split; [auto|split; [reflexivity|split; [auto|split; [discriminate|intros ps E; destruct ps; discriminate]]]]].
      * rewrite between_front by discriminate. apply (Tail (b :: L) [slash]); [discriminate|exact SL|auto|auto].
    + cbn [drop_first_empty]. apply (Tail ((c :: a) :: L) []); [discriminate|exact SP|auto|discriminate].
  - intros (F & front & back & Fr & Ba & -> & H0 & H1 & H2). unfold pieces. destruct parts as [|p ps].
    + rewrite (H0 eq_refl). destruct Fr as [->| ->]; reflexivity.
    + set (P := p :: ps) in *. assert (PN : P <> []) by discriminate.
      assert (E : front ++ between P ++ back = between ((if front then [] else [[]]) ++ P ++ (if back then [] else [[]]))).
      { destruct Fr as [->| ->], Ba as [->| ->]; cbn [app]; rewrite ?app_nil_r; try reflexivity.
        - rewrite between_back by exact PN. reflexivity.
        - rewrite between_front by (destruct P; discriminate). rewrite between_back by exact PN. reflexivity. }
      rewrite E. rewrite split_between.
      * assert (D : drop_first_empty ((if front then [] else [[]]) ++ P ++ (if back then [] else [[]])) = P ++ (if back then [] else [[]])).
        { destruct Fr as [->| ->]; [|reflexivity]. cbn [app]. subst P. destruct p; [|reflexivity]. specialize (H1 ps eq_refl). discriminate. }
        rewrite D. destruct Ba as [->| ->].
        -- rewrite app_nil_r. destruct (exists_last PN) as (Q & x & EQ). rewrite EQ. rewrite drop_last_app. destruct x; [|reflexivity]. specialize (H2 Q EQ). discriminate.
        -- apply (drop_last_app P []).
      * destruct Fr as [->| ->]; destruct P; try discriminate; congruence.
      * apply Forall_app. split; [destruct front; repeat constructor; intros []|]. apply Forall_app. split; [exact F|destruct back; repeat constructor; intros []].
Qed.
Lemma forall2_weaken : forall {A B} (P Q : A -> B -> Prop) l m, (forall a b, P a b -> Q a b) -> Forall2 P l m -> Forall2 Q l m.
Proof. intros A B P Q l m H F. induction F; constructor; auto. Qed.
Lemma name_read : forall s n, name_from_str s = Ok n <-> exists parts, PartsOf s parts /\ Forall2 (fun p c => ReadsComponent p (ctyp c) (cval c)) parts n.
Proof.
  intros s n. unfold name_from_str. change (drop_last_empty _) with (pieces s). rewrite map_res_iff. split.
  - intros H. exists (pieces s). split; [apply parts_iff; reflexivity|]. eapply forall2_weaken; [|exact H]. intros p c E. apply component_read. exact E.
  - intros (parts & P & H). apply parts_iff in P. rewrite P. eapply forall2_weaken; [|exact H]. intros p c E. apply component_read. exact E.
Qed.

(** ** patterns *)
Lemma variable_written : forall t tag, u64_ok t -> WritesVariable t tag (pat_var_str t tag).
Proof.
  intros t tag U. unfold pat_var_str.
  exists (if (t =? TypeGeneric)%N then [] else match conv_by_type t with Some (nm, _) => nm ++ [chEq] | None => fmt_dec t ++ [chEq] end).
  split; [|reflexivity]. destruct (N.eqb_spec t TypeGeneric) as [->|NG]; [apply WT_generic; reflexivity|].
  destruct (conv_table t) as [[-> NI]|[(nm & -> & I)|(nm & -> & I)]].
  - apply WT_number; auto. apply dec_written. exact U.
  - apply WT_named. apply in_or_app. auto.
  - apply WT_named. apply in_or_app. auto.
Qed.
Lemma type_names : forall t nm, In (t, nm) (hex_types ++ number_types) -> ~ In chEq nm.
Proof.
  intros t nm I. unfold hex_types, number_types in I. cbn [In app] in I.
  repeat (destruct I as [I|I]; [injection I as <- <-; vm_compute; intuition discriminate|]). destruct I.
Qed.
Lemma inner_read : forall s t tag,
  match split_on chEq s with [x] => Ok (PVar TypeGeneric x) | [ty; x] => do p <- parse_type ty; Ok (PVar (fst p) x) | _ => Err EFormat end = Ok (PVar t tag)
  <-> ReadsVariable s t tag.
Proof.
  intros s t tag. split.
  - destruct (split_on chEq s) as [|a [|b [|? ?]]] eqn:Sp; try discriminate.
    + intros [= <- <-]. assert (J := join_split chEq s). rewrite Sp in J. cbn [join_with] in J. subst s. apply RV_tag.
      pose proof (split_pieces chEq a) as SP. rewrite Sp in SP. inversion SP; auto.
    + apply split_two in Sp. destruct Sp as (-> & _ & NB). destruct (parse_type a) as [[u f]| | |] eqn:P; try discriminate. cbn [bind fst]. intros [= <- <-].
      apply parse_type_iff in P. destruct P as [[I _]|[[I _]|(N1 & L & _)]].
      * apply RV_named; [apply in_or_app; auto|exact NB].
      * apply RV_named; [apply in_or_app; auto|exact NB].
      * apply RV_number; auto.
  - intros H. inversion H as [x NE|u nm x I NE|u ts x N1 L NE]; subst.
    + rewrite split_none by exact NE. reflexivity.
    + rewrite (split_eq_iff _ nm tag); [|exact (type_names t nm I)|exact NE|reflexivity].
      assert (P : exists f, parse_type nm = Ok (t, f)) by (apply in_app_or in I; destruct I as [I|I]; eexists; apply parse_type_iff; auto).
      destruct P as [f ->]. reflexivity.
    + destruct (numeral_digits _ _ N1) as [_ D]. rewrite (split_eq_iff _ ts tag); [|apply no_eq_digits; auto|exact NE|reflexivity].
      replace (parse_type ts) with (@Ok (N * vfmt) (t, FText)) by (symmetry; apply parse_type_iff; auto). reflexivity.
Qed.
Lemma bracket_unfold : forall inner x, pat_from_str (chLt :: inner ++ [x]) =
  if (x =? chGt)%N then match split_on chEq inner with [y] => Ok (PVar TypeGeneric y) | [ty; y] => do p <- parse_type ty; Ok (PVar (fst p) y) | _ => Err EFormat end
  else Err EFormat.
Proof.
  intros inner x. unfold pat_from_str. change (chLt =? chLt)%N with true. cbv iota.
  assert (E0 : chLt :: inner ++ [x] = ([chLt] ++ inner) ++ [x]) by reflexivity.
  assert (ZL : (zlen (chLt :: inner ++ [x]) - 1 = zlen ([chLt] ++ inner))%Z) by (rewrite E0, zlen_app; change (zlen [x]) with 1%Z; lia).
  rewrite ZL. rewrite E0 at 1. rewrite index_app. cbn [bind]. destruct (x =? chGt)%N; [|reflexivity].
  assert (SL : slice (chLt :: inner ++ [x]) 1 (zlen ([chLt] ++ inner)) = Ok inner).
  { rewrite zlen_app. change (zlen [chLt]) with 1%Z. apply (slice_mid [chLt] inner [x]). }
  rewrite SL. reflexivity.
Qed.
(** the two kinds of elements *)
Definition ReadsElement (s : text) (p : pat) : Prop :=
  match p with
  | PComp c => ReadsComponent s (ctyp c) (cval c) /\ (forall r, s <> open_angle :: r)
  | PVar t tag => exists inner, s = open_angle :: inner ++ [close_angle] /\ ReadsVariable inner t tag
  end.
Lemma element_read : forall s p, pat_from_str s = Ok p <-> ReadsElement s p.
Proof.
  intros s p. destruct s as [|c r].
  - change (pat_from_str []) with (@Ok pat (PComp (mkComp 8%N []))). split.
    + intros [= <-]. split; [apply RC_generic; constructor|discriminate].
    + destruct p as [q|t tag]; [intros [H _]; apply component_read in H; change (comp_from_str []) with (@Ok comp (mkComp 8%N [])) in H; congruence|].
      intros (inner & E & _). discriminate.
  - destruct (N.eqb_spec c chLt) as [->|NL].
    + destruct r as [|c' r'] using rev_ind.
      * split; [discriminate|]. destruct p as [q|t tag]; [intros [_ H]; exfalso; exact (H [] eq_refl)|]. intros (inner & E & _). destruct inner; discriminate.
      * rewrite bracket_unfold. split.
        -- destruct (N.eqb_spec c' chGt) as [->|]; [|discriminate]. intros H. destruct p as [q|t tag].
           { exfalso. destruct (split_on chEq r') as [|a [|b [|? ?]]]; try discriminate. destruct (parse_type a); discriminate. }
           apply inner_read in H. exists r'. auto.
        -- destruct p as [q|t tag]; [intros [_ H]; exfalso; exact (H _ eq_refl)|]. intros (inner & E & R). injection E as E. apply app_inj_tail in E. destruct E as [-> ->].
           change (close_angle =? chGt)%N with true. cbv iota. apply inner_read. exact R.
    + unfold pat_from_str. destruct (N.eqb_spec c chLt) as [|_]; [congruence|]. split.
      * destruct (comp_from_str (c :: r)) as [q| | |] eqn:C; try discriminate. intros [= <-]. split; [apply component_read; exact C|]. intros r' [= -> _]. apply NL. reflexivity.
      * destruct p as [q|t tag]; [intros [H _]; apply component_read in H; rewrite H; reflexivity|]. intros (inner & E & _). injection E as -> _. exfalso. apply NL. reflexivity.
Qed.
Lemma pattern_read : forall s p, np_from_str s = Ok p <-> s <> [] /\ exists parts, PartsOf s parts /\ Forall2 ReadsElement parts p.
Proof.
  intros s p. assert (E : np_from_str s = match s with [] => Panic | _ => map_res pat_from_str (pieces s) end).
  { unfold np_from_str, pieces. destruct s as [|c s]; [reflexivity|].
    destruct (drop_first_empty (split_on chSlash (c :: s))) eqn:D; [|reflexivity]. exfalso.
    pose proof (join_split chSlash (c :: s)) as J. destruct (split_on chSlash (c :: s)) as [|a [|b L]] eqn:Sp; cbn [drop_first_empty join_with] in *; [discriminate| |].
    - destruct a; [discriminate J|discriminate D].
    - destruct a; discriminate D. }
  rewrite E. destruct s as [|c s]; [split; [discriminate|intros [H _]; congruence]|]. rewrite map_res_iff. split.
  - intros H. split; [discriminate|]. exists (pieces (c :: s)). split; [apply parts_iff; reflexivity|]. eapply forall2_weaken; [|exact H]. intros a b. apply element_read.
  - intros (_ & parts & P & H). apply parts_iff in P. rewrite P. eapply forall2_weaken; [|exact H]. intros a b. apply element_read.
Qed.
