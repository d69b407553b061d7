(** Proofs about the front end of the generator. *)
From Coq Require Import String Ascii Permutation Decimal DecimalString Hexadecimal HexadecimalString.
From Coq Require Import DecimalN HexadecimalN.
From Verif Require Import Base CodecModel GenModel GenSpec.
Local Open Scope string_scope.

(** ** Strings *)

Lemma sapp_assoc a b c : (a ++ b) ++ c = a ++ b ++ c.
Proof. induction a as [|x a IH]; cbn; [reflexivity|]. now rewrite IH. Qed.

Lemma sapp_nil_r a : a ++ "" = a.
Proof. induction a as [|x a IH]; cbn; [reflexivity|]. now rewrite IH. Qed.

Lemma slen_app a b : String.length (a ++ b) = (String.length a + String.length b)%nat.
Proof. induction a as [|x a IH]; cbn; [reflexivity|]. now rewrite IH. Qed.

Lemma strip_app p s : strip p (p ++ s) = Some s.
Proof. induction p as [|a p IH]; cbn; [reflexivity|]. now rewrite Ascii.eqb_refl. Qed.

Lemma strip_inv p s r : strip p s = Some r -> s = p ++ r.
Proof.
  revert s; induction p as [|a p IH]; intros s H; cbn in H.
  - now injection H as <-.
  - destruct s as [|b s]; [discriminate|].
    destruct (Ascii.eqb_spec a b) as [->|]; [|discriminate].
    cbn. f_equal. apply IH, H.
Qed.

Lemma without_app c a b : without c a -> without c b -> without c (a ++ b).
Proof.
  induction a as [|x a IH]; cbn [without append]; [easy|].
  intros [H1 H2] H3. split; [exact H1|]. now apply IH.
Qed.

Lemma cut_app c a b : without c a -> cut c (a ++ String c b) = Some (a, b).
Proof.
  induction a as [|x a IH]; cbn [without append cut].
  - intros _. now rewrite Ascii.eqb_refl.
  - intros [H1 H2]. destruct (Ascii.eqb_spec x c) as [E|]; [contradiction|].
    now rewrite (IH H2).
Qed.

Lemma cut_none c a : without c a -> cut c a = None.
Proof.
  induction a as [|x a IH]; cbn [without cut]; [reflexivity|].
  intros [H1 H2]. destruct (Ascii.eqb_spec x c) as [E|]; [contradiction|].
  now rewrite (IH H2).
Qed.

Lemma cut_some c s a b : cut c s = Some (a, b) -> s = a ++ String c b /\ without c a.
Proof.
  revert a; induction s as [|x s IH]; intros a H; cbn [cut] in H; [discriminate|].
  destruct (Ascii.eqb_spec x c) as [->|N].
  - injection H as <- <-. split; [reflexivity|exact I].
  - destruct (cut c s) as [[u v]|]; [|discriminate]. injection H as <- <-.
    destruct (IH u eq_refl) as [-> W]. split; [reflexivity|]. split; assumption.
Qed.

Lemma splitn_none n c a : without c a -> splitn (S n) c a = [a].
Proof. intros W. cbn [splitn]. destruct n; [reflexivity|]. now rewrite (cut_none c a W). Qed.

Lemma splitn_app n c a b : without c a -> splitn (S (S n)) c (a ++ String c b) = a :: splitn (S n) c b.
Proof. intros W. cbn [splitn]. now rewrite (cut_app c a b W). Qed.

Lemma split_none c a : without c a -> split c a = [a].
Proof. apply splitn_none. Qed.

(** more pieces than separators make no difference *)
Lemma splitn_more c s : forall n m, (String.length s < n)%nat -> (n <= m)%nat ->
  splitn m c s = splitn n c s.
Proof.
  remember (String.length s) as l eqn:L. revert s L.
  induction l as [l IH] using lt_wf_ind. intros s L n m H1 H2.
  destruct n as [|n]; [lia|]. destruct m as [|m]; [lia|].
  cbn [splitn]. destruct (cut c s) as [[a b]|] eqn:C.
  - apply cut_some in C as [-> _]. rewrite slen_app in L. cbn [String.length] in L.
    destruct n as [|n]; [lia|]. destruct m as [|m]; [lia|].
    f_equal. apply (IH (String.length b)); [lia|reflexivity|lia|lia].
  - destruct n, m; reflexivity.
Qed.

Lemma split_app c a b : without c a -> split c (a ++ String c b) = a :: split c b.
Proof.
  intros W. unfold split. rewrite slen_app. cbn [String.length].
  replace (S (String.length a + S (String.length b)))%nat
    with (S (S (String.length a + String.length b)))%nat by lia.
  rewrite (splitn_app _ c a b W). f_equal.
  apply splitn_more; lia.
Qed.

Lemma is_nil_app_cons a c b : is_nil (a ++ String c b) = false.
Proof. now destruct a. Qed.

Lemma is_nil_false s : s <> "" -> is_nil s = false.
Proof. now destruct s. Qed.

(** ** Numbers *)

Lemma digits_step b c s n d : digit c = Some d -> Ascii.eqb c "_" = false -> (d < b)%N ->
  (n * b + d < 2 ^ 64)%N -> digits b (String c s) n = digits b s (n * b + d)%N.
Proof.
  intros H1 H2 H3 H4. cbn [digits]. rewrite H2, H1.
  apply N.leb_gt in H3. rewrite H3. apply N.leb_gt in H4. now rewrite H4.
Qed.

Lemma dec_mono u : forall acc, (acc <= Pos.of_uint_acc u acc)%positive.
Proof.
  induction u; intros acc; cbn [Pos.of_uint_acc]; try lia;
    match goal with |- (_ <= Pos.of_uint_acc _ ?a)%positive => specialize (IHu a); lia end.
Qed.

Lemma hex_mono u : forall acc, (acc <= Pos.of_hex_uint_acc u acc)%positive.
Proof.
  induction u; intros acc; cbn [Pos.of_hex_uint_acc]; try lia;
    match goal with |- (_ <= Pos.of_hex_uint_acc _ ?a)%positive => specialize (IHu a); lia end.
Qed.

Lemma digits_dec u : forall acc, (N.pos (Pos.of_uint_acc u acc) < 2 ^ 64)%N ->
  digits 10 (DecimalString.NilEmpty.string_of_uint u) (N.pos acc) = Some (N.pos (Pos.of_uint_acc u acc)).
Proof.
  induction u; intros acc H; cbn [Pos.of_uint_acc] in H |- *; [reflexivity|..];
    cbn [DecimalString.NilEmpty.string_of_uint];
    match goal with
    | |- context [Pos.of_uint_acc ?d' ?a] => pose proof (dec_mono d' a) as M
    end;
    (erewrite digits_step; [|vm_compute; reflexivity|reflexivity|vm_compute; reflexivity|]);
    match goal with
    | |- digits _ _ ?x = Some (N.pos (Pos.of_uint_acc _ ?a)) =>
        assert (E : x = N.pos a) by (clear; lia); rewrite E; apply IHu; exact H
    | |- (?x < _)%N =>
        match type of M with (?a <= _)%positive =>
          assert (E : x = N.pos a) by (clear; lia); rewrite E;
          (eapply N.le_lt_trans; [|exact H]); exact M
        end
    end.
Qed.

Lemma digits_hex u : forall acc, (N.pos (Pos.of_hex_uint_acc u acc) < 2 ^ 64)%N ->
  digits 16 (HexadecimalString.NilEmpty.string_of_uint u) (N.pos acc) = Some (N.pos (Pos.of_hex_uint_acc u acc)).
Proof.
  induction u; intros acc H; cbn [Pos.of_hex_uint_acc] in H |- *; [reflexivity|..];
    cbn [HexadecimalString.NilEmpty.string_of_uint];
    match goal with
    | |- context [Pos.of_hex_uint_acc ?d' ?a] => pose proof (hex_mono d' a) as M
    end;
    (erewrite digits_step; [|vm_compute; reflexivity|reflexivity|vm_compute; reflexivity|]);
    match goal with
    | |- digits _ _ ?x = Some (N.pos (Pos.of_hex_uint_acc _ ?a)) =>
        assert (E : x = N.pos a) by (clear; lia); rewrite E; apply IHu; exact H
    | |- (?x < _)%N =>
        match type of M with (?a <= _)%positive =>
          assert (E : x = N.pos a) by (clear; lia); rewrite E;
          (eapply N.le_lt_trans; [|exact H]); exact M
        end
    end.
Qed.

(** no underscores *)
Lemma under_app a b : has_under (a ++ b) = has_under a || has_under b.
Proof. induction a as [|c a IH]; cbn [append has_under]; [reflexivity|]. now rewrite IH, orb_assoc. Qed.

Lemma under_dec u : has_under (DecimalString.NilEmpty.string_of_uint u) = false.
Proof. induction u; cbn [DecimalString.NilEmpty.string_of_uint has_under]; [reflexivity|..]; now rewrite IHu. Qed.

Lemma under_hex u : has_under (HexadecimalString.NilEmpty.string_of_uint u) = false.
Proof. induction u; cbn [HexadecimalString.NilEmpty.string_of_uint has_under]; [reflexivity|..]; now rewrite IHu. Qed.

Lemma nzhead_lead u : forall l, Decimal.nzhead u <> Decimal.D0 l.
Proof. induction u; intros l; cbn [Decimal.nzhead]; try discriminate. apply IHu. Qed.

Lemma to_uint_lead n l : N.to_uint n = Decimal.D0 l -> n = 0%N.
Proof.
  intros H. pose proof (DecimalN.Unsigned.to_of (N.to_uint n)) as T.
  rewrite DecimalN.Unsigned.of_to in T. rewrite H in T.
  unfold Decimal.unorm in T. cbn [Decimal.nzhead] in T.
  pose proof (nzhead_lead l) as NL.
  destruct (Decimal.nzhead l) eqn:E; try discriminate T.
  - injection T as ->. rewrite <- (DecimalN.Unsigned.of_to n), H. reflexivity.
  - exfalso. exact (NL _ eq_refl).
Qed.

(** a decimal number is read as it is written *)
Lemma parse_dec n : (n < 2 ^ 64)%N -> parse_uint (dec n) = Some n.
Proof.
  intros H. unfold dec. destruct (N.to_uint n) as [|l|l|l|l|l|l|l|l|l|l] eqn:E.
  1: { exfalso. destruct n; cbn in E; [discriminate|]. pose proof (DecimalPos.Unsigned.to_uint_nonnil p). contradiction. }
  1: { pose proof (to_uint_lead n l E) as ->. cbn in E. injection E as <-. reflexivity. }
  all: pose proof (DecimalN.Unsigned.of_to n) as F; rewrite E in F;
    cbn [N.of_uint Pos.of_uint] in F; subst n;
    cbn [DecimalString.NilZero.string_of_uint DecimalString.NilEmpty.string_of_uint];
    unfold parse_uint; cbn [base_of]; 
    match goal with |- context [Ascii.eqb ?a "0"] => replace (Ascii.eqb a "0") with false by reflexivity end;
    cbv iota; (erewrite digits_step; [|vm_compute; reflexivity|reflexivity|vm_compute; reflexivity|vm_compute; reflexivity]);
    match goal with |- context [digits 10 _ ?x] => let y := eval vm_compute in x in change x with y end;
    rewrite (digits_dec l _ H); cbn [has_under]; rewrite (under_dec l); reflexivity.
Qed.

Lemma digits_hex0 u : (N.of_hex_uint u < 2 ^ 64)%N ->
  digits 16 (HexadecimalString.NilEmpty.string_of_uint u) 0 = Some (N.of_hex_uint u).
Proof.
  induction u; intros H; cbn [N.of_hex_uint Pos.of_hex_uint] in H |- *; [reflexivity|..];
    cbn [HexadecimalString.NilEmpty.string_of_uint];
    (erewrite digits_step; [|vm_compute; reflexivity|reflexivity|vm_compute; reflexivity|vm_compute; reflexivity]);
    match goal with |- context [digits 16 _ ?x] => let y := eval vm_compute in x in change x with y end;
    [exact (IHu H)|..]; apply digits_hex; exact H.
Qed.

Lemma hex_eq n : hex n = HexadecimalString.NilEmpty.string_of_uint (N.to_hex_uint n).
Proof.
  unfold hex. destruct (N.to_hex_uint n) eqn:E; try reflexivity.
  exfalso. destruct n; cbn in E; [discriminate|]. pose proof (HexadecimalPos.Unsigned.to_uint_nonnil p). contradiction.
Qed.

Lemma digits_zeros b s i : (0 < b)%N -> digits b (zeros i ++ s) 0 = digits b s 0.
Proof.
  intros B. induction i as [|i IH]; [reflexivity|].
  replace (zeros (S i) ++ s) with (String "0" (zeros i ++ s)).
  2: { destruct i; reflexivity. }
  rewrite (digits_step b "0" _ 0 0); [exact IH|reflexivity|reflexivity|exact B|reflexivity].
Qed.

Lemma under_zeros i : has_under (zeros i) = false.
Proof. induction i as [|[|i] IH]; [reflexivity|reflexivity|]. exact IH. Qed.

Lemma parse_hex n i : (n < 2 ^ 64)%N ->
  parse_uint ("0x" ++ zeros i ++ hex n) = Some n.
Proof.
  intros H. set (z := zeros i).
  assert (NE : exists y s, z ++ hex n = String y s).
  { destruct (z ++ hex n) as [|y s] eqn:E; [|eauto].
    exfalso. destruct z; [|discriminate]. cbn in E. unfold hex in E.
    destruct (N.to_hex_uint n); discriminate. }
  destruct NE as (y & s & NE).
  assert (U : has_under (z ++ hex n) = false).
  { rewrite under_app, hex_eq, under_hex. subst z. now rewrite under_zeros. }
  assert (D : digits 16 (z ++ hex n) 0 = Some n).
  { subst z. rewrite (digits_zeros 16 _ i eq_refl), hex_eq.
    rewrite <- (HexadecimalN.Unsigned.of_to n) at 2. apply digits_hex0.
    now rewrite HexadecimalN.Unsigned.of_to. }
  unfold parse_uint. rewrite NE in *.
  change (base_of ("0x" ++ String y s)) with (16%N, String y s).
  cbn [append]. cbv iota. rewrite D, U. reflexivity.
Qed.

(** capitals make no difference *)
Lemma digit_small c : digit (small_char c) = digit c.
Proof. destruct c as [[] [] [] [] [] [] [] []]; vm_compute; reflexivity. Qed.
Lemma lower_small c : lower (small_char c) = lower c.
Proof. destruct c as [[] [] [] [] [] [] [] []]; vm_compute; reflexivity. Qed.
Lemma eqb0_small c : Ascii.eqb (small_char c) "0" = Ascii.eqb c "0".
Proof. destruct c as [[] [] [] [] [] [] [] []]; vm_compute; reflexivity. Qed.
Lemma eqbu_small c : Ascii.eqb (small_char c) "_" = Ascii.eqb c "_".
Proof. destruct c as [[] [] [] [] [] [] [] []]; vm_compute; reflexivity. Qed.
Lemma tag_char_small c : tag_char (small_char c) = true -> tag_char c = true.
Proof. destruct c as [[] [] [] [] [] [] [] []]; vm_compute; (reflexivity || (intros H; exact H)). Qed.

Lemma digits_small b s : forall n, digits b (small s) n = digits b s n.
Proof.
  induction s as [|c s IH]; intros n; cbn [small digits]; [reflexivity|].
  rewrite eqbu_small, digit_small, IH.
  destruct (Ascii.eqb c "_"); [reflexivity|]. destruct (digit c) as [d|]; [|reflexivity].
  now rewrite IH.
Qed.

Lemma under_small s : has_under (small s) = has_under s.
Proof. induction s as [|c s IH]; cbn [small has_under]; [reflexivity|]. now rewrite eqbu_small, IH. Qed.

Lemma base_small s : base_of (small s) = (fst (base_of s), small (snd (base_of s))).
Proof.
  destruct s as [|z s]; [reflexivity|]. cbn [small base_of]. rewrite eqb0_small.
  destruct (Ascii.eqb z "0"); [|reflexivity].
  destruct s as [|x s]; [reflexivity|]. destruct s as [|y s]; [reflexivity|]. cbn [small].
  rewrite lower_small.
  destruct (lower x =? 98)%N; [reflexivity|]. destruct (lower x =? 111)%N; [reflexivity|].
  destruct (lower x =? 120)%N; reflexivity.
Qed.

Lemma under_base s : has_under s = false -> has_under (snd (base_of s)) = false.
Proof.
  destruct s as [|z s]; [easy|]. intros H. cbn [base_of].
  destruct (Ascii.eqb z "0"); [|exact H].
  cbn [has_under] in H. apply orb_false_iff in H as [_ H].
  destruct s as [|x s]; [exact H|]. destruct s as [|y s]; [exact H|].
  assert (H' : has_under (String y s) = false) by (cbn [has_under] in H |- *; now apply orb_false_iff in H as [_ H]).
  destruct (lower x =? 98)%N; [exact H'|]. destruct (lower x =? 111)%N; [exact H'|].
  destruct (lower x =? 120)%N; [exact H'|exact H].
Qed.

Lemma parse_small s : has_under s = false -> parse_uint (small s) = parse_uint s.
Proof.
  intros U. destruct s as [|z s]; [reflexivity|].
  unfold parse_uint. change (small (String z s)) with (String (small_char z) (small s)).
  cbv iota. change (String (small_char z) (small s)) with (small (String z s)).
  pose proof (under_base _ U) as UB. rewrite base_small.
  destruct (base_of (String z s)) as [b r]. cbn [fst snd] in *.
  rewrite digits_small, under_small, UB. reflexivity.
Qed.

(** ** Tags *)

Fixpoint all_tag (s : string) : bool :=
  match s with EmptyString => true | String c s' => tag_char c && all_tag s' end.

Lemma all_tag_app a b : all_tag (a ++ b) = all_tag a && all_tag b.
Proof. induction a as [|c a IH]; cbn [append all_tag]; [reflexivity|]. now rewrite IH, andb_assoc. Qed.

Lemma all_tag_dec u : all_tag (DecimalString.NilEmpty.string_of_uint u) = true.
Proof. induction u; cbn [DecimalString.NilEmpty.string_of_uint all_tag]; [reflexivity|..]; now rewrite IHu. Qed.

Lemma all_tag_hex u : all_tag (HexadecimalString.NilEmpty.string_of_uint u) = true.
Proof. induction u; cbn [HexadecimalString.NilEmpty.string_of_uint all_tag]; [reflexivity|..]; now rewrite IHu. Qed.

Lemma all_tag_zeros i : all_tag (zeros i) = true.
Proof. induction i as [|[|i] IH]; [reflexivity|reflexivity|]. exact IH. Qed.

Lemma all_tag_small s : all_tag (small s) = true -> all_tag s = true.
Proof.
  induction s as [|c s IH]; cbn [small all_tag]; [easy|]. intros H.
  apply andb_prop in H as [H1 H2]. now rewrite (tag_char_small c H1), (IH H2).
Qed.

Lemma tag_run_app a q s : all_tag a = true -> tag_char q = false ->
  tag_run (a ++ String q s) = (a, String q s).
Proof.
  intros H Q. induction a as [|c a IH]; cbn [append tag_run].
  - now rewrite Q.
  - cbn [all_tag] in H. apply andb_prop in H as [H1 H2]. now rewrite H1, (IH H2).
Qed.

Lemma tag_here_app a s : all_tag a = true -> a <> "" ->
  tag_here ("tlv:""" ++ a ++ """" ++ s) = Some a.
Proof.
  intros H NE. unfold tag_here. rewrite strip_app.
  change ("""" ++ s) with (String dquote s). rewrite (tag_run_app a dquote s H eq_refl).
  destruct a as [|c a]; [now elim NE|]. reflexivity.
Qed.

Lemma tag_find_here s x : tag_here s = Some x -> tag_find s = Some x.
Proof. intros H. destruct s; cbn [tag_find]; now rewrite H. Qed.

Lemma tag_find_app pre a s : all_tag a = true -> a <> "" ->
  (forall x y, pre <> x ++ "tlv:""" ++ y) ->
  tag_find (pre ++ "tlv:""" ++ a ++ """" ++ s) = Some a.
Proof.
  intros H NE. induction pre as [|c pre IH]; intros P.
  - apply tag_find_here, (tag_here_app a s H NE).
  - assert (N : strip "tlv:""" ((String c pre) ++ "tlv:""" ++ a ++ """" ++ s) = None).
    { destruct (strip "tlv:""" (String c pre ++ "tlv:""" ++ a ++ """" ++ s)) as [r|] eqn:E; [|reflexivity].
      exfalso. apply strip_inv in E.
      destruct pre as [|c1 pre]; [cbn in E; injection E as -> X; discriminate|].
      destruct pre as [|c2 pre]; [cbn in E; injection E as -> -> X; discriminate|].
      destruct pre as [|c3 pre]; [cbn in E; injection E as -> -> -> X; discriminate|].
      destruct pre as [|c4 pre]; [cbn in E; injection E as -> -> -> -> X; discriminate|].
      cbn in E. injection E as -> -> -> -> -> X. apply (P "" pre). reflexivity. }
    cbn [append tag_find]. unfold tag_here. change (String c (pre ++ ?z)) with (String c pre ++ z).
    cbn [append] in N. cbn [append]. rewrite N. apply IH.
    intros x y E. apply (P (String c x) y). rewrite E. reflexivity.
Qed.

Lemma parse_tag_says tag n : tag_says tag n -> parse_tag tag = n.
Proof.
  unfold tag_says, parse_tag. destruct tag as [t|]; [|now intros ->].
  intros (B & pre & post & num & -> & P & NUM).
  assert (AT : all_tag num = true /\ num <> "" /\ parse_uint num = Some n).
  { destruct NUM as [->| (i & E)].
    - repeat split.
      + unfold dec. destruct (N.to_uint n) eqn:X; [reflexivity|..];
          unfold DecimalString.NilZero.string_of_uint; rewrite <- X; apply all_tag_dec.
      + unfold dec. destruct (N.to_uint n); discriminate.
      + apply parse_dec, B.
    - assert (AT : all_tag (small num) = true).
      { rewrite E, !all_tag_app, all_tag_zeros, hex_eq, all_tag_hex. reflexivity. }
      assert (U : has_under num = false).
      { rewrite <- under_small, E, !under_app, under_zeros, hex_eq, under_hex. reflexivity. }
      repeat split.
      + apply all_tag_small, AT.
      + intros ->. discriminate E.
      + rewrite <- (parse_small num U), E. apply parse_hex, B. }
  destruct AT as (AT & NE & PU). rewrite (tag_find_app pre num post AT NE P), PU. reflexivity.
Qed.

(** ** Comments *)

Lemma strip_carries ind l s : strip ("//+" ++ ind ++ ":") l = Some s -> carries ind l s.
Proof. intros H. apply strip_inv in H. left. rewrite H. cbn [append]. now rewrite sapp_assoc. Qed.

Lemma strip_carries2 ind l s : strip ("// +" ++ ind ++ ":") l = Some s -> carries ind l s.
Proof. intros H. apply strip_inv in H. right. rewrite H. cbn [append]. now rewrite sapp_assoc. Qed.

Lemma parse_doc_skip ind a d : (forall x, In x a -> forall t, ~ carries ind x t) ->
  parse_doc ind (a ++ d)%list = parse_doc ind d.
Proof.
  induction a as [|x a IH]; intros H; [reflexivity|]. cbn [List.app parse_doc].
  destruct (strip ("//+" ++ ind ++ ":") x) as [s|] eqn:E1.
  { exfalso. apply (H x (or_introl eq_refl) s). now apply strip_carries. }
  destruct (strip ("// +" ++ ind ++ ":") x) as [s|] eqn:E2.
  { exfalso. apply (H x (or_introl eq_refl) s). now apply strip_carries2. }
  apply IH. intros y Y. apply H. now right.
Qed.

Lemma parse_doc_none ind d : no_note ind d -> parse_doc ind d = "".
Proof.
  intros H. rewrite <- (app_nil_r d), parse_doc_skip; [reflexivity|].
  intros x X t. now apply H.
Qed.

Lemma parse_doc_first ind d s : first_note ind d s -> parse_doc ind d = s.
Proof.
  intros (a & l & b & -> & C & NA). rewrite (parse_doc_skip ind a _ NA). cbn [parse_doc].
  destruct C as [->| ->].
  - replace ("//+" ++ ind ++ ":" ++ s) with (("//+" ++ ind ++ ":") ++ s) by now rewrite !sapp_assoc.
    now rewrite strip_app.
  - replace (strip ("//+" ++ ind ++ ":") ("// +" ++ ind ++ ":" ++ s)) with (@None string) by reflexivity.
    replace ("// +" ++ ind ++ ":" ++ s) with (("// +" ++ ind ++ ":") ++ s) by now rewrite !sapp_assoc.
    now rewrite strip_app.
Qed.

(** ** The table of field classes *)

Lemma strip_both k k' s : strip k s <> None -> strip k' s <> None ->
  strip k k' <> None \/ strip k' k <> None.
Proof.
  revert k' s; induction k as [|a k IH]; intros k' s H H'.
  - left. discriminate.
  - destruct k' as [|a' k']; [right; discriminate|].
    destruct s as [|b s]; [now elim H|]. cbn [strip] in *.
    destruct (Ascii.eqb_spec a b) as [->|]; [|now elim H].
    destruct (Ascii.eqb_spec a' b) as [->|]; [|now elim H'].
    rewrite Ascii.eqb_refl. exact (IH k' s H H').
Qed.

Definition apart (x y : string * fclass) : bool :=
  match strip (fst x) (fst y), strip (fst y) (fst x) with None, None => true | _, _ => false end.

Lemma table_apart : forall x y, In x class_table -> In y class_table ->
  snd x = snd y \/ apart x y = true.
Proof.
  assert (F : forallb (fun x => forallb (fun y => (fst x =? fst y) || apart x y) class_table) class_table = true)
    by (vm_compute; reflexivity).
  assert (U : forall x y, In x class_table -> In y class_table -> (fst x =? fst y) = true -> snd x = snd y).
  { intros x y X Y E. apply String.eqb_eq in E.
    cbn in X, Y. repeat destruct X as [X|X]; try contradiction; subst x;
      repeat destruct Y as [Y|Y]; try contradiction; subst y; cbn in E |- *; (reflexivity || discriminate). }
  intros x y X Y. rewrite forallb_forall in F. pose proof (F x X) as Fx. cbn beta in Fx.
  rewrite forallb_forall in Fx. pose proof (Fx y Y) as Fy. cbn beta in Fy.
  apply orb_prop in Fy as [E|E]; [left; now apply U|now right].
Qed.

Lemma find_class_some tbl cls f : find_class tbl cls = Some f ->
  exists k, In (k, f) tbl /\ strip k cls <> None.
Proof.
  induction tbl as [|[k g] r IH]; cbn [find_class]; [discriminate|].
  destruct (strip k cls) eqn:E.
  - intros [= <-]. exists k. split; [now left|]. rewrite E. discriminate.
  - intros H. destruct (IH H) as (k' & I' & S'). exists k'. split; [now right|exact S'].
Qed.

Lemma find_class_none tbl cls k f : In (k, f) tbl -> strip k cls <> None -> find_class tbl cls <> None.
Proof.
  induction tbl as [|[k' g] r IH]; [intros []|]. intros [E|I'] ST; cbn [find_class].
  - injection E as -> ->. destruct (strip k cls); [discriminate|contradiction].
  - destruct (strip k' cls); [discriminate|]. now apply IH.
Qed.

Lemma find_class_order tbl cls : Permutation tbl class_table -> find_class tbl cls = find_class class_table cls.
Proof.
  intros P. destruct (find_class tbl cls) as [f|] eqn:E1; destruct (find_class class_table cls) as [g|] eqn:E2; trivial.
  - apply find_class_some in E1 as (k & I1 & S1). apply find_class_some in E2 as (k' & I2 & S2).
    apply (Permutation_in _ P) in I1.
    destruct (table_apart _ _ I1 I2) as [E|A]; [cbn in E; now rewrite E|].
    exfalso. unfold apart in A. cbn [fst] in A.
    destruct (strip_both k k' cls S1 S2) as [X|X]; [destruct (strip k k'); [discriminate|now elim X]|].
    destruct (strip k k'); [discriminate|]. destruct (strip k' k); [discriminate|now elim X].
  - apply find_class_some in E1 as (k & I1 & S1). apply (Permutation_in _ P) in I1.
    now elim (find_class_none _ _ _ _ I1 S1).
  - apply find_class_some in E2 as (k & I1 & S1).
    apply (Permutation_in _ (Permutation_sym P)) in I1.
    now elim (find_class_none _ _ _ _ I1 S1).
Qed.

(** ** Fields *)

Lemma splitn_shorter c n s x l : splitn n c s = x :: l ->
  forall y, In y l -> (String.length y < String.length s)%nat.
Proof.
  revert s x l; induction n as [|n IH]; intros s x l H y Y; [discriminate|].
  destruct n as [|n]; [injection H as <- <-; contradiction|].
  change (splitn (S (S n)) c s) with
    (match cut c s with Some (x, y) => x :: splitn (S n) c y | None => [s] end) in H.
  destruct (cut c s) as [[a b]|] eqn:C; [|injection H as <- <-; contradiction].
  assert (HL : l = splitn (S n) c b) by congruence. clear H. subst l.
  apply cut_some in C as [-> _]. rewrite slen_app. cbn [String.length].
  destruct (splitn (S n) c b) as [|z r] eqn:E; [contradiction|].
  destruct Y as [<-|Y].
  - assert (L : (String.length z <= String.length b)%nat).
    { cbn [splitn] in E. destruct n as [|n]; [injection E as <- _; lia|].
      destruct (cut c b) as [[u v]|] eqn:C2; [|injection E as <- _; lia].
      injection E as <- _. apply cut_some in C2 as [-> _]. rewrite slen_app. lia. }
    lia.
  - pose proof (IH b z r E y Y). lia.
Qed.

(** Neither the order of the map nor the bound matters. *)
Lemma create_same ord1 ord2 : any_order ord1 -> any_order ord2 ->
  forall f1 f2 cls ann nc, (String.length ann < f1)%nat -> (String.length ann < f2)%nat ->
  create ord1 f1 cls ann nc = create ord2 f2 cls ann nc.
Proof.
  intros O1 O2 f1. induction f1 as [|f1 IH]; intros f2 cls ann nc H1 H2; [lia|].
  destruct f2 as [|f2]; [lia|]. cbn [create].
  rewrite (find_class_order _ cls (O1 (S f1) cls ann)), (find_class_order _ cls (O2 (S f2) cls ann)).
  destruct (find_class class_table cls) as [[]|]; try reflexivity.
  - destruct (splitn 3 colon ann) as [|ty [|c' r]] eqn:E; try reflexivity.
    assert (L : (String.length (match r with a :: _ => a | [] => "" end) < String.length ann)%nat).
    { destruct r as [|a r].
      - pose proof (splitn_shorter _ _ _ _ _ E c' (or_introl eq_refl)). cbn [String.length]. lia.
      - apply (splitn_shorter _ _ _ _ _ E). right; now left. }
    rewrite (IH f2 c' (match r with a :: _ => a | [] => "" end) nc); [reflexivity|lia|lia].
  - destruct (splitn 6 colon ann) as [|kty [|kcls [|num [|vty [|vcls r]]]]] eqn:E; try reflexivity.
    destruct (parse_uint num) as [vn|]; [|reflexivity].
    assert (L : (String.length (match r with a :: _ => a | [] => "" end) < String.length ann)%nat).
    { destruct r as [|a r].
      - pose proof (splitn_shorter _ _ _ _ _ E kcls (or_introl eq_refl)). cbn [String.length]. lia.
      - apply (splitn_shorter _ _ _ _ _ E). do 4 right. now left. }
    cbv zeta.
    rewrite (IH f2 vcls (match r with a :: _ => a | [] => "" end) nc); [|lia|lia].
    rewrite (IH f2 kcls (match r with a :: _ => a | [] => "" end) nc); [reflexivity|lia|lia].
Qed.

Lemma parse_field_same ord1 ord2 name tn s nc : any_order ord1 -> any_order ord2 ->
  parse_field ord1 name tn s nc = parse_field ord2 name tn s nc.
Proof.
  intros O1 O2. unfold parse_field. destruct (cut colon s) as [[c a]|];
  (rewrite (create_same ord1 ord2 O1 O2 _ (S (String.length a)) c a nc) || rewrite (create_same ord1 ord2 O1 O2 _ (S (String.length "")) s "" nc)); try reflexivity; lia.
Qed.

Lemma in_order : any_order (fun _ _ _ => class_table).
Proof. intros f c a. apply Permutation_refl. Qed.

Lemma word_colon k : without colon (word k).
Proof. destruct k; cbn; repeat split; discriminate. Qed.

Lemma hex_colon n : without colon (hex n).
Proof.
  rewrite hex_eq. induction (N.to_hex_uint n); cbn [HexadecimalString.NilEmpty.string_of_uint without];
    [exact I|..]; (split; [discriminate|assumption]).
Qed.

(** the two last pieces of an annotation that ends with a word and arguments *)
Lemma splitn_word n k a : splitn (S (S n)) colon (with_args (word k) a)
  = word k :: (if is_nil a then [] else splitn (S n) colon a).
Proof.
  unfold with_args. destruct (is_nil a) eqn:E.
  - apply splitn_none, word_colon.
  - change (":" ++ a) with (String colon a). apply splitn_app, word_colon.
Qed.

Lemma last_arg (a : string) :
  match (if is_nil a then [] else splitn 1 colon a) with x :: _ => x | [] => "" end = a.
Proof. destruct a; reflexivity. Qed.

Lemma eqb_args_opt o : ((if o : bool then "optional" else "") =? "optional") = o.
Proof. destruct o; reflexivity. Qed.

Lemma create_writes nc : forall k f, (String.length (args k) < f)%nat -> writable nc k ->
  create (fun _ _ _ => class_table) f (word k) (args k) nc = Some k.
Proof.
  induction k as [o|w o|o| |o| | | |ty| |a b|ty s IH|ty inner|a b|b|kty key IHk n vty val IHv];
    intros f L W; (destruct f as [|f]; [lia|]); cbn [create word args];
    match goal with |- context [find_class class_table ?c] =>
      let x := eval vm_compute in (find_class class_table c) in
      replace (find_class class_table c) with x by reflexivity end; cbv iota.
  - now rewrite eqb_args_opt.
  - cbn [writable] in W. destruct W as [->|[->|[->| ->]]]; destruct o; reflexivity.
  - now rewrite eqb_args_opt.
  - reflexivity.
  - now rewrite eqb_args_opt.
  - reflexivity.
  - reflexivity.
  - reflexivity.
  - reflexivity.
  - reflexivity.
  - cbn [writable] in W. destruct W as [[A1 A2] [B1 B2]].
    change (a ++ ":" ++ b) with (a ++ String colon b).
    rewrite (split_app colon a b A2), (split_none colon b B2), (is_nil_false _ A1), (is_nil_false _ B1). reflexivity.
  - cbn [writable] in W. destruct W as [T W].
    change (ty ++ ":" ++ with_args (word s) (args s)) with (ty ++ String colon (with_args (word s) (args s))).
    rewrite (splitn_app 1 colon ty _ T), (splitn_word 0 s (args s)). cbv iota.
    rewrite last_arg. rewrite IH; [reflexivity| |exact W].
    cbn [args] in L. rewrite !slen_app in L. unfold with_args in L. cbn [String.length] in L.
    destruct (is_nil (args s)) eqn:E.
    + destruct (args s); [cbn [String.length]; lia|discriminate].
    + rewrite !slen_app in L. cbn [String.length] in L. lia.
  - cbn [writable] in W. destruct W as [[T1 T2] I']. destruct inner.
    + change (ty ++ ":nocopy") with (ty ++ String colon "nocopy").
      rewrite is_nil_app_cons, (split_app colon ty _ T2). cbn. rewrite (I' eq_refl). reflexivity.
    + rewrite sapp_nil_r, (is_nil_false _ T1), (split_none colon ty T2). reflexivity.
  - cbn [writable] in W. destruct W as [[A1 A2] [B1 B2]].
    change (a ++ ":" ++ b) with (a ++ String colon b).
    rewrite (split_app colon a b A2), (split_none colon b B2), (is_nil_false _ A1), (is_nil_false _ B1). reflexivity.
  - cbn [writable] in W. now rewrite (is_nil_false _ W).
  - cbn [writable] in W. destruct W as (K & V & NB & WK & WV & FIT).
    cbn [args] in L.
    change (kty ++ ":" ++ word key ++ ":0x" ++ hex n ++ ":" ++ vty ++ ":" ++ with_args (word val) (args val))
      with (kty ++ String colon (word key ++ String colon (("0x" ++ hex n) ++
            String colon (vty ++ String colon (with_args (word val) (args val)))))) in L |- *.
    rewrite (splitn_app 4 colon kty _ K), (splitn_app 3 colon _ _ (word_colon key)),
      (splitn_app 2 colon _ _ (without_app colon "0x" (hex n) ltac:(cbn; repeat split; discriminate) (hex_colon n))),
      (splitn_app 1 colon vty _ V), (splitn_word 0 val (args val)).
    cbv iota zeta.
    change ("0x" ++ hex n) with ("0x" ++ zeros 0 ++ hex n). rewrite (parse_hex n 0 NB).
    rewrite last_arg.
    assert (LV : (String.length (args val) < f)%nat).
    { rewrite !slen_app in L. cbn [String.length] in L. rewrite !slen_app in L. cbn [String.length] in L.
      rewrite !slen_app in L. cbn [String.length] in L. rewrite !slen_app in L. cbn [String.length] in L.
      unfold with_args in L. destruct (is_nil (args val)) eqn:E.
      - destruct (args val); [cbn [String.length]; lia|discriminate].
      - rewrite !slen_app in L. cbn [String.length] in L. lia. }
    rewrite (IHv f LV WV).
    destruct FIT as [E|FIT].
    + rewrite <- E. rewrite (IHk f); [reflexivity|now rewrite E|exact WK].
    + destruct f as [|f]; [lia|].
      assert (NO : forall x, x <> "optional" -> (x =? "optional") = false) by (intros x; apply String.eqb_neq).
      destruct key as [[]| |[]| |[]| | | | | | | | | | | ]; try contradiction; cbn [create word];
      match goal with |- context [find_class class_table ?c] =>
        let x := eval vm_compute in (find_class class_table c) in
        replace (find_class class_table c) with x by reflexivity end; cbv iota;
      try reflexivity; now rewrite (NO _ FIT).
Qed.

Lemma parse_field_text ord nc name tn k : any_order ord -> writable nc k ->
  parse_field ord name tn (text k) nc = Some (mkG name (type_of k tn) k).
Proof.
  intros O W. rewrite (parse_field_same ord _ name tn (text k) nc O in_order).
  unfold parse_field, text, with_args.
  assert (C : match cut colon (if is_nil (args k) then word k else word k ++ ":" ++ args k) with
              | Some p => p | None => (if is_nil (args k) then word k else word k ++ ":" ++ args k, "") end
              = (word k, args k)).
  { destruct (is_nil (args k)) eqn:E.
    - rewrite (cut_none colon _ (word_colon k)). destruct (args k); [reflexivity|discriminate].
    - change (":" ++ args k) with (String colon (args k)). now rewrite (cut_app colon _ _ (word_colon k)). }
  rewrite C. rewrite (create_writes nc k (S (String.length (args k)))); [|lia|exact W].
  destruct k; reflexivity.
Qed.

Lemma text_not_nil k : is_nil (text k) = false.
Proof. unfold text, with_args. destruct (is_nil (args k)); destruct k; reflexivity. Qed.

(** ** Declarations *)

Lemma process_fields_says ord nc fs gs : any_order ord -> Forall2 (field_says nc) fs gs ->
  process_fields ord nc fs = List.concat gs.
Proof.
  intros O H. induction H as [|f g fs gs F _ IH]; [reflexivity|].
  cbn [process_fields List.concat].
  destruct F as [f NN|f E|f name k n E FN W T].
  - destruct (sf_names f); [exact IH|]. rewrite (parse_doc_none _ _ NN). exact IH.
  - now rewrite E.
  - rewrite E, (parse_doc_first _ _ _ FN), text_not_nil, (parse_tag_says _ _ T).
    rewrite (parse_field_text ord nc name n k O W), IH. reflexivity.
Qed.

Lemma process_options_say os : (forall o, In o os -> In o option_words) -> forall m,
  process_options m os =
  Ok (mkGM (gm_name m) (gm_private m || existsb (String.eqb "private") os)
           (gm_nocopy m || existsb (String.eqb "nocopy") os)
           (gm_dict m || existsb (String.eqb "dict") os)
           (gm_ordered m || existsb (String.eqb "ordered") os) (gm_fields m)).
Proof.
  induction os as [|o os IH]; intros H m.
  - cbn [process_options existsb]. rewrite !orb_false_r. destruct m; reflexivity.
  - cbn [process_options]. pose proof (H o (or_introl eq_refl)) as I'.
    assert (R : forall x, In x os -> In x option_words) by (intros x X; apply H; now right).
    cbn in I'. destruct I' as [<-|[<-|[<-|[<-|[]]]]];
      cbn [process_option existsb String.eqb Ascii.eqb Bool.eqb bind];
      unfold process_option; cbn [String.eqb Ascii.eqb Bool.eqb bind]; rewrite (IH R);
      cbn [gm_name gm_private gm_nocopy gm_dict gm_ordered gm_fields orb];
      rewrite ?orb_true_r, ?orb_false_l; f_equal.
Qed.

Lemma option_comma o : In o option_words -> without comma o.
Proof. cbn. intros [<-|[<-|[<-|[<-|[]]]]]; cbn; repeat split; discriminate. Qed.

Lemma split_concat os : os <> [] -> (forall o, In o os -> without comma o) ->
  split comma (String.concat "," os) = os.
Proof.
  induction os as [|o os IH]; intros NE H; [now elim NE|].
  destruct os as [|o2 os].
  - cbn [String.concat]. apply split_none, H. now left.
  - change (String.concat "," (o :: o2 :: os)) with (o ++ String comma (String.concat "," (o2 :: os))).
    rewrite (split_app comma o _ (H o (or_introl eq_refl))). f_equal.
    apply IH; [discriminate|]. intros x X. apply H. now right.
Qed.

Lemma concat_not_nil os : os <> [] -> (forall o, In o os -> In o option_words) ->
  is_nil (String.concat "," os) = false.
Proof.
  destruct os as [|o os]; [now intros H|]. intros _ H.
  pose proof (H o (or_introl eq_refl)) as I'. cbn in I'.
  destruct I' as [<-|[<-|[<-|[<-|[]]]]]; destruct os; reflexivity.
Qed.

Lemma process_decl_says ord doc name rest os fs gs : any_order ord ->
  options_say doc os -> Forall2 (field_says (existsb (String.eqb "nocopy") os)) fs gs ->
  process_decl ord (mkDecl doc (mkSpec name (Some fs) :: rest)) = Ok (described name os (List.concat gs)).
Proof.
  intros O OS FS. unfold process_decl. cbn [d_specs d_doc ts_struct ts_name].
  destruct os as [|o os].
  - cbn [options_say] in OS. rewrite (parse_doc_none _ _ OS). cbn [is_nil bind gm_nocopy].
    rewrite (process_fields_says ord false fs gs O FS). destruct (List.concat gs); reflexivity.
  - destruct OS as [FN IN].
    rewrite (parse_doc_first _ _ _ FN), (concat_not_nil (o :: os) ltac:(discriminate) IN).
    rewrite (split_concat (o :: os) ltac:(discriminate) (fun x X => option_comma x (IN x X))).
    rewrite (process_options_say (o :: os) IN). cbn [bind gm_name gm_private gm_nocopy gm_dict gm_ordered orb].
    rewrite (process_fields_says ord _ fs gs O FS). destruct (List.concat gs); reflexivity.
Qed.

Lemma process_decl_same ord1 ord2 d : any_order ord1 -> any_order ord2 ->
  process_decl ord1 d = process_decl ord2 d.
Proof.
  intros O1 O2. unfold process_decl. destruct (d_specs d) as [|sp r]; [reflexivity|].
  destruct (ts_struct sp) as [fs|]; [|reflexivity]. cbv zeta.
  match goal with |- bind ?x _ = _ => destruct x as [m| | |] end; try reflexivity. cbn [bind].
  assert (E : process_fields ord1 (gm_nocopy m) fs = process_fields ord2 (gm_nocopy m) fs).
  { induction fs as [|f fs IH]; [reflexivity|]. cbn [process_fields]. rewrite IH.
    destruct (sf_names f); [reflexivity|]. destruct (is_nil (parse_doc "field" (sf_doc f))); [reflexivity|].
    now rewrite (parse_field_same ord1 ord2 _ _ _ _ O1 O2). }
  now rewrite E.
Qed.
