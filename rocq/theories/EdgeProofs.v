(** Exact acceptance conditions of the name readers, and of the text parsers at
    their edges (proofs for PropsEdge.v). *)
From Verif Require Import Base BaseProofs PrimModel PrimProofs ReaderModel ReaderSpec ReaderProofs ReaderProofs2 ReaderProofs3 ReaderProofs4 ReadInv
  NameModel NameProofs PropsNameProofs TextModel TextProofs TextProofs2 TextProofs3 StreamModel StreamProofs.

(** ** TLV numbers *)
Lemma tl_form_unique : forall x v y w s t, tl_form x v -> tl_form y w -> x ++ s = y ++ t -> x = y /\ v = w /\ s = t.
Proof.
  intros x v y w s t F G E.
  assert (A : forall (a b : buf) k, length a = k -> length b = k -> a ++ s = b ++ t -> a = b /\ s = t).
  { intros a b k <-. revert b. induction a as [|p a IH]; intros [|q b] L H; try discriminate; [auto|].
    cbn [app] in H. injection H as -> H. injection L as L. destruct (IH b L H) as [-> ->]. auto. }
  destruct F as [[-> ?]|[(b & -> & L & ->)|[(b & -> & L & ->)|(b & -> & L & ->)]]];
    destruct G as [[-> ?]|[(c & -> & M & ->)|[(c & -> & M & ->)|(c & -> & M & ->)]]];
    cbn [app] in E; try discriminate; try (injection E as E1 E; lia).
  - injection E as -> ->. auto.
  - injection E as E. destruct (A _ _ _ L M E) as [-> ->]; auto.
  - injection E as E. destruct (A _ _ _ L M E) as [-> ->]; auto.
  - injection E as E. destruct (A _ _ _ L M E) as [-> ->]; auto.
Qed.

Lemma read_tl_form : forall x v r pre s, tl_form x v -> bytes_ok x -> At r pre (x ++ s) ->
  exists r', read_tl r = (Ok v, r') /\ At r' (pre ++ x) s /\ (is_buf_reader r <-> is_buf_reader r').
Proof.
  intros x v r pre s F B A.
  assert (G : forall c b k, x = c :: b -> length b = k -> (k <= 8)%nat -> exists r1 r', r_read_byte r = (Ok c, r1) /\
    read_tl_loop k 0 r1 = (Ok (unbe b), r') /\ At r' (pre ++ x) s /\ (is_buf_reader r <-> is_buf_reader r')).
  { intros c b k -> <- K. cbn [app] in A. destruct (at_read_byte _ _ _ _ A) as (r1 & E1 & A1 & K1). inversion B as [|? ? Bc Bb]; subst.
    destruct (at_read_tl_loop b r1 (pre ++ [c]) s 0 A1 Bb) as (r' & E & A' & K').
    - lia.
    - pose proof (unbe_bound _ Bb) as U. unfold nlen in *. assert (256 ^ N.of_nat (length b) <= 256 ^ 8)%N by (apply N.pow_le_mono_r; lia).
      change (256 ^ 8)%N with two64 in H. lia.
    - rewrite N.mul_0_l, N.add_0_l in E. rewrite <- app_assoc in A'. exists r1, r'. split; auto. split; auto. split; auto. tauto. }
  unfold read_tl. destruct F as [[-> L]|[(b & -> & L & ->)|[(b & -> & L & ->)|(b & -> & L & ->)]]].
  - cbn [app] in A. destruct (at_read_byte _ _ _ _ A) as (r1 & -> & A1 & K1). destruct (N.leb_spec v 252); [|lia]. exists r1. auto.
  - destruct (G _ b 2%nat eq_refl L) as (r1 & r' & -> & E & A' & K); [lia|]. exists r'. auto.
  - destruct (G _ b 4%nat eq_refl L) as (r1 & r' & -> & E & A' & K); [lia|]. exists r'. auto.
  - destruct (G _ b 8%nat eq_refl L) as (r1 & r' & -> & E & A' & K); [lia|]. exists r'. auto.
Qed.

(** ** Names *)
(** [x] are the bytes of the component [c]: type, length and value, the two
    numbers in any width *)
Definition component_bytes (c : comp) (x : buf) : Prop :=
  exists t l, x = t ++ l ++ cval c /\ tl_form t (ctyp c) /\ tl_form l (nlen (cval c)).
(** [b] is exactly a sequence of components *)
Definition name_value_bytes (n : name) (b : buf) : Prop :=
  exists xs, b = concat xs /\ Forall2 component_bytes n xs.

Lemma comp_bytes_pos : forall c x, component_bytes c x -> (2 <= length x)%nat.
Proof. intros c x (t & l & -> & T & L). apply tl_form_len in T, L. rewrite !app_length. lia. Qed.

Lemma comp_bytes_unique : forall c x d y s t, component_bytes c x -> component_bytes d y -> x ++ s = y ++ t -> c = d /\ x = y /\ s = t.
Proof.
  intros c x d y s t (t1 & l1 & -> & T1 & L1) (t2 & l2 & -> & T2 & L2) E. rewrite <- !app_assoc in E.
  destruct (tl_form_unique _ _ _ _ _ _ T1 T2 E) as (-> & Ht & E1). destruct (tl_form_unique _ _ _ _ _ _ L1 L2 E1) as (-> & Hl & E2).
  assert (A : cval c = cval d /\ s = t).
  { assert (LL : length (cval c) = length (cval d)) by (unfold nlen in Hl; lia). clear - E2 LL. revert E2 LL. generalize (cval c) (cval d).
    intros a. induction a as [|p a IH]; intros [|q b] H L; try discriminate; [auto|].
    cbn [app] in H. injection H as -> H. injection L as L. destruct (IH b H L) as [-> ->]. auto. }
  destruct A as [A ->]. destruct c as [ct cv], d as [dt dv]; simpl in Ht, A; subst. auto.
Qed.

Lemma read_comp_form : forall c x r pre s, component_bytes c x -> bytes_ok x -> At r pre (x ++ s) -> is_buf_reader r ->
  exists r', read_comp r = (Ok c, r') /\ At r' (pre ++ x) s /\ is_buf_reader r'.
Proof.
  intros c x r pre s (t & l & -> & T & L) B A K. apply bytes_ok_app in B. destruct B as [B1 B]. apply bytes_ok_app in B. destruct B as [B2 B3].
  rewrite <- !app_assoc in A. unfold read_comp. destruct (read_tl_form _ _ _ _ _ T B1 A) as (r1 & -> & A1 & K1).
  destruct (read_tl_form _ _ _ _ _ L B2 A1) as (r2 & -> & A2 & K2).
  assert (Z : (zlen (cval c) < mem_limit)%Z) by (destruct A2 as [A2 _]; rewrite !zlen_app in A2; zl; lia).
  rewrite to_int_small by (unfold mem_limit, two63, zlen, nlen in *; lia).
  replace (Z.of_N (nlen (cval c))) with (zlen (cval c)) by (unfold zlen, nlen; lia).
  assert (KB : is_buf_reader r2) by tauto. destruct r2 as [b pos|]; [|destruct KB]. destruct A2 as [HL [-> ->]].
  cbn [r_read_buf]. rewrite wrap_small by (rewrite !zlen_app in *; zl; unfold mem_limit, Ztwo63 in *; lia).
  destruct (Z.ltb_spec (zlen (((pre ++ t) ++ l) ++ cval c ++ s)) (zlen ((pre ++ t) ++ l) + zlen (cval c))) as [Q|Q]; [rewrite !zlen_app in Q; zl; lia|].
  rewrite slice_app. eexists. split; [destruct c; reflexivity|]. split; [|exact I].
  split; [rewrite <- !app_assoc in *; exact HL|]. split; [rewrite <- !app_assoc; reflexivity|rewrite !zlen_app; lia].
Qed.

Lemma read_name_loop_form : forall n xs fuel r pre acc, Forall2 component_bytes n xs -> bytes_ok (concat xs) ->
  At r pre (concat xs) -> is_buf_reader r -> (length n < fuel)%nat ->
  exists r', read_name_loop fuel acc r = (Ok (acc ++ n), r') /\ At r' (pre ++ concat xs) [] /\ is_buf_reader r'.
Proof.
  intros n xs fuel r pre acc F. revert fuel r pre acc. induction F as [|c x n xs C F IH]; intros fuel r pre acc B A K L;
    (destruct fuel as [|fuel]; [simpl in L; lia|]); cbn [read_name_loop concat] in *.
  - destruct (read_comp_at_end _ _ A) as (r' & E & A' & SK). rewrite E. exists r'. rewrite !app_nil_r. split; auto. split; auto. apply SK; auto.
  - apply bytes_ok_app in B. destruct B as [B1 B2]. destruct (read_comp_form _ _ _ _ _ C B1 A K) as (r1 & -> & A1 & K1).
    destruct (IH fuel r1 (pre ++ x) (acc ++ [c]) B2 A1 K1) as (r2 & -> & A2 & K2); [simpl in L; lia|].
    exists r2. rewrite <- !app_assoc in *. auto.
Qed.

Lemma forall2_min : forall n xs, Forall2 component_bytes n xs -> (2 * length n <= length (concat xs))%nat.
Proof.
  induction 1 as [|c x n xs C F IH]; [simpl; lia|]. cbn [concat length]. rewrite app_length. apply comp_bytes_pos in C. lia.
Qed.

Lemma read_name_form : forall n b r pre, name_value_bytes n b -> bytes_ok b -> At r pre b -> is_buf_reader r ->
  exists r', read_name r = (Ok n, r') /\ At r' (pre ++ b) [] /\ is_buf_reader r'.
Proof.
  intros n b r pre (xs & -> & F) B A K. unfold read_name. assert (A0 := A). apply at_fuel in A0. pose proof (forall2_min _ _ F).
  destruct (read_name_loop_form n xs (reader_fuel r) r pre [] F B A K) as (r' & E & A' & K'); [lia|]. exists r'. auto.
Qed.

Lemma read_name_loop_exact : forall fuel r pre rem acc n r', At r pre rem -> is_buf_reader r -> bytes_ok rem ->
  read_name_loop fuel acc r = (Ok n, r') -> exists m, n = acc ++ m /\ name_value_bytes m rem /\ At r' (pre ++ rem) [] /\ is_buf_reader r'.
Proof.
  induction fuel; intros r pre rem acc n r' A K B E; cbn [read_name_loop] in E; [discriminate|].
  destruct (read_comp r) as [[c|[]| |] r1] eqn:E1; try discriminate.
  - destruct (read_comp_inv _ _ _ _ _ A K B E1) as (x1 & x2 & s & -> & F1 & F2 & A1 & K1).
    assert (B1 : bytes_ok s) by (apply bytes_ok_app in B; destruct B as [_ B]; apply bytes_ok_app in B; destruct B as [_ B]; apply bytes_ok_app in B; tauto).
    destruct (IHfuel _ _ _ _ _ _ A1 K1 B1 E) as (m & -> & (xs & -> & F) & A2 & K2).
    exists (c :: m). rewrite <- app_assoc. split; auto. split.
    + exists ((x1 ++ x2 ++ cval c) :: xs). cbn [concat]. rewrite <- !app_assoc. split; auto. constructor; auto. exists x1, x2. auto.
    + rewrite <- !app_assoc in A2. auto.
  - injection E as <- <-. unfold read_comp in E1.
    destruct (read_tl_total _ _ _ A B) as [(t & x1 & s1 & q1 & -> & F1 & T1 & A1 & K1)|(q1 & T1)]; rewrite T1 in E1.
    + destruct (read_tl q1) as [[l|e| |] q2] eqn:T2; try discriminate.
      * assert (B1 : bytes_ok s1) by (apply bytes_ok_app in B; tauto).
        destruct (read_tl_inv _ _ _ _ _ A1 B1 T2) as (x2 & s2 & -> & F2 & A2 & K2).
        assert (KB : is_buf_reader q2) by tauto. destruct q2 as [bb pos|]; [|destruct KB]. cbn [r_read_buf] in E1.
        destruct (_ <? _)%Z; [discriminate|]. destruct (slice _ _ _); discriminate.
      * destruct e; discriminate.
    + destruct rem; [|discriminate]. injection E1 as <-. exists []. rewrite !app_nil_r. split; auto. split; [exists []; auto|].
      assert (KB := K). destruct r as [bb pos|]; [|destruct K]. unfold read_tl in T1. destruct (at_read_byte_eof _ _ A) as (r2 & E2 & A2 & K2). rewrite E2 in T1. injection T1 as <-. split; [exact A2|]. tauto.
Qed.

Lemma at_new : forall b, (zlen b < mem_limit)%Z -> At (new_buffer_reader b) [] b.
Proof. intros. apply at_new_buf. auto. Qed.

Lemma read_name_iff : forall b n, bytes_ok b -> (zlen b < mem_limit)%Z ->
  ((exists r, read_name (new_buffer_reader b) = (Ok n, r)) <-> name_value_bytes n b).
Proof.
  intros b n B L. split.
  - intros (r & E). destruct (read_name_loop_exact _ _ _ _ _ _ _ (at_new b L) I B E) as (m & -> & H & _). exact H.
  - intros H. destruct (read_name_form _ _ _ _ H B (at_new b L) I) as (r & E & _). eauto.
Qed.

Lemma name_from_bytes_iff : forall b n, bytes_ok b -> (zlen b < mem_limit)%Z ->
  (name_from_bytes b = Ok n <-> exists t l v, b = t ++ l ++ v /\ tl_form t TypeName /\ tl_form l (nlen v) /\ name_value_bytes n v).
Proof.
  intros b n B L. split.
  - unfold name_from_bytes. intros E. destruct (read_tl (new_buffer_reader b)) as [[t|e| |] r1] eqn:T1; try discriminate.
    destruct (read_tl_inv _ _ _ _ _ (at_new b L) B T1) as (x1 & s1 & -> & F1 & A1 & K1).
    destruct (N.eqb_spec t TypeName) as [->|]; [|discriminate].
    destruct (read_tl r1) as [[l|e| |] r2] eqn:T2; try discriminate. apply bytes_ok_app in B. destruct B as [B1 B].
    destruct (read_tl_inv _ _ _ _ _ A1 B T2) as (x2 & s2 & -> & F2 & A2 & K2).
    apply bytes_ok_app in B. destruct B as [B2 B].
    rewrite (at_pos _ _ _ A2) in E. cbn [bind] in E.
    destruct (read_name r2) as [[m|e| |] r3] eqn:E3; try discriminate.
    assert (K : is_buf_reader r2) by (apply K2, K1; exact I).
    destruct (read_name_loop_exact _ _ _ _ _ _ _ A2 K B E3) as (m' & -> & H & A3 & K3). cbn [app] in *.
    rewrite (at_length _ _ _ A3) in E. cbn [bind] in E. destruct (Z.eqb_spec (to_int l) (zlen ((((x1 ++ x2) ++ s2) ++ [])) - zlen (x1 ++ x2))) as [Q|]; [|discriminate].
    injection E as <-. exists x1, x2, s2. split; auto. split; auto. split; auto.
    assert (U := tl_form_u64 _ _ B2 F2). rewrite app_nil_r, !zlen_app in Q.
    replace (nlen s2) with l; auto. unfold to_int in Q. unfold u64_ok in U. unfold zlen, nlen in *.
    destruct (N.ltb_spec l two63); unfold two63, two64, Ztwo64 in *; lia.
  - intros (t & l & v & -> & F1 & F2 & H). unfold name_from_bytes. apply bytes_ok_app in B. destruct B as [B1 B]. apply bytes_ok_app in B. destruct B as [B2 B].
    destruct (read_tl_form _ _ _ _ _ F1 B1 (at_new _ L)) as (r1 & -> & A1 & K1). rewrite N.eqb_refl.
    destruct (read_tl_form _ _ _ _ _ F2 B2 A1) as (r2 & -> & A2 & K2). rewrite (at_pos _ _ _ A2). cbn [bind].
    destruct (read_name_form _ _ _ _ H B A2) as (r3 & -> & A3 & K3); [apply K2, K1; exact I|].
    rewrite (at_length _ _ _ A3). cbn [bind]. rewrite to_int_small by (rewrite !zlen_app in L; unfold mem_limit, two63, zlen, nlen in *; lia).
    rewrite app_nil_r, !zlen_app. match goal with |- (if ?c then _ else _) = _ => assert (QQ : c = true) end; [|rewrite QQ; reflexivity].
    apply Z.eqb_eq. unfold zlen, nlen. cbn [length]. lia.
Qed.

(** ** Cut names *)
Lemma name_value_app : forall n b m x, name_value_bytes n b -> component_bytes m x -> name_value_bytes (n ++ [m]) (b ++ x).
Proof.
  intros n b m x (xs & -> & F) C. exists (xs ++ [x]). rewrite concat_app. cbn [concat]. rewrite app_nil_r. split; auto. apply Forall2_app; auto.
Qed.

Lemma name_value_cut : forall n xs m p c x, Forall2 component_bytes n xs -> component_bytes c x ->
  (exists q, p ++ q = x /\ p <> [] /\ q <> []) -> ~ name_value_bytes m (concat xs ++ p).
Proof.
  intros n xs m p c x F. revert m. induction F as [|d y n xs C F IH]; intros m Cx (q & E & P & Q) (zs & Z & G).
  - cbn [concat app] in Z. subst p. destruct G as [|d y m zs D G]; [auto|]. cbn [concat] in E. rewrite <- app_assoc in E.
    assert (E2 : y ++ (concat zs ++ q) = x ++ []) by (rewrite app_nil_r; auto). destruct (comp_bytes_unique _ _ _ _ _ _ D Cx E2) as (_ & _ & N0).
    apply app_eq_nil in N0. tauto.
  - cbn [concat] in Z. rewrite <- app_assoc in Z. destruct G as [|e z m zs D G].
    + cbn [concat] in Z. apply comp_bytes_pos in C. apply (f_equal (@length N)) in Z. rewrite app_length in Z. cbn [length] in Z. lia.
    + cbn [concat] in Z. destruct (comp_bytes_unique _ _ _ _ _ _ C D Z) as (_ & _ & Z2). apply (IH m Cx); [exists q; auto|]. exists zs. auto.
Qed.

Lemma cut_cases : forall (p q a b : buf), p ++ q = a ++ b -> (exists z, a = p ++ z /\ z <> []) \/ exists p', p = a ++ p' /\ p' ++ q = b.
Proof.
  induction p as [|x p IH]; intros q a b E.
  - destruct a as [|y a]; [right; exists []; auto|]. left. exists (y :: a). split; [reflexivity|discriminate].
  - destruct a as [|y a]; [right; exists (x :: p); auto|]. cbn [app] in E. injection E as -> E.
    destruct (IH q a b E) as [(z & -> & Z)|(p' & -> & E2)]; [left; exists z; auto|right; exists p'; auto].
Qed.

Lemma read_tl_cut : forall x v p z r pre, tl_form x v -> x = p ++ z -> z <> [] -> At r pre p -> bytes_ok p ->
  exists r', read_tl r = (Err (match p with [] => EEOF | _ => EUnexpectedEOF end), r').
Proof.
  intros x v p z r pre F E Z A B. destruct (read_tl_total _ _ _ A B) as [(w & y & s & r1 & -> & G & _)|H]; [|exact H].
  rewrite <- app_assoc in E. assert (E2 : x ++ [] = y ++ (s ++ z)) by (rewrite app_nil_r; exact E).
  destruct (tl_form_unique _ _ _ _ _ _ F G E2) as (_ & _ & H). symmetry in H. apply app_eq_nil in H. tauto.
Qed.

Lemma read_comp_cut : forall c x p q r pre, component_bytes c x -> x = p ++ q -> p <> [] -> q <> [] -> At r pre p -> is_buf_reader r -> bytes_ok p -> (zlen x < mem_limit)%Z ->
  exists r', read_comp r = (Err EUnexpectedEOF, r').
Proof.
  intros c x p q r pre (t & l & -> & T & L) E P Q A K B ML. unfold read_comp. symmetry in E. destruct (cut_cases _ _ _ _ E) as [(z & E1 & Z)|(p' & -> & E1)].
  { destruct (read_tl_cut _ _ _ _ _ _ T E1 Z A B) as (r1 & ->). destruct p; [congruence|]. eauto. }
  apply bytes_ok_app in B. destruct B as [B1 B]. destruct (read_tl_form _ _ _ _ _ T B1 A) as (r1 & -> & A1 & K1).
  destruct (cut_cases _ _ _ _ E1) as [(z & E2 & Z)|(p2 & -> & E2)].
  { destruct (read_tl_cut _ _ _ _ _ _ L E2 Z A1 B) as (r2 & ->). destruct p'; eauto. }
  apply bytes_ok_app in B. destruct B as [B2 B]. destruct (read_tl_form _ _ _ _ _ L B2 A1) as (r2 & -> & A2 & K2).
  rewrite !zlen_app in ML. rewrite to_int_small by (zl; unfold mem_limit, two63, zlen, nlen in *; lia).
  assert (KB : is_buf_reader r2) by tauto. destruct r2 as [b pos|]; [|destruct KB]. destruct A2 as [HL [-> ->]].
  assert (ZQ : (0 < zlen q)%Z) by (destruct q; [congruence|unfold zlen; cbn [length]; lia]).
  replace (Z.of_N (nlen (cval c))) with (zlen (cval c)) by (unfold zlen, nlen; lia). rewrite <- E2 in *.
  cbn [r_read_buf]. rewrite wrap_small by (rewrite !zlen_app in *; zl; unfold mem_limit, Ztwo63 in *; lia).
  match goal with |- context [if ?c then _ else _] => assert (QQ : c = true) end; [|rewrite QQ; eauto].
  apply Z.ltb_lt. rewrite !zlen_app in *. lia.
Qed.

(** A cut in the middle of a component is an error, a cut between two components
    gives the name up to there. *)
Lemma read_name_loop_cut : forall n xs c x p q fuel r pre acc, Forall2 component_bytes n xs -> component_bytes c x -> x = p ++ q -> p <> [] -> q <> [] ->
  At r pre (concat xs ++ p) -> is_buf_reader r -> bytes_ok (concat xs ++ p) -> (zlen x < mem_limit)%Z -> (length n < fuel)%nat ->
  exists r', read_name_loop fuel acc r = (Err EUnexpectedEOF, r').
Proof.
  intros n xs c x p q fuel r pre acc F. revert fuel r pre acc. induction F as [|d y n xs C F IH]; intros fuel r pre acc Cx E P Q A K B ML LF;
    (destruct fuel as [|fuel]; [simpl in LF; lia|]); cbn [read_name_loop concat app] in *.
  - destruct (read_comp_cut _ _ _ _ _ _ Cx E P Q A K B ML) as (r' & ->). eauto.
  - rewrite <- app_assoc in *. apply bytes_ok_app in B. destruct B as [B1 B]. destruct (read_comp_form _ _ _ _ _ C B1 A K) as (r1 & -> & A1 & K1).
    apply (IH fuel r1 (pre ++ y) (acc ++ [d])); auto. cbn [length] in LF. lia.
Qed.

Lemma read_name_cut : forall n xs c x p q r pre, Forall2 component_bytes n xs -> component_bytes c x -> x = p ++ q -> p <> [] -> q <> [] ->
  At r pre (concat xs ++ p) -> is_buf_reader r -> bytes_ok (concat xs ++ p) -> (zlen x < mem_limit)%Z ->
  exists r', read_name r = (Err EUnexpectedEOF, r').
Proof.
  intros n xs c x p q r pre F C E P Q A K B ML. unfold read_name. assert (A0 := A). apply at_fuel in A0. pose proof (forall2_min _ _ F). rewrite app_length in A0.
  exact (read_name_loop_cut n xs c x p q (reader_fuel r) r pre [] F C E P Q A K B ML ltac:(lia)).
Qed.

Lemma name_value_split : forall n xs v q, Forall2 component_bytes n xs -> v ++ q = concat xs -> q <> [] ->
  exists n1 xs1 c x p1 p2, Forall2 component_bytes n1 xs1 /\ component_bytes c x /\ x = p1 ++ p2 /\ p2 <> [] /\ v = concat xs1 ++ p1 /\ (zlen x <= zlen (concat xs))%Z.
Proof.
  intros n xs v q F. revert v. induction F as [|d y n xs C F IH]; intros v E Q.
  - cbn [concat] in E. apply app_eq_nil in E. tauto.
  - cbn [concat] in E. destruct (cut_cases _ _ _ _ E) as [(z & E1 & Z)|(p' & -> & E1)].
    + exists [], [], d, y, v, z. split; [constructor|]. split; auto. split; auto. split; auto. split; [reflexivity|]. cbn [concat]. rewrite zlen_app. zl; lia.
    + destruct (IH p' E1 Q) as (n1 & xs1 & c & x & p1 & p2 & F1 & Cx & Ex & P2 & -> & ZL). exists (d :: n1), (y :: xs1), c, x, p1, p2.
      split; [constructor; auto|]. split; auto. split; auto. split; auto. split; [cbn [concat]; rewrite app_assoc; reflexivity|]. cbn [concat]. rewrite zlen_app. zl; lia.
Qed.

Lemma name_from_bytes_cut : forall p q n, bytes_ok (p ++ q) -> (zlen (p ++ q) < mem_limit)%Z -> q <> [] ->
  name_from_bytes (p ++ q) = Ok n -> exists e, name_from_bytes p = Err e.
Proof.
  intros p q n B L Q E. apply name_from_bytes_iff in E; auto. destruct E as (t & l & v & E & T & LF & (xs & -> & F)).
  assert (Bp : bytes_ok p) by (apply bytes_ok_app in B; tauto).
  assert (Lp : (zlen p < mem_limit)%Z) by (rewrite zlen_app in L; zl; lia). unfold name_from_bytes.
  assert (Lx : (zlen (concat xs) < mem_limit)%Z) by (rewrite E, !zlen_app in L; zl; lia).
  destruct (cut_cases _ _ _ _ E) as [(z & E1 & Z)|(p' & -> & E1)].
  { destruct (read_tl_cut _ _ _ _ _ _ T E1 Z (at_new p Lp) Bp) as (r1 & ->). destruct p; eauto. }
  apply bytes_ok_app in Bp. destruct Bp as [B1 Bp]. destruct (read_tl_form _ _ _ _ _ T B1 (at_new _ Lp)) as (r1 & -> & A1 & K1). rewrite N.eqb_refl.
  destruct (cut_cases _ _ _ _ E1) as [(z & E2 & Z)|(p2 & -> & E2)].
  { destruct (read_tl_cut _ _ _ _ _ _ LF E2 Z A1 Bp) as (r2 & ->). destruct p'; eauto. }
  apply bytes_ok_app in Bp. destruct Bp as [B2 Bp]. destruct (read_tl_form _ _ _ _ _ LF B2 A1) as (r2 & -> & A2 & K2). rewrite (at_pos _ _ _ A2). cbn [bind].
  assert (KB : is_buf_reader r2) by (apply K2, K1; exact I).
  destruct (name_value_split _ _ _ _ F E2 Q) as (n1 & xs1 & c & x & p1 & q1 & F1 & Cx & -> & Q1 & -> & ZL).
  destruct p1 as [|b1 p1].
  - rewrite app_nil_r in *. destruct (read_name_form n1 (concat xs1) r2 _ ltac:(exists xs1; auto) Bp A2 KB) as (r3 & -> & A3 & K3).
    rewrite (at_length _ _ _ A3). cbn [bind]. rewrite to_int_small by (unfold mem_limit, two63, zlen, nlen in *; lia).
    match goal with |- context [if ?c then _ else _] => assert (QQ : c = false) end; [|rewrite QQ; eauto].
    apply Z.eqb_neq. rewrite <- E2. rewrite !app_nil_r, !zlen_app. replace (Z.of_N (nlen (concat xs1 ++ q))) with (zlen (concat xs1 ++ q)) by (unfold zlen, nlen; lia).
    rewrite zlen_app. assert (0 < zlen q)%Z by (destruct q; [congruence|unfold zlen; cbn [length]; lia]). lia.
  - destruct (read_name_cut _ _ _ _ _ _ _ _ F1 Cx eq_refl ltac:(discriminate) Q1 A2 KB Bp ltac:(lia)) as (r3 & ->). eauto.
Qed.

(** ** Full names *)
Lemma full_name_plain : forall sha n c raw, ctyp c <> TypeImplicitSha256Digest ->
  to_full_name sha (n ++ [c]) raw = Ok ((n ++ [c]) ++ [mkComp TypeImplicitSha256Digest (sha (concat raw))]).
Proof.
  intros. unfold to_full_name. rewrite rev_app_distr. cbn [rev app]. destruct (N.eqb_spec (ctyp c) TypeImplicitSha256Digest); [contradiction|reflexivity].
Qed.
Lemma full_name_full : forall sha n c raw, ctyp c = TypeImplicitSha256Digest -> to_full_name sha (n ++ [c]) raw = Ok (n ++ [c]).
Proof. intros. unfold to_full_name. rewrite rev_app_distr. cbn [rev app]. rewrite H, N.eqb_refl. reflexivity. Qed.

(** ** Text *)
Lemma hex_from_str_even : forall s v, hex_from_str s = Ok v -> length s = (2 * length v)%nat.
Proof.
  assert (G : forall k s v, (length s <= k)%nat -> hex_from_str s = Ok v -> length s = (2 * length v)%nat).
  { induction k; intros s v L E.
    - destruct s; [injection E as <-; reflexivity|simpl in L; lia].
    - destruct s as [|a [|b s]]; cbn [hex_from_str] in E; [injection E as <-; reflexivity|discriminate|].
      destruct (parse_hex2 a b); [|discriminate]. destruct (hex_from_str s) as [w| | |] eqn:E2; try discriminate. cbn [bind] in E. injection E as <-.
      apply IHk in E2; [cbn [length] in *; lia|cbn [length] in L; lia]. }
  intros s v. apply (G (length s)). lia.
Qed.

Lemma pat_canonical_var : forall t tag, u64_ok t -> ~ In chEq tag -> pat_from_str (pat_canonical (PVar t tag)) = Ok (PVar t tag).
Proof.
  intros t tag U NE. unfold pat_canonical, pat_from_str.
  set (T := if (t =? TypeGeneric)%N then [] else fmt_dec t ++ [chEq]).
  change (chLt =? chLt)%N with true. cbv iota.
  assert (E0 : chLt :: T ++ tag ++ [chGt] = ([chLt] ++ T ++ tag) ++ [chGt]) by (rewrite <- !app_assoc; reflexivity).
  assert (ZL : (zlen (chLt :: T ++ tag ++ [chGt]) - 1 = zlen ([chLt] ++ (T ++ tag)))%Z).
  { rewrite E0, zlen_app. change (zlen [chGt]) with 1%Z. lia. }
  rewrite ZL. rewrite E0 at 1. rewrite index_app. cbn [bind]. change (chGt =? chGt)%N with true. cbv iota.
  assert (SL : slice (chLt :: T ++ tag ++ [chGt]) 1 (zlen ([chLt] ++ (T ++ tag))) = Ok (T ++ tag)).
  { replace (chLt :: T ++ tag ++ [chGt]) with ([chLt] ++ (T ++ tag) ++ [chGt]) by (rewrite <- app_assoc; reflexivity).
    rewrite zlen_app. change (zlen [chLt]) with 1%Z. apply (slice_mid [chLt] (T ++ tag) [chGt]). }
  rewrite SL. cbn [bind]. unfold T. destruct (N.eqb_spec t TypeGeneric) as [->|NG].
  - cbn [app]. rewrite split_none by auto. reflexivity.
  - rewrite <- app_assoc. cbn [app]. rewrite split_app by (apply no_eq_uri, fmt_dec_uri). rewrite split_none by auto.
    rewrite parse_type_dec by auto. reflexivity.
Qed.

Lemma comp_canonical_not_lt : forall c s, comp_ok c -> comp_canonical c <> chLt :: s.
Proof.
  intros [t v] s [U B] E. unfold comp_canonical in E. cbn [ctyp cval] in *. simpl in B. 
  destruct (_ =? _)%N.
  - cbn [app] in E. pose proof (text_uri v B) as H. rewrite E in H. inversion H; subst. apply (uri_not chLt chLt); auto.
  - destruct (fmt_dec t) as [|x l] eqn:F; [apply (fmt_dec_nonempty t F)|]. cbn [app] in E. injection E as -> E. pose proof (fmt_dec_uri t) as H. rewrite F in H. inversion H; subst. apply (uri_not chLt chLt); auto.
Qed.

Lemma pat_canonical_comp : forall c, comp_ok c -> (1 <= ctyp c <= 65535)%N -> pat_from_str (pat_canonical (PComp c)) = Ok (PComp c).
Proof.
  intros c O R. unfold pat_canonical, pat_from_str. pose proof (comp_canonical_not_lt c) as NL. pose proof (comp_canonical_roundtrip c O R) as RT.
  destruct (comp_canonical c) as [|x s]; [rewrite RT; reflexivity|]. destruct (N.eqb_spec x chLt) as [->|]; [exfalso; exact (NL s O eq_refl)|]. rewrite RT. reflexivity.
Qed.

Lemma seg_text : forall t nm x, In (t, nm) [(50, s_seg); (52, s_off); (54, s_v); (56, s_t); (58, s_seq)]%N -> (x < 2 ^ 64)%N ->
  comp_from_str (nm ++ [chEq] ++ fmt_dec x) = Ok (number_comp t x) /\ comp_str (number_comp t x) = nm ++ [chEq] ++ fmt_dec x /\ number_val (number_comp t x) = x.
Proof.
  intros t nm x H U. assert (NV : number_val (number_comp t x) = x) by (unfold number_val, number_comp; simpl; apply unbe64_nat_enc; exact U).
  assert (CS : comp_str (number_comp t x) = nm ++ [chEq] ++ fmt_dec x).
  { assert (CV : conv_by_type t = Some (nm, FDec)) by (cbn [In] in H; destruct H as [H|[H|[H|[H|[H|[]]]]]]; injection H as <- <-; reflexivity).
    unfold comp_str. replace (ctyp (number_comp t x)) with t by reflexivity. rewrite CV. cbn [fmt_to_str]. unfold dec_to_str.
    change (unbe64 (cval (number_comp t x))) with (number_val (number_comp t x)). rewrite NV, <- app_assoc. reflexivity. }
  split; [|auto]. rewrite <- CS. apply comp_str_roundtrip.
  assert (T : dec_type t /\ (1 <= t <= 65535)%N) by (unfold dec_type; cbn [In] in *; destruct H as [H|[H|[H|[H|[H|[]]]]]]; injection H as <- <-; split; try tauto; lia).
  split; [split; [destruct T as [_ T]; unfold number_comp; simpl; unfold u64_ok, two64; lia|]|split; [apply T|intros _; exists x; auto]].
  unfold number_comp; simpl. pose proof (comp_enc_bytes_ok) as _. unfold nat_enc. destruct (N.leb_spec x 255); [constructor; [unfold byte_ok; apply N.mod_lt; lia|constructor]|].
  destruct (_ <=? 65535)%N; [apply be_ok|]. destruct (_ <=? 4294967295)%N; apply be_ok.
Qed.

(** ** A cut stream *)
Lemma sr_tl_loop_short : forall n v cs, (length (concat cs) < n)%nat -> snd (fst (sr_tl_loop n v cs)) = Some EUnexpectedEOF.
Proof.
  induction n; intros v cs L; [lia|]. cbn [sr_tl_loop]. destruct (concat cs) as [|b s] eqn:E.
  - destruct (sr_byte_none cs E) as (c1 & -> & _). reflexivity.
  - destruct (sr_byte_some cs b s E) as (c1 & -> & C). apply IHn. rewrite C. cbn [length] in L. lia.
Qed.

Lemma sr_tl_cut : forall v p z cs, u64_ok v -> tl_enc v = p ++ z -> z <> [] -> concat cs = p ->
  snd (fst (sr_tl cs)) = Some (match p with [] => EEOF | _ => EUnexpectedEOF end).
Proof.
  intros v p z cs U E Z C. unfold sr_tl. destruct p as [|b p].
  { destruct (sr_byte_none cs C) as (c1 & -> & _). reflexivity. }
  destruct (sr_byte_some cs b p C) as (c1 & -> & C1). pose proof (tl_form_enc v U) as F. rewrite E in F.
  assert (LZ : (0 < length z)%nat) by (destruct z; [congruence|cbn [length]; lia]).
  destruct F as [[F ?]|[(x & F & L & _)|[(x & F & L & _)|(x & F & L & _)]]]; cbn [app] in F; injection F as -> F.
  - apply app_eq_nil in F. tauto.
  - apply (f_equal (@length N)) in F. rewrite app_length in F. apply sr_tl_loop_short. rewrite C1. lia.
  - apply (f_equal (@length N)) in F. rewrite app_length in F. apply sr_tl_loop_short. rewrite C1. lia.
  - apply (f_equal (@length N)) in F. rewrite app_length in F. apply sr_tl_loop_short. rewrite C1. lia.
Qed.

Lemma sr_full_short : forall n cs, (length (concat cs) < n)%nat -> fst (sr_full n cs) = concat cs.
Proof.
  induction n; intros cs L; [lia|]. cbn [sr_full]. destruct (concat cs) as [|b s] eqn:E.
  - destruct (sr_byte_none cs E) as (c1 & -> & _). reflexivity.
  - destruct (sr_byte_some cs b s E) as (c1 & -> & C). specialize (IHn c1). rewrite C in IHn. cbn [length] in L. destruct (sr_full n c1) as [l c2]. cbn [fst] in *. rewrite IHn by lia. reflexivity.
Qed.

Lemma s_run_cut : forall tol acc f cs t v p q, u64_ok t -> (zlen v + 18 <= max_alloc)%Z -> element t v = p ++ q -> q <> [] -> concat cs = p ->
  tol EEOF = false -> tol EUnexpectedEOF = false -> exists e, s_run tol acc (S f) cs = ([], SError e) /\ (e = EEOF \/ e = EUnexpectedEOF).
Proof.
  intros tol acc f cs t v p q U M E Q C T1 T2. unfold element in E. symmetry in E. cbn [s_run].
  assert (UL : u64_ok (nlen v)) by (unfold u64_ok, two64, max_alloc, zlen, nlen in *; lia).
  destruct (cut_cases _ _ _ _ E) as [(z & E1 & Z)|(p' & -> & E1)].
  { pose proof (sr_tl_cut t p z cs U E1 Z C) as H. destruct (sr_tl cs) as [[t1 e1] cs1]. cbn [fst snd] in H. subst e1.
    destruct p; cbn [fatal]; [rewrite T1|rewrite T2]; cbn [negb err_of]; eauto. }
  destruct (sr_tl_ok t cs p' U C) as (cs1 & -> & C1). cbn [fatal].
  destruct (cut_cases _ _ _ _ E1) as [(z & E2 & Z)|(p2 & -> & E2)].
  { pose proof (sr_tl_cut (nlen v) p' z cs1 UL E2 Z C1) as H. destruct (sr_tl cs1) as [[t1 e1] cs2]. cbn [fst snd] in H. subst e1.
    destruct p'; cbn [fatal]; [rewrite T1|rewrite T2]; cbn [negb err_of]; eauto. }
  destruct (sr_tl_ok (nlen v) cs1 p2 UL C1) as (cs2 & -> & C2). cbn [fatal].
  rewrite to_int_small by (unfold max_alloc, two63, zlen, nlen in *; lia).
  assert (SZ : ((Z.of_N (nlen v) <? 0)%Z || negb (make_ok 1 (Z.of_N (tl_len t) + Z.of_N (tl_len (nlen v)) + Z.of_N (nlen v)))) = false).
  { apply orb_false_iff. split; [apply Z.ltb_ge; lia|]. apply negb_false_iff. unfold make_ok.
    pose proof (tl_len_range t). pose proof (tl_len_range (nlen v)). replace (Z.of_N (nlen v)) with (zlen v) by (unfold zlen, nlen; lia). zl.
    apply andb_true_iff. rewrite !Z.leb_le. lia. }
  rewrite SZ. pose proof (sr_full_short (N.to_nat (nlen v)) cs2) as SF. rewrite C2 in SF.
  assert (LV : (length p2 < N.to_nat (nlen v))%nat) by (rewrite <- E2; unfold nlen; rewrite app_length; destruct q; [congruence|cbn [length]; lia]).
  specialize (SF LV). destruct (sr_full (N.to_nat (nlen v)) cs2) as [body cs3]. cbn [fst] in SF. subst body.
  destruct (Nat.ltb_spec (length p2) (N.to_nat (nlen v))); [|lia].
  destruct p2; cbn [fatal]; [rewrite T1|rewrite T2]; cbn [negb err_of]; eauto.
Qed.

Lemma hex_component_even : forall t nm h c, In (t, nm) [(1, s_sha256digest); (2, s_params_sha256)]%N ->
  comp_from_str (nm ++ [chEq] ++ h) = Ok c -> ctyp c = t /\ length h = (2 * length (cval c))%nat.
Proof.
  intros t nm h c H E. unfold comp_from_str in E. cbn [app] in E.
  assert (NE : ~ In chEq nm).
  { cbn [In] in H. destruct H as [H|[H|[]]]; injection H as <- <-; vm_compute; intros D; repeat destruct D as [D|D]; try discriminate; destruct D. }
  rewrite split_app in E by exact NE. pose proof (join_split chEq h) as J. destruct (split_on chEq h) as [|v [|v2 l]] eqn:SP; [exact (False_ind _ (split_nonempty chEq h SP))| |discriminate].
  assert (EV : v = h) by (rewrite <- J; cbn [join_with]; rewrite ?app_nil_r; reflexivity). subst v.
  assert (PT : parse_type nm = Ok (t, FHex)) by (cbn [In] in H; destruct H as [H|[H|[]]]; injection H as <- <-; vm_compute; reflexivity).
  rewrite PT in E. cbn [bind fmt_from_str] in E. destruct ((_ || _)%bool); [discriminate|].
  destruct (hex_from_str h) as [v| | |] eqn:X; try discriminate. cbn [bind] in E. injection E as <-. split; [reflexivity|]. apply hex_from_str_even in X. exact X.
Qed.

Lemma name_str_slash : forall n, exists s, name_str n = chSlash :: s.
Proof.
  intros [|c n]; [exists []; reflexivity|]. unfold name_str. destruct (rev (c :: n)) as [|l m]; [exists []; reflexivity|].
  destruct (_ && _)%bool; cbn [map concat app]; eexists; reflexivity.
Qed.

Lemma range_bounds : forall r pre rem a b, At r pre rem -> (a < 0 \/ zlen (pre ++ rem) < b \/ b < a)%Z -> r_range a b r = Ok None.
Proof.
  intros r pre rem a b A H. pose proof (at_length r pre rem A) as L. destruct r as [bb pos|w seg pos acc]; cbn [r_range r_length] in *.
  - injection L as L. match goal with |- (if ?c then _ else _) = _ => assert (C : c = true) end; [|rewrite C; reflexivity].
    rewrite L. rewrite !orb_true_iff, !Z.ltb_lt. lia.
  - destruct (nth_error acc (length w)) as [tot|]; [|discriminate]. cbn [bind]. injection L as L.
    match goal with |- (if ?c then _ else _) = _ => assert (C : c = true) end; [|rewrite C; reflexivity]. rewrite L. rewrite !orb_true_iff, !Z.ltb_lt. lia.
Qed.
