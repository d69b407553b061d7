(** Which bytes of an Interest packet the signature reported by the parser covers. *)
From Verif Require Import Base BaseProofs PrimModel PrimProofs ReaderModel ReaderSpec ReaderProofs ReaderProofs2 ReaderProofs3 ReaderProofs4 NameModel NameProofs CodecModel CodecSpec CodecProofs CodecEnc CodecEnc2 CodecEnc3 CodecEnc4 CodecEnc5 CodecSpec2 CodecPar CodecPar2 CodecKeep CodecPar3 CodecPar4 CodecLib SpecModel SpecSpec SpecProofs SpecData SpecInt AuthProofs.

(** ** Bytes that are read as a number, whatever is around them *)
Definition num (e : buf) (t : N) : Prop := forall pre rest, read_tl (RBuf (pre ++ e ++ rest) (zlen pre)) = (Ok t, RBuf (pre ++ e ++ rest) (zlen (pre ++ e))).

Lemma byte_inv : forall b pos x r', r_read_byte (RBuf b pos) = (Ok x, r') -> exists pre rest, b = pre ++ x :: rest /\ zlen pre = pos /\ r' = RBuf b (pos + 1).
Proof.
  intros b pos x r' H. cbn [r_read_byte] in H. destruct (_ <=? _)%Z; [discriminate|]. unfold index in H. destruct (Z.ltb_spec pos 0); [discriminate|].
  destruct (nth_error b (Z.to_nat pos)) as [y|] eqn:E; [|discriminate]. injection H as <- <-. apply nth_error_split in E. destruct E as (l1 & l2 & -> & L).
  exists l1, l2. split; [reflexivity|]. split; [unfold zlen; lia|reflexivity].
Qed.
Lemma byte_ok' : forall pre x rest, r_read_byte (RBuf (pre ++ x :: rest) (zlen pre)) = (Ok x, RBuf (pre ++ x :: rest) (zlen (pre ++ [x]))).
Proof.
  intros. cbn [r_read_byte]. destruct (Z.leb_spec (zlen (pre ++ x :: rest)) (zlen pre)) as [L|L].
  { rewrite zlen_app in L. unfold zlen in L. cbn [length] in L. lia. }
  unfold index. destruct (Z.ltb_spec (zlen pre) 0); [unfold zlen in *; lia|]. unfold zlen at 1. rewrite Nat2Z.id, nth_error_app2, Nat.sub_diag by lia. cbn [nth_error]. rewrite zlen_app. reflexivity.
Qed.
Lemma app_at : forall A (a b c d : list A), a ++ b = c ++ d -> length a = length c -> a = c /\ b = d.
Proof. induction a as [|x a IH]; intros b [|y c] d H L; cbn in *; try discriminate; auto. injection H as -> H. destruct (IH b c d H) as [-> ->]; auto. Qed.
Lemma app_zat : forall A (a b c d : list A), a ++ b = c ++ d -> zlen a = zlen c -> a = c /\ b = d.
Proof. intros A a b c d H L. apply app_at; auto. unfold zlen in L. lia. Qed.

Lemma tl_loop_inv : forall n v pre s t r', read_tl_loop n v (RBuf (pre ++ s) (zlen pre)) = (Ok t, r') ->
  exists e rest, s = e ++ rest /\ r' = RBuf (pre ++ s) (zlen (pre ++ e))
    /\ forall pre' rest', read_tl_loop n v (RBuf (pre' ++ e ++ rest') (zlen pre')) = (Ok t, RBuf (pre' ++ e ++ rest') (zlen (pre' ++ e))).
Proof.
  induction n as [|n IH]; intros v pre s t r' H; cbn [read_tl_loop] in H.
  - injection H as <- <-. exists [], s. rewrite app_nil_r. split; [reflexivity|]. split; [reflexivity|]. intros. cbn [read_tl_loop]. rewrite app_nil_r. reflexivity.
  - destruct (r_read_byte (RBuf (pre ++ s) (zlen pre))) as [[x|[]| |] r1] eqn:B; try discriminate.
    apply byte_inv in B. destruct B as (p & rest & E & Z & ->). apply app_zat in E; auto. destruct E as [<- ->].
    assert (E : RBuf (pre ++ x :: rest) (zlen pre + 1) = RBuf ((pre ++ [x]) ++ rest) (zlen (pre ++ [x]))) by (rewrite <- app_assoc, zlen_app; reflexivity).
    rewrite E in H. apply IH in H. destruct H as (e & rest1 & -> & -> & U). exists (x :: e), rest1. split; [reflexivity|].
    split; [rewrite <- !app_assoc; reflexivity|]. intros pre' rest'. cbn [read_tl_loop]. change ((x :: e) ++ rest') with (x :: (e ++ rest')). rewrite byte_ok'.
    replace (pre' ++ x :: e ++ rest') with ((pre' ++ [x]) ++ e ++ rest') by (rewrite <- app_assoc; reflexivity). rewrite U. rewrite <- !app_assoc. reflexivity.
Qed.
Lemma tl_inv : forall b pos t r', read_tl (RBuf b pos) = (Ok t, r') ->
  exists pre e rest, b = pre ++ e ++ rest /\ zlen pre = pos /\ r' = RBuf b (zlen (pre ++ e)) /\ num e t /\ e <> [].
Proof.
  intros b pos t r' H. unfold read_tl in H. destruct (r_read_byte (RBuf b pos)) as [[x|e| |] r1] eqn:B; try discriminate.
  apply byte_inv in B. destruct B as (pre & rest & -> & <- & ->).
  assert (G : forall n, read_tl_loop n 0 (RBuf (pre ++ x :: rest) (zlen pre + 1)) = (Ok t, r') ->
     (forall r, read_tl r = match r_read_byte r with (Ok y, r2) => if (y =? x)%N then read_tl_loop n 0 r2 else read_tl r | _ => read_tl r end) ->
     exists pre0 e rest0, pre ++ x :: rest = pre0 ++ e ++ rest0 /\ zlen pre0 = zlen pre /\ r' = RBuf (pre ++ x :: rest) (zlen (pre0 ++ e)) /\ num e t /\ e <> []).
  { intros n L R. assert (E : RBuf (pre ++ x :: rest) (zlen pre + 1) = RBuf ((pre ++ [x]) ++ rest) (zlen (pre ++ [x]))) by (rewrite <- app_assoc, zlen_app; reflexivity).
    rewrite E in L. apply tl_loop_inv in L. destruct L as (e & rest1 & -> & -> & U). exists pre, (x :: e), rest1. split; [reflexivity|]. split; [reflexivity|].
    split; [rewrite <- !app_assoc; reflexivity|]. split; [|discriminate]. intros pre' rest'. rewrite R. change ((x :: e) ++ rest') with (x :: (e ++ rest')). rewrite byte_ok', N.eqb_refl.
    replace (pre' ++ x :: e ++ rest') with ((pre' ++ [x]) ++ e ++ rest') by (rewrite <- app_assoc; reflexivity). rewrite U. rewrite <- !app_assoc. reflexivity. }
  destruct (x <=? 252)%N eqn:C1.
  - injection H as <- <-. exists pre, [x], rest. split; [reflexivity|]. split; [reflexivity|]. split; [rewrite zlen_app; reflexivity|]. split; [|discriminate].
    intros pre' rest'. unfold read_tl. change ([x] ++ rest') with (x :: rest'). rewrite byte_ok', C1. reflexivity.
  - destruct (x =? 253)%N eqn:C2; [|destruct (x =? 254)%N eqn:C3]; apply (G _ H); intros r; unfold read_tl; destruct (r_read_byte r) as [[y|e| |] r2]; auto;
    destruct (N.eqb_spec y x) as [->|]; auto; rewrite C1, C2; try rewrite C3; reflexivity.
Qed.
Lemma num_unique : forall e1 t1 x1 e2 t2 x2, num e1 t1 -> num e2 t2 -> e1 ++ x1 = e2 ++ x2 -> e1 = e2 /\ t1 = t2 /\ x1 = x2.
Proof.
  intros e1 t1 x1 e2 t2 x2 H1 H2 E. specialize (H1 [] x1). specialize (H2 [] x2). cbn [app] in *. rewrite E in H1. rewrite H1 in H2. injection H2 as -> Z.
  apply app_zat in E; auto. destruct E as [-> ->]. auto.
Qed.
Lemma num_tl : forall t, u64_ok t -> num (tl_enc t) t.
Proof.
  intros t H. assert (A : At (RBuf (tl_enc t ++ []) 0) [] (tl_enc t ++ [])).
  { split; [|split; reflexivity]. cbn [app]. rewrite app_nil_r. pose proof (tlv_le t []) as L. unfold tlv in L. rewrite !nlen_app in L. unfold mem_limit, zlen, nlen in *. cbn [length] in L. lia. }
  destruct (at_read_tl t _ _ _ H A) as (r' & T & [_ A'] & K). assert (B : is_buf_reader r') by (apply K; exact I). destruct r' as [b q|]; [|contradiction]. destruct A' as [-> ->]. cbn [app] in T.
  apply tl_inv in T. destruct T as (pre & e & rest & E & Z & R & NU & _). destruct pre as [|]; [|unfold zlen in Z; cbn [length] in Z; lia]. cbn [app] in *.
  injection R as Z2. rewrite !app_nil_r in *. assert (e ++ rest = tl_enc t ++ []) by (rewrite app_nil_r; auto). apply app_zat in H0; auto. destruct H0 as [-> _]. exact NU.
Qed.
Lemma num_pos : forall e t, num e t -> e <> [].
Proof.
  intros e t H ->. specialize (H [] []). cbn in H. discriminate.
Qed.

(** ** Bytes that are read as an element *)
Definition elem (e : buf) (t : N) (v : buf) : Prop := exists e1 e2 l, e = e1 ++ e2 ++ v /\ num e1 t /\ num e2 l /\ (to_int l mod Ztwo64)%Z = zlen v.
Lemma elem_unique : forall a t v x b u w y, elem a t v -> elem b u w -> a ++ x = b ++ y -> a = b /\ t = u /\ v = w /\ x = y.
Proof.
  intros a t v x b u w y (a1 & a2 & l & -> & A1 & A2 & A3) (b1 & b2 & k & -> & B1 & B2 & B3) E. rewrite <- !app_assoc in E.
  destruct (num_unique _ _ _ _ _ _ A1 B1 E) as (-> & -> & E1). destruct (num_unique _ _ _ _ _ _ A2 B2 E1) as (-> & -> & E2).
  destruct (app_zat _ _ _ _ _ E2) as [-> ->]; [congruence|]. auto.
Qed.
Lemma elem_pos : forall e t v, elem e t v -> e <> [].
Proof. intros e t v (e1 & e2 & l & -> & H & _) E. apply num_pos in H. destruct e1; [auto|discriminate]. Qed.
Lemma elem_tlv : forall t v, u64_ok t -> (zlen v < Ztwo63)%Z -> elem (tlv t v) t v.
Proof.
  intros t v H L. exists (tl_enc t), (tl_enc (nlen v)), (nlen v). split; [reflexivity|]. split; [apply num_tl; auto|]. split; [apply num_tl; unfold u64_ok, two64, Ztwo63, nlen, zlen in *; lia|].
  rewrite to_int_len by exact L. apply Z.mod_small. unfold Ztwo63, Ztwo64, zlen in *. lia.
Qed.
Definition elems (l : list (buf * (N * buf))) : Prop := Forall (fun x => elem (fst x) (fst (snd x)) (snd (snd x))) l.
Notation ebytes l := (concat (map fst l)).
Lemma elems_unique : forall l m x, elems l -> elems m -> ebytes l = ebytes m ++ x -> exists k, l = m ++ k /\ ebytes k = x.
Proof.
  intros l m. revert l. induction m as [|[b [u w]] m IH]; intros l x L M E.
  - exists l. auto.
  - inversion M as [|? ? M1 M2]; subst. cbn [fst snd map concat] in *. rewrite <- app_assoc in E. destruct l as [|[a [t v]] l].
    + cbn [map concat] in E. apply elem_pos in M1. destruct b; [congruence|discriminate].
    + inversion L as [|? ? L1 L2]; subst. cbn [fst snd map concat] in *. destruct (elem_unique _ _ _ _ _ _ _ _ L1 M1 E) as (-> & -> & -> & E2).
      destruct (IH l x L2 M2 E2) as (k & -> & K). exists k. auto.
Qed.
Lemma ebytes_app : forall l m : list (buf * (N * buf)), ebytes (l ++ m) = ebytes l ++ ebytes m.
Proof. intros. rewrite map_app, concat_app. reflexivity. Qed.

Lemma elems_same : forall l m, elems l -> elems m -> ebytes l = ebytes m -> l = m.
Proof.
  intros l m L M E. destruct (elems_unique l m [] L M) as (k & -> & K); [rewrite app_nil_r; exact E|]. apply Forall_app in L. destruct L as [_ L]. destruct k as [|[b [t v]] k]; [apply app_nil_r|].
  inversion L as [|? ? L1 _]; subst. cbn [fst snd map concat] in *. apply elem_pos in L1. destruct b; [congruence|discriminate].
Qed.

(** ** The name *)
Lemma ptl_tl : forall r t r', ptl r = Ok (None, t, r') -> read_tl r = (Ok t, r').
Proof.
  assert (G : forall n v r t r', ptl_loop n v r = Ok (None, t, r') -> read_tl_loop n v r = (Ok t, r')).
  { induction n as [|n IH]; intros v r t r' H; cbn [ptl_loop read_tl_loop] in *; [injection H as <- <-; reflexivity|].
    destruct (r_read_byte r) as [[x|e| |] r1]; cbn [soft] in H; try discriminate. apply IH; auto. }
  intros r t r' H. unfold ptl in H. unfold read_tl. destruct (r_read_byte r) as [[x|e| |] r1]; cbn [soft] in H; try discriminate.
  destruct (x <=? 252)%N; [injection H as <- <-; reflexivity|]. destruct (x =? 253)%N; [auto|]. destruct (x =? 254)%N; auto.
Qed.
Lemma slice_inv : forall (b : buf) p l t, (zlen b < mem_limit)%Z -> slice b p (wrap64 (p + l)) = Ok t ->
  exists pre rest, b = pre ++ t ++ rest /\ zlen pre = p /\ (l mod Ztwo64)%Z = zlen t /\ wrap64 (p + l) = zlen (pre ++ t).
Proof.
  intros b p l t ML H. apply slice_split in H. destruct H as (pre & rest & -> & Z1 & Z2). exists pre, rest. split; [reflexivity|]. split; [exact Z1|]. split; [|auto].
  rewrite zlen_app, Z1 in Z2. unfold wrap64 in Z2. pose proof (Z.div_mod (p + l + Ztwo63) Ztwo64 ltac:(discriminate)) as D.
  assert (E : l = (zlen t + ((p + l + Ztwo63) / Ztwo64) * Ztwo64)%Z) by lia.
  rewrite E, Z.mod_add by discriminate. apply Z.mod_small. rewrite !zlen_app in ML. unfold zlen, mem_limit, Ztwo64 in *. lia.
Qed.
Lemma buf_inv : forall b p l v r', (zlen b < mem_limit)%Z -> r_read_buf l (RBuf b p) = (Ok v, r') ->
  exists pre rest, b = pre ++ v ++ rest /\ zlen pre = p /\ (l mod Ztwo64)%Z = zlen v /\ r' = RBuf b (zlen (pre ++ v)).
Proof.
  intros b p l v r' ML H. cbn [r_read_buf] in H. destruct (_ <? _)%Z; [discriminate|]. destruct (slice b p _) as [t| | |] eqn:S; try discriminate. injection H as <- <-.
  apply slice_inv in S; auto. destruct S as (pre & rest & E & Z1 & Z2 & Z3). exists pre, rest. rewrite Z3. auto.
Qed.
(** header and value *)
Lemma elem_inv : forall b p t r1 l r2 v q, read_tl (RBuf b p) = (Ok t, r1) -> read_tl r1 = (Ok l, r2) ->
  (exists pos pre rest, r2 = RBuf b pos /\ b = pre ++ v ++ rest /\ zlen pre = pos /\ (to_int l mod Ztwo64)%Z = zlen v /\ q = zlen (pre ++ v)) ->
  exists pre e rest, b = pre ++ e ++ rest /\ zlen pre = p /\ q = zlen (pre ++ e) /\ elem e t v.
Proof.
  intros b p t r1 l r2 v q T1 T2 (pos & pre & rest & -> & EB & ZP & L & ->). apply tl_inv in T1. destruct T1 as (p1 & e1 & s1 & B1 & Z1 & -> & N1 & _).
  apply tl_inv in T2. destruct T2 as (p2 & e2 & s2 & B2 & Z2 & R & N2 & _). injection R as R. subst pos.
  assert (X : p2 = p1 ++ e1 /\ e2 ++ s2 = s1) by (apply app_zat; [rewrite <- B2, B1, app_assoc; reflexivity|auto]). destruct X as [-> <-].
  assert (Y : pre = (p1 ++ e1) ++ e2 /\ v ++ rest = s2) by (apply app_zat; [rewrite <- EB, B1, <- !app_assoc; reflexivity|auto]). destruct Y as [-> <-].
  exists p1, (e1 ++ e2 ++ v), rest. split; [rewrite B1, <- !app_assoc; reflexivity|]. split; [exact Z1|]. split; [rewrite <- !app_assoc; reflexivity|].
  exists e1, e2, l. auto.
Qed.

Notation comps l := (map (fun x => mkComp (fst (snd x)) (snd (snd x))) l).
Lemma name_f_inv : forall f cnt end_ acc cov pre s n c r', (zlen (pre ++ s) < mem_limit)%Z -> read_name_f f cnt end_ acc cov (RBuf (pre ++ s) (zlen pre)) = Ok (None, n, c, r') ->
  exists l rest, s = ebytes l ++ rest /\ elems l /\ n = acc ++ comps l /\ r' = RBuf (pre ++ s) (zlen (pre ++ ebytes l))
    /\ (Forall (fun x => fst (snd x) <> TypeParametersSha256Digest) l /\ c = cov
        \/ exists l1 x l2, l = l1 ++ x :: l2 /\ fst (snd x) = TypeParametersSha256Digest /\ Forall (fun x => fst (snd x) <> TypeParametersSha256Digest) l2 /\ c = zlen (pre ++ ebytes l1)).
Proof.
  assert (STOP : forall acc cov pre s, exists (l : list (buf * (N * buf))) rest, s = ebytes l ++ rest /\ elems l /\ acc = acc ++ comps l /\ RBuf (pre ++ s) (zlen pre) = RBuf (pre ++ s) (zlen (pre ++ ebytes l))
    /\ (Forall (fun x => fst (snd x) <> TypeParametersSha256Digest) l /\ cov = cov
        \/ exists l1 x l2, l = l1 ++ x :: l2 /\ fst (snd x) = TypeParametersSha256Digest /\ Forall (fun x => fst (snd x) <> TypeParametersSha256Digest) l2 /\ cov = zlen (pre ++ ebytes l1))).
  { intros. exists [], s. cbn [map concat app]. rewrite !app_nil_r. split; [reflexivity|]. split; [constructor|]. split; [reflexivity|]. split; [reflexivity|]. left. split; [constructor|reflexivity]. }
  induction f as [|f IH]; intros cnt end_ acc cov pre s n c r' ML H; cbn [read_name_f] in H; destruct (cnt =? 0)%N; try discriminate; try (injection H as <- <- <-; apply STOP).
  cbn [r_pos bind] in H. destruct (end_ <=? zlen pre)%Z; [injection H as <- <- <-; apply STOP|].
  destruct (ptl (RBuf (pre ++ s) (zlen pre))) as [[[e1 t] r1]| | |] eqn:P1; try discriminate. cbn [bind] in H. destruct (ptl r1) as [[[e2 l] r2]| | |] eqn:P2; try discriminate. cbn [bind] in H.
  destruct (r_read_buf (to_int l) r2) as [[v|er| |] r3] eqn:RB; cbn [soft] in H; try discriminate; destruct e1; try discriminate; destruct e2; try discriminate.
  apply ptl_tl in P1, P2. pose proof (kr_tl (RBuf (pre ++ s) (zlen pre))) as K1. rewrite P1 in K1. pose proof (kr_tl r1) as K2. rewrite P2 in K2. cbn [snd reader_buf] in *. rewrite K1 in K2.
  destruct (buf_reader _ _ K2) as (pos & ->). apply buf_inv in RB; auto. destruct RB as (pv & rv & EB & ZV & LV & ->).
  destruct (elem_inv (pre ++ s) (zlen pre) t r1 l (RBuf (pre ++ s) pos) v (zlen (pv ++ v)) P1 P2) as (p0 & e & rest & E0 & Z0 & Q0 & EL); [exists pos, pv, rv; auto|].
  apply app_zat in E0; [|auto]. destruct E0 as [<- ->]. rewrite Q0 in H. rewrite (app_assoc pre) in H.
  apply IH in H; [|rewrite <- app_assoc; exact ML]. destruct H as (l0 & rest0 & -> & EL0 & -> & -> & D). exists ((e, (t, v)) :: l0), rest0. cbn [map concat fst snd]. rewrite <- !app_assoc.
  split; [reflexivity|]. split; [constructor; auto|]. split; [reflexivity|]. split; [reflexivity|].
  destruct D as [[D1 D2]|(l1 & x & l2 & -> & D1 & D2 & ->)].
  - destruct (N.eqb_spec t TypeParametersSha256Digest) as [->|NE].
    + right. exists [], (e, (TypeParametersSha256Digest, v)), l0. cbn [map concat]. rewrite app_nil_r. auto.
    + left. split; [constructor; auto|exact D2].
  - right. exists ((e, (t, v)) :: l1), x, l2. cbn [map concat fst]. rewrite <- !app_assoc. auto.
Qed.

(** ReadFrom of the name: what is covered if it ends with a digest *)
Lemma name_field_inv : forall f l b pos n start c r' g, (zlen b < mem_limit)%Z -> read_name_field f l (RBuf b pos) = Ok (None, n, start, c, r') -> r_range start c r' = Ok g ->
  (exists m d, n = m ++ [d] /\ ctyp d = TypeParametersSha256Digest) -> (0 <= pos)%Z ->
  exists e d, elems e /\ n = comps e ++ [d] /\ ctyp d = TypeParametersSha256Digest /\ concat (opt_wire g) = ebytes e.
Proof.
  intros f l b pos n start c r' g ML H G (m & d & EN & TD) P. unfold read_name_field in H. destruct (make_ok _ _); [|discriminate]. cbn [r_pos bind] in H.
  destruct (read_name_f _ _ _ _ _ _) as [[[[e1 n1] c1] r1]| | |] eqn:RF; try discriminate. cbn [bind] in H. destruct e1; [discriminate|].
  destruct (r_pos r1) as [p1| | |]; try discriminate. cbn [bind] in H. destruct (p1 =? _)%Z; [|discriminate]. injection H as <- <- <- <-.
  destruct (Z_lt_le_dec pos (zlen b)) as [Q|Q].
  - assert (EB : b = firstn (Z.to_nat pos) b ++ skipn (Z.to_nat pos) b) by (rewrite firstn_skipn; reflexivity).
    assert (ZB : zlen (firstn (Z.to_nat pos) b) = pos) by (unfold zlen in *; rewrite firstn_length; lia).
    set (pre := firstn (Z.to_nat pos) b) in *. set (s := skipn (Z.to_nat pos) b) in *. clearbody pre s. subst b. subst pos.
    apply name_f_inv in RF; auto. destruct RF as (e & rest & -> & EL & EN1 & -> & D). cbn [app] in EN1. rewrite EN1 in EN |- *. clear n1 EN1.
    destruct D as [[D _]|(l1 & x & l2 & -> & D1 & D2 & ->)].
    + exfalso. assert (X : In d (comps e)) by (rewrite EN; apply in_or_app; right; left; reflexivity). apply in_map_iff in X. destruct X as (y & <- & IY). rewrite Forall_forall in D. apply (D y IY). exact TD.
    + assert (l2 = []). { destruct l2 as [|y l2] using rev_ind; [reflexivity|]. exfalso. rewrite map_app in EN. cbn [map] in EN. rewrite map_app in EN. cbn [map] in EN. rewrite app_comm_cons, app_assoc in EN. apply app_inj_tail in EN. destruct EN as [_ <-].
        apply Forall_app in D2. destruct D2 as [_ D2]. inversion D2; subst. auto. }
      subst l2. exists l1, d. rewrite map_app in EN |- *. cbn [map] in *. apply Forall_app in EL. split; [tauto|]. apply app_inj_tail in EN. destruct EN as [EN <-]. split; [reflexivity|]. split; [exact TD|].
      cbn [r_range] in G. rewrite map_app, concat_app in G. rewrite <- !app_assoc in G.
      match type of G with (if ?c then _ else _) = _ => assert (C : c = false) by (rewrite !zlen_app; unfold zlen; lia); rewrite C in G end.
      rewrite zlen_app in G. rewrite slice_app in G. cbn [bind] in G. injection G as <-. cbn [opt_wire concat]. apply app_nil_r.
  - exfalso. destruct f as [|f]; cbn [read_name_f] in RF; destruct (_ =? 0)%N; try discriminate; try (injection RF as <- <- <-; destruct m; discriminate).
    cbn [r_pos bind] in RF. destruct (_ <=? pos)%Z; [injection RF as <- <- <-; destruct m; discriminate|].
    unfold ptl in RF. cbn [r_read_byte] in RF. destruct (Z.leb_spec (zlen b) pos); [|lia]. cbn [soft bind] in RF.
    match type of RF with match ?x with Ok _ => _ | Err _ => _ | Panic => _ | Hang => _ end = _ => idtac | _ => idtac end.
    cbn [r_read_byte] in RF. destruct (Z.leb_spec (zlen b) pos); [|lia]. cbn [soft bind] in RF. apply soft_keep in RF. destruct RF as (y & r3 & RF & _). discriminate.
Qed.

(** ** The elements of an Interest *)
Lemma kr_nat : forall f m n v r e x r', read_nat f m n v r = Ok (e, x, r') -> reader_buf r' = reader_buf r.
Proof.
  induction f as [|f IH]; intros m n v r e x r'; cbn [read_nat]; destruct (n <=? 0)%Z; intros H; try discriminate; try (injection H as <- <- <-; reflexivity).
  apply soft_keep in H. destruct H as (y & r1 & H & E). rewrite <- (kr_byte r), <- E. destruct y; [injection H as <- <- <-; reflexivity|]. eapply IH; eauto.
Qed.

Section Interest.
  Context (F : nat) (ic : bool).
  Notation hs := (fs_handlers F 0 ifs).
  Notation hd i := (mkFH (typ_at ifs i) (kind_at ifs i) (k_read F (typ_at ifs i) i (kind_at ifs i))).
  Definition known (i : nat) : Prop := ((2 <= i <= 8) \/ (11 <= i <= 13))%nat.
  Definition key (j : nat) : Prop := (j = 2 \/ j = 11 \/ j = 12 \/ j = 13)%nat.

  Lemma find_int : forall typ i h, find_field typ 0 hs = Some (i, h) -> known i /\ typ = typ_at ifs i /\ h = hd i.
  Proof.
    intros typ i h H. cbn [ifs m_fields spec_Interest fs_handlers find_field fh_typ fst snd] in H.
    repeat match type of H with context [if ?c then _ else _] => let E := fresh "E" in destruct c eqn:E; [injection H as <- <-|] end; try discriminate; try (cbn in E; discriminate);
    match goal with E : _ && _ = true |- _ => apply andb_true_iff in E; destruct E as [_ E]; apply N.eqb_eq in E; subst end; (split; [unfold known; lia|split; reflexivity]).
  Qed.
  Lemma ihs_nth : forall i, (i < 15)%nat -> nth_error hs i = Some (hd i).
  Proof. intros i H. do 15 (destruct i as [|i]; [reflexivity|]). lia. Qed.
  Lemma ihs_over : forall i, (15 <= i)%nat -> nth_error hs i = None.
  Proof. intros i H. apply nth_error_None. cbn. lia. Qed.

  (** what reading an element does to the context *)
  Lemma read_icx : forall i sp l old cx r e v cx' r', known i -> length cx = 15%nat ->
    fh_read (hd i) ic sp l old cx r = Ok (e, v, cx', r') ->
    reader_buf r' = reader_buf r /\ length cx' = 15%nat /\ nth 9 cx' XNone = nth 9 cx XNone /\ (i <> 12%nat -> nth 12 cx' XNone = nth 12 cx XNone)
    /\ (i <> 2%nat -> i <> 13%nat -> nth 0 cx' XNone = nth 0 cx XNone).
  Proof.
    intros i sp l old cx r e v cx' r' Hi L H. cbn [fh_read] in H. unfold known in Hi.
    destruct i as [|[|[|[|[|[|[|[|[|[|[|[|[|[|i]]]]]]]]]]]]]]; try lia; unfold typ_at, kind_at, ifs in H; cbn [m_fields spec_Interest map nth fst snd k_read] in H.
    - destruct (read_name_field F l r) as [[[[[e1 n1] s1] c1] r1]| | |] eqn:P; try discriminate. cbn [bind] in H. apply kr_name in P.
      destruct e1; [injection H as <- <- <- <-; auto|]. destruct (r_range _ _ _) as [g| | |]; try discriminate. cbn [bind] in H. injection H as <- <- <- <-. rewrite upd_length.
      repeat split; auto; intros; try lia; apply upd_nth_other; lia.
    - injection H as <- <- <- <-. auto.
    - injection H as <- <- <- <-. auto.
    - destruct spec_Links as [nc o fs]. destruct (r_delegate (to_int l) r) as [d| | |] eqn:D; try discriminate. cbn [bind] in H. apply kr_delegate in D.
      destruct (run_parse _ _ _ _ _ _) as [[vs c]|er| |]; try discriminate; injection H as <- <- <- <-; rewrite ?upd_length; auto.
      rewrite !upd_nth_other by lia. auto.
    - cbn [Nat.eqb] in H. destruct (read_nat _ _ _ _ _) as [[[e1 x] r1]| | |] eqn:P; try discriminate. cbn [bind] in H. injection H as <- <- <- <-. apply kr_nat in P. auto.
    - destruct (read_nat _ _ _ _ _) as [[[e1 x] r1]| | |] eqn:P; try discriminate. cbn [bind] in H. injection H as <- <- <- <-. apply kr_nat in P. auto.
    - cbn [Nat.eqb] in H. apply soft_keep in H. destruct H as (y & r1 & H & E). pose proof (kr_skip 1 r) as K. rewrite <- E in K.
      destruct (r_pos r1) as [p| | |]; try discriminate. cbn [bind] in H. destruct (r_range _ _ _) as [[[|[|x g0] g1]|]| | |]; try discriminate. cbn [bind] in H. injection H as <- <- <- <-. auto.
    - apply soft_keep in H. destruct H as (y & r1 & H & E). pose proof (kr_wire (to_int l) r) as K. rewrite <- E in K.
      destruct y; injection H as <- <- <- <-; auto.
    - destruct spec_SignatureInfo as [nc o fs]. destruct (r_delegate (to_int l) r) as [d| | |] eqn:D; try discriminate. cbn [bind] in H. apply kr_delegate in D.
      destruct (run_parse _ _ _ _ _ _) as [[vs c]|er| |]; try discriminate; injection H as <- <- <- <-; rewrite ?upd_length; auto.
      repeat split; auto; intros; try lia; apply upd_nth_other; lia.
    - apply soft_keep in H. destruct H as (y & r1 & H & E). pose proof (kr_wire (to_int l) r) as K. rewrite <- E in K.
      destruct y; [injection H as <- <- <- <-; auto|].
      destruct (r_range _ _ _) as [g| | |] eqn:G; try discriminate. cbn [bind] in H. injection H as <- <- <- <-. rewrite upd_length.
      repeat split; auto; intros; try lia; apply upd_nth_other; lia.
  Qed.

  (** what passing over fields does *)
  Definition passed (sp : Z) (st st' : pstate) : Prop :=
    p_rd st' = p_rd st /\ (p_prog st <= p_prog st')%Z /\ length (p_vals st') = 15%nat /\ length (p_cx st') = 15%nat
    /\ (forall j, key j -> nth j (p_vals st') VNone = nth j (p_vals st) VNone \/ nth j (p_vals st') VNone = VNone)
    /\ nth 0 (p_cx st') XNone = nth 0 (p_cx st) XNone /\ nth 12 (p_cx st') XNone = nth 12 (p_cx st) XNone
    /\ (nth 9 (p_cx st') XNone = nth 9 (p_cx st) XNone \/ (p_prog st < 9 <= p_prog st')%Z /\ nth 9 (p_cx st') XNone = XOff sp).
  Lemma passed_refl : forall sp st, length (p_vals st) = 15%nat -> length (p_cx st) = 15%nat -> passed sp st st.
  Proof. intros. unfold passed. repeat split; auto. lia. Qed.
  Lemma skip_icx : forall i sp v cx r e v' cx' r', (i < 15)%nat -> length cx = 15%nat ->
    k_skip (fh_typ (hd i)) (fh_kind (hd i)) i sp v cx r = Ok (e, v', cx', r') ->
    r' = r /\ length cx' = 15%nat /\ (key i -> v' = VNone) /\ nth 0 cx' XNone = nth 0 cx XNone /\ nth 12 cx' XNone = nth 12 cx XNone
    /\ (i <> 9%nat -> nth 9 cx' XNone = nth 9 cx XNone) /\ (i = 9%nat -> nth 9 cx' XNone = XOff sp).
  Proof.
    intros i sp v cx r e v' cx' r' Hi L H. cbn [fh_typ fh_kind] in H.
    destruct i as [|[|[|[|[|[|[|[|[|[|[|[|[|[|[|i]]]]]]]]]]]]]]]; try lia; unfold typ_at, kind_at, ifs in H; cbn [m_fields spec_Interest map nth fst snd k_skip] in H;
    try (injection H as <- <- <- <-; unfold key; repeat split; auto; intros; lia).
    - injection H as <- <- <- <-. rewrite upd_length. unfold key. repeat split; auto; intros; try lia; try (apply upd_nth_other; lia). apply upd_nth. lia.
    - injection H as <- <- <- <-. rewrite upd_length. unfold key. repeat split; auto; intros; try lia; apply upd_nth_other; lia.
    - cbv zeta in H. destruct (r_range _ _ _) as [g| | |]; try discriminate. cbn [bind] in H. injection H as <- <- <- <-. rewrite !upd_length. unfold key. repeat split; auto; intros; try lia; rewrite !upd_nth_other by lia; reflexivity.
  Qed.
  Lemma pass_int : forall typ sp st st', length (p_vals st) = 15%nat -> length (p_cx st) = 15%nat -> (-1 <= p_prog st)%Z -> do_pass typ sp hs st = Ok st' ->
    passed sp st (p_next st') /\ p_prog st' = p_prog st.
  Proof.
    intros typ sp st st' LV LC PG H. unfold do_pass in H. set (i := Z.to_nat (p_prog st + 1)) in *.
    destruct (le_lt_dec 15 i) as [O|O].
    { rewrite ihs_over in H by auto. injection H as <-. split; [|reflexivity]. unfold passed, p_next. cbn [p_rd p_prog p_vals p_cx]. repeat split; auto. lia. }
    rewrite ihs_nth in H by auto. destruct (k_skip _ _ _ _ _ _ _) as [[[[e v] cx] r]| | |] eqn:KS; try discriminate. cbn [bind] in H. destruct e; try discriminate. injection H as <-.
    apply skip_icx in KS; auto. destruct KS as (-> & K1 & K2 & K3 & K4 & K5 & K6). split; [|reflexivity]. unfold passed, p_next. cbn [p_rd p_prog p_vals p_cx]. rewrite upd_length.
    split; [auto|]. split; [lia|]. split; [auto|]. split; [auto|]. split.
    { intros j KJ. destruct (Nat.eq_dec i j) as [<-|NE]; [right; rewrite upd_nth by lia; auto|left; apply upd_nth_other; auto]. }
    split; [auto|]. split; [auto|]. destruct (Nat.eq_dec i 9) as [E|E]; [right; split; [lia|auto]|left; auto].
  Qed.
  Lemma passed_trans : forall sp a b c, passed sp a b -> passed sp b c -> passed sp a c.
  Proof.
    intros sp a b c (A1 & A2 & A3 & A4 & A5 & A6 & A7 & A8) (B1 & B2 & B3 & B4 & B5 & B6 & B7 & B8). unfold passed. split; [congruence|]. split; [lia|]. split; [auto|]. split; [auto|]. split.
    { intros j K. destruct (B5 j K) as [-> | ->]; auto. }
    split; [congruence|]. split; [congruence|]. destruct B8 as [-> |[B8 ->]]; [destruct A8 as [A8|[A8 A9]]; [auto|right; split; [lia|auto]]|]. right. split; [lia|auto].
  Qed.

  Lemma ord_int : forall n typ l sp st st' i, find_field typ 0 hs = Some (i, hd i) -> known i -> length (p_vals st) = 15%nat -> length (p_cx st) = 15%nat -> (-1 <= p_prog st)%Z ->
    ordered_loop n ic typ l sp hs st = Ok st' ->
    (exists stp st1, passed sp st stp /\ p_prog stp = (Z.of_nat i - 1)%Z /\ do_read ic typ l sp i (hd i) stp = Ok st1 /\ st' = p_next st1)
    \/ passed sp st st' /\ p_prog st' = (p_prog st + Z.of_nat n)%Z.
  Proof.
    induction n as [|n IH]; intros typ l sp st st' i FF Hi LV LC PG H; cbn [ordered_loop] in H.
    - injection H as <-. right. split; [apply passed_refl; auto|lia].
    - rewrite FF in H. destruct (Z.eqb_spec (p_prog st + 1) (Z.of_nat i)) as [E|E].
      + destruct (do_read _ _ _ _ _ _ _) as [st1| | |] eqn:R; try discriminate. cbn [bind] in H. injection H as <-. left. exists st, st1. split; [apply passed_refl; auto|]. split; [lia|]. auto.
      + destruct (do_pass _ _ _ _) as [st1| | |] eqn:D; try discriminate. cbn [bind] in H. apply pass_int in D; auto. destruct D as [D1 D2]. pose proof D1 as (_ & D3 & D4 & D5 & _).
        apply (IH typ l sp (p_next st1) st' i) in H; auto; [|lia]. destruct H as [(stp & st2 & H1 & H2 & H3 & H4)|[H1 H2]].
        * left. exists stp, st2. split; [eapply passed_trans; eauto|auto].
        * right. split; [eapply passed_trans; eauto|]. rewrite H2. cbn [p_next p_prog]. lia.
  Qed.

  (** ** What is known after any number of elements *)
  Definition ctx12 : pcx := nth 12 (m_ctx (Model true true ifs)) XNone.
  Definition named (b : buf) (n : name) (C : wire) : Prop :=
    exists l pos start c r' g, (0 <= pos)%Z /\ read_name_field F l (RBuf b pos) = Ok (None, n, start, c, r') /\ r_range start c r' = Ok g /\ C = opt_wire g.
  Definition el36 (b : buf) (p : Z) (v : value) (rd : reader) : Prop :=
    exists r1 l r2 old cx cx', read_tl (RBuf b p) = (Ok 36%N, r1) /\ read_tl r1 = (Ok l, r2) /\ reader_buf r2 = Some b
      /\ k_read F 36 11 KWire ic p l old cx r2 = Ok (None, v, cx', rd).
  Definition el44 (b : buf) (rd0 : reader) (v : value) (rd : reader) : Prop :=
    exists p r1 l r2 old cx cx', rd0 = RBuf b p /\ read_tl (RBuf b p) = (Ok 44%N, r1) /\ read_tl r1 = (Ok l, r2) /\ reader_buf r2 = Some b
      /\ length cx = 15%nat /\ nth 12 cx XNone = ctx12 /\ k_read F 44 12 (KStruct spec_SignatureInfo false) ic p l old cx r2 = Ok (None, v, cx', rd).
  Notation off st := (x_off (nth 9 (p_cx st) XNone)).
  Notation cov st := (x_cov (nth 0 (p_cx st) XNone)).
  Notation val st j := (nth j (p_vals st) VNone).
  Definition final (b : buf) (st : pstate) : Prop :=
    exists n C p rd a s g, val st 2 = VName n /\ named b n C /\ el36 b p (val st 11) rd /\ el44 b rd (val st 12) (RBuf b s)
      /\ (a = 0 \/ a = p)%Z /\ r_range a s (RBuf b 0) = Ok g /\ cov st = C ++ opt_wire g.
  Definition inv (b : buf) (st : pstate) : Prop :=
    reader_buf (p_rd st) = Some b /\ length (p_vals st) = 15%nat /\ length (p_cx st) = 15%nat /\ (-1 <= p_prog st)%Z
    /\ ((p_prog st < 2)%Z -> cov st = [] /\ val st 2 = VNone)
    /\ ((p_prog st < 11)%Z -> off st = 0%Z /\ val st 11 = VNone)
    /\ ((p_prog st < 12)%Z -> nth 12 (p_cx st) XNone = ctx12 /\ val st 12 = VNone)
    /\ ((p_prog st < 13)%Z -> val st 13 = VNone)
    /\ ((2 <= p_prog st < 13)%Z -> val st 2 = VNone \/ exists n, val st 2 = VName n /\ named b n (cov st))
    /\ (p_prog st = 11%Z -> val st 11 = VNone \/ exists p, el36 b p (val st 11) (p_rd st) /\ (off st = 0 \/ off st = p)%Z)
    /\ (p_prog st = 12%Z -> val st 11 = VNone \/ val st 12 = VNone
         \/ exists p rd, el36 b p (val st 11) rd /\ el44 b rd (val st 12) (p_rd st) /\ (off st = 0 \/ off st = p)%Z)
    /\ ((13 <= p_prog st)%Z -> val st 2 = VNone \/ val st 11 = VNone \/ val st 12 = VNone \/ val st 13 = VNone \/ final b st).

  Lemma inv_passed : forall b sp st r2 st', inv b st -> reader_buf r2 = Some b -> passed sp (mkPS (p_vals st) (p_cx st) r2 (p_prog st) (p_done st)) st' -> (13 <= p_prog st')%Z -> inv b st'.
  Proof.
    intros b sp st r2 st' (I1 & I2 & I3 & I4 & I5 & I6 & I7 & I8 & I9 & I10 & I11 & I12) R2 (P1 & P2 & P3 & P4 & P5 & P6 & P7 & P8) H. cbn [p_rd p_prog p_vals p_cx] in *.
    unfold inv. rewrite P1. repeat (split; [first [assumption|lia|intros; lia]|]). intros _.
    assert (K2 : key 2) by (unfold key; auto). assert (K11 : key 11) by (unfold key; auto). assert (K12 : key 12) by (unfold key; auto). assert (K13 : key 13) by (unfold key; auto).
    destruct (P5 _ K2) as [E2|E2]; [|auto]. destruct (P5 _ K11) as [E11|E11]; [|auto]. destruct (P5 _ K12) as [E12|E12]; [|auto]. destruct (P5 _ K13) as [E13|E13]; [|auto].
    rewrite E2, E11, E12, E13. destruct (Z_lt_le_dec (p_prog st) 13) as [L|L]; [right; right; right; left; apply I8; auto|].
    destruct (I12 L) as [X|[X|[X|[X|X]]]]; auto. right. right. right. right. unfold final in *. rewrite E2, E11, E12, P6. exact X.
  Qed.

  Lemma inv_elem : forall b st pos typ l r1 r2 st', inv b st -> p_rd st = RBuf b pos -> read_tl (RBuf b pos) = (Ok typ, r1) -> read_tl r1 = (Ok l, r2) -> reader_buf r2 = Some b ->
    do_elem true ic typ l pos hs (mkPS (p_vals st) (p_cx st) r2 (p_prog st) (p_done st)) = Ok st' -> inv b st'.
  Proof.
    intros b st pos typ l r1 r2 st' HI RP T1 T2 R2 H. unfold do_elem in H. cbn [p_prog] in H. change (zlen hs) with 15%Z in H. set (n := Z.to_nat (15 - p_prog st)) in *.
    pose proof HI as (I1 & I2 & I3 & I4 & I5 & I6 & I7 & I8 & I9 & I10 & I11 & I12).
    assert (K2 : key 2) by (unfold key; auto). assert (K11 : key 11) by (unfold key; auto). assert (K12 : key 12) by (unfold key; auto). assert (K13 : key 13) by (unfold key; auto).
    destruct (find_field typ 0 hs) as [[i h]|] eqn:FF.
    - pose proof (find_int _ _ _ FF) as (Hi & TY & ->). apply (ord_int _ _ _ _ _ _ i FF Hi) in H; auto.
      destruct H as [(stp & st1 & PA & PG & RD & ->)|[PA PG]].
      + destruct PA as (P1 & P2 & P3 & P4 & P5 & P6 & P7 & P8). cbn [p_rd p_prog p_vals p_cx] in *. unfold do_read in RD.
        destruct (fh_read (hd i) ic pos l _ _ _) as [[[[e v] cx] r]| | |] eqn:KR; try discriminate. cbn [bind] in RD. destruct e; [discriminate|]. injection RD as <-.
        assert (KB : k_back (kind_at ifs i) = 0%Z) by (clear -Hi; unfold known in Hi; do 14 (destruct i as [|i]; [try lia; reflexivity|]); lia).
        pose proof (read_icx i pos l _ _ _ _ _ _ _ Hi P4 KR) as (C1 & C2 & C3 & C4 & C5).
        unfold inv, p_next. cbn [p_rd p_prog p_vals p_cx fh_kind]. rewrite KB, upd_length, PG. replace (Z.of_nat i - 1 - 0 + 1)%Z with (Z.of_nat i) by lia.
        assert (Q : (p_prog st <= Z.of_nat i - 1)%Z) by lia.
        assert (BR : reader_buf r = Some b) by (rewrite C1, P1; exact R2).
        assert (OFF : (p_prog st < 11)%Z -> x_off (nth 9 cx XNone) = 0%Z \/ x_off (nth 9 cx XNone) = pos).
        { intros L. rewrite C3. destruct P8 as [-> |[_ ->]]; [left; apply I6; auto|right; reflexivity]. }
        assert (OFF9 : (Z.of_nat i < 9)%Z -> x_off (nth 9 cx XNone) = 0%Z).
        { intros L. rewrite C3. destruct P8 as [-> |[P8 _]]; [apply I6; lia|lia]. }
        assert (N11 : (p_prog st < 11)%Z -> nth 11 (p_vals stp) VNone = VNone) by (intros L; destruct (P5 _ K11) as [-> | ->]; [apply I6; auto|reflexivity]).
        assert (N12 : (p_prog st < 12)%Z -> nth 12 (p_vals stp) VNone = VNone) by (intros L; destruct (P5 _ K12) as [-> | ->]; [apply I7; auto|reflexivity]).
        assert (N13 : (p_prog st < 13)%Z -> nth 13 (p_vals stp) VNone = VNone) by (intros L; destruct (P5 _ K13) as [-> | ->]; [apply I8; auto|reflexivity]).
        assert (N2 : i <> 2%nat -> (p_prog st < 13)%Z -> nth 2 (p_vals stp) VNone = VNone \/ exists nm, nth 2 (p_vals stp) VNone = VName nm /\ named b nm (x_cov (nth 0 (p_cx stp) XNone))).
        { intros _ L. rewrite P6. destruct (P5 _ K2) as [-> | ->]; [|auto]. destruct (Z_lt_le_dec (p_prog st) 2) as [L2|L2]; [left; apply I5; auto|apply I9; auto]. }
        destruct (le_lt_dec i 2) as [L2|L2].
        { (* the name *)
          assert (i = 2)%nat by (unfold known in Hi; lia). subst i. rewrite upd_nth by lia. rewrite !upd_nth_other by lia.
          split; [auto|]. split; [auto|]. split; [auto|]. split; [lia|]. split; [intros; lia|]. split; [intros; split; [apply OFF9; lia|apply N11; lia]|].
          split; [intros; split; [rewrite C4, P7 by lia; apply I7; lia|apply N12; lia]|]. split; [intros; apply N13; lia|].
          split; [|split; [intros; lia|split; intros; lia]]. intros _. right.
          cbn [fh_read] in KR. unfold typ_at, kind_at, ifs in KR. cbn [m_fields spec_Interest map nth fst snd k_read] in KR.
          destruct (read_name_field F l _) as [[[[[e1 n1] s1] c1] q1]| | |] eqn:RN; try discriminate. cbn [bind] in KR. destruct e1; [discriminate|].
          destruct (r_range _ _ _) as [g| | |] eqn:RG; try discriminate. cbn [bind] in KR. injection KR as <- <- <-. exists n1. split; [reflexivity|].
          rewrite upd_nth by lia. cbn [x_cov]. rewrite P6. destruct I5 as [-> _]; [lia|]. cbn [app].
          destruct (buf_reader _ _ R2) as (q2 & E2). rewrite P1, E2 in RN.
          exists l, q2, s1, c1, q1, g. split; [|auto]. subst r2. assert (exists q0, r1 = RBuf b q0) as (q0 & ->).
          { apply buf_reader. pose proof (kr_tl (RBuf b pos)) as K. rewrite T1 in K. exact K. }
          apply tl_inv in T2. destruct T2 as (pr & e & rs & _ & _ & RR & _). assert (EQ2 : q2 = zlen (pr ++ e)) by congruence. rewrite EQ2. unfold zlen. lia. }
        destruct (le_lt_dec i 8) as [L8|L8].
        { rewrite !upd_nth_other by lia. split; [auto|]. split; [auto|]. split; [auto|]. split; [lia|]. split; [intros; lia|]. split; [intros; split; [apply OFF9; lia|apply N11; lia]|].
          split; [intros; split; [rewrite C4, P7 by lia; apply I7; lia|apply N12; lia]|]. split; [intros; apply N13; lia|].
          split; [|split; [intros; lia|split; intros; lia]]. intros _. rewrite C5 by lia. apply N2; lia. }
        assert (H3 : (i = 11 \/ i = 12 \/ i = 13)%nat) by (unfold known in Hi; lia). destruct H3 as [-> |[-> | ->]].
        * (* the parameters *)
          rewrite upd_nth by lia. rewrite !upd_nth_other by lia. split; [auto|]. split; [auto|]. split; [auto|]. split; [lia|]. split; [intros; lia|]. split; [intros; lia|].
          split; [intros; split; [rewrite C4, P7 by lia; apply I7; lia|apply N12; lia]|]. split; [intros; apply N13; lia|].
          split; [intros _; rewrite C5 by lia; apply N2; lia|]. split; [|split; intros; lia]. intros _. right. exists pos. split; [|apply OFF; lia].
          exists r1, l, r2, (nth 11 (p_vals stp) VNone), (p_cx stp), cx. rewrite P1 in KR. change (typ_at ifs 11) with 36%N in TY. subst typ. split; [exact T1|]. split; [exact T2|]. split; [exact R2|]. exact KR.
        * (* the signature info *)
          rewrite upd_nth by lia. rewrite !upd_nth_other by lia. split; [auto|]. split; [auto|]. split; [auto|]. split; [lia|]. split; [intros; lia|]. split; [intros; lia|].
          split; [intros; lia|]. split; [intros; apply N13; lia|].
          split; [intros _; rewrite C5 by lia; apply N2; lia|]. split; [intros; lia|]. split; [|intros; lia]. intros _.
          destruct (Z_lt_le_dec (p_prog st) 11) as [L11|L11]; [left; apply N11; auto|]. destruct (P5 _ K11) as [E11|E11]; [|auto]. rewrite E11.
          destruct I10 as [X|(p & X1 & X2)]; [lia|auto|]. right. right. exists p, (RBuf b pos). rewrite RP in X1. split; [exact X1|]. split.
          2:{ rewrite C3. destruct P8 as [-> |[P8 _]]; [auto|lia]. }
          exists pos, r1, l, r2, (nth 12 (p_vals stp) VNone), (p_cx stp), cx. rewrite P1 in KR. change (typ_at ifs 12) with 44%N in TY. subst typ. split; [reflexivity|]. split; [exact T1|]. split; [exact T2|]. split; [exact R2|].
          split; [exact P4|]. split; [rewrite P7; apply I7; lia|]. exact KR.
        * (* the signature *)
          rewrite upd_nth by lia. rewrite !upd_nth_other by lia. split; [auto|]. split; [auto|]. split; [auto|]. split; [lia|]. split; [intros; lia|]. split; [intros; lia|].
          split; [intros; lia|]. split; [intros; lia|]. split; [intros; lia|]. split; [intros; lia|]. split; [intros; lia|]. intros _.
          destruct (Z_lt_le_dec (p_prog st) 12) as [L12|L12]; [right; right; left; apply N12; auto|].
          destruct N2 as [N2|(nm & N2 & NA)]; [lia|lia|auto|]. destruct (P5 _ K11) as [E11|E11]; [|auto]. destruct (P5 _ K12) as [E12|E12]; [|auto].
          destruct I11 as [X|[X|(p & rd & X1 & X2 & X3)]]; [lia|rewrite <- E11 in X; auto|rewrite <- E12 in X; auto|]. right. right. right. right.
          unfold final. cbn [p_vals p_cx]. rewrite !upd_nth_other by lia. rewrite E11, E12. rewrite RP in X2.
          cbn [fh_read] in KR. unfold typ_at, kind_at, ifs in KR. cbn [m_fields spec_Interest map nth fst snd k_read] in KR.
          apply soft_keep in KR. destruct KR as (y & q1 & KR & EQ). destruct y; [discriminate|]. destruct (r_range _ _ _) as [g| | |] eqn:RG; try discriminate. cbn [bind] in KR. injection KR as <- <- <-.
          exists nm, (x_cov (nth 0 (p_cx stp) XNone)), p, rd, (x_off (nth 9 (p_cx stp) XNone)), pos, g. split; [exact N2|]. split; [exact NA|]. split; [exact X1|]. split; [exact X2|].
          split. { destruct P8 as [-> |[P8 _]]; [auto|lia]. }
          split. { destruct (buf_reader _ _ BR) as (q2 & ->). exact RG. }
          rewrite upd_nth by lia. reflexivity.
      + cbn [p_prog] in PG. apply (inv_passed b pos st r2); auto. lia.
    - assert (EN : n = Z.to_nat (15 - p_prog st)) by reflexivity. clearbody n. destruct n as [|m].
      { cbn [ordered_loop] in H. injection H as <-. apply (inv_passed b pos st r2); auto; [apply passed_refl; auto|cbn [p_prog]; lia]. }
      cbn [ordered_loop] in H. rewrite FF in H. unfold do_default in H. destruct (negb ic && is_critical typ); [discriminate|]. cbn [p_rd] in H.
      pose proof (kr_skip (to_int l) r2) as K. destruct (r_skip (to_int l) r2) as [[x|e| |] r3]; cbn [soft bind] in H; try discriminate. injection H as <-. cbn [snd] in K. rewrite R2 in K.
      unfold inv, p_next. cbn [p_rd p_prog p_vals p_cx p_done]. split; [auto|]. split; [auto|]. split; [auto|]. split; [lia|]. split; [intros; apply I5; lia|]. split; [intros; apply I6; lia|]. split; [intros; apply I7; lia|]. split; [intros; apply I8; lia|].
      split. { intros L. destruct (Z_lt_le_dec (p_prog st) 2); [left; apply I5; auto|apply I9; lia]. }
      split; [intros; left; apply I6; lia|]. split; [intros; right; left; apply I7; lia|]. intros L.
      destruct (Z_lt_le_dec (p_prog st) 13); [right; right; right; left; apply I8; auto|]. destruct I12 as [X|[X|[X|[X|X]]]]; auto.
  Qed.

  Lemma inv_loop : forall f b st st', inv b st -> parse_loop f true ic hs st = Ok st' -> inv b st'.
  Proof.
    induction f as [|f IH]; intros b st st' HI H; [discriminate|]. pose proof HI as (RB & _). apply (loop_inv ic f true hs st b st' RB) in H.
    destruct H as (pos & RP & [[_ ->]|(_ & typ & l & r1 & r2 & st1 & T1 & T2 & R2 & DE & H)]); [auto|]. apply (IH b st1); auto. eapply inv_elem; eauto.
  Qed.

  (** the fields that were not met *)
  Lemma rest_int : forall k i sp st st', (k + i = 15)%nat -> length (p_vals st) = 15%nat -> length (p_cx st) = 15%nat -> skip_rest i sp (skipn i hs) st = Ok st' ->
    nth 0 (p_cx st') XNone = nth 0 (p_cx st) XNone /\ forall j, key j -> nth j (p_vals st') VNone = nth j (p_vals st) VNone \/ nth j (p_vals st') VNone = VNone.
  Proof.
    induction k as [|k IH]; intros i sp st st' K LV LC H.
    - replace i with 15%nat in H by lia. change (skipn 15 hs) with (@nil fhandler) in H. cbn [skip_rest] in H. injection H as <-. auto.
    - rewrite (skipn_nth_cons hs i (hd i)) in H by (apply ihs_nth; lia). cbn [skip_rest] in H.
      destruct (nth i (p_done st) false); [apply IH in H; auto; lia|].
      destruct (k_skip _ _ _ _ _ _ _) as [[[[e v] cx] r]| | |] eqn:KS; try discriminate. cbn [bind] in H. destruct e; try discriminate.
      apply skip_icx in KS; auto; [|lia]. destruct KS as (-> & K1 & K2 & K3 & _). apply IH in H; cbn [p_vals p_cx]; rewrite ?upd_length; auto; [|lia]. cbn [p_vals p_cx] in H. destruct H as [H1 H2]. split; [congruence|].
      intros j KJ. destruct (H2 j KJ) as [-> | ->]; [|auto]. destruct (Nat.eq_dec i j) as [<-|NE]; [right; rewrite upd_nth by lia; auto|left; apply upd_nth_other; auto].
  Qed.

  Lemma rest_int0 : forall sp st st', length (p_vals st) = 15%nat -> length (p_cx st) = 15%nat -> skip_rest 0 sp hs st = Ok st' ->
    nth 0 (p_cx st') XNone = nth 0 (p_cx st) XNone /\ forall j, key j -> nth j (p_vals st') VNone = nth j (p_vals st) VNone \/ nth j (p_vals st') VNone = VNone.
  Proof.
    intros sp st st' LV LC H. assert (E : skipn 0 hs = hs) by reflexivity. rewrite <- E in H. apply (rest_int 15 0 sp st st' eq_refl LV LC H).
  Qed.
  Lemma inv_start : forall b pos, inv b (mkPS (map (fun h => k_zero (fh_kind h)) hs) (m_ctx (Model true true ifs)) (RBuf b pos) (-1) (map (fun _ => false) hs)).
  Proof. intros. unfold inv. cbn [p_rd p_prog p_vals p_cx]. repeat split; try reflexivity; try lia; intros; try lia. Qed.

  Lemma int_end : forall b stE sp stF, inv b stE -> skip_rest 0 sp hs stE = Ok stF ->
    val stF 2 <> VNone -> val stF 11 <> VNone -> val stF 12 <> VNone -> val stF 13 <> VNone -> final b stF.
  Proof.
    intros b stE sp stF (_ & LV & LC & _ & I5 & I6 & I7 & I8 & _ & _ & _ & I12) SR V2 V11 V12 V13.
    apply rest_int0 in SR; auto. destruct SR as [S1 S2]. unfold key in S2.
    destruct (S2 2%nat) as [E2|E2]; [auto| |congruence]. destruct (S2 11%nat) as [E11|E11]; [auto| |congruence]. destruct (S2 12%nat) as [E12|E12]; [auto| |congruence]. destruct (S2 13%nat) as [E13|E13]; [auto| |congruence].
    destruct (Z_lt_le_dec (p_prog stE) 13) as [L|L]; [exfalso; apply V13; rewrite E13; apply I8; auto|].
    destruct (I12 L) as [X|[X|[X|[X|X]]]]; try congruence. unfold final in *. rewrite E2, E11, E12, S1. exact X.
  Qed.
  Lemma run_states : forall (h : list fhandler) cx0 r i cx, run_parse F true ic h cx0 r = Ok (i, cx) ->
    exists stE sp stF, parse_loop F true ic h (mkPS (map (fun h => k_zero (fh_kind h)) h) cx0 r (-1) (map (fun _ => false) h)) = Ok stE /\ skip_rest 0 sp h stE = Ok stF /\ i = p_vals stF /\ cx = p_cx stF.
  Proof.
    intros h cx0 r i cx H. unfold run_parse in H. destruct (parse_loop _ _ _ _ _) as [stE| | |] eqn:PL; try discriminate. cbn [bind] in H.
    destruct (r_pos (p_rd stE)) as [sp| | |]; try discriminate. cbn [bind] in H. destruct (skip_rest _ _ _ _) as [stF| | |] eqn:SR; try discriminate. cbn [bind] in H.
    exists stE, sp, stF. injection H as <- <-. auto.
  Qed.
  Theorem int_run : forall b i cx, run_parse F true ic hs (m_ctx (Model true true ifs)) (RBuf b 0) = Ok (i, cx) ->
    nth 2 i VNone <> VNone -> nth 11 i VNone <> VNone -> nth 12 i VNone <> VNone -> nth 13 i VNone <> VNone ->
    exists st, i = p_vals st /\ cx = p_cx st /\ final b st.
  Proof.
    intros b i cx H V2 V11 V12 V13. apply run_states in H. destruct H as (stE & sp & stF & PL & SR & -> & ->). exists stF. split; [reflexivity|]. split; [reflexivity|].
    apply (int_end b stE sp stF); auto. exact (inv_loop F b _ stE (inv_start b 0) PL).
  Qed.
End Interest.
