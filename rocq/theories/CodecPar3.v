(** Parsing back what was encoded: the loop of a structure. *)
From Verif Require Import Base BaseProofs PrimModel PrimProofs ReaderModel ReaderSpec ReaderProofs ReaderProofs2 ReaderProofs3 ReaderProofs4 NameModel NameProofs CodecModel CodecSpec CodecProofs CodecEnc CodecEnc2 CodecEnc3 CodecEnc4 CodecSpec2 CodecPar CodecPar2 CodecKeep.

Lemma skipn_nth_cons : forall {A} (l : list A) i x, nth_error l i = Some x -> skipn i l = x :: skipn (S i) l.
Proof. induction l as [|a l IH]; intros [|i] x H; try discriminate; cbn in *; [congruence|]. apply IH. auto. Qed.

Lemma upd_same : forall {A} (l : list A) i d, (i < length l)%nat -> upd l i (nth i l d) = l.
Proof.
  intros A l i d H. apply (nth_ext _ _ d d); [apply upd_length|]. intros n Hn. destruct (Nat.eq_dec i n) as [->|].
  - rewrite upd_length in Hn. apply upd_nth. auto.
  - apply upd_nth_other. auto.
Qed.

(** the reader can be used for the value [v], after its header *)
Definition rd_value (p : eparams) (hole : buf) (t : N) (k : kind) (v : value) (r : reader) (pre b : buf) : Prop :=
  is_buf_reader r \/ exists room, first_safe p hole room t k v /\ in_first (room - zlen (tl_enc t) - zlen (tl_enc (nlen b))) r pre.
Lemma rd_value_wire : forall p hole t k v r pre b, is_buf_reader r \/ wire_safe k v -> rd_value p hole t k v r pre b.
Proof.
  intros p hole t k v r pre b [H|H]; [left; exact H|]. right. destruct (in_first_ex (zlen (tl_enc t) + zlen (tl_enc (nlen b))) r pre) as (n & I).
  exists n. split; [constructor; exact H|]. eapply in_first_le; [|exact I]. lia.
Qed.

(** reading one element of a kind that may occur in sequences and maps *)
Definition RK (p : eparams) (hole : buf) (k : kind) : Prop :=
  forall F nc t i ic sp old cx r pre b rem v,
  plain_kind k = true -> wf_kind nc k = true -> pk_ok k = true -> shape k v -> typed k v -> rd_value p hole t k v r pre b ->
  k_body p hole k v = Some b -> At r pre (b ++ rem) -> (length b < F)%nat -> (zlen b < size_limit)%Z ->
  (i < length cx)%nat -> cx_ok k (nth i cx XNone) ->
  exists v' x r', k_read F t i k ic sp (nlen b) old cx r = Ok (None, v', upd cx i x, r') /\ same (back p hole k v) v'
    /\ At r' (pre ++ b) rem /\ same_kind r r' /\ cx_ok k x /\ (nth i cx XNone = k_ctx k -> cx_fin p hole k v x).

Definition RKs (p : eparams) (hole : buf) (k : kind) : Prop :=
  match k with KSeq s => RK p hole s | KMap a _ b => RK p hole a /\ RK p hole b | k => RK p hole k end.

Lemma present_body : forall p hole k v, plain_kind k = true -> shape k v -> present k v -> exists b, k_body p hole k v = Some b.
Proof.
  intros p hole k v P S H. destruct k as [| | | | | | | |[nc o fs] n| | | | | | |]; try discriminate; destruct v as [| | | | | |[]| | |]; cbn in *; try contradiction; eauto.
Qed.

Lemma same_nat : forall n v, same (VNat n) v -> v = VNat n.
Proof. intros n v H. inversion H; auto. Qed.
Lemma same_bytes : forall b v, same (VBytes b) v -> v = VBytes b.
Proof. intros n v H. inversion H; auto. Qed.

Lemma key_eqb_neq : forall key a b, match key with KNat false | KStr false => true | _ => false end = true -> shape key a -> shape key b ->
  a <> b -> value_key_eqb a b = false.
Proof.
  intros key a b H Sa Sb N. destruct key as [[]| | | |[]| | | | | | | | | | |]; try discriminate; destruct a; cbn in Sa; try contradiction; try discriminate;
    destruct b; cbn in Sb; try contradiction; try discriminate; cbn [value_key_eqb].
  all: try (apply N.eqb_neq; congruence).
  unfold bytes_eqb. match goal with |- context [list_eq_dec N.eq_dec ?x ?y] => destruct (list_eq_dec N.eq_dec x y) end; [congruence|auto].
Qed.

Lemma map_put_new : forall k v l, Forall (fun e => value_key_eqb (fst e) k = false) l -> map_put k v l = l ++ [(k, v)].
Proof. intros k v l H. induction H as [|e l H _ IH]; auto. cbn [map_put app]. rewrite H, IH. reflexivity. Qed.

Lemma zlen_length : forall {A} (a : list A), zlen a = Z.of_nat (length a).
Proof. reflexivity. Qed.

Lemma u64_len : forall b : buf, (zlen b < size_limit)%Z -> u64_ok (nlen b).
Proof. intros b H. unfold u64_ok, two64, size_limit in *. pose proof (zlen_of_nlen b). lia. Qed.

Section Loop.
  Context (p : eparams) (hole : buf) (HH : nlen hole = ep_est p).
  Context (nc o ic : bool) (fs : list (N * kind)) (vs : list value) (F : nat) (pre0 : buf) (cx0 : list pcx).
  Context (WF : wf_fields nc fs = true) (OK : fields_ok o fs = true) (Lv : length vs = length fs).
  Context (SH : fs_shape fs vs) (Lc : length cx0 = length fs).

  Notation n := (length fs).
  Notation upto i := (fs_bytes p hole (firstn i fs) (firstn i vs)).
  Notation rest i := (fs_bytes p hole (skipn i fs) (skipn i vs)).
  Notation V i := (nth i vs VNone).
  Notation K i := (kind_at fs i).
  Notation T i := (typ_at fs i).
  Notation kb i := (k_bytes p hole (T i) (K i) (V i)).
  Notation hs := (fs_handlers F 0 fs).
  Notation CXI := (CXI p hole fs vs pre0 cx0).
  Notation skippable := (skippable p hole fs vs).
  Notation RDB := (RDB p hole fs vs pre0).
  Notation handler i := (mkFH (T i) (K i) (k_read F (T i) i (K i))).
  Notation bk i := (back p hole (K i) (V i)).

  Lemma ok_parts : forallb (fun f => pk_ok (snd f)) fs = true /\ distinct (elem_types fs) = true
    /\ forallb (fun f => if is_marker (snd f) then (fst f =? 0)%N else ((0 <? fst f) && (fst f <? two64))%N) fs = true
    /\ (o = false -> forall i, (i < n)%nat -> markful (K i) = false).
  Proof.
    clear - OK. unfold fields_ok in OK. rewrite !andb_true_iff in OK. destruct OK as (((A & B) & C) & D). repeat split; auto.
    intros -> i Hi. cbn [orb] in D. pose proof (forallb_at _ _ _ D Hi) as X. cbn [snd] in X. rewrite negb_true_iff in X. auto.
  Qed.

  Definition VI (j : nat) (cur : value) (b0 : buf) (st : pstate) : Prop :=
    length (p_vals st) = n /\ length (p_done st) = n
    /\ (forall i, (i < j)%nat -> (i < n)%nat -> (nth i (p_done st) false = true /\ same (bk i) (nth i (p_vals st) VNone))
          \/ (nth i (p_done st) false = false /\ skippable i (nth i (p_vals st) VNone)))
    /\ ((j < n)%nat -> nth j (p_vals st) VNone = cur /\ (b0 = [] -> nth j (p_done st) false = false))
    /\ (forall i, (j < i < n)%nat -> nth i (p_vals st) VNone = k_zero (K i) /\ nth i (p_done st) false = false).

  Definition ORD (q j : nat) (b0 : buf) (st : pstate) : Prop :=
    p_prog st = (Z.of_nat q - 1)%Z /\ (q <= j)%nat
    /\ (forall i, (i < q)%nat -> (i < n)%nat -> nth i (p_done st) false = true)
    /\ (forall i, (q <= i < j)%nat -> (i < n)%nat -> skippable i (nth i (p_vals st) VNone) /\ (i = q /\ is_rep (K i) = true \/ kb i = []))
    /\ (forall i, (q <= i)%nat -> nth i (p_done st) false = true -> is_rep (K i) = true)
    /\ (b0 <> [] -> q = j).

  Definition PI (q j : nat) (cur : value) (b0 : buf) (st : pstate) : Prop :=
    VI j cur b0 st /\ CXI q j (p_cx st) /\ (o = true -> ORD q j b0 st).

  Lemma cxi_S : forall i j cx, (i < n)%nat -> markful (K i) = false -> CXI i j cx -> CXI (S i) j cx.
  Proof.
    intros i j cx Hi MK (H1 & H2 & H3 & H4 & H5 & H6). split; [auto|]. split; [|split; [|auto]].
    - intros a Ha E. destruct (Nat.eq_dec a i) as [->|]; [rewrite E in MK; discriminate|]. apply H2; auto. lia.
    - intros a E. rewrite covered_S, H3 by auto. unfold cover_step. destruct (K i); try discriminate; reflexivity.
  Qed.

  Lemma cxi_any : forall q q' j cx, o = false -> CXI q j cx -> CXI q' j cx.
  Proof.
    intros q q' j cx O (H1 & H2 & H3 & H4 & H5 & H6). destruct ok_parts as (_ & _ & _ & NM). specialize (NM O).
    assert (NK : forall i, markful (K i) = false).
    { intros i. destruct (lt_dec i n) as [L|L]; [auto|]. unfold kind_at. rewrite nth_overflow by (rewrite map_length; lia). reflexivity. }
    split; [auto|]. split; [|split; [|auto]].
    - intros a _ E. specialize (NK a). rewrite E in NK. discriminate.
    - intros a E. specialize (NK a). rewrite E in NK. discriminate.
  Qed.

  Lemma upto_same : forall j q, (q <= j)%nat -> (j <= n)%nat -> (forall i, (q <= i < j)%nat -> kb i = []) -> upto q = upto j.
  Proof.
    induction j as [|j IH]; intros q Q J H; [replace q with 0%nat by lia; auto|].
    destruct (Nat.eq_dec q (S j)) as [->|]; [auto|]. rewrite (fs_upto_S p hole fs vs j) by lia. rewrite (H j) by lia.
    rewrite app_nil_r. apply IH; try lia. intros i Hi. apply H. lia.
  Qed.

  (** the fields passed over before an element of field [j] *)
  Lemma pass_to : forall d q j cur b0 st typ l h,
    o = true -> (d = j - q)%nat -> (j < n)%nat -> find_field typ 0 hs = Some (j, h) ->
    PI q j cur b0 st -> (forall i, (i < n)%nat -> markful (K i) = true -> RDB i (p_rd st)) ->
    exists st', PI j j cur b0 st' /\ p_rd st' = p_rd st
      /\ ordered_loop (Z.to_nat (zlen hs - p_prog st)) ic typ l (zlen (pre0 ++ upto j ++ b0)) hs st
         = ordered_loop (Z.to_nat (zlen hs - p_prog st')) ic typ l (zlen (pre0 ++ upto j ++ b0)) hs st'.
  Proof.
    induction d as [|d IH]; intros q j cur b0 st typ l h O Hd Hj FF (HV & HC & HO) MB.
    - destruct (HO O) as (_ & Q & _). assert (q = j) by lia. subst q. exists st. split; [split; [|split]; auto|]. split; auto.
    - destruct (HO O) as (P1 & Q & P3 & P4 & P5 & P6). destruct HV as (V1 & V2 & V3 & V4 & V5).
      assert (Hq : (q < n)%nat) by lia. destruct (P4 q) as [SK KB]; [lia|auto|].
      assert (EB : b0 = []) by (destruct b0; auto; specialize (P6 ltac:(discriminate)); lia).
      assert (MK : markful (K q) = true -> RDB q (p_rd st) /\ zlen (pre0 ++ upto j ++ b0) = zlen (pre0 ++ upto q)).
      { intros M. split; [eauto|]. rewrite (upto_same j q); try lia; [subst b0; rewrite app_nil_r; auto|].
        intros i Hi. destruct (P4 i) as [_ [[E R]|E]]; try lia; auto. subst i. destruct (K q); discriminate. }
      destruct (pass_one p hole HH nc o fs vs pre0 cx0 WF Lv SH Lc q j _ _ (p_cx st) (p_rd st) Hq HC SK MK) as (v' & cx' & E & C' & S').
      assert (N1 : Z.to_nat (zlen hs - p_prog st) = Datatypes.S (Z.to_nat (zlen hs - (p_prog st + 1)))).
      { rewrite P1. unfold zlen. rewrite handlers_len. lia. }
      assert (N2 : Z.to_nat (p_prog st + 1) = q) by (rewrite P1; lia).
      set (st1 := p_next (mkPS (upd (p_vals st) q v') cx' (p_rd st) (p_prog st) (upd (p_done st) q true))).
      destruct (IH (Datatypes.S q) j cur b0 st1 typ l h O) as (st' & I' & R' & E'); auto; try lia.
      { split; [|split].
        - unfold VI, st1. cbn [p_next p_vals p_done]. rewrite !upd_length. split; [auto|]. split; [auto|]. split; [|split].
          + intros i Hi Hn. destruct (Nat.eq_dec q i) as [<-|NE].
            * left. rewrite !upd_nth by lia. auto.
            * rewrite !upd_nth_other by auto. auto.
          + intros Hn. rewrite !upd_nth_other by lia. auto.
          + intros i Hi. rewrite !upd_nth_other by lia. auto.
        - exact C'.
        - intros _. unfold ORD, st1. cbn [p_next p_vals p_done p_prog]. split; [lia|]. split; [lia|]. split; [|split; [|split]].
          + intros i Hi Hn. destruct (Nat.eq_dec q i) as [<-|NE]; [rewrite upd_nth by lia; auto|]. rewrite upd_nth_other by auto. apply P3; lia.
          + intros i Hi Hn. rewrite upd_nth_other by lia. destruct (P4 i) as [A B]; try lia. split; auto. right. destruct B as [[B _]|B]; [lia|auto].
          + intros i Hi Hn. rewrite upd_nth_other in Hn by lia. apply P5; auto. lia.
          + intros B. congruence. }
      exists st'. split; [auto|]. split; [rewrite R'; auto|]. rewrite <- E'. rewrite N1. cbn [ordered_loop]. rewrite FF.
      assert (NP : (p_prog st + 1 =? Z.of_nat j)%Z = false) by (rewrite P1; lia). rewrite NP.
      unfold do_pass. rewrite N2. rewrite (handlers_nth F fs q 0 Hq). cbn [fh_typ fh_kind Nat.add]. rewrite E. cbn [bind]. reflexivity.
  Qed.

  Lemma find_at : forall j, (j < n)%nat -> is_marker (K j) = false -> find_field (T j) 0 hs = Some (j, handler j) /\ (0 < T j < two64)%N.
  Proof.
    intros j Hj M. destruct ok_parts as (_ & D & X & _). split; [apply (find_field_at F fs j 0 D X Hj M)|].
    pose proof (forallb_at _ _ _ X Hj) as Y. cbn [fst snd] in Y. rewrite M in Y. lia.
  Qed.

  Lemma elem_step : forall q j cur b0 st l, (j < n)%nat -> is_marker (K j) = false -> PI q j cur b0 st ->
    (forall i, (i < n)%nat -> markful (K i) = true -> RDB i (p_rd st)) ->
    exists st1, PI j j cur b0 st1 /\ p_rd st1 = p_rd st
      /\ do_elem o ic (T j) l (zlen (pre0 ++ upto j ++ b0)) hs st
         = (do st2 <- do_read ic (T j) l (zlen (pre0 ++ upto j ++ b0)) j (handler j) st1; Ok (if o then p_next st2 else st2)).
  Proof.
    intros q j cur b0 st l Hj M HI MB. destruct (find_at j Hj M) as [FF _]. unfold do_elem. destruct o eqn:O; cycle 1.
    - exists st. destruct HI as (A & B & C). split; [split; [auto|split; [|intros X; congruence]]|split; [auto|]].
      { rewrite <- O in *. eapply cxi_any; eauto. }
      rewrite FF. destruct (do_read _ _ _ _ _ _ _); reflexivity.
    - destruct (pass_to (j - q) q j cur b0 st (T j) l (handler j) O eq_refl Hj FF HI MB) as (st1 & I1 & R1 & E1).
      exists st1. split; [auto|]. split; [auto|]. rewrite E1. destruct I1 as (_ & _ & I1). destruct (I1 O) as (P1 & _).
      assert (N1 : Z.to_nat (zlen hs - p_prog st1) = Datatypes.S (Z.to_nat (zlen hs - (p_prog st1 + 1)))).
      { rewrite P1. unfold zlen. rewrite handlers_len. lia. }
      rewrite N1. cbn [ordered_loop]. rewrite FF. assert (NP : (p_prog st1 + 1 =? Z.of_nat j)%Z = true) by (rewrite P1; lia). rewrite NP. reflexivity.
  Qed.

  (** the outer loop *)
  Lemma loop_elem : forall f st pr t l rem, At (p_rd st) pr (tl_enc t ++ tl_enc l ++ rem) -> u64_ok t -> u64_ok l ->
    exists r2, At r2 (pr ++ tl_enc t ++ tl_enc l) rem /\ reader_wire r2 = reader_wire (p_rd st)
      /\ parse_loop (S f) o ic hs st = (do st' <- do_elem o ic t l (zlen pr) hs (mkPS (p_vals st) (p_cx st) r2 (p_prog st) (p_done st)); parse_loop f o ic hs st').
  Proof.
    intros f st pr t l rem A Ht Hl. destruct (at_read_tl t _ _ _ Ht A) as (r1 & R1 & A1 & K1). destruct (at_read_tl l _ _ _ Hl A1) as (r2 & R2 & A2 & K2).
    exists r2. rewrite <- app_assoc in A2. split; [auto|]. pose proof (kw_tl (p_rd st)) as W1. pose proof (kw_tl r1) as W2. rewrite R1 in W1. rewrite R2 in W2. cbn [snd] in W1, W2. split; [congruence|]. cbn [parse_loop].
    rewrite (at_pos _ _ _ A), (at_length _ _ _ A). cbn [bind]. pose proof (tl_enc_pos t). zl.
    destruct (Z.leb_spec (zlen (pr ++ tl_enc t ++ tl_enc l ++ rem)) (zlen pr)) as [Q|Q].
    { rewrite !zlen_app in Q. zl. rewrite (zlen_nlen (tl_enc t)) in Q. lia. }
    rewrite R1. cbn [soft]. rewrite R2. cbn [soft]. reflexivity.
  Qed.

  Lemma loop_end : forall f st pr, At (p_rd st) pr [] -> parse_loop (S f) o ic hs st = Ok st.
  Proof.
    intros f st pr A. cbn [parse_loop]. rewrite (at_pos _ _ _ A), (at_length _ _ _ A). cbn [bind]. rewrite app_nil_r, Z.leb_refl. reflexivity.
  Qed.

  (** after a field that is one element *)
  Lemma after_single : forall j st1 v cx r, (j < n)%nat -> PI j j (k_zero (K j)) [] st1 -> is_rep (K j) = false ->
    same (bk j) v -> CXI (S j) (S j) cx ->
    PI (S j) (S j) (k_zero (K (S j))) []
      (let st2 := mkPS (upd (p_vals st1) j v) cx r (p_prog st1 - k_back (K j)) (upd (p_done st1) j true) in if o then p_next st2 else st2).
  Proof.
    intros j st1 v cx r Hj (HV & _ & HO) NR SV HC. destruct HV as (V1 & V2 & V3 & V4 & V5). cbv zeta.
    assert (EQ : forall st2, p_vals (if o then p_next st2 else st2) = p_vals st2 /\ p_done (if o then p_next st2 else st2) = p_done st2
      /\ p_cx (if o then p_next st2 else st2) = p_cx st2) by (intros; destruct o; auto).
    split; [|split].
    - unfold VI. destruct (EQ (mkPS (upd (p_vals st1) j v) cx r (p_prog st1 - k_back (K j)) (upd (p_done st1) j true))) as (-> & -> & _). cbn [p_vals p_done].
      rewrite !upd_length. split; [auto|]. split; [auto|]. split; [|split].
      + intros i Hi Hn. destruct (Nat.eq_dec j i) as [<-|NE].
        * left. rewrite !upd_nth by lia. auto.
        * rewrite !upd_nth_other by auto. apply V3; lia.
      + intros Hn. rewrite !upd_nth_other by lia. destruct (V5 (S j)) as [A B]; [lia|]. auto.
      + intros i Hi. rewrite !upd_nth_other by lia. apply V5. lia.
    - destruct (EQ (mkPS (upd (p_vals st1) j v) cx r (p_prog st1 - k_back (K j)) (upd (p_done st1) j true))) as (_ & _ & ->). exact HC.
    - intros O. rewrite O. destruct (HO O) as (P1 & Q & P3 & P4 & P5 & P6).
      assert (KB0 : k_back (K j) = 0%Z) by (destruct (K j); try discriminate; reflexivity).
      unfold ORD. cbn [p_next p_vals p_done p_prog]. split; [lia|]. split; [lia|]. split; [|split; [|split]].
      + intros i Hi Hn. destruct (Nat.eq_dec j i) as [<-|NE]; [rewrite upd_nth by lia; auto|]. rewrite upd_nth_other by auto. apply P3; lia.
      + intros i Hi. lia.
      + intros i Hi Hn. rewrite upd_nth_other in Hn by lia. apply P5; auto. lia.
      + intros B. congruence.
  Qed.

  (** after an element of a sequence or map *)
  Lemma after_rep : forall j st1 cur b0 b1 v cx r, (j < n)%nat -> PI j j cur b0 st1 -> is_rep (K j) = true -> b1 <> [] -> CXI j j cx ->
    PI j j v b1
      (let st2 := mkPS (upd (p_vals st1) j v) cx r (p_prog st1 - k_back (K j)) (upd (p_done st1) j true) in if o then p_next st2 else st2).
  Proof.
    intros j st1 cur b0 b1 v cx r Hj (HV & _ & HO) NR B1 HC. destruct HV as (V1 & V2 & V3 & V4 & V5). cbv zeta.
    assert (EQ : forall st2, p_vals (if o then p_next st2 else st2) = p_vals st2 /\ p_done (if o then p_next st2 else st2) = p_done st2
      /\ p_cx (if o then p_next st2 else st2) = p_cx st2) by (intros; destruct o; auto).
    split; [|split].
    - unfold VI. destruct (EQ (mkPS (upd (p_vals st1) j v) cx r (p_prog st1 - k_back (K j)) (upd (p_done st1) j true))) as (-> & -> & _). cbn [p_vals p_done].
      rewrite !upd_length. split; [auto|]. split; [auto|]. split; [|split].
      + intros i Hi Hn. rewrite !upd_nth_other by lia. apply V3; lia.
      + intros Hn. rewrite !upd_nth by lia. split; auto. congruence.
      + intros i Hi. rewrite !upd_nth_other by lia. apply V5. lia.
    - destruct (EQ (mkPS (upd (p_vals st1) j v) cx r (p_prog st1 - k_back (K j)) (upd (p_done st1) j true))) as (_ & _ & ->). exact HC.
    - intros O. rewrite O. destruct (HO O) as (P1 & Q & P3 & P4 & P5 & P6).
      assert (KB0 : k_back (K j) = 1%Z) by (destruct (K j); try discriminate; reflexivity).
      unfold ORD. cbn [p_next p_vals p_done p_prog]. split; [lia|]. split; [lia|]. split; [|split; [|split]].
      + intros i Hi Hn. rewrite upd_nth_other by lia. apply P3; lia.
      + intros i Hi. lia.
      + intros i Hi Hn. destruct (Nat.eq_dec j i) as [<-|NE]; auto. rewrite upd_nth_other in Hn by lia. apply P5; auto.
      + auto.
  Qed.

  (** a field that is finished without further elements *)
  Lemma next_field : forall q j cur b0 st, (j < n)%nat -> PI q j cur b0 st -> skippable j cur -> b0 = kb j ->
    cx_fin p hole (K j) (V j) (nth j (p_cx st) XNone) ->
    PI q (S j) (k_zero (K (S j))) [] st.
  Proof.
    intros q j cur b0 st Hj (HV & HC & HO) SK EB FN. destruct HV as (V1 & V2 & V3 & V4 & V5). destruct (V4 Hj) as [V4a V4b].
    split; [|split].
    - split; [auto|]. split; [auto|]. split; [|split].
      + intros i Hi Hn. destruct (Nat.eq_dec i j) as [->|]; [|apply V3; lia]. destruct (nth j (p_done st) false) eqn:D.
        * left. split; auto. rewrite V4a. destruct SK as [[R S]|(R & B & E)]; auto. exfalso.
          assert (X : b0 = []) by (rewrite EB, (k_bytes_body p hole HH) by auto; rewrite B; auto). specialize (V4b X). discriminate.
        * right. rewrite V4a. auto.
      + intros Hn. destruct (V5 (S j)) as [A B]; [lia|]. auto.
      + intros i Hi. apply V5. lia.
    - destruct HC as (H1 & H2 & H3 & H4 & H5 & H6). split; [auto|]. split; [auto|]. split; [auto|]. split; [auto|]. split.
      + intros i s m Hi. apply H5. lia.
      + intros i Hi E. destruct (Nat.eq_dec i j) as [->|]; [exact FN|]. apply H6; auto. lia.
    - intros O. destruct (HO O) as (P1 & Q & P3 & P4 & P5 & P6). split; [auto|]. split; [lia|]. split; [auto|]. split; [|split; [auto|congruence]].
      intros i Hi Hn. destruct (Nat.eq_dec i j) as [->|]; [|apply P4; lia]. rewrite V4a. split; auto.
      destruct b0 as [|x b0]; [right; auto|]. left. split; [symmetry; apply P6; discriminate|]. destruct SK as [[R S]|(R & B & E)]; auto.
      exfalso. rewrite (k_bytes_body p hole HH), B in EB by auto. discriminate.
  Qed.

  Notation all := (fs_bytes p hole fs vs).
  Context (TY : fs_typed fs vs) (RKS : forall i, (i < length fs)%nat -> RKs p hole (kind_at fs i)).

  Context (SZ : (zlen all < size_limit)%Z) (FU : (length all < F)%nat).

  Lemma wf_at : forall i, (i < n)%nat -> wf_kind nc (K i) = true.
  Proof. intros i Hi. destruct (at_f fs i Hi) as (f & E1 & E2 & _). rewrite E2. apply (wf_mark_at nc fs i f WF E1). Qed.
  Lemma wfm_at : forall i, (i < n)%nat -> wf_mark nc fs i (K i) = true.
  Proof. intros i Hi. destruct (at_f fs i Hi) as (f & E1 & E2 & _). rewrite E2. apply (wf_mark_at nc fs i f WF E1). Qed.
  Lemma pk_at : forall i, (i < n)%nat -> pk_ok (K i) = true.
  Proof. intros i Hi. destruct (ok_parts) as (A & _). apply (forallb_at (fun f => pk_ok (snd f)) fs i A Hi). Qed.
  Lemma ty_at : forall i, (i < n)%nat -> typed (K i) (V i).
  Proof. exact (F2_at typed fs vs TY). Qed.

  (** the reader can be used for everything that is left *)
  Definition rd_ok (r : reader) : Prop := is_buf_reader r \/ exists room, fs_first p hole room fs vs /\ in_first room r pre0.
  Lemma rd_ok_sig : forall r j s c, rd_ok r -> (j < n)%nat -> K j = KSig s c -> exists n0, in_first n0 r (pre0 ++ upto s) /\ (0 < n0)%Z.
  Proof.
    intros r j s c [H|(room & H & I)] Hj E; [destruct r; [exists 1%Z; split; [exact Logic.I|lia]|contradiction]|].
    destruct (H j Hj) as [(s' & c' & E' & L)|FS]; [|rewrite E in FS; inversion FS; subst; contradiction].
    assert (s' = s) by congruence. subst s'. eexists. split; [apply in_first_app; exact I|]. lia.
  Qed.
  Lemma rd_ok_at : forall r j, rd_ok r -> (j < n)%nat -> (forall s c, K j <> KSig s c) ->
    is_buf_reader r \/ exists room, first_safe p hole room (T j) (K j) (V j) /\ in_first room r (pre0 ++ upto j).
  Proof.
    intros r j [H|(room & H & I)] Hj NS; [auto|]. right. destruct (H j Hj) as [(s' & c' & E' & L)|FS]; [elim (NS s' c'); exact E'|].
    eexists. split; [exact FS|]. apply in_first_app. exact I.
  Qed.
  Lemma rd_ok_value : forall r j b, rd_ok r -> (j < n)%nat -> (forall s c, K j <> KSig s c) ->
    rd_value p hole (T j) (K j) (V j) r (pre0 ++ upto j ++ tl_enc (T j) ++ tl_enc (nlen b)) b.
  Proof.
    intros r j b H Hj NS. destruct (rd_ok_at r j H Hj NS) as [B|(room & FS & I)]; [left; exact B|right]. exists room. split; [exact FS|].
    rewrite !app_assoc. apply in_first_app, in_first_app. exact I.
  Qed.
  Lemma rd_ok_same : forall r r', reader_wire r' = reader_wire r -> rd_ok r -> rd_ok r'.
  Proof.
    intros r r' E [H|(room & H & I)]; [left; destruct r, r'; cbn in *; try discriminate; auto|right]. exists room. split; [exact H|]. eapply in_first_wire; eauto.
  Qed.
  Lemma rdb : forall r pr rm, rd_ok r -> At r pr rm -> pr ++ rm = pre0 ++ all -> forall i, (i < n)%nat -> markful (K i) = true -> RDB i r.
  Proof.
    intros r pr rm H A E i Hi M. split; [|exists pr, rm; auto]. destruct (K i) eqn:EK; try exact I.
    destruct (rd_ok_at r i H Hi ltac:(intros; rewrite EK; discriminate)) as [B|(room & FS & _)]; [exact B|]. rewrite EK in FS. inversion FS; subst. contradiction.
  Qed.

  Lemma rest_S : forall j, (j < n)%nat -> rest j = kb j ++ rest (S j).
  Proof.
    intros j Hj. pose proof (fs_split p hole fs vs j Lv Hj) as E1.
    assert (E2 : all = upto j ++ rest j).
    { rewrite <- fs_bytes_app by (rewrite !firstn_length; lia). rewrite !firstn_skipn. reflexivity. }
    rewrite E2 in E1. apply app_inv_head in E1. exact E1.
  Qed.
  Lemma all_split : forall j, all = upto j ++ rest j.
  Proof. intros j. rewrite <- fs_bytes_app by (rewrite !firstn_length; lia). rewrite !firstn_skipn. reflexivity. Qed.

  Lemma body_small : forall j t b x y, (j < n)%nat -> kb j = x ++ tlv t b ++ y -> (length b < F)%nat /\ (zlen b < size_limit)%Z.
  Proof.
    intros j t b x y Hj E. pose proof (all_split j) as A. rewrite (rest_S j Hj), E in A. unfold tlv in A.
    assert (L : (length b <= length all)%nat) by (rewrite A, !app_length; lia). unfold zlen in *. split; lia.
  Qed.

  (** context changes made by elements *)
  Lemma cxi_single : forall j cx x, (j < n)%nat -> CXI j j cx -> plain_kind (K j) = true -> cx_ok (K j) x ->
    (nth j cx XNone = k_ctx (K j) -> cx_fin p hole (K j) (V j) x) -> CXI (S j) (S j) (upd cx j x).
  Proof.
    intros j cx x Hj (H1 & H2 & H3 & H4 & H5 & H6) P X1 X2. split; [rewrite upd_length; auto|]. split; [|split; [|split; [|split]]].
    - intros a Ha E. destruct (Nat.eq_dec j a) as [->|]; [rewrite E in P; discriminate|]. rewrite upd_nth_other by auto. apply H2; auto. lia.
    - intros a E. rewrite covered_S. assert (j <> a) by (intros ->; rewrite E in P; discriminate). rewrite upd_nth_other, H3 by auto.
      unfold cover_step. destruct (K j); try discriminate; reflexivity.
    - intros a Ha. destruct (Nat.eq_dec j a) as [->|]; [rewrite upd_nth by lia; auto|]. rewrite upd_nth_other by auto. auto.
    - intros a s m Ha E. rewrite upd_nth_other by lia. apply (H5 a s m); auto. lia.
    - intros a Ha E. destruct (Nat.eq_dec j a) as [<-|]; [|rewrite upd_nth_other by auto; apply H6; auto; lia].
      rewrite upd_nth by lia. destruct (K j) eqn:EK; try exact I. apply X2. rewrite <- E. apply (H5 j sub nocopy); auto.
  Qed.

  Lemma cxi_rep : forall j cx x, (j < n)%nat -> CXI j j cx -> is_rep (K j) = true -> cx_ok (K j) x -> CXI j j (upd cx j x).
  Proof.
    intros j cx x Hj (H1 & H2 & H3 & H4 & H5 & H6) P X1. split; [rewrite upd_length; auto|]. split; [|split; [|split; [|split]]].
    - intros a Ha E. rewrite upd_nth_other by lia. apply H2; auto.
    - intros a E. assert (j <> a) by (intros ->; rewrite E in P; discriminate). rewrite upd_nth_other, H3 by auto. reflexivity.
    - intros a Ha. destruct (Nat.eq_dec j a) as [->|]; [rewrite upd_nth by lia; auto|]. rewrite upd_nth_other by auto. auto.
    - intros a s m Ha E. assert (j <> a) by (intros ->; rewrite E in P; discriminate). rewrite upd_nth_other by lia. apply (H5 a s m); auto.
    - intros a Ha E. rewrite upd_nth_other by lia. apply H6; auto.
  Qed.

  Lemma cxi_cov : forall j cx cv w, (j < n)%nat -> CXI j j cx -> K cv = KArg -> K j <> KOffset -> (forall s m, K j <> KStruct s m) ->
    (forall a acc, K a = KArg -> cover_step p hole fs vs a acc j = if (cv =? a)%nat then acc ++ concat w else acc) ->
    CXI (S j) (S j) (upd cx cv (XCov (x_cov (nth cv cx XNone) ++ w))).
  Proof.
    intros j cx cv w Hj (H1 & H2 & H3 & H4 & H5 & H6) EC N1 N2 CS. assert (Lcv : (cv < n)%nat) by (apply kind_at_lt; congruence).
    split; [rewrite upd_length; auto|]. split; [|split; [|split; [|split]]].
    - intros a Ha E. rewrite upd_nth_other by congruence. apply H2; auto. destruct (Nat.eq_dec a j); [congruence|lia].
    - intros a E. rewrite covered_S, CS by auto. destruct (Nat.eqb_spec cv a) as [->|].
      + rewrite upd_nth by lia. cbn [x_cov]. rewrite concat_app, H3 by auto. reflexivity.
      + rewrite upd_nth_other by auto. apply H3. auto.
    - intros a Ha. destruct (Nat.eq_dec cv a) as [<-|]; [rewrite EC; exact I|]. rewrite upd_nth_other by auto. auto.
    - intros a s m Ha E. rewrite upd_nth_other by congruence. apply (H5 a s m); auto. lia.
    - intros a Ha E. destruct (Nat.eq_dec cv a) as [<-|]; [rewrite EC; exact I|]. rewrite upd_nth_other by auto.
      destruct (Nat.eq_dec a j) as [->|]; [|apply H6; auto; lia]. destruct (K j); try exact I. exfalso. eapply N2; eauto.
  Qed.

  (** one element of a field that is a single element *)
  Lemma read_single : forall j b cx r sp old, (j < n)%nat -> is_marker (K j) = false -> is_rep (K j) = false -> k_body p hole (K j) (V j) = Some b ->
    CXI j j cx -> rd_ok r -> sp = zlen (pre0 ++ upto j) -> (length b < F)%nat -> (zlen b < size_limit)%Z ->
    At r (pre0 ++ upto j ++ tl_enc (T j) ++ tl_enc (nlen b)) (b ++ rest (S j)) ->
    exists v cx' r', k_read F (T j) j (K j) ic sp (nlen b) old cx r = Ok (None, v, cx', r') /\ same (bk j) v /\ CXI (S j) (S j) cx'
      /\ At r' (pre0 ++ upto (S j)) (rest (S j)) /\ same_kind r r'.
  Proof.
    intros j b cx r sp old Hj NM NR EB HC RO -> LF LS A.
    assert (EP : pre0 ++ upto (S j) = (pre0 ++ upto j ++ tl_enc (T j) ++ tl_enc (nlen b)) ++ b).
    { rewrite (fs_upto_S p hole fs vs j) by lia. rewrite (k_bytes_body p hole HH) by auto. rewrite EB. unfold tlv. rewrite <- !app_assoc. reflexivity. }
    rewrite EP. pose proof HC as (H1 & H2 & H3 & H4 & H5 & H6).
    destruct (plain_kind (K j)) eqn:PK.
    { assert (RJ : RK p hole (K j)) by (pose proof (RKS j Hj) as R; destruct (K j); try discriminate; exact R).
      destruct (RJ F nc (T j) j ic (zlen (pre0 ++ upto j)) old cx r (pre0 ++ upto j ++ tl_enc (T j) ++ tl_enc (nlen b)) b (rest (S j)) (V j)) as (v & x & r' & E & S & A' & K' & X1 & X2); auto.
      { apply wf_at; auto. } { apply pk_at; auto. } { apply (F2_at shape fs vs SH j Hj). } { apply ty_at; auto. } { apply rd_ok_value; auto. intros s c E. rewrite E in PK. discriminate. } { lia. }
      exists v, (upd cx j x), r'. split; [auto|]. split; [auto|]. split; [apply cxi_single; auto|]. auto. }
    pose proof (wfm_at j Hj) as WM. pose proof (F2_at shape fs vs SH j Hj) as SJ. pose proof (ty_at j Hj) as TJ.
    destruct (K j) eqn:EK; try discriminate.
    - (* signature *) cbn [wf_mark] in WM. rewrite !andb_true_iff, Nat.ltb_lt in WM. destruct WM as ((((_ & W1) & W2) & W3) & _).
      assert (E2 : K start = KOffset) by (destruct (K start); try discriminate; auto).
      assert (E3 : K covered = KArg) by (destruct (K covered); try discriminate; auto).
      cbn [k_body] in EB. destruct (0 <? ep_est p)%N eqn:E0; [|discriminate]. injection EB as <-.
      cbn [k_read]. rewrite to_int_len by (unfold size_limit, Ztwo63 in *; lia).
      destruct (at_read_wire r _ hole (rest (S j)) A) as (x & r' & E & C & A' & K'). rewrite E. cbn [soft].
      rewrite (H2 start W1 E2).
      assert (EU : upto j = upto start ++ bytes_between p hole fs vs start j) by (apply upto_between; lia).
      destruct (rd_ok_sig r j start covered RO Hj EK) as (n0 & IF & N0). pose proof (kw_wire (zlen hole) r) as KW. rewrite E in KW. cbn [snd] in KW.
      replace (zlen (pre0 ++ upto j)) with (zlen ((pre0 ++ upto start) ++ bytes_between p hole fs vs start j)) by (rewrite EU, <- app_assoc; reflexivity).
      destruct (at_range_first r' _ _ (pre0 ++ upto start) (bytes_between p hole fs vs start j) (tl_enc (T j) ++ tl_enc (nlen hole) ++ hole ++ rest (S j)) n0 A') as (g & RG & CG); auto.
      { rewrite EU. rewrite <- !app_assoc. reflexivity. }
      { eapply in_first_wire; [exact KW|exact IF]. }
      rewrite RG. cbn [bind opt_wire]. eexists (VWire x), _, r'. split; [reflexivity|]. split; [|split; [|split; [exact A'|auto]]].
      + cbn [back]. rewrite E0. constructor. cbn. rewrite app_nil_r. auto.
      + apply cxi_cov; auto; try (intros; rewrite EK; discriminate). intros a acc Ea. unfold cover_step. rewrite EK, E0, andb_true_r, CG. reflexivity.
    - (* Interest name *) cbn [wf_mark] in WM. rewrite !andb_true_iff in WM. destruct WM as ((_ & W3) & _).
      assert (E3 : K covered = KArg) by (destruct (K covered); try discriminate; auto).
      cbn [k_body] in EB. destruct (V j) as [| | | | |nm| | | |] eqn:EV; try discriminate. injection EB as <-. cbn [typed] in TJ.
      assert (FN : name_typed (final_name p nm)).
      { clear -TJ. destruct TJ as [T1 T2]. unfold final_name. 
        assert (R1 : name_typed (match rev nm with c :: r => if (ctyp c =? TypeParametersSha256Digest)%N then rev r else nm | [] => nm end)).
        { destruct (rev nm) as [|c l] eqn:E; [split; auto|]. destruct (ctyp c =? TypeParametersSha256Digest)%N; [|split; auto].
          assert (EN : nm = rev l ++ [c]) by (rewrite <- (rev_involutive nm), E; reflexivity). rewrite EN in T1, T2.
          apply Forall_app in T1, T2. destruct T1, T2. split; auto. }
        destruct (ep_digest p); auto. destruct R1 as [R1 R2]. split; apply Forall_app; split; auto; constructor; auto.
        - split; [reflexivity|]. cbn [cval]. unfold clip, bytes_ok. apply Forall_map, Forall_forall. intros x _. apply N.mod_lt. discriminate.
        - unfold comp_short. cbn [cval]. unfold nlen, clip. rewrite map_length, firstn_length. lia. }
      assert (RB : is_buf_reader r).
      { destruct (rd_ok_at r j RO Hj ltac:(intros; rewrite EK; discriminate)) as [B|(room & FS & _)]; [exact B|]. rewrite EK in FS. inversion FS; subst. contradiction. }
      destruct (at_read_name_field (final_name p nm) F r _ (rest (S j)) FN A (or_introl RB) LF LS) as (r' & E & A' & K').
      cbn [k_read]. rewrite E. cbn [bind].
      assert (RB' : is_buf_reader r') by (apply K'; auto).
      set (q := pre0 ++ upto j ++ tl_enc (T j) ++ tl_enc (nlen (name_enc (final_name p nm)))) in *.
      assert (PX : exists s, name_enc (final_name p nm) = name_enc (before_digest (final_name p nm)) ++ s).
      { clear. induction (final_name p nm) as [|c l [s IH]]; [exists []; reflexivity|]. cbn [before_digest]. destruct (has_digest l).
        - exists s. unfold name_enc in *. cbn [map concat]. rewrite IH, <- app_assoc. reflexivity.
        - destruct (ctyp c =? TypeParametersSha256Digest)%N; [eexists; reflexivity|exists []; rewrite app_nil_r; reflexivity]. }
      destruct PX as (s & PX).
      rewrite (at_range r' _ _ q (name_enc (before_digest (final_name p nm))) (s ++ rest (S j)) RB' A').
      2:{ rewrite PX, <- !app_assoc. reflexivity. }
      cbn [bind opt_wire]. eexists (VName (final_name p nm)), _, r'. split; [reflexivity|]. split; [constructor|]. split; [|split; [exact A'|auto]].
      apply cxi_cov; auto; try (intros; rewrite EK; discriminate). intros a acc Ea. unfold cover_step. rewrite EK, EV. cbn [concat]. rewrite app_nil_r. reflexivity.
  Qed.

  (** parse_loop over a field that is one element *)
  Lemma loop_single : forall q j st f, (j < n)%nat -> is_rep (K j) = false -> PI q j (k_zero (K j)) [] st -> rd_ok (p_rd st) ->
    At (p_rd st) (pre0 ++ upto j) (rest j) -> (length (rest j) < f)%nat ->
    exists q' st' f', parse_loop f o ic hs st = parse_loop f' o ic hs st' /\ PI q' (S j) (k_zero (K (S j))) [] st' /\ rd_ok (p_rd st')
      /\ At (p_rd st') (pre0 ++ upto (S j)) (rest (S j)) /\ (length (rest (S j)) < f')%nat.
  Proof.
    intros q j st f Hj NR HI RO A LF. pose proof (k_bytes_body p hole HH (T j) (K j) (V j) NR) as EK.
    destruct (k_body p hole (K j) (V j)) as [b|] eqn:EB.
    - assert (NM : is_marker (K j) = false) by (destruct (K j); try reflexivity; destruct (V j); discriminate).
      destruct (find_at j Hj NM) as [_ TJ].
      destruct (body_small j (T j) b [] [] Hj) as [BF BS]; [rewrite app_nil_r; exact EK|].
      rewrite (rest_S j Hj), EK in A, LF. unfold tlv in A. rewrite <- !app_assoc in A.
      destruct f as [|f]; [lia|]. destruct (loop_elem f st _ _ _ _ A) as (r2 & A2 & K2 & E2); [unfold u64_ok; lia|apply u64_len; auto|].
      rewrite E2.
      assert (I2 : PI q j (k_zero (K j)) [] (mkPS (p_vals st) (p_cx st) r2 (p_prog st) (p_done st))) by exact HI.
      assert (RO2 : rd_ok r2) by (eapply rd_ok_same; eauto).
      destruct (elem_step q j _ [] _ (nlen b) Hj NM I2) as (st1 & I1 & R1 & E1).
      { cbn [p_rd]. eapply (rdb r2 _ _ RO2 A2). rewrite (all_split j), (rest_S j Hj), EK. unfold tlv. rewrite <- !app_assoc. reflexivity. }
      cbn [p_rd] in R1. rewrite (app_nil_r (upto j)) in E1. rewrite E1.
      unfold do_read. cbn [fh_read fh_kind]. rewrite R1.
      rewrite <- app_assoc in A2.
      destruct (read_single j b (p_cx st1) r2 (zlen (pre0 ++ upto j)) (nth j (p_vals st1) VNone) Hj NM NR EB) as (v & cx' & r' & E3 & S3 & C3 & A3 & K3); auto.
      { apply I1. }
      rewrite E3. cbn [bind].
      exists (S j). eexists _, f. split; [reflexivity|].
      pose proof (after_single j st1 v cx' r' Hj I1 NR S3 C3) as AS. cbv zeta in AS. cbn [p_prog k_back fh_kind] in AS |- *.
      assert (RR : forall s, p_rd (if o then p_next s else s) = p_rd s) by (intros; destruct o; reflexivity). rewrite RR. cbn [p_rd].
      split; [exact AS|]. split; [eapply rd_ok_same; [exact (k_read_keeps _ _ _ _ _ _ _ _ _ _ _ _ _ _ E3)|exact RO2]|]. split; [exact A3|].
      unfold tlv in LF. rewrite !app_length in LF. pose proof (tl_enc_pos (T j)). unfold nlen in *. lia.
    - exists q, st, f. split; [reflexivity|]. split; [|split; [auto|split]].
      + apply (next_field q j (k_zero (K j)) [] st Hj HI).
        * right. auto.
        * rewrite EK. reflexivity.
        * destruct (K j) as [| | | | | | | |[a b c] m| | | | | | |]; try exact I. destruct (V j); try exact I. discriminate.
      + rewrite (fs_upto_S p hole fs vs j) by lia. rewrite EK, app_nil_r. rewrite (rest_S j Hj), EK in A. exact A.
      + rewrite (rest_S j Hj), EK in LF. exact LF.
  Qed.

  (** parse_loop over the elements of a sequence *)
  Lemma loop_seq : forall j sub, (j < n)%nat -> K j = KSeq sub -> forall l0 l acc q st f, V j = VSeq (l0 ++ l) ->
    PI q j (VSeq acc) (concat (map (k_bytes p hole (T j) sub) l0)) st -> Forall2 same (map (back p hole sub) l0) acc -> rd_ok (p_rd st) ->
    At (p_rd st) (pre0 ++ upto j ++ concat (map (k_bytes p hole (T j) sub) l0)) (concat (map (k_bytes p hole (T j) sub) l) ++ rest (S j)) ->
    (length (concat (map (k_bytes p hole (T j) sub) l) ++ rest (S j)) < f)%nat ->
    exists q' st' f' acc', parse_loop f o ic hs st = parse_loop f' o ic hs st'
      /\ PI q' j (VSeq acc') (kb j) st' /\ Forall2 same (map (back p hole sub) (l0 ++ l)) acc' /\ rd_ok (p_rd st')
      /\ At (p_rd st') (pre0 ++ upto (S j)) (rest (S j)) /\ (length (rest (S j)) < f')%nat.
  Proof.
    intros j sub Hj EK l0 l. revert l0. induction l as [|v l IH]; intros l0 acc q st f EV HI FS RO A LF.
    - exists q, st, f, acc. rewrite app_nil_r in *. split; [reflexivity|].
      assert (EKB : kb j = concat (map (k_bytes p hole (T j) sub) l0)) by (rewrite EK, EV; reflexivity).
      split; [rewrite EKB; exact HI|]. split; [exact FS|]. split; [auto|]. split; [|exact LF].
      rewrite (fs_upto_S p hole fs vs j) by lia. rewrite EKB. exact A.
    - cbn [map concat] in A, LF. pose proof (wf_at j Hj) as WJ. rewrite EK in WJ. cbn [wf_kind] in WJ. rewrite andb_true_iff in WJ. destruct WJ as [PS WS].
      pose proof (pk_at j Hj) as PJ. rewrite EK in PJ. cbn [pk_ok] in PJ.
      pose proof (F2_at shape fs vs SH j Hj) as SJ. rewrite EK, EV in SJ. cbn [shape] in SJ.
      assert (Sv : shape sub v) by (rewrite Forall_forall in SJ; apply SJ, in_app_iff; right; left; auto).
      pose proof (ty_at j Hj) as TJ. rewrite EK, EV in TJ. cbn [typed] in TJ.
      assert (Tv : present sub v /\ typed sub v) by (rewrite Forall_forall in TJ; apply TJ, in_app_iff; right; left; auto).
      destruct Tv as [Pv Tv]. destruct (present_body p hole sub v PS Sv Pv) as (b & EB).
      assert (NRs : is_rep sub = false) by (destruct sub; try discriminate; reflexivity).
      pose proof (k_bytes_body p hole HH (T j) sub v NRs) as Eb. rewrite EB in Eb.
      assert (NM : is_marker (K j) = false) by (rewrite EK; reflexivity). destruct (find_at j Hj NM) as [_ TT].
      assert (EKB : kb j = concat (map (k_bytes p hole (T j) sub) l0) ++ tlv (T j) b ++ concat (map (k_bytes p hole (T j) sub) l)).
      { rewrite EK, EV. cbn [k_bytes]. rewrite map_app, concat_app. cbn [map concat]. rewrite Eb. reflexivity. }
      destruct (body_small j _ _ _ _ Hj EKB) as [BF BS].
      pose proof A as A0. rewrite Eb in A. unfold tlv in A. rewrite <- !app_assoc in A. rewrite (app_assoc pre0) in A.
      destruct f as [|f]; [lia|]. destruct (loop_elem f st _ _ _ _ A) as (r2 & A2 & K2 & E2); [unfold u64_ok; lia|apply u64_len; auto|].
      rewrite E2.
      assert (I2 : PI q j (VSeq acc) (concat (map (k_bytes p hole (T j) sub) l0)) (mkPS (p_vals st) (p_cx st) r2 (p_prog st) (p_done st))) by exact HI.
      assert (RO2 : rd_ok r2) by (eapply rd_ok_same; eauto).
      destruct (elem_step q j _ _ _ (nlen b) Hj NM I2) as (st1 & I1 & R1 & E1).
      { cbn [p_rd]. eapply (rdb r2 _ _ RO2 A2). rewrite (all_split j), (rest_S j Hj), EKB. unfold tlv. rewrite <- !app_assoc. reflexivity. }
      cbn [p_rd] in R1. rewrite (app_assoc pre0) in E1. rewrite E1.
      unfold do_read. cbn [fh_read fh_kind]. rewrite R1.
      pose proof (RKS j Hj) as RJ. rewrite EK in RJ. cbn [RKs] in RJ.
      destruct (I1) as (I1v & I1c & I1o). pose proof I1c as (C1 & _ & _ & C4 & _).
      pose proof (C4 j Hj) as CO. rewrite EK in CO. cbn [cx_ok] in CO.
      assert (RV : rd_value p hole (T j) sub v r2 (((pre0 ++ upto j) ++ concat (map (k_bytes p hole (T j) sub) l0)) ++ tl_enc (T j) ++ tl_enc (nlen b)) b).
      { apply rd_value_wire. destruct (rd_ok_at r2 j RO2 Hj ltac:(intros; rewrite EK; discriminate)) as [B|(room & FS1 & _)]; auto. right. rewrite EK, EV in FS1. inversion FS1 as [? ? ? ? B| | |]; subst. cbn [wire_safe] in B. rewrite Forall_forall in B. apply B, in_app_iff. right. left. auto. }
      assert (LJ : (j < length (p_cx st1))%nat) by lia.
      destruct (RJ F nc (T j) j ic (zlen ((pre0 ++ upto j) ++ concat (map (k_bytes p hole (T j) sub) l0))) (k_zero sub) (p_cx st1) r2 _ b _ v PS WS PJ Sv Tv RV EB A2 BF BS LJ CO)
        as (v' & x & r' & E3 & S3 & A3 & K3 & X3 & _).
      rewrite EK. cbn [k_read]. rewrite E3. cbn [bind]. 
      destruct I1v as (_ & _ & _ & I1v & _). destruct (I1v Hj) as [CU _]. rewrite CU.
      assert (C' : CXI j j (upd (p_cx st1) j x)) by (apply cxi_rep; auto; rewrite EK; auto).
      assert (NB : concat (map (k_bytes p hole (T j) sub) (l0 ++ [v])) <> []).
      { rewrite map_app, concat_app. cbn [map concat]. rewrite Eb, app_nil_r. intros X. apply app_eq_nil in X. destruct X as [_ X]. revert X. apply tlv_nonnil. }
      pose proof (after_rep j st1 _ _ _ (VSeq (acc ++ [v'])) (upd (p_cx st1) j x) r' Hj I1 ltac:(rewrite EK; reflexivity) NB C') as AR. cbv zeta in AR.
      rewrite EK in AR. cbn [bind k_back fh_kind] in AR |- *.
      set (st2 := if o then _ else _) in AR. fold st2.
      assert (RD : p_rd st2 = r') by (unfold st2; destruct o; reflexivity).
      assert (EA : (l0 ++ [v]) ++ l = l0 ++ v :: l) by (rewrite <- app_assoc; reflexivity).
      destruct (IH (l0 ++ [v]) (acc ++ [v']) j st2 f) as (q' & st' & f' & acc' & Q1 & Q2 & Q3 & Q4 & Q5 & Q6).
      { rewrite EA. auto. } { exact AR. }
      { rewrite map_app. apply Forall2_app; [auto|constructor; auto]. }
      { rewrite RD. eapply rd_ok_same; [exact (k_read_keeps _ _ _ _ _ _ _ _ _ _ _ _ _ _ E3)|eassumption]. }
      { rewrite RD. rewrite map_app, concat_app. cbn [map concat]. rewrite app_nil_r, Eb. unfold tlv.
        match goal with |- At _ ?X _ => match type of A3 with At _ ?Y _ => replace X with Y; [exact A3|rewrite <- !app_assoc; reflexivity] end end. }
      { rewrite Eb in LF. unfold tlv in LF. repeat rewrite app_length in LF. repeat rewrite app_length. pose proof (tl_enc_pos (T j)). unfold nlen in *. lia. }
      exists q', st', f', acc'. rewrite EA in Q3. rewrite EK in Q2. auto 10.
  Qed.

  Definition ebytes (j : nat) (key : kind) (vt : N) (val : kind) (e : value * value) : buf :=
    k_bytes p hole (T j) key (fst e) ++ k_bytes p hole vt val (snd e).
  Definition same_entry (key val : kind) (e e' : value * value) : Prop :=
    fst e' = fst e /\ same (back p hole val (snd e)) (snd e').

  (** parse_loop over the entries of a map *)
  Lemma loop_map : forall j key vt val, (j < n)%nat -> K j = KMap key vt val -> forall l l0 acc q st f, V j = VMap (l0 ++ l) ->
    PI q j (VMap acc) (concat (map (ebytes j key vt val) l0)) st -> Forall2 (same_entry key val) l0 acc -> rd_ok (p_rd st) ->
    At (p_rd st) (pre0 ++ upto j ++ concat (map (ebytes j key vt val) l0)) (concat (map (ebytes j key vt val) l) ++ rest (S j)) ->
    (length (concat (map (ebytes j key vt val) l) ++ rest (S j)) < f)%nat ->
    exists q' st' f' acc', parse_loop f o ic hs st = parse_loop f' o ic hs st'
      /\ PI q' j (VMap acc') (kb j) st' /\ Forall2 (same_entry key val) (l0 ++ l) acc' /\ rd_ok (p_rd st')
      /\ At (p_rd st') (pre0 ++ upto (S j)) (rest (S j)) /\ (length (rest (S j)) < f')%nat.
  Proof.
    intros j key vt val Hj EK l. induction l as [|e l IH]; intros l0 acc q st f EV HI FS RO A LF.
    - exists q, st, f, acc. rewrite app_nil_r in *. split; [reflexivity|].
      assert (EKB : kb j = concat (map (ebytes j key vt val) l0)) by (rewrite EK, EV; reflexivity).
      split; [rewrite EKB; exact HI|]. split; [exact FS|]. split; [auto|]. split; [|exact LF].
      rewrite (fs_upto_S p hole fs vs j) by lia. rewrite EKB. exact A.
    - cbn [map concat] in A, LF. pose proof (wf_at j Hj) as WJ. rewrite EK in WJ. cbn [wf_kind] in WJ. rewrite !andb_true_iff in WJ. destruct WJ as [[WK PS] WS].
      pose proof (pk_at j Hj) as PJ. rewrite EK in PJ. cbn [pk_ok] in PJ. rewrite !andb_true_iff in PJ. destruct PJ as [[_ PJ] VT].
      pose proof (F2_at shape fs vs SH j Hj) as SJ. rewrite EK, EV in SJ. cbn [shape] in SJ.
      assert (Sv : shape key (fst e) /\ shape val (snd e)) by (rewrite Forall_forall in SJ; apply SJ, in_app_iff; right; left; auto). destruct Sv as [Sk Sv].
      pose proof (ty_at j Hj) as TJ. rewrite EK, EV in TJ. cbn [typed] in TJ. destruct TJ as [TJ ND].
      assert (Tv : typed key (fst e) /\ present val (snd e) /\ typed val (snd e)) by (rewrite Forall_forall in TJ; apply TJ, in_app_iff; right; left; auto).
      destruct Tv as (Tk & Pv & Tv). destruct (present_body p hole val (snd e) PS Sv Pv) as (b & EB).
      assert (LK : leaf_single key = true /\ plain_kind key = true /\ is_rep key = false /\ wf_kind nc key = true /\ present key (fst e)
        /\ forall r, wire_safe key (fst e) \/ is_buf_reader r).
      { destruct key as [[]| | | |[]| | | | | | | | | | |]; try discriminate; destruct (fst e); cbn in Sk; try contradiction; try discriminate; cbn; auto 10. }
      destruct LK as (LK & PKk & NRk & WKk & Pk & WSk). destruct (present_body p hole key (fst e) PKk Sk Pk) as (bk & EBk).
      assert (NRs : is_rep val = false) by (destruct val; try discriminate; reflexivity).
      pose proof (k_bytes_body p hole HH vt val (snd e) NRs) as Eb. rewrite EB in Eb.
      pose proof (k_bytes_body p hole HH (T j) key (fst e) NRk) as Ebk. rewrite EBk in Ebk.
      assert (Ee : ebytes j key vt val e = tlv (T j) bk ++ tlv vt b) by (unfold ebytes; rewrite Eb, Ebk; reflexivity).
      assert (NM : is_marker (K j) = false) by (rewrite EK; reflexivity). destruct (find_at j Hj NM) as [_ TT].
      assert (EKB : kb j = concat (map (ebytes j key vt val) l0) ++ (tlv (T j) bk ++ tlv vt b) ++ concat (map (ebytes j key vt val) l)).
      { rewrite EK, EV. cbn [k_bytes]. change (fun e0 => k_bytes p hole (T j) key (fst e0) ++ k_bytes p hole vt val (snd e0)) with (ebytes j key vt val).
        rewrite map_app, concat_app. cbn [map concat]. rewrite Ee. reflexivity. }
      assert (BSk : (length bk < F)%nat /\ (zlen bk < size_limit)%Z).
      { eapply (body_small j (T j) bk (concat (map (ebytes j key vt val) l0)) (tlv vt b ++ concat (map (ebytes j key vt val) l)) Hj). rewrite EKB, <- !app_assoc. reflexivity. }
      assert (BSb : (length b < F)%nat /\ (zlen b < size_limit)%Z).
      { eapply (body_small j vt b (concat (map (ebytes j key vt val) l0) ++ tlv (T j) bk) (concat (map (ebytes j key vt val) l)) Hj). rewrite EKB, <- !app_assoc. reflexivity. }
      destruct BSk as [BFk BSk]. destruct BSb as [BF BS].
      rewrite Ee in A. unfold tlv in A. rewrite <- !app_assoc in A. rewrite (app_assoc pre0) in A.
      destruct f as [|f]; [lia|]. destruct (loop_elem f st _ _ _ _ A) as (r2 & A2 & K2 & E2); [unfold u64_ok; lia|apply u64_len; auto|].
      rewrite E2.
      assert (I2 : PI q j (VMap acc) (concat (map (ebytes j key vt val) l0)) (mkPS (p_vals st) (p_cx st) r2 (p_prog st) (p_done st))) by exact HI.
      assert (RO2 : rd_ok r2) by (eapply rd_ok_same; eauto).
      destruct (elem_step q j _ _ _ (nlen bk) Hj NM I2) as (st1 & I1 & R1 & E1).
      { cbn [p_rd]. eapply (rdb r2 _ _ RO2 A2). rewrite (all_split j), (rest_S j Hj), EKB. unfold tlv. rewrite <- !app_assoc. reflexivity. }
      cbn [p_rd] in R1. rewrite (app_assoc pre0) in E1. rewrite E1.
      unfold do_read. cbn [fh_read fh_kind]. rewrite R1.
      pose proof (RKS j Hj) as RJ. rewrite EK in RJ. cbn [RKs] in RJ. destruct RJ as [_ RJ].
      destruct (I1) as (I1v & I1c & I1o). pose proof I1c as (C1 & _ & _ & C4 & _).
      pose proof (C4 j Hj) as CO. rewrite EK in CO. cbn [cx_ok] in CO.
      assert (LJ : (j < length (p_cx st1))%nat) by lia.
      set (sp := zlen ((pre0 ++ upto j) ++ concat (map (ebytes j key vt val) l0))) in *.
      assert (RVk : is_buf_reader r2 \/ wire_safe key (fst e)) by (destruct (WSk r2); auto).
      destruct (read_leaf p hole F nc (T j) j key ic sp (k_zero key) (p_cx st1) r2 _ bk _ (fst e) LK WKk Tk RVk EBk A2 BFk BSk)
        as (kv & rk & E3 & S3 & A3 & K3).
      assert (EKV : kv = fst e).
      { clear -S3 Sk WK. destruct key as [[]| | | |[]| | | | | | | | | | |]; try discriminate; destruct (fst e); cbn in Sk; try contradiction; try discriminate; cbn in S3.
        - apply same_nat; auto. - apply same_bytes; auto. }
      assert (UV : u64_ok vt) by (unfold u64_ok; lia).
      destruct (at_read_tl vt rk _ _ UV A3) as (r4 & R4 & A4 & K4).
      destruct (at_read_tl (nlen b) r4 _ _ (u64_len b BS) A4) as (r5 & R5 & A5 & K5).
      assert (RO5 : rd_ok r5).
      { pose proof (kw_tl rk) as W1. pose proof (kw_tl r4) as W2. rewrite R4 in W1. rewrite R5 in W2. cbn [snd] in W1, W2. pose proof (k_read_keeps _ _ _ _ _ _ _ _ _ _ _ _ _ _ E3) as W3.
        eapply rd_ok_same; [|exact RO2]. congruence. }
      assert (RV0 : is_buf_reader r5 \/ wire_safe val (snd e)).
      { destruct (rd_ok_at r5 j RO5 Hj ltac:(intros; rewrite EK; discriminate)) as [B|(room & FS1 & _)]; auto. right. rewrite EK, EV in FS1. inversion FS1 as [? ? ? ? B| | |]; subst. cbn [wire_safe] in B. rewrite Forall_forall in B. apply B, in_app_iff. right. left. auto. }
      destruct (RJ F nc vt j ic sp (k_zero val) (p_cx st1) r5 _ b _ (snd e) PS WS PJ Sv Tv (rd_value_wire _ _ _ _ _ _ _ _ RV0) EB A5 BF BS LJ CO)
        as (v' & x & r' & E6 & S6 & A6 & K6 & X6 & _).
      rewrite EK. cbn [k_read]. rewrite E3. cbn [bind]. rewrite R4. cbn [soft]. rewrite R5. cbn [soft]. rewrite N.eqb_refl, E6. cbn [bind].
      destruct I1v as (_ & _ & _ & I1v & _). destruct (I1v Hj) as [CU _]. rewrite CU.
      assert (MP : map_put kv v' acc = acc ++ [(fst e, v')]).
      { rewrite EKV. apply map_put_new. rewrite map_app in ND. cbn [map] in ND. apply NoDup_remove_2 in ND.
        assert (NI : ~ In (fst e) (map fst l0)) by (intros X; apply ND, in_app_iff; auto).
        assert (SK0 : Forall (fun e0 => shape key (fst e0)) l0).
        { apply Forall_forall. intros y Hy. rewrite Forall_forall in SJ. apply (SJ y). apply in_app_iff. auto. }
        clear -FS NI SK0 Sk WK. induction FS as [|a a' l0 acc [Ea _] _ IHF]; [constructor|]. inversion SK0; subst. constructor.
        - rewrite Ea. apply (key_eqb_neq key); auto. intros X. apply NI. left. auto.
        - apply IHF; auto. intros X. apply NI. right. auto. }
      rewrite MP.
      assert (C' : CXI j j (upd (p_cx st1) j x)) by (apply cxi_rep; auto; rewrite EK; auto).
      assert (NB : concat (map (ebytes j key vt val) (l0 ++ [e])) <> []).
      { rewrite map_app, concat_app. cbn [map concat]. rewrite Ee, app_nil_r. intros X. apply app_eq_nil in X. destruct X as [_ X]. apply app_eq_nil in X. destruct X as [X _]. revert X. apply tlv_nonnil. }
      pose proof (after_rep j st1 _ _ _ (VMap (acc ++ [(fst e, v')])) (upd (p_cx st1) j x) r' Hj I1 ltac:(rewrite EK; reflexivity) NB C') as AR. cbv zeta in AR.
      rewrite EK in AR. cbn [bind k_back fh_kind] in AR |- *.
      set (st2 := if o then _ else _) in AR. fold st2.
      assert (RD : p_rd st2 = r') by (unfold st2; destruct o; reflexivity).
      assert (EA : (l0 ++ [e]) ++ l = l0 ++ e :: l) by (rewrite <- app_assoc; reflexivity).
      destruct (IH (l0 ++ [e]) (acc ++ [(fst e, v')]) j st2 f) as (q' & st' & f' & acc' & Q1 & Q2 & Q3 & Q4 & Q5 & Q6).
      { rewrite EA. auto. } { exact AR. }
      { apply Forall2_app; [auto|]. constructor; [|constructor]. split; auto. }
      { rewrite RD. eapply rd_ok_same; [exact (k_read_keeps _ _ _ _ _ _ _ _ _ _ _ _ _ _ E6)|eassumption]. }
      { rewrite RD. rewrite map_app, concat_app. cbn [map concat]. rewrite app_nil_r, Ee. unfold tlv.
        match goal with |- At _ ?X _ => match type of A6 with At _ ?Y _ => replace X with Y; [exact A6|rewrite <- !app_assoc; reflexivity] end end. }
      { rewrite Ee in LF. unfold tlv in LF. repeat rewrite app_length in LF. repeat rewrite app_length. pose proof (tl_enc_pos (T j)). unfold nlen in *. lia. }
      exists q', st', f', acc'. rewrite EA in Q3. rewrite EK in Q2. auto 10.
  Qed.

  (** parse_loop over a field *)
  Lemma loop_field : forall q j st f, (j < n)%nat -> PI q j (k_zero (K j)) [] st -> rd_ok (p_rd st) ->
    At (p_rd st) (pre0 ++ upto j) (rest j) -> (length (rest j) < f)%nat ->
    exists q' st' f', parse_loop f o ic hs st = parse_loop f' o ic hs st' /\ PI q' (S j) (k_zero (K (S j))) [] st' /\ rd_ok (p_rd st')
      /\ At (p_rd st') (pre0 ++ upto (S j)) (rest (S j)) /\ (length (rest (S j)) < f')%nat.
  Proof.
    intros q j st f Hj HI RO A LF. destruct (is_rep (K j)) eqn:R; [|eapply loop_single; eauto].
    pose proof (F2_at shape fs vs SH j Hj) as SJ. rewrite (rest_S j Hj) in A, LF.
    destruct (K j) as [| | | | | | | | |sub|key vt val| | | | |] eqn:EK; try discriminate; destruct (V j) as [| | | | | | | |l|l] eqn:EV; cbn in SJ; try contradiction.
    - destruct (loop_seq j sub Hj EK [] l [] q st f) as (q' & st' & f' & acc' & Q1 & Q2 & Q3 & Q4 & Q5 & Q6); auto.
      { constructor. } { cbn [map concat]. rewrite app_nil_r. exact A. }
      exists q', st', f'. split; [auto|]. split; [|auto]. apply (next_field q' j (VSeq acc') (kb j) st' Hj Q2); auto.
      + left. rewrite EK, EV. split; auto. cbn [back]. constructor. exact Q3.
      + rewrite EK. exact I.
    - destruct (loop_map j key vt val Hj EK l [] [] q st f) as (q' & st' & f' & acc' & Q1 & Q2 & Q3 & Q4 & Q5 & Q6); auto.
      { cbn [map concat]. rewrite app_nil_r. exact A. }
      exists q', st', f'. split; [auto|]. split; [|auto]. apply (next_field q' j (VMap acc') (kb j) st' Hj Q2); auto.
      + left. rewrite EK, EV. split; auto. cbn [back]. constructor.
        pose proof (wf_at j Hj) as WJ. rewrite EK in WJ. cbn [wf_kind] in WJ. rewrite !andb_true_iff in WJ. destruct WJ as [[WK _] _].
        clear -Q3 SJ WK. cbn [app] in Q3. induction Q3 as [|e e' l l' [E1 E2] _ IH]; [constructor|]. inversion SJ as [|? ? [S1 S2] S3]; subst. constructor; [|auto].
        cbn [fst snd]. split; auto. rewrite E1. destruct key as [[]| | | |[]| | | | | | | | | | |]; try discriminate; destruct (fst e); cbn in S1; try contradiction; try discriminate; constructor.
      + rewrite EK. exact I.
  Qed.

  Lemma loop_all : forall d q j st f, (d = n - j)%nat -> (j <= n)%nat -> PI q j (k_zero (K j)) [] st -> rd_ok (p_rd st) ->
    At (p_rd st) (pre0 ++ upto j) (rest j) -> (length (rest j) < f)%nat ->
    exists q' st', parse_loop f o ic hs st = Ok st' /\ PI q' n (k_zero (K n)) [] st' /\ rd_ok (p_rd st') /\ At (p_rd st') (pre0 ++ all) [].
  Proof.
    induction d as [|d IH]; intros q j st f Hd Hj HI RO A LF.
    - assert (j = n) by lia. subst j. rewrite skipn_all2 in A, LF by lia. rewrite !firstn_all2 in A by lia. cbn [fs_bytes] in A, LF.
      exists q, st. destruct f as [|f]; [cbn in LF; lia|]. rewrite (loop_end f st _ A). auto.
    - destruct (loop_field q j st f ltac:(lia) HI RO A LF) as (q' & st' & f' & Q1 & Q2 & Q3 & Q4 & Q5). rewrite Q1.
      eapply (IH q' (S j)); eauto; lia.
  Qed.

  (** the fields that were not met *)
  Lemma rest_skip : forall d i q st, (d = n - i)%nat -> (i <= n)%nat ->
    length (p_vals st) = n -> CXI (max q i) n (p_cx st) -> (forall i, (i < n)%nat -> markful (K i) = true -> RDB i (p_rd st)) ->
    (forall a, (a < i)%nat -> same (bk a) (nth a (p_vals st) VNone)) ->
    (forall a, (i <= a < n)%nat -> (nth a (p_done st) false = true /\ same (bk a) (nth a (p_vals st) VNone))
          \/ (nth a (p_done st) false = false /\ skippable a (nth a (p_vals st) VNone))) ->
    (o = true -> (q <= n)%nat /\ (forall a, (a < q)%nat -> nth a (p_done st) false = true)
      /\ (forall a, (q <= a < n)%nat -> (a = q /\ is_rep (K a) = true \/ kb a = []))
      /\ (forall a, (q <= a)%nat -> nth a (p_done st) false = true -> is_rep (K a) = true)) ->
    exists st', skip_rest i (zlen (pre0 ++ all)) (skipn i hs) st = Ok st' /\ length (p_vals st') = n /\ CXI n n (p_cx st')
      /\ (forall a, (a < n)%nat -> same (bk a) (nth a (p_vals st') VNone)).
  Proof.
    induction d as [|d IH]; intros i q st Hd Hi L HC RD HA HB HO.
    - assert (i = n) by lia. subst i. rewrite skipn_all2 by (rewrite handlers_len; lia). cbn [skip_rest]. exists st. split; [auto|]. split; [auto|]. split; [|auto].
      destruct (bool_dec o true) as [O|O]; [|apply not_true_is_false in O; eapply (cxi_any _ n); eauto]. destruct (HO O) as (Q & _). rewrite Nat.max_r in HC by lia. exact HC.
    - assert (Hn : (i < n)%nat) by lia. rewrite (skipn_nth_cons hs i _ (handlers_nth F fs i 0 Hn)). cbn [skip_rest fh_typ fh_kind].
      destruct (nth i (p_done st) false) eqn:D.
      + assert (C' : CXI (max q (S i)) n (p_cx st)).
        { destruct (bool_dec o true) as [O|O]; [|apply not_true_is_false in O; eapply (cxi_any _ (max q (S i))); eauto]. destruct (HO O) as (Q & H1 & H2 & H3).
          destruct (lt_dec i q) as [Lq|Lq]; [rewrite Nat.max_l in * by lia; auto|]. rewrite Nat.max_r in * by lia.
          apply cxi_S; auto. pose proof (H3 i ltac:(lia) D) as R. destruct (K i); try discriminate; reflexivity. }
        apply (IH (S i) q st); auto; try lia.
        * intros a Ha. destruct (Nat.eq_dec a i) as [->|]; [|apply HA; lia]. destruct (HB i) as [[_ X]|[X _]]; [lia|auto|congruence].
        * intros a Ha. apply HB. lia.
      + destruct (HB i) as [[X _]|[_ SK]]; [lia|congruence|].
        assert (C0 : CXI i n (p_cx st)).
        { destruct (bool_dec o true) as [O|O]; [|apply not_true_is_false in O; eapply (cxi_any _ i); eauto]. destruct (HO O) as (Q & H1 & _).
          destruct (lt_dec i q) as [Lq|Lq]; [rewrite (H1 i Lq) in D; discriminate|]. rewrite Nat.max_r in HC by lia. exact HC. }
        assert (MK : markful (K i) = true -> RDB i (p_rd st) /\ zlen (pre0 ++ all) = zlen (pre0 ++ upto i)).
        { intros M. split; [apply RD; auto|].
          destruct (bool_dec o true) as [O|O]; [|apply not_true_is_false in O; destruct ok_parts as (_ & _ & _ & NM); rewrite (NM O i Hn) in M; discriminate].
          destruct (HO O) as (Q & H1 & H2 & _).
          destruct (lt_dec i q) as [Lq|Lq]; [rewrite (H1 i Lq) in D; discriminate|].
          assert (EU : upto i = upto n). { apply upto_same; try lia. intros a Ha. destruct (H2 a) as [[-> R]|E]; auto; try lia. assert (i = q) by lia. subst i. destruct (K q); discriminate. }
          rewrite EU. rewrite !firstn_all2 by lia. reflexivity. }
        destruct (pass_one p hole HH nc o fs vs pre0 cx0 WF Lv SH Lc i n _ _ (p_cx st) (p_rd st) Hn C0 SK MK) as (v' & cx' & E & C' & S').
        rewrite E. cbn [bind].
        apply (IH (S i) (if o then q else 0%nat)); cbn [p_vals p_cx p_rd p_done]; auto; try lia.
        * rewrite upd_length. auto.
        * destruct (bool_dec o true) as [O|O]; [|apply not_true_is_false in O; eapply (cxi_any (S i)); eauto]. destruct (HO O) as (Q & H1 & _).
          destruct (lt_dec i q) as [Lq|Lq]; [rewrite (H1 i Lq) in D; discriminate|]. rewrite O, Nat.max_r by lia. exact C'.
        * intros a Ha. destruct (Nat.eq_dec i a) as [<-|]; [rewrite upd_nth by lia; auto|]. rewrite upd_nth_other by auto. apply HA. lia.
        * intros a Ha. rewrite upd_nth_other by lia. apply HB. lia.
        * intros O. rewrite O. auto.
  Qed.

  Lemma nth_same : forall l, length l = n -> (forall a, (a < n)%nat -> same (bk a) (nth a l VNone)) -> Forall2 same (fs_back p hole fs vs) l.
  Proof.
    clear -Lv. revert vs Lv. unfold kind_at. induction fs as [|f fs0 IH]; intros [|v vs] Lv [|y l] L H; try discriminate; cbn [fs_back]; constructor.
    - apply (H 0%nat). cbn. lia.
    - apply IH; try (cbn in *; lia). intros a Ha. apply (H (S a)). cbn. lia.
  Qed.

  Lemma parse_fields : forall r, At r pre0 all -> rd_ok r -> cxs_ok fs cx0 ->
    exists vals cx, run_parse F o ic hs cx0 r = Ok (vals, cx) /\ Forall2 same (fs_back p hole fs vs) vals /\ cxs_ok fs cx
      /\ (forall a, K a = KArg -> concat (x_cov (nth a cx XNone)) = covered p hole fs vs a n (concat (x_cov (nth a cx0 XNone))))
      /\ (forall i, (i < n)%nat -> nth i cx0 XNone = k_ctx (K i) -> cx_fin p hole (K i) (V i) (nth i cx XNone)).
  Proof.
    intros r A RO CO. unfold run_parse. rewrite handlers_kinds.
    set (st0 := mkPS _ _ _ _ _). apply cxs_ok_nth in CO. destruct CO as [_ CO].
    assert (I0 : PI 0 0 (k_zero (K 0)) [] st0).
    { split; [|split].
      - unfold VI, st0. cbn [p_vals p_done]. rewrite !map_length, handlers_len. split; [auto|]. split; [auto|]. split; [intros; lia|]. split.
        + intros Hn. split; [apply nth_zero; auto|]. intros _. apply nth_false.
        + intros i Hi. split; [apply nth_zero; lia|apply nth_false].
      - split; [auto|]. split; [intros; lia|]. split; [intros; reflexivity|]. split; [auto|]. split; [auto|]. intros. lia.
      - intros _. split; [reflexivity|]. split; [lia|]. split; [intros; lia|]. split; [intros; lia|]. split; [|congruence].
        intros i _ D. unfold st0 in D. cbn [p_done] in D. rewrite nth_false in D. discriminate. }
    destruct (loop_all n 0 0 st0 F) as (q & st & E & I1 & RO1 & A1); auto; try lia.
    { cbn [firstn fs_bytes]. rewrite app_nil_r. exact A. }
    rewrite E. cbn [bind]. rewrite (at_pos _ _ _ A1). cbn [bind].
    destruct I1 as ((V1 & V2 & V3 & _) & C1 & O1).
    destruct (rest_skip n 0 (if o then q else 0%nat) st) as (st' & S1 & S2 & S3 & S4); auto; try lia.
    { destruct (bool_dec o true) as [O|O]; [|apply not_true_is_false in O; eapply (cxi_any q); eauto]. rewrite O, Nat.max_l by lia. exact C1. }
    { eapply rdb; [exact RO1|exact A1|]. rewrite app_nil_r. reflexivity. }
    { intros a Ha. apply V3; lia. }
    { intros O. rewrite O. destruct (O1 O) as (P1 & P2 & P3 & P4 & P5 & _). split; [lia|]. split; [intros; apply P3; lia|]. split; [|auto].
      intros a Ha. apply P4; lia. }
    cbn [skipn] in S1. rewrite S1. cbn [bind]. exists (p_vals st'), (p_cx st'). split; [reflexivity|].
    split; [apply nth_same; auto|]. destruct S3 as (H1 & H2 & H3 & H4 & H5 & H6). split; [apply cxs_ok_nth; auto|]. auto.
  Qed.
End Loop.
