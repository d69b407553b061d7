(** Insertion of one element into an encoding. *)
From Verif Require Import Base BaseProofs PrimModel PrimProofs ReaderModel ReaderSpec ReaderProofs NameModel NameProofs CodecModel CodecSpec CodecProofs CodecEnc CodecEnc2 CodecEnc3 CodecEnc4 CodecEnc5 CodecSpec2 CodecPar CodecPar2 CodecPar3 CodecPar4 CodecSpec3 CodecNoise.

Lemma upd_S : forall {A} (x : A) l i v, upd (x :: l) (S i) v = x :: upd l i v.
Proof. intros. unfold upd. cbn [length]. change (S i <? S (length l))%nat with (i <? length l)%nat. destruct (i <? length l)%nat; reflexivity. Qed.
Lemma upd_0 : forall {A} (x : A) l v, upd (x :: l) 0 v = v :: l.
Proof. reflexivity. Qed.

Section Ins.
  Context (p : eparams) (hole : buf) (HH : nlen hole = ep_est p) (ic : bool).

  Lemma mrun_trans : forall fs q1 b1 q2, mrun p hole ic fs q1 b1 q2 -> forall b2 q3, mrun p hole ic fs q2 b2 q3 -> mrun p hole ic fs q1 (b1 ++ b2) q3.
  Proof.
    intros fs q1 b1 q2 H. induction H; intros b2 q3 H3; cbn [app]; auto; rewrite <- app_assoc.
    - eapply mr_item; eauto.
    - eapply mr_other; eauto.
  Qed.

  Definition qok (fs : list (N * kind)) (q : list (list value)) : Prop :=
    Forall2 (fun f l => Forall (fun x => mitem p hole ic (fst f) (snd f) x (item_bytes p hole (fst f) (snd f) x)) l) fs q.

  (** the first element *)
  Lemma qok_first : forall fs q e es, qok fs q -> elements p hole fs q = e :: es ->
    exists i f x q', nth_error fs i = Some f /\ nth_error q i = Some (x :: q') /\ e = item_bytes p hole (fst f) (snd f) x
      /\ mitem p hole ic (fst f) (snd f) x e /\ elements p hole fs (upd q i q') = es /\ qok fs (upd q i q').
  Proof.
    intros fs q e es Q E. revert e es E. induction Q as [|f l fs q HF Q IH]; intros e es E; [discriminate|].
    cbn [elements] in E. destruct l as [|x l].
    - cbn [map app] in E. destruct (IH e es E) as (i & g & x & q' & E1 & E2 & E3 & E4 & E5 & E6).
      exists (S i), g, x, q'. rewrite upd_S. cbn [nth_error elements map app]. split; [auto|]. split; [auto|]. split; [auto|]. split; [auto|]. split; [auto|]. constructor; auto.
    - cbn [map app] in E. injection E as <- <-. exists 0%nat, f, x, l. rewrite upd_0. cbn [nth_error elements]. inversion HF; subst.
      split; [auto|]. split; [auto|]. split; [auto|]. split; [auto|]. split; [auto|]. constructor; auto.
  Qed.

  Lemma run_firstn : forall k fs q, qok fs q -> exists q', mrun p hole ic fs q (concat (firstn k (elements p hole fs q))) q'
    /\ elements p hole fs q' = skipn k (elements p hole fs q) /\ qok fs q'.
  Proof.
    induction k as [|k IH]; intros fs q Q; [exists q; split; [constructor|auto]|].
    destruct (elements p hole fs q) as [|e es] eqn:E.
    - exists q. split; [constructor|auto].
    - destruct (qok_first fs q e es Q E) as (i & f & x & q' & E1 & E2 & E3 & E4 & E5 & E6).
      destruct (IH fs (upd q i q') E6) as (q2 & R & E7 & E8). rewrite E5 in R, E7. exists q2. cbn [firstn concat skipn]. split; [|auto].
      eapply mr_item; eauto.
  Qed.

  Lemma run_all : forall fs q, qok fs q -> mrun p hole ic fs q (concat (elements p hole fs q)) (map (fun _ => []) fs).
  Proof.
    intros fs q Q. destruct (run_firstn (length (elements p hole fs q)) fs q Q) as (q' & R & E & Q'). rewrite firstn_all, skipn_all in *.
    replace (map (fun _ => []) fs) with q'; auto. clear -E Q'. induction Q' as [|f l fs q' _ _ IH]; auto. cbn [elements map] in *.
    apply app_eq_nil in E. destruct E as [E1 E2]. apply map_eq_nil in E1. rewrite E1, IH; auto.
  Qed.

  Lemma items_ok : forall nc fs vs, wf_fields nc fs = true -> fs_shape fs vs -> fs_typed fs vs -> qok fs (fs_items p hole fs vs).
  Proof.
    intros nc fs vs W S T. apply wf_fields_all in W. unfold qok. revert W T. induction S as [|f v fs vs S1 S IH]; intros W T; cbn [fs_items]; constructor.
    2:{ inversion W; inversion T; subst. auto. }
    inversion W as [|? ? W1 W2]; inversion T as [|? ? ? ? T1 T2]; subst. clear -HH S1 W1 T1. destruct f as [t k]. cbn [fst snd] in *.
    destruct (is_rep k) eqn:R.
    - destruct k; try discriminate; destruct v; cbn [shape] in S1; try contradiction; cbn [items item_bytes typed wf_kind] in *.
      + rewrite andb_true_iff in W1. destruct W1 as [P _]. rewrite Forall_forall in *. intros x Hx. destruct (T1 x Hx) as [PX _].
        destruct (present_body p hole k x P (S1 x Hx) PX) as (b & EB).
        assert (NR : is_rep k = false) by (destruct k; try discriminate; auto). rewrite (k_bytes_body p hole HH) by auto. rewrite EB. apply mi_seq, mb_clean. auto.
      + rewrite !andb_true_iff in W1. destruct W1 as [[WK P] _]. destruct T1 as [T1 _]. rewrite Forall_forall in *. intros x Hx. apply in_map_iff in Hx.
        destruct Hx as ((a & c) & <- & Hx). destruct (T1 _ Hx) as (_ & PX & _). destruct (S1 _ Hx) as [Sk Sv]. cbn [fst snd] in *.
        destruct (present_body p hole k2 c P Sv PX) as (b & EB).
        assert (LK : plain_kind k1 = true /\ is_rep k1 = false /\ present k1 a).
        { destruct k1 as [[]| | | |[]| | | | | | | | | | |]; try discriminate; destruct a; cbn in Sk; try contradiction; try discriminate; cbn; auto. }
        destruct LK as (P1 & R1 & PR). destruct (present_body p hole k1 a P1 Sk PR) as (b1 & EB1).
        assert (NR : is_rep k2 = false) by (destruct k2; try discriminate; auto).
        cbn [k_bytes map concat fst snd]. rewrite app_nil_r, !(k_bytes_body p hole HH) by auto. rewrite EB, EB1. apply mi_map; apply mb_clean; auto.
    - rewrite items_single by auto. destruct (k_body p hole k v) as [b|] eqn:EB; constructor; [|constructor].
      assert (EI : item_bytes p hole t k v = tlv t b). { pose proof (k_bytes_body p hole HH t k v R) as X. rewrite EB in X. destruct k; try discriminate; exact X. }
      rewrite EI. apply mi_single; auto. apply mb_clean. auto.
  Qed.

  Lemma elements_bytes : forall fs vs, fs_shape fs vs -> concat (elements p hole fs (fs_items p hole fs vs)) = fs_bytes p hole fs vs.
  Proof.
    intros fs vs S. induction S as [|f v fs vs S1 S IH]; auto. cbn [fs_items elements fs_bytes]. rewrite concat_app, IH. f_equal. clear -HH S1.
    destruct f as [t k]. cbn [fst snd] in *. destruct (is_rep k) eqn:R.
    - destruct k; try discriminate; destruct v; cbn [shape] in S1; try contradiction; cbn [items item_bytes k_bytes]; auto.
      rewrite map_map. f_equal. apply map_ext. intros a. cbn [map concat]. apply app_nil_r.
    - rewrite items_single by auto. pose proof (k_bytes_body p hole HH t k v R) as X.
      destruct (k_body p hole k v) as [b|]; cbn [map concat]; rewrite ?app_nil_r; [|auto]. destruct k; try discriminate; reflexivity.
  Qed.

  Lemma mixed_insert : forall nc fs vs k t v, wf_fields nc fs = true -> fs_shape fs vs -> fs_typed fs vs ->
    (t < two64)%N -> ~ In t (elem_types fs) -> may_ignore ic t ->
    mixed p hole ic fs vs (insert k (tlv t v) (elements p hole fs (fs_items p hole fs vs))).
  Proof.
    intros nc fs vs k t v W S T Ht NI MI. unfold mixed, insert. rewrite concat_app. cbn [concat].
    destruct (run_firstn k fs _ (items_ok nc fs vs W S T)) as (q' & R & E & Q'). eapply mrun_trans; eauto. apply mr_other; auto. rewrite <- E. apply run_all. auto.
  Qed.
End Ins.

Lemma critical_iff : forall t, (t < two64)%N -> ~ may_ignore false t -> is_critical t = true.
Proof.
  intros t _ H. unfold may_ignore in H. unfold is_critical. destruct (N.leb_spec t 31) as [|L]; auto. cbn [orb]. rewrite N.eqb_eq.
  destruct (N.even t) eqn:E; [exfalso; apply H; right; auto|]. assert (O : N.odd t = true) by (rewrite <- N.negb_even, E; auto).
  apply N.odd_spec in O. destruct O as (k & ->). rewrite N.add_comm, N.mul_comm, N.mod_add by lia. reflexivity.
Qed.

Theorem insert_ok : forall p m vs k t v ic F, m_ordered m = false -> wf_model m = true -> parsable m = true ->
  fs_shape (m_fields m) vs -> fs_typed (m_fields m) vs -> ep_est p = 0%N ->
  (t < two64)%N -> ~ In t (elem_types (m_fields m)) -> may_ignore ic t ->
  (zlen (insert k (tlv t v) (all_elements p [] m vs)) < size_limit)%Z -> (length (insert k (tlv t v) (all_elements p [] m vs)) < F)%nat ->
  exists vs' cx, m_parse F m ic (new_buffer_reader (insert k (tlv t v) (all_elements p [] m vs))) = Ok (vs', cx)
    /\ Forall2 same (fs_back p [] (m_fields m) vs) vs'.
Proof.
  intros p m vs k t v ic F O W PK S T E0 Ht NI MI LS LF. assert (HH : nlen (@nil N) = ep_est p) by (rewrite E0; reflexivity).
  apply (parse_mixed_ok p [] HH ic m vs _ F O W PK S T); auto. apply (mixed_insert p [] HH ic (m_nocopy m)); auto.
Qed.

Theorem insert_critical : forall p m vs k t v F, m_ordered m = false -> wf_model m = true -> parsable m = true ->
  fs_shape (m_fields m) vs -> fs_typed (m_fields m) vs -> ep_est p = 0%N ->
  (t < two64)%N -> ~ In t (elem_types (m_fields m)) -> ~ may_ignore false t ->
  (zlen (insert k (tlv t v) (all_elements p [] m vs)) < size_limit)%Z -> (length (insert k (tlv t v) (all_elements p [] m vs)) < F)%nat ->
  m_parse F m false (new_buffer_reader (insert k (tlv t v) (all_elements p [] m vs))) = Err (EUnrecognized t).
Proof.
  intros p m vs k t v F O W PK S T E0 Ht NI MI LS LF. assert (HH : nlen (@nil N) = ep_est p) by (rewrite E0; reflexivity).
  destruct (run_firstn p [] false k (m_fields m) _ (items_ok p [] HH false (m_nocopy m) (m_fields m) vs W S T)) as (q' & R & _ & _).
  unfold insert, all_elements in *. rewrite concat_app in *. cbn [concat] in *. repeat rewrite app_length in LF.
  apply (parse_critical_ok p [] HH false m vs _ q' t v _ F O W PK S T R); auto; [lia|apply critical_iff; auto].
Qed.

Theorem elements_encode : forall p m vs, wf_model m = true -> fs_shape (m_fields m) vs -> ep_est p = 0%N ->
  (m_nocopy m = true -> fs_len p (m_fields m) vs <> 0%N) ->
  exists w ys, m_encode p m vs = Ok (w, ys) /\ concat w = concat (all_elements p [] m vs).
Proof.
  intros p m vs W S E0 NE. destruct (encode_parts p m vs W S NE) as (w & ys & E & C & _). exists w, ys. split; auto.
  rewrite C. symmetry. apply elements_bytes; auto. 
Qed.
