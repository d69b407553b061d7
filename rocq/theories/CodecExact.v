(** Models whose values come back exactly. *)
From Verif Require Import Base PrimModel ReaderModel ReaderSpec ReaderProofs NameModel NameProofs CodecModel CodecSpec CodecSpec2 CodecProofs CodecPar CodecPar4.

(** no times, no wires, none of the fields of packets *)
Fixpoint plain (k : kind) : bool :=
  match k with
  | KTime _ | KWire | KSig _ _ | KIName _ => false
  | KStruct (Model _ _ fs) _ => forallb (fun f => plain (snd f)) fs
  | KSeq s => plain s
  | KMap a _ b => plain a && plain b
  | _ => true
  end.
Definition m_plain (m : model) : bool := forallb (fun f => plain (snd f)) (m_fields m).

Lemma shape_struct2 : forall nc o fs b vs, shape (KStruct (Model nc o fs) b) (VStruct vs) -> fs_shape fs vs.
Proof.
  intros nc o fs b vs. cbn [shape]. unfold fs_shape. revert vs. induction fs as [|f fs IH]; intros [|v vs] H; try tauto; constructor; [tauto|]. apply IH. tauto.
Qed.

Lemma fs_plain : forall p h fs, Forall (fun f => forall v, plain (snd f) = true -> shape (snd f) v -> forall x, same (back p h (snd f) v) x -> x = v) fs ->
  forallb (fun f => plain (snd f)) fs = true -> forall vs, fs_shape fs vs -> forall xs, Forall2 same (fs_back p h fs vs) xs -> xs = vs.
Proof.
  intros p h fs FA. induction FA as [|f fs Hf FA IH]; intros PL vs SH xs S2; inversion SH; subst; cbn [fs_back] in S2.
  - inversion S2. reflexivity.
  - cbn [forallb] in PL. apply andb_prop in PL. destruct PL as [P1 P2]. inversion S2; subst. f_equal; [eapply Hf; eauto|eapply IH; eauto].
Qed.

Lemma plain_exact : forall p h k v, plain k = true -> shape k v -> forall x, same (back p h k v) x -> x = v.
Proof.
  intros p h k. induction k as [k L|nc o fs b IH|s IH|k vt v IHk IHv] using kind_ind2; intros w PL SH x S2.
  - destruct k; cbn [leaf_kind plain] in L, PL; try discriminate; destruct w; cbn [shape] in SH; try contradiction; cbn [back] in S2; inversion S2; reflexivity.
  - cbn [plain] in PL. destruct w; try (cbn [shape] in SH; contradiction).
    + cbn [back] in S2. inversion S2. reflexivity.
    + rewrite back_struct in S2. apply shape_struct2 in SH.
      inversion S2; subst.
      * f_equal. eapply fs_plain; eauto. clear. induction (fs_back p h fs vs); constructor; auto. constructor.
      * f_equal. eapply fs_plain; eauto.
  - cbn [plain] in PL. destruct w; cbn [shape] in SH; try contradiction. cbn [back] in S2.
    assert (G : forall l', Forall2 same (map (back p h s) l) l' -> l' = l).
    { clear S2. induction SH as [|v l Hv SH IH2]; intros l' F2; inversion F2; subst; auto. f_equal; auto. }
    inversion S2; subst; f_equal; apply G; auto. clear. induction (map (back p h s) l); constructor; auto. constructor.
  - cbn [plain] in PL. apply andb_prop in PL. destruct PL as [P1 P2]. destruct w; cbn [shape] in SH; try contradiction. cbn [back] in S2.
    assert (G : forall l', Forall2 (fun e e' => same (fst e) (fst e') /\ same (snd e) (snd e')) (map (fun e => (back p h k (fst e), back p h v (snd e))) l) l' -> l' = l).
    { clear S2. induction SH as [|e l [Ha Hb] SH IH2]; intros l' F2; inversion F2; subst; auto. f_equal; auto.
      destruct y as [y1 y2], e as [e1 e2]. cbn [fst snd] in *. destruct H1 as [Q1 Q2]. f_equal; [eapply IHk; eauto|eapply IHv; eauto]. }
    inversion S2; subst; f_equal; apply G; auto. clear. induction l; constructor; auto. split; constructor.
Qed.

Lemma fs_exact : forall p h fs vs xs, forallb (fun f => plain (snd f)) fs = true -> fs_shape fs vs -> Forall2 same (fs_back p h fs vs) xs -> xs = vs.
Proof.
  intros p h fs vs xs PL SH S2. apply (fs_plain p h fs) with (vs := vs); auto. apply Forall_forall. intros f _ v P S3 x Q. eapply plain_exact; eauto.
Qed.

Theorem exact_buffer : forall p m vs, wf_model m = true -> parsable m = true -> m_plain m = true ->
  fs_shape (m_fields m) vs -> fs_typed (m_fields m) vs -> ep_est p = 0%N ->
  (m_nocopy m = true -> fs_len p (m_fields m) vs <> 0%N) -> (Z.of_N (fs_len p (m_fields m) vs) < size_limit)%Z ->
  exists w ys, m_encode p m vs = Ok (w, ys) /\ forall ic F, (length (concat w) < F)%nat ->
    exists cx, m_parse F m ic (new_buffer_reader (concat w)) = Ok (vs, cx).
Proof.
  intros p m vs W PA PL SH TY E N SZ. destruct (round_trip p m vs W PA SH TY E N SZ) as (w & ys & EN & R). exists w, ys. split; auto.
  intros ic F L. destruct (R ic F L) as (vs' & cx & M & S2). apply fs_exact in S2; auto. subst vs'. eauto.
Qed.
Theorem exact_wire : forall p m vs, wf_model m = true -> parsable m = true -> m_plain m = true ->
  fs_shape (m_fields m) vs -> fs_typed (m_fields m) vs -> fs_wire_safe (m_fields m) vs -> ep_est p = 0%N ->
  (m_nocopy m = true -> fs_len p (m_fields m) vs <> 0%N) -> (Z.of_N (fs_len p (m_fields m) vs) < size_limit)%Z ->
  exists w ys, m_encode p m vs = Ok (w, ys) /\ forall w', concat w' = concat w -> nonempty_segs w' -> forall ic F, (length (concat w) < F)%nat ->
    exists cx, m_parse F m ic (new_wire_reader w') = Ok (vs, cx).
Proof.
  intros p m vs W PA PL SH TY WS E N SZ. destruct (round_trip_wire p m vs W PA SH TY WS E N SZ) as (w & ys & EN & R). exists w, ys. split; auto.
  intros w' C NE ic F L. destruct (R w' C NE ic F L) as (vs' & cx & M & S2). apply fs_exact in S2; auto. subst vs'. eauto.
Qed.
