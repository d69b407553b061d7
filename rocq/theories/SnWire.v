(** The vectors of pkg/schema/svs on the wire. *)
From Verif Require Import Base BaseProofs PrimModel PrimProofs ReaderModel ReaderSpec ReaderProofs NameModel NameProofs CodecModel CodecLib CodecSpec CodecProofs CodecEnc CodecEnc2 CodecEnc3 CodecEnc4 CodecEnc5 CodecSpec2 CodecPar CodecPar2 CodecPar3 CodecPar4 SnModel SnSpec.

Notation bv_value v := [VSeq (map b_entry v)].
Lemma bv_fs_bytes : forall v, fs_bytes (mkEP 0 false) [] (m_fields svs_StateVec) (bv_value v) = bv_bytes v.
Proof.
  intros v. cbn [m_fields svs_StateVec fs_bytes fst snd]. rewrite app_nil_r.
  change (k_bytes (mkEP 0 false) [] 202 (KSeq (KStruct svs_StateVecEntry false)) (VSeq (map b_entry v))) with (concat (map (k_bytes (mkEP 0 false) [] 202 (KStruct svs_StateVecEntry false)) (map b_entry v))). rewrite map_map.
  unfold bv_bytes. f_equal. apply map_ext. intros [n x]. unfold b_entry, svs_StateVecEntry. cbn [k_bytes fst snd ep_est]. change (N.to_nat 0) with 0%nat. cbn [repeat]. rewrite app_nil_r. reflexivity.
Qed.
Lemma bv_shape : forall v, fs_shape (m_fields svs_StateVec) (bv_value v).
Proof. intros v. repeat constructor. cbn [snd shape]. apply Forall_forall. intros x I. apply in_map_iff in I. destruct I as (e & <- & _). repeat constructor. Qed.
Lemma bv_typed : forall v, Forall (fun e => (snd e < two64)%N) v -> fs_typed (m_fields svs_StateVec) (bv_value v).
Proof.
  intros v H. constructor; [|constructor]. cbn [snd typed]. apply Forall_forall. intros x IN. apply in_map_iff in IN. destruct IN as (e & <- & IE).
  rewrite Forall_forall in H. pose proof (H e IE) as B. split; [exact I|]. split; [exact I|]. split; [exact B|exact I].
Qed.
Lemma bv_safe : forall v, fs_wire_safe (m_fields svs_StateVec) (bv_value v).
Proof. intros v. constructor; [|constructor]. cbn [snd wire_safe]. apply Forall_forall. intros x IN. apply in_map_iff in IN. destruct IN as (e & <- & IE). repeat split. Qed.
Lemma same_bentry : forall e x, same (back (mkEP 0 false) [] (KStruct svs_StateVecEntry false) (b_entry e)) x -> gb_entry x = e.
Proof.
  intros [n v] x H. unfold b_entry, svs_StateVecEntry in H. cbn [back snd fst] in H. inversion H as [|?|l l' HL|?|?]; subst; [reflexivity|].
  inversion HL as [|a b la lb H1 H2]; subst. inversion H2 as [|c d lc ld H3 H4]; subst. inversion H4; subst. inversion H1; subst. inversion H3; subst. reflexivity.
Qed.
Theorem bv_round_trip : forall v, Forall (fun e => (snd e < two64)%N) v -> (zlen (bv_bytes v) < size_limit)%Z ->
  exists w, encode_bv v = Ok w /\ concat w = bv_bytes v /\
  forall w' F, concat w' = concat w -> nonempty_segs w' -> (length (concat w) < F)%nat -> decode_bv F w' = Ok (Some v).
Proof.
  intros v T SZ. pose proof (bv_fs_bytes v) as FB.
  destruct (encode_parts (mkEP 0 false) svs_StateVec (bv_value v) eq_refl (bv_shape v)) as (w0 & ys0 & E0 & C0 & LN); [discriminate|]. change (full_hole (mkEP 0 false)) with (@nil N) in LN. rewrite FB in LN.
  destruct (round_trip_wire (mkEP 0 false) svs_StateVec (bv_value v) eq_refl eq_refl (bv_shape v) (bv_typed v T) (bv_safe v) eq_refl) as (w & ys & E & R); [discriminate|rewrite LN; unfold nlen, zlen in *; lia|].
  exists w. unfold encode_bv. rewrite E. cbn [bind fst]. split; [reflexivity|]. assert (w = w0) by congruence. subst w0. split; [rewrite C0; exact FB|].
  intros w' F EW NE LF. destruct (R w' EW NE true F LF) as (vs & cx & P & S1). unfold decode_bv. rewrite P.
  cbn [m_fields svs_StateVec fs_back snd] in S1. inversion S1 as [|a b la lb H1 H2]; subst. inversion H2; subst. cbn [back] in H1.
  assert (Q : forall u l', Forall2 same (map (back (mkEP 0 false) [] (KStruct svs_StateVecEntry false)) (map b_entry u)) l' -> map gb_entry l' = u).
  { clear. induction u as [|e u IH]; intros l' H; cbn [map] in H; inversion H as [|a b la lb HA HB]; subst; [reflexivity|]. cbn [map]. rewrite (same_bentry _ _ HA). f_equal. auto. }
  assert (QR : forall l, Forall2 same l l) by (induction l; constructor; [apply same_eq|auto]).
  inversion H1 as [|?|?|l l' HL|?]; subst; rewrite (Q v); auto.
Qed.
