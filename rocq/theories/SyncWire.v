(** State vectors on the wire. *)
From Verif Require Import Base BaseProofs PrimModel PrimProofs ReaderModel ReaderSpec ReaderProofs NameModel NameProofs CodecModel CodecLib CodecSpec CodecProofs CodecEnc CodecEnc2 CodecEnc3 CodecEnc4 CodecEnc5 CodecSpec2 CodecPar CodecPar2 CodecPar3 CodecPar4 CodecSpec4 CodecTotal CodecWire1 SyncModel SyncSpec.

Definition sv_typed (v : svec) : Prop := Forall (fun e => name_typed (fst e) /\ (snd e < two64)%N) v.
Notation sv_value v := [VStruct [VSeq (map v_entry v)]].

Lemma sv_fs_bytes : forall v, fs_bytes (mkEP 0 false) [] (m_fields sync_StateVectorAppParam) (sv_value v) = sv_bytes v.
Proof.
  intros v. cbn [m_fields sync_StateVectorAppParam fs_bytes fst snd]. rewrite app_nil_r. unfold sync_StateVector. cbn [k_bytes ep_est]. change (N.to_nat 0) with 0%nat. cbn [repeat fst snd].
  rewrite !app_nil_r. unfold sv_bytes, tlv at 1. change (repeat 0%N (N.to_nat (ep_est (mkEP 0 false)))) with (@nil N). change (k_bytes (mkEP 0 false) [] 202 (KSeq (KStruct sync_StateVectorEntry false)) (VSeq (map v_entry v))) with (concat (map (k_bytes (mkEP 0 false) [] 202 (KStruct sync_StateVectorEntry false)) (map v_entry v))). rewrite map_map.
  assert (E : map (fun x => k_bytes (mkEP 0 false) [] 202 (KStruct sync_StateVectorEntry false) (v_entry x)) v = map (fun e => tlv 202 (tlv 7 (name_enc (fst e)) ++ tlv 204 (nat_enc (snd e)))) v).
  { apply map_ext. intros [n x]. unfold v_entry, sync_StateVectorEntry. cbn [k_bytes fst snd ep_est]. change (N.to_nat 0) with 0%nat. cbn [repeat]. rewrite app_nil_r. reflexivity. }
  rewrite E. reflexivity.
Qed.

Lemma sv_shape : forall v, fs_shape (m_fields sync_StateVectorAppParam) (sv_value v).
Proof.
  intros v. repeat constructor. cbn [snd shape]. apply Forall_forall. intros x I. apply in_map_iff in I. destruct I as (e & <- & _). repeat constructor.
Qed.
Lemma sv_typed_ok : forall v, sv_typed v -> fs_typed (m_fields sync_StateVectorAppParam) (sv_value v).
Proof.
  intros v H. constructor; [|constructor]. cbn [snd sync_StateVector typed]. split; [|exact I]. apply Forall_forall. intros x IN. apply in_map_iff in IN. destruct IN as (e & <- & IE).
  unfold sv_typed in H. rewrite Forall_forall in H. destruct (H e IE) as [A B]. split; [exact I|]. cbn. auto.
Qed.

Lemma sv_encode : forall v, exists w, encode_sv v = Ok w /\ concat w = sv_bytes v.
Proof.
  intros v. destruct (encode_parts (mkEP 0 false) sync_StateVectorAppParam (sv_value v) eq_refl (sv_shape v)) as (w & ys & E & C & _); [discriminate|].
  exists w. unfold encode_sv. rewrite E. cbn [bind fst]. split; [reflexivity|]. rewrite C. apply sv_fs_bytes.
Qed.

Lemma same_entry : forall e x, same (back (mkEP 0 false) [] (KStruct sync_StateVectorEntry false) (v_entry e)) x -> g_entry x = e.
Proof.
  intros [n v] x H. unfold v_entry, sync_StateVectorEntry in H. cbn [back snd fst] in H. inversion H as [|?|l l' HL|?|?]; subst; [reflexivity|].
  inversion HL as [|a b la lb H1 H2]; subst. inversion H2 as [|c d lc ld H3 H4]; subst. inversion H4; subst. inversion H1; subst. inversion H3; subst. reflexivity.
Qed.

Theorem sv_round_trip : forall v w F, sv_typed v -> concat w = sv_bytes v -> (zlen (sv_bytes v) < size_limit)%Z -> (length (sv_bytes v) < F)%nat ->
  on_sync F (Some w) = Ok (Some v).
Proof.
  intros v w F T E SZ LF. unfold on_sync. rewrite E.
  assert (LM : (zlen (sv_bytes v) < mem_limit)%Z) by (unfold size_limit, mem_limit in *; lia).
  pose proof (sv_fs_bytes v) as FB.
  assert (P : exists vals cx, m_parse F sync_StateVectorAppParam false (new_buffer_reader (sv_bytes v)) = Ok (vals, cx) /\ Forall2 same (fs_back (mkEP 0 false) [] (m_fields sync_StateVectorAppParam) (sv_value v)) vals).
  { destruct (parse_ok (mkEP 0 false) [] eq_refl sync_StateVectorAppParam false (sv_value v) F (new_buffer_reader (sv_bytes v)) [] eq_refl eq_refl (sv_shape v) (sv_typed_ok v T)) as (vals & cx & P1 & P2 & _).
    - rewrite FB. apply at_new_buf. auto.
    - left. exact I.
    - rewrite FB. auto.
    - rewrite FB. auto.
    - eauto. }
  destruct P as (vals & cx & P1 & P2).
  assert (W1 : m_parse F sync_StateVectorAppParam false (new_wire_reader [sv_bytes v]) = m_parse F sync_StateVectorAppParam false (new_buffer_reader (sv_bytes v))).
  { apply parse_wire1; [discriminate|reflexivity|exact LM|]. assert (X : (1 < length (sv_bytes v))%nat); [|lia]. unfold sv_bytes, tlv. rewrite app_length. assert (Y : forall n, (0 < length (tl_enc n))%nat).
    { intros n. unfold tl_enc. repeat match goal with |- context [if ?c then _ else _] => destruct c end; cbn [length]; lia. }
    rewrite app_length. pose proof (Y 201%N). match goal with |- context [tl_enc (nlen ?x)] => pose proof (Y (nlen x)) end. lia. }
  rewrite W1, P1. clear W1 P1. cbn [m_fields sync_StateVectorAppParam fs_back snd] in P2. inversion P2 as [|a b la lb H1 H2]; subst. inversion H2; subst. clear P2 H2.
  unfold sync_StateVector in H1. cbn [back snd] in H1.
  assert (Q : forall l', Forall2 same (map (back (mkEP 0 false) [] (KStruct sync_StateVectorEntry false)) (map v_entry v)) l' -> map g_entry l' = v).
  { clear. induction v as [|e v IH]; intros l' H; cbn [map] in H; inversion H as [|a b la lb HA HB]; subst; [reflexivity|]. cbn [map]. rewrite (same_entry _ _ HA). f_equal. auto. }
  assert (QR : forall l, Forall2 same l l) by (induction l; constructor; [apply same_eq|auto]).
  inversion H1 as [|?|l l' HL|?|?]; subst.
  - rewrite Q; auto.
  - inversion HL as [|c d lc ld H3 H4]; subst. inversion H4; subst. inversion H3; subst; rewrite Q; auto.
Qed.

Theorem on_sync_safe : forall w F, bytes_ok (concat w) -> no_huge_number (concat w) -> (zlen (concat w) < mem_limit)%Z -> (length (concat w) < F)%nat ->
  exists x, on_sync F (Some w) = Ok x.
Proof.
  intros w F B N Z L. unfold on_sync.
  assert (O : one_struct sync_StateVectorAppParam) by (unfold one_struct, sync_StateVectorAppParam, sync_StateVector; do 6 eexists; split; [reflexivity|discriminate]).
  destruct (parse_safe_wire1 sync_StateVectorAppParam false (concat w) F O B N Z L) as [[[vs cx] E]|[e E]]; rewrite E; [|eauto].
  repeat match goal with |- exists y, match ?x with _ => _ end = _ => destruct x end; eauto.
Qed.
