(** MakeData and MakeInterest: the wire before and after the signature. *)
From Verif Require Import Base BaseProofs PrimModel PrimProofs ReaderModel ReaderSpec ReaderProofs NameModel NameProofs CodecModel CodecSpec CodecProofs CodecEnc CodecEnc2 CodecEnc3 CodecEnc5 CodecSpec2 CodecPar CodecPar2 CodecPar4 CodecLib SpecModel SpecSpec.

(** ** Fields whose bytes do not depend on signature and digest *)
Fixpoint free_kind (k : kind) : bool :=
  match k with
  | KSig _ _ | KIName _ => false
  | KStruct (Model _ _ fs) _ => forallb (fun f => free_kind (snd f)) fs
  | KSeq sub => free_kind sub
  | KMap key _ val => free_kind key && free_kind val
  | _ => true
  end.

Lemma k_bytes_free : forall k, free_kind k = true -> forall p h p' h' t v, k_bytes p h t k v = k_bytes p' h' t k v.
Proof.
  induction k as [k L|nc o fs b IH|sub IH|key vt val IH1 IH2] using kind_ind2; intros FR p h p' h' t v.
  - destruct k; try discriminate; destruct v; reflexivity.
  - destruct v; auto. rewrite !k_bytes_struct. cbn [free_kind] in FR.
    assert (E : forall h1 h2 vs, fs_bytes p h1 fs vs = fs_bytes p' h2 fs vs).
    { intros h1 h2. clear t vs. induction IH as [|f fs Hf _ IHf]; intros [|v vs]; auto. cbn [forallb] in FR. rewrite andb_true_iff in FR. destruct FR as [F1 F2].
      cbn [fs_bytes]. rewrite (Hf F1 p h1 p' h2), IHf; auto. }
    rewrite (E (full_hole p) (full_hole p')), (E h h'). reflexivity.
  - destruct v; auto. cbn [k_bytes free_kind] in *. f_equal. apply map_ext. intros a. apply IH. auto.
  - destruct v; auto. cbn [k_bytes free_kind] in *. rewrite andb_true_iff in FR. destruct FR as [F1 F2]. f_equal. apply map_ext. intros a. rewrite (IH1 F1 p h p' h'), (IH2 F2 p h p' h'). reflexivity.
Qed.

Lemma fs_bytes_free : forall fs, forallb (fun f => free_kind (snd f)) fs = true -> forall p h p' h' vs, fs_bytes p h fs vs = fs_bytes p' h' fs vs.
Proof.
  induction fs as [|f fs IH]; intros FR p h p' h' [|v vs]; auto. cbn [forallb] in FR. rewrite andb_true_iff in FR. destruct FR as [F1 F2].
  cbn [fs_bytes]. rewrite (k_bytes_free _ F1 p h p' h'), (IH F2 p h p' h'). reflexivity.
Qed.

(** ** The length of the signature *)

Lemma fix_length : forall est len, fits est len -> exists b x, tl_enc est = b ++ [x] /\ tl_enc len = b ++ [(len mod 256)%N].
Proof.
  intros est len [[L1 L2] [H|(H1 & H2 & H3)]]; unfold tl_enc.
  - destruct (N.leb_spec est 252); [|lia]. destruct (N.leb_spec len 252); [|lia]. exists [], est. rewrite N.mod_small by lia. auto.
  - destruct (N.leb_spec est 252); [lia|]. destruct (N.leb_spec len 252); [lia|].
    destruct (N.leb_spec est 65535); [|lia]. destruct (N.leb_spec len 65535); [|lia].
    exists [253%N; (est / 256 mod 256)%N], (est mod 256)%N. cbn [be app]. rewrite H3. auto.
Qed.

Lemma removelast_snoc : forall {A} (l : list A) x, removelast (l ++ [x]) = l.
Proof. intros. rewrite removelast_app by discriminate. cbn. apply app_nil_r. Qed.

Lemma put_sig_ok : forall S0 c t est sig, fits est (nlen sig) ->
  put_sig (S0 ++ [c ++ tl_enc t ++ tl_enc est; []]) (S (length S0)) sig = Ok (S0 ++ [c ++ tl_enc t ++ tl_enc (nlen sig); sig]).
Proof.
  intros S0 c t est sig H. destruct (fix_length _ _ H) as (b & x & E1 & E2). unfold put_sig.
  replace (S (length S0) <? length (S0 ++ [c ++ tl_enc t ++ tl_enc est; []]))%nat with true by (symmetry; apply Nat.ltb_lt; rewrite app_length; cbn; lia).
  assert (U1 : upd (S0 ++ [c ++ tl_enc t ++ tl_enc est; []]) (S (length S0)) sig = S0 ++ [c ++ tl_enc t ++ tl_enc est; sig]).
  { change (S0 ++ [c ++ tl_enc t ++ tl_enc est; []]) with (S0 ++ [c ++ tl_enc t ++ tl_enc est] ++ [[]]). rewrite app_assoc.
    replace (S (length S0)) with (length (S0 ++ [c ++ tl_enc t ++ tl_enc est])) by (rewrite app_length; cbn; lia). rewrite upd_mid, <- app_assoc. reflexivity. }
  rewrite U1. cbv zeta. rewrite app_nth2, Nat.sub_diag by lia. cbn [nth]. rewrite E1.
  assert (NE : exists y l, c ++ tl_enc t ++ b ++ [x] = y :: l). { destruct (c ++ tl_enc t ++ b ++ [x]) eqn:E; eauto. exfalso. apply app_eq_nil in E. destruct E as [_ E]. apply app_eq_nil in E. destruct E as [_ E]. destruct b; discriminate. }
  destruct NE as (y & l & NE). rewrite NE. rewrite <- NE. rewrite upd_mid. rewrite E2. do 3 f_equal.
  rewrite !app_assoc, removelast_snoc. reflexivity.
Qed.

(** ** Wires of packets *)
Lemma fst_len : forall ts S c S' c', length S = length S' -> length (fst (tsplit (S, c) ts)) = length (fst (tsplit (S', c') ts)).
Proof.
  induction ts as [|[b|w] ts IH]; intros S c S' c' L; auto.
  - cbn [tsplit fold_left tstep fst snd]. apply (IH S (c ++ b) S' (c' ++ b) L).
  - cbn [tsplit fold_left tstep fst snd]. apply IH. rewrite !app_length. cbn [length]. lia.
Qed.

(** the first buffer begins with the outer type and length *)
Lemma head_wire : forall ts h, exists a r, tsplit ([], h) ts = (match r with [] => [] | _ => (h ++ a) :: removelast r end, match r with [] => h ++ a | _ => last r [] end).
Proof.
  intros ts h. rewrite tsplit_gen. unfold tjoin. destruct (tsplit ([], []) ts) as [[|a q] c]; cbn [fst snd].
  - exists c, []. reflexivity.
  - exists a, (q ++ [c]). destruct (q ++ [c]) eqn:E; [destruct q; discriminate|]. rewrite <- E, removelast_snoc, last_last. reflexivity.
Qed.

Lemma shrink_wire_ok : forall t L a rest k, u64_ok t -> u64_ok L -> (0 <= k <= Z.of_N L)%Z ->
  shrink_wire (((tl_enc t ++ tl_enc L) ++ a) :: rest) k = Ok (((tl_enc t ++ tl_enc (L - Z.to_N k)) ++ a) :: rest).
Proof. intros. cbn [shrink_wire]. rewrite <- app_assoc, shrink_length_ok by (auto; lia). cbn [bind]. rewrite <- app_assoc. reflexivity. Qed.

(** wires without empty buffers *)
Definition tw_full (ts : list tok) : Prop := Forall (fun x => match x with TW w => full_wire w | TB _ => True end) ts.
Lemma tsplit_full : forall ts S c b, good b ts -> tw_full ts -> (b = true -> c <> []) -> full_wire S -> full_wire (fst (tsplit (S, c) ts)).
Proof.
  induction ts as [|[x|w] ts IH]; intros S c b G T C HS; cbn [good] in G; inversion T; subst; auto.
  - destruct G as [G1 G2]. apply (IH S (c ++ x) true); auto. intros _ E. apply app_eq_nil in E. tauto.
  - destruct G as [G1 G2]. apply (IH (S ++ c :: w) [] false); auto; [discriminate|]. apply Forall_app. split; [exact HS|]. constructor; auto.
Qed.
Lemma fin_full : forall st, full_wire (fst st) -> full_wire (fin_wire st []).
Proof. intros [S [|x c]] H; unfold fin_wire; cbn [fst snd] in *; [rewrite app_nil_r; exact H|]. apply Forall_app. split; [exact H|]. constructor; [discriminate|constructor]. Qed.
Lemma tw_full_app : forall a b, tw_full a -> tw_full b -> tw_full (a ++ b).
Proof. intros a b H1 H2. apply Forall_app. auto. Qed.

(** a structure that ends with a signature, in a packet *)
Section Signed.
  Context (p : eparams) (typ t : N) (T0 : list tok) (L : N) (EST : (0 < ep_est p)%N).
  Let hdr := tl_enc typ ++ tl_enc L.
  Let w := fin_wire (tsplit ([], []) (TB hdr :: T0 ++ [TB (tl_enc t ++ tl_enc (ep_est p)); TW [[]]])) [].

  Lemma signed_wire : exists S0 c, tsplit ([], hdr) T0 = (S0, c) /\ w = S0 ++ [c ++ tl_enc t ++ tl_enc (ep_est p); []]
    /\ length S0 = length (fst (tsplit ([], []) T0)) /\ concat S0 ++ c = hdr ++ tbytes T0
    /\ exists a r, S0 ++ [c] = (hdr ++ a) :: r.
  Proof.
    destruct (tsplit ([], hdr) T0) as [S0 c] eqn:E. exists S0, c. split; [auto|]. split; [|split; [|split]].
    - unfold w, tsplit. cbn [fold_left tstep fst snd app]. rewrite fold_left_app. fold (tsplit ([], hdr) T0). rewrite E. cbn [fold_left tstep fst snd].
      unfold fin_wire. cbn [fst snd]. rewrite app_nil_r. reflexivity.
    - rewrite <- (fst_len T0 [] hdr [] [] eq_refl), E. reflexivity.
    - pose proof (tsplit_concat T0 [] hdr) as X. rewrite E in X. exact X.
    - destruct (head_wire T0 hdr) as (a & r & X). rewrite E in X. destruct r as [|x r]; injection X as -> ->; [eexists _, _; reflexivity|]. eexists _, _. reflexivity.
  Qed.
End Signed.
