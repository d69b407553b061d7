(** Proofs about segmented objects: from the producer to the consumer. *)
From Coq Require Import Permutation.
From Verif Require Import Base PrimModel PrimProofs NameModel NameProofs OrderProofs TextModel TextProofs TextProofs2 TrieModel TrieSpec ReaderModel CodecModel CodecSpec CodecSpec2 CodecLib SpecModel SpecSpec SchemaModel StoreModel StoreSpec EngineSpec NeedModel NeedSpec NeedProofs SegModel SegSpec SegProofs PropsSpec.

Lemma packet_concat : forall n c s b osc f, concat s = b -> packet_of n c s osc f = packet_of n c [b] osc f.
Proof.
  intros n c s b osc f <-. unfold packet_of, data_packet, data_part. cbn [option_map concat]. rewrite app_nil_r. reflexivity.
Qed.

Lemma comp_enc_seg : forall i, (nlen (comp_enc (seg_comp i)) <= 10)%N.
Proof.
  intros i. unfold comp_enc, seg_comp, number_comp. cbn [ctyp cval]. unfold nlen. rewrite !app_length. change (length (tl_enc TypeSegment)) with 1%nat.
  pose proof (nat_enc_len i) as H. unfold nlen in H. unfold nat_enc at 1.
  destruct (N.leb_spec (N.of_nat (length (nat_enc i))) 255) as [L|L]; [|lia]. cbn [length]. lia.
Qed.
Lemma name_enc_app : forall n m, name_enc (n ++ m) = name_enc n ++ name_enc m.
Proof. intros n m. unfold name_enc. rewrite map_app, concat_app. reflexivity. Qed.
Lemma piece_len : forall size i b, (nlen (piece size i b) <= N.min size (nlen b))%N.
Proof. intros size i b. unfold piece, nlen. rewrite firstn_length, skipn_length. lia. Qed.

Lemma seg_data_size : forall n i s cnt p, (data_size (n ++ [seg_comp i]) (seg_config s cnt) (Some p) <= nlen (name_enc n) + 20 + nlen (concat p))%N.
Proof.
  intros n i s cnt p. unfold data_size. cbn [seg_config dc_final olen]. rewrite name_enc_app. unfold name_enc at 2. cbn [map concat]. rewrite app_nil_r.
  pose proof (comp_enc_seg i). pose proof (comp_enc_seg (cnt - 1)). unfold nlen in *. rewrite app_length. lia.
Qed.

Lemma signs_len : forall D (l : leaf D) osc f extra b, signs l osc f extra -> all_of data_sig_ok osc /\ all_of (fun s => (0 < nlen s)%N) (f b)
  /\ (olen sig_size osc + olen (@nlen N) (f b) <= extra)%N.
Proof.
  intros D l osc f extra b H. inversion H as [S0|s ls sc g S1 S2 S3 S4 S5]; subst.
  - repeat split; cbn; auto. lia.
  - destruct (S5 b) as ((P & Q) & _). repeat split; cbn [all_of olen]; auto; try apply S2. lia.
Qed.

(** what the packets read as *)
Lemma reads_packet : forall D (l : leaf D) osc f extra n i s cnt p r, signs l osc f extra -> name_typed n -> (sn_type s < two64)%N -> time_ok (sn_fresh s) ->
  (nlen (name_enc n) + nlen (concat p) + extra + 20 < packet_limit)%N -> reads_as (packet_of (n ++ [seg_comp i]) (seg_config s cnt) p osc f) r ->
  final_of r = Some (seg_comp (cnt - 1)) /\ concat (content_of r) = concat p.
Proof.
  intros D l osc f extra n i s cnt p r SG NT ST SF LIM (F & d & cov & LF & R & RD & RC). unfold packet_of in *.
  set (sg := f (data_part (n ++ [seg_comp i]) (seg_config s cnt) (Some p) osc)) in *.
  destruct (signs_len D l osc f extra (data_part (n ++ [seg_comp i]) (seg_config s cnt) (Some p) osc) SG) as (A1 & A2 & A3). fold sg in A2, A3.
  destruct (C19_read (n ++ [seg_comp i]) (seg_config s cnt) (Some p) osc sg F) as (d' & cov' & R' & DR & _); auto.
  - apply seg_typed. exact NT.
  - split; [exact ST|]. split; [exact SF|]. apply num_comp_ok. reflexivity.
  - pose proof (seg_data_size n i s cnt p). lia.
  - assert (d' = d) by congruence. subst d'. destruct DR as (_ & _ & _ & FB & CO & _). unfold final_of, content_of. rewrite RD, RC. split; [exact FB|].
    destruct (d_content d); cbn [option_map] in CO; [injection CO as CO; exact CO|discriminate].
Qed.

Section EndToEnd.
  Context {D : Type} (leaf_of : D -> option (leaf D)).
  Implicit Types (x t : mnode D) (l : leaf D).

  Lemma seg_provide_ok : forall s x l content clock osc f extra, has_segments leaf_of x l -> signs l osc f extra -> publishable s (m_name x) content extra -> concat content <> [] ->
    exists cnt es ws, seg_provide leaf_of s x content clock = Ok (map ASave es, map Some ws, cnt) /\ is_ceil (nlen (concat content)) (sn_size s) cnt
      /\ length es = N.to_nat cnt /\ length ws = N.to_nat cnt
      /\ forall i, (i < N.to_nat cnt)%nat -> exists e w t, nth_error es i = Some e /\ nth_error ws i = Some w
           /\ concat w = packet_of (m_name x ++ [seg_comp (N.of_nat i)]) (seg_config s cnt) [piece (sn_size s) (N.of_nat i) (concat content)] osc f
           /\ ev_target e = Some t /\ m_name t = m_name x ++ [seg_comp (N.of_nat i)] /\ ev_dur e = Some (l_valid l) /\ ev_raw e = Some w.
  Proof.
    intros s x l content clock osc f extra HS SG (S0 & NE & LEN & ST & SF & NT & LIM) NN. unfold seg_provide.
    destruct (seg_count_ok (sn_size s) content S0 LEN) as (cnt & CN & CE & CL). rewrite CN. cbn [bind].
    assert (C1 : (1 <= cnt)%N). { destruct CE as [CE _]. destruct (concat content); [congruence|]. unfold nlen in CE. cbn [length] in CE. nia. }
    assert (CFG : mkDC (Some (sn_type s)) (Some (sn_fresh s)) (Some (seg_comp ((cnt + two64 - 1) mod two64))) = seg_config s cnt).
    { unfold seg_config. replace (cnt + two64 - 1)%N with (cnt - 1 + 1 * two64)%N by lia. rewrite N.mod_add by discriminate. rewrite N.mod_small by lia. reflexivity. }
    rewrite CFG.
    destruct (provide_segs_ok leaf_of x l (seg_config s cnt) clock osc f extra (segments (sn_size s) (N.to_nat cnt) content) 0 HS SG NT) as (es & ws & P & LE & LW & ALL).
    { split; [exact ST|]. split; [exact SF|]. apply num_comp_ok. reflexivity. }
    { apply Forall_forall. intros p IN k. apply In_nth_error in IN. destruct IN as (i & IN).
      assert (I : (i < N.to_nat cnt)%nat). { rewrite <- (segments_length (N.to_nat cnt) (sn_size s) content). apply nth_error_Some. congruence. }
      destruct (segments_nth (N.to_nat cnt) (sn_size s) content i NE I) as (p' & IN' & CP & _). assert (p' = p) by congruence. subst p'.
      pose proof (seg_data_size (m_name x) k s cnt p) as H. rewrite CP in H. pose proof (piece_len (sn_size s) (N.of_nat i) (concat content)). lia. }
    rewrite segments_length in LE, LW.
    rewrite P. cbn [bind fst snd]. exists cnt, es, ws. split; [reflexivity|]. split; [exact CE|]. split; [exact LE|]. split; [exact LW|].
    intros i I. destruct (segments_nth (N.to_nat cnt) (sn_size s) content i NE I) as (p & IN & CP & _). destruct (ALL i p IN) as (e & w & t & A1 & A2 & A3 & A4 & A5 & A6 & A7).
    exists e, w, t. rewrite N.add_0_l in *. rewrite A3. split; [exact A1|]. split; [exact A2|]. split; [apply packet_concat; exact CP|]. auto.
  Qed.
End EndToEnd.

Section Consumer.
  Context {D : Type} (leaf_of : D -> option (leaf D)).
  Implicit Types (x t : mnode D).

  (** some segments before the [m]-th cannot be had, or all can *)
  Lemma chain_or : forall x k need (fin : comp) m, (0 < k)%nat -> (N.of_nat m <= two64)%N ->
    (forall q r, (q < m)%nat -> gets k (need (seg_name x (N.of_nat q))) r -> final_of r = Some fin) -> (forall q, (q < m)%nat -> fin <> seg_comp (N.of_nat q)) ->
    (exists rs, length rs = m /\ chain x k need 0 rs)
    \/ exists rs r, (length rs < m)%nat /\ chain x k need 0 rs /\ gets_none k (need (seg_name x (seg_at 0 (length rs)))) r.
  Proof.
    intros x k need fin m K. induction m as [|m IH]; intros M FI NE.
    - left. exists []. split; [reflexivity|]. intros q r Q. destruct q; discriminate.
    - destruct IH as [(rs & L & C)|(rs & r & L & C & G)]; [lia|intros q r Q; apply FI; lia|intros q Q; apply NE; lia| |].
      2: { right. exists rs, r. split; [lia|]. auto. }
      assert (SA : seg_at 0 m = N.of_nat m) by (unfold seg_at; rewrite N.add_0_l, N.mod_small by lia; reflexivity).
      destruct (gets_dec k (need (seg_name x (N.of_nat m))) K) as [(r & G)|(r & G)].
      + left. exists (rs ++ [r]). split; [rewrite app_length; cbn; lia|]. intros q r' Q. destruct (Nat.lt_ge_cases q (length rs)) as [LT|GE].
        * rewrite nth_error_app1 in Q by exact LT. apply C. exact Q.
        * rewrite nth_error_app2 in Q by exact GE. destruct (q - length rs)%nat eqn:E; [|destruct n; discriminate]. injection Q as <-.
          assert (q = m) by lia. subst q. rewrite SA. split; [exact G|]. exists fin. split; [apply (FI m); [lia|exact G]|apply NE; lia].
      + right. exists rs, r. split; [lia|]. split; [exact C|]. rewrite L, SA. exact G.
  Qed.

  (** A consumer of packets that read as the pieces of an object: all or nothing *)
  Lemma fetch_object : forall x l k need b size cnt F frags last, has_segments leaf_of x l -> (0 < k)%nat -> (0 < cnt)%N -> (cnt < two64)%N ->
    (forall i r, (i < N.to_nat cnt)%nat -> gets k (need (seg_name x (N.of_nat i))) r -> final_of r = Some (seg_comp (cnt - 1)) /\ concat (content_of r) = piece size (N.of_nat i) b) ->
    (N.to_nat cnt <= F)%nat ->
    exists ok w r, fetch F x k [] need 0 frags last = Ok (ok, frags ++ w, r)
      /\ (ok = true -> concat w = concat (map (fun i => piece size (N.of_nat i) b) (seq 0 (N.to_nat cnt))) /\ r_status r = SData)
      /\ (ok = false -> r_status r <> SData)
      /\ ((forall i, (i < N.to_nat cnt)%nat -> exists r, gets k (need (seg_name x (N.of_nat i))) r) -> ok = true).
  Proof.
    intros x l k need b size cnt F frags last HS K C1 CT OBJ LF.
    assert (NEQ : forall q, (q < N.to_nat (cnt - 1))%nat -> seg_comp (cnt - 1) <> seg_comp (N.of_nat q)).
    { intros q Q E. apply seg_comp_inj in E; lia. }
    assert (AT : forall q, (q < N.to_nat cnt)%nat -> seg_at 0 q = N.of_nat q).
    { intros q Q. unfold seg_at. rewrite N.add_0_l. apply N.mod_small. lia. }
    assert (CH : forall rs q r, (length rs <= N.to_nat cnt - 1)%nat -> chain x k need 0 rs -> nth_error rs q = Some r -> concat (content_of r) = piece size (N.of_nat q) b).
    { intros rs q r LR C Q. assert (LQ : (q < length rs)%nat) by (apply nth_error_Some; congruence). destruct (C q r Q) as (G & _). rewrite AT in G by lia. apply (OBJ q r); [lia|exact G]. }
    destruct (chain_or x k need (seg_comp (cnt - 1)) (N.to_nat (cnt - 1)) K) as [(rs & L & C)|(rs & r & L & C & G)]; auto; try lia.
    { intros q r Q G. apply (OBJ q r); [lia|exact G]. }
    - destruct (gets_dec k (need (seg_name x (seg_at 0 (length rs)))) K) as [(r & G)|(r & G)].
      + exists true, (concat (map content_of (rs ++ [r]))), r.
        assert (LN : seg_at 0 (length rs) = (cnt - 1)%N). { rewrite L, AT by lia. lia. }
        pose proof G as G'. rewrite LN in G'. rewrite <- (N2Nat.id (cnt - 1)) in G' at 1. destruct (OBJ (N.to_nat (cnt - 1)) r ltac:(lia) G') as (F1 & F2).
        split; [apply (fetch_complete leaf_of rs F x l); auto; [reflexivity|rewrite F1, LN; reflexivity|lia]|].
        split; [|split; [discriminate|reflexivity]]. intros _. split; [|destruct G as (j & _ & _ & ST & _); exact ST].
        replace (N.to_nat cnt) with (N.to_nat (cnt - 1) + 1)%nat by lia. rewrite seq_app, !map_app, !concat_app. cbn [seq map concat plus]. rewrite !app_nil_r. f_equal; [|exact F2].
        rewrite <- L. assert (LR : (length rs <= N.to_nat cnt - 1)%nat) by lia. specialize (CH rs). revert CH LR C. clear.
        intros CH LR C. specialize (fun q r => CH q r LR C). clear LR C.
        assert (X : forall rs o, (forall q r, nth_error rs q = Some r -> concat (content_of r) = piece size (N.of_nat (o + q)) b) ->
          concat (concat (map content_of rs)) = concat (map (fun i => piece size (N.of_nat i) b) (seq o (length rs)))).
        { clear. induction rs as [|r rs IH]; intros o H; [reflexivity|]. cbn [map concat length seq]. rewrite concat_app. f_equal.
          - rewrite (H 0%nat r eq_refl). rewrite Nat.add_0_r. reflexivity.
          - apply IH. intros q r' Q. rewrite (H (S q) r' Q). f_equal. lia. }
        apply X. exact CH.
      + exists false, (concat (map content_of rs)), r. split; [apply (fetch_fails leaf_of rs F x l); auto; [reflexivity|lia]|]. split; [discriminate|].
        split; [intros _; destruct G as (K1 & N & <-); apply N; lia|]. intros H. exfalso. rewrite L, AT in G by lia. destruct (H (N.to_nat (cnt - 1))) as (r' & G'); [lia|].
        exact (gets_not_none _ _ _ _ G' G).
    - exists false, (concat (map content_of rs)), r. split; [apply (fetch_fails leaf_of rs F x l); auto; [reflexivity|lia]|]. split; [discriminate|].
      split; [intros _; destruct G as (K1 & N & <-); apply N; lia|]. intros H. exfalso. rewrite AT in G by lia. destruct (H (length rs)) as (r' & G'); [lia|].
      exact (gets_not_none _ _ _ _ G' G).
  Qed.
End Consumer.

Lemma pieces_concat : forall size b cnt o, (length b <= (o + cnt) * N.to_nat size)%nat ->
  concat (map (fun i => piece size (N.of_nat i) b) (seq o cnt)) = skipn (o * N.to_nat size) b.
Proof.
  intros size b cnt. induction cnt as [|cnt IH]; intros o L; cbn [seq map concat].
  - rewrite skipn_all2; [reflexivity|]. rewrite Nat.add_0_r in L. exact L.
  - rewrite IH by lia. unfold piece. replace (N.to_nat (N.of_nat o * size)) with (o * N.to_nat size)%nat by lia.
    replace (S o * N.to_nat size)%nat with (o * N.to_nat size + N.to_nat size)%nat by lia. rewrite <- skipn_skipn'. apply firstn_skipn.
Qed.
Lemma pieces_all : forall size b cnt, is_ceil (nlen b) size cnt -> concat (map (fun i => piece size (N.of_nat i) b) (seq 0 (N.to_nat cnt))) = b.
Proof.
  intros size b cnt [C _]. rewrite pieces_concat; [reflexivity|]. unfold nlen in C. lia.
Qed.

Lemma gets_has : forall k need j, (j < k)%nat -> r_status (need j) = SData -> exists r, gets k need r.
Proof.
  intros k need j J S. destruct (gets_dec k need ltac:(lia)) as [G|(r & _ & N & _)]; [exact G|]. exfalso. exact (N j J S).
Qed.
