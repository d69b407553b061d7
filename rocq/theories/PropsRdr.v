(** C58: versioned objects (pkg/schema/rdr/rdr.go: RdrNode).  C59: objects with a manifest (GeneralObjNode). *)
From Coq Require Import Permutation.
From Verif Require Import Base NameModel TextModel TrieModel TrieSpec PrimModel ReaderModel ReaderSpec CodecModel CodecSpec CodecSpec2 CodecLib SpecModel SpecSpec EngineSpec SchemaModel StoreModel StoreSpec NeedModel NeedSpec NeedProofs SegModel SegSpec SegProofs SegProofs2 RdrSpec RdrProofs PropsSpec PropsSeg.
From Verif Require Import PropsStore OrderProofs TextProofs TextProofs2 NameProofs.

(** Providing: the object is provided as segments below the node's name and a version, the time in
    milliseconds (C37 says what these packets are); the metadata, below the node's name, 32=metadata, the version and segment 0,
    names that version, its last segment and the size of the object.  Missing: as for C37_provide_partial; empty
    components in the node's name. *)
Theorem C58_provide_partial : forall D leaf_of seg_of fresh (x : mnode D) s l lm osc f extra osc' f' extra' content now clock later,
  has_rdr leaf_of seg_of x s l lm -> signs l osc f extra -> signs lm osc' f' extra' ->
  let v := timestamp now in
  publishable s (m_name x ++ [ver_comp v]) content extra -> concat content <> [] -> no_empty_comp (m_name x) -> time_ok fresh ->
  (2 * nlen (name_enc (m_name x)) + extra' + 200 < packet_limit)%N ->
  exists y acts ws cnt e mw wm t, rdr_provide leaf_of seg_of fresh x content now clock later = Ok (acts ++ [ASave e], v)
    /\ m_name y = m_name x ++ [ver_comp v] /\ has_segments leaf_of y l /\ seg_provide leaf_of s y content clock = Ok (acts, map Some ws, cnt)
    /\ concat mw = meta_bytes (m_name x ++ [ver_comp v]) cnt (nlen (concat content))
    /\ concat wm = packet_of (m_name x ++ [key_metadata; ver_comp v; seg_comp 0]) (meta_config fresh) mw osc' f'
    /\ ev_raw e = Some wm /\ ev_target e = Some t /\ m_name t = m_name x ++ [key_metadata; ver_comp v; seg_comp 0] /\ ev_dur e = Some (l_valid lm).
Proof.
  intros D leaf_of seg_of fresh x s l lm osc f extra osc' f' extra' content now clock later HR SG SG' v PB NE NC TF LIM.
  destruct (rdr_provide_ok leaf_of seg_of fresh x s l lm osc f extra osc' f' extra' content now clock later HR SG SG' PB NE NC TF LIM)
    as (y & acts & ws & cnt & e & mw & wm & t & A1 & A2 & A3 & A4 & A5 & A6 & A7 & A8 & A9 & A10 & _).
  exists y, acts, ws, cnt, e, mw, wm, t. repeat (split; [assumption|]). assumption.
Qed.
Print Assumptions C58_provide_partial.

(** From end to end, for each version that was provided: a consumer whose first Data for the metadata is
    the one of this version gets exactly the content of this version, or not Data; and Data if each
    segment yields Data in some trial.  Whatever is Data for a segment of this version is what that packet reads as.
    Missing: as for C58_provide_partial; that the version is the latest (false, below). *)
Theorem C58_end_to_end_partial : forall D leaf_of seg_of fresh (x : mnode D) s l lm osc f extra osc' f' extra' content now clock later,
  has_rdr leaf_of seg_of x s l lm -> signs l osc f extra -> signs lm osc' f' extra' ->
  let v := timestamp now in
  publishable s (m_name x ++ [ver_comp v]) content extra -> concat content <> [] -> no_empty_comp (m_name x) -> time_ok fresh ->
  (2 * nlen (name_enc (m_name x)) + extra' + 200 < packet_limit)%N ->
  exists y acts ws cnt e wm, rdr_provide leaf_of seg_of fresh x content now clock later = Ok (acts ++ [ASave e], v)
    /\ m_name y = m_name x ++ [ver_comp v] /\ seg_provide leaf_of s y content clock = Ok (acts, map Some ws, cnt) /\ ev_raw e = Some wm
    /\ forall D' leaf_of' seg_of' (x' : mnode D') s' l' lm' retries need F rm, has_rdr leaf_of' seg_of' x' s' l' lm' -> m_name x' = m_name x ->
       (length (concat wm) < F)%nat -> (length ws <= F)%nat ->
       gets (trials retries) (need (m_name x ++ [key_metadata])) rm -> reads_as (concat wm) rm -> nonempty_segs (content_of rm) ->
       (forall i w j, nth_error ws i = Some w -> let r := need (m_name x ++ [ver_comp v; seg_comp (N.of_nat i)]) j in r_status r = SData -> reads_as (concat w) r) ->
       exists ev, rdr_need seg_of' F retries x' None need = Ok (Some ev) /\ whole_or_failure (concat content) ev
         /\ ((forall i, (i < length ws)%nat -> exists j, (j < trials (sn_retries s'))%nat /\ r_status (need (m_name x ++ [ver_comp v; seg_comp (N.of_nat i)]) j) = SData) -> ev_status ev = Some SData).
Proof.
  intros D leaf_of seg_of fresh x s l lm osc f extra osc' f' extra' content now clock later HR SG SG' v PB NE NC TF LIM.
  destruct (rdr_provide_ok leaf_of seg_of fresh x s l lm osc f extra osc' f' extra' content now clock later HR SG SG' PB NE NC TF LIM)
    as (y & acts & ws & cnt & e & mw & wm & t & A1 & A2 & A3 & A4 & A5 & A6 & A7 & A8 & A9 & A10 & A11 & A12 & A13 & A14 & A15). fold v in A1, A2, A5, A6, A9, A11, A13, A15.
  exists y, acts, ws, cnt, e, wm. split; [exact A1|]. split; [exact A2|]. split; [exact A4|]. split; [exact A7|].
  intros D' leaf_of' seg_of' x' s' l' lm' retries need F rm HR' NM LF LW G RA NS SRV. unfold rdr_need. cbn zeta.
  destruct (refine_discover leaf_of' seg_of' x' s' l' lm' HR') as (yd & RD). rewrite RD. cbn [bind].
  assert (T : try (need (m_name x' ++ [key_metadata])) (trials retries) 0 no_res = (true, rm)) by (rewrite NM; apply try_gets; exact G). rewrite T.
  destruct (trials retries) as [|k] eqn:K; [destruct G as (j & J & _); lia|].
  rewrite A6 in RA. pose proof (reads_content D lm osc' f' extra' _ _ _ _ SG' A11 A12 A13 RA) as CR. fold (content_of rm).
  assert (LM : (length (concat mw) < F)%nat).
  { assert (X : (nlen (concat mw) <= nlen (concat wm))%N); [|unfold nlen in X; lia]. rewrite A6. apply packet_content_len. }
  destruct (A15 (content_of rm) F CR NS LM) as (vs & cx & P & V). rewrite P, V. cbn [g_name_of]. rewrite NM, is_prefix_app. cbn [negb].
  destruct (refine_version leaf_of' seg_of' x' s' l' lm' v HR') as (y' & R2 & YN & YS & YH). rewrite NM in R2, YN. rewrite R2. cbn [bind call_need]. rewrite YS.
  destruct (C37_end_to_end_partial D leaf_of s y l content clock osc f extra A3 SG ltac:(rewrite A2; exact PB) NE acts ws cnt A4 D' leaf_of' s' y' l' need F YH) as (ev & PE & W & S); try lia.
  { congruence. }
  { intros i w j I. rewrite A2, <- app_assoc. cbn [app]. apply (SRV i w j I). }
  rewrite PE. cbn [bind]. exists ev. split; [reflexivity|]. split; [exact W|]. intros H. apply S. intros i I. destruct (H i I) as (j & J1 & J2). exists j. rewrite A2, <- app_assoc. auto.
Qed.
Print Assumptions C58_end_to_end_partial.

(** In a storage with nothing below 32=metadata of the node before, an Interest for that name is answered with the metadata of the version. *)
Theorem C58_discovered : forall D leaf_of seg_of fresh (x : mnode D) s l lm osc f extra osc' f' extra' content now clock later,
  has_rdr leaf_of seg_of x s l lm -> signs l osc f extra -> signs lm osc' f' extra' ->
  let v := timestamp now in
  publishable s (m_name x ++ [ver_comp v]) content extra -> concat content <> [] -> no_empty_comp (m_name x) -> time_ok fresh ->
  (2 * nlen (name_enc (m_name x)) + extra' + 200 < packet_limit)%N ->
  exists acts e wm, rdr_provide leaf_of seg_of fresh x content now clock later = Ok (acts ++ [ASave e], v) /\ ev_raw e = Some wm
    /\ forall puts h times, s_puts s_new puts = Ok h -> (forall q, In q puts -> ~ at_or_below (m_name x ++ [key_metadata]) (fst (fst q))) ->
       exists h', save_all h times 0 (acts ++ [ASave e]) = Ok h'
       /\ forall (p : point D) ord now rest path nd m int raw cov dl nm, (forall k a, Permutation a (ord k a)) -> p_search p = mem_search ord h' now :: rest ->
          i_name int = Some nm -> bare nm (m_name x ++ [key_metadata]) -> (i_must_be_fresh int = true -> (now < times (length acts) + l_valid lm)%Z) ->
          on_interest p path nd m int raw cov dl = Ok [AReply wm].
Proof.
  intros D leaf_of seg_of fresh x s l lm osc f extra osc' f' extra' content now clock later HR SG SG' v PB NE NC TF LIM.
  destruct (rdr_provide_ok leaf_of seg_of fresh x s l lm osc f extra osc' f' extra' content now clock later HR SG SG' PB NE NC TF LIM)
    as (y & acts & ws & cnt & e & mw & wm & t & A1 & A2 & A3 & A4 & A5 & A6 & A7 & A8 & A9 & A10 & A11 & A12 & A13 & A14 & A15). fold v in A1, A2, A5, A6, A9, A11, A13, A15.
  exists acts, e, wm. split; [exact A1|]. split; [exact A7|]. intros puts h times E NB.
  destruct (seg_provide_ok leaf_of s y l content clock osc f extra A3 SG ltac:(rewrite A2; exact PB) NE) as (cnt' & es & ws' & SP' & CE & LE & LW & ALL).
  rewrite A4 in SP'. injection SP' as AE WE CE'. subst acts cnt'.
  destruct (save_events D es puts h times 0 E) as (h1 & more & SV & PT & MN).
  { intros j ev J. assert (JL : (j < N.to_nat cnt)%nat) by (rewrite <- LE; apply nth_error_Some; congruence). destruct (ALL j JL) as (e' & w & t' & B1 & _ & _ & B4 & B5 & B6 & B7).
    assert (e' = ev) by congruence. subst e'. exists t', (l_valid l), w. auto. }
  destruct (saved _ h1 (times (length es)) e t (l_valid lm) wm PT A8 A10 A7) as (h' & S1 & S2). exists h'. split.
  { rewrite save_all_app, SV. cbn [bind]. rewrite map_length. cbn [Nat.add save_all]. rewrite S1. reflexivity. }
  intros p ord now' rest path nd m int raw cov dl nm O P NM B FR. rewrite map_length in FR. rewrite A9 in S2.
  eapply (reply_only D p ord _ h' now' _ wm _ rest path nd m int raw cov dl nm _ O S2); eauto.
  - apply (latest_other _ []). intros q [].
  - intros ->. destruct (tlv_nonempty 6 (data_part (m_name x ++ [key_metadata; ver_comp v; seg_comp 0]) (meta_config fresh) (Some mw) osc'
      ++ opt_tlv 23 (f' (data_part (m_name x ++ [key_metadata; ver_comp v; seg_comp 0]) (meta_config fresh) (Some mw) osc')))). symmetry. exact A6.
  - unfold at_or_below, prefix, keys. exists (map comp_str [ver_comp v; seg_comp 0]). rewrite !map_app, <- app_assoc. reflexivity.
  - intros q Q AB. apply in_app_or in Q. destruct Q as [Q|[<-|[]]]; [|reflexivity]. exfalso. apply in_app_or in Q. destruct Q as [Q|Q]; [exact (NB q Q AB)|].
    destruct (MN q Q) as (j & ev & t' & J & T & TN). assert (JL : (j < N.to_nat cnt)%nat) by (rewrite <- LE; apply nth_error_Some; congruence).
    destruct (ALL j JL) as (e' & w & t2 & B1 & _ & _ & B4 & B5 & _). assert (e' = ev) by congruence. subst e'. assert (t2 = t') by congruence. subst t2.
    rewrite TN, B5, A2 in AB. destruct AB as (sfx & AB). unfold keys in AB. rewrite !map_app, <- !app_assoc in AB. apply app_inv_head in AB. apply (f_equal (hd [])) in AB. cbn [map hd app] in AB.
    apply comp_str_collisions in AB; [|apply num_comp_ok; reflexivity|destruct key_typed as ((_ & K) & _); inversion K; split; [reflexivity|repeat constructor]].
    destruct AB as [AB|(AB & AB1 & _)]; apply (f_equal ctyp) in AB || idtac; discriminate AB || discriminate AB1.
Qed.
Print Assumptions C58_discovered.

(** Without metadata in any trial the consumer is told the status of the last one. *)
Theorem C58_no_metadata : forall D leaf_of seg_of (x : mnode D) s l lm F retries need r, has_rdr leaf_of seg_of x s l lm -> gets_none (trials retries) (need (m_name x ++ [key_metadata])) r ->
  exists ev, rdr_need seg_of F retries x None need = Ok (Some ev) /\ ev_status ev = Some (r_status r) /\ ev_status ev <> Some SData /\ ev_content ev = None.
Proof.
  intros D leaf_of seg_of x s l lm F retries need r HR G. unfold rdr_need. cbn zeta. destruct (refine_discover leaf_of seg_of x s l lm HR) as (yd & RD). rewrite RD. cbn [bind].
  pose proof G as (K & N & R). apply (try_gets_none _ _ no_res _ K) in G. rewrite G. eexists. split; [destruct (trials retries); [lia|reflexivity]|]. cbn [failed ev_status ev_content].
  split; [reflexivity|]. split; [|reflexivity]. rewrite <- R. intros H. injection H as H. apply (N (trials retries - 1)%nat); [lia|exact H].
Qed.
Print Assumptions C58_no_metadata.

(** With a version given instead, the node crashes, whatever the network does (unless the name has only empty generic components) ... *)
Theorem C58_version_refuted : forall D seg_of (x : mnode D) F retries v need, m_name x <> [] -> Forall (fun c => ctyp c <> TypeImplicitSha256Digest) (m_name x) ->
  Exists (fun c => c <> mkComp 0 []) (m_name x) -> rdr_need seg_of F retries x (Some v) need = Panic.
Proof.
  intros D seg_of x F retries v need NE ND EX. unfold rdr_need, refine.
  destruct (is_prefix (m_name x) (repeat (mkComp 0 []) (length (m_name x)) ++ [ver_comp v])) eqn:P.
  - exfalso. apply is_prefix_iff in P. destruct P as (s & P). assert (X : repeat (mkComp 0 []) (length (m_name x)) = m_name x).
    { apply (f_equal (firstn (length (m_name x)))) in P. rewrite !firstn_app, repeat_length, Nat.sub_diag, !firstn_all in P. cbn [firstn] in P. rewrite !app_nil_r in P.
      rewrite firstn_all2 in P by (rewrite repeat_length; lia). exact P. }
    rewrite <- X in EX. apply Exists_exists in EX. destruct EX as (c & IN & C). apply repeat_spec in IN. congruence.
  - cbn [negb]. destruct (rev (m_name x)) as [|c r] eqn:R; [reflexivity|]. assert (IN : In c (m_name x)) by (apply in_rev; rewrite R; left; reflexivity).
    rewrite Forall_forall in ND. specialize (ND c IN). apply N.eqb_neq in ND. rewrite ND. reflexivity.
Qed.
Print Assumptions C58_version_refuted.

(** ... as it does for metadata that cannot be parsed, which any peer can send if the node has no validator ... *)
Theorem C58_malformed_refuted : forall D leaf_of seg_of (x : mnode D) s l lm F retries need r err, has_rdr leaf_of seg_of x s l lm ->
  gets (trials retries) (need (m_name x ++ [key_metadata])) r -> m_parse F rdr_MetaData true (new_wire_reader (content_of r)) = Err err ->
  rdr_need seg_of F retries x None need = Panic.
Proof.
  intros D leaf_of seg_of x s l lm F retries need r err HR G P. unfold rdr_need. cbn zeta. destruct (refine_discover leaf_of seg_of x s l lm HR) as (yd & RD). rewrite RD. cbn [bind].
  destruct (trials retries) as [|k] eqn:K; [destruct G as (j & J & _); lia|]. apply (try_gets _ _ no_res) in G. rewrite G. fold (content_of r). rewrite P. reflexivity.
Qed.
Print Assumptions C58_malformed_refuted.

(** ... and metadata naming some other object makes it report Data, without content. *)
Theorem C58_other_refuted : forall D leaf_of seg_of (x : mnode D) s l lm F retries need r vs cx n, has_rdr leaf_of seg_of x s l lm ->
  gets (trials retries) (need (m_name x ++ [key_metadata])) r -> m_parse F rdr_MetaData true (new_wire_reader (content_of r)) = Ok (vs, cx) -> nth 0 vs VNone = VName n ->
  (forall suffix, n <> m_name x ++ suffix) ->
  exists ev, rdr_need seg_of F retries x None need = Ok (Some ev) /\ ev_status ev = Some SData /\ ev_content ev = None.
Proof.
  intros D leaf_of seg_of x s l lm F retries need r vs cx n HR G P V NP. unfold rdr_need. cbn zeta. destruct (refine_discover leaf_of seg_of x s l lm HR) as (yd & RD). rewrite RD. cbn [bind].
  destruct (trials retries) as [|k] eqn:K; [destruct G as (j & J & _); lia|]. pose proof G as (j & _ & _ & ST & _). apply (try_gets _ _ no_res) in G. rewrite G. fold (content_of r). rewrite P, V. cbn [g_name_of].
  destruct (is_prefix (m_name x) n) eqn:PF; [apply is_prefix_iff in PF; destruct PF as (sx & PF); exfalso; exact (NP sx PF)|]. cbn [negb].
  eexists. split; [reflexivity|]. cbn [failed ev_status ev_content]. split; [f_equal; exact ST|reflexivity].
Qed.
Print Assumptions C58_other_refuted.

(** an object of 5 bytes in two buffers, in segments of 2 bytes *)
Definition rx_leaf : leaf nat := mkLeaf [] 0%N 10000000%Z 1000000000%Z.
Definition rx : mnode nat :=
  mkM [] (SNode 0%nat [ (PVar TypeVersion [118%N], SNode 1%nat [(PVar TypeSegment [115%N], SNode 2%nat [])])
                      ; (PComp key_metadata, SNode 3%nat [(PVar TypeVersion [118%N], SNode 4%nat [(PComp (seg_comp 0), SNode 5%nat [])])]) ]) [] [mkComp 8 [97%N]].
Definition rx_leaf_of (d : nat) : option (leaf nat) := match d with 2%nat | 5%nat => Some rx_leaf | _ => None end.
Definition rx_seg_of (d : nat) : option segnode := match d with 1%nat => Some (mkSeg 0 10000000 2 15) | _ => None end.
Definition rx_provide (content : wire) (now : Z) : list (action nat) * N :=
  match rdr_provide rx_leaf_of rx_seg_of 10000000 rx content now (fun _ => now) now with Ok r => r | _ => ([], 0%N) end.
Definition rx_old := Eval vm_compute in rx_provide [[1; 2; 3]; [4; 5]]%N 7000000.
Definition rx_new := Eval vm_compute in rx_provide [[6; 7]]%N 8000000.
Definition saved_of (acts : list (action nat)) : list (name * wire) :=
  map (fun a => match a with ASave e => (match ev_target e with Some t => m_name t | None => [] end, match ev_raw e with Some w => w | None => [] end) | _ => ([], []) end) acts.

(** Not always the latest version: after versions 7 and 8 have been provided and put into a storage, the answer
    to an Interest for the metadata, fresh or not, can be the metadata of version 7. *)
Theorem C58_latest_refuted : rdr_provide rx_leaf_of rx_seg_of 10000000 rx [[1; 2; 3]; [4; 5]]%N 7000000 (fun _ => 7000000%Z) 7000000 = Ok rx_old /\ snd rx_old = 7%N
  /\ rdr_provide rx_leaf_of rx_seg_of 10000000 rx [[6; 7]]%N 8000000 (fun _ => 8000000%Z) 8000000 = Ok rx_new /\ snd rx_new = 8%N
  /\ exists ord, (forall m l, Permutation l (ord m l)) /\
     match save_all s_new (fun _ => 8000000%Z) 0 (fst rx_old ++ fst rx_new) with
     | Ok h => forall mbf, exists w, s_get ord h 8000000 (m_name rx ++ [key_metadata]) true mbf = Ok (Some w)
         /\ In (m_name rx ++ [key_metadata; ver_comp 7; seg_comp 0], w) (saved_of (fst rx_old))
         /\ forall n, ~ In (n, w) (saved_of (fst rx_new))
     | _ => False
     end.
Proof.
  split; [vm_compute; reflexivity|]. split; [reflexivity|]. split; [vm_compute; reflexivity|]. split; [reflexivity|].
  exists reversed. split; [intros; apply Permutation_rev|].
  set (h := save_all _ _ _ _). vm_compute in h. subst h. cbv iota.
  intros mbf. exists (snd (last (saved_of (fst rx_old)) ([], []))). split; [destruct mbf; vm_compute; reflexivity|]. split; [vm_compute; tauto|].
  intros n H. vm_compute in H. intuition discriminate.
Qed.
Print Assumptions C58_latest_refuted.

Definition rx_need (acts : list (action nat)) (n : name) (j : nat) : nres :=
  match j, find (fun p => is_prefix n (fst p)) (saved_of acts) with
  | S _, Some (_, w) =>
      match read_data 200 (new_buffer_reader (concat w)) with
      | Ok (d, _) => mkRes SData (d_content d) (Some d) None None
      | _ => mkRes STimeout None None None None
      end
  | _, _ => mkRes STimeout None None None None
  end.
(** provided, and fetched where the first trial for each packet times out *)
Example C58_example : has_rdr rx_leaf_of rx_seg_of rx (mkSeg 0 10000000 2 15) rx_leaf rx_leaf /\ signs rx_leaf None (fun _ => None) 0
  /\ publishable (mkSeg 0 10000000 2 15) (m_name rx ++ [ver_comp 7]) [[1; 2; 3]; [4; 5]]%N 0 /\ no_empty_comp (m_name rx)
  /\ nonempty_segs (content_of (rx_need (fst rx_old) (m_name rx ++ [key_metadata]) 1))
  /\ match rdr_need rx_seg_of 200 2 rx None (rx_need (fst rx_old)) with
     | Ok (Some e) => ev_status e = Some SData /\ ev_content e = Some [[1; 2]; [3; 4]; [5]]%N
     | _ => False
     end.
Proof.
  split; [unfold has_rdr; do 9 eexists; split; [reflexivity|]; repeat split|]. split; [constructor; reflexivity|]. split.
  { split; [reflexivity|]. split; [repeat constructor; discriminate|]. split; [discriminate|]. split; [reflexivity|]. split; [unfold time_ok; cbn; lia|].
    split; [split; repeat constructor; discriminate|]. reflexivity. }
  split; [repeat constructor; discriminate|]. split; [vm_compute; constructor|]. vm_compute. split; reflexivity.
Qed.

(** ** C59 *)
(** Providing: the object is provided as segments below the node's name and 32=data (C37 says what these packets are); the
    manifest, below 32=manifest, has the digests of these packets, in order.  Missing: as for C37_provide_partial; empty
    components in the node's name. *)
Theorem C59_provide_partial : forall D leaf_of seg_of sha mfresh nfresh (x : mnode D) s l lm ln osc f extra osc' f' extra' osc2 f2 extra2 content clock later1 later2,
  (forall b, length (sha b) = 32%nat) ->
  has_object leaf_of seg_of x s l lm ln -> signs l osc f extra -> signs lm osc' f' extra' -> signs ln osc2 f2 extra2 ->
  publishable s (m_name x ++ [key_data]) content extra -> concat content <> [] -> no_empty_comp (m_name x) -> time_ok mfresh -> time_ok nfresh ->
  (2 * nlen (name_enc (m_name x)) + extra' + 200 < packet_limit)%N ->
  (nlen (name_enc (m_name x)) + 100 * (nlen (concat content) / sn_size s) + extra2 + 200 < packet_limit)%N ->
  exists y acts ws cnt e e2 mw wm nw wn, gen_provide leaf_of seg_of sha mfresh nfresh x content clock later1 later2 = Ok (acts ++ [ASave e; ASave e2], cnt)
    /\ m_name y = m_name x ++ [key_data] /\ has_segments leaf_of y l /\ seg_provide leaf_of s y content clock = Ok (acts, map Some ws, cnt)
    /\ ev_raw e = Some wm /\ concat wm = packet_of (m_name x ++ [key_metadata]) (plain_config mfresh) mw osc' f'
    /\ concat mw = meta_bytes (m_name x ++ [key_data]) cnt (nlen (concat content))
    /\ ev_raw e2 = Some wn /\ concat wn = packet_of (m_name x ++ [key_manifest]) (plain_config nfresh) nw osc2 f2
    /\ concat nw = manifest_bytes 0 (map (fun w => sha (concat w)) ws).
Proof.
  intros D leaf_of seg_of sha mfresh nfresh x s l lm ln osc f extra osc' f' extra' osc2 f2 extra2 content clock later1 later2 SHA HO SG SG' SG2 PB NE NC TM TN LIM LIM2.
  destruct (gen_provide_ok leaf_of seg_of sha mfresh nfresh x s l lm ln osc f extra osc' f' extra' osc2 f2 extra2 content clock later1 later2 SHA HO SG SG' SG2 PB NE NC TM TN LIM LIM2)
    as (y & acts & ws & cnt & e & e2 & mw & wm & nw & wn & t & A1 & A2 & A3 & A4 & A5 & A6 & A7 & A8 & A9 & A10 & A11 & A12 & _).
  exists y, acts, ws, cnt, e, e2, mw, wm, nw, wn. repeat (split; [assumption|]). assumption.
Qed.
Print Assumptions C59_provide_partial.

(** From end to end, whoever sends the segments: a consumer whose first Data for the manifest is the one that was provided
    gets exactly the content that was provided, or not Data; and Data if each segment, asked for with its digest, yields Data in some trial.
    [got n j] is the packet received in trial [j] for the name [n]; it has the digest asked for (C24), and none of
    them is another packet with the digest of a segment. *)
Theorem C59_end_to_end_partial : forall D leaf_of seg_of sha mfresh nfresh (x : mnode D) s l lm ln osc f extra osc' f' extra' osc2 f2 extra2 content clock later1 later2,
  (forall b, length (sha b) = 32%nat) ->
  has_object leaf_of seg_of x s l lm ln -> signs l osc f extra -> signs lm osc' f' extra' -> signs ln osc2 f2 extra2 ->
  publishable s (m_name x ++ [key_data]) content extra -> concat content <> [] -> no_empty_comp (m_name x) -> time_ok mfresh -> time_ok nfresh ->
  (2 * nlen (name_enc (m_name x)) + extra' + 200 < packet_limit)%N ->
  (nlen (name_enc (m_name x)) + 100 * (nlen (concat content) / sn_size s) + extra2 + 200 < packet_limit)%N ->
  exists y acts ws cnt e e2 wn, gen_provide leaf_of seg_of sha mfresh nfresh x content clock later1 later2 = Ok (acts ++ [ASave e; ASave e2], cnt)
    /\ m_name y = m_name x ++ [key_data] /\ seg_provide leaf_of s y content clock = Ok (acts, map Some ws, cnt) /\ ev_raw e2 = Some wn
    /\ forall D' leaf_of' seg_of' (x' : mnode D') s' l' lm' ln' retries need got F rm, has_object leaf_of' seg_of' x' s' l' lm' ln' -> m_name x' = m_name x ->
       (length (concat wn) < F)%nat -> (length ws <= F)%nat ->
       gets (trials retries) (need (m_name x ++ [key_manifest])) rm -> reads_as (concat wn) rm -> nonempty_segs (content_of rm) ->
       let segment i w := m_name x ++ [key_data; seg_comp (N.of_nat i); mkComp TypeImplicitSha256Digest (sha (concat w))] in
       (forall i w j, nth_error ws i = Some w -> r_status (need (segment i w) j) = SData -> reads_as (got (segment i w) j) (need (segment i w) j) /\ sha (got (segment i w) j) = sha (concat w)) ->
       (forall i w j, nth_error ws i = Some w -> sha (got (segment i w) j) = sha (concat w) -> got (segment i w) j = concat w) ->
       exists ev, gen_need seg_of' F retries x' need = Ok (Some ev) /\ whole_or_failure (concat content) ev
         /\ ((forall i w, nth_error ws i = Some w -> exists j, (j < trials (sn_retries s'))%nat /\ r_status (need (segment i w) j) = SData) -> ev_status ev = Some SData).
Proof.
  intros D leaf_of seg_of sha mfresh nfresh x s l lm ln osc f extra osc' f' extra' osc2 f2 extra2 content clock later1 later2 SHA HO SG SG' SG2 PB NE NC TM TN LIM LIM2.
  destruct (gen_provide_ok leaf_of seg_of sha mfresh nfresh x s l lm ln osc f extra osc' f' extra' osc2 f2 extra2 content clock later1 later2 SHA HO SG SG' SG2 PB NE NC TM TN LIM LIM2)
    as (y & acts & ws & cnt & e & e2 & mw & wm & nw & wn & t & A1 & A2 & A3 & A4 & A5 & A6 & A7 & A8 & A9 & A10 & A11 & A12 & A13 & A14 & A15 & A16 & A17 & A18 & A19).
  exists y, acts, ws, cnt, e, e2, wn. split; [exact A1|]. split; [exact A2|]. split; [exact A4|]. split; [exact A12|].
  intros D' leaf_of' seg_of' x' s' l' lm' ln' retries need got F rm HO' NM LF LW G RA NS segment REC COLL. unfold gen_need. cbn zeta.
  destruct (refine_manifest leaf_of' seg_of' x' s' l' lm' ln' HO') as (yd & RD & _). rewrite RD. cbn [bind].
  assert (T : try (need (m_name x' ++ [key_manifest])) (trials retries) 0 no_res = (true, rm)) by (rewrite NM; apply try_gets; exact G). rewrite T.
  destruct (trials retries) as [|k] eqn:K; [destruct G as (j & J & _); lia|].
  rewrite A11 in RA. pose proof (reads_content D ln osc2 f2 extra2 _ _ _ _ SG2 A16 A17 A18 RA) as CR. fold (content_of rm).
  assert (LM : (length (concat nw) < F)%nat).
  { assert (X : (nlen (concat nw) <= nlen (concat wn))%N); [|unfold nlen in X; lia]. rewrite A11. apply packet_content_len. }
  destruct (A19 (content_of rm) F CR NS LM) as (vs & cx & P & V). rewrite P, V.
  destruct (refine_data leaf_of' seg_of' x' s' l' lm' ln' HO') as (y' & R2 & YN & YS & YH). rewrite R2. cbn [bind call_need]. rewrite YS. rewrite NM in YN.
  destruct (seg_provide_ok leaf_of s y l content clock osc f extra A3 SG ltac:(rewrite A2; exact PB) NE) as (cnt' & es & ws' & SP' & CE & LE & LW' & ALL).
  rewrite A4 in SP'. injection SP' as _ WE CE'. subst cnt'. assert (WS : ws' = ws).
  { clear -WE. revert ws' WE. induction ws as [|w ws IH]; intros [|w' ws'] W; try discriminate; [reflexivity|]. cbn [map] in W. injection W as -> W. f_equal. apply IH. exact W. }
  subst ws'. set (ds := map (fun w => sha (concat w)) ws). assert (LD : length ds = N.to_nat cnt) by (unfold ds; rewrite map_length; exact A5).
  destruct (trials (sn_retries s')) as [|k'] eqn:K'.
  { destruct (pipeline_no_trial leaf_of' F s' y' l' need ds YH K' ltac:(lia)) as (ev & PE & ST). rewrite PE. cbn [bind]. exists ev. split; [reflexivity|].
    split; [intros X; congruence|]. intros H. destruct (nth_error ws 0) as [w0|] eqn:W0; [destruct (H 0%nat w0 W0) as (j & J & _); lia|]. apply nth_error_None in W0. lia. }
  assert (MN : forall i w, man_name y' (N.of_nat i) (sha (concat w)) = segment i w) by (intros i w; unfold man_name, segment; rewrite YN, <- app_assoc; reflexivity).
  destruct (fetch_man_total leaf_of' ds [] F y' l' (S k') need [] no_res YH ltac:(lia) ltac:(lia) ltac:(cbn [app]; lia) ltac:(lia)) as (ok & w & r & FE & T1 & T2 & T3). cbn [app length N.of_nat Nat.add] in FE, T1, T3.
  unfold pipeline. rewrite K', FE. cbn [bind]. eexists. split; [reflexivity|]. cbn [ev_status ev_content]. split.
  - intros ST. cbn [ev_status ev_content] in *. destruct ok; [|exfalso; injection ST as ST; exact (T2 eq_refl ST)]. eexists. split; [reflexivity|].
    destruct (T1 eq_refl) as (rs & LR & -> & RS). rewrite <- (pieces_all (sn_size s) (concat content) cnt CE). rewrite concat_map_concat, map_map. f_equal.
    apply nth_error_ext. intros i. rewrite !nth_error_map. destruct (nth_error rs i) as [ri|] eqn:RI.
    + assert (IL : (i < N.to_nat cnt)%nat) by (rewrite <- LD, <- LR; apply nth_error_Some; congruence). rewrite (nth_error_nth' (seq 0 (N.to_nat cnt)) 0%nat) by (rewrite seq_length; exact IL). rewrite seq_nth by exact IL.
      cbn [option_map Nat.add]. f_equal. destruct (ALL i IL) as (_ & wi & _ & _ & W2 & W3 & _).
      destruct (RS i (sha (concat wi)) ri) as (j & J1 & J2 & J3 & _); [unfold ds; rewrite nth_error_map, W2; reflexivity|exact RI|]. rewrite MN in J2.
      destruct (REC i wi j W2) as (R1 & R3); [rewrite J2; exact J3|]. rewrite (COLL i wi j W2 R3), J2, W3 in R1.
      destruct PB as (S0 & _ & LEN & STY & SF & NT & LM'). rewrite A2 in R1.
      destruct (reads_packet D l osc f extra (m_name x ++ [key_data]) (N.of_nat i) s cnt [piece (sn_size s) (N.of_nat i) (concat content)] ri SG NT STY SF) as (_ & Q); [|exact R1|].
      * cbn [concat]. rewrite app_nil_r. pose proof (piece_len (sn_size s) (N.of_nat i) (concat content)). lia.
      * rewrite Q. cbn [concat]. apply app_nil_r.
    + apply nth_error_None in RI. cbn [option_map]. symmetry. replace (nth_error (seq 0 (N.to_nat cnt)) i) with (@None nat); [reflexivity|]. symmetry. apply nth_error_None. rewrite seq_length. lia.
  - intros H. rewrite T3; [reflexivity|]. intros q d Q. unfold ds in Q. rewrite nth_error_map in Q. destruct (nth_error ws q) as [wq|] eqn:WQ; [|discriminate]. injection Q as <-.
    destruct (H q wq WQ) as (j & J1 & J2). rewrite MN. exact (gets_has _ _ j J1 J2).
Qed.
Print Assumptions C59_end_to_end_partial.

(** Without a manifest the consumer is told the status of the last trial, and for a malformed one it is told so. *)
Theorem C59_no_manifest : forall D leaf_of seg_of (x : mnode D) s l lm ln F retries need r, has_object leaf_of seg_of x s l lm ln -> gets_none (trials retries) (need (m_name x ++ [key_manifest])) r ->
  exists ev, gen_need seg_of F retries x need = Ok (Some ev) /\ ev_status ev = Some (r_status r) /\ ev_status ev <> Some SData /\ ev_content ev = None.
Proof.
  intros D leaf_of seg_of x s l lm ln F retries need r HO G. unfold gen_need. cbn zeta. destruct (refine_manifest leaf_of seg_of x s l lm ln HO) as (yd & RD & _). rewrite RD. cbn [bind].
  pose proof G as (K & N & R). apply (try_gets_none _ _ no_res _ K) in G. rewrite G. eexists. split; [destruct (trials retries); [lia|reflexivity]|]. cbn [failed ev_status ev_content].
  split; [reflexivity|]. split; [|reflexivity]. rewrite <- R. intros H. injection H as H. apply (N (trials retries - 1)%nat); [lia|exact H].
Qed.
Print Assumptions C59_no_manifest.
Theorem C59_malformed : forall D leaf_of seg_of (x : mnode D) s l lm ln F retries need r err, has_object leaf_of seg_of x s l lm ln ->
  gets (trials retries) (need (m_name x ++ [key_manifest])) r -> m_parse F rdr_ManifestData true (new_wire_reader (content_of r)) = Err err ->
  exists ev, gen_need seg_of F retries x need = Ok (Some ev) /\ ev_status ev = Some SError /\ ev_content ev = None.
Proof.
  intros D leaf_of seg_of x s l lm ln F retries need r err HO G P. unfold gen_need. cbn zeta. destruct (refine_manifest leaf_of seg_of x s l lm ln HO) as (yd & RD & _). rewrite RD. cbn [bind].
  destruct (trials retries) as [|k] eqn:K; [destruct G as (j & J & _); lia|]. apply (try_gets _ _ no_res) in G. rewrite G. fold (content_of r). rewrite P. eexists. split; [reflexivity|]. split; reflexivity.
Qed.
Print Assumptions C59_malformed.

(** With an empty manifest, the segments are asked for without digests and taken from whoever sends them. *)
Theorem C59_empty_refuted : forall D leaf_of seg_of (x : mnode D) s l lm ln F retries need r r0, has_object leaf_of seg_of x s l lm ln ->
  gets (trials retries) (need (m_name x ++ [key_manifest])) r -> content_of r = [] ->
  gets (trials (sn_retries s)) (need (m_name x ++ [key_data; seg_comp 0])) r0 -> final_of r0 = Some (seg_comp 0) ->
  exists ev, gen_need seg_of (S F) retries x need = Ok (Some ev) /\ ev_status ev = Some SData /\ ev_content ev = Some (content_of r0).
Proof.
  intros D leaf_of seg_of x s l lm ln F retries need r r0 HO G C G0 FB. unfold gen_need. cbn zeta. destruct (refine_manifest leaf_of seg_of x s l lm ln HO) as (yd & RD & _). rewrite RD. cbn [bind].
  destruct (trials retries) as [|k] eqn:K; [destruct G as (j & J & _); lia|]. apply (try_gets _ _ no_res) in G. rewrite G. fold (content_of r). rewrite C.
  assert (P : exists cx, m_parse (S F) rdr_ManifestData true (new_wire_reader []) = Ok ([VSeq []], cx)) by (destruct F; eexists; reflexivity).
  destruct P as (cx & P). rewrite P. cbn [nth g_entries map]. destruct (refine_data leaf_of seg_of x s l lm ln HO) as (y & R2 & YN & YS & YH). rewrite R2. cbn [bind call_need]. rewrite YS. unfold pipeline.
  replace (need (m_name x ++ [key_data; seg_comp 0])) with (need (m_name y ++ [seg_comp 0])) in G0 by (rewrite YN, <- app_assoc; reflexivity).
  rewrite (fetch_final leaf_of F y l _ need 0 [] no_res r0 YH G0 FB). cbn [bind]. eexists. split; [reflexivity|]. split; reflexivity.
Qed.
Print Assumptions C59_empty_refuted.

(** an object of 5 bytes, in segments of 2 bytes, with the last 32 bytes of a packet in place of its digest *)
Definition gx_sha (b : buf) : buf := firstn 32 (rev b ++ repeat 0%N 32).
Definition gx : mnode nat :=
  mkM [] (SNode 0%nat [ (PComp key_data, SNode 1%nat [(PVar TypeSegment [115%N], SNode 2%nat [])]); (PComp key_metadata, SNode 3%nat []); (PComp key_manifest, SNode 4%nat []) ]) [] [mkComp 8 [97%N]].
Definition gx_leaf_of (d : nat) : option (leaf nat) := match d with 2%nat | 3%nat | 4%nat => Some rx_leaf | _ => None end.
Definition gx_provided := Eval vm_compute in
  match gen_provide gx_leaf_of rx_seg_of gx_sha 10000000 10000000 gx [[1; 2; 3]; [4; 5]]%N (fun _ => 0%Z) 0 0 with Ok r => r | _ => ([], 0%N) end.
Definition gx_need (acts : list (action nat)) (n : name) (j : nat) : nres :=
  match j, find (fun p => is_prefix n (fst p) || name_equal n (fst p ++ [mkComp TypeImplicitSha256Digest (gx_sha (concat (snd p)))])) (saved_of acts) with
  | S _, Some (_, w) =>
      match read_data 300 (new_buffer_reader (concat w)) with
      | Ok (d, _) => mkRes SData (d_content d) (Some d) None None
      | _ => mkRes STimeout None None None None
      end
  | _, _ => mkRes STimeout None None None None
  end.
Example C59_example : has_object gx_leaf_of rx_seg_of gx (mkSeg 0 10000000 2 15) rx_leaf rx_leaf rx_leaf /\ (forall b, length (gx_sha b) = 32%nat)
  /\ publishable (mkSeg 0 10000000 2 15) (m_name gx ++ [key_data]) [[1; 2; 3]; [4; 5]]%N 0 /\ length (fst gx_provided) = 5%nat
  /\ nonempty_segs (content_of (gx_need (fst gx_provided) (m_name gx ++ [key_manifest]) 1))
  /\ match gen_need rx_seg_of 300 2 gx (gx_need (fst gx_provided)) with
     | Ok (Some e) => ev_status e = Some SData /\ ev_content e = Some [[1; 2]; [3; 4]; [5]]%N
     | _ => False
     end.
Proof.
  split; [unfold has_object; do 6 eexists; split; [reflexivity|]; repeat split|].
  split; [intros b; unfold gx_sha; rewrite firstn_length, app_length, repeat_length; lia|]. split.
  { split; [reflexivity|]. split; [repeat constructor; discriminate|]. split; [discriminate|]. split; [reflexivity|]. split; [unfold time_ok; cbn; lia|].
    split; [split; repeat constructor; discriminate|]. reflexivity. }
  split; [reflexivity|]. split; [vm_compute; constructor|]. vm_compute. split; reflexivity.
Qed.
