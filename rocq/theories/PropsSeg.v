(** C37: segmented objects (pkg/schema/rdr/rdr.go: SegmentedNode). *)
From Coq Require Import Permutation.
From Verif Require Import Base BaseProofs NameModel TextModel TrieModel TrieSpec PrimModel ReaderModel CodecModel CodecSpec CodecSpec2 CodecLib SpecModel SpecSpec EngineSpec SchemaModel StoreModel StoreSpec NeedModel NeedSpec NeedProofs SegModel SegSpec SegProofs SegProofs2 PropsSpec.

(** Providing: an object of at least one byte, in any buffers none of which is empty, whatever the
    segment size, becomes the least number of segments that hold it.  The packet of segment [i] has
    the name of the node and the segment number [i], bytes [i*size] to [i*size+size-1] of the object
    as its content, the last segment number as its FinalBlockID, and the signature of the node.
    Each packet is saved under its name.  Missing: empty objects and empty buffers (false, below), names
    with components of more than 252 bytes (C05), signatures shorter than their estimate (C19). *)
Theorem C37_provide_partial : forall D leaf_of s (x : mnode D) l content clock osc f extra, has_segments leaf_of x l -> signs l osc f extra ->
  publishable s (m_name x) content extra -> concat content <> [] ->
  exists cnt es ws, seg_provide leaf_of s x content clock = Ok (map ASave es, map Some ws, cnt) /\ is_ceil (nlen (concat content)) (sn_size s) cnt
    /\ length es = N.to_nat cnt /\ length ws = N.to_nat cnt
    /\ forall i, (i < N.to_nat cnt)%nat -> exists e w t, nth_error es i = Some e /\ nth_error ws i = Some w
         /\ concat w = packet_of (m_name x ++ [seg_comp (N.of_nat i)]) (seg_config s cnt) [piece (sn_size s) (N.of_nat i) (concat content)] osc f
         /\ ev_target e = Some t /\ m_name t = m_name x ++ [seg_comp (N.of_nat i)] /\ ev_dur e = Some (l_valid l) /\ ev_raw e = Some w.
Proof. intros D leaf_of. exact (seg_provide_ok leaf_of). Qed.
Print Assumptions C37_provide_partial.

(** those pieces, one after the other, are the object *)
Theorem C37_pieces : forall size b cnt, is_ceil (nlen b) size cnt -> concat (map (fun i => piece size (N.of_nat i) b) (seq 0 (N.to_nat cnt))) = b.
Proof. exact pieces_all. Qed.
Print Assumptions C37_pieces.

(** The segments in a storage: after the node has provided the object, whatever was in the storage
    before, an Interest for segment [i] is answered with its packet. *)
Theorem C37_served : forall D leaf_of s (x : mnode D) l content clock osc f extra, has_segments leaf_of x l -> signs l osc f extra ->
  publishable s (m_name x) content extra -> concat content <> [] ->
  forall acts ws cnt, seg_provide leaf_of s x content clock = Ok (acts, map Some ws, cnt) ->
  forall puts h times, s_puts s_new puts = Ok h -> exists h', save_all h times 0 acts = Ok h'
    /\ forall i w, nth_error ws i = Some w ->
       forall (p : point D) ord now rest path nd m int raw cov dl nm, (forall k a, Permutation a (ord k a)) -> p_search p = mem_search ord h' now :: rest ->
       i_name int = Some nm -> bare nm (m_name x ++ [seg_comp (N.of_nat i)]) -> (i_must_be_fresh int = true -> (now < times i + l_valid l)%Z) ->
       on_interest p path nd m int raw cov dl = Ok [AReply w].
Proof.
  intros D leaf_of s x l content clock osc f extra HS SG PB NE acts ws cnt SP puts h times E.
  destruct (seg_provide_ok leaf_of s x l content clock osc f extra HS SG PB NE) as (cnt' & es & ws' & SP' & CE & LE & LW & ALL).
  rewrite SP in SP'. injection SP' as A W C. subst acts cnt'. assert (WE : ws' = ws).
  { clear -W. revert ws' W. induction ws as [|w ws IH]; intros [|w' ws'] W; try discriminate; [reflexivity|]. cbn [map] in W. injection W as -> W. f_equal. apply IH. exact W. }
  subst ws'. set (nws := combine (map (fun i => m_name x ++ [seg_comp (N.of_nat i)]) (seq 0 (N.to_nat cnt))) ws).
  assert (LC : length nws = N.to_nat cnt). { unfold nws. rewrite combine_length, map_length, seq_length, LW. apply Nat.min_id. }
  assert (NTH : forall i w, nth_error ws i = Some w -> nth_error nws i = Some (m_name x ++ [seg_comp (N.of_nat i)], w)).
  { intros i w I. assert (IL : (i < N.to_nat cnt)%nat) by (rewrite <- LW; apply nth_error_Some; congruence). unfold nws.
    assert (X : forall (a : list name) (b : list wire) j u v, nth_error a j = Some u -> nth_error b j = Some v -> nth_error (combine a b) j = Some (u, v)).
    { clear. induction a as [|u0 a IH]; intros b j u v A B; [destruct j; discriminate|]. destruct b as [|v0 b]; [destruct j; discriminate|]. destruct j as [|j]; cbn in *; [congruence|]. apply IH; auto. }
    apply X; [|exact I]. rewrite nth_error_map. rewrite (nth_error_nth' (seq 0 (N.to_nat cnt)) 0%nat) by (rewrite seq_length; exact IL). rewrite seq_nth by exact IL. reflexivity. }
  destruct (save_all_ok (l_valid l) es nws times 0%nat puts h E) as (h' & SV & PT); [lia| |].
  { intros j e J. assert (JL : (j < N.to_nat cnt)%nat) by (rewrite <- LE; apply nth_error_Some; congruence).
    destruct (ALL j JL) as (e' & w & t & A1 & A2 & _ & A4 & A5 & A6 & A7). assert (e' = e) by congruence. subst e'.
    exists t, (m_name x ++ [seg_comp (N.of_nat j)]), w. split; [apply NTH; exact A2|]. auto. }
  exists h'. split; [exact SV|]. intros i w I p ord now rest path nd m int raw cov dl nm O P NM B FR.
  assert (IL : (i < N.to_nat cnt)%nat) by (rewrite <- LW; apply nth_error_Some; congruence).
  assert (C64 : (cnt < two64)%N). { destruct PB as (S0 & _ & LEN & _). destruct CE as [_ CE]. nia. }
  destruct (put_list_nth (l_valid l) times nws 0%nat i _ w (NTH i w I)) as (a & b & PL & _ & OT). cbn [Nat.add] in PL.
  apply (reply_latest D p ord _ h' now (m_name x ++ [seg_comp (N.of_nat i)]) w (times i + l_valid l)%Z rest path nd m int raw cov dl nm (m_name x ++ [seg_comp (N.of_nat i)]) O PT); auto.
  - rewrite PL, app_assoc. apply latest_other. intros q Q SN. destruct (OT q Q) as (j & JL & J).
    assert (JC : (j < N.to_nat cnt)%nat) by (rewrite <- LC; apply nth_error_Some; congruence).
    destruct (nth_error ws j) as [wj|] eqn:WJ; [|apply nth_error_None in WJ; lia]. rewrite (NTH j wj WJ) in J. injection J as J. rewrite <- J in SN. cbn [fst] in SN.
    apply seg_same_name in SN; lia.
  - destruct (ALL i IL) as (_ & w' & _ & _ & A2 & A3 & _). assert (w' = w) by congruence. subst w'. intros ->. unfold packet_of, data_packet in A3. symmetry in A3. exact (tlv_nonempty _ _ A3).
  - reflexivity.
Qed.
Print Assumptions C37_served.

(** Fetching, whatever the network does: if it says Data, the content is that of segments 0 to [m],
    each the first Data in its trials, where segment [m] has the FinalBlockID [m] and no segment
    before it has its own number as FinalBlockID.  Otherwise some segment yields no Data in any
    trial; the status is the one of the last trial, and the content is that of the segments before. *)
Theorem C37_fetch : forall D leaf_of F s (x : mnode D) l need e, has_segments leaf_of x l -> (0 < trials (sn_retries s))%nat -> pipeline F s x [] need = Ok e ->
  exists rs, (N.of_nat (length rs) < two64)%N
    /\ (forall i r, nth_error rs i = Some r -> gets (trials (sn_retries s)) (need (m_name x ++ [seg_comp (N.of_nat i)])) r
          /\ exists fb, final_of r = Some fb /\ fb <> seg_comp (N.of_nat i))
    /\ (ev_status e = Some SData -> exists r, gets (trials (sn_retries s)) (need (m_name x ++ [seg_comp (N.of_nat (length rs))])) r
          /\ final_of r = Some (seg_comp (N.of_nat (length rs))) /\ ev_content e = Some (concat (map content_of (rs ++ [r]))))
    /\ (ev_status e <> Some SData -> exists r, gets_none (trials (sn_retries s)) (need (m_name x ++ [seg_comp (N.of_nat (length rs))])) r
          /\ ev_status e = Some (r_status r) /\ ev_content e = Some (concat (map content_of rs))).
Proof.
  intros D leaf_of F s x l need e HS K H. unfold pipeline in H. destruct (fetch F x (trials (sn_retries s)) [] need 0 [] no_res) as [[[ok frags] last]| | |] eqn:E; try discriminate.
  cbn [bind] in H. destruct (fetch_sound leaf_of F x l _ need 0 [] no_res ok frags last HS ltac:(reflexivity) K E) as (rs & C & _ & T & N).
  assert (SH : (N.of_nat (length rs) < two64)%N).
  { apply (chain_short x (trials (sn_retries s)) need rs last C). destruct ok; [left|right]; [destruct (T eq_refl) as (T1 & T2 & _); auto|apply (N eq_refl)]. }
  assert (AT : forall q, (N.of_nat q < two64)%N -> seg_at 0 q = N.of_nat q) by (intros q Q; unfold seg_at; rewrite N.add_0_l; apply N.mod_small; exact Q).
  exists rs. split; [exact SH|]. injection H as <-. cbn [ev_status ev_content]. unfold seg_name in *. rewrite !AT in T, N by exact SH. split; [|split].
  - intros i r I. assert (LI : (i < length rs)%nat) by (apply nth_error_Some; congruence). destruct (C i r I) as (G & FB). rewrite AT in G, FB by lia. auto.
  - intros ST. destruct ok.
    + destruct (T eq_refl) as (T1 & T2 & T3). exists last. rewrite T3. auto.
    + exfalso. destruct (N eq_refl) as ((K1 & N1 & <-) & _). injection ST as ST. apply (N1 (trials (sn_retries s) - 1)%nat); [lia|exact ST].
  - intros ST. destruct ok; [congruence|]. destruct (N eq_refl) as (N1 & N2). exists last. rewrite N2. auto.
Qed.
Print Assumptions C37_fetch.

(** There are as many trials as MaxRetriesOnFailure says (below 2^63): what a later one would yield does not matter. *)
Theorem C37_trials : forall D F s (x : mnode D) manifest need need', (sn_retries s < two63)%N ->
  (forall n j, (N.of_nat j < sn_retries s)%N -> need n j = need' n j) ->
  pipeline F s x manifest need = pipeline F s x manifest need' /\ trials (sn_retries s) = N.to_nat (sn_retries s).
Proof.
  intros D F s x manifest need need' L H.
  assert (T : trials (sn_retries s) = N.to_nat (sn_retries s)) by (unfold trials; rewrite BaseProofs.to_int_small by exact L; lia).
  split; [|exact T]. unfold pipeline. rewrite T. rewrite (fetch_ext x F (N.to_nat (sn_retries s)) manifest need need'); [reflexivity|].
  intros n j J. apply H. lia.
Qed.
Print Assumptions C37_trials.

(** From end to end: the packets were provided by a node of the same name, and whenever a trial for
    segment [i] yields Data it is what packet [i] reads as.  Then fetching ends; it says Data only
    with exactly the content that was provided, and it does so if each segment yields Data in one
    of its trials.  Missing: as for C37_provide_partial. *)
Theorem C37_end_to_end_partial : forall D leaf_of s (x : mnode D) l content clock osc f extra, has_segments leaf_of x l -> signs l osc f extra ->
  publishable s (m_name x) content extra -> concat content <> [] ->
  forall acts ws cnt, seg_provide leaf_of s x content clock = Ok (acts, map Some ws, cnt) ->
  forall D' leaf_of' s' (x' : mnode D') l' need F, has_segments leaf_of' x' l' -> m_name x' = m_name x -> (N.to_nat cnt <= F)%nat -> (0 < F)%nat ->
  (forall i w j, nth_error ws i = Some w -> let r := need (m_name x ++ [seg_comp (N.of_nat i)]) j in r_status r = SData -> reads_as (concat w) r) ->
  exists e, pipeline F s' x' [] need = Ok e
    /\ (ev_status e = Some SData -> exists w, ev_content e = Some w /\ concat w = concat content)
    /\ ((forall i, (i < length ws)%nat -> exists j, (j < trials (sn_retries s'))%nat /\ r_status (need (m_name x ++ [seg_comp (N.of_nat i)]) j) = SData) -> ev_status e = Some SData).
Proof.
  intros D leaf_of s x l content clock osc f extra HS SG PB NE acts ws cnt SP D' leaf_of' s' x' l' need F HS' NM LF F0 SRV.
  destruct (seg_provide_ok leaf_of s x l content clock osc f extra HS SG PB NE) as (cnt' & es & ws' & SP' & CE & LE & LW & ALL).
  rewrite SP in SP'. injection SP' as _ W C. subst cnt'. assert (WE : ws' = ws).
  { clear -W. revert ws' W. induction ws as [|w ws IH]; intros [|w' ws'] W; try discriminate; [reflexivity|]. cbn [map] in W. injection W as -> W. f_equal. apply IH. exact W. }
  subst ws'. destruct PB as (S0 & _ & LEN & ST & SF & NT & LIM).
  assert (C64 : (0 < cnt < two64)%N). { destruct CE as [CE1 CE]. destruct (concat content); [congruence|]. unfold nlen in *. cbn [length] in *. nia. }
  set (k := trials (sn_retries s')). destruct k as [|k'] eqn:EK.
  { unfold pipeline. fold k. rewrite EK. destruct F as [|F]; [lia|]. cbn [fetch bind]. destruct (refine_seg leaf_of' x' l' 0 HS') as (t & R & _). rewrite R. cbn [bind try negb orb].
    destruct t; cbn [bind orb negb]; (eexists; split; [reflexivity|]; split; [discriminate|]; intros H; destruct (H 0%nat) as (j & J & _); [lia|]; lia). }
  destruct (fetch_object leaf_of' x' l' (S k') need (concat content) (sn_size s) cnt F [] no_res HS' ltac:(lia) ltac:(lia) ltac:(lia)) as (ok & w & r & FE & T & N & A); auto.
  { intros i r I (j & J1 & J2 & J3 & J4). unfold seg_name in J2. rewrite NM in J2. destruct (ALL i I) as (_ & w & _ & _ & A2 & A3 & _).
    assert (RA : reads_as (concat w) r). { rewrite <- J2. apply (SRV i w j A2). rewrite J2. exact J3. }
    rewrite A3 in RA. destruct (reads_packet D l osc f extra (m_name x) (N.of_nat i) s cnt [piece (sn_size s) (N.of_nat i) (concat content)] r SG NT ST SF) as (R1 & R2); [|exact RA|].
    - cbn [concat]. rewrite app_nil_r. pose proof (piece_len (sn_size s) (N.of_nat i) (concat content)). lia.
    - split; [exact R1|]. rewrite R2. cbn [concat]. apply app_nil_r. }
  unfold pipeline. fold k. rewrite EK, FE. cbn [bind]. eexists. split; [reflexivity|]. cbn [ev_status ev_content app]. split.
  - intros H. destruct ok.
    + exists w. split; [reflexivity|]. destruct (T eq_refl) as (T1 & _). rewrite T1. apply pieces_all. exact CE.
    + exfalso. injection H as H. exact (N eq_refl H).
  - intros H. rewrite A; [reflexivity|]. intros i I. destruct (H i) as (j & J1 & J2); [lia|]. unfold seg_name. rewrite NM. exact (gets_has _ _ j J1 J2).
Qed.
Print Assumptions C37_end_to_end_partial.

(** What reading packet [i] yields exists (so the hypothesis of C37_end_to_end_partial can be met). *)
Theorem C37_readable : forall D leaf_of s (x : mnode D) l content clock osc f extra, has_segments leaf_of x l -> signs l osc f extra ->
  publishable s (m_name x) content extra -> concat content <> [] ->
  forall acts ws cnt, seg_provide leaf_of s x content clock = Ok (acts, map Some ws, cnt) ->
  forall i w, nth_error ws i = Some w -> exists r, r_status r = SData /\ reads_as (concat w) r.
Proof.
  intros D leaf_of s x l content clock osc f extra HS SG PB NE acts ws cnt SP i w I.
  destruct (seg_provide_ok leaf_of s x l content clock osc f extra HS SG PB NE) as (cnt' & es & ws' & SP' & CE & LE & LW & ALL).
  rewrite SP in SP'. injection SP' as _ W C. subst cnt'. assert (LI : (i < N.to_nat cnt)%nat).
  { rewrite <- LW. rewrite <- (map_length Some ws'), <- W, map_length. apply nth_error_Some. congruence. }
  destruct (ALL i LI) as (_ & w' & _ & _ & A2 & A3 & _). assert (w' = w).
  { apply (map_nth_error Some) in A2, I. rewrite W in I. congruence. }
  subst w'. destruct PB as (S0 & _ & LEN & ST & SF & NT & LIM). rewrite A3. unfold packet_of. set (n := m_name x ++ [seg_comp (N.of_nat i)]). set (p := [piece (sn_size s) (N.of_nat i) (concat content)]).
  destruct (signs_len D l osc f extra (data_part n (seg_config s cnt) (Some p) osc) SG) as (B1 & B2 & B3).
  destruct (C19_read n (seg_config s cnt) (Some p) osc (f (data_part n (seg_config s cnt) (Some p) osc)) (S (length (data_packet n (seg_config s cnt) (Some p) osc (f (data_part n (seg_config s cnt) (Some p) osc)))))) as (d & cov & R & _); auto.
  - apply seg_typed. exact NT.
  - split; [exact ST|]. split; [exact SF|]. apply num_comp_ok. reflexivity.
  - pose proof (seg_data_size (m_name x) (N.of_nat i) s cnt p) as H. fold n in H. unfold p in H at 2. cbn [concat] in H. rewrite app_nil_r in H. pose proof (piece_len (sn_size s) (N.of_nat i) (concat content)). lia.
  - exists (mkRes SData (d_content d) (Some d) None None). split; [reflexivity|]. eexists _, d, cov. split; [|split; [exact R|split; reflexivity]]. lia.
Qed.
Print Assumptions C37_readable.

(** With a manifest, each segment is asked for with its digest, the number of segments is that of
    the manifest, and FinalBlockIDs do not matter. *)
Theorem C37_manifest : forall D leaf_of F s (x : mnode D) l manifest need rs, has_segments leaf_of x l -> manifest <> [] -> (N.of_nat (length manifest) < two64)%N -> (length manifest <= F)%nat ->
  length rs = length manifest ->
  (forall i d r, nth_error manifest i = Some d -> nth_error rs i = Some r ->
     gets (trials (sn_retries s)) (need (m_name x ++ [seg_comp (N.of_nat i); mkComp TypeImplicitSha256Digest d])) r) ->
  exists e, pipeline F s x manifest need = Ok e /\ ev_status e = Some SData /\ ev_content e = Some (concat (map content_of rs)).
Proof.
  intros D leaf_of F s x l manifest need rs HS NE LT LF LR ALL. unfold pipeline.
  destruct (fetch_man_all leaf_of manifest [] F x l (trials (sn_retries s)) need [] no_res rs HS) as (r & E & _); auto.
  - destruct manifest; [congruence|cbn; lia].
  - cbn [app length N.of_nat] in E. rewrite E. cbn [bind app]. eexists. split; [reflexivity|]. split; reflexivity.
Qed.
Print Assumptions C37_manifest.

(** False for content with an empty buffer: what follows it is lost ... *)
Theorem C37_empty_buffer_refuted : exists content cnt, seg_count 8000 content = Ok cnt /\ concat (map (@concat N) (segments 8000 (N.to_nat cnt) content)) <> concat content.
Proof. exists [[1%N]; []; [2%N]]. eexists. split; [vm_compute; reflexivity|]. vm_compute. discriminate. Qed.
Print Assumptions C37_empty_buffer_refuted.

(** ... with the segment size 0, the node crashes ... *)
Theorem C37_size_refuted : forall D leaf_of s (x : mnode D) content clock, sn_size s = 0%N -> seg_provide leaf_of s x content clock = Panic.
Proof. intros D leaf_of s x content clock H. unfold seg_provide, seg_count. rewrite H. reflexivity. Qed.
Print Assumptions C37_size_refuted.

(** ... with a segment size near 2^64 the number of segments is 0: nothing is provided, and no error reported ... *)
Theorem C37_large_size_refuted : exists size content, (0 < size < two64)%N /\ concat content <> [] /\ seg_count size content = Ok 0%N.
Proof. exists (two64 - 1)%N, [[1; 2]%N]. split; [split; reflexivity|]. split; [discriminate|]. vm_compute. reflexivity. Qed.
Print Assumptions C37_large_size_refuted.

(** ... and of an empty object nothing is provided, so that it cannot be fetched. *)
Theorem C37_empty_refuted : forall D leaf_of s (x : mnode D) clock, (0 < sn_size s < two64)%N -> seg_provide leaf_of s x [] clock = Ok ([], [], 0%N).
Proof.
  intros D leaf_of s x clock H. unfold seg_provide, seg_count. destruct (N.eqb_spec (sn_size s) 0); [lia|]. cbn [wire_length fold_left]. rewrite N.add_0_l, N.mod_small by lia.
  rewrite N.div_small by lia. reflexivity.
Qed.
Print Assumptions C37_empty_refuted.

(** A segment without FinalBlockID (as a Data without MetaInfo has it) crashes the consumer ... *)
Theorem C37_no_final_refuted : forall D leaf_of F s (x : mnode D) l need r, has_segments leaf_of x l -> gets (trials (sn_retries s)) (need (m_name x ++ [seg_comp 0])) r -> final_of r = None ->
  pipeline (S F) s x [] need = Panic.
Proof.
  intros D leaf_of F s x l need r HS G FN. unfold pipeline. rewrite (fetch_panic leaf_of F x l _ need 0 [] no_res r HS G FN). reflexivity.
Qed.
Print Assumptions C37_no_final_refuted.

(** ... and if no segment has its own number as FinalBlockID, it never ends. *)
Theorem C37_endless_refuted : forall D leaf_of s (x : mnode D) l need, has_segments leaf_of x l ->
  (forall i, (i < two64)%N -> exists r fb, gets (trials (sn_retries s)) (need (m_name x ++ [seg_comp i])) r /\ final_of r = Some fb /\ fb <> seg_comp i) ->
  forall F, pipeline F s x [] need = Hang.
Proof.
  intros D leaf_of s x l need HS ALL F. unfold pipeline. rewrite (fetch_endless leaf_of F x l _ need 0 [] no_res HS ltac:(reflexivity) ALL). reflexivity.
Qed.
Print Assumptions C37_endless_refuted.

(** an object of 5 bytes in two buffers, in segments of 2 bytes; it is provided, put into a storage,
    and fetched where the first trial for each segment times out *)
Definition ex_leaf : leaf bool := mkLeaf [] 0%N 10000000%Z 1000%Z.
Definition ex_x : mnode bool := mkM [] (SNode true [(PVar TypeSegment [115]%N, SNode false [])]) [] [mkComp 8 [97%N]].
Definition ex_leaf_of (b : bool) : option (leaf bool) := if b then None else Some ex_leaf.
Definition ex_content : wire := [[1; 2; 3]; [4; 5]]%N.
Definition ex_need (ws : list (option wire)) (n : name) (j : nat) : nres :=
  match j, find (fun i => name_equal (m_name ex_x ++ [seg_comp (N.of_nat i)]) n) (seq 0 (length ws)) with
  | S _, Some i =>
      match nth i ws None with
      | Some w => match read_data 100 (new_buffer_reader (concat w)) with
                  | Ok (d, _) => mkRes SData (d_content d) (Some d) None None
                  | _ => mkRes STimeout None None None None
                  end
      | None => no_res
      end
  | _, _ => mkRes STimeout None None None None
  end.
Definition ex_provided : list (action bool) * list (option wire) * N :=
  Eval vm_compute in match seg_provide ex_leaf_of (mkSeg 0 10000000 2 15) ex_x ex_content (fun _ => 0%Z) with Ok r => r | _ => ([], [], 0%N) end.
Definition ex_ws : list wire := Eval vm_compute in match ex_provided with (_, [Some a; Some b; Some c], _) => [a; b; c] | _ => [] end.
Example C37_example : has_segments ex_leaf_of ex_x ex_leaf /\ signs ex_leaf None (fun _ => None) 0 /\ publishable (mkSeg 0 10000000 2 15) (m_name ex_x) ex_content 0
  /\ seg_provide ex_leaf_of (mkSeg 0 10000000 2 15) ex_x ex_content (fun _ => 0%Z) = Ok (fst (fst ex_provided), map Some ex_ws, 3%N) /\ length ex_ws = 3%nat
  /\ match pipeline 5 (mkSeg 0 10000000 8000 2) ex_x [] (ex_need (map Some ex_ws)) with
     | Ok e => ev_status e = Some SData /\ ev_content e = Some [[1; 2]; [3; 4]; [5]]%N
     | _ => False
     end.
Proof.
  split; [exists true, [115]%N, false; split; reflexivity|]. split; [constructor; reflexivity|]. split.
  { split; [reflexivity|]. split; [repeat constructor; discriminate|]. split; [discriminate|]. split; [reflexivity|]. split; [unfold time_ok; cbn; lia|].
    split; [split; repeat constructor; discriminate|]. reflexivity. }
  split; [vm_compute; reflexivity|]. split; [reflexivity|]. vm_compute. split; reflexivity.
Qed.
