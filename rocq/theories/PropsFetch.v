(** C83: fetching one Data with retries (pkg/schema/rdr/pipelines.go: DataFetcher). *)
From Verif Require Import Base BaseProofs NameModel TextModel TrieModel PrimModel ReaderModel CodecModel CodecSpec CodecSpec2 SpecModel SpecSpec SchemaModel NeedModel SegModel SegSpec PropsSeg FetchModel FetchSpec FetchProofs.

(** The first Data is returned as it is, and nothing is asked for afterwards. *)
Theorem C83_first : forall need c max n r, (Z.of_nat n < max)%Z -> first_data (need None) n r ->
  exists calls, data_fetcher need c max = Ok (r, calls) /\ length calls = S n.
Proof. intros need c max n r L H. exists (repeat None (S n)). split; [apply (fetch_first need c max n r); [lia|exact H]|apply repeat_length]. Qed.
Print Assumptions C83_first.

(** If no trial gives Data, the last result is returned after exactly maxRetries trials. *)
Theorem C83_last : forall need c max r, no_data (need None) (Z.to_nat max) r ->
  exists calls, data_fetcher need c max = Ok (r, calls) /\ Z.of_nat (length calls) = max.
Proof. intros need c max r H. exists (repeat None (Z.to_nat max)). split; [apply fetch_none; exact H|]. rewrite repeat_length. destruct H as (L & _). lia. Qed.
Print Assumptions C83_last.

(** Whatever is returned is the first Data, or the last result if there is no Data in maxRetries trials, or no trial was made;
    never more than maxRetries trials are made. *)
Theorem C83_only : forall need c max r calls, data_fetcher need c max = Ok (r, calls) ->
  (Z.of_nat (length calls) <= Z.max 0 max)%Z
  /\ (first_data (need None) (length calls - 1) r /\ (0 < length calls)%nat
      \/ no_data (need None) (length calls) r /\ Z.of_nat (length calls) = max
      \/ (max <= 0)%Z /\ calls = [] /\ r = no_res).
Proof.
  intros need c max r calls H. destruct (trials_cases (need None) (Z.to_nat max)) as [(n & r' & L & F)|[(n & a & L & F)|F]].
  - rewrite (fetch_first need c max n r' L F) in H. assert (HR : r' = r) by congruence. assert (HC : length calls = S n) by (replace calls with (repeat (@None interest_config) (S n)) by congruence; apply repeat_length). subst r'. rewrite HC. split; [lia|]. left. rewrite Nat.sub_succ, Nat.sub_0_r. split; [exact F|lia].
  - rewrite (fetch_ends need c max n a L F) in H. destruct a; discriminate.
  - destruct (Z.to_nat max) as [|k] eqn:K.
    + unfold data_fetcher in H. rewrite K in H. cbn [fetch_loop] in H. injection H as <- <-. cbn [length]. split; [lia|]. right. right. split; [lia|auto].
    + destruct (F k) as (rl & E & _); [lia|]. assert (ND : no_data (need None) (Z.to_nat max) rl).
      { rewrite K. split; [lia|]. split; [exact F|]. rewrite Nat.sub_succ, Nat.sub_0_r. exact E. }
      rewrite (fetch_none need c max rl ND) in H. assert (HR : rl = r) by congruence. assert (HC : length calls = Z.to_nat max) by (replace calls with (repeat (@None interest_config) (Z.to_nat max)) by congruence; apply repeat_length). subst rl. rewrite HC. split; [lia|]. right. left. split; [exact ND|lia].
Qed.
Print Assumptions C83_only.

(** It returns unless a trial gives no result before there is Data: then it waits for ever, or the program crashes. *)
Theorem C83_returns : forall need c max, (exists r calls, data_fetcher need c max = Ok (r, calls)) \/ exists n a, (Z.of_nat n < max)%Z /\ ends_at (need None) n a
  /\ data_fetcher need c max = match a with Never => Hang | _ => Panic end.
Proof.
  intros need c max. destruct (trials_cases (need None) (Z.to_nat max)) as [(n & r' & L & F)|[(n & a & L & F)|F]].
  - left. eexists _, _. apply (fetch_first need c max n r' L F).
  - right. exists n, a. split; [lia|]. split; [exact F|]. apply (fetch_ends need c max n a L F).
  - left. destruct (Z.to_nat max) as [|k] eqn:K; [unfold data_fetcher; rewrite K; eexists _, _; reflexivity|].
    destruct (F k) as (rl & E & _); [lia|]. eexists _, _. apply (fetch_none need c max rl). rewrite K. split; [lia|]. split; [exact F|]. rewrite Nat.sub_succ, Nat.sub_0_r. exact E.
Qed.
Print Assumptions C83_returns.

(** On a segmented node: the packets were provided by a node of the same name, and whatever is Data for segment [i], in whatever
    round and trial, is what packet [i] reads as.  Then DataFetcher returns; it returns Data only with exactly the content that was
    provided, and it does so if in one of the rounds each segment yields Data in one of its trials.
    [need j] is the network in round [j].  Missing: as for C37_provide_partial. *)
Theorem C83_object_partial : forall D leaf_of s (x : mnode D) l content clock osc f extra, has_segments leaf_of x l -> signs l osc f extra ->
  publishable s (m_name x) content extra -> concat content <> [] ->
  forall acts ws cnt, seg_provide leaf_of s x content clock = Ok (acts, map Some ws, cnt) ->
  forall D' leaf_of' s' (x' : mnode D') l' need F c max, has_segments leaf_of' x' l' -> m_name x' = m_name x -> (N.to_nat cnt <= F)%nat -> (0 < F)%nat ->
  (forall round i w j, nth_error ws i = Some w -> let r := need round (m_name x ++ [seg_comp (N.of_nat i)]) j in r_status r = SData -> reads_as (concat w) r) ->
  exists r calls, data_fetcher (fun _ round => seg_chan F single_packet s' x' (need round)) c max = Ok (r, calls)
    /\ (r_status r = SData -> concat (content_of r) = concat content)
    /\ ((exists round, (Z.of_nat round < max)%Z /\ forall i, (i < length ws)%nat -> exists j, (j < trials (sn_retries s'))%nat /\ r_status (need round (m_name x ++ [seg_comp (N.of_nat i)]) j) = SData)
        -> r_status r = SData).
Proof.
  intros D leaf_of s x l content clock osc f extra HS SG PB NE acts ws cnt SP D' leaf_of' s' x' l' need F c max HS' NM LF F0 SRV.
  set (nd := fun (_ : option interest_config) round => seg_chan F single_packet s' x' (need round)).
  assert (ONE : forall round, exists r, nd None round = Got r /\ (r_status r = SData -> concat (content_of r) = concat content)
    /\ ((forall i, (i < length ws)%nat -> exists j, (j < trials (sn_retries s'))%nat /\ r_status (need round (m_name x ++ [seg_comp (N.of_nat i)]) j) = SData) -> r_status r = SData)).
  { intros round. destruct (C37_end_to_end_partial D leaf_of s x l content clock osc f extra HS SG PB NE acts ws cnt SP D' leaf_of' s' x' l' (need round) F HS' NM LF F0 (SRV round)) as (e & P & A & B).
    assert (ST : exists st, ev_status e = Some st).
    { unfold pipeline in P. destruct (fetch F x' (trials (sn_retries s')) [] (need round) 0 [] no_res) as [[[ok fr] la]| | |]; try discriminate. cbn [bind] in P. injection P as <-. cbn [ev_status]. eexists. reflexivity. }
    destruct ST as (st & ST). exists (mkRes st (ev_content e) (ev_data e) (ev_nack e) (ev_valid e)). split; [|split].
    - unfold nd, seg_chan. replace (bytes_eqb single_packet single_packet) with true by reflexivity. rewrite P. cbn [bind chan_of]. unfold chan_result. rewrite ST. reflexivity.
    - cbn [r_status]. intros ->. destruct (A ST) as (w & W & C). unfold content_of. cbn [r_content]. rewrite W. exact C.
    - cbn [r_status]. intros H. specialize (B H). congruence. }
  destruct (C83_returns nd c max) as [(r & calls & E)|(n & a & _ & (E & NG & _) & _)]; [|exfalso; destruct (ONE n) as (r & G & _); rewrite G in E; exact (NG r (eq_sym E))].
  exists r, calls. split; [exact E|]. destruct (C83_only nd c max r calls E) as (LC & [(FD & _)|[(ND & LM)|(MX & -> & ->)]]).
  - destruct FD as (G & S & _). destruct (ONE (length calls - 1)%nat) as (r' & G' & A & _). rewrite G in G'. injection G' as <-. split; [exact A|]. intros _. exact S.
  - destruct ND as (L0 & NO & LA). destruct (NO (length calls - 1)%nat ltac:(lia)) as (r' & G' & N'). rewrite LA in G'. injection G' as <-. split; [congruence|].
    intros (round & RL & ALL). exfalso. destruct (NO round ltac:(lia)) as (r' & G' & N''). destruct (ONE round) as (r2 & G2 & _ & B). rewrite G' in G2. injection G2 as <-. exact (N'' (B ALL)).
  - split; [discriminate|]. intros (round & RL & _). lia.
Qed.
Print Assumptions C83_object_partial.

(** The InterestConfig it is given does not matter: a node that answers those who ask with the right one is asked without. *)
Theorem C83_config_refuted : exists c need r, (forall j, need (Some c) j = Got r) /\ r_status r = SData
  /\ forall max, (0 < max)%Z -> exists r', data_fetcher need (Some c) max = Ok (r', repeat None (Z.to_nat max)) /\ r_status r' = STimeout.
Proof.
  exists (mkIC false true None None None None), (fun c _ => match c with Some _ => Got (mkRes SData None None None None) | None => Got (mkRes STimeout None None None None) end), (mkRes SData None None None None).
  split; [reflexivity|]. split; [reflexivity|]. intros max L. exists (mkRes STimeout None None None None). split; [|reflexivity]. apply fetch_none. split; [lia|]. split; [|reflexivity].
  intros j _. eexists. split; [reflexivity|discriminate].
Qed.
Print Assumptions C83_config_refuted.

(** With maxRetries of zero or less the node is not asked, and the result is none of an Interest. *)
Theorem C83_zero_refuted : forall need c max, (max <= 0)%Z -> data_fetcher need c max = Ok (no_res, []).
Proof. intros need c max L. unfold data_fetcher. replace (Z.to_nat max) with 0%nat by lia. reflexivity. Qed.
Print Assumptions C83_zero_refuted.

(** A segmented node with another Pipeline than SinglePacket never answers, whatever the network does; a node without NeedChan crashes the program. *)
Theorem C83_pipeline_refuted : forall D F pl s (x : mnode D) need c max, pl <> single_packet -> (0 < max)%Z ->
  data_fetcher (fun _ round => seg_chan F pl s x (need round)) c max = Hang.
Proof.
  intros D F pl s x need c max NE L. refine (fetch_ends _ c max 0 Never ltac:(lia) _). split; [|split; [discriminate|lia]].
  unfold seg_chan, bytes_eqb. destruct (list_eq_dec N.eq_dec pl single_packet); [congruence|reflexivity].
Qed.
Print Assumptions C83_pipeline_refuted.
Theorem C83_other_refuted : forall c max, (0 < max)%Z -> data_fetcher (fun _ _ => other_chan) c max = Panic.
Proof. intros c max L. refine (fetch_ends _ c max 0 Crash ltac:(lia) _). split; [reflexivity|]. split; [discriminate|lia]. Qed.
Print Assumptions C83_other_refuted.

(** Two losses, then Data; and an object of three segments that is complete only in the second round. *)
Definition fx_trial (_ : option interest_config) (j : nat) : asked :=
  match j with
  | 0%nat => Got (mkRes STimeout None None None None)
  | 1%nat => Got (mkRes SNack None None (Some 150%N) None)
  | _ => Got (mkRes SData (Some [[7]]%N) None None (Some 1%Z))
  end.
Example C83_example : first_data (fx_trial None) 2 (mkRes SData (Some [[7]]%N) None None (Some 1%Z)) /\ no_data (fx_trial None) 2 (mkRes SNack None None (Some 150%N) None)
  /\ data_fetcher fx_trial None 5 = Ok (mkRes SData (Some [[7]]%N) None None (Some 1%Z), [None; None; None])
  /\ data_fetcher fx_trial None 2 = Ok (mkRes SNack None None (Some 150%N) None, [None; None]).
Proof.
  assert (B : forall j, (j < 2)%nat -> exists r', fx_trial None j = Got r' /\ r_status r' <> SData).
  { intros [|[|j]] J; [eexists; split; [reflexivity|discriminate]..|lia]. }
  split; [split; [reflexivity|]; split; [reflexivity|exact B]|]. split; [split; [lia|]; split; [exact B|reflexivity]|]. split; reflexivity.
Qed.
Definition fx_need (round : nat) : name -> nat -> nres := match round with O => fun _ _ => mkRes STimeout None None None None | S _ => ex_need (map Some ex_ws) end.
Example C83_object_example : match data_fetcher (fun _ round => seg_chan 5 single_packet (mkSeg 0 10000000 8000 2) ex_x (fx_need round)) None 3 with
  | Ok (r, calls) => r_status r = SData /\ r_content r = Some [[1; 2]; [3; 4]; [5]]%N /\ length calls = 2%nat
  | _ => False
  end.
Proof. vm_compute. split; [reflexivity|]. split; reflexivity. Qed.
