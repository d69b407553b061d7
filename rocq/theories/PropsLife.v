(** C88: an engine from Start to Shutdown, and again, on the face of the dummy package. *)
From Verif Require Import Base PrimModel PrimProofs ReaderModel ReaderSpec NameModel TrieModel TrieSpec EngineModel EngineSpec FibModel CodecModel CodecSpec4 SpecModel SpecSpec RecvModel RecvSpec DummyModel LifeModel LifeSpec LifeProofs.

(** Every history of calls with packets the decoder can take (C49) runs to its end: nothing panics or hangs. *)
Theorem C88_runs : forall sha H (os : list (lop H)), Forall harmless os -> exists s tr, l_run sha l_new os = Ok (s, tr) /\ length tr = length os.
Proof. intros sha H os HA. destruct (life_runs sha os HA) as (s & tr & R & _ & L). eauto. Qed.
Print Assumptions C88_runs.

(** In every history: Start succeeds iff the engine is down, Shutdown iff it is up; neither touches the pending
    Interests, the handlers or the calls that wait for a reply. *)
Theorem C88_start_stop : forall sha H (os : list (lop H)) s tr, l_run sha l_new os = Ok (s, tr) ->
  (if up os then l_step sha s LStart = Ok (s, LErr)
   else exists s', l_step sha s LStart = Ok (s', LNil) /\ lf_node s' = lf_node s /\ lf_calls s' = lf_calls s)
  /\ (if up os then exists s', l_step sha s LShutdown = Ok (s', LNil) /\ lf_node s' = lf_node s /\ lf_calls s' = lf_calls s
      else l_step sha s LShutdown = Ok (s, LErr)).
Proof.
  intros sha H os s tr R. destruct (eng_face _ _ _ _ R) as [_ (A & _)]. split.
  - destruct (up os) eqn:U; [cbn [l_step]; rewrite A; reflexivity|]. destruct (start_ok _ _ _ _ R U) as (s' & E & _ & _ & N1 & N2). eauto.
  - cbn [l_step]. rewrite A. destruct (up os); cbn [negb]; [|reflexivity]. cbn [df_step]. rewrite A. eexists. split; [reflexivity|]. auto.
Qed.
Print Assumptions C88_start_stop.

(** While it is down nothing comes in or goes out: packets are refused and have no effect, Express and Reply
    report an error. *)
Theorem C88_down : forall sha H (os : list (lop H)) s tr, l_run sha l_new os = Ok (s, tr) -> up os = false ->
  (forall b, l_step sha s (LFeed b) = Ok (s, LErr)) /\ l_step sha s LConsume = Ok (s, LErr)
  /\ (forall nm cbp lt w s' r, l_step sha s (LExpress nm cbp lt w) = Ok (s', r) -> r = LErr)
  /\ (forall k data s' r, l_step sha s (LReply k data) = Ok (s', r) -> s' = s /\ r = LErr).
Proof.
  intros sha H os s tr R U. destruct (eng_face _ _ _ _ R) as [_ (A & _)]. rewrite U in A. cbn [l_step df_step]. rewrite A. cbn [negb]. split; [reflexivity|]. split; [destruct s; reflexivity|]. split.
  - intros nm cbp lt w s' r. destruct (e_express _ _ _ _) as [[g|]| | |]; try discriminate; cbn [bind]; intros Q; [|injection Q as _ <-; reflexivity].
    unfold send_out in Q. cbn [lf_face df_step] in Q. rewrite A in Q. cbn [negb is_dnil] in Q. injection Q as _ <-. reflexivity.
  - intros k data s' r. destruct (nth_error (lf_calls s) k) as [[h a]|]; [|intros Q; injection Q as <- <-; auto]. unfold reply. cbn [negb].
    destruct (ia_deadline a <? g_now (n_eng (lf_node s)))%Z; cbn [bind]; intros Q; injection Q as <- <-; auto.
Qed.
Print Assumptions C88_down.

(** While it is up, Express fails only for the empty name; otherwise the face gets exactly the wire given. *)
Theorem C88_express : forall sha H (os : list (lop H)) s tr nm cbp lt w s' r, l_run sha l_new os = Ok (s, tr) -> up os = true ->
  l_step sha s (LExpress nm cbp lt w) = Ok (s', r) -> r = match nm with [] => LErr | _ => LSent w end.
Proof.
  intros sha H os s tr nm cbp lt w s' r R U. destruct (eng_face _ _ _ _ R) as [_ (A & _)]. rewrite U in A. cbn [l_step].
  destruct (e_express _ _ _ _) as [[g|]| | |] eqn:E; try discriminate; cbn [bind]; intros Q.
  - destruct nm; [discriminate E|]. unfold send_out in Q. cbn [lf_face df_step] in Q. rewrite A in Q. cbn [negb] in Q. destruct w as [|? [|? ?]]; cbn [is_dnil] in Q; injection Q as _ <-; reflexivity.
  - injection Q as _ <-. destruct nm as [|c nm]; auto. exfalso. unfold e_express, split_digest in E. destruct (rev (c :: nm)) as [|x l] eqn:RR; [apply (f_equal (@rev _)) in RR; rewrite rev_involutive in RR; discriminate|].
    destruct (ctyp x =? TypeImplicitSha256Digest)%N; destruct (t_always _ _ _); try discriminate; cbn [bind] in E; destruct (TrieModel.value _ _); try discriminate; cbn [bind] in E; destruct (set_value _ _ _); discriminate.
Qed.
Print Assumptions C88_express.

(** Between a Start and the next Shutdown, the packets taken from the face are those handed to it, in order, each
    in one piece, none lost, none twice; Consume reports an error only when all have been taken. *)
Theorem C88_fifo : forall sha H (os0 os : list (lop H)) s0 tr0 s1 s tr, l_run sha l_new os0 = Ok (s0, tr0) -> up os0 = false ->
  l_step sha s0 LStart = Ok (s1, LNil) -> ~ In LShutdown os -> l_run sha s1 os = Ok (s, tr) ->
  exists rest, sent tr = taken tr ++ rest
    /\ match rest with [] => l_step sha s LConsume = Ok (s, LErr) | b :: _ => exists s', l_step sha s LConsume = Ok (s', LPkt b) end.
Proof.
  intros sha H os0 os s0 tr0 s1 s tr R U ST NS R1. destruct (start_ok _ _ _ _ R U) as (s1' & E & A & B & _). rewrite ST in E. injection E as <-.
  destruct (life_fifo _ _ _ _ _ A B NS R1) as (C & D). exists (df_pkts (lf_face s)). split; auto. cbn [l_step df_step]. rewrite D. cbn [negb].
  destruct (df_pkts (lf_face s)) eqn:P; [destruct s; reflexivity|]. eexists. reflexivity.
Qed.
Print Assumptions C88_fifo.

(** Whatever happens to the face, an expressed Interest is called back: when its lifetime and 10 ms have passed,
    running its timer, if that is still to happen, leaves it called back. *)
Theorem C88_called : forall sha H (os : list (lop H)) i x s tr, l_run sha l_new os = Ok (s, tr) -> nth_error (l_expressed 0 os) i = Some x ->
  (x_deadline x + 10000000 <= l_elapsed os)%Z ->
  exists s' tr', l_run sha l_new (os ++ [LFire i; LRun i]) = Ok (s', tr') /\ In i (called (n_eng (lf_node s'))).
Proof. intros sha H. exact (@life_called sha H). Qed.
Print Assumptions C88_called.

(** Data is reported only for a packet that came in while the engine was up, after the Interest, and matches it. *)
Theorem C88_data : forall sha H (os : list (lop H)) s tr i, l_run sha l_new os = Ok (s, tr) -> In (i, RData) (callbacks (n_eng (lf_node s))) ->
  exists os1 b os2 d cov raw tok x, os = os1 ++ LFeed b :: os2 /\ up os1 = true
    /\ on_packet sha (S (length b)) (new_buffer_reader b) = Ok (EvData d cov raw tok)
    /\ nth_error (l_expressed 0 os1) i = Some x /\ matches (x_cbp x) (the_name (d_name d)) (sha (concat raw)) (x_name x).
Proof. intros sha H. exact (@life_data_cause sha H). Qed.
Print Assumptions C88_data.

(** A handler is called only while the engine is up, with an Interest packet whose name begins with a prefix the
    handler was attached to; its deadline is the time of receipt plus the lifetime, 4 s by default. *)
Theorem C88_handler : forall sha H (os : list (lop H)) s s' tr b h a, l_run sha l_new os = Ok (s, tr) -> Forall harmless os -> l_step sha s (LFeed b) = Ok (s', LCall h a) ->
  up os = true /\ exists nm raw, In (LAttach nm (Some h)) os /\ prefix (keys nm) (keys (the_name (i_name (ia_int a))))
    /\ on_packet sha (S (length b)) (new_buffer_reader b) = Ok (EvInterest (ia_int a) raw (ia_cov a) (ia_token a) (ia_face a)) /\ raw = ia_raw a
    /\ ia_deadline a = (l_elapsed os + match i_lifetime (ia_int a) with Some l => l | None => 4000000000 end)%Z.
Proof. intros sha H. exact (@life_handler sha H). Qed.
Print Assumptions C88_handler.

(** Every call of a handler can be answered, at once or later and however often the engine was restarted meanwhile,
    as long as its deadline has not passed and the engine is up; then the face gets the Data, in a link-layer packet
    with the token of the Interest if it had one.  Otherwise Reply returns an error and nothing changes. *)
Theorem C88_reply : forall sha H (os : list (lop H)) s tr k h a data, l_run sha l_new os = Ok (s, tr) -> nth_error (calls tr) k = Some (h, a) ->
  if up os && (l_elapsed os <=? ia_deadline a)%Z
  then exists s' w, l_step sha s (LReply k data) = Ok (s', LSent w)
       /\ concat w = match ia_token a with Some t => lp_packet (token_only t) (option_map (@concat N) data) | None => match data with Some d => concat d | None => [] end end
  else l_step sha s (LReply k data) = Ok (s, LErr).
Proof. intros sha H. exact (@life_reply sha H). Qed.
Print Assumptions C88_reply.

(** Refuted: that an Interest whose Express reported an error because the engine was down is gone.  It is not sent at
    Start either, but stays pending: a Data that comes later is reported to the callback. *)
Definition lx_name : name := [mkComp 8 [97%N]].
Definition lx_data : buf := data_packet lx_name (mkDC None None None) (Some [[1%N]]) None None.
Definition lx_history : list (lop nat) := [LExpress lx_name false None [[5; 5]]%N; LStart; LConsume; LFeed lx_data].
Theorem C88_unsent_refuted : forall sha, exists s, l_run sha l_new lx_history = Ok (s, [LErr; LNil; LErr; LNil]) /\ callbacks (n_eng (lf_node s)) = [(0%nat, RData)].
Proof. intros sha. eexists. split; [vm_compute; reflexivity|reflexivity]. Qed.
Print Assumptions C88_unsent_refuted.

(** Refuted: that what was sent can be taken after a restart. *)
Theorem C88_restart_refuted : forall sha, exists s, l_run sha l_new (H := nat) [LStart; LExpress lx_name false None [[5; 5]]%N; LShutdown; LStart; LConsume]
  = Ok (s, [LNil; LSent [[5; 5]]%N; LNil; LNil; LErr]).
Proof. intros sha. eexists. vm_compute. reflexivity. Qed.
Print Assumptions C88_restart_refuted.

(** A history that meets the hypotheses: an Interest is sent and taken, the engine is shut down and started again, a
    handler is called and replies, and a timer runs. *)
Definition lx_interest : buf := interest_packet lx_name (mkIC false false None None None None) None None None.
Example C88_example : forall sha, let os := [LStart; LAttach lx_name (Some 7%nat); LExpress lx_name false (Some 1000%Z) [[5]; [6]]%N; LConsume; LShutdown; LFeed lx_data; LTick 20000000; LStart;
    LFeed lx_interest; LReply 0 (Some [[9]]%N); LConsume] in
  Forall harmless os /\ up os = true /\ nth_error (l_expressed 0 os) 0 = Some (mkX lx_name false 1000) /\ l_elapsed os = 20000000%Z
  /\ exists s a, l_run sha l_new os = Ok (s, [LNil; LNil; LSent [[5]; [6]]%N; LPkt [5; 6]%N; LNil; LErr; LNil; LNil; LCall 7%nat a; LSent [[9]]%N; LPkt [9]%N]).
Proof.
  intros sha os. split.
  { assert (NB : forall b, forallb (fun x => (x <? 253)%N) b = true -> (length b < 1000)%nat -> bytes_ok b /\ no_huge_number b /\ (zlen b < mem_limit)%Z).
    { intros b F L. rewrite forallb_forall in F. split; [apply Forall_forall; intros x X; specialize (F x X); apply N.ltb_lt in F; unfold byte_ok; lia|].
      split; [|unfold mem_limit, zlen; lia]. intros x t -> _. assert (IN : In 255%N (x ++ 255%N :: t)) by (apply in_or_app; right; left; reflexivity). specialize (F _ IN). discriminate. }
    repeat constructor; apply NB; vm_compute; (reflexivity || lia). }
  split; [reflexivity|]. split; [reflexivity|]. split; [reflexivity|]. eexists _, _. vm_compute. reflexivity.
Qed.
