(** C70: configuring the nodes and policies of a schema. *)
From Coq Require Import String Permutation.
From Verif Require Import Base BaseProofs NameModel PrimModel TextModel SchemaModel SchemaSpec AttrModel AttrSpec AttrProofs AttrProofs2.

(** Whatever was set before, a legal value given to a property of a node or policy is accepted and read back, and
    the other properties stay as they are.  Partial: see the refuted statements for values that are documented but
    not legal here. *)
Theorem C70_set_partial : forall fi fu t0 props t n k m v w, In (t0, props) (configurable fi fu) -> configured fi fu t0 t -> (2 <= n)%nat ->
  In (k, m) props -> legal m v w ->
  exists t', set_prop fi fu n t k v = Ok (None, t') /\ get_prop n t' k = Ok w /\
    forall k' m', In (k', m') props -> k' <> k -> get_prop n t' k' = get_prop n t k'.
Proof.
  intros fi fu t0 props t n k m v w I C N P L. destruct (set_legal fi fu t0 props I t n k m v w C N P L) as (t' & S & G).
  exists t'. split; [exact S|]. split; [exact G|]. intros k' m' P' D. apply (set_frame fi fu t0 props I t n k v None t' k' m' C N S P'). left. exact D.
Qed.
Print Assumptions C70_set_partial.

(** JSON: the segment size 4096.0 and the lifetime 2500.0 of an object, in whatever form the number is kept *)
Example C70_set_case : forall fi fu,
  In (rdr_node, [(txt "MetaFreshness", MMs); (txt "MaxRetriesForMeta", MUint); (txt "MetaLifetime", MMs)] ++ seg_props) (configurable fi fu) /\
  legal MUint (AF64 (mkF (4096 * 2 ^ 40) (-40))) (AU64 4096) /\ legal MMs (AF64 (mkF 625 2)) (AU64 2500) /\
  exists t1 t2, set_prop fi fu 2 rdr_node (txt "SegmentSize") (AF64 (mkF (4096 * 2 ^ 40) (-40))) = Ok (None, t1) /\
    set_prop fi fu 2 t1 (txt "Lifetime") (AF64 (mkF 625 2)) = Ok (None, t2) /\
    get_prop 2 t2 (txt "SegmentSize") = Ok (AU64 4096) /\ get_prop 2 t2 (txt "Lifetime") = Ok (AU64 2500) /\
    get_prop 2 t2 (txt "MetaLifetime") = Ok (AU64 4000).
Proof.
  intros fi fu. split; [cbn [configurable In]; auto 8|]. split; [apply LUintF; [vm_compute; reflexivity|reflexivity]|].
  split; [apply (LMsF64 _ 2500); [vm_compute; reflexivity|reflexivity]|]. eexists. eexists. split; [vm_compute; reflexivity|]. split; [vm_compute; reflexivity|].
  split; [vm_compute; reflexivity|]. split; [vm_compute; reflexivity|vm_compute; reflexivity].
Qed.

(** A call of Set that reports an error changes nothing: for every tree, class, property and value. *)
Theorem C70_unchanged : forall fi fu n t k v e t', set_prop fi fu n t k v = Ok (Some e, t') -> t' = t.
Proof. intros fi fu n t k v e t' H. destruct (set_inv fi fu n t k v _ _ H) as [[_ E]|[E _]]; [exact E|discriminate]. Qed.
Print Assumptions C70_unchanged.

(** On a property that the node has, Set returns; it succeeds only with a value of the right type. *)
Theorem C70_types : forall fi fu t0 props t n k m v, In (t0, props) (configurable fi fu) -> configured fi fu t0 t -> (2 <= n)%nat -> In (k, m) props ->
  exists e t', set_prop fi fu n t k v = Ok (e, t') /\ (e = None -> right_type m v).
Proof.
  intros fi fu t0 props t n k m v I C N P. destruct (set_returns fi fu t0 props I t n k m v C N P) as (e & t' & S). exists e, t'. split; [exact S|].
  intros ->. apply (set_type fi fu t0 props I t n k m v t' C N P S).
Qed.
Print Assumptions C70_types.
Example C70_types_case : forall fi fu, exists e, set_prop fi fu 2 leaf_node (txt "Lifetime") (AStr (txt "4s")) = Ok (Some e, leaf_node) /\ ~ right_type MMs (AStr (txt "4s")).
Proof.
  intros fi fu. exists EInvalid. split; [vm_compute; reflexivity|]. intros [(n & H)|[(n & H)|[(n & H)|[(n & H)|[(n & H)|(n & H)]]]]]; discriminate.
Qed.

(** After any sequence of calls of Set, successful or not, on any properties: a property shows the last value that
    was accepted for it, as if it had been set alone, and what it showed before if none was. *)
Theorem C70_history : forall fi fu t0 props t n l t' k m, In (t0, props) (configurable fi fu) -> configured fi fu t0 t -> (2 <= n)%nat ->
  In (k, m) props -> sets fi fu n t l t' ->
  ((forall v t1, In (k, v) l -> set_prop fi fu n t k v <> Ok (None, t1)) -> get_prop n t' k = get_prop n t k) /\
  (forall l1 v l2 t1, l = l1 ++ (k, v) :: l2 -> set_prop fi fu n t k v = Ok (None, t1) ->
     (forall v' t2, In (k, v') l2 -> set_prop fi fu n t k v' <> Ok (None, t2)) -> get_prop n t' k = get_prop n t1 k).
Proof.
  intros fi fu t0 props t n l t' k m I C N P S. split.
  - intros A. apply (history_none fi fu t0 props I n l t t' k m C N P S). intros v J (t1 & H). exact (A v t1 J H).
  - intros l1 v l2 t1 -> H A. apply (history_last fi fu t0 props I n l1 l2 t t' k v t1 C N S H). intros v' J (t2 & H2). exact (A v' t2 J H2).
Qed.
Print Assumptions C70_history.
Example C70_history_case : forall fi fu, exists t', sets fi fu 2 leaf_node
    [(txt "Freshness", AU64 5); (txt "Lifetime", AU64 1000); (txt "Freshness", AU64 7); (txt "Freshness", AStr (txt "8"))] t' /\
  get_prop 2 t' (txt "Freshness") = Ok (AU64 7) /\ get_prop 2 t' (txt "Lifetime") = Ok (AU64 1000) /\ get_prop 2 t' (txt "ValidDuration") = Ok (AU64 3153600000000).
Proof.
  intros fi fu. eexists. split.
  - eapply SsCons; [vm_compute; reflexivity|]. eapply SsCons; [vm_compute; reflexivity|]. eapply SsCons; [vm_compute; reflexivity|]. eapply SsCons; [vm_compute; reflexivity|]. apply SsNil.
  - split; [vm_compute; reflexivity|]. split; [vm_compute; reflexivity|vm_compute; reflexivity].
Qed.

(** The attributes of a description: every "$name" is replaced by the value of the environment, at any depth, and
    nothing else is; a name that the environment does not have is an error (a panic), and there is no other. *)
Theorem C70_substitution : forall env d,
  (forall d', inst_attrs env d = Ok d' <-> substs (e_get env) d d') /\
  ((exists s, mentions (AMap d) s /\ env_name s /\ e_get env s = None) <-> inst_attrs env d = Panic) /\
  (is_ok (inst_attrs env d) = true \/ inst_attrs env d = Panic).
Proof.
  intros env d. split; [apply attrs_sub|]. destruct (attrs_fail env d) as [[E M]|(d' & E & M)]; rewrite E.
  - split; [split; [reflexivity|intros _; exact M]|]. right. reflexivity.
  - split; [split; [intros X; contradiction|discriminate]|]. left. reflexivity.
Qed.
Print Assumptions C70_substitution.
Example C70_substitution_case :
  inst_attrs [(txt "$me", ABytes [1; 2]%N); (txt "$you", AStr (txt "$me"))]
    [(txt "SelfNodeId", AStr (txt "$me")); (txt "BaseMatching", AMap [(txt "a", AStr (txt "$you")); (txt "b", AList [AStr (txt "c$"); AStr (txt "$me")])])] =
  Ok [(txt "SelfNodeId", ABytes [1; 2]%N); (txt "BaseMatching", AMap [(txt "a", AStr (txt "$me")); (txt "b", AList [AStr (txt "c$"); ABytes [1; 2]%N])])] /\
  inst_attrs [] [(txt "KeyStore", AStr (txt "$keys"))] = Panic.
Proof. split; [vm_compute; reflexivity|vm_compute; reflexivity]. Qed.

(** Instantiating a node with legal attributes succeeds; the node then has these attributes, and the defaults of its
    class for the others. *)
Theorem C70_attrs_partial : forall fi fu t0 props n env d d', In (t0, props) (configurable fi fu) -> (2 <= n)%nat -> NoDup (map fst d) ->
  substs (e_get env) d d' -> (forall k v, In (k, v) d' -> exists m w, In (k, m) props /\ legal m v w) ->
  exists t, inst_node fi fu n env t0 d = Ok t /\
    (forall k v m w, In (k, v) d' -> In (k, m) props -> legal m v w -> get_prop n t k = Ok w) /\
    (forall k m, In (k, m) props -> ~ In k (map fst d) -> get_prop n t k = get_prop n t0 k).
Proof.
  intros fi fu t0 props n env d d' I N D S A. assert (C : configured fi fu t0 t0) by constructor. unfold inst_node. rewrite (proj2 (attrs_sub env d d') S). cbn [bind].
  assert (D' : NoDup (map fst d')) by (rewrite (substs_keys _ _ _ S); exact D).
  assert (AC : forall k v, In (k, v) d' -> accepts fi fu n t0 k v).
  { intros k v J. destruct (A k v J) as (m & w & P & L). destruct (set_legal fi fu t0 props I t0 n k m v w C N P L) as (t1 & S1 & _). exists t1. exact S1. }
  destruct (proj2 (attrs_accept fi fu t0 props I n d' t0 C N) AC) as (t & H). exists t. split; [exact H|]. split.
  - intros k v m w J P L. destruct (set_legal fi fu t0 props I t0 n k m v w C N P L) as (t1 & S1 & G). rewrite <- G. apply (attrs_get fi fu t0 props I n d' t0 t k v t1 C N D' H J S1).
  - intros k m P X. apply (attrs_other fi fu t0 props I n d' t0 t k m C N P); [|exact H]. rewrite (substs_keys _ _ _ S). exact X.
Qed.
Print Assumptions C70_attrs_partial.

(** a sync node described in JSON *)
Example C70_attrs_case : forall fi fu, exists t,
  inst_node fi fu 2 [(txt "$id", AStr (txt "node-1"))] (svs_node fi fu)
    [(txt "SyncInterval", AF64 (mkF 2000 0)); (txt "ChannelSize", AF64 (mkF 1 10)); (txt "SelfNodeId", AStr (txt "$id"));
     (txt "BaseMatching", AMap [(txt "group", AStr (txt "8=chat"))]); (txt "Freshness", AF64 (mkF 10 0))] = Ok t /\
  get_prop 2 t (txt "SyncInterval") = Ok (AU64 2000) /\ get_prop 2 t (txt "ChannelSize") = Ok (AU64 1024) /\
  get_prop 2 t (txt "SelfNodeId") = Ok (ABytes (txt "node-1")) /\ get_prop 2 t (txt "BaseMatching") = Ok (AMatch [(txt "group", txt "chat")]) /\
  get_prop 2 t (txt "Freshness") = Ok (AU64 10) /\ get_prop 2 t (txt "SuppressionInterval") = Ok (AU64 200).
Proof. intros fi fu. eexists. repeat (split; [vm_compute; reflexivity|]). vm_compute. reflexivity. Qed.

(** The order in which Go's map iteration yields the attributes does not matter. *)
Theorem C70_order : forall fi fu t0 props t n d d' t1, In (t0, props) (configurable fi fu) -> configured fi fu t0 t -> (2 <= n)%nat ->
  NoDup (map fst d) -> Permutation d d' -> set_attrs fi fu n t d = Ok t1 ->
  exists t2, set_attrs fi fu n t d' = Ok t2 /\ forall k m, In (k, m) props -> get_prop n t2 k = get_prop n t1 k.
Proof. intros fi fu t0 props t n d d' t1 I C N D P H. exact (attrs_perm fi fu t0 props I n d d' t t1 C N D P H). Qed.
Print Assumptions C70_order.

Example C70_order_case : forall fi fu, exists t1 t2,
  set_attrs fi fu 2 seg_node [(txt "SegmentSize", AU64 1000); (txt "Pipeline", AStr (txt "X")); (txt "MustBeFresh", ABool false)] = Ok t1 /\
  set_attrs fi fu 2 seg_node [(txt "MustBeFresh", ABool false); (txt "SegmentSize", AU64 1000); (txt "Pipeline", AStr (txt "X"))] = Ok t2 /\
  get_prop 2 t1 (txt "Pipeline") = Ok (AStr (txt "X")) /\ get_prop 2 t2 (txt "Pipeline") = Ok (AStr (txt "X")).
Proof. intros fi fu. eexists. eexists. split; [vm_compute; reflexivity|]. split; [vm_compute; reflexivity|]. split; [vm_compute; reflexivity|]. vm_compute. reflexivity. Qed.

(** ** What does not hold *)

(** The properties that the documentation types as time.Duration refuse a time.Duration.  The sync node uses one for
    its notifications and ignores the error: they live 4 s, not 1 s as written. *)
Theorem C70_duration_refuted : forall fi fu, exists k,
  set_prop fi fu 2 expr_node k (ADur (1000 * ms)) = Ok (Some EInvalid, expr_node) /\ k = txt "Lifetime" /\
  exists u, at_path [p_notif] (svs_node fi fu) = Some u /\ get_prop 2 u (txt "Lifetime") = Ok (AU64 4000).
Proof. intros fi fu. eexists. split; [|split; [reflexivity|]]. - vm_compute. reflexivity. - eexists. split; [vm_compute; reflexivity|vm_compute; reflexivity]. Qed.
Print Assumptions C70_duration_refuted.

(** The content type cannot be given by a number: a JSON description that has it panics. *)
Theorem C70_content_type_refuted : forall fi fu f n, exists k,
  inst_node fi fu 2 [] leaf_node [(k, AF64 f)] = Panic /\ set_prop fi fu 2 leaf_node k (AU64 n) = Ok (Some EInvalid, leaf_node) /\ k = txt "ContentType".
Proof. intros fi fu f n. eexists. split; [|split; [|reflexivity]]; vm_compute; reflexivity. Qed.
Print Assumptions C70_content_type_refuted.

(** A key name given as a string is refused if it is a name, and accepted, and becomes the empty name, if it is not. *)
Theorem C70_name_refuted : forall fi fu, exists s s' t,
  name_from_str s = Ok [mkComp 8 (txt "key")] /\ set_prop fi fu 2 hmac_policy (txt "KeyName") (AStr s) = Ok (Some EInvalid, hmac_policy) /\
  is_ok (name_from_str s') = false /\ set_prop fi fu 2 hmac_policy (txt "KeyName") (AStr s') = Ok (None, t) /\ get_prop 2 t (txt "KeyName") = Ok (AStr (txt "/")).
Proof.
  intros fi fu. exists (txt "/key"), (txt "/key/a=b=c"). eexists. split; [vm_compute; reflexivity|]. split; [vm_compute; reflexivity|].
  split; [vm_compute; reflexivity|]. split; [vm_compute; reflexivity|vm_compute; reflexivity].
Qed.
Print Assumptions C70_name_refuted.
(** more exactly: no string that is a name can be given *)
Theorem C70_name_strings : forall fi fu s nm, name_from_str s = Ok nm -> set_prop fi fu 2 hmac_policy (txt "KeyName") (AStr s) = Ok (Some EInvalid, hmac_policy).
Proof.
  intros fi fu s nm H. unfold set_prop. change (c_get (cls hmac_policy) (txt "KeyName")) with (Some (PName (txt "KeyName"))). cbn [field_of].
  change (f_get (obj hmac_policy) (txt "KeyName")) with (Some (GName, AName [])). cbn [conv conv_name]. rewrite H. reflexivity.
Qed.
Print Assumptions C70_name_strings.

(** A number in the map of a matching is dropped without an error if it is a JSON number. *)
Theorem C70_matching_refuted : forall fi fu, exists t,
  set_prop fi fu 2 register_policy (txt "Patterns") (AMap [(txt "seq", AF64 (mkF 3 0)); (txt "id", AStr (txt "x"))]) = Ok (None, t) /\
  exists m, get_prop 2 t (txt "Patterns") = Ok (AMatch m) /\ mget m (txt "seq") = None.
Proof. intros fi fu. eexists. split; [vm_compute; reflexivity|]. eexists. split; [vm_compute; reflexivity|]. vm_compute. reflexivity. Qed.
Print Assumptions C70_matching_refuted.

(** Times out of range are accepted and read back as something else: -1 ms as 2^64 - 1 ms, 300 years as a huge time. *)
Theorem C70_range_refuted : forall fi fu, exists t t',
  set_prop fi fu 2 expr_node (txt "Lifetime") (AInt (-1)) = Ok (None, t) /\ get_prop 2 t (txt "Lifetime") = Ok (AU64 18446744073709551615) /\
  set_prop fi fu 2 expr_node (txt "Lifetime") (AU64 9467280000000) = Ok (None, t') /\ get_prop 2 t' (txt "Lifetime") <> Ok (AU64 9467280000000).
Proof.
  intros fi fu. eexists. eexists. split; [vm_compute; reflexivity|]. split; [vm_compute; reflexivity|]. split; [vm_compute; reflexivity|]. vm_compute. discriminate.
Qed.
Print Assumptions C70_range_refuted.

(** A JSON number of milliseconds beyond 18 years may be read back as one less. *)
Theorem C70_rounding_refuted : forall fi fu, exists n t, (Z.of_N n * ms < Ztwo63)%Z /\
  set_prop fi fu 2 leaf_node (txt "ValidDuration") (AF64 (mkF (Z.of_N n) 0)) = Ok (None, t) /\ get_prop 2 t (txt "ValidDuration") = Ok (AU64 (n - 1)).
Proof. intros fi fu. exists 576460752305%N. eexists. split; [vm_compute; reflexivity|]. split; [vm_compute; reflexivity|vm_compute; reflexivity]. Qed.
Print Assumptions C70_rounding_refuted.

(** Defaults.  The table has every property of every class, and after any sequence of calls of Set a property for
    which no value was accepted shows its default. *)
Theorem C70_defaults_complete : forall fi fu, map fst (defaults fi fu) = map fst (configurable fi fu) /\
  map (fun e => map fst (snd e)) (defaults fi fu) = map (fun e => map fst (snd e)) (configurable fi fu).
Proof. intros fi fu. split; reflexivity. Qed.
Print Assumptions C70_defaults_complete.
Theorem C70_defaults : forall fi fu t0 table n l t k v, In (t0, table) (defaults fi fu) -> In (k, v) table -> (2 <= n)%nat -> sets fi fu n t0 l t ->
  (forall w t1, In (k, w) l -> set_prop fi fu n t0 k w <> Ok (None, t1)) -> get_prop n t k = Ok v.
Proof.
  intros fi fu t0 table n l t k v D K N S A.
  assert (G : (exists props m, In (t0, props) (configurable fi fu) /\ In (k, m) props) /\ get_prop n t0 k = Ok v).
  { destruct n as [|[|n]]; [lia|lia|]. clear - D K. unfold defaults in D. cbn [In] in D.
    repeat (destruct D as [D|D]; [injection D as <- <-; cbn [In app leaf_defaults seg_defaults] in K;
      repeat (destruct K as [K|K]; [injection K as <- <-; split; [do 2 eexists; split; [unfold configurable; cbn [In]; eauto 20|cbn [In app leaf_props seg_props]; eauto 20]|vm_compute; reflexivity]|]); destruct K|]). destruct D. }
  destruct G as [(props & m & I & P) G]. rewrite <- G. apply (C70_history fi fu t0 props t0 n l t k m I (CfNew fi fu t0) N P S). exact A.
Qed.
Print Assumptions C70_defaults.
(** the nodes below, which no property shows: content keys are of type key and need not be fresh; the node of sync
    Interests may be a prefix and keeps the lifetime of 4 s (see C70_duration_refuted) *)
Theorem C70_inner_defaults : forall fi fu u w, at_path [PVar 8 (txt "contentKeyID")] ck_node = Some u -> at_path [PComp (mkComp 32 (txt "notif"))] (svs_node fi fu) = Some w ->
  get_prop 2 u (txt "ContentType") = Ok (ACType 2) /\ get_prop 2 u (txt "MustBeFresh") = Ok (ABool false) /\ get_prop 2 u (txt "CanBePrefix") = Ok (ABool true) /\
  get_prop 2 w (txt "CanBePrefix") = Ok (ABool true) /\ get_prop 2 w (txt "MustBeFresh") = Ok (ABool true) /\ get_prop 2 w (txt "Lifetime") = Ok (AU64 4000).
Proof.
  intros fi fu u w U W. vm_compute in U, W. injection U as <-. injection W as <-. do 5 (split; [vm_compute; reflexivity|]). vm_compute. reflexivity.
Qed.
Print Assumptions C70_inner_defaults.
Example C70_defaults_case : forall fi fu, exists t, sets fi fu 2 seg_node [(txt "SegmentSize", AU64 100)] t /\ get_prop 2 t (txt "SegmentSize") = Ok (AU64 100)
  /\ get_prop 2 t (txt "Pipeline") = Ok (AStr (txt "SinglePacket")) /\ exists u w, at_path [PVar 8 (txt "contentKeyID")] ck_node = Some u /\ at_path [PComp (mkComp 32 (txt "notif"))] (svs_node fi fu) = Some w.
Proof.
  intros fi fu. eexists. split; [eapply SsCons; [vm_compute; reflexivity|apply SsNil]|]. split; [vm_compute; reflexivity|]. split; [vm_compute; reflexivity|].
  do 2 eexists. split; vm_compute; reflexivity.
Qed.
