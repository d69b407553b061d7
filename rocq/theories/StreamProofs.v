From Verif Require Import Base BaseProofs PrimModel PrimProofs StreamModel.

Lemma sr_byte_some : forall cs b s, concat cs = b :: s -> exists cs', sr_byte cs = (Some b, cs') /\ concat cs' = s.
Proof.
  induction cs as [|c cs IH]; simpl; intros b s H; [discriminate|]. destruct c as [|x c]; simpl in *; [auto|]. inversion H; subst. eexists. split; [reflexivity|]. auto.
Qed.
Lemma sr_byte_none : forall cs, concat cs = [] -> exists cs', sr_byte cs = (None, cs') /\ concat cs' = [].
Proof.
  induction cs as [|c cs IH]; simpl; intros H; [eauto|]. destruct c as [|x c]; simpl in *; [auto|discriminate].
Qed.

Lemma sr_tl_loop_ok : forall bs cs s v, concat cs = bs ++ s -> exists cs',
  sr_tl_loop (length bs) v cs = (fold_left (fun a b => ((a * 256) mod two64 + b)%N) bs v, None, cs') /\ concat cs' = s.
Proof.
  induction bs as [|b bs IH]; simpl; intros cs s v H; [eauto|].
  destruct (sr_byte_some cs b (bs ++ s) H) as (cs1 & E & C). rewrite E. apply IH. auto.
Qed.

Lemma sr_tl_loop_be : forall k v cs s, concat cs = be k v ++ s -> (k <= 8)%nat -> unbe (be k v) = v -> exists cs',
  sr_tl_loop k 0 cs = (v, None, cs') /\ concat cs' = s.
Proof.
  intros k v cs s H K U. destruct (sr_tl_loop_ok (be k v) cs s 0 H) as (cs' & E & C). rewrite be_length in E.
  exists cs'. split; auto. rewrite E. f_equal. f_equal. change (unbe64 (be k v) = v). rewrite unbe64_small; auto; [apply be_ok|rewrite be_length; auto].
Qed.

Lemma sr_tl_ok : forall v cs s, u64_ok v -> concat cs = tl_enc v ++ s -> exists cs', sr_tl cs = (v, None, cs') /\ concat cs' = s.
Proof.
  intros v cs s U H. unfold tl_enc in H. unfold sr_tl.
  destruct (N.leb_spec v 252).
  - rewrite N.mod_small in H by lia. destruct (sr_byte_some cs v s H) as (cs1 & E & C). rewrite E.
    destruct (N.leb_spec v 252); [|lia]. eauto.
  - destruct (N.leb_spec v 65535); [|destruct (N.leb_spec v 4294967295)]; simpl app in H;
      destruct (sr_byte_some cs _ _ H) as (cs1 & E & C); rewrite E.
    + apply (sr_tl_loop_be 2 v cs1 s); auto with arith. apply unbe_be_small. rewrite pow_two16. lia.
    + apply (sr_tl_loop_be 4 v cs1 s); auto with arith. apply unbe_be_small. rewrite pow_two32. lia.
    + apply (sr_tl_loop_be 8 v cs1 s); auto with arith. apply unbe_be_small. rewrite pow_two64. exact U.
Qed.

Lemma sr_full_ok : forall bs cs s, concat cs = bs ++ s -> exists cs', sr_full (length bs) cs = (bs, cs') /\ concat cs' = s.
Proof.
  induction bs as [|b bs IH]; simpl; intros cs s H; [eauto|].
  destruct (sr_byte_some cs b (bs ++ s) H) as (cs1 & E & C). rewrite E. destruct (IH cs1 s C) as (cs2 & E2 & C2). rewrite E2. eauto.
Qed.

(** all behaviour depends only on the concatenation *)
Lemma sr_byte_concat : forall cs ds, concat cs = concat ds -> fst (sr_byte cs) = fst (sr_byte ds) /\ concat (snd (sr_byte cs)) = concat (snd (sr_byte ds)).
Proof.
  intros cs ds H. destruct (concat cs) as [|b s] eqn:E.
  - destruct (sr_byte_none cs E) as (c1 & A & B). symmetry in H. destruct (sr_byte_none ds H) as (d1 & A2 & B2). rewrite A, A2. simpl. split; congruence.
  - destruct (sr_byte_some cs b s E) as (c1 & A & B). symmetry in H. destruct (sr_byte_some ds b s H) as (d1 & A2 & B2). rewrite A, A2. simpl. split; congruence.
Qed.

Lemma sr_tl_loop_concat : forall n v cs ds, concat cs = concat ds ->
  fst (sr_tl_loop n v cs) = fst (sr_tl_loop n v ds) /\ concat (snd (sr_tl_loop n v cs)) = concat (snd (sr_tl_loop n v ds)).
Proof.
  induction n; simpl; intros v cs ds H; auto. destruct (sr_byte_concat cs ds H) as [A B].
  destruct (sr_byte cs) as [[x|] c1], (sr_byte ds) as [[y|] d1]; simpl in *; try discriminate; auto. inversion A; subst. apply IHn; auto.
Qed.

Lemma sr_tl_concat : forall cs ds, concat cs = concat ds -> fst (sr_tl cs) = fst (sr_tl ds) /\ concat (snd (sr_tl cs)) = concat (snd (sr_tl ds)).
Proof.
  intros cs ds H. unfold sr_tl. destruct (sr_byte_concat cs ds H) as [A B].
  destruct (sr_byte cs) as [[x|] c1], (sr_byte ds) as [[y|] d1]; cbn [fst snd] in *; try discriminate; auto. inversion A; subst.
  destruct (y <=? 252)%N; auto. destruct (y =? 253)%N; [apply sr_tl_loop_concat; auto|]. destruct (y =? 254)%N; apply sr_tl_loop_concat; auto.
Qed.

Lemma sr_full_concat : forall n cs ds, concat cs = concat ds -> fst (sr_full n cs) = fst (sr_full n ds) /\ concat (snd (sr_full n cs)) = concat (snd (sr_full n ds)).
Proof.
  induction n; simpl; intros cs ds H; auto. destruct (sr_byte_concat cs ds H) as [A B].
  destruct (sr_byte cs) as [[x|] c1], (sr_byte ds) as [[y|] d1]; simpl in *; try discriminate; auto. inversion A; subst.
  destruct (IHn c1 d1 B) as [C D]. destruct (sr_full n c1), (sr_full n d1). simpl in *. split; congruence.
Qed.

Lemma s_run_concat : forall tol acc fuel cs ds, concat cs = concat ds -> s_run tol acc fuel cs = s_run tol acc fuel ds.
Proof.
  intros tol acc. induction fuel; intros cs ds H; auto. cbn [s_run].
  destruct (sr_tl_concat cs ds H) as [A B]. destruct (sr_tl cs) as [[t e1] c1], (sr_tl ds) as [[t' e1'] d1]. cbn [fst snd] in *. inversion A; subst t' e1'.
  destruct (fatal tol e1); auto.
  destruct (sr_tl_concat c1 d1 B) as [A2 B2]. destruct (sr_tl c1) as [[l e2] c2], (sr_tl d1) as [[l' e2'] d2]. cbn [fst snd] in *. inversion A2; subst l' e2'.
  destruct (fatal tol e2); auto. destruct ((to_int l <? 0)%Z || negb (make_ok 1 (Z.of_N (tl_len t) + Z.of_N (tl_len l) + to_int l))); auto.
  destruct (sr_full_concat (N.to_nat l) c2 d2 B2) as [A3 B3]. destruct (sr_full (N.to_nat l) c2) as [b c3], (sr_full (N.to_nat l) d2) as [b' d3]. cbn [fst snd] in *. subst b'.
  destruct (fatal tol (if (length b <? N.to_nat l)%nat then Some (match b with [] => EEOF | _ => EUnexpectedEOF end) else None)); auto.
  destruct (acc _); auto. rewrite (IHfuel c3 d3 B3). auto.
Qed.

(** a top-level element *)
Definition element (t : N) (v : buf) : buf := tl_enc t ++ tl_enc (nlen v) ++ v.

Lemma s_run_one : forall tol acc fuel cs t v s, u64_ok t -> (zlen v + 18 <= max_alloc)%Z -> concat cs = element t v ++ s ->
  exists cs', s_run tol acc (S fuel) cs =
    (if acc (element t v) then let '(ps, st) := s_run tol acc fuel cs' in (element t v :: ps, st) else ([element t v], SRefused)) /\ concat cs' = s.
Proof.
  intros tol acc fuel cs t v s U L H. unfold element in H. rewrite <- !app_assoc in H.
  assert (UV : u64_ok (nlen v)) by (unfold u64_ok, two64, nlen, zlen, max_alloc in *; lia).
  destruct (sr_tl_ok t cs _ U H) as (c1 & E1 & C1). destruct (sr_tl_ok (nlen v) c1 _ UV C1) as (c2 & E2 & C2).
  destruct (sr_full_ok v c2 s C2) as (c3 & E3 & C3). exists c3. split; auto. cbn [s_run]. rewrite E1, E2. cbn [fatal].
  assert (TI : to_int (nlen v) = zlen v).
  { unfold to_int, nlen, zlen, two63, max_alloc in *. destruct (N.ltb_spec (N.of_nat (length v)) 9223372036854775808); lia. }
  rewrite TI. pose proof (tl_len_range t). pose proof (tl_len_range (nlen v)). pose proof (zlen_nonneg v).
  destruct (Z.ltb_spec (zlen v) 0); [lia|]. assert (MK : make_ok 1 (Z.of_N (tl_len t) + Z.of_N (tl_len (nlen v)) + zlen v) = true).
  { unfold make_ok. apply Bool.andb_true_iff. split; apply Z.leb_le; lia. }
  rewrite MK. cbn [orb negb].
  assert (NL : N.to_nat (nlen v) = length v) by (unfold nlen; lia). rewrite NL, E3, Nat.ltb_irrefl. cbn [fatal].
  rewrite Nat.sub_diag. cbn [repeat]. rewrite app_nil_r. unfold element. auto.
Qed.

Lemma s_run_all : forall tol pkts cs s n, (forall e, In e pkts -> u64_ok (fst e) /\ (zlen (snd e) + 18 <= max_alloc)%Z) ->
  concat cs = concat (map (fun e => element (fst e) (snd e)) pkts) ++ s ->
  exists cs', concat cs' = s /\ s_run tol (fun _ => true) (length pkts + n) cs =
    let '(ps, st) := s_run tol (fun _ => true) n cs' in (map (fun e => element (fst e) (snd e)) pkts ++ ps, st).
Proof.
  intros tol. induction pkts as [|[t v] pkts IH]; intros cs s n OK H.
  - exists cs. split; auto. simpl. destruct (s_run tol (fun _ => true) n cs); auto.
  - cbn [map concat fst snd] in H. rewrite <- app_assoc in H. destruct (OK (t, v)) as [U L]; [left; auto|]. cbn [fst snd] in *.
    destruct (s_run_one tol (fun _ => true) (length pkts + n) cs t v _ U L H) as (c1 & E & C).
    destruct (IH c1 s n) as (c2 & C2 & E2); [intros; apply OK; right; auto|auto|].
    exists c2. split; auto. cbn [length Nat.add]. rewrite E, E2. destruct (s_run tol (fun _ => true) n c2). auto.
Qed.

Lemma s_run_prefix : forall tol pkts cs s n, (forall e, In e pkts -> u64_ok (fst e) /\ (zlen (snd e) + 18 <= max_alloc)%Z) ->
  concat cs = concat (map (fun e => element (fst e) (snd e)) pkts) ++ s -> (n <= length pkts)%nat ->
  s_run tol (fun _ => true) n cs = (firstn n (map (fun e => element (fst e) (snd e)) pkts), SClosed).
Proof.
  intros tol. induction pkts as [|[t v] pkts IH]; intros cs s n OK H L.
  - simpl in L. assert (n = O) by lia. subst. auto.
  - destruct n; auto. cbn [map concat fst snd] in H. rewrite <- app_assoc in H. destruct (OK (t, v)) as [U LL]; [left; auto|]. cbn [fst snd] in *.
    destruct (s_run_one tol (fun _ => true) n cs t v _ U LL H) as (c1 & E & C). rewrite E.
    rewrite (IH c1 s n); auto; [intros; apply OK; right; auto|simpl in L; lia].
Qed.

Lemma s_run_eof : forall tol acc n cs, concat cs = [] -> tol EEOF = false -> s_run tol acc (S n) cs = ([], SError EEOF).
Proof.
  intros tol acc n cs C T. cbn [s_run]. unfold sr_tl. destruct (sr_byte_none cs C) as (c1 & E & _). rewrite E. cbn [fatal]. rewrite T. auto.
Qed.

Lemma s_sends_concat : forall pkts, s_sends pkts = concat (map (@concat N) pkts).
Proof.
  assert (G : forall pkt out, s_send out pkt = out ++ concat pkt).
  { unfold s_send. induction pkt as [|b p IH]; simpl; intros out; [rewrite app_nil_r; auto|]. rewrite IH, <- app_assoc. auto. }
  assert (G2 : forall pkts out, fold_left s_send pkts out = out ++ concat (map (@concat N) pkts)).
  { induction pkts as [|p ps IH]; simpl; intros out; [rewrite app_nil_r; auto|]. rewrite IH, G, <- app_assoc. auto. }
  intros. apply G2.
Qed.
