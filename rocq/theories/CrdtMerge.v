(** Lemmas for C44: the order in which concurrent pieces of text arrive does not matter. *)
From Coq Require Import Permutation Sorting.Sorted.
From Verif Require Import Base PrimModel HeapModel HeapProofs CrdtModel CrdtSpec CrdtLinks CrdtRefine CrdtOps CrdtProofs.

Section Merge.
  Context {V : Type}.
  Implicit Types (d : doc V) (e i : entry V) (xs W P M Q blk : list (entry V)).

  Lemma ids_app : forall W Q, ids (W ++ Q) = ids W ++ ids Q. Proof. intros. apply map_app. Qed.
  Lemma uniq_pos : forall (p : entry V -> bool) W k x, NoDup (ids W) -> nth_error W k = Some x -> p x = true -> (forall y, p y = true -> e_id y = e_id x) -> last_pos p W = Some k.
  Proof.
    intros p W k x N K Px U. apply last_pos_some. split; [eauto|]. intros j y J Y. destruct (p y) eqn:Py; [|auto]. exfalso.
    assert (j = k); [|lia]. rewrite NoDup_nth_error in N. apply N.
    - unfold ids. rewrite map_length. apply nth_error_Some. congruence.
    - unfold ids. rewrite !nth_error_map, K, Y. cbn [option_map]. f_equal. auto.
  Qed.
  Lemma is_id_none : forall e, is_id None e = false. Proof. reflexivity. Qed.

  Lemma gap_at : forall P M Q o ro, NoDup (ids (P ++ M ++ Q)) -> o = option_map e_id (hd_error (rev P)) -> ro = option_map e_id (hd_error Q) ->
    lready (P ++ M ++ Q) o ro = true /\ gap_from (P ++ M ++ Q) o = length P /\ gap_of (P ++ M ++ Q) o ro = M.
  Proof.
    intros P M Q o ro N Ho Hr. set (W := P ++ M ++ Q) in *.
    assert (O : opos o W = match length P with O => None | S k => Some k end /\ is_some o = is_some (opos o W)).
    { destruct P as [|x P' _] using rev_ind.
      - subst o. cbn [rev hd_error option_map length is_some]. assert (opos None W = None) by (apply last_pos_none; auto). rewrite H. auto.
      - rewrite rev_app_distr in Ho. cbn [rev app hd_error option_map] in Ho. rewrite app_length. cbn [length]. rewrite Nat.add_1_r.
        assert (opos o W = Some (length P')).
        { unfold opos. apply uniq_pos with x; [auto| | |].
          - unfold W. rewrite <- app_assoc, nth_error_app2, Nat.sub_diag by lia. reflexivity.
          - apply is_id_iff. auto.
          - intros y Y. apply is_id_iff in Y. congruence. }
        rewrite H, Ho. auto. }
    destruct O as (O & Os).
    assert (R : rpos o ro W = match Q with [] => None | _ => Some (length P + length M)%nat end /\ is_some ro = is_some (rpos o ro W)).
    { destruct Q as [|y Q'].
      - subst ro. cbn [hd_error option_map is_some]. assert (rpos o None W = None) by (apply last_pos_none; intros; rewrite is_id_none; apply andb_false_r). rewrite H. auto.
      - cbn [hd_error option_map] in Hr. assert (rpos o ro W = Some (length P + length M)%nat).
        { unfold rpos. apply uniq_pos with y; [auto| | |].
          - unfold W. rewrite nth_error_app2 by lia. replace (length P + length M - length P)%nat with (length M) by lia. rewrite nth_error_app2, Nat.sub_diag by lia. reflexivity.
          - apply andb_true_iff. split; [|now apply is_id_iff]. apply negb_true_iff. destruct (is_id o y) eqn:I; [|auto]. exfalso. apply is_id_iff in I. subst o.
            destruct P as [|x P' _] using rev_ind; [discriminate|]. rewrite rev_app_distr in I. cbn [rev app hd_error option_map] in I. injection I as I.
            unfold W in N. rewrite !ids_app in N. cbn [ids map] in N. rewrite <- app_assoc in N. apply NoDup_remove_2 in N. apply N. rewrite I. apply in_or_app. right. cbn [app]. apply in_or_app. right. left. reflexivity.
          - intros z Z0. apply andb_true_iff in Z0. destruct Z0 as (_ & Z0). apply is_id_iff in Z0. congruence. }
        rewrite H, Hr. auto. }
    destruct R as (R & Rs).
    assert (GF : gap_from W o = length P) by (unfold gap_from; rewrite O; destruct (length P); reflexivity).
    split; [|split; [exact GF|]].
    - unfold lready. rewrite Os, Rs. destruct (is_some (opos o W)), (is_some (rpos o ro W)); reflexivity.
    - unfold gap_of. rewrite GF.
      assert (GT : gap_to W o ro = (length P + length M)%nat).
      { unfold gap_to. rewrite R, GF. destruct Q as [|y Q']; [unfold W; rewrite !app_length; cbn [length]; lia|]. destruct (Nat.leb_spec (length P) (length P + length M)); [auto|lia]. }
      rewrite GT. unfold W. rewrite skipn_app, skipn_all, Nat.sub_diag, skipn_O. cbn [app]. replace (length P + length M - length P)%nat with (length M) by lia.
      rewrite firstn_app, firstn_all, Nat.sub_diag, firstn_O, app_nil_r. reflexivity.
  Qed.

  (** a local insertion is the insertion of its own record *)
  Lemma local_is_insert : forall d xs off c d' (i : nat) x, holds d xs -> NoDup (ids xs) -> local_insert d off c = Ok (d', Some i) -> nth_error (d_heap d') i = Some x ->
    insert d (Some (it_id x)) (it_origin x) (it_rorigin x) c = Ok (d', true).
  Proof.
    intros d xs off c d' i x (l & H) N L X. change (holds_at d l xs) in H.
    destruct (local_insert_at d l xs off c H) as [(_ & _ & E)|(n & Ln & _ & E)]; rewrite E in L; [discriminate|]. injection L as <- <-.
    set (e := mkE _ _ _ c false) in *.
    assert (Ex : entry_of x = e).
    { pose proof (placed_holds d l xs n e H) as (_ & PE). pose proof (ents_nth _ _ _ (length (firstn n l)) PE) as Q. rewrite nth_error_app2, Nat.sub_diag in Q by lia. cbn [nth_error option_map] in Q.
      unfold put in Q. assert (length (firstn n l) = length (firstn n xs)) as LL by (rewrite !firstn_length; destruct H as (_ & E'); apply ents_length in E'; lia).
      rewrite LL, nth_error_app2, Nat.sub_diag in Q by lia. cbn [nth_error option_map] in Q. apply some_inj in Q.
      change (d_heap (with_clock (placed d l n e) ((d_clock d + 1) mod two64)%N)) with (d_heap (placed d l n e)) in X. rewrite X in Q. cbn [option_map] in Q. apply some_inj in Q. auto. }
    assert (I1 : it_id x = (d_producer d, d_clock d)) by exact (f_equal e_id Ex).
    assert (I2 : it_origin x = left_id xs n) by exact (f_equal e_origin Ex).
    assert (I3 : it_rorigin x = id_at xs n) by exact (f_equal e_rorigin Ex).
    rewrite I1, I2, I3. rewrite (insert_refines d l xs _ _ _ c H).
    rewrite left_id_rev, id_at_skipn by auto.
    assert (EQ : xs = firstn n xs ++ [] ++ skipn n xs) by (cbn [app]; now rewrite firstn_skipn).
    destruct (gap_at (firstn n xs) [] (skipn n xs) (id_before xs n) (id_after xs n)) as (G1 & G2 & G3); [now rewrite <- EQ|reflexivity|reflexivity|].
    rewrite <- EQ in G1, G2, G3. rewrite G1, G2, G3. cbn [lscan]. rewrite firstn_length, Nat.min_l, Nat.add_0_r by lia. cbn [snd]. rewrite N.max_id.
    unfold e. rewrite left_id_rev, id_at_skipn by auto. reflexivity.
  Qed.

  (** ** Pieces of text *)
  Local Notation block := (nat * list (entry V))%type.
  Implicit Types bs : list block.
  Definition at_gap (n : nat) bs : list (entry V) := concat (map snd (filter (fun b => (fst b =? n)%nat) bs)).
  Fixpoint weave (n : nat) xs bs : list (entry V) :=
    at_gap n bs ++ match xs with [] => [] | x :: r => x :: weave (S n) r bs end.
  Fixpoint front (n : nat) xs bs : list (entry V) := match xs with [] => [] | x :: r => at_gap n bs ++ x :: front (S n) r bs end.
  Definition back (n : nat) xs bs : list (entry V) := match xs with [] => [] | x :: r => x :: weave n r bs end.

  Lemma at_gap_app : forall n b1 b2, at_gap n (b1 ++ b2) = at_gap n b1 ++ at_gap n b2.
  Proof. intros. unfold at_gap. now rewrite filter_app, map_app, concat_app. Qed.
  Lemma weave_split : forall k n xs bs, (k <= length xs)%nat -> weave n xs bs = front n (firstn k xs) bs ++ at_gap (n + k) bs ++ back (S (n + k)) (skipn k xs) bs.
  Proof.
    induction k as [|k IH]; intros n xs bs L.
    - rewrite Nat.add_0_r. destruct xs; reflexivity.
    - destruct xs as [|x r]; [cbn [length] in L; lia|]. cbn [weave firstn front skipn]. cbn [length] in L. rewrite (IH (S n) r bs) by lia. rewrite <- app_assoc. cbn [app]. rewrite Nat.add_succ_r. reflexivity.
  Qed.
  Lemma front_ext : forall xs n bs bs', (forall j, (j < n + length xs)%nat -> at_gap j bs = at_gap j bs') -> front n xs bs = front n xs bs'.
  Proof.
    induction xs as [|x r IH]; intros n bs bs' H; [reflexivity|]. cbn [front length] in *. rewrite (H n) by lia. do 2 f_equal. apply IH. intros. apply H. lia.
  Qed.
  Lemma weave_ext : forall xs n bs bs', (forall j, (n <= j)%nat -> at_gap j bs = at_gap j bs') -> weave n xs bs = weave n xs bs'.
  Proof. induction xs as [|x r IH]; intros n bs bs' H; cbn [weave]; rewrite (H n) by lia; [auto|]. do 2 f_equal. apply IH. intros. apply H. lia. Qed.
  Lemma back_ext : forall xs n bs bs', (forall j, (n <= j)%nat -> at_gap j bs = at_gap j bs') -> back n xs bs = back n xs bs'.
  Proof. intros [|x r] n bs bs' H; [auto|]. cbn [back]. f_equal. now apply weave_ext. Qed.
  Lemma rev_front : forall xs n bs, hd_error (rev (front n xs bs)) = hd_error (rev xs).
  Proof.
    induction xs as [|x r IH]; intros n bs; [reflexivity|]. cbn [front]. rewrite rev_app_distr. cbn [rev]. specialize (IH (S n) bs).
    destruct (rev (front (S n) r bs)), (rev r); cbn [hd_error app] in *; congruence.
  Qed.
  Lemma hd_back : forall xs n bs, hd_error (back n xs bs) = hd_error xs. Proof. intros [|]; reflexivity. Qed.

  (** passing over the items of a smaller producer *)
  Lemma lscan_follow : forall i ro p blk rest prev k before, typed (Some prev) ro p blk -> In prev before -> NoDup (prev :: ids blk) ->
    (forall x, x = prev \/ In x (ids blk) -> e_origin i <> Some x) ->
    lscan (blk ++ rest) i k k [] before = lscan rest i (k + length blk) (k + length blk) [] (rev (ids blk) ++ before).
  Proof.
    intros i ro p; induction blk as [|y blk IH]; intros rest prev k before T I N O; [cbn [app length ids map rev]; now rewrite Nat.add_0_r|].
    destruct T as (T1 & T2 & T3 & T4 & T). cbn [app lscan]. rewrite T1.
    replace (oid_eqb (e_origin i) (Some prev)) with false.
    2:{ symmetry. destruct (oid_eqb (e_origin i) (Some prev)) eqn:E; [|auto]. apply oid_eqb_iff in E. exfalso. apply (O prev); auto. }
    replace (mem prev (e_id y :: before)) with true by (symmetry; apply mem_iff; now right).
    inversion N as [|? ? N1 N2]; subst. cbn [ids map] in N1, N2.
    replace (negb (mem prev [e_id y])) with true.
    2:{ symmetry. apply negb_true_iff. destruct (mem prev [e_id y]) eqn:E; [|auto]. apply mem_iff in E. exfalso. apply N1. destruct E as [E|[]]. now left. }
    rewrite (IH rest (e_id y) (S k) (e_id y :: before)); [|exact T|now left|exact N2|].
    - cbn [length ids map rev]. rewrite <- app_assoc. cbn [app]. replace (S k + length blk)%nat with (k + S (length blk))%nat by lia. reflexivity.
    - intros x [->|X]; apply O; right; cbn [ids map]; [now left|now right].
  Qed.
  Lemma lscan_pass : forall i o ro p blk rest k best conf before, typed o ro p blk -> e_origin i = o -> (p < fst (e_id i))%N -> NoDup (ids blk) -> (forall x, In x (ids blk) -> o <> Some x) -> blk <> [] ->
    exists before', lscan (blk ++ rest) i k best conf before = lscan rest i (k + length blk) (k + length blk) [] before'.
  Proof.
    intros i o ro p [|y blk] rest k best conf before T E L N O Nn; [contradiction|]. destruct T as (T1 & T2 & T3 & T4 & T). cbn [app lscan].
    replace (oid_eqb (e_origin i) (e_origin y)) with true by (symmetry; apply oid_eqb_iff; congruence). replace (fst (e_id y) <? fst (e_id i))%N with true by (symmetry; apply N.ltb_lt; lia).
    eexists. rewrite (lscan_follow i ro p blk rest (e_id y) (S k) _ T).
    - cbn [length]. replace (S k + length blk)%nat with (k + S (length blk))%nat by lia. reflexivity.
    - now left.
    - exact N.
    - intros x X. rewrite E. apply O. destruct X as [->|X]; [now left|now right].
  Qed.
  Lemma lscan_stop : forall i o ro p blk rest k best conf before, typed o ro p blk -> e_origin i = o -> e_rorigin i = ro -> (fst (e_id i) <= p)%N -> blk <> [] ->
    lscan (blk ++ rest) i k best conf before = Some best.
  Proof.
    intros i o ro p [|y blk] rest k best conf before T E R L Nn; [contradiction|]. destruct T as (T1 & T2 & T3 & T4 & T). cbn [app lscan].
    replace (oid_eqb (e_origin i) (e_origin y)) with true by (symmetry; apply oid_eqb_iff; congruence).
    replace (oid_eqb (e_rorigin i) (e_rorigin y)) with true by (symmetry; apply oid_eqb_iff; congruence).
    replace (fst (e_id y) <? fst (e_id i))%N with false by (symmetry; apply N.ltb_ge; lia). reflexivity.
  Qed.

  (** the state of the pieces while they arrive *)
  Record wst : Type := mkW { w_place : nat; w_prod : N; w_done : list (entry V); w_todo : list (entry V) }.
  Definition blocks (ws : list wst) : list block := map (fun w => (w_place w, w_done w)) ws.
  Definition w_ok xs (w : wst) : Prop :=
    (w_place w <= length xs)%nat /\ typed (id_before xs (w_place w)) (id_after xs (w_place w)) (w_prod w) (w_done w ++ w_todo w) /\
    (w_place w = O -> (length (w_done w ++ w_todo w) <= 1)%nat).
  Lemma typed_app : forall o ro p (a b : list (entry V)), typed o ro p (a ++ b) -> typed o ro p a /\ typed (match rev a with [] => o | y :: _ => Some (e_id y) end) ro p b.
  Proof.
    intros o ro p a; revert o; induction a as [|x a IH]; intros o b T; [split; [exact I|exact T]|]. destruct T as (T1 & T2 & T3 & T4 & T).
    destruct (IH _ _ T) as (A & B). split; [split; [auto|]; split; [auto|]; split; [auto|]; split; auto|].
    cbn [rev]. destruct (rev a); exact B.
  Qed.
  Lemma concat_split_gap : forall (n : nat) (ws1 ws2 : list wst) w, w_place w = n -> at_gap n (blocks (ws1 ++ w :: ws2)) = at_gap n (blocks ws1) ++ w_done w ++ at_gap n (blocks ws2).
  Proof.
    intros n ws1 ws2 w E. unfold blocks. rewrite map_app, at_gap_app. f_equal. cbn [map]. unfold at_gap. cbn [filter fst]. rewrite E, Nat.eqb_refl. reflexivity.
  Qed.
  Lemma other_gap : forall (j : nat) (ws1 ws2 : list wst) (w w' : wst), w_place w = w_place w' -> j <> w_place w -> at_gap j (blocks (ws1 ++ w :: ws2)) = at_gap j (blocks (ws1 ++ w' :: ws2)).
  Proof.
    intros j ws1 ws2 w w' E J. unfold blocks. rewrite !map_app, !at_gap_app. f_equal. cbn [map]. unfold at_gap. cbn [filter fst]. rewrite <- E.
    destruct (w_place w =? j)%nat eqn:F; [apply Nat.eqb_eq in F; congruence|reflexivity].
  Qed.

  Lemma at_gap_cons : forall n w (ws : list wst), at_gap n (blocks (w :: ws)) = (if (w_place w =? n)%nat then w_done w else []) ++ at_gap n (blocks ws).
  Proof. intros. unfold at_gap. cbn [blocks map filter fst]. destruct (w_place w =? n)%nat; reflexivity. Qed.

  Lemma lscan_small : forall xs n i ws k best conf before, (forall w, In w ws -> w_ok xs w) -> e_origin i = id_before xs n -> (forall w, In w ws -> (w_prod w < fst (e_id i))%N) ->
    NoDup (ids (at_gap n (blocks ws))) -> (forall x, In x (ids (at_gap n (blocks ws))) -> e_origin i <> Some x) -> best = k ->
    forall rest, exists conf' before', lscan (at_gap n (blocks ws) ++ rest) i k best conf before = lscan rest i (k + length (at_gap n (blocks ws))) (k + length (at_gap n (blocks ws))) conf' before'.
  Proof.
    intros xs n i; induction ws as [|w ws IH]; intros k best conf before OK Oi Sm ND NO -> rest.
    - unfold at_gap. cbn [blocks map filter concat app length]. rewrite Nat.add_0_r. eauto.
    - rewrite at_gap_cons in *. destruct (w_place w =? n)%nat eqn:F.
      + apply Nat.eqb_eq in F. rewrite ids_app in ND, NO. destruct (nodup_app _ _ ND) as (ND1 & ND2).
        destruct (OK w (or_introl eq_refl)) as (_ & T & _). apply typed_app in T. destruct T as (T & _). rewrite F in T.
        rewrite <- app_assoc. destruct (w_done w) as [|y blk] eqn:Dn.
        * cbn [app length]. apply IH; auto; [intros; apply OK; now right|intros; apply Sm; now right].
        * rewrite <- Dn in *. destruct (lscan_pass i (id_before xs n) _ (w_prod w) (w_done w) (at_gap n (blocks ws) ++ rest) k k conf before T Oi) as (bf & E).
          { apply Sm. now left. } { exact ND1. } { intros x X. rewrite <- Oi. apply NO. apply in_or_app. now left. } { rewrite Dn; discriminate. }
          rewrite E. destruct (IH (k + length (w_done w))%nat (k + length (w_done w))%nat [] bf) with (rest := rest) as (c' & b' & E2); auto.
          { intros; apply OK; now right. } { intros; apply Sm; now right. } { intros x X. apply NO. apply in_or_app. now right. }
          rewrite E2. exists c', b'. rewrite app_length. f_equal; lia.
      + cbn [app] in *. apply IH; auto; [intros; apply OK; now right|intros; apply Sm; now right].
  Qed.
  Lemma lscan_large : forall xs n i ws k best conf before, (forall w, In w ws -> w_ok xs w) -> e_origin i = id_before xs n -> e_rorigin i = id_after xs n -> (forall w, In w ws -> (fst (e_id i) <= w_prod w)%N) ->
    lscan (at_gap n (blocks ws)) i k best conf before = Some best.
  Proof.
    intros xs n i; induction ws as [|w ws IH]; intros k best conf before OK Oi Ri Lg; [reflexivity|].
    rewrite at_gap_cons. destruct (w_place w =? n)%nat eqn:F.
    - apply Nat.eqb_eq in F. destruct (OK w (or_introl eq_refl)) as (_ & T & _). apply typed_app in T. destruct T as (T & _). rewrite F in T.
      destruct (w_done w) as [|y blk] eqn:Dn; [cbn [app]; apply IH; auto; intros; [apply OK|apply Lg]; now right|].
      rewrite <- Dn in *. apply (lscan_stop i (id_before xs n) (id_after xs n) (w_prod w)); auto; [apply Lg; now left|rewrite Dn; discriminate].
    - cbn [app] in *. apply IH; auto; intros; [apply OK|apply Lg]; now right.
  Qed.
  (** an item following its predecessor stops at once *)
  Lemma lscan_own : forall xs n i prev ws, (0 < n)%nat -> (n <= length xs)%nat -> (forall w, In w ws -> w_ok xs w) -> e_origin i = Some prev -> id_before xs n <> Some prev ->
    (forall x, In x (ids (at_gap n (blocks ws))) -> id_before xs n <> Some x) ->
    lscan (at_gap n (blocks ws)) i 0 0 [] [] = Some O.
  Proof.
    intros xs n i prev ws Hn Hl; induction ws as [|w ws IH]; intros OK Oi Np NO; [reflexivity|].
    rewrite at_gap_cons in *. destruct (w_place w =? n)%nat eqn:F; [|cbn [app] in *; apply IH; auto; intros; apply OK; now right].
    apply Nat.eqb_eq in F. destruct (OK w (or_introl eq_refl)) as (_ & T & _). apply typed_app in T. destruct T as (T & _). rewrite F in T.
    destruct (w_done w) as [|y blk] eqn:Dn; [cbn [app] in *; apply IH; auto; intros; apply OK; now right|].
    destruct T as (T1 & _). cbn [app lscan]. rewrite T1, Oi.
    replace (oid_eqb (Some prev) (id_before xs n)) with false.
    2:{ symmetry. destruct (oid_eqb (Some prev) (id_before xs n)) eqn:E; [|auto]. apply oid_eqb_iff in E. congruence. }
    destruct (id_before xs n) as [oo|] eqn:IB.
    - replace (mem oo [e_id y]) with false; [reflexivity|]. symmetry. destruct (mem oo [e_id y]) eqn:E; [|auto]. apply mem_iff in E. destruct E as [E|[]]. exfalso. apply (NO (e_id y)); [left; reflexivity|congruence].
    - exfalso. rewrite <- left_id_rev in IB by auto. destruct n; [lia|]. cbn [left_id] in IB. unfold id_at in IB. destruct (nth_error xs n) eqn:X; [discriminate|]. apply nth_error_None in X. lia.
  Qed.

  (** one item arrives *)
  Lemma arrive : forall xs ws1 w e todo ws2, (forall v, In v (ws1 ++ w :: ws2) -> w_ok xs v) -> w_todo w = e :: todo ->
    (forall v, In v ws1 -> (w_prod v < w_prod w)%N) -> (forall v, In v ws2 -> (w_prod w < w_prod v)%N) ->
    let W := weave 0 xs (blocks (ws1 ++ w :: ws2)) in
    NoDup (e_id e :: ids W) ->
    let w' := mkW (w_place w) (w_prod w) (w_done w ++ [e]) todo in
    exists k, lready W (e_origin e) (e_rorigin e) = true /\ lscan (gap_of W (e_origin e) (e_rorigin e)) e 0 0 [] [] = Some k /\
      put W (gap_from W (e_origin e) + k) e = weave 0 xs (blocks (ws1 ++ w' :: ws2)).
  Proof.
    intros xs ws1 w e todo ws2 OK TD P1 P2 W ND w'. pose proof (OK w (in_elt _ _ _)) as (Ln & T & One). set (n := w_place w) in *.
    assert (NDW : NoDup (ids W)) by now inversion ND.
    set (A := front 0 (firstn n xs) (blocks (ws1 ++ w :: ws2))). set (B := back (S n) (skipn n xs) (blocks (ws1 ++ w :: ws2))).
    set (G1 := at_gap n (blocks ws1)). set (G2 := at_gap n (blocks ws2)).
    assert (EW : W = A ++ (G1 ++ w_done w ++ G2) ++ B).
    { unfold W. rewrite (weave_split n 0 xs _ Ln). cbn [Nat.add]. rewrite (concat_split_gap n ws1 ws2 w eq_refl). reflexivity. }
    assert (EW' : weave 0 xs (blocks (ws1 ++ w' :: ws2)) = A ++ (G1 ++ (w_done w ++ [e]) ++ G2) ++ B).
    { rewrite (weave_split n 0 xs _ Ln). cbn [Nat.add]. rewrite (concat_split_gap n ws1 ws2 w' eq_refl). cbn [w' w_done]. unfold A, B. f_equal; [|f_equal].
      - symmetry. apply front_ext. intros j J. rewrite firstn_length in J. apply other_gap; [reflexivity|]. fold n. lia.
      - symmetry. apply back_ext. intros j J. apply other_gap; [reflexivity|]. fold n. lia. }
    assert (HA : option_map e_id (hd_error (rev A)) = id_before xs n) by (unfold A; rewrite rev_front; reflexivity).
    assert (HB : option_map e_id (hd_error B) = id_after xs n) by (unfold B; rewrite hd_back; reflexivity).
    assert (IA : forall x, id_before xs n = Some x -> In x (ids A)).
    { intros x X. rewrite <- HA in X. destruct (rev A) as [|y r] eqn:R; [discriminate|]. cbn [hd_error option_map] in X. injection X as <-. apply in_map. apply in_rev. rewrite R. now left. }
    rewrite TD in T. apply typed_app in T. destruct T as (Td & Te). destruct Te as (To & Tr & Tp & Tdel & _).
    assert (OK1 : forall v, In v ws1 -> w_ok xs v) by (intros; apply OK; apply in_or_app; now left).
    assert (OK2 : forall v, In v ws2 -> w_ok xs v) by (intros; apply OK; apply in_or_app; right; now right).
    pose proof NDW as ND0. rewrite EW, !ids_app in ND0.
    destruct (w_done w) as [|y blk] eqn:Dn.
    - (* the first item of its piece *)
      cbn [rev] in To. cbn [app] in *.
      assert (EW2 : W = A ++ (G1 ++ G2) ++ B) by exact EW.
      assert (NDG : NoDup (ids (A ++ (G1 ++ G2) ++ B))) by (rewrite <- EW2; exact NDW).
      destruct (gap_at A (G1 ++ G2) B (e_origin e) (e_rorigin e) NDG) as (R1 & R2 & R3); [congruence|congruence|]. rewrite <- EW2 in R1, R2, R3.
      assert (NA : forall x, In x (ids G1) -> e_origin e <> Some x).
      { intros x X Ox. rewrite To in Ox. apply IA in Ox. apply (in_split) in Ox. destruct Ox as (u & v & Ov). rewrite Ov in ND0. rewrite <- app_assoc in ND0. cbn [app] in ND0. apply NoDup_remove_2 in ND0. apply ND0.
        apply in_or_app. right. apply in_or_app. right. apply in_or_app. left. apply in_or_app. now left. }
      destruct (lscan_small xs n e ws1 0 0 [] [] OK1 To) with (rest := G2) as (c' & b' & E1).
      { intros v Iv. rewrite Tp. auto. }
      { apply nodup_app in ND0. destruct ND0 as (_ & ND0). apply nodup_app in ND0. destruct ND0 as (ND0 & _). apply nodup_app in ND0. exact (proj1 ND0). }
      { exact NA. } { reflexivity. }
      fold G1 in E1. cbn [Nat.add] in E1. exists (length G1). split; [exact R1|]. split.
      + rewrite R3, E1. apply (lscan_large xs n e ws2); [exact OK2|exact To|exact Tr|]. intros v Iv. rewrite Tp. specialize (P2 v Iv). lia.
      + rewrite EW', R2, EW2. cbn [app]. unfold put. rewrite !app_assoc. rewrite <- (app_assoc (A ++ G1)). rewrite <- app_length, firstn_app, skipn_app, firstn_all, skipn_all, Nat.sub_diag, firstn_O, skipn_O, app_nil_r. cbn [app].
        rewrite <- !app_assoc. reflexivity.
    - (* a later item *)
      rewrite <- Dn in *.
      assert (Hn : (0 < n)%nat).
      { destruct n as [|n']; [|lia]. specialize (One eq_refl). rewrite TD, app_length, Dn in One. cbn [length] in One. lia. }
      assert (HR : exists z r, rev (w_done w) = z :: r).
      { destruct (rev (w_done w)) as [|z r] eqn:R; [|eauto]. apply (f_equal (@rev _)) in R. rewrite rev_involutive in R. rewrite R in Dn. discriminate. }
      destruct HR as (z & r & HR). rewrite HR in To.
      set (PP := A ++ G1 ++ w_done w).
      assert (EW2 : W = PP ++ G2 ++ B) by (rewrite EW; unfold PP; now rewrite <- !app_assoc).
      assert (HP : option_map e_id (hd_error (rev PP)) = e_origin e).
      { unfold PP. rewrite !rev_app_distr, HR. rewrite To. reflexivity. }
      assert (Iz : In (e_id z) (ids (w_done w))) by (apply in_map; apply in_rev; rewrite HR; now left).
      assert (NDG : NoDup (ids (PP ++ G2 ++ B))) by (rewrite <- EW2; exact NDW).
      destruct (gap_at PP G2 B (e_origin e) (e_rorigin e) NDG) as (R1 & R2 & R3); [congruence|congruence|]. rewrite <- EW2 in R1, R2, R3.
      assert (DA : forall x, In x (ids A) -> ~ In x (ids G1 ++ ids (w_done w) ++ ids G2)).
      { intros x X I. apply in_split in X. destruct X as (u & v & Ov). rewrite Ov in ND0. rewrite <- app_assoc in ND0. cbn [app] in ND0. apply NoDup_remove_2 in ND0. apply ND0.
        apply in_or_app. right. apply in_or_app. right. apply in_or_app. left. exact I. }
      exists O. split; [exact R1|]. split.
      + rewrite R3. apply (lscan_own xs n e (e_id z) ws2); auto.
        * intros X. apply IA in X. apply (DA _ X). apply in_or_app. right. apply in_or_app. now left.
        * intros x X Ox. apply IA in Ox. apply (DA _ Ox). apply in_or_app. right. apply in_or_app. now right.
      + rewrite EW', R2, EW2, Nat.add_0_r. unfold put. rewrite firstn_app, skipn_app, firstn_all, skipn_all, Nat.sub_diag, firstn_O, skipn_O, app_nil_r. cbn [app].
        unfold PP. rewrite <- !app_assoc. reflexivity.
  Qed.

  (** ** Whole deliveries *)
  Lemma weave_map : forall (f : entry V -> entry V) xs n bs, map f (weave n xs bs) = weave n (map f xs) (map (fun b => (fst b, map f (snd b))) bs).
  Proof.
    assert (A : forall (f : entry V -> entry V) n bs, map f (at_gap n bs) = at_gap n (map (fun b => (fst b, map f (snd b))) bs)).
    { intros f n; induction bs as [|[m b] bs IH]; [reflexivity|]. unfold at_gap in *. cbn [map filter fst]. destruct (m =? n)%nat; [|exact IH]. cbn [map snd concat]. rewrite map_app, IH. reflexivity. }
    intros f; induction xs as [|x r IH]; intros n bs; cbn [weave map]; rewrite map_app, A; [reflexivity|]. cbn [map]. now rewrite IH.
  Qed.
  Lemma weave_none : forall xs n bs, (forall b, In b bs -> snd b = []) -> weave n xs bs = xs.
  Proof.
    assert (A : forall bs n, (forall b, In b bs -> snd b = []) -> at_gap n bs = []).
    { induction bs as [|[m b] bs IH]; intros n H; [reflexivity|]. unfold at_gap in *. cbn [filter fst]. destruct (m =? n)%nat; cbn [map snd concat]; [specialize (H (m, b) (or_introl eq_refl)) as E; cbn [snd] in E; rewrite E; cbn [app]|]; apply IH; intros; apply H; now right. }
    induction xs as [|x r IH]; intros n bs H; cbn [weave]; rewrite (A bs n H); [reflexivity|]. cbn [app]. now rewrite IH.
  Qed.
  Lemma weave_within : forall xs n bs, within xs (weave n xs bs).
  Proof.
    assert (A : forall (g a b : list (entry V)), within a b -> within a (g ++ b)) by (induction g; intros; cbn [app]; [auto|constructor 3; auto]).
    induction xs as [|x r IH]; intros n bs; cbn [weave]; apply A; [constructor|constructor 2; apply IH].
  Qed.
  Lemma weave_perm : forall bs xs, (forall b, In b bs -> (fst b <= length xs)%nat) -> Permutation (weave 0 xs bs) (xs ++ concat (map snd bs)).
  Proof.
    induction bs as [|[p blk] bs IH]; intros xs H.
    - rewrite weave_none by (intros b []). cbn [map concat]. now rewrite app_nil_r.
    - assert (Lp : (p <= length xs)%nat) by (apply (H (p, blk)); now left).
      assert (IH' : Permutation (weave 0 xs bs) (xs ++ concat (map snd bs))) by (apply IH; intros; apply H; now right).
      rewrite (weave_split p 0 xs ((p, blk) :: bs) Lp). rewrite (weave_split p 0 xs bs Lp) in IH'. cbn [Nat.add] in *.
      replace (at_gap p ((p, blk) :: bs)) with (blk ++ at_gap p bs) by (unfold at_gap; cbn [filter fst]; rewrite Nat.eqb_refl; reflexivity).
      assert (O : forall j, j <> p -> at_gap j ((p, blk) :: bs) = at_gap j bs).
      { intros j J. unfold at_gap. cbn [filter fst]. destruct (p =? j)%nat eqn:F; [apply Nat.eqb_eq in F; congruence|reflexivity]. }
      rewrite (front_ext _ 0 ((p, blk) :: bs) bs) by (intros j J; apply O; rewrite firstn_length in J; lia).
      rewrite (back_ext _ (S p) ((p, blk) :: bs) bs) by (intros j J; apply O; lia).
      cbn [map snd concat]. rewrite <- app_assoc. eapply perm_trans; [apply Permutation_app_swap_app|]. eapply perm_trans; [apply Permutation_app_head; exact IH'|]. apply Permutation_app_swap_app.
  Qed.

  Lemma ids_hide : forall g xs, ids (map (hide_ids g) xs) = ids xs.
  Proof. intros. unfold ids. rewrite map_map. apply map_ext. intros e. unfold hide_ids. destruct (mem _ _); reflexivity. Qed.
  Lemma before_hide : forall g xs n, id_before (map (hide_ids g) xs) n = id_before xs n.
  Proof.
    intros. unfold id_before. rewrite firstn_map, <- map_rev. destruct (rev (firstn n xs)) as [|e r]; [reflexivity|]. cbn [map hd_error option_map]. unfold hide_ids. destruct (mem _ _); reflexivity.
  Qed.
  Lemma after_hide : forall g xs n, id_after (map (hide_ids g) xs) n = id_after xs n.
  Proof. intros. unfold id_after. rewrite skipn_map. destruct (skipn n xs) as [|e r]; [reflexivity|]. cbn [map hd_error option_map]. unfold hide_ids. destruct (mem _ _); reflexivity. Qed.
  Lemma w_ok_hide : forall g xs w, w_ok xs w -> w_ok (map (hide_ids g) xs) w.
  Proof. intros g xs w (A & B & C). unfold w_ok. rewrite map_length, before_hide, after_hide. auto. Qed.
  Lemma hide_ids_ext : forall g g' e, (forall id, In id g <-> In id g') -> hide_ids g e = hide_ids g' e.
  Proof.
    intros g g' e H. unfold hide_ids. replace (mem (e_id e) g) with (mem (e_id e) g'); [reflexivity|].
    destruct (mem (e_id e) g) eqn:A, (mem (e_id e) g') eqn:B; auto; [apply mem_iff, H, mem_iff in A|apply mem_iff, H, mem_iff in B]; congruence.
  Qed.
  Lemma hide_ids_more : forall id g e, hide_ids [id] (hide_ids g e) = hide_ids (id :: g) e.
  Proof.
    intros id g e. unfold hide_ids. cbn [mem existsb]. rewrite orb_false_r. fold (mem (e_id e) g).
    destruct (mem (e_id e) g) eqn:A; cbn [hidden e_id]; destruct (id_eqb (e_id e) id); cbn [orb]; try reflexivity; now destruct e.
  Qed.
  Lemma hide_other : forall g xs, (forall x, In x (ids xs) -> ~ In x g) -> map (hide_ids g) xs = xs.
  Proof.
    intros g xs H. rewrite <- (map_id xs) at 2. apply map_ext_in. intros e I. unfold hide_ids. destruct (mem (e_id e) g) eqn:M; [|reflexivity].
    apply mem_iff in M. exfalso. apply (H (e_id e)); [apply in_map; auto|auto].
  Qed.

  Definition final (ws : list wst) : list block := map (fun w => (w_place w, w_done w ++ w_todo w)) ws.
  Definition by_producer (v w : wst) : Prop := (w_prod v < w_prod w)%N.
  Lemma sorted_split : forall (ws1 ws2 : list wst) w, StronglySorted by_producer (ws1 ++ w :: ws2) -> (forall v, In v ws1 -> (w_prod v < w_prod w)%N) /\ (forall v, In v ws2 -> (w_prod w < w_prod v)%N).
  Proof.
    induction ws1 as [|u ws1 IH]; intros ws2 w S; cbn [app] in S; inversion S as [|? ? S1 F]; subst.
    - split; [intros v []|]. rewrite Forall_forall in F. exact F.
    - destruct (IH ws2 w S1) as (A & B). split; [|exact B]. intros v [<-|I]; [|auto]. rewrite Forall_forall in F. apply F. apply in_elt.
  Qed.
  Lemma sorted_replace : forall (ws1 ws2 : list wst) w w', w_prod w = w_prod w' -> StronglySorted by_producer (ws1 ++ w :: ws2) -> StronglySorted by_producer (ws1 ++ w' :: ws2).
  Proof.
    induction ws1 as [|u ws1 IH]; intros ws2 w w' E S; cbn [app] in *; inversion S as [|? ? S1 F]; subst.
    - constructor; [auto|]. rewrite Forall_forall in *. intros v I. unfold by_producer. rewrite <- E. exact (F v I).
    - constructor; [eapply IH; eauto|]. rewrite Forall_forall in *. intros v I. apply in_app_iff in I. destruct I as [I|[<-|I]]; [apply F; apply in_or_app; now left| |apply F; apply in_or_app; right; now right].
      unfold by_producer. rewrite <- E. exact (F w (in_elt _ _ _)).
  Qed.
  Lemma il_inv : forall {A} (ls : list (list A)) x es, interleaves ls (x :: es) -> exists l1 l l2, ls = l1 ++ (x :: l) :: l2 /\ interleaves (l1 ++ l :: l2) es.
  Proof. intros A ls x es H. inversion H; subst. eauto 6. Qed.
  Lemma holds_clock : forall d xs c, holds d xs -> holds (with_clock d c) xs. Proof. intros d xs c H. exact H. Qed.
  Lemma put_perm : forall W n e, Permutation (put W n e) (e :: W).
  Proof. intros. unfold put. rewrite <- (firstn_skipn n W) at 3. symmetry. apply Permutation_middle. Qed.

  Lemma deliver_all : forall xs vs ws gone d, holds d (weave 0 (map (hide_ids gone) xs) (blocks ws)) -> (forall w, In w ws -> w_ok xs w) -> StronglySorted by_producer ws ->
    NoDup (ids (weave 0 (map (hide_ids gone) xs) (blocks ws)) ++ ids (concat (map w_todo ws))) -> (forall x, In x (ids (concat (map w_done ws ++ map w_todo ws))) -> ~ In x (ids xs)) -> 
    interleaves (map w_todo ws) (new_items vs) -> (forall id, In (EDel id) vs -> In id (ids xs)) ->
    exists d', deliver d vs = Ok d' /\
      forall g, (forall id, In id g <-> In id gone \/ In (EDel id) vs) -> holds d' (weave 0 (map (hide_ids g) xs) (final ws)).
  Proof.
    intros xs; induction vs as [|v vs IH]; intros ws gone d H OK So ND Out IL DL.
    - exists d. split; [reflexivity|]. intros g Hg. cbn [new_items flat_map] in IL. inversion IL as [ls E|]; subst.
      replace (map (hide_ids g) xs) with (map (hide_ids gone) xs) by (apply map_ext; intros e; apply hide_ids_ext; intros id; rewrite Hg; cbn [In]; tauto).
      replace (final ws) with (blocks ws); [exact H|]. apply map_ext_in. intros w I. rewrite (E (w_todo w)) by (apply in_map; auto). now rewrite app_nil_r.
    - destruct v as [e|id].
      + cbn [new_items flat_map app] in IL. apply il_inv in IL. destruct IL as (l1 & l & l2 & EL & IL).
        apply map_eq_app in EL. destruct EL as (ws1 & wr & -> & <- & EL). destruct wr as [|w ws2]; [discriminate|]. cbn [map] in EL. injection EL as Tw <-.
        destruct (sorted_split ws1 ws2 w So) as (P1 & P2).
        set (xs' := map (hide_ids gone) xs) in *. set (W := weave 0 xs' (blocks (ws1 ++ w :: ws2))) in *.
        assert (NDe : NoDup (e_id e :: ids W)).
        { rewrite map_app in ND. cbn [map] in ND. rewrite concat_app in ND. cbn [concat] in ND. rewrite Tw in ND.
          apply Permutation_NoDup with (l' := e_id e :: (ids W ++ ids (concat (map w_todo ws1) ++ l ++ concat (map w_todo ws2)))) in ND.
          - change (e_id e :: ids W ++ ids (concat (map w_todo ws1) ++ l ++ concat (map w_todo ws2))) with ((e_id e :: ids W) ++ ids (concat (map w_todo ws1) ++ l ++ concat (map w_todo ws2))) in ND. exact (proj1 (nodup_app _ _ ND)).
          - rewrite !ids_app. cbn [ids map app]. symmetry. rewrite app_assoc. eapply perm_trans; [apply Permutation_middle|]. rewrite <- app_assoc. apply Permutation_refl. }
        destruct (arrive xs' ws1 w e l ws2) as (k & R1 & R2 & R3); [intros u Iu; apply w_ok_hide; auto|auto|exact P1|exact P2|exact NDe|]. fold W in R1, R2, R3.
        set (w' := mkW (w_place w) (w_prod w) (w_done w ++ [e]) l) in *.
        assert (De : e_deleted e = false).
        { destruct (OK w (in_elt _ _ _)) as (_ & T & _). rewrite Tw in T. apply typed_app in T. destruct T as (_ & T). destruct T as (_ & _ & _ & T & _). exact T. }
        destruct H as (la & Ha). change (holds_at d la W) in Ha.
        assert (Ee : mkE (e_id e) (e_origin e) (e_rorigin e) (e_content e) false = e) by (rewrite <- De; destruct e; reflexivity).
        cbn [deliver apply_event]. rewrite (insert_refines d la W _ _ _ _ Ha), R1, Ee, R2. cbn [bind fst snd].
        set (d1 := with_clock _ _).
        assert (H1 : holds d1 (weave 0 xs' (blocks (ws1 ++ w' :: ws2)))).
        { rewrite <- R3. apply holds_clock. eexists. exact (placed_holds d la W _ e Ha). }
        destruct (IH (ws1 ++ w' :: ws2) gone d1 H1) as (d' & C & F).
        * intros u Iu. apply in_app_iff in Iu. destruct Iu as [Iu|[<-|Iu]]; [apply OK; apply in_or_app; now left| |apply OK; apply in_or_app; right; now right].
          destruct (OK w (in_elt _ _ _)) as (A & B & C). unfold w_ok. cbn [w' w_place w_prod w_done w_todo]. rewrite <- app_assoc. cbn [app]. rewrite Tw in B, C. auto.
        * eapply sorted_replace; [|exact So]. reflexivity.
        * fold xs'. rewrite <- R3. eapply Permutation_NoDup; [|exact ND].
          rewrite !map_app. cbn [map]. rewrite !concat_app. cbn [concat]. rewrite Tw. cbn [w' w_todo]. rewrite !ids_app. cbn [ids map app].
          unfold ids at 4. rewrite (Permutation_map e_id (put_perm W _ e)). cbn [map app]. fold (ids W).
          rewrite app_assoc. symmetry. eapply perm_trans; [|apply Permutation_middle]. rewrite <- app_assoc. apply Permutation_refl.
        * intros x I. apply Out. unfold ids in *. apply in_map_iff in I. destruct I as (y & Ey & Iy). apply in_map_iff. exists y. split; [auto|].
          rewrite concat_app in *. rewrite !map_app in *. cbn [map] in *. rewrite !concat_app in *. cbn [concat] in *. cbn [w' w_done w_todo] in Iy. rewrite Tw. rewrite !in_app_iff in *. cbn [In app] in *. tauto.
        * rewrite map_app. cbn [map w' w_todo]. exact IL.
        * intros id I. apply DL. now right.
        * exists d'. split; [exact C|]. intros g Hg.
          replace (final (ws1 ++ w :: ws2)) with (final (ws1 ++ w' :: ws2)).
          -- apply F. intros id. rewrite Hg. cbn [In]. split; [intros [A|[A|A]]; [auto|discriminate|auto]|tauto].
          -- unfold final. rewrite !map_app. cbn [map w' w_place w_done w_todo]. rewrite Tw, <- app_assoc. reflexivity.
      + cbn [new_items flat_map app] in IL.
        set (xs' := map (hide_ids gone) xs) in *. set (W := weave 0 xs' (blocks ws)) in *.
        assert (Ix : In id (ids xs)) by (apply DL; now left).
        assert (IW : In id (ids W)).
        { unfold W. rewrite <- (ids_hide gone xs) in Ix. fold xs' in Ix. clear -Ix. unfold ids in *. apply in_map_iff in Ix. destruct Ix as (y & Ey & Iy). apply in_map_iff. exists y. split; [auto|].
          assert (G : forall (a b : list (entry V)), within a b -> forall y, In y a -> In y b) by (induction 1; intros z Iz; cbn [In] in *; [auto|destruct Iz; auto|auto]). eapply G; [apply weave_within|auto]. }
        assert (EQ : map (hide_ids [id]) W = weave 0 (map (hide_ids (id :: gone)) xs) (blocks ws)).
        { unfold W. rewrite weave_map. f_equal.
          - unfold xs'. rewrite map_map. apply map_ext. intros y. apply hide_ids_more.
          - unfold blocks. rewrite map_map. apply map_ext_in. intros u Iu. cbn [fst snd]. f_equal. apply hide_other. intros x X [<-|[]]. apply (Out id); [|exact Ix].
            rewrite concat_app, ids_app. apply in_or_app. left. unfold ids in *. apply in_map_iff in X. destruct X as (y & Ey & Iy). apply in_map_iff. exists y. split; [auto|]. apply in_concat. exists (w_done u). split; [apply in_map; auto|auto]. }
        assert (HH : exists d1, delete d (Some id) = Ok (d1, true) /\ holds d1 (weave 0 (map (hide_ids (id :: gone)) xs) (blocks ws))).
        { pose proof (c44_delete d W id H) as C. destruct (delete d (Some id)) as [[d1 [|]]| | |]; [|destruct C; contradiction|destruct C|destruct C|destruct C].
          destruct C as (pre & e & post & EW & Ei & Np & Hd & _). exists d1. split; [reflexivity|].
          assert (ND' : NoDup (ids W)) by exact (proj1 (nodup_app _ _ ND)).
          replace (weave 0 (map (hide_ids (id :: gone)) xs) (blocks ws)) with (pre ++ hidden e :: post); [exact Hd|].
          transitivity (map (hide_ids [id]) W).
          - rewrite EW, map_app. cbn [map]. rewrite EW, ids_app in ND'. cbn [ids map] in ND'. apply NoDup_remove_2 in ND'. rewrite Ei in ND'.
            f_equal; [symmetry; apply hide_other; intros x X [<-|[]]; apply ND'; apply in_or_app; now left|].
            f_equal; [unfold hide_ids; cbn [mem existsb]; rewrite Ei, id_eqb_refl; reflexivity|].
            symmetry. apply hide_other. intros x X [<-|[]]. apply ND'. apply in_or_app. now right.
          - exact EQ. }
        destruct HH as (d1 & E1 & H1).
        destruct (IH ws (id :: gone) d1 H1 OK So) as (d' & C & F).
        * rewrite <- EQ, ids_hide. exact ND.
        * exact Out.
        * exact IL.
        * intros i I. apply DL. now right.
        * exists d'. cbn [deliver apply_event]. rewrite E1. cbn [bind fst snd]. split; [exact C|]. intros g Hg. apply F. intros i. rewrite Hg. cbn [In]. split; [intros [A|[A|A]]; [auto| |auto]|intros [[A|A]|A]; [subst; auto|auto|auto]]. injection A as ->. auto.
  Qed.

  Lemma gap_cons : forall n m (b : list (entry V)) bs, at_gap n ((m, b) :: bs) = (if (m =? n)%nat then b else []) ++ at_gap n bs.
  Proof. intros. unfold at_gap. cbn [filter fst]. destruct (m =? n)%nat; reflexivity. Qed.
  Definition start_of (w : piece V) : wst := mkW (pc_place w) (pc_producer w) [] (pc_items w).
  Definition merged (gone : list ident) xs (ws : list (piece V)) : list (entry V) := weave 0 (map (hide_ids gone) xs) (map (fun w => (pc_place w, pc_items w)) ws).
  Lemma final_start : forall ws, final (map start_of ws) = map (fun w => (pc_place w, pc_items w)) ws.
  Proof. intros. unfold final. rewrite map_map. reflexivity. Qed.

  Lemma c44_concurrent : forall xs (ws : list (piece V)) gone,
    NoDup (ids xs ++ ids (concat (map pc_items ws))) -> StronglySorted (fun v w => (pc_producer v < pc_producer w)%N) ws ->
    (forall w, In w ws -> piece_ok xs w /\ (pc_place w = O -> (length (pc_items w) <= 1)%nat)) -> incl gone (ids xs) ->
    forall d vs, holds d xs -> interleaves (map pc_items ws) (new_items vs) -> (forall id, In (EDel id) vs <-> In id gone) ->
    exists d', deliver d vs = Ok d' /\ holds d' (merged gone xs ws).
  Proof.
    intros xs ws gone ND So OK Ig d vs H IL DL. 
    assert (B0 : forall b, In b (blocks (map start_of ws)) -> snd b = []).
    { intros b I. unfold blocks in I. rewrite map_map in I. apply in_map_iff in I. destruct I as (w & <- & _). reflexivity. }
    assert (TD : map w_todo (map start_of ws) = map pc_items ws) by (rewrite map_map; reflexivity).
    assert (X0 : map (hide_ids []) xs = xs) by (rewrite <- (map_id xs) at 2; apply map_ext; reflexivity).
    destruct (deliver_all xs vs (map start_of ws) [] d) as (d' & C & F).
    - rewrite X0, (weave_none xs 0 _ B0). exact H.
    - intros w I. apply in_map_iff in I. destruct I as (v & <- & I). destruct (OK v I) as ((A & B) & C). unfold w_ok. cbn [start_of w_place w_prod w_done w_todo app]. auto.
    - clear -So. induction So as [|w ws So IH F]; cbn [map]; constructor; [auto|]. rewrite Forall_forall in *. intros v I. apply in_map_iff in I. destruct I as (u & <- & I). exact (F u I).
    - rewrite X0, (weave_none xs 0 _ B0), TD. exact ND.
    - intros x I J. rewrite concat_app, TD in I. replace (concat (map w_done (map start_of ws))) with (@nil (entry V)) in I.
      2:{ clear. induction ws as [|w ws IH]; [reflexivity|]. cbn [map concat start_of w_done app]. exact IH. }
      cbn [app] in I. apply in_split in J. destruct J as (u & v & Ev). rewrite Ev in ND. rewrite <- app_assoc in ND. cbn [app] in ND. apply NoDup_remove_2 in ND. apply ND. apply in_or_app. right. apply in_or_app. now right.
    - rewrite TD. exact IL.
    - intros id I. apply Ig. now apply DL.
    - exists d'. split; [exact C|]. unfold merged. rewrite <- final_start. apply F. intros id. cbn [In]. rewrite DL. tauto.
  Qed.
  Lemma merged_within : forall gone xs ws, within (map (hide_ids gone) xs) (merged gone xs ws). Proof. intros. apply weave_within. Qed.
  Lemma merged_perm : forall gone xs ws, (forall w, In w ws -> (pc_place w <= length xs)%nat) -> Permutation (merged gone xs ws) (map (hide_ids gone) xs ++ concat (map pc_items ws)).
  Proof.
    intros gone xs ws H. unfold merged. eapply perm_trans; [apply weave_perm|].
    - intros b I. apply in_map_iff in I. destruct I as (w & <- & I). cbn [fst]. rewrite map_length. auto.
    - rewrite map_map. apply Permutation_refl.
  Qed.
  Lemma merged_place : forall gone xs ws1 w ws2, (pc_place w <= length xs)%nat ->
    exists a b, merged gone xs (ws1 ++ w :: ws2) = a ++ at_gap (pc_place w) (map (fun w => (pc_place w, pc_items w)) ws1) ++ pc_items w ++ at_gap (pc_place w) (map (fun w => (pc_place w, pc_items w)) ws2) ++ b /\
      hd_error (rev a) = hd_error (rev (map (hide_ids gone) (firstn (pc_place w) xs))) /\ hd_error b = hd_error (map (hide_ids gone) (skipn (pc_place w) xs)).
  Proof.
    intros gone xs ws1 w ws2 L. unfold merged. rewrite (weave_split (pc_place w) 0) by (rewrite map_length; auto). cbn [Nat.add].
    exists (front 0 (firstn (pc_place w) (map (hide_ids gone) xs)) (map (fun w => (pc_place w, pc_items w)) (ws1 ++ w :: ws2))), (back (S (pc_place w)) (skipn (pc_place w) (map (hide_ids gone) xs)) (map (fun w => (pc_place w, pc_items w)) (ws1 ++ w :: ws2))). split.
    - rewrite map_app at 2. rewrite at_gap_app. cbn [map]. rewrite (gap_cons (pc_place w) (pc_place w) (pc_items w)), Nat.eqb_refl. rewrite <- !app_assoc. reflexivity.
    - rewrite rev_front, hd_back, firstn_map, skipn_map. auto.
  Qed.
  Lemma merged_contiguous : forall gone xs ws w, (pc_place w <= length xs)%nat -> In w ws -> exists a b, merged gone xs ws = a ++ pc_items w ++ b.
  Proof.
    intros gone xs ws w L I. apply in_split in I. destruct I as (ws1 & ws2 & ->). destruct (merged_place gone xs ws1 w ws2 L) as (a & b & -> & _).
    exists (a ++ at_gap (pc_place w) (map (fun w => (pc_place w, pc_items w)) ws1)), (at_gap (pc_place w) (map (fun w => (pc_place w, pc_items w)) ws2) ++ b). rewrite <- !app_assoc. reflexivity.
  Qed.
  Lemma merged_order : forall gone xs ws1 v ws2 w ws3, (pc_place v <= length xs)%nat -> pc_place v = pc_place w -> exists a b c, merged gone xs (ws1 ++ v :: ws2 ++ w :: ws3) = a ++ pc_items v ++ b ++ pc_items w ++ c.
  Proof.
    intros gone xs ws1 v ws2 w ws3 L E. destruct (merged_place gone xs ws1 v (ws2 ++ w :: ws3) L) as (a & b & -> & _). rewrite map_app, at_gap_app. cbn [map].
    replace (at_gap (pc_place v) ((pc_place w, pc_items w) :: map (fun w => (pc_place w, pc_items w)) ws3)) with (pc_items w ++ at_gap (pc_place v) (map (fun w => (pc_place w, pc_items w)) ws3)) by (unfold at_gap; cbn [filter fst]; rewrite E, Nat.eqb_refl; reflexivity).
    exists (a ++ at_gap (pc_place v) (map (fun w => (pc_place w, pc_items w)) ws1)), (at_gap (pc_place v) (map (fun w => (pc_place w, pc_items w)) ws2)), (at_gap (pc_place v) (map (fun w => (pc_place w, pc_items w)) ws3) ++ b).
    rewrite <- !app_assoc. reflexivity.
  Qed.

  (** ** Reading *)
  Lemma walk_spec : forall h l fuel p cur q xs, seg h p cur l q None -> ents h l = map Some xs -> (length l <= fuel)%nat -> exists its, walk fuel h cur = Ok its /\ map entry_of its = xs.
  Proof.
    intros h; induction l as [|a l IH]; intros fuel p cur q xs S E L.
    - destruct S as (_ & ->). destruct xs; [|discriminate]. exists []. destruct fuel; auto.
    - destruct (ents_cons _ _ _ _ E) as (x & r & X & -> & E'). destruct S as (-> & x' & X' & Lx & S). rewrite X in X'. injection X' as <-.
      cbn [length] in L. destruct fuel as [|f]; [lia|]. cbn [walk]. unfold deref. rewrite X. cbn [bind]. destruct (IH f _ _ _ r S E') as (its & -> & Em); [lia|]. cbn [bind]. exists (x :: its). split; [auto|]. cbn [map]. now rewrite Em.
  Qed.
End Merge.

Definition text_of (xs : list (entry (list N))) : list N := concat (map e_content (visible xs)).
Lemma get_text_holds : forall t xs, holds (t_doc t) xs -> get_text t = Ok (text_of xs).
Proof.
  intros t xs (l & H). pose proof H as ((q & S & ND & AL) & E). unfold get_text.
  destruct (walk_spec _ l (length (d_heap (t_doc t))) _ _ _ xs S E (linked_bound _ _ (proj1 H))) as (its & -> & Em). cbn [bind]. f_equal. unfold text_of. f_equal. rewrite <- Em. clear.
  induction its as [|x its IH]; [reflexivity|]. cbn [map filter visible]. destruct x as [a b c o r v [|]]; cbn [entry_of e_deleted it_deleted negb]; [exact IH|]. cbn [map]. now rewrite IH.
Qed.

Lemma push_empty : forall V P ltb (q : queue V P) v p, q_list q = [] ->
  exists q', q_push ltb q v p = Ok (q', 0%Z) /\ q_list q' = [q_next q] /\ q_obj q' (q_next q) = Some v.
Proof.
  intros V P ltb [ql qo qp qi qn] v p E. cbn [q_list] in E. subst ql. unfold q_push. cbn. unfold fset. rewrite Nat.eqb_refl. eexists. split; [reflexivity|]. split; [reflexivity|]. cbn [q_obj]. now rewrite Nat.eqb_refl.
Qed.
Lemma pop_single : forall V P ltb (q : queue V P) k, q_list q = [k] -> exists q', q_pop ltb q = Ok (q', k) /\ q_list q' = [].
Proof. intros V P ltb [ql qo qp qi qn] k E. cbn [q_list] in E. subst ql. unfold q_pop. cbn. eexists. split; reflexivity. Qed.

(** a record that is accepted at once leaves nothing pending *)
Lemma handle_now : forall t r d', q_list (t_pending t) = [] -> r_id r <> None -> (r_type r = 1 \/ r_type r = 2)%N -> apply_record (t_doc t) r = Ok (d', true) ->
  exists q', handle_record t r = Ok (mkT d' q') /\ q_list q' = [].
Proof.
  intros t r d' E R T A. unfold handle_record. destruct (r_id r) as [id|] eqn:Ri; [|contradiction].
  replace (negb (r_type r =? 1)%N && negb (r_type r =? 2)%N) with false by (destruct T as [-> | ->]; reflexivity).
  destruct (push_empty _ _ N.ltb (t_pending t) r (snd id) E) as (q1 & -> & L1 & O1). cbn [bind fst]. rewrite L1. cbn [length drain t_pending t_doc].
  unfold q_len. rewrite L1. change (zlen [q_next (t_pending t)] <=? 0)%Z with false. cbn match. unfold q_peek. rewrite L1. cbn [nth_error bind]. rewrite O1, A. cbn [bind negb].
  destruct (pop_single _ _ N.ltb q1 _ L1) as (q2 & -> & L2). cbn [bind fst]. exists q2. split; [|auto]. cbn [drain t_pending]. unfold q_len. rewrite L2. reflexivity.
Qed.
