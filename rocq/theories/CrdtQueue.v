(** Lemmas for C44: the pending records of a text document. *)
From Coq Require Import Permutation Sorting.Sorted.
From Verif Require Import Base PrimModel HeapModel HeapProofs HeapSpec HeapProofs2 CrdtModel CrdtSpec CrdtLinks CrdtRefine CrdtOps CrdtProofs CrdtMerge.

Lemma nlt_weak : weak_order N.ltb.
Proof. split; intros *; rewrite ?N.ltb_lt, ?N.ltb_ge; intros; lia. Qed.

Definition bag (q : queue record N) (L : list (HeapSpec.entry record N)) : Prop := good record N N.ltb q /\ Abs record N q L.

Lemma bag_push : forall q L r p, bag q L -> exists q' i id L', q_push N.ltb q r p = Ok (q', i) /\ bag q' L' /\ Permutation L' ((id, r, p) :: L).
Proof.
  intros q L r p (G & A). destruct (step_refines record N N.ltb nlt_weak q (OPush r p) L G A) as [(E & _)|(q' & o & L' & E & G' & A' & S)]; [discriminate|].
  cbn [q_step] in E. destruct (q_push N.ltb q r p) as [[q1 i]| | |]; try discriminate. cbn [bind fst snd] in E. injection E as <- <-. inversion S; subst.
  exists q1, i, id, L'. split; [reflexivity|]. split; [split; auto|auto].
Qed.
Lemma bag_peek : forall q L, bag q L -> L <> [] -> exists e, q_peek q = Ok (HeapSpec.e_id e) /\ q_obj q (HeapSpec.e_id e) = Some (e_obj e) /\ minimal N.ltb e L.
Proof. intros q L (G & A) NE. destruct (peek_minimal record N N.ltb nlt_weak q L G A NE) as (e & A1 & A2 & A3 & A4 & _). eauto. Qed.
Lemma bag_pop : forall q L, bag q L -> L <> [] -> exists q' k e L', q_pop N.ltb q = Ok (q', k) /\ bag q' L' /\ minimal N.ltb e L /\ Permutation L (e :: L').
Proof.
  intros q L (G & A) NE. destruct (step_refines record N N.ltb nlt_weak q OPop L G A) as [(_ & E & _)|(q' & o & L' & E & G' & A' & S)]; [contradiction|].
  cbn [q_step] in E. destruct (q_pop N.ltb q) as [[q1 k]| | |]; try discriminate. cbn [bind fst snd] in E. injection E as <- <-. inversion S; subst.
  exists q1, k, e, L'. split; [reflexivity|]. split; [split; auto|auto].
Qed.
Lemma bag_len : forall q L, bag q L -> length (q_list q) = length L.
Proof. intros q L (G & A). unfold Abs in A. now apply f2_len in A. Qed.
Lemma idle_bag : forall q, idle q -> bag q [].
Proof.
  intros q ((ops & outs & R) & Z0). destruct (run_refines record N N.ltb nlt_weak ops q_new [] (new_good record N N.ltb) (new_abs record N) q outs R) as (L & G & A & _).
  unfold q_len, zlen in Z0. assert (length L = 0%nat) by (rewrite <- (bag_len q L (conj G A)); lia). destruct L; [split; auto|discriminate].
Qed.

Definition bag_ok (L : list (HeapSpec.entry record N)) : Prop := forall e, In e L -> e_pri e = clock_of (e_obj e).
Definition objs (L : list (HeapSpec.entry record N)) : list record := map e_obj L.
Definition by_clock (r s : record) : Prop := (clock_of r < clock_of s)%N.

Lemma sorted_perm_head : forall r rest (l : list record), StronglySorted by_clock (r :: rest) -> Permutation (r :: rest) l -> forall s, In s l -> s = r \/ (In s rest /\ (clock_of r < clock_of s)%N).
Proof.
  intros r rest l S P s I. apply (Permutation_in _ (Permutation_sym P)) in I. destruct I as [<-|I]; [now left|right]. split; [auto|]. inversion S as [|? ? _ F]; subst. rewrite Forall_forall in F. exact (F s I).
Qed.

Lemma drain_turn : forall fuel L rest d q d' later, bag q L -> bag_ok L -> (length L <= fuel)%nat -> in_turn d rest d' -> StronglySorted by_clock rest -> Permutation rest (objs L ++ later) ->
  exists d1 q1 L1 rest1, drain fuel (mkT d q) = Ok (mkT d1 q1) /\ bag q1 L1 /\ bag_ok L1 /\ in_turn d1 rest1 d' /\ StronglySorted by_clock rest1 /\ Permutation rest1 (objs L1 ++ later) /\
    match rest1 with [] => True | r :: _ => ~ In r (objs L1) end.
Proof.
  induction fuel as [|f IH]; intros L rest d q d' later B OK Ln T So P.
  - destruct L; [|cbn [length] in Ln; lia]. exists d, q, [], rest. split; [|split; [auto|split; [auto|split; [auto|split; [auto|split; [auto|destruct rest; [exact I|intros []]]]]]]].
    cbn [drain t_pending]. unfold q_len, zlen. rewrite (bag_len _ _ B). reflexivity.
  - cbn [drain t_pending]. unfold q_len, zlen. rewrite (bag_len _ _ B). destruct L as [|e0 L0] eqn:EL.
    { cbn [length]. exists d, q, [], rest. split; [reflexivity|]. split; [auto|]. split; [auto|]. split; [auto|]. split; [auto|]. split; [auto|]. destruct rest; [exact I|intros []]. }
    rewrite <- EL in *. destruct (Z.leb_spec (Z.of_nat (length L)) 0) as [Z1|_]; [rewrite EL in Z1; cbn [length] in Z1; lia|].
    assert (NE : L <> []) by (rewrite EL; discriminate). destruct (bag_peek q L B NE) as (e & -> & O & (Ie & Mi)). cbn [bind]. rewrite O. cbn [t_doc].
    assert (HE : In (e_obj e) (objs L)) by (apply in_map; auto).
    destruct rest as [|r rest]; [apply Permutation_nil in P; destruct (objs L); [destruct HE|discriminate]|].
    destruct T as (Tn & d1 & Ta & T).
    destruct (sorted_perm_head r rest _ So P (e_obj e)) as [Er|(Ir & Lt)]; [apply in_or_app; now left| |].
    + rewrite Er, Ta. cbn [bind negb]. destruct (bag_pop q L B NE) as (q2 & k & e2 & L2 & -> & B2 & (Ie2 & Mi2) & PL). cbn [bind fst].
      assert (E2 : e_obj e2 = r).
      { destruct (sorted_perm_head r rest _ So P (e_obj e2)) as [E2|(I2 & Lt2)]; [apply in_or_app; left; now apply in_map|auto|]. exfalso.
        specialize (Mi2 e Ie). apply N.ltb_ge in Mi2. rewrite (OK e Ie), (OK e2 Ie2), Er in Mi2. lia. }
      assert (P2 : Permutation rest (objs L2 ++ later)).
      { apply Permutation_cons_inv with r. eapply perm_trans; [exact P|]. unfold objs. rewrite (Permutation_map e_obj PL). cbn [map app]. rewrite E2. apply Permutation_refl. }
      inversion So as [|? ? So' _]; subst.
      apply (IH L2 rest d1 q2 d' later); auto.
      * intros x X. apply OK. apply (Permutation_in _ (Permutation_sym PL)). now right.
      * apply Permutation_length in PL. rewrite PL in Ln. cbn [length] in Ln. lia.
    + rewrite (Tn _ Ir). cbn [bind negb]. exists d, q, L, (r :: rest). split; [reflexivity|]. split; [auto|]. split; [auto|]. split; [split; [auto|eauto]|]. split; [auto|]. split; [auto|].
      intros I. unfold objs in I. apply in_map_iff in I. destruct I as (x & Ex & Ix). specialize (Mi x Ix). apply N.ltb_ge in Mi. rewrite (OK e Ie), (OK x Ix), Ex in Mi. lia.
Qed.

Lemma handle_turn : forall later L rest d q d', bag q L -> bag_ok L -> in_turn d rest d' -> StronglySorted by_clock rest -> Permutation rest (objs L ++ later) ->
  match rest with [] => True | r :: _ => ~ In r (objs L) end -> (forall r, In r later -> record_ok r) ->
  exists q', handle_all (mkT d q) later = Ok (mkT d' q') /\ bag q' [].
Proof.
  induction later as [|s later IH]; intros L rest d q d' B OK T So P St RO.
  - rewrite app_nil_r in P. destruct rest as [|r rest].
    + apply Permutation_nil in P. destruct L; [|discriminate]. cbn [in_turn] in T. subst. exists q. auto.
    + exfalso. apply St. apply (Permutation_in _ P). now left.
  - cbn [handle_all]. unfold handle_record. destruct (RO s (or_introl eq_refl)) as (Ri & Rt). destruct (r_id s) as [id|] eqn:Is; [|contradiction].
    replace (negb (r_type s =? 1)%N && negb (r_type s =? 2)%N) with false by (destruct Rt as [-> | ->]; reflexivity). cbn [t_pending t_doc].
    destruct (bag_push q L s (snd id) B) as (q1 & i & k & L1 & -> & B1 & P1). cbn [bind fst].
    assert (OK1 : bag_ok L1).
    { intros x X. apply (Permutation_in _ P1) in X. destruct X as [<-|X]; [|auto]. unfold e_pri, e_obj, clock_of. cbn [fst snd]. rewrite Is. reflexivity. }
    destruct (drain_turn (length (q_list q1)) L1 rest d q1 d' later B1 OK1) as (d2 & q2 & L2 & rest2 & -> & B2 & OK2 & T2 & So2 & P2 & St2); auto.
    + rewrite (bag_len _ _ B1). lia.
    + eapply perm_trans; [exact P|]. unfold objs. rewrite (Permutation_map e_obj P1). cbn [map app]. unfold e_obj at 3. cbn [fst snd]. symmetry. apply Permutation_middle.
    + cbn [bind]. apply (IH L2 rest2 d2 q2 d'); auto. intros; apply RO; now right.
Qed.
Lemma c44_reorder : forall t rs sent d', idle (t_pending t) -> in_turn (t_doc t) rs d' -> StronglySorted by_clock rs -> (forall r, In r rs -> record_ok r) -> Permutation rs sent ->
  exists t', handle_all t sent = Ok t' /\ t_doc t' = d' /\ q_len (t_pending t') = 0%Z.
Proof.
  intros [d q] rs sent d' Id T So RO P. cbn [t_pending t_doc] in *. destruct (handle_turn sent [] rs d q d') as (q' & H & B); auto.
  - now apply idle_bag.
  - intros e [].
  - destruct rs; [exact I|intros []].
  - intros r I. apply RO. apply (Permutation_in _ (Permutation_sym P)). auto.
  - exists (mkT d' q'). split; [auto|]. split; [reflexivity|]. cbn [t_pending]. unfold q_len, zlen. rewrite (bag_len _ _ B). reflexivity.
Qed.

(** HandleRecord ends *)
Lemma apply_record_total : forall d xs r, CrdtSpec.holds d xs -> match apply_record d r with Ok (d', _) => exists ys, CrdtSpec.holds d' ys | Panic => True | _ => False end.
Proof.
  intros d xs [ty [id|] o ro c] H; unfold apply_record; cbn [r_type r_id r_origin r_rorigin r_content]; destruct (ty =? 1)%N.
  - pose proof (c44_insert d xs id o ro c H) as C. destruct (insert d (Some id) o ro c) as [[d' [|]]| | |]; auto.
    + destruct C as (_ & _ & (pre & post & _ & Hh & _) & _). eauto.
    + destruct C as (-> & _). eauto.
  - pose proof (c44_delete d xs id H) as C. destruct (delete d (Some id)) as [[d' [|]]| | |]; auto.
    + destruct C as (pre & e & post & _ & _ & _ & Hh & _). eauto.
    + destruct C as (-> & _). eauto.
  - cbn [insert]. eauto.
  - cbn [delete]. eauto.
Qed.
Lemma drain_total : forall fuel L d q xs, bag q L -> (length L <= fuel)%nat -> CrdtSpec.holds d xs ->
  match drain fuel (mkT d q) with Ok t => (exists ys, CrdtSpec.holds (t_doc t) ys) /\ exists L', bag (t_pending t) L' | Panic => True | _ => False end.
Proof.
  induction fuel as [|f IH]; intros L d q xs B Ln H; cbn [drain t_pending]; unfold q_len, zlen; rewrite (bag_len _ _ B).
  - destruct L; [|cbn [length] in Ln; lia]. cbn [length]. change (Z.of_nat 0 <=? 0)%Z with true. cbn match. cbn [t_doc t_pending]. eauto.
  - destruct L as [|e0 L0] eqn:EL; [cbn [length]; change (Z.of_nat 0 <=? 0)%Z with true; cbn match; cbn [t_doc t_pending]; eauto|]. rewrite <- EL in *.
    destruct (Z.leb_spec (Z.of_nat (length L)) 0) as [Z1|_]; [rewrite EL in Z1; cbn [length] in Z1; lia|].
    assert (NE : L <> []) by (rewrite EL; discriminate). destruct (bag_peek q L B NE) as (e & -> & O & _). cbn [bind]. rewrite O. cbn [t_doc].
    pose proof (apply_record_total d xs (e_obj e) H) as A. destruct (apply_record d (e_obj e)) as [[d1 [|]]| | |]; cbn [bind negb]; auto.
    + destruct A as (ys & Hy). destruct (bag_pop q L B NE) as (q2 & k & e2 & L2 & -> & B2 & _ & PL). cbn [bind fst]. apply (IH L2 d1 q2 ys); auto.
      apply Permutation_length in PL. rewrite PL in Ln. cbn [length] in Ln. lia.
    + cbn [t_doc t_pending]. eauto.
Qed.
Lemma handle_total : forall r t L xs, bag (t_pending t) L -> CrdtSpec.holds (t_doc t) xs ->
  match handle_record t r with Ok t' => (exists ys, CrdtSpec.holds (t_doc t') ys) /\ exists L', bag (t_pending t') L' | Panic => True | _ => False end.
Proof.
  intros r t L xs B H. unfold handle_record. destruct (r_id r) as [id|]; [|eauto]. destruct (_ && _); [eauto|].
  destruct (bag_push (t_pending t) L r (snd id) B) as (q1 & i & k & L1 & -> & B1 & P1). cbn [bind fst]. apply (drain_total _ L1 _ _ xs B1); [|auto]. rewrite (bag_len _ _ B1). lia.
Qed.
Lemma c44_handle_total : forall rs p, match handle_all (new_tdoc p) rs with Ok t' => exists ys, CrdtSpec.holds (t_doc t') ys | Panic => True | _ => False end.
Proof.
  intros rs p. assert (G : forall rs t L xs, bag (t_pending t) L -> CrdtSpec.holds (t_doc t) xs -> match handle_all t rs with Ok t' => exists ys, CrdtSpec.holds (t_doc t') ys | Panic => True | _ => False end).
  { clear. induction rs as [|r rs IH]; intros t L xs B H; cbn [handle_all]; [eauto|]. pose proof (handle_total r t L xs B H) as A. destruct (handle_record t r) as [t1| | |]; cbn [bind]; auto.
    destruct A as ((ys & Hy) & (L' & B')). eapply IH; eauto. }
  apply (G rs (new_tdoc p) [] []); [|exact (empty_holds p)]. split; [apply new_good|apply new_abs].
Qed.

(** a piece of text typed in one go, in any order *)
Lemma typed_turn : forall es o ro p d xs, CrdtSpec.holds d xs -> typed o ro p es -> NoDup (ids xs ++ ids es) ->
  (forall d', deliver d (map EIns es) = Ok d' -> in_turn d (map (fun e => rec_of (EIns e)) es) d').
Proof.
  intros es o ro p d xs H T N d' D. revert o d xs H T N D. induction es as [|e es IH]; intros o d xs H T N D; cbn [map deliver in_turn] in *; [congruence|].
  cbn [apply_event] in D. pose proof (c44_insert d xs (e_id e) (e_origin e) (e_rorigin e) (e_content e) H) as C.
  destruct (insert d (Some (e_id e)) (e_origin e) (e_rorigin e) (e_content e)) as [[d1 [|]]| | |] eqn:E; cbn [bind fst snd] in D; try discriminate.
  destruct C as (_ & _ & (pre & post & -> & Hh & _) & _). destruct T as (T1 & T2 & T3 & T4 & T).
  split.
  - intros s I. apply in_map_iff in I. destruct I as (f & <- & If). unfold apply_record. cbn [rec_of r_type N.eqb Pos.eqb r_id r_origin r_rorigin r_content].
    assert (G : forall es o, typed o ro p es -> In f es -> e_origin f = o \/ exists g, In g es /\ e_origin f = Some (e_id g)).
    { clear. induction es as [|x es IH]; intros o T I; [destruct I|]. destruct T as (A & _ & _ & _ & T). destruct I as [<-|I]; [now left|]. right. destruct (IH _ T I) as [E|(g & Ig & E)]; [exists x; split; [now left|auto]|exists g; split; [now right|auto]]. }
    assert (HO : exists g, In g (e :: es) /\ e_origin f = Some (e_id g)) by (destruct (G es _ T If) as [E'|(g & Ig & E')]; [exists e; split; [now left|auto]|exists g; split; [now right|auto]]).
    destruct HO as (g & Ig & Og). pose proof (c44_insert d (pre ++ post) (e_id f) (e_origin f) (e_rorigin f) (e_content f) H) as C.
    assert (NI : ~ In (e_id g) (ids (pre ++ post))).
    { intros I. apply in_split in I. destruct I as (u & v & Ev). rewrite Ev in N. rewrite <- app_assoc in N. cbn [app] in N. apply NoDup_remove_2 in N. apply N. apply in_or_app. right. apply in_or_app. right. apply in_map. auto. }
    destruct (insert d (Some (e_id f)) (e_origin f) (e_rorigin f) (e_content f)) as [[d2 [|]]| | |]; [| |destruct C| |destruct C].
    + destruct C as (C & _). exfalso. apply NI. apply C. auto.
    + destruct C as (-> & _). reflexivity.
    + destruct C as (i & pr & x & po & Ei & EX & Ii & _). exfalso. apply NI. rewrite Og in Ei. injection Ei as ->. rewrite EX, ids_app. apply in_or_app. now left.
  - exists d1. split; [unfold apply_record; cbn [rec_of r_type N.eqb Pos.eqb r_id r_origin r_rorigin r_content]; exact E|].
    apply (IH (Some (e_id e)) d1 _ Hh T); [|exact D]. rewrite ids_app in *. cbn [ids map] in *. fold (ids post) in *. fold (ids es) in *.
    eapply Permutation_NoDup; [|exact N]. rewrite <- !app_assoc. cbn [app]. apply Permutation_app_head. symmetry. apply Permutation_middle.
Qed.

(** ** Documents with text *)
Lemma deliver_handle : forall vs d q d', q_list q = [] -> deliver d vs = Ok d' -> exists q', handle_all (mkT d q) (map rec_of vs) = Ok (mkT d' q') /\ q_list q' = [].
Proof.
  induction vs as [|v vs IH]; intros d q d' E D; cbn [deliver map handle_all] in *; [injection D as <-; eauto|].
  destruct (apply_event d v) as [[d1 [|]]| | |] eqn:A; cbn [bind fst snd] in D; try discriminate.
  destruct (handle_now (mkT d q) (rec_of v) d1) as (q1 & -> & E1); auto.
  - destruct v; discriminate.
  - destruct v; cbn [rec_of r_type]; auto.
  - destruct v; exact A.
  - cbn [bind]. eapply IH; eauto.
Qed.
Lemma deliver_run : forall vs (d : doc (list N)) xs d', CrdtSpec.holds d xs -> deliver d vs = Ok d' -> exists ys, CrdtSpec.holds d' ys.
Proof.
  induction vs as [|v vs IH]; intros d xs d' H D; cbn [deliver] in D; [injection D as <-; eauto|].
  pose proof (apply_record_total d xs (rec_of v) H) as A.
  replace (apply_record d (rec_of v)) with (apply_event d v) in A by (destruct v; reflexivity).
  destruct (apply_event d v) as [[d1 [|]]| | |]; cbn [bind fst snd] in D; try discriminate. destruct A as (ys & Hy). eauto.
Qed.
Lemma il_one : forall {A} (l : list A), interleaves [l] l.
Proof. intros A; induction l as [|x l IH]; [constructor; intros l [<-|[]]; auto|]. exact (il_cons [] x l [] l IH). Qed.
Lemma new_ins : forall V (es : list (CrdtSpec.entry V)), new_items (map EIns es) = es.
Proof. induction es; cbn [map new_items flat_map app]; [auto|]. f_equal. auto. Qed.

Lemma typed_clocks : forall (es : list (CrdtSpec.entry (list N))), StronglySorted (fun a b => (snd (CrdtSpec.e_id a) < snd (CrdtSpec.e_id b))%N) es -> StronglySorted by_clock (map (fun e => rec_of (EIns e)) es).
Proof.
  induction 1 as [|e es So IH F]; cbn [map]; constructor; [auto|]. rewrite Forall_forall in *. intros r I. apply in_map_iff in I. destruct I as (f & <- & I). exact (F f I).
Qed.
(** a piece typed in one go, its records arriving in any order *)
Lemma c44_typed_any_order : forall t xs w sent, idle (t_pending t) -> CrdtSpec.holds (t_doc t) xs -> piece_ok xs w -> (pc_place w = O -> (length (pc_items w) <= 1)%nat) ->
  NoDup (ids xs ++ ids (pc_items w)) -> StronglySorted (fun a b => (snd (CrdtSpec.e_id a) < snd (CrdtSpec.e_id b))%N) (pc_items w) -> Permutation (map (fun e => rec_of (EIns e)) (pc_items w)) sent ->
  exists t', handle_all t sent = Ok t' /\ q_len (t_pending t') = 0%Z /\ CrdtSpec.holds (t_doc t') (firstn (pc_place w) xs ++ pc_items w ++ skipn (pc_place w) xs).
Proof.
  intros t xs w sent Id H (PL & TY) Z1 ND So P.
  destruct (c44_concurrent xs [w] []) with (d := t_doc t) (vs := map EIns (pc_items w)) as (d' & D & Hd); auto.
  - cbn [map concat]. rewrite app_nil_r. exact ND.
  - repeat constructor.
  - intros v [<-|[]]. split; [split; auto|auto].
  - intros x [].
  - rewrite new_ins. apply il_one.
  - intros id. split; [|intros []]. intros I. apply in_map_iff in I. destruct I as (e & E & _). discriminate.
  - destruct (c44_reorder t (map (fun e => rec_of (EIns e)) (pc_items w)) sent d') as (t' & A & B & C); auto.
    + eapply typed_turn; eauto.
    + now apply typed_clocks.
    + intros r I. apply in_map_iff in I. destruct I as (e & <- & _). split; [discriminate|now left].
    + exists t'. split; [auto|]. split; [auto|]. rewrite B. unfold merged in Hd.
      replace (map (hide_ids []) xs) with xs in Hd by (symmetry; rewrite <- (map_id xs) at 2; apply map_ext; reflexivity).
      rewrite (weave_split (pc_place w)) in Hd by auto. cbn [map Nat.add] in Hd. rewrite gap_cons, Nat.eqb_refl in Hd. cbn [at_gap filter concat map] in Hd. rewrite app_nil_r in Hd.
      replace (firstn (pc_place w) xs) with (front 0 (firstn (pc_place w) xs) [(pc_place w, pc_items w)]).
      * replace (skipn (pc_place w) xs) with (back (Datatypes.S (pc_place w)) (skipn (pc_place w) xs) [(pc_place w, pc_items w)]); [exact Hd|].
        destruct (skipn (pc_place w) xs) as [|y ys]; [reflexivity|]. cbn [back]. f_equal. 
        assert (G : forall n ys, (pc_place w < n)%nat -> weave n ys [(pc_place w, pc_items w)] = ys).
        { clear. intros n ys; revert n; induction ys as [|y ys IH]; intros n L; cbn [weave]; rewrite gap_cons; (destruct (Nat.eqb_spec (pc_place w) n); [lia|]); cbn [at_gap filter map concat app]; [reflexivity|]. f_equal. apply IH. lia. }
        apply G. lia.
      * assert (G : forall ys n, (n + length ys <= pc_place w)%nat -> front n ys [(pc_place w, pc_items w)] = ys).
        { clear. induction ys as [|y ys IH]; intros n L; [reflexivity|]. cbn [front length] in *. rewrite gap_cons. destruct (Nat.eqb_spec (pc_place w) n); [lia|]. cbn [at_gap filter map concat app]. f_equal. apply IH. lia. }
        apply G. rewrite firstn_length. lia.
Qed.

(** the users of one round of editing read the same text *)
Lemma c44_texts : forall xs (ws : list (piece (list N))) gone,
  NoDup (ids xs ++ ids (concat (map pc_items ws))) -> StronglySorted (fun v w => (pc_producer v < pc_producer w)%N) ws ->
  (forall w, In w ws -> piece_ok xs w /\ (pc_place w = O -> (length (pc_items w) <= 1)%nat)) -> incl gone (ids xs) ->
  exists ys, Permutation ys (map (hide_ids gone) xs ++ concat (map pc_items ws)) /\
  forall t vs, CrdtSpec.holds (t_doc t) xs -> q_len (t_pending t) = 0%Z -> interleaves (map pc_items ws) (new_items vs) -> (forall id, In (EDel id) vs <-> In id gone) ->
  exists t', handle_all t (map rec_of vs) = Ok t' /\ CrdtSpec.holds (t_doc t') ys /\ q_len (t_pending t') = 0%Z /\ get_text t' = Ok (concat (map e_content (visible ys))).
Proof.
  intros xs ws gone ND So OK Ig. exists (merged gone xs ws). split; [apply merged_perm; intros w I; apply (OK w I)|].
  intros [d q] vs H Q IL DL. cbn [t_doc t_pending] in *. destruct (c44_concurrent xs ws gone ND So OK Ig d vs H IL DL) as (d' & D & Hd).
  destruct (deliver_handle vs d q d') as (q' & A & B); auto.
  - unfold q_len, zlen in Q. destruct (q_list q); [auto|cbn [length] in Q; lia].
  - exists (mkT d' q'). split; [auto|]. split; [auto|]. split; [cbn [t_pending]; unfold q_len; now rewrite B|]. exact (get_text_holds (mkT d' q') _ Hd).
Qed.

(** ** What a user sees of an edit *)
Lemma counted_visible : forall V (xs : list (CrdtSpec.entry V)), match xs with x :: _ => e_deleted x = false | [] => True end -> counted xs = visible xs.
Proof. intros V [|x xs] H; [reflexivity|]. unfold counted, visible. cbn [filter]. rewrite H. reflexivity. Qed.
Lemma visible_app : forall V (a b : list (CrdtSpec.entry V)), visible (a ++ b) = visible a ++ visible b.
Proof. intros. apply filter_app. Qed.
Lemma c44_type : forall t xs off c, CrdtSpec.holds (t_doc t) xs -> match xs with x :: _ => e_deleted x = false | [] => True end -> (off <= length (visible xs))%nat ->
  exists t' r ys, text_insert t (Z.of_nat off) c = Ok (t', Some r) /\ CrdtSpec.holds (t_doc t') ys /\ t_pending t' = t_pending t /\
    map e_content (visible ys) = firstn off (map e_content (visible xs)) ++ c :: skipn off (map e_content (visible xs)) /\
    r_type r = 1%N /\ r_content r = c /\ r_id r = Some (d_producer (t_doc t), d_clock (t_doc t)) /\
    (NoDup (ids xs) -> apply_record (t_doc t) r = Ok (t_doc t', true)).
Proof.
  intros t xs off c H F L. unfold text_insert. pose proof (c44_local_insert (t_doc t) xs (Z.of_nat off) c H) as C.
  destruct (local_insert (t_doc t) (Z.of_nat off) c) as [[d' [i|]]| | |] eqn:E; cbn [bind fst snd]; [| |destruct C..].
  - destruct C as (pre & post & x & Ex & Cn & _ & Hh & X & Ee & P & Cl). unfold deref. rewrite X. cbn [bind].
    eexists _, _, _. split; [reflexivity|]. split; [exact Hh|]. split; [reflexivity|]. split.
    + assert (V1 : length (visible pre) = off).
      { rewrite counted_visible in Cn; [unfold zlen in Cn; lia|]. subst xs. destruct pre; [exact I|exact F]. }
      rewrite Ex, !visible_app, !map_app. assert (V2 : length (map e_content (visible pre)) = off) by (rewrite map_length; auto).
      rewrite firstn_app, skipn_app, V2, Nat.sub_diag, firstn_O, skipn_O, app_nil_r, <- V2, firstn_all, skipn_all. cbn [app]. f_equal. unfold visible at 1. cbn [filter]. rewrite Ee. reflexivity.
    + split; [reflexivity|]. split; [reflexivity|]. split; [cbn [r_id]; f_equal; exact (f_equal CrdtSpec.e_id Ee)|]. intros ND. unfold apply_record. cbn [r_type N.eqb Pos.eqb r_id r_origin r_rorigin r_content t_doc].
      eapply local_is_insert; eauto.
  - destruct C as (_ & C1 & C2). rewrite counted_visible in C2 by auto. unfold zlen in C2. lia.
Qed.
Lemma c44_erase : forall t xs off, CrdtSpec.holds (t_doc t) xs -> match xs with x :: _ => e_deleted x = false | [] => True end -> (off < length (visible xs))%nat ->
  exists t' r ys e, text_delete t (Z.of_nat (Datatypes.S off)) = Ok (t', Some r) /\ CrdtSpec.holds (t_doc t') ys /\ t_pending t' = t_pending t /\
    map e_content (visible ys) = firstn off (map e_content (visible xs)) ++ skipn (Datatypes.S off) (map e_content (visible xs)) /\
    map shown ys = map shown xs /\ nth_error (visible xs) off = Some e /\ r_type r = 2%N /\ r_id r = Some (CrdtSpec.e_id e).
Proof.
  intros t xs off H F L. unfold text_delete. pose proof (c44_local_delete (t_doc t) xs (Z.of_nat (Datatypes.S off)) H) as C.
  destruct (local_delete (t_doc t) _) as [[d' [i|]]| | |] eqn:E; cbn [bind fst snd]; [| |destruct C..].
  - destruct C as (pre & e & post & x & Ex & Cn & De & Hh & X & Ix & _). unfold deref. rewrite X. cbn [bind].
    assert (E0 : e_deleted e = false) by (destruct De as [-> |De]; [subst xs; exact F|exact De]).
    assert (V1 : length (visible pre) = off).
    { rewrite counted_visible in Cn; [rewrite visible_app in Cn; unfold visible at 2 in Cn; cbn [filter] in Cn; rewrite E0 in Cn; cbn [negb] in Cn; unfold zlen in Cn; rewrite app_length in Cn; cbn [length] in Cn; lia|]. subst xs. destruct pre; exact F. }
    eexists _, _, _, e. split; [reflexivity|]. split; [exact Hh|]. split; [reflexivity|]. 
    assert (VX : visible xs = visible pre ++ e :: visible post) by (rewrite Ex, visible_app; f_equal; unfold visible; cbn [filter]; rewrite E0; reflexivity). split.
    + rewrite VX, !visible_app. unfold visible at 2. cbn [filter hidden e_deleted negb]. fold (visible post). rewrite !map_app. cbn [map]. assert (V2 : length (map e_content (visible pre)) = off) by (rewrite map_length; auto).
      rewrite firstn_app, skipn_app, V2, Nat.sub_diag, firstn_O, app_nil_r, <- V2, firstn_all, skipn_all2 by lia. rewrite V2. replace (Datatypes.S off - off)%nat with 1%nat by lia. reflexivity.
    + split; [rewrite Ex, !map_app; reflexivity|]. split; [rewrite VX, nth_error_app2, V1, Nat.sub_diag by lia; reflexivity|]. split; [reflexivity|]. cbn [r_id]. now rewrite Ix.
  - destruct C as (_ & [C2|C2]); [lia|]. rewrite counted_visible in C2 by auto. unfold zlen in C2. lia.
Qed.
