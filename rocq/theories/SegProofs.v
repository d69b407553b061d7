(** Proofs about segmented objects. *)
From Coq Require Import Permutation.
From Verif Require Import Base PrimModel PrimProofs NameModel NameProofs OrderProofs TextModel TextProofs TextProofs2 TrieModel TrieSpec ReaderModel CodecModel CodecSpec CodecSpec2 CodecLib SpecModel SpecSpec SchemaModel StoreModel StoreSpec EngineSpec NeedModel NeedSpec NeedProofs SegModel SegSpec.

Lemma firstn_app_le : forall {A} n (a b : list A), (length a <= n)%nat -> firstn n (a ++ b) = a ++ firstn (n - length a) b.
Proof. intros A n a b H. rewrite firstn_app. f_equal. apply firstn_all2. exact H. Qed.
Lemma skipn_app_le : forall {A} n (a b : list A), (length a <= n)%nat -> skipn n (a ++ b) = skipn (n - length a) b.
Proof. intros A n a b H. rewrite skipn_app, skipn_all2 by exact H. reflexivity. Qed.

Lemma take_ok : forall w rem, no_empty w -> exists p r, take_seg rem w = (p, r) /\ concat p = firstn (N.to_nat rem) (concat w) /\ concat r = skipn (N.to_nat rem) (concat w)
  /\ no_empty p /\ no_empty r.
Proof.
  induction w as [|b w IH]; intros rem NE; cbn [take_seg].
  - exists [], []. cbn [concat]. rewrite firstn_nil, skipn_nil. repeat split; constructor.
  - inversion NE as [|? ? NB NW]; subst. destruct (N.eqb_spec rem 0) as [->|R0].
    + exists [], (b :: w). cbn [orb N.to_nat firstn skipn]. repeat split; auto. constructor.
    + destruct (N.eqb_spec (nlen b) 0) as [B0|B0]; [exfalso; unfold nlen in B0; destruct b; [congruence|cbn in B0; lia]|]. cbn [orb].
      destruct (N.leb_spec (nlen b) rem) as [L|L].
      * destruct (IH (rem - nlen b)%N NW) as (p & r & E & P & R & NP & NR). rewrite E. exists (b :: p), r. split; [reflexivity|].
        unfold nlen in *. assert (LN : (length b <= N.to_nat rem)%nat) by lia.
        cbn [concat]. rewrite firstn_app_le, skipn_app_le by exact LN.
        replace (N.to_nat (rem - N.of_nat (length b))) with (N.to_nat rem - length b)%nat in P, R by lia.
        rewrite P. repeat split; auto. constructor; auto.
      * unfold nlen in L. assert (LN : (N.to_nat rem < length b)%nat) by lia.
        exists [firstn (N.to_nat rem) b], (skipn (N.to_nat rem) b :: w). split; [reflexivity|]. cbn [concat]. rewrite app_nil_r.
        rewrite firstn_app, skipn_app. replace (N.to_nat rem - length b)%nat with 0%nat by lia. rewrite firstn_O, app_nil_r. cbn [skipn].
        repeat split; auto; constructor; auto; try constructor.
        { intros H. apply (f_equal (@length N)) in H. rewrite firstn_length in H. cbn in H. lia. }
        { intros H. apply (f_equal (@length N)) in H. rewrite skipn_length in H. cbn in H. lia. }
Qed.

Lemma skipn_skipn' : forall {A} a b (l : list A), skipn a (skipn b l) = skipn (b + a) l.
Proof. intros A a b. revert a. induction b as [|b IH]; intros a l; [reflexivity|]. destruct l; [rewrite !skipn_nil; reflexivity|]. cbn [skipn Nat.add]. apply IH. Qed.

Lemma segments_nth : forall cnt size w i, no_empty w -> (i < cnt)%nat -> exists s, nth_error (segments size cnt w) i = Some s
  /\ concat s = piece size (N.of_nat i) (concat w) /\ no_empty s.
Proof.
  induction cnt as [|cnt IH]; intros size w i NE L; [lia|]. cbn [segments]. destruct (take_ok w size NE) as (p & r & E & P & R & NP & NR). rewrite E.
  destruct i as [|i]; cbn [nth_error].
  - exists p. split; [reflexivity|]. split; [|exact NP]. rewrite P. unfold piece. cbn [N.of_nat]. rewrite N.mul_0_l. reflexivity.
  - destruct (IH size r i NR) as (s & A & B & C); [lia|]. exists s. split; [exact A|]. split; [|exact C]. rewrite B, R. unfold piece.
    rewrite skipn_skipn'. repeat f_equal. lia.
Qed.

Lemma segments_length : forall cnt size w, length (segments size cnt w) = cnt.
Proof. induction cnt as [|cnt IH]; intros size w; cbn [segments]; [reflexivity|]. destruct (take_seg size w). cbn [length]. rewrite IH. reflexivity. Qed.

Lemma segments_concat : forall cnt size w, no_empty w -> (length (concat w) <= cnt * N.to_nat size)%nat -> concat (map (@concat N) (segments size cnt w)) = concat w.
Proof.
  induction cnt as [|cnt IH]; intros size w NE L.
  - cbn [segments map concat]. destruct (concat w); [reflexivity|cbn in L; lia].
  - cbn [segments]. destruct (take_ok w size NE) as (p & r & E & P & R & NP & NR). rewrite E. cbn [map concat]. rewrite IH; auto.
    + rewrite P, R. apply firstn_skipn.
    + rewrite R, skipn_length. lia.
Qed.

Lemma wire_length_from : forall w n, (n + nlen (concat w) < two64)%N -> fold_left (fun n (b : buf) => ((n + nlen b) mod two64)%N) w n = (n + nlen (concat w))%N.
Proof.
  induction w as [|b w IH]; intros n H; cbn [fold_left concat]; [unfold nlen; cbn; lia|].
  cbn [concat] in H. unfold nlen in *. rewrite app_length in *. rewrite N.mod_small by lia. rewrite IH by lia. lia.
Qed.
Lemma wire_length_ok : forall w, (nlen (concat w) < two64)%N -> wire_length w = nlen (concat w).
Proof. intros w H. unfold wire_length. rewrite wire_length_from by lia. lia. Qed.

Lemma seg_count_ok : forall size w, (0 < size)%N -> (nlen (concat w) + size <= two64)%N -> exists cnt, seg_count size w = Ok cnt /\ is_ceil (nlen (concat w)) size cnt /\ (cnt <= nlen (concat w))%N.
Proof.
  intros size w S0 L. unfold seg_count. destruct (N.eqb_spec size 0); [lia|]. rewrite wire_length_ok by lia. rewrite N.mod_small by lia.
  eexists. split; [reflexivity|]. set (len := nlen (concat w)). clearbody len. unfold is_ceil.
  pose proof (N.div_mod (len + size - 1) size ltac:(lia)). pose proof (N.mod_lt (len + size - 1) size ltac:(lia)). split; [split; nia|].
  destruct (N.eq_dec len 0) as [->|]; [rewrite N.div_small; lia|]. apply N.div_le_upper_bound; nia.
Qed.

Lemma ceil_unique : forall len size a b, is_ceil len size a -> is_ceil len size b -> a = b.
Proof. unfold is_ceil. intros. nia. Qed.

(** ** names of segments *)
Lemma nat_enc_len : forall v, (1 <= nlen (nat_enc v) <= 8)%N.
Proof. intros v. rewrite nat_len_enc. unfold nat_len. repeat match goal with |- context [if ?c then _ else _] => destruct c end; lia. Qed.
Lemma num_comp_ok : forall t i, (t < two64)%N -> comp_ok (number_comp t i) /\ comp_short (number_comp t i).
Proof.
  intros t i T. split; [split; [exact T|apply nat_enc_ok]|]. unfold comp_short. cbn [number_comp cval]. pose proof (nat_enc_len i). lia.
Qed.
Lemma name_typed_app : forall n m, name_typed n -> name_typed m -> name_typed (n ++ m).
Proof. intros n m [A B] [C E]. split; apply Forall_app; auto. Qed.
Lemma seg_typed : forall n i, name_typed n -> name_typed (n ++ [seg_comp i]).
Proof. intros n i H. apply name_typed_app; [exact H|]. destruct (num_comp_ok TypeSegment i ltac:(reflexivity)). split; constructor; auto. Qed.

Lemma seg_comp_inj : forall i j, (i < two64)%N -> (j < two64)%N -> seg_comp i = seg_comp j -> i = j.
Proof. intros i j I J H. injection H as H. apply (f_equal unbe64) in H. rewrite !unbe64_nat_enc in H by assumption. exact H. Qed.

Lemma seg_same_name : forall n i j, (i < two64)%N -> (j < two64)%N -> same_name (n ++ [seg_comp i]) (n ++ [seg_comp j]) -> i = j.
Proof.
  intros n i j I J H. unfold same_name, keys in H. rewrite !map_app in H. apply app_inv_head in H. apply (f_equal (hd [])) in H. cbn [map hd] in H.
  apply comp_str_collisions in H; [|apply num_comp_ok; reflexivity..]. destruct H as [H|(_ & _ & H)]; [apply seg_comp_inj; auto|].
  cbn [seg_comp number_comp cval] in H. rewrite !unbe64_nat_enc in H by assumption. exact H.
Qed.

(** ** providing segments *)
Lemma is_prefix_app : forall n s, is_prefix n (n ++ s) = true.
Proof. intros n s. apply is_prefix_iff. exists s. reflexivity. Qed.
Lemma skipn_len_app : forall {A} (a b : list A), skipn (length a) (a ++ b) = b.
Proof. intros A a b. rewrite skipn_app, skipn_all, Nat.sub_diag. reflexivity. Qed.

Section Prov.
  Context {D : Type} (leaf_of : D -> option (leaf D)).
  Implicit Types (x t : mnode D) (l : leaf D) (e : event D).

  Lemma refine_seg : forall x l i, has_segments leaf_of x l -> exists t, refine x (m_name x ++ [seg_comp i]) = Ok (Some t) /\ m_name t = m_name x ++ [seg_comp i]
    /\ leaf_of (s_desc (m_node t)) = Some l.
  Proof.
    intros x l i (d & tag & dl & N & L). unfold refine. rewrite is_prefix_app, skipn_len_app, N. cbn [negb continue_match seg_comp number_comp ctyp].
    cbn [N.eqb TypeSegment TypeParametersSha256Digest TypeImplicitSha256Digest Pos.eqb into s_chd find_edge find fst pat_is_match ctyp continue_match].
    eexists. split; [reflexivity|]. split; [reflexivity|exact L].
  Qed.

  Lemma refine_seg_digest : forall x l i v, has_segments leaf_of x l -> exists t, refine x (m_name x ++ [seg_comp i; mkComp TypeImplicitSha256Digest v]) = Ok (Some t).
  Proof.
    intros x l i v (d & tag & dl & N & L). unfold refine. rewrite is_prefix_app, skipn_len_app, N. cbn [negb continue_match seg_comp number_comp ctyp].
    cbn [N.eqb TypeSegment TypeParametersSha256Digest TypeImplicitSha256Digest Pos.eqb into s_chd find_edge find fst pat_is_match ctyp continue_match].
    eexists. reflexivity.
  Qed.

  Lemma provide_makes : forall l t p c now osc f extra, signs l osc f extra -> name_typed (m_name t) -> data_config_ok c ->
    (data_size (m_name t) c (Some p) + extra < packet_limit)%N ->
    exists w e, provide l t (Some p) (Some c) now = Ok ([ASave e], Some w) /\ concat w = packet_of (m_name t) c p osc f
      /\ ev_target e = Some t /\ ev_dur e = Some (l_valid l) /\ ev_raw e = Some w.
  Proof.
    intros l t p c now osc f extra SG NT DC SZ.
    assert (X : exists acts w, provide l t (Some p) (Some c) now = Ok (acts, Some w) /\ concat w = packet_of (m_name t) c p osc f).
    { inversion SG as [S0|s ls sc g S1 S2 S3 S4 S5]; subst.
      - apply (provide_unsigned D l t (Some p) (Some c) now S0 NT DC). lia.
      - apply (provide_signed D l t (Some p) (Some c) now s ls sc _ S1 NT DC S2 S3); auto; [|lia].
        intros cov E. rewrite S4, E. reflexivity. }
    destruct X as (acts & w & P & C). exists w. unfold provide in *. destruct (make_data _ _ _ _) as [[w1 cv]| | |]; try discriminate. injection P as <- <-.
    eexists. split; [reflexivity|]. repeat split; auto.
  Qed.

  Lemma provide_segs_ok : forall x l c clock osc f extra L i, has_segments leaf_of x l -> signs l osc f extra -> name_typed (m_name x) -> data_config_ok c ->
    Forall (fun p => forall k, (data_size (m_name x ++ [seg_comp k]) c (Some p) + extra < packet_limit)%N) L ->
    exists es ws, provide_segs leaf_of x c clock i L = Ok (map ASave es, map Some ws) /\ length es = length L /\ length ws = length L
      /\ forall k p, nth_error L k = Some p -> exists e w t, nth_error es k = Some e /\ nth_error ws k = Some w
           /\ concat w = packet_of (m_name x ++ [seg_comp (i + N.of_nat k)]) c p osc f
           /\ ev_target e = Some t /\ m_name t = m_name x ++ [seg_comp (i + N.of_nat k)] /\ ev_dur e = Some (l_valid l) /\ ev_raw e = Some w.
  Proof.
    intros x l c clock osc f extra L. induction L as [|p L IH]; intros i HS SG NT DC SZ.
    - exists [], []. repeat split. intros k p H. destruct k; discriminate.
    - inversion SZ as [|? ? S1 S2]; subst. destruct (IH (i + 1)%N HS SG NT DC S2) as (es & ws & P & LE & LW & ALL).
      destruct (refine_seg x l i HS) as (t & R & TN & TL). destruct (provide_makes l t p c (clock i) osc f extra SG) as (w & e & PM & CW & ET & ED & ER); auto.
      { rewrite TN. apply seg_typed. exact NT. } { rewrite TN. apply S1. }
      exists (e :: es), (w :: ws). cbn [provide_segs]. rewrite R. cbn [bind call_provide]. rewrite TL. rewrite PM. cbn [bind fst snd]. rewrite P. cbn [bind fst snd].
      split; [reflexivity|]. cbn [length]. split; [lia|]. split; [lia|]. intros k q H. destruct k as [|k]; cbn [nth_error] in *.
      + injection H as <-. exists e, w, t. cbn [N.of_nat]. rewrite N.add_0_r, <- TN. auto 10.
      + destruct (ALL k q H) as (e' & w' & t' & A1 & A2 & A3 & A4 & A5 & A6 & A7). exists e', w', t'.
        replace (i + N.of_nat (S k))%N with (i + 1 + N.of_nat k)%N by lia. auto 10.
  Qed.

  (** what is put into a storage by these actions *)
  Fixpoint put_list (v : Z) (clock : nat -> Z) (k : nat) (l : list (name * wire)) : list (name * wire * Z) :=
    match l with
    | [] => []
    | (n, w) :: l' => (n, w, clock k + v)%Z :: put_list v clock (S k) l'
    end.

  Lemma save_all_ok : forall v es nws clock k puts h, s_puts s_new puts = Ok h -> length es = length nws ->
    (forall j e, nth_error es j = Some e -> exists t n w, nth_error nws j = Some (n, w) /\ ev_target e = Some t /\ m_name t = n /\ ev_dur e = Some v /\ ev_raw e = Some w) ->
    exists h', save_all h clock k (map ASave es) = Ok h' /\ s_puts s_new (puts ++ put_list v clock k nws) = Ok h'.
  Proof.
    intros v. induction es as [|e es IH]; intros nws clock k puts h E L ALL; destruct nws as [|[n w] nws]; try discriminate.
    - exists h. cbn [map save_all put_list]. rewrite app_nil_r. auto.
    - destruct (ALL 0%nat e eq_refl) as (t & n' & w' & H0 & T & TN & DU & RA). cbn in H0. injection H0 as <- <-.
      destruct (saved puts h (clock k) e t v w E T DU RA) as (h1 & S1 & S2). rewrite TN in S2.
      destruct (IH nws clock (S k) _ h1 S2) as (h' & A & B); [cbn in L; lia|intros j e' J; apply (ALL (S j) e' J)|].
      exists h'. cbn [map save_all]. rewrite S1. cbn [bind]. split; [exact A|]. cbn [put_list]. rewrite (app_cons_assoc puts). exact B.
  Qed.

  Lemma put_list_nth : forall v clock (l : list (name * wire)) k j n w, nth_error l j = Some (n, w) -> exists a b, put_list v clock k l = a ++ (n, w, clock (k + j)%nat + v)%Z :: b
    /\ length a = j /\ forall q, In q b -> exists j', (j < j')%nat /\ nth_error l j' = Some (fst q).
  Proof.
    intros v clock l. induction l as [|[n0 w0] l IH]; intros k j n w H; [destruct j; discriminate|]. destruct j as [|j]; cbn [nth_error] in H.
    - injection H as -> ->. exists [], (put_list v clock (S k) l). cbn [put_list app]. rewrite Nat.add_0_r. split; [reflexivity|]. split; [reflexivity|].
      clear. intros q Q. assert (X : forall (l : list (name * wire)) k, In q (put_list v clock k l) -> exists j, nth_error l j = Some (fst q)).
      { clear. induction l as [|[n w] l IH]; intros k Q; [destruct Q|]. destruct Q as [<-|Q]; [exists 0%nat; reflexivity|]. destruct (IH _ Q) as (j & J). exists (S j). exact J. }
      destruct (X _ _ Q) as (j & J). exists (S j). split; [lia|exact J].
    - destruct (IH (S k) j n w H) as (a & b & E & LA & R). exists ((n0, w0, clock k + v)%Z :: a), b. cbn [put_list app length]. rewrite E, LA.
      replace (k + S j)%nat with (S k + j)%nat by lia. split; [reflexivity|]. split; [reflexivity|]. intros q Q. destruct (R q Q) as (j' & J1 & J2). exists (S j'). split; [lia|exact J2].
  Qed.
End Prov.

(** ** fetching *)
Lemma try_data : forall need k j last r, try need k j last = (true, r) -> exists q, (j <= q < j + k)%nat /\ need q = r /\ r_status r = SData
  /\ forall q', (j <= q' < q)%nat -> r_status (need q') <> SData.
Proof.
  intros need k. induction k as [|k IH]; intros j last r H; cbn [try] in H; [discriminate|].
  destruct (r_status (need j)) eqn:E.
  2: { injection H as <-. exists j. split; [lia|]. split; [reflexivity|]. split; [exact E|]. intros q' Q. lia. }
  all: destruct (IH _ _ _ H) as (q & Q1 & Q2 & Q3 & Q4); exists q; split; [lia|]; split; [exact Q2|]; split; [exact Q3|];
    intros q' Q; (destruct (Nat.eq_dec q' j) as [->|NE]; [congruence|apply Q4; lia]).
Qed.
Lemma try_none : forall need k j last r, try need k j last = (false, r) -> (forall q, (j <= q < j + k)%nat -> r_status (need q) <> SData)
  /\ r = match k with O => last | S _ => need (j + k - 1)%nat end.
Proof.
  intros need k. induction k as [|k IH]; intros j last r H; cbn [try] in H.
  - injection H as <-. split; [intros; lia|reflexivity].
  - destruct (r_status (need j)) eqn:E; try discriminate.
    all: destruct (IH _ _ _ H) as (Q1 & Q2); split; [intros q Q; destruct (Nat.eq_dec q j) as [->|NE]; [congruence|apply Q1; lia]|];
      rewrite Q2; (destruct k as [|k]; [f_equal; lia|f_equal; lia]).
Qed.
Lemma try_ext : forall need need' k j last, (forall q, (j <= q < j + k)%nat -> need q = need' q) -> try need k j last = try need' k j last.
Proof.
  intros need need' k. induction k as [|k IH]; intros j last H; [reflexivity|]. cbn [try]. rewrite <- H by lia. rewrite (IH (S j)); [reflexivity|]. intros q Q. apply H. lia.
Qed.
Lemma fetch_ext : forall {D} (x : mnode D) F k manifest need need' i frags last, (forall n j, (j < k)%nat -> need n j = need' n j) ->
  fetch F x k manifest need i frags last = fetch F x k manifest need' i frags last.
Proof.
  intros D x F k manifest need need'. induction F as [|F IH]; intros i frags last H; [reflexivity|]. cbn [fetch]. cbn zeta.
  destruct (match manifest with [] => _ | _ => _ end) as [nn| | |]; cbn [bind]; try reflexivity.
  destruct (refine x nn) as [t| | |]; cbn [bind]; try reflexivity.
  rewrite (try_ext (need nn) (need' nn) k 0 last) by (intros q Q; apply H; lia).
  destruct t as [t|]; [|destruct k; [|reflexivity]]; destruct (try (need' nn) _ 0 last) as [ok r]; (destruct (match manifest with [] => _ | _ => _ end) as [st| | |]; cbn [bind]; try reflexivity);
    destruct (st || negb ok); try reflexivity; apply IH; exact H.
Qed.
Lemma try_gets : forall need k last r, try need k 0 last = (true, r) <-> gets k need r.
Proof.
  intros need k last r. split.
  - intros H. destruct (try_data _ _ _ _ _ H) as (q & Q1 & Q2 & Q3 & Q4). exists q. split; [lia|]. split; [exact Q2|]. split; [exact Q3|]. intros j' J. apply Q4. lia.
  - intros (j & J1 & J2 & J3 & J4). destruct (try need k 0 last) as [b r'] eqn:E. destruct b.
    + destruct (try_data _ _ _ _ _ E) as (q & Q1 & Q2 & Q3 & Q4). f_equal. rewrite <- J2, <- Q2. f_equal.
      destruct (lt_eq_lt_dec j q) as [[L|L]|L]; [exfalso; apply (Q4 j); [lia|congruence]|congruence|exfalso; apply (J4 q L); congruence].
    + exfalso. apply (proj1 (try_none _ _ _ _ _ E) j); [lia|congruence].
Qed.
Lemma try_gets_none : forall need k last r, (0 < k)%nat -> (try need k 0 last = (false, r) <-> gets_none k need r).
Proof.
  intros need k last r K. split.
  - intros H. destruct (try_none _ _ _ _ _ H) as (Q1 & Q2). split; [exact K|]. split; [intros j J; apply Q1; lia|]. destruct k; [lia|]. rewrite Q2. f_equal.
  - intros (_ & H1 & H2). destruct (try need k 0 last) as [b r'] eqn:E. destruct b.
    + exfalso. destruct (try_data _ _ _ _ _ E) as (q & Q1 & Q2 & Q3 & _). apply (H1 q); [lia|congruence].
    + destruct (try_none _ _ _ _ _ E) as (_ & Q2). f_equal. destruct k; [lia|]. rewrite Q2, <- H2. f_equal.
Qed.
Lemma gets_unique : forall k need r r', gets k need r -> gets k need r' -> r = r'.
Proof. intros k need r r' H H'. apply (try_gets need k no_res) in H, H'. congruence. Qed.
Lemma gets_not_none : forall k need r r', gets k need r -> gets_none k need r' -> False.
Proof. intros k need r r' (j & J1 & J2 & J3 & _) (_ & N & _). apply (N j J1). congruence. Qed.

Section Fetch.
  Context {D : Type} (leaf_of : D -> option (leaf D)).
  Implicit Types (x t : mnode D) (l : leaf D).

  (** the names that are asked for *)
  Definition seg_name x (i : N) : name := m_name x ++ [seg_comp i].

  Lemma fetch_final : forall f x l k need i frags last r, has_segments leaf_of x l -> gets k (need (seg_name x i)) r -> final_of r = Some (seg_comp i) ->
    fetch (S f) x k [] need i frags last = Ok (true, frags ++ content_of r, r).
  Proof.
    intros f x l k need i frags last r HS G FI. cbn [fetch bind]. destruct (refine_seg leaf_of x l i HS) as (t & R & _). rewrite R. cbn [bind].
    apply (try_gets _ _ last) in G. unfold seg_name in G. rewrite G. unfold final_of in FI. destruct (r_data r); [|discriminate]. rewrite FI. cbn [bind].
    rewrite (proj2 (comp_compare_eq _ _) eq_refl). cbn [Z.eqb orb negb]. reflexivity.
  Qed.
  Lemma fetch_next : forall f x l k need i frags last r fb, has_segments leaf_of x l -> gets k (need (seg_name x i)) r -> final_of r = Some fb -> fb <> seg_comp i ->
    fetch (S f) x k [] need i frags last = fetch f x k [] need ((i + 1) mod two64)%N (frags ++ content_of r) r.
  Proof.
    intros f x l k need i frags last r fb HS G FI NE. cbn [fetch bind]. destruct (refine_seg leaf_of x l i HS) as (t & R & _). rewrite R. cbn [bind].
    apply (try_gets _ _ last) in G. unfold seg_name in G. rewrite G. unfold final_of in FI. destruct (r_data r); [|discriminate]. rewrite FI. cbn [bind].
    destruct (Z.eqb_spec (comp_compare fb (seg_comp i)) 0) as [E|E]; [apply comp_compare_eq in E; congruence|]. cbn [orb negb]. reflexivity.
  Qed.
  Lemma fetch_panic : forall f x l k need i frags last r, has_segments leaf_of x l -> gets k (need (seg_name x i)) r -> final_of r = None ->
    fetch (S f) x k [] need i frags last = Panic.
  Proof.
    intros f x l k need i frags last r HS G FI. cbn [fetch bind]. destruct (refine_seg leaf_of x l i HS) as (t & R & _). rewrite R. cbn [bind].
    apply (try_gets _ _ last) in G. unfold seg_name in G. rewrite G. unfold final_of in FI. destruct (r_data r); [rewrite FI|]; reflexivity.
  Qed.
  Lemma fetch_fail : forall f x l k need i frags last r, has_segments leaf_of x l -> gets_none k (need (seg_name x i)) r ->
    fetch (S f) x k [] need i frags last = Ok (false, frags, r).
  Proof.
    intros f x l k need i frags last r HS G. cbn [fetch bind]. destruct (refine_seg leaf_of x l i HS) as (t & R & _). rewrite R. cbn [bind].
    assert (K : (0 < k)%nat) by apply G. apply (try_gets_none _ _ last _ K) in G. unfold seg_name in G. rewrite G. cbn [bind orb negb]. destruct k; [lia|reflexivity].
  Qed.
  Lemma gets_dec : forall k need, (0 < k)%nat -> (exists r, gets k need r) \/ (exists r, gets_none k need r).
  Proof.
    intros k need K. destruct (try need k 0 no_res) as [[|] r] eqn:E; [left|right]; exists r.
    - apply (try_gets need k no_res). exact E.
    - apply (try_gets_none need k no_res); auto.
  Qed.

  (** the results of segments i, i+1, ... *)
  Definition seg_at (i : N) (q : nat) : N := ((i + N.of_nat q) mod two64)%N.
  Definition chain x k (need : name -> nat -> nres) (i : N) (rs : list nres) : Prop :=
    forall q r, nth_error rs q = Some r -> gets k (need (seg_name x (seg_at i q))) r /\ exists fb, final_of r = Some fb /\ fb <> seg_comp (seg_at i q).

  Lemma seg_at_S : forall i q, seg_at ((i + 1) mod two64) q = seg_at i (S q).
  Proof.
    intros i q. unfold seg_at. rewrite N.add_mod_idemp_l by discriminate. f_equal. lia.
  Qed.
  Lemma seg_at_0 : forall i, (i < two64)%N -> seg_at i 0 = i.
  Proof. intros i H. unfold seg_at. cbn [N.of_nat]. rewrite N.add_0_r. apply N.mod_small. exact H. Qed.
  Lemma mod_lt : forall i, (i mod two64 < two64)%N.
  Proof. intros i. apply N.mod_lt. discriminate. Qed.

  Lemma chain_tail : forall x k need i r rs, (i < two64)%N -> chain x k need i (r :: rs) -> chain x k need ((i + 1) mod two64) rs
    /\ gets k (need (seg_name x i)) r /\ exists fb, final_of r = Some fb /\ fb <> seg_comp i.
  Proof.
    intros x k need i r rs I C. split.
    - intros q r' Q. rewrite seg_at_S. apply (C (S q) r' Q).
    - pose proof (C 0%nat r eq_refl) as H. rewrite seg_at_0 in H by exact I. exact H.
  Qed.
  Lemma chain_cons : forall x k need i r rs, (i < two64)%N -> chain x k need ((i + 1) mod two64) rs ->
    gets k (need (seg_name x i)) r -> (exists fb, final_of r = Some fb /\ fb <> seg_comp i) -> chain x k need i (r :: rs).
  Proof.
    intros x k need i r rs I C G N q r' Q. destruct q as [|q]; cbn [nth_error] in Q.
    - injection Q as <-. rewrite seg_at_0 by exact I. auto.
    - rewrite <- seg_at_S. apply (C q r' Q).
  Qed.

  Lemma fetch_complete : forall rs f x l k need i frags last r, has_segments leaf_of x l -> (i < two64)%N -> chain x k need i rs ->
    gets k (need (seg_name x (seg_at i (length rs)))) r -> final_of r = Some (seg_comp (seg_at i (length rs))) -> (length rs < f)%nat ->
    fetch f x k [] need i frags last = Ok (true, frags ++ concat (map content_of (rs ++ [r])), r).
  Proof.
    induction rs as [|r0 rs IH]; intros f x l k need i frags last r HS I C G FI LF; destruct f as [|f]; try (cbn in LF; lia).
    - cbn [length] in G, FI. rewrite seg_at_0 in G, FI by exact I. rewrite (fetch_final f x l k need i frags last r HS G FI). cbn [app map concat]. rewrite app_nil_r. reflexivity.
    - destruct (chain_tail _ _ _ _ _ _ I C) as (C' & G0 & fb & F0 & NE). cbn [length] in G, FI, LF. rewrite <- seg_at_S in G, FI.
      rewrite (fetch_next f x l k need i frags last r0 fb HS G0 F0 NE). rewrite (IH f x l k need _ _ r0 r HS (mod_lt _) C' G FI) by lia.
      cbn [app map concat]. rewrite <- app_assoc. reflexivity.
  Qed.
  Lemma fetch_fails : forall rs f x l k need i frags last r, has_segments leaf_of x l -> (i < two64)%N -> chain x k need i rs ->
    gets_none k (need (seg_name x (seg_at i (length rs)))) r -> (length rs < f)%nat ->
    fetch f x k [] need i frags last = Ok (false, frags ++ concat (map content_of rs), r).
  Proof.
    induction rs as [|r0 rs IH]; intros f x l k need i frags last r HS I C G LF; destruct f as [|f]; try (cbn in LF; lia).
    - cbn [length] in G. rewrite seg_at_0 in G by exact I. rewrite (fetch_fail f x l k need i frags last r HS G). cbn [app map concat]. rewrite app_nil_r. reflexivity.
    - destruct (chain_tail _ _ _ _ _ _ I C) as (C' & G0 & fb & F0 & NE). cbn [length] in G, LF. rewrite <- seg_at_S in G.
      rewrite (fetch_next f x l k need i frags last r0 fb HS G0 F0 NE). rewrite (IH f x l k need _ _ r0 r HS (mod_lt _) C' G) by lia.
      cbn [map concat]. rewrite <- app_assoc. reflexivity.
  Qed.

  Lemma fetch_sound : forall f x l k need i frags last ok frags' r, has_segments leaf_of x l -> (i < two64)%N -> (0 < k)%nat ->
    fetch f x k [] need i frags last = Ok (ok, frags', r) -> exists rs, chain x k need i rs /\ (length rs < f)%nat
      /\ (ok = true -> gets k (need (seg_name x (seg_at i (length rs)))) r /\ final_of r = Some (seg_comp (seg_at i (length rs))) /\ frags' = frags ++ concat (map content_of (rs ++ [r])))
      /\ (ok = false -> gets_none k (need (seg_name x (seg_at i (length rs)))) r /\ frags' = frags ++ concat (map content_of rs)).
  Proof.
    induction f as [|f IH]; intros x l k need i frags last ok frags' r HS I K H; [discriminate|].
    destruct (gets_dec k (need (seg_name x i)) K) as [(r0 & G)|(r0 & G)].
    - destruct (final_of r0) as [fb|] eqn:FI.
      + assert (DEC : fb = seg_comp i \/ fb <> seg_comp i).
        { destruct (Z.eq_dec (comp_compare fb (seg_comp i)) 0) as [E|E]; [left; apply comp_compare_eq; exact E|right; intros ->; apply E; apply comp_compare_eq; reflexivity]. }
        destruct DEC as [->|NE].
        * rewrite (fetch_final f x l k need i frags last r0 HS G FI) in H. injection H as <- <- <-. exists []. split; [intros q r Q; destruct q; discriminate|].
          split; [cbn; lia|]. cbn [length app map concat]. rewrite seg_at_0 by exact I. rewrite !app_nil_r. split; [auto|discriminate].
        * rewrite (fetch_next f x l k need i frags last r0 fb HS G FI NE) in H. destruct (IH x l k need _ _ _ ok frags' r HS (mod_lt _) K H) as (rs & C & LF & T & N).
          exists (r0 :: rs). split; [apply chain_cons; eauto|]. split; [cbn; lia|]. cbn [length]. rewrite <- seg_at_S. split.
          { intros E. destruct (T E) as (T1 & T2 & T3). split; [exact T1|]. split; [exact T2|]. rewrite T3. cbn [app map concat]. rewrite <- app_assoc. reflexivity. }
          { intros E. destruct (N E) as (N1 & N2). split; [exact N1|]. rewrite N2. cbn [map concat]. rewrite <- app_assoc. reflexivity. }
      + rewrite (fetch_panic f x l k need i frags last r0 HS G FI) in H. discriminate.
    - rewrite (fetch_fail f x l k need i frags last r0 HS G) in H. injection H as <- <- <-. exists []. split; [intros q r Q; destruct q; discriminate|].
      split; [cbn; lia|]. cbn [length map concat]. rewrite seg_at_0 by exact I. rewrite app_nil_r. split; [discriminate|auto].
  Qed.

  (** the chain cannot come back to segment 0 *)
  Lemma chain_short : forall x k need rs r, chain x k need 0 rs ->
    (gets k (need (seg_name x (seg_at 0 (length rs)))) r /\ final_of r = Some (seg_comp (seg_at 0 (length rs))) \/ gets_none k (need (seg_name x (seg_at 0 (length rs)))) r) ->
    (N.of_nat (length rs) < two64)%N.
  Proof.
    intros x k need rs r C H. destruct (N.ltb_spec (N.of_nat (length rs)) two64) as [L|L]; [exact L|exfalso].
    set (m := (length rs - N.to_nat two64)%nat).
    assert (EQ : seg_at 0 (length rs) = seg_at 0 m).
    { unfold seg_at. rewrite !N.add_0_l. replace (N.of_nat (length rs)) with (N.of_nat m + 1 * two64)%N by (unfold m; unfold two64 in *; lia). apply N.mod_add. discriminate. }
    destruct (nth_error rs m) as [rm|] eqn:M; [|apply nth_error_None in M; unfold m, two64 in *; lia].
    destruct (C m rm M) as (G & fb & F1 & F2). rewrite EQ in H. destruct H as [[G' F']|G'].
    - pose proof (gets_unique _ _ _ _ G G') as E. subst rm. congruence.
    - exact (gets_not_none _ _ _ _ G G').
  Qed.

  (** a segment with the right FinalBlockID is never found: the pipeline does not end *)
  Lemma fetch_endless : forall f x l k need i frags last, has_segments leaf_of x l -> (i < two64)%N ->
    (forall q, (q < two64)%N -> exists r fb, gets k (need (seg_name x q)) r /\ final_of r = Some fb /\ fb <> seg_comp q) ->
    fetch f x k [] need i frags last = Hang.
  Proof.
    induction f as [|f IH]; intros x l k need i frags last HS I ALL; [reflexivity|]. destruct (ALL i I) as (r & fb & G & F1 & F2).
    rewrite (fetch_next f x l k need i frags last r fb HS G F1 F2). apply (IH x l); auto. apply mod_lt.
  Qed.

  (** ** with a manifest *)
  Definition man_name x (i : N) (d : buf) : name := m_name x ++ [seg_comp i; mkComp TypeImplicitSha256Digest d].

  Lemma fetch_man : forall f x l k manifest need i frags last d ok r, has_segments leaf_of x l -> manifest <> [] -> nth_error manifest (N.to_nat i) = Some d ->
    try (need (man_name x i d)) k 0 last = (ok, r) ->
    fetch (S f) x k manifest need i frags last =
      let frags' := if ok then frags ++ content_of r else frags in
      if (Z.of_N i =? Z.of_nat (length manifest) - 1)%Z || negb ok then Ok (ok, frags', r) else fetch f x k manifest need ((i + 1) mod two64)%N frags' r.
  Proof.
    intros f x l k manifest need i frags last d ok r HS NE NT T. cbn [fetch bind]. destruct manifest as [|m0 manifest]; [congruence|]. rewrite NT. cbn [bind].
    destruct (refine_seg_digest leaf_of x l i d HS) as (t & R). rewrite R. cbn [bind]. unfold man_name in T. rewrite T. reflexivity.
  Qed.

  Lemma fetch_man_all : forall rest pre f x l k need frags last rs, has_segments leaf_of x l -> (0 < length rest)%nat -> (N.of_nat (length (pre ++ rest)) < two64)%N ->
    length rs = length rest -> (forall q d r, nth_error rest q = Some d -> nth_error rs q = Some r -> gets k (need (man_name x (N.of_nat (length pre + q)) d)) r) -> (length rest <= f)%nat ->
    exists r, fetch f x k (pre ++ rest) need (N.of_nat (length pre)) frags last = Ok (true, frags ++ concat (map content_of rs), r) /\ nth_error rs (length rs - 1) = Some r.
  Proof.
    induction rest as [|d rest IH]; intros pre f x l k need frags last rs HS L0 LT LR ALL LF; [cbn in L0; lia|].
    destruct f as [|f]; [cbn in LF; lia|]. destruct rs as [|r0 rs]; [discriminate|].
    assert (G : gets k (need (man_name x (N.of_nat (length pre)) d)) r0).
    { specialize (ALL 0%nat d r0 eq_refl eq_refl). rewrite Nat.add_0_r in ALL. exact ALL. }
    apply (try_gets _ _ last) in G. assert (NT : nth_error (pre ++ d :: rest) (N.to_nat (N.of_nat (length pre))) = Some d).
    { rewrite Nat2N.id, nth_error_app2 by lia. rewrite Nat.sub_diag. reflexivity. }
    rewrite (fetch_man f x l k (pre ++ d :: rest) need _ frags last d true r0 HS); auto; [|destruct pre; discriminate]. cbn [negb orb].
    rewrite app_length in *. cbn [length] in *. destruct rest as [|d' rest'].
    - destruct rs; [|discriminate]. cbn [length]. replace (Z.of_N (N.of_nat (length pre)) =? Z.of_nat (length pre + 1) - 1)%Z with true by (symmetry; apply Z.eqb_eq; lia).
      cbn [orb]. exists r0. cbn [map concat]. rewrite app_nil_r. split; reflexivity.
    - replace (Z.of_N (N.of_nat (length pre)) =? Z.of_nat (length pre + S (length (d' :: rest'))) - 1)%Z with false by (symmetry; apply Z.eqb_neq; cbn [length]; lia). cbn [orb].
      replace (pre ++ d :: d' :: rest') with ((pre ++ [d]) ++ d' :: rest') by (rewrite <- app_assoc; reflexivity).
      replace ((N.of_nat (length pre) + 1) mod two64)%N with (N.of_nat (length (pre ++ [d]))).
      2: { rewrite app_length. cbn [length]. rewrite N.mod_small; [lia|]. cbn [length] in LT. unfold two64 in *. lia. }
      destruct (IH (pre ++ [d]) f x l k need (frags ++ content_of r0) r0 rs HS) as (r & E & NR); try (cbn [length] in *; rewrite ?app_length in *; cbn [length] in *; lia).
      { intros q d2 r2 Q1 Q2. specialize (ALL (S q) d2 r2 Q1 Q2). rewrite app_length. cbn [length]. replace (length pre + 1 + q)%nat with (length pre + S q)%nat by lia. exact ALL. }
      exists r. rewrite E. cbn [map concat]. rewrite <- app_assoc. split; [reflexivity|]. destruct rs; [discriminate|]. cbn [length] in *. replace (S (S (length rs)) - 1)%nat with (S (S (length rs) - 1)) by lia. exact NR.
  Qed.
End Fetch.
