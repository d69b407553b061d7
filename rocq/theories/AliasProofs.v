(** Proofs about [AliasModel]. *)
From Verif Require Import Base NameModel AliasModel AliasSpec.

Section Heap.
  Context {A : Type}.
  Implicit Types h : list (list A).

  Lemma put_length : forall B (l : list B) i x, length (put_at l i x) = length l.
  Proof. induction l as [|y l IH]; intros [|i] x; cbn [put_at length]; auto. Qed.
  Lemma put_same : forall B (l : list B) i x d, i < length l -> nth i (put_at l i x) d = x.
  Proof. induction l as [|y l IH]; intros [|i] x d H; cbn [put_at length nth] in *; try lia; auto. apply IH; lia. Qed.
  Lemma put_other : forall B (l : list B) i j x d, i <> j -> nth j (put_at l i x) d = nth j l d.
  Proof.
    induction l as [|y l IH]; intros [|i] [|j] x d H; cbn [put_at nth]; try reflexivity; try congruence. apply IH; congruence.
  Qed.
  Lemma put_firstn : forall B (l : list B) i k x, k <= i -> firstn k (put_at l i x) = firstn k l.
  Proof. induction l as [|y l IH]; intros [|i] [|k] x H; cbn [put_at firstn]; try reflexivity; try lia. f_equal. apply IH; lia. Qed.
  Lemma put_split : forall B (l : list B) i x, i < length l -> put_at l i x = firstn i l ++ x :: skipn (S i) l.
  Proof.
    induction l as [|y l IH]; intros [|i] x H; cbn [put_at length firstn skipn app] in *; try lia; try reflexivity.
    f_equal. apply IH; lia.
  Qed.

  Lemma arr_write : forall h a i x, a < length h -> arr (write h a i x) a = put_at (arr h a) i x.
  Proof. intros. unfold arr at 1, write. apply put_same; auto. Qed.
  Lemma arr_write_other : forall h a b i x, a <> b -> arr (write h a i x) b = arr h b.
  Proof. intros. unfold arr at 1, write. apply put_other; auto. Qed.
  Lemma arr_new : forall h l, arr (h ++ [l]) (length h) = l.
  Proof. intros. unfold arr. rewrite app_nth2, Nat.sub_diag by lia. reflexivity. Qed.
  Lemma arr_old : forall h l a, a < length h -> arr (h ++ l) a = arr h a.
  Proof. intros. unfold arr. apply app_nth1; auto. Qed.

  Lemma firstn_skipn_comm' : forall (l : list A) m n, firstn m (skipn n l) = skipn n (firstn (n + m) l).
  Proof. intros. apply firstn_skipn_comm. Qed.

  (** writing behind the end of a slice does not change it *)
  Lemma read_write : forall h s a i x, (s_arr s <> a \/ s_end s <= i) -> read (write h a i x) s = read h s.
  Proof.
    intros h s a i x H. unfold read.
    destruct (Nat.eq_dec (s_arr s) a) as [E|E].
    - destruct H as [H|H]; [congruence|]. subst a.
      destruct (lt_dec (s_arr s) (length h)) as [L|L].
      + rewrite arr_write by auto. rewrite !firstn_skipn_comm'. f_equal. apply put_firstn. exact H.
      + unfold write, arr. rewrite (nth_overflow (put_at h _ _)) by (rewrite put_length; lia).
        rewrite nth_overflow by lia. reflexivity.
    - rewrite arr_write_other by congruence. reflexivity.
  Qed.
  Lemma read_new : forall h l s, s_arr s < length h -> read (h ++ l) s = read h s.
  Proof. intros. unfold read. rewrite arr_old by auto. reflexivity. Qed.
  Lemma read_length : forall h s, s_end s <= length (arr h (s_arr s)) -> length (read h s) = s_len s.
  Proof. intros h s H. unfold read, s_end in *. rewrite firstn_length, skipn_length. lia. Qed.

  Variable zero : A.
  Variable room : nat -> nat.

  Lemma append_read : forall h s x h' s', wf h s -> go_append zero room h s x = (h', s') -> read h' s' = read h s ++ [x] /\ wf h' s'.
  Proof.
    intros h s x h' s' [W1 W2]. unfold go_append.
    destruct (Nat.ltb_spec (s_end s) (length (arr h (s_arr s)))) as [L|L]; intros H; injection H as <- <-.
    - split.
      + unfold read; cbn [s_arr s_off s_len]. rewrite arr_write by auto.
        rewrite put_split by auto. rewrite !firstn_skipn_comm'.
        unfold s_end in *.
        rewrite firstn_app. rewrite firstn_length. rewrite firstn_firstn.
        replace (Nat.min (s_off s + S (s_len s)) (s_off s + s_len s)) with (s_off s + s_len s) by lia.
        rewrite Nat.min_l by lia.
        replace (s_off s + S (s_len s) - (s_off s + s_len s)) with 1 by lia.
        cbn [firstn]. rewrite skipn_app. rewrite firstn_length, Nat.min_l by lia.
        replace (s_off s - (s_off s + s_len s)) with 0 by lia. reflexivity.
      + split; cbn [s_arr].
        * unfold write. rewrite put_length. auto.
        * rewrite arr_write by auto. rewrite put_length. unfold s_end in *; cbn [s_off s_len]. lia.
    - assert (Hl := read_length h s W2). split.
      + unfold read at 1; cbn [s_arr s_off s_len]. rewrite arr_new. cbn [skipn].
        rewrite <- Hl. replace (S (length (read h s))) with (length (read h s) + 1) by lia.
        rewrite firstn_app_2. reflexivity.
      + split; cbn [s_arr].
        * rewrite app_length; cbn [length]; lia.
        * rewrite arr_new. unfold s_end; cbn [s_off s_len]. rewrite app_length, Hl. cbn [length]. lia.
  Qed.
  (** append leaves what does not reach behind the slice as it is *)
  Lemma append_frame : forall h s x h' s' t, go_append zero room h s x = (h', s') ->
    s_arr t < length h -> (s_arr t <> s_arr s \/ s_end t <= s_end s) -> read h' t = read h t.
  Proof.
    intros h s x h' s' t. unfold go_append. destruct (Nat.ltb _ _); intros H Ht Hs; injection H as <- <-.
    - apply read_write. exact Hs.
    - apply read_new. exact Ht.
  Qed.
  Lemma append_wf : forall h s x h' s' t, go_append zero room h s x = (h', s') -> wf h t -> wf h' t.
  Proof.
    intros h s x h' s' t. unfold go_append. destruct (Nat.ltb _ _); intros H [W1 W2]; injection H as <- <-.
    - split; [unfold write; rewrite put_length; auto|].
      destruct (Nat.eq_dec (s_arr t) (s_arr s)) as [E|E].
      + rewrite E in *. rewrite arr_write by auto. rewrite put_length. auto.
      + rewrite arr_write_other by congruence. auto.
    - split; [rewrite app_length; lia|]. rewrite arr_old by auto. auto.
  Qed.
  Lemma append_heap : forall h s x h' s', go_append zero room h s x = (h', s') -> length h <= length h'.
  Proof.
    intros h s x h' s'. unfold go_append. destruct (Nat.ltb _ _); intros H; injection H as <- <-.
    - unfold write. rewrite put_length. auto.
    - rewrite app_length. lia.
  Qed.
  (** where the new slice is *)
  Lemma append_where : forall h s x h' s', go_append zero room h s x = (h', s') ->
    (s_arr s' = s_arr s /\ s_end s' = S (s_end s)) \/ (length h <= s_arr s').
  Proof.
    intros h s x h' s'. unfold go_append. destruct (Nat.ltb _ _); intros H; injection H as <- <-.
    - left. unfold s_end; cbn [s_arr s_off s_len]. split; [reflexivity|lia].
    - right. cbn [s_arr]. lia.
  Qed.

  (** * Trees *)
  Section Ind.
    Variable P : ptree A -> Prop.
    Hypothesis H : forall e chd, Forall P chd -> P (PNode e chd).
    Fixpoint ptree_rect' (t : ptree A) : P t :=
      match t with
      | PNode e chd => H e chd ((fix go (l : list (ptree A)) : Forall P l :=
          match l with [] => Forall_nil P | c :: l' => Forall_cons c (ptree_rect' c) (go l') end) chd)
      end.
  End Ind.

  (** the loop of [on_attach] *)
  Fixpoint att_loop (path : slice) (cs : list (ptree A)) (h : list (list A)) : list (list A) * list slice :=
    match cs with
    | [] => (h, [])
    | c :: cs' =>
        let (h2, nxt) := go_append zero room h path (p_edge c) in
        let (h3, l) := on_attach zero room c h2 nxt in
        let (h4, l') := att_loop path cs' h3 in
        (h4, l ++ l')
    end.
  Lemma on_attach_eq : forall e chd h path, on_attach zero room (PNode e chd) h path
    = let (h1, own) := go_make h (read h path) in let (h5, l) := att_loop path chd h1 in (h5, own :: l).
  Proof.
    intros. cbn [on_attach]. unfold go_make.
    match goal with |- (let (_, _) := ?f chd ?hh in _) = _ => assert (E : forall cs k, f cs k = att_loop path cs k) end.
    { induction cs as [|c cs IH]; intros k; cbn [att_loop]; [reflexivity|].
      destruct (go_append zero room k path (p_edge c)) as [h2 nxt].
      destruct (on_attach zero room c h2 nxt) as [h3 l]. rewrite IH. reflexivity. }
    rewrite E. reflexivity.
  Qed.

  (** slices that attaching a path leaves alone *)
  Definition apart (h : list (list A)) (path t : slice) : Prop := wf h t /\ (s_arr t <> s_arr path \/ s_end t <= s_end path).

  Definition att_ok (t : ptree A) : Prop := forall h path h' l, wf h path -> on_attach zero room t h path = (h', l) ->
    length h <= length h'
    /\ (forall s, apart h path s -> read h' s = read h s /\ wf h' s)
    /\ map (read h') l = paths t (read h path)
    /\ (forall s, In s l -> wf h' s /\ length h <= s_arr s).

  Lemma att_all : forall t, att_ok t.
  Proof.
    apply ptree_rect'. intros e chd Hc h path h' l W. rewrite on_attach_eq. unfold go_make.
    destruct (att_loop path chd (h ++ [read h path])) as [h5 l5] eqn:El. intros H; injection H as <- <-.
    set (h1 := h ++ [read h path]) in *. set (own := mkSl (length h) 0 (length (read h path))).
    assert (L1 : length h1 = S (length h)) by (unfold h1; rewrite app_length; cbn [length]; lia).
    assert (Hr : read h1 own = read h path).
    { unfold read at 1, own; cbn [s_arr s_off s_len]. unfold h1. rewrite arr_new. cbn [skipn]. apply firstn_all. }
    assert (Wo : wf h1 own).
    { unfold wf, own, s_end; cbn [s_arr s_off s_len]. unfold h1. rewrite arr_new, app_length. cbn [length]. lia. }
    assert (Wp : wf h1 path).
    { destruct W as [W1 W2]. split; [lia|]. unfold h1. rewrite arr_old by auto. auto. }
    assert (Rp : read h1 path = read h path) by (unfold h1; apply read_new; destruct W; auto).
    assert (G : forall cs, Forall att_ok cs -> forall hh h5 l5, wf hh path -> length h1 <= length hh ->
       (forall s, apart hh path s -> True) -> att_loop path cs hh = (h5, l5) ->
       length hh <= length h5
       /\ (forall s, apart hh path s -> read h5 s = read hh s /\ wf h5 s)
       /\ map (read h5) l5 = flat_map (fun c => paths c (read hh path ++ [p_edge c])) cs
       /\ (forall s, In s l5 -> wf h5 s /\ length hh <= s_arr s)).
    { induction cs as [|c cs IH]; intros HF hh k5 m5 Wh Lh _ Eq; cbn [att_loop] in Eq.
      - injection Eq as <- <-. split; [lia|]. split; [intros s [Ws _]; auto|]. split; [reflexivity|intros s []].
      - apply Forall_cons_iff in HF. destruct HF as [Pc Pcs].
        destruct (go_append zero room hh path (p_edge c)) as [h2 nxt] eqn:Ea.
        destruct (on_attach zero room c h2 nxt) as [h3 l3] eqn:Eo.
        destruct (att_loop path cs h3) as [h4 l4] eqn:Et. injection Eq as <- <-.
        destruct (append_read _ _ _ _ _ Wh Ea) as [Rn Wn].
        destruct (Pc _ _ _ _ Wn Eo) as [L3 [K3 [M3 N3]]].
        assert (L2 := append_heap _ _ _ _ _ Ea).
        assert (Ap : forall s, apart hh path s -> apart h2 nxt s /\ read h2 s = read hh s).
        { intros s [Ws Hs]. split.
          - split; [eapply append_wf; eauto|]. destruct (append_where _ _ _ _ _ Ea) as [[E1 E2]|E1].
            + rewrite E1, E2. destruct Hs; [left; auto|right; lia].
            + left. destruct Ws. lia.
          - eapply append_frame; eauto. destruct Ws; auto. }
        assert (App : apart hh path path) by (split; auto).
        assert (Wp3 : wf h3 path) by (apply K3; apply Ap; auto).
        assert (Rp3 : read h3 path = read hh path).
        { destruct (Ap _ App) as [A1 A2]. destruct (K3 _ A1) as [B1 _]. congruence. }
        destruct (IH Pcs h3 h4 l4 Wp3 ltac:(lia) ltac:(auto) Et) as [L4 [K4 [M4 N4]]].
        split; [lia|]. split; [|split].
        + intros s Hs. destruct (Ap _ Hs) as [A1 A2]. destruct (K3 _ A1) as [B1 B2].
          destruct (K4 s) as [C1 C2]; [split; auto; apply Hs|]. split; [congruence|auto].
        + rewrite map_app. cbn [flat_map]. f_equal.
          * rewrite <- Rn, <- M3. apply map_ext_in. intros s Hs. destruct (N3 _ Hs) as [D1 D2].
            apply K4. split; auto. left. destruct Wh. lia.
          * rewrite M4, Rp3. reflexivity.
        + intros s Hs. apply in_app_or in Hs. destruct Hs as [Hs|Hs].
          * destruct (N3 _ Hs) as [D1 D2]. split; [|lia]. apply K4. split; auto. left. destruct Wh. lia.
          * destruct (N4 _ Hs). split; auto; lia. }
    destruct (G chd Hc h1 h5 l5 Wp ltac:(lia) ltac:(auto) El) as [L5 [K5 [M5 N5]]].
    split; [lia|]. split; [|split].
    - intros s [Ws Hs]. destruct (K5 s) as [B1 B2].
      + split; auto. destruct Ws as [W1 W2]. split; [lia|]. unfold h1. rewrite arr_old by auto. auto.
      + split; auto. rewrite B1. unfold h1. apply read_new. destruct Ws; auto.
    - cbn [map paths]. f_equal.
      + rewrite <- Hr. apply K5. split; auto. left. unfold own; cbn [s_arr]. destruct W. lia.
      + rewrite M5, Rp. reflexivity.
    - intros s [<-|Hs].
      + split; [|unfold own; cbn [s_arr]; lia]. apply K5. split; auto. left. unfold own; cbn [s_arr]. destruct W. lia.
      + destruct (N5 _ Hs). split; auto; lia.
  Qed.
End Heap.

(** * Programs *)
Section Names.
  Variable room : nat -> nat.
  Notation heap := (list (list comp)).

  (** number [k] has been given and its room has not been used *)
  Definition lives (us : list use) (spent : list nat) (k : nat) : Prop := nth k us Never = Once k /\ ~ In k spent.

  (** what is known of variable [s] with use [u]: [P k] is where the room of number [k] begins *)
  Definition pos_ok (h : heap) (P : nat -> nat * nat) (us : list use) (spent : list nat) (s : slice) (u : use) : Prop :=
    match u with
    | Always => s_end s = length (arr h (s_arr s))
    | Once k => nth k us Never = Once k /\ (In k spent \/ (s_arr s, s_end s) = P k)
    | Never => True
    end.

  Record inv (h : heap) (rs : list slice) (vs : list name) (us : list use) (spent : list nat) (P : nat -> nat * nat) : Prop := mkInv {
    i_len : length us = length rs;
    i_h : 0 < length h;
    i_val : map (read h) rs = vs;
    i_wf : forall s, In s rs -> wf h s;
    i_pos : forall i, i < length rs -> pos_ok h P us spent (nth i rs nil_name) (nth i us Never);
    i_sep : forall k s, lives us spent k -> In s rs -> s_arr s = fst (P k) -> s_end s <= snd (P k);
    i_inj : forall k k', lives us spent k -> lives us spent k' -> fst (P k) = fst (P k') -> k = k';
    i_old : forall k, lives us spent k -> fst (P k) < length h }.

  Lemma nth_app_l : forall B (l l' : list B) i d, i < length l -> nth i (l ++ l') d = nth i l d.
  Proof. intros. apply app_nth1; auto. Qed.
  Lemma nth_once : forall us k, nth k us Never = Once k -> k < length us.
  Proof. intros us k H. destruct (lt_dec k (length us)); auto. rewrite nth_overflow in H by lia. discriminate. Qed.

  Lemma inv_push : forall h rs vs us spent P h' s' u' v' spent',
    inv h rs vs us spent P ->
    length h <= length h' ->
    (forall a, a < length h -> length (arr h' a) = length (arr h a)) ->
    (forall s, In s rs -> read h' s = read h s) ->
    (forall k, In k spent -> In k spent') ->
    wf h' s' -> read h' s' = v' ->
    (forall k, lives us spent' k -> s_arr s' = fst (P k) -> s_end s' <= snd (P k)) ->
    match u' with
    | Never => True
    | Always => s_end s' = length (arr h' (s_arr s'))
    | Once k =>
        (k < length us /\ nth k us Never = Once k /\ (In k spent' \/ (s_arr s', s_end s') = P k))
        \/ (k = length us /\ ~ In k spent' /\ (forall k, lives us spent' k -> fst (P k) <> s_arr s') /\ (forall s, In s rs -> s_arr s = s_arr s' -> s_end s <= s_end s'))
    end ->
    exists P', inv h' (rs ++ [s']) (vs ++ [v']) (us ++ [u']) spent' P'.
  Proof.
    intros h rs vs us spent P h' s' u' v' spent' I Lh La Hr Hs Ws' Rs' Hsep Hu.
    set (n := length us) in *.
    exists (fun k => if Nat.eqb k n then (s_arr s', s_end s') else P k).
    assert (Elen := i_len _ _ _ _ _ _ I).
    assert (Wold : forall s, In s rs -> wf h' s).
    { intros s Hin. destruct (i_wf _ _ _ _ _ _ I s Hin) as [W1 W2]. split; [lia|]. rewrite La by auto. auto. }
    assert (Lv : forall k, k <> n -> lives (us ++ [u']) spent' k -> lives us spent' k).
    { intros k Hk [H1 H2]. split; auto.
      destruct (lt_dec k n) as [L|L]; [rewrite nth_app_l in H1 by auto; auto|].
      rewrite nth_overflow in H1 by (rewrite app_length; cbn [length]; unfold n in *; lia). discriminate. }
    assert (Lo : forall k, lives us spent' k -> lives us spent k).
    { intros k [H1 H2]. split; auto. }
    assert (Ln : forall k, lives us spent' k -> k <> n).
    { intros k [H1 _]. apply nth_once in H1. unfold n. lia. }
    assert (Hn : lives (us ++ [u']) spent' n -> u' = Once n /\ (forall k, lives us spent' k -> fst (P k) <> s_arr s') /\ (forall s, In s rs -> s_arr s = s_arr s' -> s_end s <= s_end s')).
    { intros [H1 H2]. unfold n in H1. rewrite app_nth2, Nat.sub_diag in H1 by lia. cbn [nth] in H1. subst u'.
      destruct Hu as [[Hx _]|[_ [_ [Hx Hy]]]]; [unfold n in Hx; lia|]. split; auto. }
    split.
    - rewrite !app_length. cbn [length]. lia.
    - assert (H := i_h _ _ _ _ _ _ I). lia.
    - rewrite map_app. cbn [map]. rewrite Rs'. f_equal. rewrite <- (i_val _ _ _ _ _ _ I). apply map_ext_in. exact Hr.
    - intros s Hin. apply in_app_or in Hin. destruct Hin as [Hin|[<-|[]]]; auto.
    - intros i Hi. rewrite app_length in Hi; cbn [length] in Hi.
      destruct (lt_dec i (length rs)) as [L|L].
      + rewrite !nth_app_l by (unfold n in *; lia).
        assert (Hp := i_pos _ _ _ _ _ _ I i L).
        assert (Hin : In (nth i rs nil_name) rs) by (apply nth_In; auto).
        destruct (i_wf _ _ _ _ _ _ I _ Hin) as [W1 W2].
        destruct (nth i us Never) as [|k|]; cbn [pos_ok] in *; auto.
        * rewrite La by auto. auto.
        * destruct Hp as [H1 H2]. assert (Hk := nth_once _ _ H1). split.
          { rewrite nth_app_l by auto. auto. }
          destruct H2 as [H2|H2]; [left; auto|]. right. destruct (Nat.eqb_spec k n); [unfold n in *; lia|auto].
      + assert (i = length rs) by lia. subst i. rewrite (app_nth2 rs), Nat.sub_diag by lia.
        rewrite <- Elen. rewrite app_nth2, Nat.sub_diag by lia. cbn [nth].
        destruct u' as [|k|]; cbn [pos_ok]; auto.
        destruct Hu as [[Hk [H1 H2]]|[-> [H0 [H1 H2]]]].
        * split; [rewrite nth_app_l by auto; auto|]. destruct H2 as [H2|H2]; [left; auto|].
          right. destruct (Nat.eqb_spec k n); [lia|auto].
        * split; [unfold n; rewrite app_nth2, Nat.sub_diag by lia; reflexivity|]. right. rewrite Nat.eqb_refl. reflexivity.
    - intros k s Hl Hin. destruct (Nat.eqb_spec k n) as [->|Hk]; cbn [fst snd].
      + intros Ea. destruct (Hn Hl) as [_ [_ H2]]. apply in_app_or in Hin. destruct Hin as [Hin|[<-|[]]]; auto.
      + intros Ea. assert (Hl' := Lv _ Hk Hl). apply in_app_or in Hin. destruct Hin as [Hin|[<-|[]]]; auto.
        apply (i_sep _ _ _ _ _ _ I); auto.
    - intros k k' Hl Hl'. destruct (Nat.eqb_spec k n) as [->|Hk]; destruct (Nat.eqb_spec k' n) as [->|Hk']; cbn [fst]; auto.
      + intros E. destruct (Hn Hl) as [_ [H1 _]]. exfalso. apply (H1 k'); auto.
      + intros E. destruct (Hn Hl') as [_ [H1 _]]. exfalso. apply (H1 k); auto.
      + apply (i_inj _ _ _ _ _ _ I); auto.
    - intros k Hl. destruct (Nat.eqb_spec k n) as [->|Hk]; cbn [fst].
      + destruct Ws'; auto.
      + assert (H := i_old _ _ _ _ _ _ I k (Lo _ (Lv _ Hk Hl))). lia.
  Qed.

  Lemma wf_nil : forall h : heap, 0 < length h -> wf h nil_name.
  Proof. intros h H. split; [exact H|]. unfold s_end; cbn [nil_name s_off s_len]. lia. Qed.
  Lemma read_nil : forall h : heap, read h nil_name = [].
  Proof. intros. reflexivity. Qed.

  Section Step.
    Variables (h : heap) (rs : list slice) (vs : list name) (us : list use) (spent : list nat) (P : nat -> nat * nat).
    Hypothesis I : inv h rs vs us spent P.

    Lemma reg_val : forall i, read h (nth i rs nil_name) = nth i vs [].
    Proof.
      intros i. rewrite <- (i_val _ _ _ _ _ _ I). rewrite <- (read_nil h). rewrite map_nth. reflexivity.
    Qed.
    Lemma reg_wf : forall i, wf h (nth i rs nil_name).
    Proof.
      intros i. destruct (lt_dec i (length rs)) as [L|L].
      - apply (i_wf _ _ _ _ _ _ I). apply nth_In; auto.
      - rewrite nth_overflow by lia. apply wf_nil. apply (i_h _ _ _ _ _ _ I).
    Qed.
    Lemma reg_len : forall i, s_len (nth i rs nil_name) = length (nth i vs []).
    Proof. intros i. rewrite <- reg_val. symmetry. apply read_length. apply reg_wf. Qed.
    Lemma use_in : forall i, use_of us i <> Never -> i < length rs.
    Proof.
      intros i H. destruct (lt_dec i (length rs)) as [L|L]; auto. exfalso. apply H. unfold use_of.
      apply nth_overflow. rewrite (i_len _ _ _ _ _ _ I). lia.
    Qed.

    (** a slice in an array of its own *)
    Lemma push_own : forall l s v u, s_arr s = length h -> s_end s <= length l -> read (h ++ [l]) s = v ->
      ((u = Always /\ s_end s = length l) \/ (u = Once (length us)) \/ u = Never) ->
      (forall k, In k spent -> k < length us) ->
      exists P', inv (h ++ [l]) (rs ++ [s]) (vs ++ [v]) (us ++ [u]) spent P'.
    Proof.
      intros l s v u Ha He Hv Hu Hsp.
      apply (inv_push h rs vs us spent P); auto.
      - rewrite app_length. lia.
      - intros a La. rewrite arr_old by auto. reflexivity.
      - intros t Ht. apply read_new. apply (i_wf _ _ _ _ _ _ I t Ht).
      - split; rewrite Ha; [rewrite app_length; cbn [length]; lia|]. rewrite arr_new. auto.
      - intros k Hl E. assert (H := i_old _ _ _ _ _ _ I k Hl). lia.
      - destruct Hu as [[-> He']|[->| ->]]; auto.
        + rewrite Ha, arr_new. auto.
        + right. split; [reflexivity|]. split; [intros Hin; apply Hsp in Hin; lia|]. split.
          * intros k Hl E. assert (H := i_old _ _ _ _ _ _ I k Hl). lia.
          * intros t Ht E. assert (H := i_wf _ _ _ _ _ _ I t Ht). destruct H. lia.
    Qed.

    (** another view of a slice *)
    Lemma push_view : forall i s v u, wf h s -> s_arr s = s_arr (nth i rs nil_name) -> read h s = v ->
      s_end s <= s_end (nth i rs nil_name) ->
      (u = Never \/ (u = use_of us i /\ s_end s = s_end (nth i rs nil_name))) ->
      exists P', inv h (rs ++ [s]) (vs ++ [v]) (us ++ [u]) spent P'.
    Proof.
      intros i s v u W Ha Hv He Hu.
      apply (inv_push h rs vs us spent P); auto.
      - intros k Hl E. rewrite Ha in E.
        destruct (lt_dec i (length rs)) as [L|L].
        + assert (H := i_sep _ _ _ _ _ _ I k (nth i rs nil_name) Hl (nth_In _ _ L) E). lia.
        + rewrite nth_overflow in He by lia. unfold s_end in He at 2; cbn [nil_name s_off s_len] in He. lia.
      - destruct Hu as [->|[-> He']]; auto.
        destruct (use_of us i) as [|k|] eqn:E; auto.
        + assert (L := use_in i ltac:(rewrite E; discriminate)). assert (H := i_pos _ _ _ _ _ _ I i L).
          unfold use_of in E. rewrite E in H. cbn [pos_ok] in H. rewrite He', H, Ha. reflexivity.
        + assert (L := use_in i ltac:(rewrite E; discriminate)). assert (H := i_pos _ _ _ _ _ _ I i L).
          unfold use_of in E. rewrite E in H. cbn [pos_ok] in H. destruct H as [H1 H2]. left.
          split; [apply nth_once; auto|]. split; auto. rewrite Ha, He'. exact H2.
    Qed.
    Lemma push_nil : exists P', inv h (rs ++ [nil_name]) (vs ++ [[]]) (us ++ [Never]) spent P'.
    Proof.
      apply (inv_push h rs vs us spent P); auto.
      - apply wf_nil. apply (i_h _ _ _ _ _ _ I).
      - intros k _ _. unfold s_end; cbn [nil_name s_off s_len]. lia.
    Qed.

    (** where a variable that may be extended is *)
    Lemma may_room : forall i, match use_of us i with Always => true | Once k => negb (existsb (Nat.eqb k) spent) | Never => false end = true ->
      s_end (nth i rs nil_name) < length (arr h (s_arr (nth i rs nil_name))) ->
      exists k, use_of us i = Once k /\ lives us spent k /\ P k = (s_arr (nth i rs nil_name), s_end (nth i rs nil_name)).
    Proof.
      intros i Hm Hl. destruct (use_of us i) as [|k|] eqn:E; [| |discriminate].
      - assert (L := use_in i ltac:(rewrite E; discriminate)). assert (H := i_pos _ _ _ _ _ _ I i L).
        unfold use_of in E. rewrite E in H. cbn [pos_ok] in H. lia.
      - assert (L := use_in i ltac:(rewrite E; discriminate)). assert (H := i_pos _ _ _ _ _ _ I i L).
        unfold use_of in E. rewrite E in H. cbn [pos_ok] in H. destruct H as [H1 H2].
        assert (Hns : ~ In k spent).
        { intros Hin. apply negb_true_iff in Hm. rewrite <- not_true_iff_false in Hm. apply Hm.
          apply existsb_exists. exists k. split; auto. apply Nat.eqb_refl. }
        exists k. split; auto. split; [split; auto|]. destruct H2 as [H2|H2]; [contradiction|auto].
    Qed.

    (** a variable is extended by [x], which may be replaced by [y] afterwards *)
    Lemma extend : forall i x, match use_of us i with Always => true | Once k => negb (existsb (Nat.eqb k) spent) | Never => false end = true ->
      (forall k, In k spent -> k < length us) ->
      forall spent', spent' = match use_of us i with Once k => [k] | _ => [] end ++ spent ->
      forall h1 s1, go_append zero_comp room h (nth i rs nil_name) x = (h1, s1) ->
      (forall y h2, h2 = h1 \/ h2 = write h1 (s_arr s1) (s_end s1 - 1) y ->
         length h <= length h2
         /\ (forall a, a < length h -> length (arr h2 a) = length (arr h a))
         /\ (forall s, In s rs -> read h2 s = read h s)
         /\ wf h2 s1
         /\ (forall k, lives us spent' k -> s_arr s1 <> fst (P k))
         /\ (forall s, In s rs -> s_arr s = s_arr s1 -> s_end s <= s_end s1))
      /\ read h1 s1 = nth i vs [] ++ [x]
      /\ (forall y, read (write h1 (s_arr s1) (s_end s1 - 1) y) s1 = nth i vs [] ++ [y]).
    Proof.
      intros i x Hm Hsp spent' Es h1 s1 Ea. set (s := nth i rs nil_name) in *.
      assert (W := reg_wf i). fold s in W.
      destruct (append_read _ _ _ _ _ _ _ W Ea) as [R1 W1].
      assert (V := reg_val i). fold s in V. rewrite V in R1.
      assert (Lw : forall y a, a < length h1 -> length (arr (write h1 (s_arr s1) (s_end s1 - 1) y) a) = length (arr h1 a)).
      { intros y a La. destruct (Nat.eq_dec a (s_arr s1)) as [->|Hne].
        - rewrite arr_write by auto. apply put_length.
        - rewrite arr_write_other by auto. reflexivity. }
      assert (RW : forall y, read (write h1 (s_arr s1) (s_end s1 - 1) y) s1 = nth i vs [] ++ [y]).
      { intros y. destruct W1 as [A1 A2]. unfold read. rewrite arr_write by auto.
        assert (Hln : s_len s1 = length (nth i vs [] ++ [x])) by (rewrite <- R1; symmetry; apply read_length; auto).
        rewrite app_length in Hln; cbn [length] in Hln.
        rewrite put_split by (unfold s_end in *; lia).
        unfold read in R1. rewrite firstn_skipn_comm' in R1. fold (s_end s1) in R1.
        rewrite firstn_skipn_comm'. fold (s_end s1).
        rewrite firstn_app, firstn_firstn, firstn_length.
        replace (Nat.min (s_end s1) (s_end s1 - 1)) with (s_end s1 - 1) by lia.
        rewrite Nat.min_l by lia.
        replace (s_end s1 - (s_end s1 - 1)) with 1 by (unfold s_end in *; lia). cbn [firstn].
        rewrite skipn_app, firstn_length, Nat.min_l by lia.
        replace (s_off s1 - (s_end s1 - 1)) with 0 by (unfold s_end; lia). cbn [skipn]. f_equal.
        assert (Q : removelast (skipn (s_off s1) (firstn (s_end s1) (arr h1 (s_arr s1)))) = skipn (s_off s1) (firstn (s_end s1 - 1) (arr h1 (s_arr s1)))).
        { replace (s_end s1) with (s_off s1 + s_len s1) by reflexivity.
          rewrite <- firstn_skipn_comm'. replace (s_off s1 + s_len s1 - 1) with (s_off s1 + (s_len s1 - 1)) by lia.
          rewrite <- firstn_skipn_comm'. destruct (s_len s1) as [|m] eqn:Em; [lia|].
          replace (S m - 1) with m by lia. apply removelast_firstn.
          rewrite skipn_length. unfold s_end in A2. lia. }
        rewrite <- Q, R1. apply removelast_last. }
      split; [|split; [exact R1|exact RW]].
      assert (Base : length h <= length h1
         /\ (forall a, a < length h -> length (arr h1 a) = length (arr h a))
         /\ (forall t, In t rs -> read h1 t = read h t)
         /\ (forall t y, In t rs -> read (write h1 (s_arr s1) (s_end s1 - 1) y) t = read h1 t)
         /\ (forall k, lives us spent' k -> s_arr s1 <> fst (P k))
         /\ (forall t, In t rs -> s_arr t = s_arr s1 -> s_end t <= s_end s1)).
      { revert Ea. unfold go_append.
        destruct (Nat.ltb_spec (s_end s) (length (arr h (s_arr s)))) as [L|L]; intros Ea; injection Ea as <- <-; cbn [s_arr].
        - destruct (may_room i Hm L) as [k [Eu [Hl EP]]]. fold s in EP.
          assert (Sep : forall t, In t rs -> s_arr t = s_arr s -> s_end t <= s_end s).
          { intros t Ht E. assert (H := i_sep _ _ _ _ _ _ I k t Hl Ht). rewrite EP in H. cbn [fst snd] in H. auto. }
          split; [unfold write; rewrite put_length; auto|]. split; [|split; [|split; [|split]]].
          + intros a La. destruct (Nat.eq_dec a (s_arr s)) as [->|Hne].
            * rewrite arr_write by auto. apply put_length.
            * rewrite arr_write_other by auto. reflexivity.
          + intros t Ht. apply read_write. destruct (Nat.eq_dec (s_arr t) (s_arr s)); [right; auto|left; auto].
          + intros t y Ht. apply read_write. destruct (Nat.eq_dec (s_arr t) (s_arr s)) as [E|E]; [right|left; auto].
            assert (H := Sep t Ht E). unfold s_end in *; cbn [s_off s_len]. lia.
          + intros k' [Hk1 Hk2] E. rewrite Es, Eu in Hk2. cbn [app] in Hk2.
            assert (k' = k); [|subst; apply Hk2; left; reflexivity].
            apply (i_inj _ _ _ _ _ _ I); auto.
            * split; auto. intros Hin. apply Hk2. right; auto.
            * rewrite EP. cbn [fst]. auto.
          + intros t Ht E. assert (H := Sep t Ht E). unfold s_end in *; cbn [s_off s_len]. lia.
        - split; [rewrite app_length; lia|]. split; [|split; [|split; [|split]]].
          + intros a La. rewrite arr_old by auto. reflexivity.
          + intros t Ht. apply read_new. apply (i_wf _ _ _ _ _ _ I t Ht).
          + intros t y Ht. apply read_write. left. assert (H := i_wf _ _ _ _ _ _ I t Ht). destruct H. lia.
          + intros k [Hk1 Hk2] E. assert (Hl : lives us spent k).
            { split; auto. intros Hin. apply Hk2. rewrite Es. apply in_or_app. right; auto. }
            assert (H := i_old _ _ _ _ _ _ I k Hl). lia.
          + intros t Ht E. assert (H := i_wf _ _ _ _ _ _ I t Ht). destruct H. lia. }
      destruct Base as [B1 [B2 [B3 [B4 [B5 B6]]]]].
      intros y h2 [->| ->].
      - split; [exact B1|]. split; [exact B2|]. split; [exact B3|]. split; [exact W1|]. split; [exact B5|exact B6].
      - destruct W1 as [A1 A2]. split; [unfold write; rewrite put_length; exact B1|].
        split; [intros a La; rewrite Lw by lia; auto|].
        split; [intros t Ht; rewrite B4 by auto; auto|].
        split; [|split; [exact B5|exact B6]].
        split; [unfold write; rewrite put_length; auto|]. rewrite Lw by auto. auto.
    Qed.
  End Step.

  Lemma read_name_ok : forall L v (h : heap) s h' s', wf h s -> L <= s_arr s -> L <= length h -> read_name room v h s = (h', s') ->
    (forall a, a < L -> arr h' a = arr h a) /\ L <= s_arr s' /\ L <= length h' /\ wf h' s' /\ read h' s' = read h s ++ v.
  Proof.
    intros L. induction v as [|c v IH]; intros h s h' s' W La Lh E; cbn [read_name] in E.
    - injection E as <- <-. rewrite app_nil_r. auto.
    - destruct (go_append zero_comp room h s c) as [h1 s1] eqn:Ea.
      destruct (append_read _ _ _ _ _ _ _ W Ea) as [R1 W1]. assert (L1 := append_heap _ _ _ _ _ _ _ Ea).
      assert (La1 : L <= s_arr s1) by (destruct (append_where _ _ _ _ _ _ _ Ea) as [[E1 _]|E1]; lia).
      destruct (IH _ _ _ _ W1 La1 ltac:(lia) E) as [B1 [B2 [B3 [B4 B5]]]].
      split; [|split; [exact B2|split; [exact B3|split; [exact B4|]]]].
      + intros a Ha. rewrite B1 by auto. revert Ea. unfold go_append.
        destruct (Nat.ltb _ _); intros Ea; injection Ea as <- <-.
        * apply arr_write_other. lia.
        * apply arr_old. lia.
      + rewrite B5, R1, <- app_assoc. reflexivity.
  Qed.

  Lemma skipn_twice : forall B (l : list B) x y, skipn x (skipn y l) = skipn (y + x) l.
  Proof. induction l as [|a l IH]; intros x [|y]; cbn [skipn Nat.add]; auto. apply skipn_nil. Qed.
  Lemma removelast_len : forall B (l : list B) k, length l = S k -> removelast l = firstn k l.
  Proof. intros B l k H. rewrite removelast_firstn_len, H. reflexivity. Qed.

  Lemma spent_bound : forall vs us spent o, (forall k, In k spent -> k < length us) ->
    (forall i k, nth i us Never = Once k -> k < length us) ->
    forall k, In k (spends vs us o ++ spent) -> k < length us.
  Proof.
    intros vs us spent o Hs Hu k Hin. apply in_app_or in Hin. destruct Hin as [Hin|Hin]; [|auto].
    unfold spends in Hin. destruct (extends vs o) as [i|]; [|destruct Hin].
    unfold use_of in Hin. destruct (nth i us Never) as [|k'|] eqn:E; [destruct Hin| |destruct Hin].
    destruct Hin as [<-|[]]. eapply Hu; eauto.
  Qed.

  Lemma once_bound : forall h rs vs us spent P, inv h rs vs us spent P -> forall i k, nth i us Never = Once k -> k < length us.
  Proof.
    intros h rs vs us spent P I i k E.
    assert (L : i < length rs).
    { rewrite <- (i_len _ _ _ _ _ _ I). destruct (lt_dec i (length us)); auto. rewrite nth_overflow in E by lia. discriminate. }
    assert (H := i_pos _ _ _ _ _ _ I i L). rewrite E in H. cbn [pos_ok] in H. destruct H as [H _]. apply nth_once; auto.
  Qed.

  Lemma step_inv : forall h rs vs us spent P o h' rs', inv h rs vs us spent P ->
    (forall k, In k spent -> k < length us) ->
    may vs us spent o = true -> nstep room (h, rs) o = (h', rs') ->
    exists P', inv h' rs' (vs ++ [nval vs o]) (us ++ [nuse vs us o]) (spends vs us o ++ spent) P'.
  Proof.
    intros h rs vs us spent P o h' rs' I Hsp Hm E.
    assert (Sb := spent_bound vs us spent o Hsp (once_bound _ _ _ _ _ _ I)).
    assert (Emp : forall l : list nat, [] ++ l = l) by reflexivity.
    (* a call that extends variable i *)
    assert (Ext : forall i x y (fin : bool), 
      match use_of us i with Always => true | Once k => negb (existsb (Nat.eqb k) spent) | Never => false end = true ->
      forall spent', spent' = match use_of us i with Once k => [k] | _ => [] end ++ spent ->
      (forall k, In k spent' -> k < length us) ->
      forall h1 s1, go_append zero_comp room h (nth i rs nil_name) x = (h1, s1) ->
      (exists P', inv (if fin then write h1 (s_arr s1) (s_end s1 - 1) y else h1) (rs ++ [s1]) (vs ++ [nth i vs [] ++ [if fin then y else x]]) (us ++ [Once (length us)]) spent' P')
      /\ (exists P', inv h1 (rs ++ [nil_name]) (vs ++ [[]]) (us ++ [Never]) spent' P')).
    { intros i x y fin Hu spent' Es Sb' h1 s1 Ea.
      destruct (extend h rs vs us spent P I i x Hu Hsp spent' Es h1 s1 Ea) as [F [R1 R2]].
      assert (Sub : forall k, In k spent -> In k spent') by (intros; rewrite Es; apply in_or_app; right; auto).
      split.
      - destruct (F y (if fin then write h1 (s_arr s1) (s_end s1 - 1) y else h1)) as [F1 [F2 [F3 [F4 [F5 F6]]]]]; [destruct fin; auto|].
        apply (inv_push h rs vs us spent P); auto.
        + destruct fin; auto.
        + intros k Hl E2. exfalso. apply (F5 k Hl E2).
        + right. split; [reflexivity|]. split; [intros Hin; apply Sb' in Hin; lia|]. split; [|exact F6].
          intros k Hl E2. apply (F5 k Hl). congruence.
      - destruct (F y h1) as [F1 [F2 [F3 [F4 [F5 F6]]]]]; [auto|].
        apply (inv_push h rs vs us spent P); auto.
        + apply wf_nil. assert (H := i_h _ _ _ _ _ _ I). lia.
        + intros k _ _. unfold s_end; cbn [nil_name s_off s_len]. lia. }
    assert (Own := push_own h rs vs us spent P I).
    assert (View := push_view h rs vs us spent P I).
    assert (Nil := push_nil h rs vs us spent P I).
    assert (RV := reg_val h rs vs us spent P I). assert (RW := reg_wf h rs vs us spent P I). assert (RL := reg_len h rs vs us spent P I).
    destruct o as [v|i|i cs|v|v l|i k|i k|i c|i d ok|i d]; cbn [nstep] in E.
    - (* NNew *) unfold go_make in E. injection E as <- <-. apply Own; auto.
      unfold read; cbn [s_arr s_off s_len]. rewrite arr_new. apply firstn_all.
    - (* NClone *) unfold go_make in E. injection E as <- <-. cbn [nval nuse]. rewrite <- RV. apply Own; auto.
      unfold read at 1; cbn [s_arr s_off s_len]. rewrite arr_new. apply firstn_all.
    - (* NExtend *) unfold go_make in E. injection E as <- <-. cbn [nval nuse]. rewrite <- RV. apply Own; auto.
      unfold read at 1; cbn [s_arr s_off s_len]. rewrite arr_new. apply firstn_all.
    - (* NRead *) unfold go_make in E. destruct (read_name room v (h ++ [[]]) (mkSl (length h) 0 (length (@nil comp)))) as [h1 s1] eqn:Er.
      injection E as <- <-.
      assert (W0 : wf (h ++ [[]]) (mkSl (length h) 0 (length (@nil comp)))).
      { split; [cbn [s_arr]; rewrite app_length; cbn [length]; lia|unfold s_end; cbn [s_off s_len length]; lia]. }
      assert (L0 : length h <= length (h ++ [[]])) by (rewrite app_length; lia).
      destruct (read_name_ok (length h) v _ _ _ _ W0 (Nat.le_refl _) L0 Er) as [B1 [B2 [B3 [B4 B5]]]].
      cbn [nval nuse spends extends app].
      assert (Ro : forall s, In s rs -> read h1 s = read h s).
      { intros s Hs. destruct (i_wf _ _ _ _ _ _ I s Hs) as [W1 W2]. unfold read. rewrite B1, arr_old by auto. reflexivity. }
      apply (inv_push h rs vs us spent P); auto.
      + intros a Ha. rewrite B1, arr_old by auto. reflexivity.
      + intros k Hl Ek. assert (H := i_old _ _ _ _ _ _ I k Hl). lia.
      + right. split; [reflexivity|]. split; [intros Hin; apply Hsp in Hin; lia|]. split.
        * intros k Hl Ek. assert (H := i_old _ _ _ _ _ _ I k Hl). lia.
        * intros s Hs Ek. destruct (i_wf _ _ _ _ _ _ I s Hs). lia.
    - (* NParsed *) injection E as <- <-. apply Own; auto.
      + unfold s_end; cbn [s_off s_len]. rewrite app_length. lia.
      + unfold read; cbn [s_arr s_off s_len]. rewrite arr_new. cbn [skipn nval].
        rewrite <- (Nat.add_0_r (length v)). rewrite firstn_app_2. cbn [firstn]. apply app_nil_r.
    - (* NTake *) injection E as <- <-. cbn [nval nuse spends extends app]. rewrite RL.
      destruct (Nat.leb_spec k (length (nth i vs []))) as [L|L].
      + destruct (RW i) as [W1 W2]. assert (Hl := RL i).
        apply View with (i := i); cbn [s_arr].
        * split; [exact W1|]. unfold s_end in *; cbn [s_arr s_off s_len]. lia.
        * reflexivity.
        * rewrite <- RV. unfold read; cbn [s_arr s_off s_len]. rewrite firstn_firstn. f_equal. lia.
        * unfold s_end; cbn [s_off s_len]. lia.
        * destruct (Nat.eqb_spec k (length (nth i vs []))) as [Ek|Ek]; [right; split; auto; unfold s_end; cbn [s_off s_len]; rewrite Hl, Ek; reflexivity|left; auto].
      + destruct (Nat.eqb_spec k (length (nth i vs []))); [lia|]. exact Nil.
    - (* NDrop *) injection E as <- <-. cbn [nval nuse spends extends app]. rewrite RL.
      destruct (Nat.leb_spec k (length (nth i vs []))) as [L|L]; [|exact Nil].
      destruct (RW i) as [W1 W2]. assert (Hl := RL i).
      apply View with (i := i); cbn [s_arr].
      + split; [exact W1|]. unfold s_end in *; cbn [s_arr s_off s_len]. lia.
      + reflexivity.
      + rewrite <- Hl, <- RV. unfold read; cbn [s_arr s_off s_len].
        rewrite skipn_firstn_comm, skipn_twice. reflexivity.
      + unfold s_end; cbn [s_off s_len]. lia.
      + right. split; auto. unfold s_end; cbn [s_off s_len]. lia.
    - (* NAppend *) destruct (go_append zero_comp room h (nth i rs nil_name) c) as [h1 s1] eqn:Ea. injection E as <- <-.
      unfold may in Hm. cbn [extends] in Hm. rewrite andb_true_r in Hm.
      cbn [nval nuse]. unfold spends in *; cbn [extends] in *. unfold extended.
      exact (proj1 (Ext i c c false Hm _ eq_refl Sb h1 s1 Ea)).
    - (* NInterest *) unfold make_interest in E. rewrite RV in E.
      destruct d as [b|].
      + unfold may in Hm. cbn [extends] in Hm. apply andb_true_iff in Hm. destruct Hm as [Hm Hd].
        apply negb_true_iff in Hd. rewrite Hd in E.
        destruct (go_append zero_comp room h (nth i rs nil_name) zero_digest) as [h1 s1] eqn:Ea.
        cbn [nval nuse]. unfold spends in *; cbn [extends] in *. unfold extended.
        destruct ok; injection E as <- <-.
        * unfold strip. rewrite Hd.
          exact (proj1 (Ext i zero_digest (mkComp TypeParametersSha256Digest b) true Hm _ eq_refl Sb h1 s1 Ea)).
        * exact (proj2 (Ext i zero_digest zero_digest true Hm _ eq_refl Sb h1 s1 Ea)).
      + injection E as <- <-. cbn [nval nuse spends extends app]. destruct ok; [|exact Nil].
        rewrite app_nil_r. unfold strip. destruct (ends_in TypeParametersSha256Digest (nth i vs [])) eqn:Ed.
        * destruct (RW i) as [W1 W2]. assert (Hl := RL i).
          assert (Hpos : 0 < length (nth i vs [])).
          { destruct (nth i vs []); [discriminate Ed|cbn [length]; lia]. }
          apply View with (i := i); cbn [s_arr].
          -- split; [exact W1|]. unfold s_end in *; cbn [s_arr s_off s_len]. lia.
          -- reflexivity.
          -- rewrite <- (RV i) in *. unfold read at 1; cbn [s_arr s_off s_len].
             rewrite (removelast_len _ (read h (nth i rs nil_name)) (s_len (nth i rs nil_name) - 1)) by lia.
             unfold read. rewrite firstn_firstn. f_equal. lia.
          -- unfold s_end; cbn [s_off s_len]. lia.
          -- left; auto.
        * apply View with (i := i); auto.
    - (* NFull *) unfold to_full_name in E. rewrite RV, RL in E.
      unfold may in Hm. rewrite andb_true_r in Hm.
      unfold spends in *. cbn [nval nuse extends] in *.
      destruct (nth i vs []) as [|c0 n0] eqn:En.
      + cbn [length Nat.eqb] in E. injection E as <- <-. exact Nil.
      + cbn [length Nat.eqb] in E. destruct (ends_in TypeImplicitSha256Digest (c0 :: n0)) eqn:Ed.
        * injection E as <- <-. cbn [app]. rewrite <- En. apply View with (i := i); auto.
        * destruct (go_append zero_comp room h (nth i rs nil_name) (mkComp TypeImplicitSha256Digest d)) as [h1 s1] eqn:Ea. injection E as <- <-.
          rewrite <- En. unfold extended.
          exact (proj1 (Ext i _ zero_digest false Hm _ eq_refl Sb h1 s1 Ea)).
  Qed.

  Lemma run_inv : forall os h rs vs us spent P, inv h rs vs us spent P -> (forall k, In k spent -> k < length us) ->
    careful vs us spent os = true ->
    forall h' rs', fold_left (nstep room) os (h, rs) = (h', rs') ->
    map (read h') rs' = fold_left (fun vs o => vs ++ [nval vs o]) os vs.
  Proof.
    induction os as [|o os IH]; intros h rs vs us spent P I Hs Hc h' rs' E; cbn [fold_left careful] in *.
    - injection E as <- <-. apply (i_val _ _ _ _ _ _ I).
    - apply andb_true_iff in Hc. destruct Hc as [Hm Hc].
      destruct (nstep room (h, rs) o) as [h1 rs1] eqn:E1.
      destruct (step_inv _ _ _ _ _ _ _ _ _ I Hs Hm E1) as [P' I'].
      apply (IH _ _ _ _ _ _ I'); auto.
      intros k Hk. rewrite app_length. cbn [length].
      assert (H := spent_bound vs us spent o Hs (once_bound _ _ _ _ _ _ I) k Hk). lia.
  Qed.

  Lemma inv_start : inv [[]] [] [] [] [] (fun _ => (0, 0)).
  Proof.
    split; cbn [length]; auto.
    - intros s [].
    - intros i Hi. lia.
    - intros k s _ [].
    - intros k k' [H _]. destruct k; discriminate H.
  Qed.

  (** * One call, from any state *)
  Lemma nth_error_put : forall B (l : list B) i j x, i <> j -> nth_error (put_at l i x) j = nth_error l j.
  Proof. induction l as [|y l IH]; intros [|i] [|j] x H; cbn [put_at nth_error]; try reflexivity; try congruence. apply IH; congruence. Qed.
  Lemma write_slot : forall (h : heap) a i x b j, (a, i) <> (b, j) -> nth_error (arr (write h a i x) b) j = nth_error (arr h b) j.
  Proof.
    intros h a i x b j H. destruct (Nat.eq_dec a b) as [->|E].
    - destruct (lt_dec b (length h)) as [L|L].
      + rewrite arr_write by auto. apply nth_error_put. congruence.
      + unfold write, arr. rewrite (nth_overflow (put_at h _ _)) by (rewrite put_length; lia). rewrite nth_overflow by lia. reflexivity.
    - rewrite arr_write_other by auto. reflexivity.
  Qed.
  Lemma append_slot : forall (h : heap) s x h' s' b j, go_append zero_comp room h s x = (h', s') -> b < length h ->
    (s_arr s, s_end s) <> (b, j) -> nth_error (arr h' b) j = nth_error (arr h b) j.
  Proof.
    intros h s x h' s' b j. unfold go_append. destruct (Nat.ltb _ _); intros E Hb Hn; injection E as <- <-.
    - apply write_slot. auto.
    - rewrite arr_old by auto. reflexivity.
  Qed.
  Lemma read_name_slot : forall v (h : heap) s h' s' b j, wf h s -> read_name room v h s = (h', s') -> b < length h -> b <> s_arr s ->
    nth_error (arr h' b) j = nth_error (arr h b) j.
  Proof.
    induction v as [|c v IH]; intros h s h' s' b j W E Hb Hn; cbn [read_name] in E.
    - injection E as <- <-. reflexivity.
    - destruct (go_append zero_comp room h s c) as [h1 s1] eqn:Ea.
      assert (L := append_heap _ _ _ _ _ _ _ Ea).
      rewrite (IH _ _ _ _ b j (proj2 (append_read _ _ _ _ _ _ _ W Ea)) E ltac:(lia)).
      + eapply append_slot; eauto. congruence.
      + destruct (append_where _ _ _ _ _ _ _ Ea) as [[E1 _]|E1]; lia.
  Qed.
  Lemma step_slot : forall h rs o h' rs' b j, (forall s, In s rs -> wf h s) -> 0 < length h ->
    nstep room (h, rs) o = (h', rs') -> b < length h -> slot h rs o <> Some (b, j) ->
    nth_error (arr h' b) j = nth_error (arr h b) j.
  Proof.
    intros h rs o h' rs' b j Wf Hh E Hb Hs.
    assert (RW : forall i, wf h (nth i rs nil_name)).
    { intros i. destruct (lt_dec i (length rs)); [apply Wf; apply nth_In; auto|]. rewrite nth_overflow by lia. apply wf_nil; auto. }
    destruct o as [v|i|i cs|v|v l|i k|i k|i c|i d ok|i d]; cbn [nstep slot] in *.
    1-3: unfold go_make in E; injection E as <- <-; rewrite arr_old by auto; reflexivity.
    - unfold go_make in E. destruct (read_name room v (h ++ [[]]) (mkSl (length h) 0 (length (@nil comp)))) as [h1 s1] eqn:Er.
      injection E as <- <-.
      assert (W0 : wf (h ++ [[]]) (mkSl (length h) 0 (length (@nil comp)))).
      { split; [cbn [s_arr]; rewrite app_length; cbn [length]; lia|unfold s_end; cbn [s_off s_len length]; lia]. }
      rewrite (read_name_slot v _ _ _ _ b j W0 Er); [rewrite arr_old by auto; reflexivity|rewrite app_length; lia|cbn [s_arr]; lia].
    - injection E as <- <-. rewrite arr_old by auto. reflexivity.
    - injection E as <- <-. reflexivity.
    - injection E as <- <-. reflexivity.
    - destruct (go_append zero_comp room h (nth i rs nil_name) c) as [h1 s1] eqn:Ea. injection E as <- <-.
      eapply append_slot; eauto. congruence.
    - unfold make_interest in E. destruct d as [d|]; [|injection E as <- <-; reflexivity].
      set (s := nth i rs nil_name) in *.
      set (s0 := if ends_in TypeParametersSha256Digest (read h s) then mkSl (s_arr s) (s_off s) (s_len s - 1) else s) in *.
      assert (W0 : wf h s0).
      { destruct (RW i) as [W1 W2]. fold s in W1, W2. unfold s0. destruct (ends_in _ _); [|split; auto].
        split; [exact W1|]. unfold s_end in *; cbn [s_arr s_off s_len]. lia. }
      assert (E0 : (s_arr s0, s_end s0) <> (b, j)).
      { intros Eq. apply Hs. f_equal. rewrite <- Eq. unfold s0. destruct (ends_in TypeParametersSha256Digest (read h s)) eqn:Ed; [|reflexivity].
        unfold s_end at 2; cbn [s_arr s_off s_len]. f_equal. unfold s_end.
        destruct (s_len s) as [|m] eqn:Em; [|lia]. unfold read in Ed. rewrite Em in Ed. discriminate Ed. }
      destruct (go_append zero_comp room h s0 zero_digest) as [h1 s1] eqn:Ea.
      assert (S1 := append_slot _ _ _ _ _ b j Ea Hb E0).
      destruct ok; injection E as <- <-; auto. rewrite write_slot; auto.
      intros Eq. destruct (append_where _ _ _ _ _ _ _ Ea) as [[F1 F2]|F1].
      + apply E0. rewrite <- Eq, F1, F2. f_equal. lia.
      + injection Eq as E1 _. lia.
    - unfold to_full_name in E. destruct (Nat.eqb _ 0); [injection E as <- <-; reflexivity|].
      destruct (ends_in _ _); [injection E as <- <-; reflexivity|].
      destruct (go_append zero_comp room h (nth i rs nil_name) (mkComp TypeImplicitSha256Digest d)) as [h1 s1] eqn:Ea. injection E as <- <-.
      eapply append_slot; eauto. congruence.
  Qed.

  (** * Programs that take names for values and are wrong *)
  Lemma put_twice : forall B (l : list B) i x y, put_at (put_at l i x) i y = put_at l i y.
  Proof. induction l as [|z l IH]; intros [|i] x y; cbn [put_at]; auto. f_equal. apply IH. Qed.
  Lemma write_twice : forall (h : heap) a i x y, a < length h -> write (write h a i x) a i y = write h a i y.
  Proof. intros. unfold write at 1. rewrite arr_write by auto. unfold write. rewrite !put_twice. reflexivity. Qed.

  Lemma interest_room : forall (h : heap) s b, wf h s -> ends_in TypeParametersSha256Digest (read h s) = false ->
    s_end s < length (arr h (s_arr s)) ->
    make_interest room h s (Some b) true = (write h (s_arr s) (s_end s) (mkComp TypeParametersSha256Digest b), mkSl (s_arr s) (s_off s) (S (s_len s))).
  Proof.
    intros h s b [W1 W2] He Hl. unfold make_interest. rewrite He. unfold go_append.
    destruct (Nat.ltb_spec (s_end s) (length (arr h (s_arr s)))) as [L|L]; [|lia]. cbn [s_arr].
    replace (s_end (mkSl (s_arr s) (s_off s) (S (s_len s))) - 1) with (s_end s) by (unfold s_end; cbn [s_off s_len]; lia).
    rewrite write_twice by auto. reflexivity.
  Qed.
  Lemma interest_end : forall (h : heap) s b (ok : bool), wf h s -> ends_in TypeParametersSha256Digest (read h s) = true ->
    make_interest room h s (Some b) ok = (write h (s_arr s) (s_end s - 1) (if ok then mkComp TypeParametersSha256Digest b else zero_digest), if ok then s else nil_name).
  Proof.
    intros h s b ok [W1 W2] He. assert (Hp : 0 < s_len s).
    { destruct (s_len s) eqn:E; [|lia]. unfold read in He. rewrite E in He. discriminate He. }
    unfold make_interest. rewrite He. unfold go_append. cbn [s_arr s_off s_len].
    replace (s_end (mkSl (s_arr s) (s_off s) (s_len s - 1))) with (s_end s - 1) by (unfold s_end; cbn [s_off s_len]; lia).
    destruct (Nat.ltb_spec (s_end s - 1) (length (arr h (s_arr s)))) as [L|L]; [|unfold s_end in *; lia]. cbn [s_arr].
    destruct ok; [|reflexivity].
    replace (s_end (mkSl (s_arr s) (s_off s) (S (s_len s - 1))) - 1) with (s_end s - 1) by (unfold s_end; cbn [s_off s_len]; lia).
    rewrite write_twice by auto. replace (S (s_len s - 1)) with (s_len s) by lia. destruct s; reflexivity.
  Qed.

  (** a heap with one array of names *)
  Lemma read_one : forall (l : list comp) n, read [[]; l] (mkSl 1 0 n) = firstn n l.
  Proof. reflexivity. Qed.
  Lemma write_one : forall (l : list comp) i x, write [[]; l] 1 i x = [[]; put_at l i x].
  Proof. reflexivity. Qed.
  Lemma put_mid : forall B (l r : list B) x y, put_at (l ++ x :: r) (length l) y = l ++ y :: r.
  Proof. induction l as [|z l IH]; intros; cbn [put_at app length]; auto. f_equal. apply IH. Qed.
  Lemma firstn_mid : forall B (l r : list B), firstn (length l) (l ++ r) = l.
  Proof. intros. rewrite <- (Nat.add_0_r (length l)), firstn_app_2. cbn [firstn]. apply app_nil_r. Qed.
  Lemma firstn_mid1 : forall B (l r : list B) x, firstn (S (length l)) (l ++ x :: r) = l ++ [x].
  Proof. intros. replace (S (length l)) with (length l + 1) by lia. rewrite firstn_app_2. reflexivity. Qed.
  Lemma ends_in_app : forall t n c, ends_in t (n ++ [c]) = N.eqb (ctyp c) t.
  Proof. intros. unfold ends_in. rewrite rev_unit. reflexivity. Qed.

  Notation dg := (mkComp TypeParametersSha256Digest).
  Notation fu := (mkComp TypeImplicitSha256Digest).

  Lemma parsed_room : forall l (v : name), 2 * length v <= l -> exists r, repeat zero_comp (l / 2 + 1 - length v) = zero_comp :: r.
  Proof.
    intros l v H. assert (L : length v <= l / 2) by (apply Nat.div_le_lower_bound; lia).
    destruct (l / 2 + 1 - length v) as [|k] eqn:E; [lia|]. exists (repeat zero_comp k). reflexivity.
  Qed.

  Lemma received_twice : forall v l d1 d2, 2 * length v <= l -> ends_in TypeParametersSha256Digest v = false ->
    nvalues room [NParsed v l; NInterest 0 (Some d1) true; NInterest 0 (Some d2) true] = [v; v ++ [dg d2]; v ++ [dg d2]].
  Proof.
    intros v l d1 d2 Hl He. destruct (parsed_room l v Hl) as [r Er].
    unfold nvalues, nrun. cbn [fold_left nstep length app nth]. rewrite Er.
    assert (R : forall x, read [[]; v ++ x :: r] (mkSl 1 0 (length v)) = v) by (intros; rewrite read_one; apply firstn_mid).
    assert (Q : forall x, s_end (mkSl 1 0 (length v)) < length (arr [[]; v ++ x :: r] 1)).
    { intros. unfold s_end; cbn [s_off s_len arr nth]. rewrite app_length. cbn [length]. lia. }
    assert (W : forall x, wf [[]; v ++ x :: r] (mkSl 1 0 (length v))).
    { intros x. split; [cbn [s_arr length]; lia|]. specialize (Q x). cbn [s_arr]. lia. }
    rewrite interest_room; [|apply W|rewrite R; exact He|apply Q].
    cbn [s_arr s_off s_len]. unfold s_end; cbn [s_off s_len Nat.add]. rewrite write_one, put_mid. cbn [nstep app nth].
    rewrite interest_room; [|apply W|rewrite R; exact He|apply Q].
    cbn [s_arr s_off s_len]. unfold s_end; cbn [s_off s_len Nat.add]. rewrite write_one, put_mid. cbn [app nth map].
    rewrite !read_one, firstn_mid, firstn_mid1. reflexivity.
  Qed.

  Lemma full_twice : forall v l d1 d2, 2 * length v <= l -> v <> [] -> ends_in TypeImplicitSha256Digest v = false ->
    nvalues room [NParsed v l; NFull 0 d1; NFull 0 d2] = [v; v ++ [fu d2]; v ++ [fu d2]].
  Proof.
    intros v l d1 d2 Hl Hv He. destruct (parsed_room l v Hl) as [r Er].
    unfold nvalues, nrun. cbn [fold_left nstep length app nth]. rewrite Er.
    assert (F : forall x d, to_full_name room [[]; v ++ x :: r] (mkSl 1 0 (length v)) d = ([[]; v ++ fu d :: r], mkSl 1 0 (S (length v)))).
    { intros x d. unfold to_full_name. cbn [s_len]. destruct v as [|c0 v0] eqn:Ev; [congruence|]. rewrite <- Ev in *.
      assert (Hn : Nat.eqb (length v) 0 = false) by (rewrite Ev; reflexivity). rewrite Hn.
      rewrite read_one, firstn_mid, He. unfold go_append. cbn [s_arr s_off s_len]. unfold s_end; cbn [s_off s_len Nat.add].
      destruct (Nat.ltb_spec (length v) (length (arr [[]; v ++ x :: r] 1))) as [L|L].
      - rewrite write_one, put_mid. reflexivity.
      - cbn [arr nth] in L. rewrite app_length in L. cbn [length] in L. lia. }
    rewrite F. cbn [nstep app nth]. rewrite F. cbn [app nth map].
    rewrite !read_one, firstn_mid, firstn_mid1. reflexivity.
  Qed.

  Lemma remake : forall v d1 d2, ends_in TypeParametersSha256Digest v = false ->
    nvalues room [NNew v; NInterest 0 (Some d1) true; NInterest 1 (Some d2) true] = [v; v ++ [dg d2]; v ++ [dg d2]].
  Proof.
    intros v d1 d2 He. unfold nvalues, nrun. cbn [fold_left nstep length app nth].
    unfold go_make. cbn [nstep app length nth].
    unfold make_interest. rewrite read_one, firstn_all, He. unfold go_append. cbn [s_arr s_off s_len]. unfold s_end; cbn [s_off s_len Nat.add arr nth].
    rewrite Nat.ltb_irrefl. cbn [app length]. rewrite read_one, firstn_all. cbn [s_arr s_off s_len Nat.add].
    replace (S (length v) - 1) with (length v) by lia.
    unfold write. cbn [put_at arr nth]. rewrite put_mid. cbn [nstep nth app].
    set (r := repeat zero_comp (room (length v))).
    assert (R : read [[]; v; v ++ dg d1 :: r] (mkSl 2 0 (S (length v))) = v ++ [dg d1]).
    { unfold read. cbn [s_arr s_off s_len arr nth skipn]. apply firstn_mid1. }
    rewrite interest_end; [|split|].
    - cbn [s_arr]. unfold s_end; cbn [s_off s_len Nat.add]. replace (S (length v) - 1) with (length v) by lia.
      unfold write. cbn [put_at arr nth]. rewrite put_mid. cbn [app map].
      unfold read. cbn [s_arr s_off s_len arr nth skipn]. rewrite firstn_all, firstn_mid1. reflexivity.
    - cbn [s_arr length]. lia.
    - unfold s_end; cbn [s_arr s_off s_len arr nth]. rewrite app_length. cbn [length]. lia.
    - rewrite R, ends_in_app. reflexivity.
  Qed.

  Lemma prefix_over : forall v k d, k < length v -> ends_in TypeParametersSha256Digest (firstn k v) = false ->
    nvalues room [NNew v; NTake 0 k; NInterest 1 (Some d) true]
    = [firstn k v ++ dg d :: skipn (S k) v; firstn k v; firstn k v ++ [dg d]].
  Proof.
    intros v k d Hk He. unfold nvalues, nrun. cbn [fold_left nstep length app nth].
    unfold go_make. cbn [nstep app length nth s_len s_arr s_off].
    destruct (Nat.leb_spec k (length v)) as [L|L]; [|lia].
    rewrite interest_room; [|split| |].
    - cbn [s_arr s_off s_len]. unfold s_end; cbn [s_off s_len Nat.add]. rewrite write_one. cbn [app map].
      rewrite put_split by auto. rewrite !read_one.
      assert (Lk : length (firstn k v) = k) by (rewrite firstn_length; lia).
      f_equal; [|f_equal; [|f_equal]].
      + rewrite firstn_all2; [reflexivity|]. rewrite app_length, Lk. cbn [length]. rewrite skipn_length. lia.
      + rewrite <- Lk at 1. apply firstn_mid.
      + rewrite <- Lk at 1. apply firstn_mid1.
    - cbn [s_arr length]. lia.
    - unfold s_end; cbn [s_arr s_off s_len arr nth]. lia.
    - rewrite read_one. exact He.
    - unfold s_end; cbn [s_arr s_off s_len arr nth]. lia.
  Qed.

  Lemma failed_call : forall v d1 d2,
    nvalues room [NNew (v ++ [dg d1]); NInterest 0 (Some d2) false] = [v ++ [zero_digest]; []].
  Proof.
    intros v d1 d2. unfold nvalues, nrun. cbn [fold_left nstep length app nth].
    unfold go_make. cbn [nstep app length nth].
    rewrite interest_end; [|split|].
    - cbn [s_arr]. unfold s_end; cbn [s_off s_len Nat.add]. rewrite app_length. cbn [length].
      replace (length v + 1 - 1) with (length v) by lia. rewrite write_one, put_mid. cbn [app map].
      rewrite read_one. replace (length v + 1) with (S (length v)) by lia. rewrite firstn_mid1. reflexivity.
    - cbn [s_arr length]. lia.
    - unfold s_end; cbn [s_arr s_off s_len arr nth]. lia.
    - rewrite read_one, firstn_all, ends_in_app. reflexivity.
  Qed.
End Names.
