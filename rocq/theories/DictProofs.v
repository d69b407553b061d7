From Verif Require Import Base NameModel CodecModel DictModel DictSpec.

Lemma deq : forall a b, bytes_eqb a b = true <-> a = b.
Proof. intros a b. unfold bytes_eqb. destruct (list_eq_dec N.eq_dec a b); split; congruence. Qed.

Lemma get_set : forall d k x n, dict_get (dict_set d k x) n = if bytes_eqb k n then Some x else dict_get d n.
Proof.
  intros d k x n. unfold dict_get. induction d as [|[a y] d IH]; cbn [dict_set find fst].
  - destruct (bytes_eqb k n) eqn:E; cbn [fst find option_map snd]; reflexivity.
  - destruct (bytes_eqb a k) eqn:A.
    + apply deq in A. subst a. cbn [find fst]. destruct (bytes_eqb k n); reflexivity.
    + cbn [find fst]. destruct (bytes_eqb a n) eqn:B; [|exact IH]. destruct (bytes_eqb k n) eqn:C; [|reflexivity].
      apply deq in B. apply deq in C. subst. assert (bytes_eqb n n = true) by (apply deq; reflexivity). congruence.
Qed.

(** the map after the loop *)
Lemma loop_get : forall fs vs d n, NoDup (map fst fs) ->
  (forall k v x, In ((n, k), v) (combine fs vs) -> to_entry k v = Some x -> dict_get (to_dict_loop fs vs d) n = Some x)
  /\ ((forall k v x, In ((n, k), v) (combine fs vs) -> to_entry k v <> Some x) -> dict_get (to_dict_loop fs vs d) n = dict_get d n).
Proof.
  induction fs as [|[m k0] fs IH]; intros [|v0 vs] d n ND; cbn [to_dict_loop combine]; try (split; [intros ? ? ? []|reflexivity]).
  cbn [map fst] in ND. apply NoDup_cons_iff in ND. destruct ND as [NI ND].
  set (d' := match to_entry k0 v0 with Some x => dict_set d m x | None => d end). destruct (IH vs d' n ND) as [A B]. split.
  - intros k v x [E | I] T; [|exact (A k v x I T)]. injection E as <- <- <-. rewrite B.
    + unfold d'. rewrite T, get_set. assert (H : bytes_eqb m m = true) by (apply deq; reflexivity). rewrite H. reflexivity.
    + intros k v y I _. apply NI. change m with (fst (m, k)). apply in_map. apply (in_combine_l _ _ _ _ I).
  - intros H. rewrite B by (intros k v x I; apply H; right; exact I). unfold d'. destruct (to_entry k0 v0) as [y|] eqn:T; [|reflexivity].
    rewrite get_set. destruct (bytes_eqb m n) eqn:E; [|reflexivity]. apply deq in E. subst m. exfalso. exact (H k0 v0 y (or_introl eq_refl) T).
Qed.

Lemma entry_struct : forall t sub vs, to_entry (DKStruct t sub) (VStruct vs) = Some (DMap (to_dict sub vs)).
Proof.
  intros t sub vs. reflexivity.
Qed.

Lemma entry_shows : forall k v x, fits k v -> (to_entry k v = Some x <-> shows k v x).
Proof.
  intros k v x F. split.
  - intros E. destruct k, v; cbn [fits] in F; try contradiction; subst; try (rewrite entry_struct in E); try destruct opt; cbn [to_entry] in E; try discriminate; injection E as <-; constructor.
  - intros S. destruct S; reflexivity.
Qed.
Lemma entry_absent : forall k v, fits k v -> to_entry k v = None -> reads k None v \/ k = DKOther.
Proof.
  intros k v F E. destruct k, v; cbn [fits] in F; try contradiction; subst; try (rewrite entry_struct in E); try destruct opt; cbn [to_entry] in E; try discriminate; try (left; constructor); right; reflexivity.
Qed.

Lemma from_iff : forall n k e v, from_entry n k e = DOk v <-> reads k e v.
Proof.
  intros n k e v. split.
  - intros H. destruct k, e as [x|]; try destruct opt; cbn [from_entry] in H; try destruct x; try discriminate;
      try (injection H as <-; constructor);
      repeat match type of H with
      | context [(?a =? ?b)%nat] => destruct (Nat.eqb_spec a b); [subst|discriminate]
      | context [(?a =? ?b)%N] => destruct (N.eqb_spec a b); [subst|discriminate]
      end; injection H as <-; try constructor;
      match goal with |- context [match ?o with _ => _ end] => destruct o; constructor end.
  - intros R. destruct R; cbn [from_entry]; rewrite ?Nat.eqb_refl, ?N.eqb_refl; reflexivity.
Qed.
Lemma from_err : forall n k e, (exists v, from_entry n k e = DOk v) \/ (e <> None /\ from_entry n k e = DIncompatible n) \/ (e = None /\ from_entry n k e = DSkipRequired n).
Proof.
  intros n k e. destruct k, e as [x|]; try destruct opt; cbn [from_entry]; try destruct x; cbn [from_entry]; eauto;
    try (destruct (_ =? _)%nat); try (destruct (_ =? _)%N); eauto; right; left; (split; [discriminate|reflexivity]).
Qed.
Lemma reads_fun : forall k e v v', reads k e v -> reads k e v' -> v = v'.
Proof. intros k e v v' A B. apply (from_iff []) in A. apply (from_iff []) in B. congruence. Qed.

Lemma from_dict_iff : forall fs d vs, from_dict fs d = DOk vs <-> Forall2 (fun f v => reads (snd f) (dict_get d (fst f)) v) fs vs.
Proof.
  induction fs as [|[n k] fs IH]; intros d vs; cbn [from_dict].
  - split; [intros H; injection H as <-; constructor|intros H; inversion H; reflexivity].
  - split.
    + destruct (from_entry n k (dict_get d n)) as [v| |] eqn:E; try discriminate. destruct (from_dict fs d) as [ws| |] eqn:F; try discriminate.
      intros H. injection H as <-. constructor; [cbn [fst snd]; apply (from_iff n); exact E|]. apply IH. exact F.
    + intros H. inversion H as [|? v ? ws R RS]; subst. cbn [fst snd] in R. apply (from_iff n) in R. rewrite R. apply IH in RS. rewrite RS. reflexivity.
Qed.

Lemma from_dict_err : forall fs d n,
  (from_dict fs d = DIncompatible n <-> exists l k r x ws, fs = l ++ (n, k) :: r /\ Forall2 (fun f v => reads (snd f) (dict_get d (fst f)) v) l ws
     /\ dict_get d n = Some x /\ forall v, ~ reads k (Some x) v)
  /\ (from_dict fs d = DSkipRequired n <-> exists l k r ws, fs = l ++ (n, k) :: r /\ Forall2 (fun f v => reads (snd f) (dict_get d (fst f)) v) l ws
     /\ dict_get d n = None /\ forall v, ~ reads k None v).
Proof.
  induction fs as [|[m k0] fs IH]; intros d n.
  - cbn [from_dict]. split; split; try discriminate; intros (l & ? & ? & H); decompose [ex and] H; destruct l; discriminate.
  - cbn [from_dict]. destruct (IH d n) as [IA IB]. split; split.
    + destruct (from_err m k0 (dict_get d m)) as [(v & E) | [(NE & E) | (NE & E)]]; rewrite E.
      * destruct (from_dict fs d) as [ws| |] eqn:F; try discriminate. intros H. injection H as ->. destruct (proj1 IA eq_refl) as (l & k & r & x & ws & -> & A & B & C).
        exists ((m, k0) :: l), k, r, x, (v :: ws). split; [reflexivity|]. split; [constructor; [cbn [fst snd]; apply (from_iff m); exact E|exact A]|]. split; assumption.
      * intros H. injection H as <-. destruct (dict_get d m) as [x|] eqn:G; [|congruence]. exists [], k0, fs, x, []. split; [reflexivity|]. split; [constructor|]. split; [reflexivity|].
        intros v R. apply (from_iff m) in R. congruence.
      * discriminate.
    + intros (l & k & r & x & ws & E & A & B & C). destruct l as [|f l].
      * injection E as -> -> ->. rewrite B. destruct (from_err n k (Some x)) as [(v & E) | [(NE & E) | (NE & E)]]; [|rewrite E; reflexivity|discriminate].
        apply from_iff in E. exfalso. exact (C v E).
      * injection E as <- ->. inversion A as [|? v ? ws' R RS]; subst. cbn [fst snd] in R. apply (from_iff m) in R. rewrite R.
        assert (H : from_dict (l ++ (n, k) :: r) d = DIncompatible n) by (apply IA; exists l, k, r, x, ws'; auto). rewrite H. reflexivity.
    + destruct (from_err m k0 (dict_get d m)) as [(v & E) | [(NE & E) | (NE & E)]]; rewrite E.
      * destruct (from_dict fs d) as [ws| |] eqn:F; try discriminate. intros H. injection H as ->. destruct (proj1 IB eq_refl) as (l & k & r & ws & -> & A & B & C).
        exists ((m, k0) :: l), k, r, (v :: ws). split; [reflexivity|]. split; [constructor; [cbn [fst snd]; apply (from_iff m); exact E|exact A]|]. split; assumption.
      * discriminate.
      * intros H. injection H as <-. exists [], k0, fs, []. split; [reflexivity|]. split; [constructor|]. split; [exact NE|].
        intros v R. apply (from_iff m) in R. congruence.
    + intros (l & k & r & ws & E & A & B & C). destruct l as [|f l].
      * injection E as -> -> ->. rewrite B. destruct (from_err n k None) as [(v & E) | [(NE & E) | (NE & E)]]; [|congruence|rewrite E; reflexivity].
        apply from_iff in E. exfalso. exact (C v E).
      * injection E as <- ->. inversion A as [|? v ? ws' R RS]; subst. cbn [fst snd] in R. apply (from_iff m) in R. rewrite R.
        assert (H : from_dict (l ++ (n, k) :: r) d = DSkipRequired n) by (apply IB; exists l, k, r, ws'; auto). rewrite H. reflexivity.
Qed.

(** a field of a map written by ToDict *)
Lemma field_get : forall fs vs n k v, NoDup (map fst fs) -> all_fit fs vs -> In ((n, k), v) (combine fs vs) -> dict_get (to_dict fs vs) n = to_entry k v.
Proof.
  intros fs vs n k v ND AF I. unfold to_dict. destruct (loop_get fs vs [] n ND) as [A B]. destruct (to_entry k v) as [x|] eqn:T; [exact (A k v x I T)|].
  rewrite B; [reflexivity|]. intros k' v' x I' T'. enough (k = k' /\ v = v') as [-> ->] by congruence.
  clear A B T T' AF. revert vs I I'. induction fs as [|[m k0] fs IH]; intros [|v0 vs] I I'; try destruct I. cbn [map fst] in ND. apply NoDup_cons_iff in ND. destruct ND as [NI ND].
  - injection H as -> -> ->. destruct I' as [E | I']; [injection E as -> ->; auto|]. exfalso. apply NI. change n with (fst (n, k')). apply in_map. exact (in_combine_l _ _ _ _ I').
  - cbn [map fst] in ND. apply NoDup_cons_iff in ND. destruct ND as [NI ND]. destruct I' as [E | I']; [|exact (IH ND vs H I')].
    injection E as -> -> ->. exfalso. apply NI. change n with (fst (n, k)). apply in_map. exact (in_combine_l _ _ _ _ H).
Qed.

Lemma entry_read : forall k v, fits k v -> (reads k (to_entry k v) v <-> (lossy k = true -> v = VNone)).
Proof.
  intros k v F. destruct (to_entry k v) as [x|] eqn:T.
  - apply entry_shows in T; [|exact F]. destruct T; cbn [lossy]; split; intros H; try discriminate; try constructor; try (inversion H; fail). specialize (H eq_refl). discriminate.
  - destruct (entry_absent k v F T) as [R | ->].
    + split; [intros _ L|auto]. destruct k; try discriminate; inversion R; reflexivity.
    + cbn [lossy]. split; [intros R _; inversion R; reflexivity|]. intros H. rewrite (H eq_refl). constructor.
Qed.

Lemma loop_inv : forall fs vs d n x, dict_get (to_dict_loop fs vs d) n = Some x ->
  dict_get d n = Some x \/ exists k v, In ((n, k), v) (combine fs vs) /\ to_entry k v = Some x.
Proof.
  induction fs as [|[m k0] fs IH]; intros [|v0 vs] d n x H; cbn [to_dict_loop combine] in *; auto.
  destruct (IH _ _ _ _ H) as [G | (k & v & I & T)]; [|right; exists k, v; split; [right; exact I|exact T]].
  destruct (to_entry k0 v0) as [y|] eqn:T; [|left; exact G]. rewrite get_set in G. destruct (bytes_eqb m n) eqn:E; [|left; exact G].
  apply deq in E. subst m. injection G as ->. right. exists k0, v0. split; [left; reflexivity|exact T].
Qed.
Lemma fit_in : forall fs vs n k v, all_fit fs vs -> In ((n, k), v) (combine fs vs) -> fits k v.
Proof.
  intros fs vs n k v AF. induction AF as [|f w fs vs F AF IH]; intros I; [destruct I|]. destruct I as [E | I]; [|exact (IH I)]. injection E as -> ->. exact F.
Qed.
(** reading a map written by ToDict: field by field *)
Lemma read_back : forall fs vs (P : (buf * dkind) -> value -> Prop), NoDup (map fst fs) -> all_fit fs vs ->
  (forall n k v, In ((n, k), v) (combine fs vs) -> fits k v -> (reads k (to_entry k v) v <-> P (n, k) v)) ->
  (Forall2 (fun f v => reads (snd f) (dict_get (to_dict fs vs) (fst f)) v) fs vs <-> Forall2 P fs vs).
Proof.
  intros fs vs P ND AF HP. assert (G : forall n k v, In ((n, k), v) (combine fs vs) -> (reads k (dict_get (to_dict fs vs) n) v <-> P (n, k) v)).
  { intros n k v I. rewrite (field_get fs vs n k v ND AF I). apply HP; [exact I|]. exact (fit_in _ _ _ _ _ AF I). }
  clear HP ND. generalize dependent (to_dict fs vs). intros d G. induction AF as [|[n k] v fs vs F AF IH]; [split; constructor|].
  cbn [combine] in G. split; intros H; inversion H as [|? ? ? ? H1 H2]; subst; constructor; cbn [fst snd] in *;
    try (apply (G n k v); [left; reflexivity|exact H1]); (apply IH; [intros; apply G; right; assumption|exact H2]).
Qed.
