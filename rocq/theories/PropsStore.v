(** C39: the memory storage (pkg/schema/basic_policies.go). *)
From Coq Require Import Permutation.
From Verif Require Import Base NameModel NameProofs TextModel TextProofs2 TrieModel TrieSpec StoreModel StoreSpec StoreProofs.

(** No history of Put fails, and Get, whatever order Go iterates in, returns a packet that was
    put last under its name at or below the one asked for, and is still valid if freshness is asked
    for; nothing only if there is no such packet; and the packet put last under the name itself if
    that is eligible. *)
Theorem C39_get : forall puts, exists h, s_puts s_new puts = Ok h /\
  forall ord now n cbp mbf, (forall m l, Permutation l (ord m l)) ->
  exists r, s_get ord h now n cbp mbf = Ok r
    /\ (forall w, r = Some w -> exists m v, at_or_below n m /\ latest puts (m, w, v) /\ eligible mbf now (m, w, v))
    /\ (r = None -> forall p, latest puts p -> at_or_below n (fst (fst p)) -> ~ eligible mbf now p)
    /\ (forall m w v, same_name n m -> latest puts (m, w, v) -> eligible mbf now (m, w, v) -> r = Some w).
Proof.
  intros puts. destruct (puts_holds puts s_new _ new_holds) as (h & E & _). exists h. split; [exact E|].
  intros ord now n cbp mbf O. destruct (get_ok puts h ord now n cbp mbf O E) as (r & R & TOP & REST). exists r. split; [exact R|]. split; [|split].
  - intros w ->. destruct REST as (k & e & P & L & F & ->). apply last_put_latest in L. destruct L as (m & <- & L). apply fresh_iff in F. destruct F as [F1 F2]. exists m, (en_valid e). split; [exact P|]. split; [exact L|]. split; [exact F1|exact F2].
  - intros -> [[m w] v] L P [F1 F2]. assert (LP : last_put (keys m) puts = Some (mkEntry w v)) by (apply last_put_latest; exists m; auto).
    specialize (REST (keys m) _ P LP). assert (T : fresh_test mbf now (mkEntry w v) = true) by (apply fresh_iff; split; auto). congruence.
  - intros m w v S L [F1 F2]. assert (LP : last_put (keys n) puts = Some (mkEntry w v)) by (apply last_put_latest; exists m; auto).
    assert (T : fresh_test mbf now (mkEntry w v) = true) by (apply fresh_iff; split; auto). rewrite LP, T in TOP. exact TOP.
Qed.
Print Assumptions C39_get.

(** Names are the same for the storage iff their components are, but for numbers written with
    different lengths *)
Theorem C39_same_name : forall n m, Forall comp_ok n -> Forall comp_ok m -> (same_name n m <-> Forall2 same_uri n m).
Proof.
  intros n m F. revert m. induction F as [|c n C F IH]; intros m G.
  - unfold same_name, keys. split; intros H; [destruct m; [constructor|discriminate]|inversion H; reflexivity].
  - destruct m as [|d m]; [split; intros H; [discriminate|inversion H]|]. inversion G; subst. unfold same_name, keys in *. cbn [map]. split; intros H.
    + inversion H. constructor; [apply comp_str_collisions; auto|apply IH; auto].
    + inversion H; subst. f_equal; [apply comp_str_collisions; auto|apply IH; auto].
Qed.
Print Assumptions C39_same_name.

Definition sa : comp := mkComp 8 [97%N].
Definition sb : comp := mkComp 8 [98%N].
Definition by_map : nat -> list (key * nat) -> list (key * nat) := fun _ l => l.
Definition reversed : nat -> list (key * nat) -> list (key * nat) := fun _ l => rev l.

(** CanBePrefix is ignored: asked for exactly /a, the storage returns the packet of /a/b ... *)
Theorem C39_exact_refuted : exists puts h w, s_puts s_new puts = Ok h /\ s_get by_map h 0 [sa] false true = Ok (Some w)
  /\ forall m v, In (m, w, v) puts -> ~ same_name [sa] m.
Proof.
  exists [([sa; sb], [[1%N]], 5%Z)]. do 2 eexists. split; [vm_compute; reflexivity|]. split; [vm_compute; reflexivity|].
  intros m v [H|[]]. inversion H; subst. discriminate.
Qed.
Print Assumptions C39_exact_refuted.

(** ... and which one of several differs between runs *)
Theorem C39_order_refuted : exists puts h w w', s_puts s_new puts = Ok h /\
  s_get by_map h 0 [sa] true false = Ok (Some w) /\ s_get reversed h 0 [sa] true false = Ok (Some w') /\ w <> w'.
Proof.
  exists [([sa; sa], [[1%N]], 5%Z); ([sa; sb], [[2%N]], 5%Z)]. do 3 eexists. split; [vm_compute; reflexivity|]. split; [vm_compute; reflexivity|].
  split; [vm_compute; reflexivity|]. discriminate.
Qed.
Print Assumptions C39_order_refuted.

Example C39_example : exists h, s_puts s_new [([sa], [[1%N]], 5%Z); ([sa; sb], [[2%N]], 9%Z); ([sa], [[3%N]; [4%N]], 7%Z)] = Ok h
  /\ map (fun q => s_get by_map h (fst (fst q)) (snd (fst q)) true (snd q)) [(6%Z, [sa], true); (7%Z, [sa], true); (7%Z, [sa], false); (9%Z, [sa], true); (0%Z, [sb], false)]
     = [Ok (Some [[3%N]; [4%N]]); Ok (Some [[2%N]]); Ok (Some [[3%N]; [4%N]]); Ok None; Ok None].
Proof. eexists. split; vm_compute; reflexivity. Qed.
