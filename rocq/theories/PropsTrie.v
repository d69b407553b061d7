(** C24: the name trie behaves as a map of names (pkg/engine/basic/simple_trie.go). *)
From Verif Require Import Base NameModel TextModel TrieModel TrieSpec TrieProofs.

(** Every history of lookups, insertions, value updates and deletions of nodes found
    by name gives the results of the abstract map of TrieSpec, without a panic:
    ExactMatch returns the node of exactly that key path, PrefixMatch the longest
    one present, and deletions remove what [cut] says.  Histories that use a node
    after it was removed are excluded, see below. *)
Theorem C24_trie_map : forall (V : Type) (zero : V) (os : list (top V)),
  exists h rs a, t_run zero (new_trie zero) os = Ok (h, rs) /\ a_run zero (a_new zero) os rs a.
Proof.
  intros V zero os. destruct (t_run_refines V zero os (new_trie zero) (new_inv V zero)) as (h & rs & R & _ & A).
  exists h, rs, (abs V h). split; auto.
  assert (E : forall a b rs c, (forall p, a p = b p) -> a_run zero a os rs c -> a_run zero b os rs c).
  { intros a b rs' c E H. inversion H as [x y S|x a0 o r a1 os' rs2 a2 S H1 H2]; subst.
    - constructor. intros p. rewrite S. auto.
    - apply ACons with a0 a1; auto. intros p. rewrite S. auto. }
  eapply E; [|exact A]. apply new_abs.
Qed.
Print Assumptions C24_trie_map.

(** Two names with the same component strings share a node: the text of a component
    decides, not its bytes (see C10). *)
Definition g (s : buf) : comp := mkComp TypeGeneric s.

Example C24_ex : exists h,
  t_run 0%Z (new_trie 0%Z)
    [TAlways [g [97%N]; g [98%N]; g [99%N]]; TSet [g [97%N]; g [98%N]] 7%Z; TExact [g [97%N]; g [98%N]]; TExact [g [98%N]];
     TPrefix [g [97%N]; g [98%N]; g [100%N]]; TDeleteIf (fun v => v =? 0)%Z [g [97%N]; g [98%N]; g [99%N]];
     TPrefix [g [97%N]; g [98%N]; g [99%N]]; TDelete [g [97%N]; g [98%N]]; TPrefix [g [97%N]; g [98%N]]]
  = Ok (h, [ONode 3 0%Z; ONode 2 0%Z; ONode 2 7%Z; ONil; ONode 2 7%Z; ONode 3 0%Z; ONode 2 7%Z; ONode 2 7%Z; ONode 0 0%Z]).
Proof. eexists. vm_compute. reflexivity. Qed.

(** A caller that deletes a node it still holds after the node left the tree can
    remove an unrelated newer node: hold the node of /a/b, delete /a, create /a/b
    again with a value, delete the old node: the new /a/b is gone. *)
Theorem C24_stale_delete_refuted :
  exists (h1 h2 h3 h4 h5 : store Z) (old na new : nat) (p q : path),
    t_always 0%Z (new_trie 0%Z) p = Ok (h1, old) /\
    t_exact h1 q = Ok (Some na) /\ t_delete h1 na = Ok h2 /\ t_exact h2 p = Ok None /\
    t_always 0%Z h2 p = Ok (h3, new) /\ set_value h3 new 7%Z = Ok h4 /\ new <> old /\
    t_exact h4 p = Ok (Some new) /\
    t_delete h4 old = Ok h5 /\ t_exact h5 p = Ok None.
Proof.
  do 5 eexists. exists 2%nat, 1%nat, 4%nat, [[97%N]; [98%N]], [[97%N]].
  repeat (split; [vm_compute; reflexivity|]). split; [discriminate|].
  repeat (split; [vm_compute; reflexivity|]). vm_compute; reflexivity.
Qed.
Print Assumptions C24_stale_delete_refuted.
