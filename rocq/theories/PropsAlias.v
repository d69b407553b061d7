(** C80: names are values (within limits). *)
From Verif Require Import Base NameModel AliasModel AliasSpec AliasProofs.

Notation params_digest := (mkComp TypeParametersSha256Digest).
Notation implicit_digest := (mkComp TypeImplicitSha256Digest).

(** In a careful program every variable keeps the name it got, whatever room append leaves.  Careful: a name that was
    made by NameFromStr, Clone, Apply, FromMatching or by make may be extended (append, ToFullName, MakeInterest with
    parameters) any number of times; one that was read from bytes or is the result of extending another once, together
    with its copies; one that was cut from the left of another never; and MakeInterest with parameters is not given a
    name that ends with a digest of parameters. *)
Theorem C80_values : forall room os, careful [] [] [] os = true -> nvalues room os = values os.
Proof.
  intros room os H. unfold nvalues, nrun. destruct (fold_left (nstep room) os ([[]], [])) as [h rs] eqn:E.
  unfold values. apply (run_inv room os _ _ _ _ _ _ (inv_start room)) with (h' := h) (rs' := rs); auto. intros k [].
Qed.
Print Assumptions C80_values.

(** Any call, in any state, changes at most one element of the arrays that exist: the one behind the name it extends,
    or the last one of a name that ends with a digest of parameters, of which an Interest with parameters is made. *)
Theorem C80_slot : forall room h rs o h' rs', 0 < length h -> (forall s, In s rs -> wf h s) -> nstep room (h, rs) o = (h', rs') ->
  forall a j, a < length h -> slot h rs o <> Some (a, j) -> nth_error (arr h' a) j = nth_error (arr h a) j.
Proof. intros room h rs o h' rs' Hh Hw E a j Ha Hs. exact (step_slot room h rs o h' rs' a j Hw Hh E Ha Hs). Qed.
Print Assumptions C80_slot.

(** Attaching a tree gives every node its own path, although the paths are made in shared arrays; and no name or path
    that existed is changed. *)
Theorem C80_paths : forall A (zero : A) room t h prefix h' l, attach_tree zero room t h prefix = (h', l) ->
  map (read h') l = paths t prefix /\ (forall s, wf h s -> read h' s = read h s).
Proof.
  intros A zero room t h prefix h' l. unfold attach_tree, go_make. intros E.
  set (path := mkSl (length h) 0 (length prefix)) in *.
  assert (Wp : wf (h ++ [prefix]) path).
  { unfold wf, path, s_end; cbn [s_arr s_off s_len]. rewrite arr_new, app_length. cbn [length]. lia. }
  assert (Rp : read (h ++ [prefix]) path = prefix).
  { unfold read, path; cbn [s_arr s_off s_len]. rewrite arr_new. apply firstn_all. }
  destruct (att_all zero room t _ _ _ _ Wp E) as [_ [K [M _]]]. split.
  - rewrite M, Rp. reflexivity.
  - intros s [W1 W2]. destruct (K s) as [R _].
    + split.
      * split; [rewrite app_length; lia|]. rewrite arr_old by auto. exact W2.
      * left. unfold path; cbn [s_arr]. lia.
    + rewrite R. apply read_new. exact W1.
Qed.
Print Assumptions C80_paths.

(** Not so: two Interests with parameters made of the name of any packet that was received: the first gets the final
    name of the second. *)
Theorem C80_received_refuted : forall room v l d1 d2, 2 * length v <= l -> ends_in TypeParametersSha256Digest v = false ->
  let os := [NParsed v l; NInterest 0 (Some d1) true; NInterest 0 (Some d2) true] in
  nvalues room os = [v; v ++ [params_digest d2]; v ++ [params_digest d2]]
  /\ values os = [v; v ++ [params_digest d1]; v ++ [params_digest d2]].
Proof.
  intros room v l d1 d2 Hl He os. split; [apply received_twice; auto|].
  unfold os, values. cbn [fold_left nval app nth]. unfold strip. rewrite He. reflexivity.
Qed.
Print Assumptions C80_received_refuted.

(** Not so: an Interest with parameters made of the final name of another one: the other one's final name changes. *)
Theorem C80_remake_refuted : forall room v d1 d2, ends_in TypeParametersSha256Digest v = false ->
  let os := [NNew v; NInterest 0 (Some d1) true; NInterest 1 (Some d2) true] in
  nvalues room os = [v; v ++ [params_digest d2]; v ++ [params_digest d2]]
  /\ values os = [v; v ++ [params_digest d1]; v ++ [params_digest d2]].
Proof.
  intros room v d1 d2 He os. split; [apply remake; auto|].
  unfold os, values. cbn [fold_left nval app nth]. 
  assert (S1 : strip v = v) by (unfold strip; rewrite He; reflexivity). rewrite S1.
  unfold strip. rewrite ends_in_app. cbn [ctyp]. rewrite N.eqb_refl, removelast_last. reflexivity.
Qed.
Print Assumptions C80_remake_refuted.

(** Not so: an Interest with parameters made of the first [k] components of a name: the next component is overwritten. *)
Theorem C80_prefix_refuted : forall room v k d, k < length v -> ends_in TypeParametersSha256Digest (firstn k v) = false ->
  let os := [NNew v; NTake 0 k; NInterest 1 (Some d) true] in
  nth 0 (nvalues room os) [] = firstn k v ++ params_digest d :: skipn (S k) v /\ nth 0 (values os) [] = v.
Proof.
  intros room v k d Hk He os. unfold os. rewrite prefix_over by auto. split; reflexivity.
Qed.
Print Assumptions C80_prefix_refuted.

(** Not so: when making the Interest fails after all, the digest of the name given is lost. *)
Theorem C80_failed_refuted : forall room v d1 d2,
  let os := [NNew (v ++ [params_digest d1]); NInterest 0 (Some d2) false] in
  nth 0 (nvalues room os) [] = v ++ [zero_digest] /\ nth 0 (values os) [] = v ++ [params_digest d1].
Proof. intros room v d1 d2 os. unfold os. rewrite failed_call. split; reflexivity. Qed.
Print Assumptions C80_failed_refuted.

(** Not so: two full names of the name of a packet that was received: the first gets the digest of the second. *)
Theorem C80_fullname_refuted : forall room v l d1 d2, 2 * length v <= l -> v <> [] -> ends_in TypeImplicitSha256Digest v = false ->
  let os := [NParsed v l; NFull 0 d1; NFull 0 d2] in
  nvalues room os = [v; v ++ [implicit_digest d2]; v ++ [implicit_digest d2]]
  /\ values os = [v; v ++ [implicit_digest d1]; v ++ [implicit_digest d2]].
Proof.
  intros room v l d1 d2 Hl Hv He os. split; [apply full_twice; auto|].
  unfold os, values. cbn [fold_left nval app nth]. destruct v; [congruence|]. rewrite He. reflexivity.
Qed.
Print Assumptions C80_fullname_refuted.

(** * Concrete cases *)
Definition g (b : N) : comp := mkComp 8 [b].
Definition ex_room (n : nat) : nat := n.

(** the name of a received packet; its full name; an Interest with parameters of a copy of it, twice; a prefix of it
    that is copied before it is extended; a group prefix and two sync names; the name without its first component *)
Definition ex_prog : list nop :=
  [NParsed [g 1; g 2; g 3] 9; NFull 0 [7]%N; NClone 0; NInterest 2 (Some [8]%N) true; NInterest 2 (Some [9]%N) true;
   NTake 0 2; NClone 5; NAppend 6 (g 4); NAppend 6 (g 5); NDrop 0 1; NInterest 3 None true; NInterest 7 (Some [1]%N) false].
Example C80_values_ex : careful [] [] [] ex_prog = true
  /\ nvalues ex_room ex_prog = values ex_prog
  /\ nth 3 (values ex_prog) [] = [g 1; g 2; g 3; params_digest [8]%N]
  /\ nth 8 (values ex_prog) [] = [g 1; g 2; g 5]
  /\ nth 10 (values ex_prog) [] = [g 1; g 2; g 3].
Proof. split; [vm_compute; reflexivity|]. split; [vm_compute; reflexivity|]. split; [vm_compute; reflexivity|]. split; vm_compute; reflexivity. Qed.

(** programs of the library: a command Interest (mgmt.go 22-37, one append for each component); the sync Interests of
    SvSync (svs.go 54, 291, 303); the names of the segments of an object (rdr.go 65-110) *)
Example C80_library_ex :
  careful [] [] [] [NRead [g 1]; NAppend 0 (g 2); NAppend 1 (g 3); NAppend 2 (g 4); NInterest 3 (Some [5]%N) true] = true
  /\ careful [] [] [] [NParsed [g 1; g 2] 6; NClone 0; NAppend 1 (g 3); NInterest 2 (Some [4]%N) true; NAppend 1 (g 3); NInterest 4 (Some [5]%N) true] = true
  /\ careful [] [] [] [NParsed [g 1; g 2] 6; NExtend 0 [g 3]; NExtend 0 [g 4]; NFull 1 [5]%N; NFull 2 [6]%N] = true.
Proof. split; [vm_compute; reflexivity|]. split; vm_compute; reflexivity. Qed.

(** the same with a name used in place of its copy is not careful, and wrong *)
Example C80_careless_ex :
  let os := [NParsed [g 1; g 2] 6; NAppend 0 (g 3); NInterest 1 (Some [4]%N) true; NAppend 0 (g 3); NInterest 3 (Some [5]%N) true] in
  careful [] [] [] os = false
  /\ nth 2 (nvalues ex_room os) [] = [g 1; g 2; g 3; params_digest [5]%N]
  /\ nth 2 (values os) [] = [g 1; g 2; g 3; params_digest [4]%N].
Proof. split; [vm_compute; reflexivity|]. split; vm_compute; reflexivity. Qed.

Example C80_slot_ex :
  let h := [[]; [g 1; g 2; g 3]] in
  slot h [mkSl 1 0 2] (NFull 0 [9]%N) = Some (1, 2) /\ (forall s, In s [mkSl 1 0 2] -> wf h s)
  /\ fst (nstep ex_room (h, [mkSl 1 0 2]) (NFull 0 [9]%N)) = [[]; [g 1; g 2; implicit_digest [9]%N]].
Proof.
  split; [vm_compute; reflexivity|]. split; [|vm_compute; reflexivity].
  intros s [<-|[]]. split; vm_compute; lia.
Qed.

(** a tree: two children with two children each, attached at a prefix of two components; append leaves room *)
Definition ex_tree : ptree nat := PNode 0 [PNode 1 [PNode 2 []; PNode 3 []]; PNode 4 [PNode 5 []; PNode 6 []]].
Example C80_paths_ex :
  let (h, l) := attach_tree 99 (fun _ => 5) ex_tree [[7; 7]] [8; 9] in
  map (read h) l = [[8; 9]; [8; 9; 1]; [8; 9; 1; 2]; [8; 9; 1; 3]; [8; 9; 4]; [8; 9; 4; 5]; [8; 9; 4; 6]]
  /\ read h (mkSl 0 0 2) = [7; 7].
Proof. split; vm_compute; reflexivity. Qed.
