(** C76: attaching schema trees to an engine and detaching them (pkg/schema/tree.go, base_node.go).

    [trees] are the trees of the program.  An operation is a call of Attach or Detach with what the listeners answer
    in it, an Interest for which the engine looks up the handler, or a call of the handler of a tree. *)
From Coq Require Import String.
From Verif Require Import Base BaseProofs NameModel SchemaModel SchemaSpec SchemaProofs TrieModel TrieSpec FibModel FibSpec FibProofs AttrModel PolModel PolSpec PolProofs AttachModel AttachSpec AttachProofs.

(** ** who gets the Interests *)

(** Every history of attaching and detaching returns. *)
Theorem C76_returns : forall trees ops, exists y outs, l_run (sys_new trees) ops = Ok (y, outs) /\ length outs = length ops.
Proof. intros trees ops. apply run_there. apply fib_new_inv. Qed.
Print Assumptions C76_returns.

(** For every number of trees and every history in which trees are attached only when they are not attached, with a
    prefix that is not empty, and detached only when they are: Attach fails iff the prefix of an attached tree is
    above or below; an Interest goes to the tree whose prefix is above its name, if there is one, and the tree gives it
    to the node that its name matches.  Partial: see the refuted statements for the other histories. *)
Theorem C76_history_partial : forall trees ops y outs, l_run (sys_new trees) ops = Ok (y, outs) -> legal nobody ops outs -> all_right trees nobody ops outs.
Proof. intros trees ops y outs R L. exact (run_right trees ops nobody (sys_new trees) y outs (new_inv_sys trees) R L). Qed.
Print Assumptions C76_history_partial.

(** ** the listeners of the nodes *)

(** The trees that Instantiate makes of classes of the library have no two children with the same edge. *)
Theorem C76_plain : forall env nodes pols t, inst registered base_desc env nodes pols = Ok (Some t) -> plain_tree t.
Proof.
  intros env nodes pols t H. destruct (inst_parts _ _ _ _ _ _ H) as (t0 & E0 & E1). apply (policies_plain pols 0 t0 t); [|exact E1].
  apply (nodes_plain registered base_desc env nodes None (Some t0) registered_plain); [discriminate|exact E0|reflexivity].
Qed.
Print Assumptions C76_plain.

(** If no listener panics, Attach visits every node once, after all nodes below it, and calls the listeners of its
    attach event in order up to the first that returns an error; each RegisterPolicy asks for the route of its node. *)
Theorem C76_attach : forall root prefix pols w s, plain_tree root -> on_attach root prefix pols w [] root = (true, s) ->
  exists visits : list (list pat * ndesc),
  s = flat_map (fun x => flat_map (fun l => SCall (fst x) l :: route_of prefix pols (fst x) l) (upto (w (fst x)) 0 (attach_listeners (snd x)))) visits
  /\ NoDup (map fst visits)
  /\ (forall q d, In (q, d) visits <-> exists u, at_path q root = Some u /\ s_desc u = d)
  /\ (forall q u e q' u', at_path q root = Some u -> at_path (q ++ e :: q') root = Some u' ->
        exists v1 v2 v3, visits = v1 ++ (q ++ e :: q', s_desc u') :: v2 ++ (q, s_desc u) :: v3).
Proof.
  intros root pre pols w s PL H. exists (post_order [] root). split; [exact (attach_steps root pre pols w root [] s H)|]. split; [apply post_nodup; auto|]. split.
  - intros q d. rewrite (post_nodes root PL). split; [intros (s' & u & A & E); injection E as -> ->; eauto|intros (u & A & <-); eauto].
  - intros q u e q' u' A B. exact (post_after root PL [] q u e q' u' A B).
Qed.
Print Assumptions C76_attach.

(** No listener panics if callbacks return nil or an error, the routes are accepted, every RegisterPolicy has values
    for the variables of its path, and policies with keys have their store and node. *)
Theorem C76_attach_works : forall root prefix pols w, plain_tree root -> all_work root pols w -> exists s, on_attach root prefix pols w [] root = (true, s).
Proof.
  intros root pre pols w PL W. apply attach_works. intros x I k l NE. apply (post_nodes root PL) in I. destruct I as (s & u & A & ->). cbn [fst snd app] in *. exact (W s u k l A NE).
Qed.
Print Assumptions C76_attach_works.

(** Detach visits every node once, before the nodes below it, and calls all listeners of its detach event in order. *)
Theorem C76_detach : forall root w s, plain_tree root -> on_detach w [] root = (true, s) ->
  exists visits : list (list pat * ndesc),
  s = flat_map (fun x => map (SCall (fst x)) (detach_listeners (snd x))) visits
  /\ NoDup (map fst visits)
  /\ (forall q d, In (q, d) visits <-> exists u, at_path q root = Some u /\ s_desc u = d)
  /\ (forall q u e q' u', at_path q root = Some u -> at_path (q ++ e :: q') root = Some u' ->
        exists v1 v2 v3, visits = v1 ++ (q, s_desc u) :: v2 ++ (q ++ e :: q', s_desc u') :: v3).
Proof.
  intros root w s PL H. exists (pre_order [] root). split; [exact (detach_steps w root [] s H)|]. split; [apply pre_nodup; auto|]. split.
  - intros q d. rewrite (pre_nodes root PL). split; [intros (s' & u & A & E); injection E as -> ->; eauto|intros (u & A & <-); eauto].
  - intros q u e q' u' A B. exact (pre_before root PL [] q u e q' u' A B).
Qed.
Print Assumptions C76_detach.
Theorem C76_detach_works : forall root w, (forall q k, w q k <> APanic) -> exists s, on_detach w [] root = (true, s).
Proof. intros root w H. apply detach_works. exact H. Qed.
Print Assumptions C76_detach_works.

(** ** cases *)
Definition ca : comp := mkComp 8%N (txt "a").
Definition cb : comp := mkComp 8%N (txt "b").
Definition cc : comp := mkComp 8%N (txt "c").
Definition vx : pat := PVar 8%N (txt "x").
Definition ex_env (k : buf) : option N := if bytes_eqb k (txt "$one") then Some 1%N else if bytes_eqb k (txt "$two") then Some 2%N else None.
Definition ex_nodes : list (list pat * (buf * list (buf * list buf))) :=
  [([], (txt "Base", [(txt "OnAttachEvt", [txt "$one"; txt "$two"])]));
   ([PComp cb; vx], (txt "LeafNode", [(txt "OnAttachEvt", [txt "$one"]); (txt "OnDetachEvt", [txt "$two"])]))].
Definition ex_pol : policy := PRegister true [(txt "x", txt "here")].
Definition ex_tree : etree := match inst registered base_desc ex_env ex_nodes [([PComp cb; vx], ex_pol)] with Ok (Some t) => t | _ => SNode [] [] end.
Definition ex_pols (j : nat) : policy := ex_pol.
Definition fine : answers := fun _ _ => ANone.
Definition fails : answers := fun q _ => match q with [] => AErr | _ => ANone end.
Definition ex_trees : nat -> tst := fun _ => fresh ex_tree ex_pols.
Definition ex_seen : list seen :=
  [SCall [PComp cb; vx] (LCb 1); SCall [PComp cb; vx] (LPol 0 HAttach); SRoute [ca; cb; mkComp 8 (txt "here")]; SCall [] (LCb 1); SCall [] (LCb 2)].

Example C76_attach_case : plain_tree ex_tree /\ all_work ex_tree ex_pols fine /\ on_attach ex_tree [ca] ex_pols fine [] ex_tree = (true, ex_seen).
Proof.
  split; [apply (C76_plain ex_env ex_nodes [([PComp cb; vx], ex_pol)]); vm_compute; reflexivity|]. split; [|vm_compute; reflexivity].
  assert (W : forall q n l, (forall ty tag, In (PVar ty tag) q -> tag = txt "x") -> works ex_tree ex_pols fine q n l).
  { intros q n l H. destruct l as [c|h|j h]; cbn [works]; [left; reflexivity|left; reflexivity|]. destruct h; try exact Logic.I. cbn [ex_pols ex_pol]. split; [|reflexivity]. intros ty tag I. rewrite (H ty tag I). vm_compute. discriminate. }
  intros q u n l A _. apply W. intros ty tag I. clear W. apply (at_path_edges _ _ _ A) in I. vm_compute in I. repeat (destruct I as [I|I]; [try discriminate I; injection I as _ <-; reflexivity|]). destruct I.
Qed.
Example C76_detach_case : on_detach fine [] ex_tree = (true, [SCall [PComp cb; vx] (LCb 2)]).
Proof. vm_compute. reflexivity. Qed.

Example C76_history_case :
  let ops := [OAttach 0 [ca] fine; OAttach 1 [ca; cb] fine; OAttach 1 [cb] fine; OArrive [ca; cb; cc]; OHandle 0 [ca; cb; cc]; ODetach 0 fine; OArrive [ca; cb; cc];
              OArrive [cb; cc]; OAttach 0 [cc] fine] in
  exists y outs, l_run (sys_new ex_trees) ops = Ok (y, outs) /\ legal nobody ops outs /\
  map (fun o => match o with ROk _ => ROk [] | RErr _ => RErr [] | x => x end) outs =
    [ROk []; RErr []; ROk []; RCall 0; RNode [PComp cb; vx]; ROk []; RDrop; RCall 1; ROk []].
Proof.
  intros ops. subst ops. eexists. eexists. split; [vm_compute; reflexivity|]. split; [|reflexivity].
  cbn [legal legal1]. repeat split; try (vm_compute; reflexivity); try discriminate.
Qed.

(** ** other histories *)

(** Attach drops the error of a listener. *)
Theorem C76_error_refuted : exists y s, l_run (sys_new ex_trees) [OAttach 0 [ca] fails] = Ok (y, [ROk s]) /\ fails [] 0 = AErr /\ In (SCall [] (LCb 1)) s /\ ~ In (SCall [] (LCb 2)) s.
Proof.
  eexists. eexists. split; [vm_compute; reflexivity|]. split; [reflexivity|]. split; [cbn [In]; auto 10|]. cbn [In]. intros H. repeat (destruct H as [H|H]; [discriminate H|]). exact H.
Qed.
Print Assumptions C76_error_refuted.

(** A second Detach takes the handler of another tree away. *)
Theorem C76_detach_twice_refuted : exists y a b c d, l_run (sys_new ex_trees) [OAttach 0 [ca] fine; ODetach 0 fine; OAttach 1 [ca] fine; ODetach 0 fine; OArrive [ca; cb]]
  = Ok (y, [ROk a; ROk b; ROk c; ROk d; RDrop]).
Proof. do 5 eexists. vm_compute. reflexivity. Qed.
Print Assumptions C76_detach_twice_refuted.

(** When the engine refuses the prefix, the listeners have been called, and Detach does not call those of its event;
    if the tree was attached before, it takes the handler of the other tree away. *)
Theorem C76_refused_refuted : exists y a, l_run (sys_new ex_trees) [OAttach 0 [ca] fine; OAttach 1 [ca] fine; ODetach 1 fine] = Ok (y, [ROk a; RErr ex_seen; RNothing]).
Proof. do 2 eexists. vm_compute. reflexivity. Qed.
Print Assumptions C76_refused_refuted.
Theorem C76_refused_again_refuted : exists y a b c d e,
  l_run (sys_new ex_trees) [OAttach 1 [cc] fine; ODetach 1 fine; OAttach 0 [ca] fine; OAttach 1 [ca] fine; ODetach 1 fine; OArrive [ca; cb]]
  = Ok (y, [ROk a; ROk b; ROk c; RErr d; ROk e; RDrop]).
Proof. do 6 eexists. vm_compute. reflexivity. Qed.
Print Assumptions C76_refused_again_refuted.

(** Attach of a tree that is attached leaves the first handler in place, which panics after Detach. *)
Theorem C76_attach_twice_refuted : exists y a b c, l_run (sys_new ex_trees) [OAttach 0 [ca] fine; OAttach 0 [cb] fine; ODetach 0 fine; OArrive [ca; cb]; OHandle 0 [ca; cb]]
  = Ok (y, [ROk a; ROk b; ROk c; RCall 0; RPanic []]).
Proof. do 4 eexists. vm_compute. reflexivity. Qed.
Print Assumptions C76_attach_twice_refuted.

(** An Interest that the engine is about to hand over when the tree is detached: the handler panics. *)
Theorem C76_late_refuted : exists y a b, l_run (sys_new ex_trees) [OAttach 0 [ca] fine; OArrive [ca; cb]; ODetach 0 fine; OHandle 0 [ca; cb]] = Ok (y, [ROk a; RCall 0; ROk b; RPanic []]).
Proof. do 3 eexists. vm_compute. reflexivity. Qed.
Print Assumptions C76_late_refuted.

(** A tree at the empty prefix cannot be detached. *)
Theorem C76_empty_refuted : exists y a b, l_run (sys_new ex_trees) [OAttach 0 [] fine; ODetach 0 fine; OArrive [ca; cb]] = Ok (y, [ROk a; ROk b; RCall 0]).
Proof. do 3 eexists. vm_compute. reflexivity. Qed.
Print Assumptions C76_empty_refuted.
