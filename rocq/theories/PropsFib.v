(** Interest handlers: AttachHandler, DetachHandler and onInterest of
    pkg/engine/basic/default_engine.go. *)
From Verif Require Import Base NameModel TextModel TrieModel TrieSpec FibModel FibSpec FibProofs.
Open Scope N_scope.

Definition fa : name := [mkComp 8 [97]].
Definition fab : name := [mkComp 8 [97]; mkComp 8 [98]].
Definition fabc : name := [mkComp 8 [97]; mkComp 8 [98]; mkComp 8 [99]].
Definition fac : name := [mkComp 8 [97]; mkComp 8 [99]].

(** C27: every history with real handlers behaves like the table of FibSpec.  Missing:
    the intended "Detach takes away the handler of that prefix and no other", which
    is false (below), so the table removes what the code removes. *)
Theorem C27_handlers_partial : forall (H : Type) (os : list (fop H)), no_nil_handler os ->
  exists f rs t0 t, f_run fib_new os = Ok (f, rs) /\ (forall p, t0 p = None) /\ fib_hist t0 os rs t.
Proof.
  intros H os NN. destruct (fib_run_ok H os fib_new (fib_new_inv H) NN) as (f & rs & E & _ & HI).
  exists f, rs, (tab H fib_new), (tab H f). split; auto. split; auto. apply tab_new.
Qed.
Print Assumptions C27_handlers_partial.

(** detaching /a, which nobody attached, succeeds and takes away the handler of /a/b *)
Theorem C27_detach_others_refuted : exists f,
  f_run fib_new [FAttach fab (Some 1%nat); FInterest fabc; FDetach fa; FInterest fabc] = Ok (f, [FOk; FDeliver 1%nat; FOk; FDrop]).
Proof. eexists. vm_compute. reflexivity. Qed.
Print Assumptions C27_detach_others_refuted.

(** detaching the empty prefix leaves its handler attached *)
Theorem C27_detach_root_refuted : exists f,
  f_run fib_new [FAttach [] (Some 1%nat); FDetach []; FInterest fab] = Ok (f, [FOk; FOk; FDeliver 1%nat]).
Proof. eexists. vm_compute. reflexivity. Qed.
Print Assumptions C27_detach_root_refuted.

(** a nil handler is accepted and blocks the prefixes above although nothing is attached *)
Theorem C27_nil_handler_refuted : exists f,
  f_run (H := nat) fib_new [FAttach fab None; FInterest fab; FAttach fa (Some 1%nat)] = Ok (f, [FOk; FDrop; FErr]).
Proof. eexists. vm_compute. reflexivity. Qed.
Print Assumptions C27_nil_handler_refuted.

Example handlers_ok : exists f,
  f_run fib_new [FAttach fab (Some 1%nat); FAttach fac (Some 2%nat); FAttach fabc (Some 3%nat); FAttach fa (Some 4%nat);
                 FInterest fabc; FInterest fac; FInterest fa; FDetach fab; FInterest fabc; FInterest fac; FAttach fabc (Some 5%nat); FInterest fabc]
  = Ok (f, [FOk; FOk; FErr; FErr; FDeliver 1%nat; FDeliver 2%nat; FDrop; FOk; FDrop; FDeliver 2%nat; FOk; FDeliver 5%nat]).
Proof. eexists. vm_compute. reflexivity. Qed.
