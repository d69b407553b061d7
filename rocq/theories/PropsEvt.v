(** C74: listeners of events (pkg/schema/event.go).

    [h] is a history of adding and removing listeners and of firing events.  [body p k] is what the callback of
    listener [p] adds and removes in call number [k], [ans p k] what it returns; [room n] is how much room append
    leaves when it moves [n] elements. *)
From Verif Require Import Base EvtModel EvtSpec EvtProofs.

(** For every history, whatever callbacks add and remove, of the event being dispatched too: the listeners of
    every event are those added and not removed, in the order in which they were added; firing an event calls those
    that it has at that moment, in this order, each once, up to the first result that is accepted. *)
Theorem C74_history : forall Any (anil : Any) room body ans h s out, e_run Any anil room body ans evs_new 0 h = (s, out) ->
  fired anil body ans (fun _ => []) 0 h (e_listeners s) out.
Proof.
  intros Any anil room body ans h s out H. pose proof (run_ok Any anil room body ans h evs_new 0 s out new_ok H) as F.
  exact F.
Qed.
Print Assumptions C74_history.

(** What firing does, without induction: the listeners called are the first ones; the result is that of the last
    one, nil if there is none; all are called if every result is to be ignored; if not all are called, the last
    result was accepted; no other result was. *)
Theorem C74_fire : forall Any (anil : Any) room body ans h s out t acc k s' k' r c,
  e_run Any anil room body ans evs_new 0 h = (s, out) -> e_dispatch Any anil room body ans s t acc k = (s', k', r, c) ->
  (exists rest, e_listeners s t = map fst c ++ rest) /\ r = last (map snd c) anil
  /\ (acc = None -> map fst c = e_listeners s t)
  /\ (forall f, acc = Some f -> map fst c <> e_listeners s t -> c <> [] /\ f r = true)
  /\ (forall f c1 x c2, acc = Some f -> c = c1 ++ x :: c2 -> c2 <> [] -> f (snd x) = false).
Proof.
  intros Any anil room body ans h s out t acc k s' k' r c H D. assert (OK : Ok_evs s) by (eapply run_keeps; [apply new_ok|exact H]).
  destruct (dispatch_ok Any anil room body ans s t acc k s' k' r c OK D) as [_ C]. exact (called_prefix Any body ans _ _ _ _ _ _ _ _ _ C).
Qed.
Print Assumptions C74_fire.

(** Listener 1 removes 2 and adds 4 while the event is dispatched: 1, 2, 3 are called, next time 1, 3, 4; then the
    dispatch that accepts the results of 3 stops there. *)
Definition ex_body (p : N) (k : nat) : list eop := match p, k with 1%N, O => [ERemove 0 2%N; EAdd 0 4%N] | _, _ => [] end.
Definition ex_ans (p : N) (k : nat) : N := (p * 10)%N.
Example C74_case :
  let h := [HOp (EAdd 0 1%N); HOp (EAdd 0 2%N); HOp (EAdd 0 3%N); HFire 0 None; HFire 0 None; HFire 0 (Some (N.eqb 30)); HFire 1 None] in
  exists s out, e_run N 0%N (fun n => n) ex_body ex_ans evs_new 0 h = (s, out) /\
  out = [(30%N, [(1, 10); (2, 20); (3, 30)]%N); (40%N, [(1, 10); (3, 30); (4, 40)]%N); (30%N, [(1, 10); (3, 30)]%N); (0%N, [])]
  /\ e_listeners s 0 = [1; 3; 4]%N.
Proof. intros h. subst h. eexists. eexists. split; [vm_compute; reflexivity|]. split; [reflexivity|vm_compute; reflexivity]. Qed.
