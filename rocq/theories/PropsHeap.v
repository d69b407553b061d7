(** C23: the priority queue (pkg/utils/heap, pkg/utils/priority_queue). *)
From Coq Require Import Permutation.
From Verif Require Import Base HeapModel HeapSpec HeapProofs2.

(** The outputs of every history that does not pop an empty queue are those of a
    bag of entries: each Push adds one entry and returns its place, each Pop
    returns the object of an entry of minimal current priority and removes that
    entry, each Update changes exactly the entry at the place given; Len and Peek
    agree with the entries left. *)
Theorem C23_priority_queue : forall (V P : Type) (ltb : P -> P -> bool), weak_order ltb ->
  forall (ops : list (qop V P)) q outs, q_run ltb q_new ops = Ok (q, outs) ->
  exists L, spec_run ltb [] ops outs L /\ NoDup (map e_id L) /\ q_len q = zlen L /\
    match L with
    | [] => q_peek q = Panic
    | _ => exists e, minimal ltb e L /\ q_peek q = Ok (e_id e) /\
                     q_obj q (e_id e) = Some (e_obj e) /\ q_pri q (e_id e) = Some (e_pri e)
    end.
Proof. exact c23_history. Qed.
Print Assumptions C23_priority_queue.

(** Every history ends, and only popping an empty queue panics. *)
Theorem C23_total : forall (V P : Type) (ltb : P -> P -> bool), weak_order ltb ->
  forall ops : list (qop V P),
  match q_run ltb q_new ops with
  | Ok _ => True
  | Panic => exists pre post q outs, ops = pre ++ OPop :: post /\
               q_run ltb q_new pre = Ok (q, outs) /\ q_len q = 0%Z
  | _ => False
  end.
Proof. exact c23_total. Qed.
Print Assumptions C23_total.

(** Five entries with a tie, an update in each direction and one out of range. *)
Example C23_ex : exists q,
  q_run Z.ltb q_new
    [OPush 10%Z 5%Z; OPush 20%Z 3%Z; OPush 30%Z 3%Z; OPush 40%Z 9%Z; OPush 50%Z 1%Z;
     OUpdate 3 60%Z 0%Z; OUpdate 9 0%Z 0%Z; OPop; OUpdate 0 70%Z 8%Z; OPop; OPop; OPop; OPop]
  = Ok (q, [RIndex 0; RIndex 0; RIndex 2; RIndex 3; RIndex 0; RIndex 0; RIndex (-1);
            RObj (Some 60%Z); RIndex 3; RObj (Some 20%Z); RObj (Some 30%Z); RObj (Some 10%Z); RObj (Some 70%Z)])
  /\ q_len q = 0%Z.
Proof. eexists. split; [vm_compute; reflexivity|reflexivity]. Qed.

Example C23_order_ex : weak_order Z.ltb.
Proof.
  split; intros *; rewrite ?Z.ltb_lt, ?Z.ltb_ge; intros; try apply Z.ltb_ge; try (apply Z.ltb_ge in H); try (apply Z.ltb_ge in H0); lia.
Qed.
