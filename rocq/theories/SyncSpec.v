(** What State Vector Sync should do.  Two names with the same hash are the same node for the code;
    [same_node] says so. *)
From Verif Require Import Base PrimModel ReaderModel NameModel CodecModel CodecSpec SyncModel.

Section Spec.
  Variable hash : name -> N.
  Definition same_node (n m : name) : bool := (hash n =? hash m)%N.

  (** what GetSeqNo returns *)
  Definition seq_of (s : svs) (n : name) : N := fst (get_seq hash n s).

  (** the greatest number a vector has for a node, 0 if none *)
  Definition best (n : name) (v : svec) : N :=
    fold_right (fun e acc => if same_node (fst e) n then N.max (snd e) acc else acc) 0%N v.
  Definition in_vector (n : name) (v : svec) : Prop := exists e, In e v /\ same_node (fst e) n = true.

  (** no IncrSeqNo at 2^64 - 1 *)
  Definition no_wrap (s : svs) (os : list sop) : Prop :=
    forall pre m post, os = pre ++ OIncr m :: post -> (seq_of (s_run hash s pre) m + 1 < two64)%N.
  (** received numbers fit into 64 bits *)
  Definition fits64 (os : list sop) : Prop :=
    forall es e, In (ORecv es) os -> In e es -> (snd (fst e) < two64)%N.

  (** ** Ranges of sequence numbers *)
  Inductive chain : N -> list (N * N) -> N -> Prop :=
  | ChNil : forall a, chain a [] a
  | ChCons : forall a hi l b, (a < hi)%N -> chain hi l b -> chain a (((a + 1)%N, hi) :: l) b.

  (** the ranges announced for a node *)
  Definition announced (n : name) (us : list (name * N * N)) : list (N * N) :=
    map (fun u => (snd (fst u), snd u)) (filter (fun u => same_node (fst (fst u)) n) us).

  (** all ranges by which the number of a node grows in a history, with how: [true] for the announced ones,
      [false] for those of SetSeqNo and IncrSeqNo *)
  Fixpoint ranges (n : name) (s : svs) (os : list sop) : list (bool * (N * N)) :=
    match os with
    | [] => []
    | o :: os' =>
        let s' := s_step hash s o in
        match o with
        | OSet _ _ | OIncr _ => if (seq_of s n <? seq_of s' n)%N then [(false, ((seq_of s n + 1)%N, seq_of s' n))] else []
        | _ => map (pair true) (announced n (skipn (length (s_updates s)) (s_updates s')))
        end ++ ranges n s' os'
    end.

  (** ** Suppression: the vectors received in a history *)
  Fixpoint received (os : list sop) : list svec :=
    match os with
    | [] => []
    | ORecv es :: os' => map fst es :: received os'
    | _ :: os' => received os'
    end.
  Definition best_of (n : name) (vs : list svec) : N := fold_right (fun v acc => N.max (best n v) acc) 0%N vs.
  (** suppression is not left *)
  Definition keeps_suppress (s : svs) (os : list sop) : Prop :=
    forall pre post, os = pre ++ post -> s_suppress (s_run hash s pre) = true.

  (** the time of the last update of a node, [zero_time] if there was none *)
  Fixpoint update_in (n : name) (cur : N) (es : list (name * N * Z)) (last : option Z) : option Z :=
    match es with
    | [] => last
    | (m, v, now) :: es' =>
        if same_node m n then update_in n (N.max v cur) es' (if (cur <? v)%N then Some now else last)
        else update_in n cur es' last
    end.
  Fixpoint last_update (n : name) (s : svs) (os : list sop) (last : option Z) : option Z :=
    match os with
    | [] => last
    | ORecv es :: os' => last_update n (s_step hash s (ORecv es)) os' (update_in n (seq_of s n) es last)
    | o :: os' => last_update n (s_step hash s o) os' last
    end.
  Definition recent (n : name) (os : list sop) : Z :=
    match last_update n svs_new os None with Some t => t | None => zero_time end.

  (** ** A group: participants that deliver to each other vectors that were sent, at any time, any
      number of times. *)
  Inductive nop : Type :=
  | NLocal (i : nat) (o : sop)
  | NDeliver (i j k : nat) (es : list (name * N * Z)).
  Inductive n_step : list svs -> nop -> list svs -> Prop :=
  | StLocal : forall net i o s, nth_error net i = Some s -> (forall es, o <> ORecv es) ->
      n_step net (NLocal i o) (firstn i net ++ s_step hash s o :: skipn (S i) net)
  | StDeliver : forall net i j k es s t v, nth_error net i = Some s -> nth_error net j = Some t ->
      nth_error (s_sent t) k = Some v -> map fst es = v ->
      n_step net (NDeliver i j k es) (firstn i net ++ s_step hash s (ORecv es) :: skipn (S i) net).
  Inductive n_run : list svs -> list nop -> list svs -> Prop :=
  | RunNil : forall net, n_run net [] net
  | RunCons : forall net o net1 os net2, n_step net o net1 -> n_run net1 os net2 -> n_run net (o :: os) net2.

  (** no IncrSeqNo at 2^64 - 1 *)
  Definition n_no_wrap (net : list svs) (os : list nop) : Prop :=
    forall pre i m post net', os = pre ++ NLocal i (OIncr m) :: post -> n_run net pre net' ->
      forall s, nth_error net' i = Some s -> (seq_of s m + 1 < two64)%N.
  Definition no_publication (os : list nop) : Prop :=
    forall i m v, ~ In (NLocal i (OSet m v)) os /\ ~ In (NLocal i (OIncr m)) os.

  (** participant [j] sends its vector during [os] and [i] gets it *)
  Definition reaches (net : list svs) (os : list nop) (j i : nat) : Prop :=
    exists a b c net1 t k es, os = a ++ NLocal j OSend :: b ++ NDeliver i j k es :: c
      /\ n_run net a net1 /\ nth_error net1 j = Some t /\ s_running t = true /\ (0 < s_pending t)%nat /\ k = length (s_sent t).

  Definition n_best (n : name) (net : list svs) : N := fold_right (fun s acc => N.max (seq_of s n) acc) 0%N net.
End Spec.

(** sorted in the canonical order of names, without repetition *)
Inductive sorted_names : svec -> Prop :=
| SoNil : sorted_names []
| SoOne : forall e, sorted_names [e]
| SoCons : forall e f l, (name_compare (fst e) (fst f) < 0)%Z -> sorted_names (f :: l) -> sorted_names (e :: f :: l).

(** ** The Sync Interest's application parameters *)
Definition sv_bytes (v : svec) : buf :=
  tlv 201 (concat (map (fun e => tlv 202 (tlv 7 (name_enc (fst e)) ++ tlv 204 (nat_enc (snd e)))) v)).
