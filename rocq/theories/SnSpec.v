(** What a State Vector Sync node (pkg/schema/svs) should do. *)
From Verif Require Import Base PrimModel NameModel CodecSpec SnModel.

(** the number a vector has for a node; 0 if none *)
Definition seq_in (id : buf) (v : bvec) : N := match sv_get id v with Some x => x | None => 0%N end.
Definition mentions (id : buf) (v : bvec) : Prop := In id (map fst v).
(** the vectors received in a history *)
Fixpoint received (os : list snop) : list bvec :=
  match os with
  | [] => []
  | SnSync (Some v) :: os' => v :: received os'
  | _ :: os' => received os'
  end.
(** [x] is the greatest number for [id] in the vectors, 0 if there is none *)
Definition greatest (id : buf) (vs : list bvec) (x : N) : Prop :=
  (forall v y, In v vs -> In (id, y) v -> (y <= x)%N) /\ (x = 0%N \/ exists v, In v vs /\ In (id, x) v).

(** Half-open ranges [a, b) that follow each other from the first to the last number *)
Inductive chain : N -> list (N * N) -> N -> Prop :=
| ChNil : forall a, chain a [] a
| ChCons : forall a e l b, (a <= e)%N -> chain e l b -> chain a ((a, e) :: l) b.
(** the ranges reported for a node *)
Definition reported (id : buf) (ms : list (buf * N * N)) : list (N * N) :=
  map (fun m => (snd (fst m), snd m)) (filter (fun m => bytes_eqb (fst (fst m)) id) ms).

(** the vectors received since the node went into suppression; [] if it is not *)
Fixpoint heard (s : sn) (os : list snop) (acc : list bvec) : list bvec :=
  match os with
  | [] => acc
  | o :: os' =>
      match sn_step s o with
      | Ok s' => heard s' os' (if n_supp s' then match o with SnSync (Some v) => if n_supp s then acc ++ [v] else [v] | _ => acc end else [])
      | _ => []
      end
  end.

(** nothing is wrong with what arrives, and the node is not detached *)
Definition op_fine (o : snop) : Prop := match o with SnSync None => False | SnDetach => False | _ => True end.
Definition published (os : list snop) : N := N.of_nat (length (filter (fun o => match o with SnNew true => true | _ => false end) os)).

(** no vector that arrives knows more of this node's data than it published since it was attached *)
Fixpoint never_ahead (s : sn) (os : list snop) : Prop :=
  match os with
  | [] => True
  | o :: os' =>
      (forall v x, o = SnSync (Some v) -> In (n_id s, x) v -> (x <= n_seq s)%N) /\
      match sn_step s o with Ok s' => never_ahead s' os' | _ => True end
  end.

(** ** A group: nodes that deliver to each other vectors that were sent, at any time, any number of times *)
Inductive gop : Type :=
| GLocal (i : nat) (o : snop)     (* a timer fires or runs, or new data *)
| GDeliver (i j k : nat).         (* to node i, the k-th vector that node j sent *)
Definition gop_fine (o : gop) : Prop := match o with GLocal _ (SnFire _) | GLocal _ (SnTimer _) | GLocal _ (SnNew _) | GDeliver _ _ _ => True | _ => False end.
Inductive gstep : list sn -> gop -> list sn -> Prop :=
| GsLocal : forall a s b i o s', length a = i -> sn_step s o = Ok s' -> gstep (a ++ s :: b) (GLocal i o) (a ++ s' :: b)
| GsDeliver : forall a s b i j k t v s', length a = i -> nth_error (a ++ s :: b) j = Some t -> nth_error (n_sent t) k = Some v ->
    sn_step s (SnSync (Some v)) = Ok s' -> gstep (a ++ s :: b) (GDeliver i j k) (a ++ s' :: b).
Inductive grun : list sn -> list gop -> list sn -> Prop :=
| GrNil : forall g, grun g [] g
| GrCons : forall g o g1 os g2, gop_fine o -> gstep g o g1 -> grun g1 os g2 -> grun g (o :: os) g2.
Definition gpublished (os : list gop) : N := N.of_nat (length (filter (fun o => match o with GLocal _ (SnNew true) => true | _ => false end) os)).

(** ** The bytes of a vector *)
Definition bv_bytes (v : bvec) : buf := concat (map (fun e => tlv 202 (tlv 7 (fst e) ++ tlv 204 (nat_enc (snd e)))) v).
