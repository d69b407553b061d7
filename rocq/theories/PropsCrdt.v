(** C44: the list of a shared document.  C63: convergence (examples/schema-test/shared-doc/crdt). *)
From Coq Require Import Permutation Sorting.Sorted.
From Verif Require Import Base PrimModel HeapModel CrdtModel CrdtSpec CrdtLinks CrdtRefine CrdtOps CrdtProofs CrdtMerge CrdtQueue.

(** ** One operation *)
(** A remote insertion is refused exactly if an item it refers to is missing, or both are the same; otherwise
    the item is added, right of its origin, and left of its right origin if that is right of the origin.  It
    panics only if some item to the right of the origin has no origin itself. *)
Theorem C44_insert : forall V (d : doc V) xs id o ro c, holds d xs ->
  match insert d (Some id) o ro c with
  | Ok (d', false) => d' = d /\ ((exists i, o = Some i /\ ~ In i (map e_id xs)) \/ (exists i, ro = Some i /\ (~ In i (map e_id xs) \/ o = Some i)))
  | Ok (d', true) =>
      (forall i, o = Some i -> In i (map e_id xs)) /\ (forall i, ro = Some i -> In i (map e_id xs) /\ o <> Some i) /\
      (exists pre post, xs = pre ++ post /\ holds d' (pre ++ mkE id o ro c false :: post) /\
        (forall i, o = Some i -> In i (map e_id pre) /\ ~ In i (map e_id post)) /\
        (forall i a b, ro = Some i -> xs = a ++ b -> (forall j, o = Some j -> ~ In j (map e_id b)) -> In i (map e_id b) -> In i (map e_id post))) /\
      d_producer d' = d_producer d /\ d_clock d' = ((N.max (d_clock d) (snd id) + 1) mod two64)%N
  | Panic => exists i pre x post, o = Some i /\ xs = pre ++ x :: post /\ In i (map e_id pre) /\ ~ In i (map e_id (x :: post)) /\ e_origin x = None
  | _ => False
  end.
Proof. intros V. exact c44_insert. Qed.
Print Assumptions C44_insert.

(** A remote deletion hides the item, and does nothing else; it is refused exactly if the item is missing. *)
Theorem C44_delete : forall V (d : doc V) xs id, holds d xs ->
  match delete d (Some id) with
  | Ok (d', false) => d' = d /\ ~ In id (map e_id xs)
  | Ok (d', true) => exists pre e post, xs = pre ++ e :: post /\ e_id e = id /\ ~ In id (map e_id pre) /\ holds d' (pre ++ hidden e :: post) /\
      d_producer d' = d_producer d /\ d_clock d' = ((N.max (d_clock d) (snd id) + 1) mod two64)%N
  | _ => False
  end.
Proof. intros V. exact c44_delete. Qed.
Print Assumptions C44_delete.

(** An edit at an offset: the item gets the next identifier of this user and the items beside it as origins.
    Offsets count the visible items, and the first one even if it is deleted. *)
Theorem C44_local_insert : forall V (d : doc V) xs off c, holds d xs ->
  match local_insert d off c with
  | Ok (d', None) => d' = d /\ (0 < off)%Z /\ (zlen (counted xs) < off)%Z
  | Ok (d', Some i) =>
      exists pre post x, xs = pre ++ post /\ zlen (counted pre) = Z.max 0 off /\ (forall p y, pre = p ++ [y] -> p = [] \/ e_deleted y = false) /\
        holds d' (pre ++ entry_of x :: post) /\ nth_error (d_heap d') i = Some x /\
        entry_of x = mkE (d_producer d, d_clock d) (option_map e_id (hd_error (rev pre))) (option_map e_id (hd_error post)) c false /\
        d_producer d' = d_producer d /\ d_clock d' = ((d_clock d + 1) mod two64)%N
  | _ => False
  end.
Proof. intros V. exact c44_local_insert. Qed.
Print Assumptions C44_local_insert.
Theorem C44_local_delete : forall V (d : doc V) xs off, holds d xs ->
  match local_delete d off with
  | Ok (d', None) => d' = d /\ ((off <= 0)%Z \/ (zlen (counted xs) < off)%Z)
  | Ok (d', Some i) => exists pre e post x, xs = pre ++ e :: post /\ zlen (counted (pre ++ [e])) = off /\ (pre = [] \/ e_deleted e = false) /\ holds d' (pre ++ hidden e :: post) /\
      nth_error (d_heap d') i = Some x /\ it_id x = e_id e /\ d_producer d' = d_producer d /\ d_clock d' = d_clock d
  | _ => False
  end.
Proof. intros V. exact c44_local_delete. Qed.
Print Assumptions C44_local_delete.

(** ** Histories *)
(** After any history the document is one doubly linked list that holds exactly the items the accepted
    operations added, with what they were given, and items never change their order.  The only way a history
    can end early is a panic of a remote insertion whose origin is present, in a document with an item that has
    no origin. *)
Theorem C44_history_partial : forall V p (ops : list (cop V)),
  match crun (empty_doc p) ops with
  | Ok (d, added) => exists ys, holds d ys /\ Permutation (map shown ys) added
  | Panic => exists pre iid i ro c post d1 a1 ys e, ops = pre ++ CInsert (Some iid) (Some i) ro c :: post /\ crun (empty_doc p) pre = Ok (d1, a1) /\ holds d1 ys /\
      In i (map e_id ys) /\ In e ys /\ e_origin e = None
  | _ => False
  end.
Proof.
  intros V p ops. pose proof (c44_history ops (empty_doc p) [] (empty_holds p)) as H. destruct (crun (empty_doc p) ops) as [[d a]| | |]; auto.
  destruct H as (ys & H & _ & P). exists ys. split; [auto|]. now rewrite app_nil_r in P.
Qed.
Print Assumptions C44_history_partial.
Theorem C44_order_kept : forall V (d : doc V) xs ops d' added, holds d xs -> crun d ops = Ok (d', added) ->
  exists ys, holds d' ys /\ within (map shown xs) (map shown ys) /\ Permutation (map shown ys) (added ++ map shown xs).
Proof. intros V d xs ops d' added H E. pose proof (c44_history ops d xs H) as C. rewrite E in C. destruct C as (ys & Hy & W & P). eauto. Qed.
Print Assumptions C44_order_kept.
(** what the list of a document is does not depend on how one looks at it *)
Theorem C44_one_list : forall V (d : doc V) xs ys, holds d xs -> holds d ys -> xs = ys.
Proof. intros V. exact holds_fun. Qed.
Print Assumptions C44_one_list.

(** While no clock reaches 2^64 the identifier the next local item gets is new. *)
Theorem C44_fresh_partial : forall V p B (ops : list (cop V)) d added,
  (forall op, In op ops -> (match op with CInsert (Some id) _ _ _ => snd id | CDelete (Some id) => snd id | _ => 0%N end <= B)%N) ->
  (B + N.of_nat (length ops) < two64)%N -> crun (empty_doc p) ops = Ok (d, added) ->
  exists ys, holds d ys /\ ~ In (d_producer d, d_clock d) (map e_id ys) /\ forall e, In e ys -> (snd (e_id e) < d_clock d)%N.
Proof.
  intros V p B ops d added O L E. destruct (crun_clock B ops (empty_doc p) [] d added (empty_holds p)) as (ys & H & C); auto.
  - intros e [].
  - cbn [empty_doc d_clock]. lia.
  - exists ys. split; [auto|]. split; [|exact C]. intros I. apply in_map_iff in I. destruct I as (e & Ee & I). specialize (C e I). rewrite Ee in C. cbn [snd] in C. lia.
Qed.
Print Assumptions C44_fresh_partial.

(** ** What a user sees *)
(** Typing at an offset of a document whose first item is not deleted: the text appears there; and others who
    have the same items accept the record and get the same document. *)
Theorem C44_type_partial : forall t xs off c, holds (t_doc t) xs -> match xs with x :: _ => e_deleted x = false | [] => True end -> (off <= length (visible xs))%nat ->
  exists t' r ys, text_insert t (Z.of_nat off) c = Ok (t', Some r) /\ holds (t_doc t') ys /\ t_pending t' = t_pending t /\
    map e_content (visible ys) = firstn off (map e_content (visible xs)) ++ c :: skipn off (map e_content (visible xs)) /\
    r_type r = 1%N /\ r_content r = c /\ r_id r = Some (d_producer (t_doc t), d_clock (t_doc t)) /\
    (NoDup (map e_id xs) -> apply_record (t_doc t) r = Ok (t_doc t', true)).
Proof. exact c44_type. Qed.
Print Assumptions C44_type_partial.
(** Deleting the item at an offset (the first has offset 1). *)
Theorem C44_erase_partial : forall t xs off, holds (t_doc t) xs -> match xs with x :: _ => e_deleted x = false | [] => True end -> (off < length (visible xs))%nat ->
  exists t' r ys e, text_delete t (Z.of_nat (S off)) = Ok (t', Some r) /\ holds (t_doc t') ys /\ t_pending t' = t_pending t /\
    map e_content (visible ys) = firstn off (map e_content (visible xs)) ++ skipn (S off) (map e_content (visible xs)) /\
    map shown ys = map shown xs /\ nth_error (visible xs) off = Some e /\ r_type r = 2%N /\ r_id r = Some (e_id e).
Proof. exact c44_erase. Qed.
Print Assumptions C44_erase_partial.
Theorem C44_text : forall t xs, holds (t_doc t) xs -> get_text t = Ok (concat (map e_content (visible xs))).
Proof. exact get_text_holds. Qed.
Print Assumptions C44_text.

(** ** Convergence *)
(** One round of editing: users with the same document type pieces of text at places of their choice (at the
    very start one item each), and some items are deleted.  Every user who gets all of this, the items of each
    piece in order, otherwise in any order, ends with the same list.  The pieces stay in one piece, and those
    at the same place are ordered by their users' numbers. *)
Theorem C63_converge_partial : forall V xs (ws : list (piece V)) gone,
  NoDup (map e_id xs ++ map e_id (concat (map pc_items ws))) -> StronglySorted (fun v w => (pc_producer v < pc_producer w)%N) ws ->
  (forall w, In w ws -> piece_ok xs w /\ (pc_place w = 0%nat -> (length (pc_items w) <= 1)%nat)) -> incl gone (map e_id xs) ->
  exists ys,
    (forall d vs, holds d xs -> interleaves (map pc_items ws) (new_items vs) -> (forall id, In (EDel id) vs <-> In id gone) ->
      exists d', deliver d vs = Ok d' /\ holds d' ys) /\
    within (map (hide_ids gone) xs) ys /\ Permutation ys (map (hide_ids gone) xs ++ concat (map pc_items ws)) /\
    (forall w, In w ws -> exists a b, ys = a ++ pc_items w ++ b) /\
    (forall ws1 v ws2 w ws3, ws = ws1 ++ v :: ws2 ++ w :: ws3 -> pc_place v = pc_place w -> exists a b c, ys = a ++ pc_items v ++ b ++ pc_items w ++ c).
Proof.
  intros V xs ws gone ND So OK Ig. exists (merged gone xs ws). split; [exact (c44_concurrent xs ws gone ND So OK Ig)|]. split; [apply merged_within|].
  split; [apply merged_perm; intros w I; apply (OK w I)|]. split; [intros w I; apply merged_contiguous; [apply (OK w I)|auto]|].
  intros ws1 v ws2 w ws3 -> E. apply merged_order; [|auto]. apply (OK v). apply in_elt.
Qed.
Print Assumptions C63_converge_partial.
(** So all of them read the same text. *)
Theorem C63_same_text_partial : forall xs (ws : list (piece (list N))) gone,
  NoDup (map e_id xs ++ map e_id (concat (map pc_items ws))) -> StronglySorted (fun v w => (pc_producer v < pc_producer w)%N) ws ->
  (forall w, In w ws -> piece_ok xs w /\ (pc_place w = 0%nat -> (length (pc_items w) <= 1)%nat)) -> incl gone (map e_id xs) ->
  exists ys, Permutation ys (map (hide_ids gone) xs ++ concat (map pc_items ws)) /\
  forall t vs, holds (t_doc t) xs -> q_len (t_pending t) = 0%Z -> interleaves (map pc_items ws) (new_items vs) -> (forall id, In (EDel id) vs <-> In id gone) ->
  exists t', handle_all t (map rec_of vs) = Ok t' /\ holds (t_doc t') ys /\ q_len (t_pending t') = 0%Z /\ get_text t' = Ok (concat (map e_content (visible ys))).
Proof. exact c44_texts. Qed.
Print Assumptions C63_same_text_partial.

(** Records that come in the wrong order wait: if the clocks grow along a history whose records are accepted in
    their turn and not before, any order of arrival gives the same document. *)
Theorem C63_any_order : forall t rs sent d', idle (t_pending t) -> in_turn (t_doc t) rs d' ->
  StronglySorted (fun r s => (clock_of r < clock_of s)%N) rs -> (forall r, In r rs -> record_ok r) -> Permutation rs sent ->
  exists t', handle_all t sent = Ok t' /\ t_doc t' = d' /\ q_len (t_pending t') = 0%Z.
Proof. exact c44_reorder. Qed.
Print Assumptions C63_any_order.
(** In particular for a piece of text typed in one go. *)
Theorem C63_typed_any_order : forall t xs w sent, idle (t_pending t) -> holds (t_doc t) xs -> piece_ok xs w -> (pc_place w = 0%nat -> (length (pc_items w) <= 1)%nat) ->
  NoDup (map e_id xs ++ map e_id (pc_items w)) -> StronglySorted (fun a b => (snd (e_id a) < snd (e_id b))%N) (pc_items w) ->
  Permutation (map (fun e => rec_of (EIns e)) (pc_items w)) sent ->
  exists t', handle_all t sent = Ok t' /\ q_len (t_pending t') = 0%Z /\ holds (t_doc t') (firstn (pc_place w) xs ++ pc_items w ++ skipn (pc_place w) xs).
Proof. exact c44_typed_any_order. Qed.
Print Assumptions C63_typed_any_order.
(** Whatever records arrive, handling them ends and leaves a well-formed document, or panics. *)
Theorem C63_handle : forall rs p, match handle_all (new_tdoc p) rs with Ok t' => exists ys, holds (t_doc t') ys | Panic => True | _ => False end.
Proof. exact c44_handle_total. Qed.
Print Assumptions C63_handle.

(** ** What is false *)
Definition r_of (x : res (tdoc * option record)) : list record := match x with Ok (_, Some r) => [r] | _ => [] end.
Definition t_of (x : res (tdoc * option record)) : tdoc := match x with Ok (t, _) => t | _ => new_tdoc 0 end.
(** the records of a user who types [cs] at the end of a new document *)
Fixpoint typing (t : tdoc) (off : Z) (cs : list (list N)) : list record :=
  match cs with [] => [] | c :: r => let x := text_insert t off c in r_of x ++ typing (t_of x) (off + 1) r end.

(** Two users type into a new document at the same time, one "ac", the other "b": a third user who gets "a", "b",
    "c" crashes; and who gets "a", "c", "b" does not. *)
Theorem C63_no_panic_refuted : exists a c b, typing (new_tdoc 1) 0 [[97]; [99]]%N = [a; c] /\ typing (new_tdoc 2) 0 [[98]]%N = [b] /\
  handle_all (new_tdoc 3) [a; b; c] = Panic /\ exists t, handle_all (new_tdoc 3) [a; c; b] = Ok t /\ get_text t = Ok [97; 99; 98]%N.
Proof.
  eexists _, _, _. split; [vm_compute; reflexivity|]. split; [vm_compute; reflexivity|]. split; [vm_compute; reflexivity|]. eexists. split; [vm_compute; reflexivity|]. vm_compute; reflexivity.
Qed.
Print Assumptions C63_no_panic_refuted.
(** A record that arrives twice is inserted twice. *)
Theorem C63_once_refuted : exists r t, handle_all (new_tdoc 3) [r; r] = Ok t /\ get_text t = Ok [97; 97]%N.
Proof. exists (mkRec 1 (Some (1, 0)%N) None None [97%N]). eexists. split; [vm_compute; reflexivity|]. vm_compute; reflexivity. Qed.
Print Assumptions C63_once_refuted.
(** After the first item was deleted offsets are off by one: in the text "b" an insertion at the end gives "xb",
    and deleting the first item does nothing. *)
Theorem C44_offset_refuted : exists t t1 t2 o1 o2, get_text t = Ok [98]%N /\ text_insert t 1 [120]%N = Ok (t1, o1) /\ get_text t1 = Ok [120; 98]%N /\
  text_delete t 1 = Ok (t2, o2) /\ get_text t2 = Ok [98]%N.
Proof.
  exists (t_of (text_delete (t_of (text_insert (t_of (text_insert (new_tdoc 1) 0 [97]%N)) 1 [98]%N)) 1)). eexists _, _, _, _.
  split; [vm_compute; reflexivity|]. split; [vm_compute; reflexivity|]. split; [vm_compute; reflexivity|]. split; [vm_compute; reflexivity|]. vm_compute; reflexivity.
Qed.
Print Assumptions C44_offset_refuted.
(** A record with the largest clock makes this user give an identifier it already gave. *)
Theorem C44_fresh_refuted : exists r t1 r1 t2 t3 r3, text_insert (new_tdoc 1) 0 [97]%N = Ok (t1, Some r1) /\ handle_record t1 r = Ok t2 /\ r_id r <> r_id r1 /\
  text_insert t2 0 [98]%N = Ok (t3, Some r3) /\ r_id r3 = r_id r1.
Proof.
  exists (mkRec 1 (Some (2, 18446744073709551615)%N) None None [120%N]). eexists _, _, _, _, _.
  split; [vm_compute; reflexivity|]. split; [vm_compute; reflexivity|]. split; [vm_compute; discriminate|]. split; [vm_compute; reflexivity|]. vm_compute; reflexivity.
Qed.
Print Assumptions C44_fresh_refuted.
(** A deletion that arrives before the item blocks all that comes later, although everything arrived. *)
Theorem C63_blocked_refuted : exists a del b t, typing (new_tdoc 1) 0 [[97]; [98]]%N = [a; b] /\ r_type del = 2%N /\ r_id del = r_id a /\
  handle_all (new_tdoc 3) [del; a; b] = Ok t /\ get_text t = Ok [] /\ q_len (t_pending t) = 3%Z /\
  exists t', handle_all (new_tdoc 3) [a; del; b] = Ok t' /\ get_text t' = Ok [98]%N.
Proof.
  eexists _, (mkRec 2 (Some (1, 0)%N) None None []), _, _. split; [vm_compute; reflexivity|]. split; [reflexivity|]. split; [reflexivity|]. split; [vm_compute; reflexivity|]. split; [vm_compute; reflexivity|].
  split; [vm_compute; reflexivity|]. eexists. split; [vm_compute; reflexivity|]. vm_compute; reflexivity.
Qed.
Print Assumptions C63_blocked_refuted.
(** An item whose right origin is left of its origin does not come before its right origin. *)
Theorem C44_between_refuted : exists (d d' : doc N) xs ys e, holds d xs /\ insert d (Some (e_id e)) (e_origin e) (e_rorigin e) (e_content e) = Ok (d', true) /\ holds d' ys /\
  map e_id ys = [(1, 0); (1, 1); (2, 0)]%N /\ e_id e = (2, 0)%N /\ e_rorigin e = Some (1, 0)%N.
Proof.
  pose (d := match crun (V := N) (empty_doc 1) [CLocalInsert 0 97%N; CLocalInsert 1 98%N] with Ok (d, _) => d | _ => empty_doc 0 end).
  set (e := mkE (2, 0)%N (Some (1, 1)%N) (Some (1, 0)%N) 99%N false).
  exists d, (match insert d (Some (e_id e)) (e_origin e) (e_rorigin e) (e_content e) with Ok (d', _) => d' | _ => d end).
  exists [mkE (1, 0)%N None None 97%N false; mkE (1, 1)%N (Some (1, 0)%N) None 98%N false], [mkE (1, 0)%N None None 97%N false; mkE (1, 1)%N (Some (1, 0)%N) None 98%N false; e], e.
  assert (G : forall (d : doc N) l ys q, seg (d_heap d) None (d_start d) l q None -> NoDup l -> length l = length (d_heap d) -> incl (seq 0 (length l)) l -> map (fun a => option_map entry_of (nth_error (d_heap d) a)) l = map Some ys -> holds d ys).
  { intros d0 l ys q S N L I E. exists l. split; [|auto]. exists q. split; [auto|]. split; [auto|]. intros a A. apply I. apply in_seq. lia. }
  split; [|split; [vm_compute; reflexivity|split; [|split; [reflexivity|split; reflexivity]]]].
  - apply (G d [0; 1]%nat _ (Some 1%nat)); [| |reflexivity| |reflexivity].
    + vm_compute. repeat (split; [reflexivity|] || (eexists; split; [reflexivity|])). reflexivity.
    + repeat constructor; cbn [In]; intuition lia.
    + intros x; cbn [length seq In]; tauto.
  - apply (G _ [0; 1; 2]%nat _ (Some 2%nat)); [| |reflexivity| |reflexivity].
    + vm_compute. repeat (split; [reflexivity|] || (eexists; split; [reflexivity|])). reflexivity.
    + repeat constructor; cbn [In]; intuition lia.
    + intros x; cbn [length seq In]; tauto.
Qed.
Print Assumptions C44_between_refuted.

(** ** Cases *)
(** A history of local and remote edits: "ac", then "b" and a deletion from elsewhere, and one that is refused. *)
Example C44_history_case : exists d added, crun (V := N) (empty_doc 1)
    [CLocalInsert 0 97; CLocalInsert 1 99; CInsert (Some (2, 7)) (Some (1, 0)) (Some (1, 1)) 98; CDelete (Some (1, 0)); CInsert (Some (3, 0)) (Some (9, 9)) None 120]%N = Ok (d, added)
  /\ length added = 3%nat /\ d_clock d = 9%N
  /\ (do l <- walk 5 (d_heap d) (d_start d); Ok (map (fun x => (it_content x, it_deleted x)) l)) = Ok [(97, true); (98, false); (99, false)]%N.
Proof. eexists _, _. split; [vm_compute; reflexivity|]. split; [reflexivity|]. split; [reflexivity|]. vm_compute; reflexivity. Qed.

(** Typing "x" between the "a" and "b" of a document. *)
Definition ex_ab : tdoc := Eval vm_compute in t_of (text_insert (t_of (text_insert (new_tdoc 1) 0 [97]%N)) 1 [98]%N).
Definition ex_xs : list (entry (list N)) := [mkE (1, 0)%N None None [97]%N false; mkE (1, 1)%N (Some (1, 0)%N) None [98]%N false].
Lemma ex_ab_holds : holds (t_doc ex_ab) ex_xs.
Proof.
  exists [0; 1]%nat. split; [|reflexivity]. exists (Some 1%nat). split; [vm_compute; repeat (split; [reflexivity|] || (eexists; split; [reflexivity|])); reflexivity|].
  split; [repeat constructor; cbn [In]; intuition lia|]. intros a A. cbn in A. cbn [In]. lia.
Qed.
Example C44_type_case : (holds (t_doc ex_ab) ex_xs /\ (1 <= length (visible ex_xs))%nat /\ NoDup (map e_id ex_xs)) /\
  get_text (t_of (text_insert ex_ab 1 [120]%N)) = Ok [97; 120; 98]%N.
Proof. split; [split; [exact ex_ab_holds|split; [cbn; lia|repeat constructor; cbn [In map ex_xs e_id]; intuition congruence]]|vm_compute; reflexivity]. Qed.
Example C44_erase_case : get_text (t_of (text_delete ex_ab 2)) = Ok [97]%N. Proof. vm_compute. reflexivity. Qed.

(** User 2 types "cd" and user 3 types "e" between the "a" and "b", and the "a" is deleted. *)
Definition ex_cd : piece (list N) := mkPiece 1 2 [mkE (2, 5)%N (Some (1, 0)%N) (Some (1, 1)%N) [99]%N false; mkE (2, 6)%N (Some (2, 5)%N) (Some (1, 1)%N) [100]%N false].
Definition ex_e : piece (list N) := mkPiece 1 3 [mkE (3, 2)%N (Some (1, 0)%N) (Some (1, 1)%N) [101]%N false].
Example C63_converge_case :
  (NoDup (map e_id ex_xs ++ map e_id (concat (map pc_items [ex_cd; ex_e]))) /\ StronglySorted (fun v w => (pc_producer v < pc_producer w)%N) [ex_cd; ex_e] /\
   (forall w, In w [ex_cd; ex_e] -> piece_ok ex_xs w /\ (pc_place w = 0%nat -> (length (pc_items w) <= 1)%nat)) /\ incl [(1, 0)%N] (map e_id ex_xs)) /\
  forall vs, In vs [ [EDel (1, 0)%N; EIns (hd (mkE (0, 0)%N None None [] false) (pc_items ex_e))] ++ map EIns (pc_items ex_cd);
                     map EIns (pc_items ex_cd) ++ [EIns (hd (mkE (0, 0)%N None None [] false) (pc_items ex_e)); EDel (1, 0)%N] ] ->
  (do t <- handle_all ex_ab (map rec_of vs); get_text t) = Ok [99; 100; 101; 98]%N.
Proof.
  split.
  - split; [repeat constructor; cbn [In map app concat pc_items ex_xs ex_cd ex_e e_id]; intuition congruence|]. split; [repeat constructor|]. split.
    + intros w [<-|[<-|[]]]; (split; [split; [cbn; lia|cbn; intuition reflexivity]|discriminate]).
    + intros x [<-|[]]. now left.
  - intros vs [<-|[<-|[]]]; vm_compute; reflexivity.
Qed.
(** The records of "cd" in the wrong order: the second waits for the first. *)
Example C63_any_order_case :
  (idle (t_pending ex_ab) /\ piece_ok ex_xs ex_cd /\ NoDup (map e_id ex_xs ++ map e_id (pc_items ex_cd)) /\ StronglySorted (fun a b => (snd (e_id a) < snd (e_id b))%N) (pc_items ex_cd)) /\
  (do t <- handle_all ex_ab (rev (map (fun e => rec_of (EIns e)) (pc_items ex_cd))); get_text t) = Ok [97; 99; 100; 98]%N /\
  (do t <- handle_all ex_ab (firstn 1 (rev (map (fun e => rec_of (EIns e)) (pc_items ex_cd)))); Ok (q_len (t_pending t))) = Ok 1%Z.
Proof.
  split; [|split; vm_compute; reflexivity]. split; [split; [exists [], []; reflexivity|reflexivity]|]. split; [split; [cbn; lia|cbn; intuition reflexivity]|].
  split; [repeat constructor; cbn [In map app concat pc_items ex_xs ex_cd ex_e e_id]; intuition congruence|]. cbn. repeat constructor.
Qed.
