(** pkg/engine/basic/simple_trie.go.

    Nodes are pointers in the code and callers keep them across deletions, so the
    trie is modelled as a store of nodes: a pointer is the number of the
    allocation, the root is 0.  A child map is an association list without
    duplicate keys, [None] being the nil map of a deleted node.  The functions take
    the list of strings name[0].String(), name[1].String(), ... in place of the
    name; callers pass [map comp_str name]. *)
From Verif Require Import Base NameModel.

Notation key := (list N) (only parsing).
Notation path := (list (list N)) (only parsing).

Section Trie.
Variables (V : Type) (zero : V).

(** NameTrie, simple_trie.go 7-13 *)
Record tnode : Type := mkNode {
  t_val : V;
  t_key : key;
  t_par : option nat;
  t_dep : nat;
  t_chd : option (list (key * nat))
}.

(** the nodes allocated so far: node i is the i-th allocation *)
Definition store : Type := list tnode.

Definition get (h : store) (n : nat) : res tnode :=
  match nth_error h n with Some x => Ok x | None => Panic end.

Fixpoint put (h : store) (n : nat) (x : tnode) : store :=
  match h, n with
  | [], _ => []
  | _ :: h', O => x :: h'
  | y :: h', S n' => y :: put h' n' x
  end.

(** reading a map; the nil map reads as empty *)
Fixpoint find_key (m : list (key * nat)) (k : key) : option nat :=
  match m with
  | [] => None
  | (k', c) :: m' => if bytes_eqb k k' then Some c else find_key m' k
  end.
Definition chd_get (m : option (list (key * nat))) (k : key) : option nat :=
  match m with Some l => find_key l k | None => None end.
(** delete(m, k); deleting from the nil map does nothing *)
Definition del_key (m : list (key * nat)) (k : key) : list (key * nat) :=
  filter (fun e => negb (bytes_eqb k (fst e))) m.
Definition chd_del (m : option (list (key * nat))) (k : key) : option (list (key * nat)) :=
  match m with Some l => Some (del_key l k) | None => None end.
(** len(m) *)
Definition chd_len (m : option (list (key * nat))) : nat :=
  match m with Some l => length l | None => O end.

Definition with_chd (x : tnode) (m : option (list (key * nat))) : tnode :=
  mkNode (t_val x) (t_key x) (t_par x) (t_dep x) m.
Definition with_val (x : tnode) (v : V) : tnode :=
  mkNode v (t_key x) (t_par x) (t_dep x) (t_chd x).

(** Value, SetValue, 16-23; HasChildren, 95-97; Depth, Parent, 132-139 *)
Definition value (h : store) (n : nat) : res V := do x <- get h n; Ok (t_val x).
Definition set_value (h : store) (n : nat) (v : V) : res store :=
  do x <- get h n; Ok (put h n (with_val x v)).
Definition has_children (h : store) (n : nat) : res bool :=
  do x <- get h n; Ok (0 <? chd_len (t_chd x))%nat.
Definition depth (h : store) (n : nat) : res nat := do x <- get h n; Ok (t_dep x).
Definition parent (h : store) (n : nat) : res (option nat) := do x <- get h n; Ok (t_par x).

(** ExactMatch, 26-36; [None] is nil *)
Fixpoint exact_match (fuel : nat) (h : store) (n : nat) (nm : path) : res (option nat) :=
  match fuel with
  | O => Hang
  | S f =>
      do x <- get h n;
      if (length nm <=? t_dep x)%nat then Ok (Some n)
      else match nth_error nm (t_dep x) with
           | None => Panic
           | Some c => match chd_get (t_chd x) c with
                       | Some ch => exact_match f h ch nm
                       | None => Ok None
                       end
           end
  end.

(** PrefixMatch, 40-50 *)
Fixpoint prefix_match (fuel : nat) (h : store) (n : nat) (nm : path) : res nat :=
  match fuel with
  | O => Hang
  | S f =>
      do x <- get h n;
      if (length nm <=? t_dep x)%nat then Ok n
      else match nth_error nm (t_dep x) with
           | None => Panic
           | Some c => match chd_get (t_chd x) c with
                       | Some ch => prefix_match f h ch nm
                       | None => Ok n
                       end
           end
  end.

(** newTrieNode, 53-64, and n.chd[c] = ch, which panics on the nil map *)
Definition add_child (h : store) (n : nat) (x : tnode) (c : key) : res (store * nat) :=
  match t_chd x with
  | None => Panic
  | Some m =>
      let ch := length h in
      Ok (put h n (with_chd x (Some ((c, ch) :: m))) ++ [mkNode zero c (Some n) (S (t_dep x)) (Some [])], ch)
  end.

(** FirstSatisfyOrNew, 81-92.  MatchAlways, 67-78, is the same with a predicate
    that never holds. *)
Fixpoint first_satisfy_or_new (fuel : nat) (pred : V -> bool) (h : store) (n : nat) (nm : path) : res (store * nat) :=
  match fuel with
  | O => Hang
  | S f =>
      do x <- get h n;
      if (length nm <=? t_dep x)%nat || pred (t_val x) then Ok (h, n)
      else match nth_error nm (t_dep x) with
           | None => Panic
           | Some c =>
               match chd_get (t_chd x) c with
               | Some ch => first_satisfy_or_new f pred h ch nm
               | None => do hc <- add_child h n x c;
                         first_satisfy_or_new f pred (fst hc) (snd hc) nm
               end
           end
  end.

Definition match_always (fuel : nat) (h : store) (n : nat) (nm : path) : res (store * nat) :=
  first_satisfy_or_new fuel (fun _ => false) h n nm.

(** DeleteIf, 115-129.  Delete, 100-111, is the same with a predicate that always
    holds. *)
Fixpoint delete_if (fuel : nat) (pred : V -> bool) (h : store) (n : nat) : res store :=
  match fuel with
  | O => Hang
  | S f =>
      do x <- get h n;
      if negb (pred (t_val x)) then Ok h
      else match t_par x with
           | Some p =>
               let h1 := put h n (with_chd x None) in
               do y <- get h1 p;
               let m := chd_del (t_chd y) (t_key x) in
               let h2 := put h1 p (with_chd y m) in
               if (chd_len m =? 0)%nat then delete_if f pred h2 p else Ok h2
           | None => Ok (put h n (with_chd x (Some [])))
           end
  end.

(** NewNameTrie, 142-144 *)
Definition new_trie : store := [mkNode zero [] None 0 (Some [])].

(** calls from the root with enough fuel, and deletions of a given node *)
Definition t_exact (h : store) (nm : path) : res (option nat) := exact_match (S (length nm)) h 0 nm.
Definition t_prefix (h : store) (nm : path) : res nat := prefix_match (S (length nm)) h 0 nm.
Definition t_first (pred : V -> bool) (h : store) (nm : path) : res (store * nat) :=
  first_satisfy_or_new (S (length nm)) pred h 0 nm.
Definition t_always (h : store) (nm : path) : res (store * nat) := match_always (S (length nm)) h 0 nm.
Definition t_delete_if (pred : V -> bool) (h : store) (n : nat) : res store := delete_if (S (length h)) pred h n.
Definition t_delete (h : store) (n : nat) : res store := t_delete_if (fun _ => true) h n.

End Trie.
Arguments mkNode {V}. Arguments t_val {V}. Arguments t_key {V}. Arguments t_par {V}. Arguments t_dep {V}. Arguments t_chd {V}.
Arguments get {V}. Arguments put {V}. Arguments with_chd {V}. Arguments with_val {V}.
Arguments value {V}. Arguments set_value {V}. Arguments has_children {V}. Arguments depth {V}. Arguments parent {V}.
Arguments exact_match {V}. Arguments prefix_match {V}. Arguments add_child {V}. Arguments first_satisfy_or_new {V}.
Arguments match_always {V}. Arguments delete_if {V}. Arguments new_trie {V}.
Arguments t_exact {V}. Arguments t_prefix {V}. Arguments t_first {V}. Arguments t_always {V}.
Arguments t_delete_if {V}. Arguments t_delete {V}.
