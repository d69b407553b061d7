(** MemStoragePolicy, pkg/schema/basic_policies.go, on the trie of TrieModel.  Get holds the read
    lock and Put the write lock, so a history is a list of calls.  Times are in nanoseconds; a
    policy that is not attached has no timer and uses the zero time. *)
From Verif Require Import Base NameModel TextModel TrieModel.

(** FirstNodeIf, simple_trie.go 147-157.  [ord] gives the order in which Go iterates over the
    children of a node. *)
Definition chd_list (m : option (list (key * nat))) : list (key * nat) := match m with Some l => l | None => [] end.
Section First.
Context {V : Type} (ord : nat -> list (key * nat) -> list (key * nat)) (pred : V -> bool).
Fixpoint first_node_if (fuel : nat) (h : store V) (n : nat) : res (option nat) :=
  match fuel with
  | O => Hang
  | S f =>
      do x <- get h n;
      if pred (t_val x) then Ok (Some n)
      else (fix go (l : list (key * nat)) : res (option nat) :=
              match l with
              | [] => Ok None
              | (_, c) :: l' => do r <- first_node_if f h c; match r with Some m => Ok (Some m) | None => go l' end
              end) (ord n (chd_list (t_chd x)))
  end.
End First.

(** CacheEntry, basic_policies.go 96-99 *)
Record entry : Type := mkEntry { en_raw : wire; en_valid : Z }.
(** the zero value; the zero time is long before every clock reading, here 0 *)
Definition no_entry : entry := mkEntry [] 0.

(** freshTest, 127-129 *)
Definition fresh_test (must_be_fresh : bool) (now : Z) (e : entry) : bool :=
  (0 <? length (en_raw e))%nat && (negb must_be_fresh || (now <? en_valid e)%Z).

(** Get, 115-139 *)
Definition s_get (ord : nat -> list (key * nat) -> list (key * nat)) (h : store entry) (now : Z) (n : name) (can_be_prefix must_be_fresh : bool)
  : res (option wire) :=
  do r <- t_exact h (map comp_str n);
  match r with
  | None => Ok None
  | Some nd =>
      do e <- value h nd;
      if fresh_test must_be_fresh now e then Ok (Some (en_raw e))
      else do r2 <- first_node_if ord (fresh_test must_be_fresh now) (S (length h)) h nd;
           match r2 with
           | Some d => do e2 <- value h d; Ok (Some (en_raw e2))
           | None => Ok None
           end
  end.

(** Put, 141-150 *)
Definition s_put (h : store entry) (n : name) (raw : wire) (validity : Z) : res (store entry) :=
  do hn <- t_always no_entry h (map comp_str n);
  set_value (fst hn) (snd hn) (mkEntry raw validity).

(** NewMemStoragePolicy, 186-190 *)
Definition s_new : store entry := new_trie no_entry.

(** a history of calls of Put *)
Fixpoint s_puts (h : store entry) (l : list (name * wire * Z)) : res (store entry) :=
  match l with
  | [] => Ok h
  | (n, raw, v) :: l' => do h' <- s_put h n raw v; s_puts h' l'
  end.
