(** Names as Go slices: which functions of the library write into arrays that other names use.

    A name is a slice: an array, where it begins and how many components it has; its capacity reaches to the end of
    the array.  Components are values here: that the bytes of their values are shared with packets, and code that
    changes such bytes, is not modelled.  Calls are taken one after the other. *)
From Verif Require Import Base NameModel.

Section Heap.
  Context {A : Type}.
  (** what unused room of an array holds *)
  Variable zero : A.
  (** the room append leaves when it needs a new array for a slice of so many elements *)
  Variable room : nat -> nat.

  Record slice : Type := mkSl { s_arr : nat; s_off : nat; s_len : nat }.
  Definition s_end (s : slice) : nat := s_off s + s_len s.

  Definition arr (h : list (list A)) (a : nat) : list A := nth a h [].
  Fixpoint put_at {B} (l : list B) (i : nat) (x : B) : list B :=
    match l, i with
    | [], _ => []
    | _ :: l', O => x :: l'
    | y :: l', S i' => y :: put_at l' i' x
    end.
  Definition write (h : list (list A)) (a i : nat) (x : A) : list (list A) := put_at h a (put_at (arr h a) i x).

  (** what a slice holds *)
  Definition read (h : list (list A)) (s : slice) : list A := firstn (s_len s) (skipn (s_off s) (arr h (s_arr s))).

  (** make of the length of [v], with [v] put in: no room is left *)
  Definition go_make (h : list (list A)) (v : list A) : list (list A) * slice := (h ++ [v], mkSl (length h) 0 (length v)).
  (** append of one element *)
  Definition go_append (h : list (list A)) (s : slice) (x : A) : list (list A) * slice :=
    if Nat.ltb (s_end s) (length (arr h (s_arr s))) then
      (write h (s_arr s) (s_end s) x, mkSl (s_arr s) (s_off s) (S (s_len s)))
    else
      (h ++ [read h s ++ x :: repeat zero (room (s_len s))], mkSl (length h) 0 (S (s_len s))).

  (** a tree of schema nodes: the pattern on the edge above it and the children *)
  Inductive ptree : Type := PNode (edge : A) (chd : list ptree).
  Definition p_edge (t : ptree) : A := match t with PNode e _ => e end.

  (** Node.OnAttach, base_node.go 207-230: the paths (n.path) the nodes get, in the order of the calls.  The rest of
      it is in [AttachModel]. *)
  Fixpoint on_attach (t : ptree) (h : list (list A)) (path : slice) {struct t} : list (list A) * list slice :=
    match t with
    | PNode _ chd =>
        let (h1, own) := go_make h (read h path) in
        let fix go (cs : list ptree) (h : list (list A)) : list (list A) * list slice :=
          match cs with
          | [] => (h, [])
          | c :: cs' =>
              let (h2, nxt) := go_append h path (p_edge c) in
              let (h3, l) := on_attach c h2 nxt in
              let (h4, l') := go cs' h3 in
              (h4, l ++ l')
          end in
        let (h5, l) := go chd h1 in
        (h5, own :: l)
    end.
  (** Tree.Attach, tree.go 39-43 *)
  Definition attach_tree (t : ptree) (h : list (list A)) (prefix : list A) : list (list A) * list slice :=
    let (h1, path) := go_make h prefix in on_attach t h1 path.
End Heap.
Arguments slice : clear implicits.
Arguments ptree : clear implicits.

Definition zero_comp : comp := mkComp 0 [].
Definition zero_digest : comp := mkComp TypeParametersSha256Digest (repeat 0%N 32).
Definition nil_name : slice := mkSl 0 0 0.
Definition ends_in (t : N) (n : name) : bool :=
  match rev n with [] => false | c :: _ => N.eqb (ctyp c) t end.

(** what is done with names; a call that yields a name makes a new variable for it, the [i]-th call variable [i] *)
Inductive nop : Type :=
| NNew (v : name)                    (* NameFromStr, NamePattern.FromMatching, Node.Apply, name_pattern.go 127-147, 277-287, base_node.go 146-175 *)
| NClone (i : nat)                   (* Name.Clone, name_pattern.go 68-74 *)
| NExtend (i : nat) (cs : name)      (* make, copy and set: rdr.go 65-66, 153-162, 263-275, 309-311, 349-351, 442-470, 501-503, 546-548, svs/sync.go 273-275, 347-350, encryption.go 62-64, 117-119 *)
| NRead (v : name)                   (* ReadName, NameFromBytes, name_pattern.go 77-90, 166-188 *)
| NParsed (v : name) (l : nat)       (* the parsers of packets, codegen/fields_name.go 66-85, signature.go 237-262: [l] bytes of components *)
| NTake (i k : nat)                  (* name[:k] *)
| NDrop (i k : nat)                  (* name[k:] *)
| NAppend (i : nat) (c : comp)       (* append(name, c); SvSync.sendSyncInterest, svs.go 291, SvsNode.onAttach, svs/sync.go 305 *)
| NInterest (i : nat) (d : option buf) (ok : bool)  (* the FinalName of MakeInterest; the digest if there are parameters; false: an error after Init *)
| NFull (i : nat) (d : buf).         (* ToFullName *)

Section Names.
  Variable room : nat -> nat.

  (** ReadName, name_pattern.go 77-90 *)
  Fixpoint read_name (v : name) (h : list (list comp)) (s : slice) : list (list comp) * slice :=
    match v with
    | [] => (h, s)
    | c :: v' => let (h1, s1) := go_append zero_comp room h s c in read_name v' h1 s1
    end.

  (** MakeInterest, spec.go 369-527, with InterestNameField, codegen/signature.go 150-176 (zz_generated.go of spec_2022):
      what happens to the array of the name.  [ok] false: the signer fails or its signature is too long
      (spec.go 473-479, 519-521).  Errors before Init change nothing and are left out. *)
  Definition make_interest (h : list (list comp)) (s : slice) (d : option buf) (ok : bool) : list (list comp) * slice :=
    let s1 := if ends_in TypeParametersSha256Digest (read h s) then mkSl (s_arr s) (s_off s) (s_len s - 1) else s in
    match d with
    | None => (h, if ok then s1 else nil_name)
    | Some b =>
        let (h1, s2) := go_append zero_comp room h s1 zero_digest in
        if ok then (write h1 (s_arr s2) (s_end s2 - 1) (mkComp TypeParametersSha256Digest b), s2)
        else (h1, nil_name)
    end.

  (** ToFullName, name_pattern.go 290-304; a panic on the empty name is shown as no name *)
  Definition to_full_name (h : list (list comp)) (s : slice) (d : buf) : list (list comp) * slice :=
    if Nat.eqb (s_len s) 0 then (h, nil_name)
    else if ends_in TypeImplicitSha256Digest (read h s) then (h, s)
    else go_append zero_comp room h s (mkComp TypeImplicitSha256Digest d).

  Definition nstep (st : list (list comp) * list slice) (o : nop) : list (list comp) * list slice :=
    let (h, rs) := st in
    let reg i := nth i rs nil_name in
    let (h', s) :=
      match o with
      | NNew v => go_make h v
      | NClone i => go_make h (read h (reg i))
      | NExtend i cs => go_make h (read h (reg i) ++ cs)
      | NRead v => let (h1, s1) := go_make h [] in read_name v h1 s1
      | NParsed v l => (h ++ [v ++ repeat zero_comp (l / 2 + 1 - length v)], mkSl (length h) 0 (length v))
      | NTake i k => (h, if Nat.leb k (s_len (reg i)) then mkSl (s_arr (reg i)) (s_off (reg i)) k else nil_name)
      | NDrop i k => (h, if Nat.leb k (s_len (reg i)) then mkSl (s_arr (reg i)) (s_off (reg i) + k) (s_len (reg i) - k) else nil_name)
      | NAppend i c => go_append zero_comp room h (reg i) c
      | NInterest i d ok => make_interest h (reg i) d ok
      | NFull i d => to_full_name h (reg i) d
      end in
    (h', rs ++ [s]).
  Definition nrun (os : list nop) : list (list comp) * list slice := fold_left nstep os ([[]], []).
  (** what the variables hold in the end *)
  Definition nvalues (os : list nop) : list name := let (h, rs) := nrun os in map (read h) rs.
End Names.
