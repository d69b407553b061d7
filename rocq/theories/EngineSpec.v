(** Vocabulary for the statements about expressed Interests. *)
From Verif Require Import Base NameModel TextModel TrieModel TrieSpec EngineModel.

(** an expressed Interest: its name, CanBePrefix and the end of its lifetime *)
Record xint : Type := mkX { x_name : name; x_cbp : bool; x_deadline : Z }.

(** the time that passes in a history *)
Fixpoint elapsed (os : list eop) : Z :=
  match os with
  | [] => 0
  | ETick d :: os' => (Z.of_N d + elapsed os')%Z
  | _ :: os' => elapsed os'
  end.

(** the accepted Express calls of a history that starts at time [now], in order:
    Interest number i is the i-th.  The lifetime is 4 s if none is given. *)
Fixpoint expressed (now : Z) (os : list eop) : list xint :=
  match os with
  | [] => []
  | EExpress nm cbp life :: os' =>
      match nm with
      | [] => expressed now os'
      | _ => mkX nm cbp (now + match life with Some l => l | None => 4000000000 end) :: expressed now os'
      end
  | ETick d :: os' => expressed (now + Z.of_N d) os'
  | _ :: os' => expressed now os'
  end.

(** does an Interest match a Data?  Names are compared by the texts of their
    components.  An Interest whose last component is an implicit digest asks for
    the Data with that digest whose name is, or with CanBePrefix extends, the rest. *)
Definition name_matches (nm : name) (cbp : bool) (data : name) : Prop :=
  keys nm = keys data \/ (cbp = true /\ prefix (keys nm) (keys data)).

Inductive matches (cbp : bool) (data : name) (digest : buf) : name -> Prop :=
| MPlain : forall nm c, ctyp c <> TypeImplicitSha256Digest ->
    name_matches (nm ++ [c]) cbp data -> matches cbp data digest (nm ++ [c])
| MDigest : forall nm c, ctyp c = TypeImplicitSha256Digest -> cval c = digest ->
    name_matches nm cbp data -> matches cbp data digest (nm ++ [c]).

(** the results handed to callbacks, in order *)
Definition callbacks (g : engine) : list (nat * result) := g_log g.
Definition called (g : engine) : list nat := map fst (g_log g).

(** the timer of Interest i has still to run *)
Definition timer_pending (g : engine) (i : nat) : Prop := In i (map tm_id (g_armed g ++ g_flight g)).

(** Interest i is filed in the tree under the key path p *)
Definition filed (g : engine) (i : nat) (p : path) : Prop :=
  exists n l e, t_exact (g_pit g) p = Ok (Some n) /\ value (g_pit g) n = Ok l /\ In e l /\ pe_id e = i.

Definition no_nack (os : list eop) : Prop := forall nm r, ~ In (ENack nm r) os.

(** the name under which an Interest is filed: without a final implicit digest *)
Inductive bare : name -> name -> Prop :=
| BPlain : forall nm c, ctyp c <> TypeImplicitSha256Digest -> bare (nm ++ [c]) (nm ++ [c])
| BDigest : forall nm c, ctyp c = TypeImplicitSha256Digest -> bare (nm ++ [c]) nm.

(** the results of Interest i, in order *)
Definition results_of (g : engine) (i : nat) : list result := map snd (filter (fun e => (fst e =? i)%nat) (callbacks g)).

(** a Nack for the name of Interest i arrives in the history *)
Definition nacked (os : list eop) (i : nat) : Prop :=
  exists x b nm reason, nth_error (expressed 0 os) i = Some x /\ bare (x_name x) b /\ In (ENack nm reason) os /\ keys nm = keys b.

(** what justifies calling back Interest [x] with a result on event [o] at time [now] *)
Definition justified (x : xint) (now : Z) (o : eop) (r : result) : Prop :=
  match r with
  | RData => exists nm digest, o = EData nm digest /\ matches (x_cbp x) nm digest (x_name x)
  | RNack reason => exists nm b, o = ENack nm reason /\ bare (x_name x) b /\ keys nm = keys b
  | RTimeout => (exists id, o = ERun id) /\ (x_deadline x <= now)%Z
  end.
