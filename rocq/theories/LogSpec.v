(** What users of pkg/log expect, without slices, arrays and loops. *)
From Coq Require Import String Ascii Permutation.
From Verif Require Import Base LogModel.
Local Open Scope string_scope.

(** The contents of a map: which name has which value. *)
Definition flds : Type := string -> option fval.
Definition no_fields : flds := fun _ => None.
Definition single (k : string) (v : fval) : flds := fun x => if k =? x then Some v else None.
(** both, and [f] where they disagree *)
Definition over (f g : flds) : flds := fun k => match f k with Some v => Some v | None => g k end.
Definition without (f : flds) (k : string) : flds := fun x => if k =? x then None else f x.
(** the pairs of a literal; the last one with a name counts *)
Fixpoint literal (kvs : list (string * fval)) : flds :=
  match kvs with [] => no_fields | (k, v) :: r => over (literal r) (single k v) end.

(** ** Entries as values

    An entry has fields.  [WithFields] gives a new entry with these and the new ones, which win.
    A message is output if its level is at least that of the logger, with the fields of its entry.
    Nothing else changes an entry.

    A map that has been given to an entry must not be changed any more: [v_ok] tells whether the
    program has kept to that, and has only used maps that exist. *)
Record vent : Type := mkVE { v_flds : flds; v_own : option flds; v_msg : string; v_start : Z }.
Record vst : Type := mkV { v_maps : list (flds * bool);  (* the bool: given away *)
                           v_ents : list vent; v_level : Z;
                           v_out : list (Z * Z * string * flds);   (* level, time, message, fields *)
                           v_over : bool; v_ok : bool }.
Definition v_new (level : Z) : vst := mkV [] [] level [] false true.
Definition v_blank : vent := mkVE no_fields None "" 0.

Definition vent_of (s : vst) (e : nat) : vent := nth e (v_ents s) v_blank.
Definition vmap_of (s : vst) (m : nat) : flds := fst (nth m (v_maps s) (no_fields, true)).
Definition v_given (s : vst) (m : nat) : bool := snd (nth m (v_maps s) (no_fields, true)).

Definition v_add (s : vst) (f : flds) (given : bool) : vst :=
  mkV (v_maps s ++ [(f, given)])%list (v_ents s) (v_level s) (v_out s) (v_over s) (v_ok s).
Definition v_entry (s : vst) (e : vent) : vst :=
  mkV (v_maps s) (v_ents s ++ [e])%list (v_level s) (v_out s) (v_over s) (v_ok s).
Definition v_check (s : vst) (b : bool) : vst :=
  mkV (v_maps s) (v_ents s) (v_level s) (v_out s) (v_over s) (v_ok s && b).
Definition v_change (s : vst) (m : nat) (f : flds) (given : bool) : vst :=
  mkV (lput (v_maps s) m (f, given)) (v_ents s) (v_level s) (v_out s) (v_over s) (v_ok s).

(** a new entry with the fields [f] and those of entry [e] *)
Definition v_derive (s : vst) (e : nat) (f : flds) (msg : string) (start : Z) : vst * nat :=
  (v_entry s (mkVE (over f (v_flds (vent_of s e))) None msg start), List.length (v_ents s)).
(** the same with a map of the program, which is given away *)
Definition v_derive_map (s : vst) (e m : nat) : vst * nat :=
  let s' := v_check s (m <? List.length (v_maps s))%nat in
  v_derive (v_change s' m (vmap_of s m) true) e (vmap_of s m) "" 0.
Definition v_derive_one (s : vst) (e : nat) (k : string) (v : fval) : vst * nat :=
  v_derive (v_add s (single k v) true) e (single k v) "" 0.
Definition v_error (s : vst) (e : nat) (err : option lerr) : vst * nat :=
  match err with
  | None => (s, e)
  | Some r =>
      let (s1, e1) := v_derive_one s e "error" (FStr (er_text r)) in
      let (s2, e2) := match er_source r with
                      | Some p => v_derive_one s1 e1 "source" (FStr p) | None => (s1, e1) end in
      match er_fields r with Some m => v_derive_map s2 e2 m | None => (s2, e2) end
  end.
(** the handler's entry has the fields as its Fields; it has no fields to derive from *)
Definition v_log (s : vst) (level : Z) (e : nat) (msg : string) (now : Z) : vst :=
  if (v_level s <=? level)%Z then
    let f := v_flds (vent_of s e) in
    let s1 := v_entry (v_add s f true) (mkVE no_fields (Some f) msg 0) in
    mkV (v_maps s1) (v_ents s1) (v_level s) (v_out s ++ [(level, now, msg, f)])%list (v_over s) (v_ok s)
  else s.

Definition vstep (s : vst) (o : lop) : vst :=
  if v_over s then s else
  match o with
  | OMap kvs => v_add s (literal kvs) false
  | OSet m k v => v_change (v_check s (negb (v_given s m))) m (over (single k v) (vmap_of s m)) (v_given s m)
  | ODel m k => v_change (v_check s (negb (v_given s m))) m (without (vmap_of s m) k) (v_given s m)
  | ONew => v_entry s v_blank
  | OWith e m => fst (v_derive_map s e m)
  | OField e k v => fst (v_derive_one s e k v)
  | ODur e d => fst (v_derive_one s e "duration" (FInt (Z.quot d 1000000)))
  | OErr e err => fst (v_error s e err)
  | OLevel l => mkV (v_maps s) (v_ents s) l (v_out s) (v_over s) (v_ok s)
  | OLog level e msg now => v_log s level e msg now
  | OTrace e msg now start =>
      let s1 := v_log s 1 e msg now in
      match v_own (vent_of s e) with
      | Some f => fst (v_derive s1 e f msg start)
      | None => fst (v_derive (v_add s1 no_fields true) e no_fields msg start)
      end
  | OStop e err now =>
      let x := vent_of s e in
      let (s1, e1) := v_derive_one s e "duration" (FInt (Z.quot (now - v_start x) 1000000)) in
      match err with
      | None => v_log s1 1 e1 (v_msg x) now
      | Some _ => let (s2, e2) := v_error s1 e1 err in v_log s2 3 e2 (v_msg x) now
      end
  | OFatal e msg now =>
      let s1 := v_log s 4 e msg now in
      mkV (v_maps s1) (v_ents s1) (v_level s1) (v_out s1) true (v_ok s1)
  end.
Definition vrun (s : vst) (l : list lop) : vst := fold_left vstep l s.

(** The outputs of a logger are what is expected: same number and order, same levels, times and
    messages, and every name has the value expected or is missing on both sides. *)
Definition same_record (c : record * fmap) (v : Z * Z * string * flds) : Prop :=
  match v with
  | (level, time, msg, f) => r_level (fst c) = level /\ r_time (fst c) = time /\ r_msg (fst c) = msg /\
                             forall k, mget (snd c) k = f k
  end.

(** ** Sharing

    What a message is output with when maps have been changed: of the maps given to the entry,
    from the first to the last, the last one that has the name now. *)
Fixpoint latest (ms : list fmap) : flds :=
  match ms with [] => no_fields | m :: r => over (latest r) (mget m) end.

(** ** Lists of names *)

Definition slt (a b : string) : Prop := String.compare a b = Lt.
Inductive increasing : list string -> Prop :=
| inc_nil : increasing []
| inc_cons x l : (forall y, In y l -> slt x y) -> increasing l -> increasing (x :: l).

(** ** Levels *)

(** the same text, except that small letters of the first may be capital in the second *)
Definition same_letter (small c : ascii) : Prop :=
  c = small \/
  (97 <= N_of_ascii small <= 122 /\ N_of_ascii c = N_of_ascii small - 32)%N.
Inductive same_word : string -> string -> Prop :=
| sw_nil : same_word "" ""
| sw_cons a b s t : same_letter a b -> same_word s t -> same_word (String a s) (String b t).

(** the texts of the levels *)
Definition level_texts : list (string * Z) :=
  [("debug", 0); ("info", 1); ("warn", 2); ("warning", 2); ("error", 3); ("fatal", 4)]%Z.

(** ** Lines *)

(** the calls that have ended *)
Definition ended (s : tx) (i : nat) : Prop := nth_error (t_st s) i = Some TDone.

(** what call [i] writes *)
Definition line (calls : list (nat * list string)) (i : nat) : list string := snd (nth i calls (0%nat, [])).

(** the colours and words of the levels, and the parts of a line *)
Definition level_looks : list (Z * (string * string)) :=
  [(0, ("37", " DEBUG")); (1, ("34", "  INFO")); (2, ("33", "  WARN")); (3, ("31", " ERROR")); (4, ("31", " FATAL"))]%Z.
Definition coloured (colour text : string) : string := esc ++ "[" ++ colour ++ "m" ++ text ++ esc ++ "[0m".
Definition line_head (colour word ts msg : string) : string := coloured colour word ++ "[" ++ ts ++ "] " ++ msg.
Definition line_field (colour name value : string) : string := " " ++ coloured colour name ++ "=" ++ value.
