(** pkg/log: entries, loggers, levels and the text handler.

    A Fields value is a Go map, that is a reference: callers keep theirs and may change it later.
    A list of Fields is a Go slice: an array and a length.  Both live in heaps here, so that
    sharing is visible.  The values of fields are strings, integers and others (numbered). *)
From Coq Require Import String Ascii.
From Verif Require Import Base.
Local Open Scope string_scope.

Inductive fval : Type := FStr (s : string) | FInt (z : Z) | FAny (n : N).

(** a map: its entries in the order in which a loop visits them; no key twice *)
Definition fmap : Type := list (string * fval).

Fixpoint mget (m : fmap) (k : string) : option fval :=
  match m with [] => None | (a, v) :: r => if a =? k then Some v else mget r k end.
Fixpoint mset (m : fmap) (k : string) (v : fval) : fmap :=
  match m with [] => [(k, v)] | (a, w) :: r => if a =? k then (a, v) :: r else (a, w) :: mset r k v end.
Definition mdel (m : fmap) (k : string) : fmap := filter (fun p => negb (fst p =? k)) m.

(** a slice of maps: which array, how many elements *)
Record lslice : Type := mkLS { ls_arr : nat; ls_len : nat }.

(** Entry, entry.go 19-27; [en_fields] is Fields, nil or a map; the logger is the same for all *)
Record entry : Type := mkEn { en_fields : option nat; en_level : Z; en_msg : string;
                              en_start : Z; en_list : lslice }.

(** what a handler is given: the finalized entry, with a map of its own *)
Record record : Type := mkRec { r_level : Z; r_time : Z; r_msg : string; r_map : nat }.

(** the maps, the arrays of the slices, the entries, Logger.Level, the calls of the handler
    with the contents of the map at that time, and whether the program has been ended by Fatal *)
Record lst : Type := mkL { l_maps : list fmap; l_arrs : list (list nat); l_ents : list entry;
                           l_level : Z; l_out : list (record * fmap); l_over : bool }.

(** array 0 is that of the nil slice *)
Definition l_new (level : Z) : lst := mkL [] [[]] [] level [] false.

Definition lmap (s : lst) (m : nat) : fmap := nth m (l_maps s) [].
Definition larr (s : lst) (a : nat) : list nat := nth a (l_arrs s) [].
Fixpoint lput {A} (l : list A) (i : nat) (x : A) : list A :=
  match l, i with
  | [], _ => []
  | _ :: l', O => x :: l'
  | y :: l', S i' => y :: lput l' i' x
  end.

Definition nil_entry : entry := mkEn None 0 "" 0 (mkLS 0 0).
Definition lent (s : lst) (e : nat) : entry := nth e (l_ents s) nil_entry.

Definition add_map (s : lst) (m : fmap) : lst :=
  mkL (l_maps s ++ [m])%list (l_arrs s) (l_ents s) (l_level s) (l_out s) (l_over s).
Definition add_ent (s : lst) (e : entry) : lst :=
  mkL (l_maps s) (l_arrs s) (l_ents s ++ [e])%list (l_level s) (l_out s) (l_over s).
Definition set_arrs (s : lst) (a : list (list nat)) : lst :=
  mkL (l_maps s) a (l_ents s) (l_level s) (l_out s) (l_over s).

(** an error: Error(), the position of its stack trace if it has one, and the map of its
    Fields() if it is a Fielder *)
Record lerr : Type := mkErr { er_text : string; er_source : option string; er_fields : option nat }.

Section Log.
  (** the room append leaves when it makes a new array for so many elements *)
  Variable room : nat -> nat.

  (** append(sl, xs...) *)
  Definition sl_append (s : lst) (sl : lslice) (xs : list nat) : lst * lslice :=
    let a := larr s (ls_arr sl) in
    let n := (ls_len sl + List.length xs)%nat in
    if (n <=? List.length a)%nat then
      (set_arrs s (lput (l_arrs s) (ls_arr sl) (firstn (ls_len sl) a ++ xs ++ skipn n a)%list), mkLS (ls_arr sl) n)
    else
      (set_arrs s (l_arrs s ++ [firstn (ls_len sl) a ++ xs ++ repeat O (room n)])%list, mkLS (List.length (l_arrs s)) n).

  Definition sl_list (s : lst) (sl : lslice) : list nat := firstn (ls_len sl) (larr s (ls_arr sl)).

  (** WithFields, entry.go 42-50: a new slice, with the old elements and one more.  Returns the
      number of the new entry. *)
  Definition with_fields (s : lst) (e : nat) (m : nat) : lst * nat :=
    let s0 := set_arrs s (l_arrs s ++ [[]])%list in             (* f := []Fields{} *)
    let f0 := mkLS (List.length (l_arrs s)) 0 in
    let (s1, f1) := sl_append s0 f0 (sl_list s0 (en_list (lent s e))) in
    let (s2, f2) := sl_append s1 f1 [m] in
    (add_ent s2 (mkEn None 0 "" 0 f2), List.length (l_ents s2)).

  (** WithField, entry.go 53-55 *)
  Definition with_field (s : lst) (e : nat) (k : string) (v : fval) : lst * nat :=
    with_fields (add_map s [(k, v)]) e (List.length (l_maps s)).

  (** WithDuration, entry.go 59-61; the duration in nanoseconds *)
  Definition with_duration (s : lst) (e : nat) (d : Z) : lst * nat :=
    with_field s e "duration" (FInt (Z.quot d 1000000)).

  (** WithError, entry.go 67-94 *)
  Definition with_error (s : lst) (e : nat) (err : option lerr) : lst * nat :=
    match err with
    | None => (s, e)
    | Some r =>
        let (s1, e1) := with_field s e "error" (FStr (er_text r)) in
        let (s2, e2) := match er_source r with
                        | Some p => with_field s1 e1 "source" (FStr p)
                        | None => (s1, e1)
                        end in
        match er_fields r with Some m => with_fields s2 e2 m | None => (s2, e2) end
    end.

  (** mergedFields, entry.go 168-178 *)
  Definition merge_into (f m : fmap) : fmap := fold_left (fun f p => mset f (fst p) (snd p)) m f.
  Definition merged (s : lst) (e : nat) : fmap :=
    fold_left merge_into (map (lmap s) (sl_list s (en_list (lent s e)))) [].

  (** Logger.log, logger.go 148-156, with finalize, entry.go 181-189: the handler is called with a
      new entry, which it may keep (it gets a number too).  What the handler returns does not matter. *)
  Definition log (s : lst) (level : Z) (e : nat) (msg : string) (now : Z) : lst :=
    if (level <? l_level s)%Z then s
    else
      let f := merged s e in
      let m := List.length (l_maps s) in
      mkL (l_maps s ++ [f])%list (l_arrs s) (l_ents s ++ [mkEn (Some m) level msg 0 (mkLS 0 0)])%list
          (l_level s) (l_out s ++ [(mkRec level now msg m, f)])%list (l_over s).

  (** Trace, entry.go 149-155; a nil Fields is an empty map to WithFields *)
  Definition trace (s : lst) (e : nat) (msg : string) (now start : Z) : lst * nat :=
    let s1 := log s 1 e msg now in
    let (s2, m) := match en_fields (lent s e) with
                   | Some m => (s1, m)
                   | None => (add_map s1 [], List.length (l_maps s1))
                   end in
    let (s3, v) := with_fields s2 e m in
    let x := lent s3 v in
    (mkL (l_maps s3) (l_arrs s3) (lput (l_ents s3) v (mkEn (en_fields x) (en_level x) msg start (en_list x)))
         (l_level s3) (l_out s3) (l_over s3), v).

  (** Stop, entry.go 159-165; [now] is the time of time.Since and of the record *)
  Definition stop (s : lst) (e : nat) (err : option lerr) (now : Z) : lst :=
    let x := lent s e in
    let (s1, e1) := with_duration s e (now - en_start x) in
    match err with
    | None => log s1 1 e1 (en_msg x) now
    | Some _ => let (s2, e2) := with_error s1 e1 err in log s2 3 e2 (en_msg x) now
    end.

  (** What programs do.  Entries and maps are named by their numbers. *)
  Inductive lop : Type :=
  | OMap (kvs : list (string * fval))            (* make a Fields value *)
  | OSet (m : nat) (k : string) (v : fval)       (* change a map *)
  | ODel (m : nat) (k : string)
  | ONew                                         (* NewEntry, entry.go 35-39 *)
  | OWith (e m : nat)
  | OField (e : nat) (k : string) (v : fval)
  | ODur (e : nat) (d : Z)
  | OErr (e : nat) (err : option lerr)
  | OLevel (l : Z)                               (* Logger.Level = l *)
  | OLog (level : Z) (e : nat) (msg : string) (now : Z)
  | OTrace (e : nat) (msg : string) (now start : Z)
  | OStop (e : nat) (err : option lerr) (now : Z)
  | OFatal (e : nat) (msg : string) (now : Z).   (* Fatal, entry.go 117-120: log and os.Exit(1) *)

  Definition set_map (s : lst) (m : nat) (f : fmap) : lst :=
    mkL (lput (l_maps s) m f) (l_arrs s) (l_ents s) (l_level s) (l_out s) (l_over s).

  Definition lstep (s : lst) (o : lop) : lst :=
    if l_over s then s
    else match o with
         | OMap kvs => add_map s (merge_into [] kvs)
         | OSet m k v => set_map s m (mset (lmap s m) k v)
         | ODel m k => set_map s m (mdel (lmap s m) k)
         | ONew => add_ent s nil_entry
         | OWith e m => fst (with_fields s e m)
         | OField e k v => fst (with_field s e k v)
         | ODur e d => fst (with_duration s e d)
         | OErr e err => fst (with_error s e err)
         | OLevel l => mkL (l_maps s) (l_arrs s) (l_ents s) l (l_out s) (l_over s)
         | OLog level e msg now => log s level e msg now
         | OTrace e msg now start => fst (trace s e msg now start)
         | OStop e err now => stop s e err now
         | OFatal e msg now =>
             let s1 := log s 4 e msg now in
             mkL (l_maps s1) (l_arrs s1) (l_ents s1) (l_level s1) (l_out s1) true
         end.

  Definition lrun (s : lst) (l : list lop) : lst := fold_left lstep l s.
End Log.

(** ** Names, logger.go 30-38 *)

(** sort.Strings: in increasing order *)
Fixpoint sinsert (x : string) (l : list string) : list string :=
  match l with
  | [] => [x]
  | y :: r => if String.leb x y then x :: l else y :: sinsert x r
  end.
Definition sort_strings (l : list string) : list string := fold_right sinsert [] l.
Definition names (m : fmap) : list string := sort_strings (map fst m).

(** ** Levels, levels.go *)

Definition level_names : list string := ["debug"; "info"; "warn"; "error"; "fatal"].

(** String, levels.go 43-45: index out of range panics *)
Definition level_string (l : Z) : res string :=
  if ((0 <=? l) && (l <? 5))%Z then Ok (nth (Z.to_nat l) level_names "") else Panic.

Definition level_table : list (string * Z) :=
  [("debug", 0); ("info", 1); ("warn", 2); ("warning", 2); ("error", 3); ("fatal", 4)]%Z.
Fixpoint assoc (l : list (string * Z)) (s : string) : option Z :=
  match l with [] => None | (a, v) :: r => if a =? s then Some v else assoc r s end.

Section Levels.
  (** strings.ToLower of strings that are not all ASCII *)
  Variable to_lower_utf8 : string -> string.

  Definition lower_char (c : ascii) : ascii :=
    let n := N_of_ascii c in if (65 <=? n)%N && (n <=? 90)%N then ascii_of_N (n + 32) else c.
  Fixpoint lower_ascii (s : string) : string :=
    match s with EmptyString => "" | String c r => String (lower_char c) (lower_ascii r) end.
  Fixpoint is_ascii (s : string) : bool :=
    match s with EmptyString => true | String c r => (N_of_ascii c <? 128)%N && is_ascii r end.
  Definition to_lower (s : string) : string := if is_ascii s then lower_ascii s else to_lower_utf8 s.

  (** ParseLevel, levels.go 64-71; None: ErrInvalidLevel *)
  Definition parse_level (s : string) : option Z := assoc level_table (to_lower s).

  (** MustParseLevel, levels.go 74-81 *)
  Definition must_parse_level (s : string) : res Z :=
    match parse_level s with Some l => Ok l | None => Panic end.

  (** bytes.Trim(b, …) with a quotation mark *)
  Fixpoint trim_left (s : string) : string :=
    match s with String c r => if Ascii.eqb c """" then trim_left r else s | EmptyString => "" end.
  Fixpoint trim_right (s : string) : string :=
    match s with
    | EmptyString => ""
    | String c r => match trim_right r with
                    | EmptyString => if Ascii.eqb c """" then "" else String c ""
                    | r' => String c r'
                    end
    end.
  Definition trim (s : string) : string := trim_right (trim_left s).

  (** MarshalJSON, levels.go 48-50 *)
  Definition level_marshal (l : Z) : res string :=
    do s <- level_string l; Ok ("""" ++ s ++ """").

  (** UnmarshalJSON, levels.go 53-61 *)
  Definition level_unmarshal (b : string) : option Z := parse_level (trim b).
End Levels.

(** ** The text handler, text.go 18-77 *)

Definition colours : list string := ["37"; "34"; "33"; "31"; "31"].
Definition level_words : list string := [" DEBUG"; "  INFO"; "  WARN"; " ERROR"; " FATAL"].   (* %6s *)
Definition esc : string := String (ascii_of_N 27) "".
Definition newline : string := String (ascii_of_N 10) "".

Section Text.
  (** the texts of values (%v; nil for a name that is not there), and messages padded to 25 characters *)
  Variable show : option fval -> string.
  Variable pad : string -> string.

  (** the writes of one call of HandleLog, text.go 59-77, in order; [ts] is the text of the seconds.
      A level out of range panics (before the lock is taken). *)
  Definition text_writes (level : Z) (ts msg : string) (f : fmap) : res (list string) :=
    if ((0 <=? level) && (level <? 5))%Z then
      let c := nth (Z.to_nat level) colours "" in
      Ok ((esc ++ "[" ++ c ++ "m" ++ nth (Z.to_nat level) level_words "" ++ esc ++ "[0m[" ++ ts ++ "] " ++ pad msg)%string
          :: map (fun n => (" " ++ esc ++ "[" ++ c ++ "m" ++ n ++ esc ++ "[0m=" ++ show (mget f n))%string) (names f)
          ++ [newline])%list
    else Panic.
End Text.

(** Calls of HandleLog of handlers with one writer, in several goroutines.  A goroutine takes the
    lock of its handler, writes piece by piece, and releases it. *)
Inductive tstate : Type := TWait | THold (left : list string) | TDone.
Record tx : Type := mkTx { t_st : list tstate; t_lock : list bool; t_out : list string }.

Section Handlers.
  (** the handler and the writes of each call *)
  Variable calls : list (nat * list string).

  Definition t_start (handlers : nat) : tx :=
    mkTx (map (fun _ => TWait) calls) (repeat false handlers) [].

  (** a step of call number [i]; [None]: it has to wait, or has ended *)
  Definition tstep (s : tx) (i : nat) : option tx :=
    match nth_error calls i, nth_error (t_st s) i with
    | Some (h, ws), Some TWait =>
        match nth_error (t_lock s) h with
        | Some false => Some (mkTx (lput (t_st s) i (THold ws)) (lput (t_lock s) h true) (t_out s))
        | _ => None
        end
    | Some (h, _), Some (THold []) =>
        Some (mkTx (lput (t_st s) i TDone) (lput (t_lock s) h false) (t_out s))
    | Some _, Some (THold (w :: ws)) =>
        Some (mkTx (lput (t_st s) i (THold ws)) (t_lock s) (t_out s ++ [w])%list)
    | _, _ => None
    end.

  Fixpoint trun (s : tx) (sched : list nat) : option tx :=
    match sched with
    | [] => Some s
    | i :: r => match tstep s i with Some s' => trun s' r | None => None end
    end.
End Handlers.
