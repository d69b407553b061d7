(** What the generated parsers are meant to return. *)
From Verif Require Import Base PrimModel ReaderModel NameModel NameProofs CodecModel CodecSpec.

(** ** Models the parser can read back *)

(** fields without a type number of their own *)
Definition is_marker (k : kind) : bool := match k with KArg | KOffset | KRange _ _ => true | _ => false end.
(** marker, signature and Interest-name fields *)
Definition markful (k : kind) : bool := match k with KArg | KOffset | KRange _ _ | KSig _ _ | KIName _ => true | _ => false end.
Definition is_rep (k : kind) : bool := match k with KSeq _ | KMap _ _ _ => true | _ => false end.

Fixpoint distinct (l : list N) : bool :=
  match l with [] => true | x :: l' => negb (existsb (N.eqb x) l') && distinct l' end.

Definition elem_types (fs : list (N * kind)) : list N := map fst (filter (fun f => negb (is_marker (snd f))) fs).

(** Elements have distinct non-zero types, markers have none; markers, signatures and
    Interest names occur in ordered models only. *)
Fixpoint pk_ok (k : kind) : bool :=
  match k with
  | KStruct (Model _ o fs) _ =>
      forallb (fun f => pk_ok (snd f)) fs
      && distinct (elem_types fs)
      && forallb (fun f => if is_marker (snd f) then (fst f =? 0)%N else ((0 <? fst f) && (fst f <? two64))%N) fs
      && (o || forallb (fun f => negb (markful (snd f))) fs)
  | KSeq sub => pk_ok sub
  | KMap key vt val => pk_ok key && pk_ok val && (vt <? two64)%N
  | _ => true
  end.
Definition parsable (m : model) : bool := pk_ok (KStruct m (m_nocopy m)).

(** ** Values in the ranges of their Go types, with every element of a sequence present *)

(** the value is encoded as one element *)
Definition present (k : kind) (v : value) : Prop :=
  match k, v with
  | KBool, VBool true => True
  | KBool, _ => False
  | _, VNone => False
  | _, _ => True
  end.

Definition name_typed (n : name) : Prop := Forall comp_ok n /\ Forall comp_short n.

Fixpoint typed (k : kind) (v : value) : Prop :=
  match k, v with
  | KNat _, VNat n => (n < two64)%N
  | KFixed w _, VNat n => (n < 256 ^ N.of_nat w)%N
  | KTime _, VTime ns => (0 <= ns < Ztwo63)%Z
  | KName, VName n => name_typed n
  | KIName _, VName n => name_typed n
  | KStruct (Model _ _ fs) _, VStruct vs =>
      (fix go (fs : list (N * kind)) (vs : list value) : Prop :=
         match fs, vs with
         | f :: fs', v :: vs' => typed (snd f) v /\ go fs' vs'
         | _, _ => True
         end) fs vs
  | KSeq sub, VSeq l => Forall (fun v => present sub v /\ typed sub v) l
  | KMap key _ val, VMap l =>
      Forall (fun e => typed key (fst e) /\ present val (snd e) /\ typed val (snd e)) l
      /\ NoDup (map fst l)
  | _, _ => True
  end.
Definition fs_typed (fs : list (N * kind)) (vs : list value) : Prop := Forall2 (fun f v => typed (snd f) v) fs vs.

(** Values that can be read from a wire reader: no empty name component (reading one at the
    end panics), and none of the fields that use Range. *)
Fixpoint wire_safe (k : kind) (v : value) : Prop :=
  match k, v with
  | KFixed w opt, VNat _ => w = 1%nat -> opt = false
  | KName, VName n => Forall (fun c => cval c <> []) n
  | KArg, _ | KOffset, _ | KRange _ _, _ | KSig _ _, _ | KIName _, _ => False
  | KStruct (Model _ _ fs) _, VStruct vs =>
      (fix go (fs : list (N * kind)) (vs : list value) : Prop :=
         match fs, vs with
         | f :: fs', v :: vs' => wire_safe (snd f) v /\ go fs' vs'
         | _, _ => True
         end) fs vs
  | KSeq sub, VSeq l => Forall (wire_safe sub) l
  | KMap key _ val, VMap l => Forall (fun e => wire_safe key (fst e) /\ wire_safe val (snd e)) l
  | _, _ => True
  end.
Definition fs_wire_safe (fs : list (N * kind)) (vs : list value) : Prop := Forall2 (fun f v => wire_safe (snd f) v) fs vs.

(** Range on a wire reader is right if it begins in the first buffer.  Values whose encoding begins
    there can also have a signature, if the signed part begins in the first buffer; [room] is the
    number of bytes that are left in it. *)
Inductive first_safe (p : eparams) (hole : buf) : Z -> N -> kind -> value -> Prop :=
| first_wire : forall room t k v, wire_safe k v -> first_safe p hole room t k v
| first_arg : forall room t v, first_safe p hole room t KArg v
| first_offset : forall room t v, first_safe p hole room t KOffset v
| first_struct : forall room t nc o fs b vs,
    (forall j, (j < length fs)%nat ->
       let before i := zlen (fs_bytes p hole (firstn i fs) (firstn i vs)) in
       let room' := (room - zlen (tl_enc t) - zlen (tl_enc (nlen (fs_bytes p hole fs vs))))%Z in
       (exists s c, kind_at fs j = KSig s c /\ (before s < room')%Z)
       \/ first_safe p hole (room' - before j) (nth j (map fst fs) 0%N) (kind_at fs j) (nth j vs VNone)) ->
    first_safe p hole room t (KStruct (Model nc o fs) b) (VStruct vs).
Definition fs_first (p : eparams) (hole : buf) (room : Z) (fs : list (N * kind)) (vs : list value) : Prop :=
  forall j, (j < length fs)%nat ->
    let before i := zlen (fs_bytes p hole (firstn i fs) (firstn i vs)) in
    (exists s c, kind_at fs j = KSig s c /\ (before s < room)%Z)
    \/ first_safe p hole (room - before j) (nth j (map fst fs) 0%N) (kind_at fs j) (nth j vs VNone).

(** ** The value that comes back: times are in milliseconds, a name of an Interest is the
    final one, and the signature is what was put in its place. *)
Fixpoint back (p : eparams) (hole : buf) (k : kind) (v : value) : value :=
  match k, v with
  | KTime _, VTime ns => VTime (ns / 1000000 * 1000000)
  | KIName _, VName n => VName (final_name p n)
  | KSig _ _, _ => if (0 <? ep_est p)%N then VWire [hole] else VNone
  | KStruct (Model _ _ fs) _, VStruct vs =>
      VStruct ((fix go (fs : list (N * kind)) (vs : list value) : list value :=
         match fs, vs with
         | f :: fs', v :: vs' => back p hole (snd f) v :: go fs' vs'
         | _, _ => []
         end) fs vs)
  | KSeq sub, VSeq l => VSeq (map (back p hole sub) l)
  | KMap key _ val, VMap l => VMap (map (fun e => (back p hole key (fst e), back p hole val (snd e))) l)
  | _, _ => v
  end.
Fixpoint fs_back (p : eparams) (hole : buf) (fs : list (N * kind)) (vs : list value) : list value :=
  match fs, vs with
  | f :: fs', v :: vs' => back p hole (snd f) v :: fs_back p hole fs' vs'
  | _, _ => []
  end.

(** equal up to the fragmentation of wires *)
Inductive same : value -> value -> Prop :=
| same_eq : forall v, same v v
| same_wire : forall w w', concat w = concat w' -> same (VWire w) (VWire w')
| same_struct : forall l l', Forall2 same l l' -> same (VStruct l) (VStruct l')
| same_seq : forall l l', Forall2 same l l' -> same (VSeq l) (VSeq l')
| same_map : forall l l', Forall2 (fun e e' => same (fst e) (fst e') /\ same (snd e) (snd e')) l l' -> same (VMap l) (VMap l').

(** ** The covered bytes the parser reports *)

(** the part of a name before its last ParametersSha256Digest component, if it has one *)
Fixpoint has_digest (n : name) : bool :=
  match n with [] => false | c :: n' => (ctyp c =? TypeParametersSha256Digest)%N || has_digest n' end.
Fixpoint before_digest (n : name) : name :=
  match n with
  | [] => []
  | c :: n' => if has_digest n' then c :: before_digest n'
               else if (ctyp c =? TypeParametersSha256Digest)%N then [] else c :: n'
  end.

(** argument [a] after fields 0..j-1; [acc] is what it was before *)
Definition bytes_between (p : eparams) (hole : buf) (fs : list (N * kind)) (vs : list value) (a b : nat) : buf :=
  fs_bytes p hole (skipn a (firstn b fs)) (skipn a (firstn b vs)).
Definition cover_step (p : eparams) (hole : buf) (fs : list (N * kind)) (vs : list value) (a : nat) (acc : buf) (i : nat) : buf :=
  match kind_at fs i, nth i vs VNone with
  | KIName cv, VName n => if (cv =? a)%nat then acc ++ name_enc (before_digest (final_name p n)) else acc
  | KSig st cv, _ => if (cv =? a)%nat && (0 <? ep_est p)%N then acc ++ bytes_between p hole fs vs st i else acc
  | KRange st cv, _ => if (cv =? a)%nat then bytes_between p hole fs vs st i else acc
  | _, _ => acc
  end.
Definition covered (p : eparams) (hole : buf) (fs : list (N * kind)) (vs : list value) (a j : nat) (acc : buf) : buf :=
  fold_left (cover_step p hole fs vs a) (seq 0 j) acc.

(** contexts as Init makes them *)
Fixpoint cx_ok (k : kind) (x : pcx) : Prop :=
  match k with
  | KStruct (Model _ _ fs) _ =>
      exists l, x = XSub l /\
      (fix go (fs : list (N * kind)) (l : list pcx) : Prop :=
         match fs, l with
         | [], [] => True
         | f :: fs', x :: l' => cx_ok (snd f) x /\ go fs' l'
         | _, _ => False
         end) fs l
  | KSeq sub => cx_ok sub x
  | KMap _ _ val => cx_ok val x
  | _ => True
  end.
Definition cxs_ok (fs : list (N * kind)) (l : list pcx) : Prop := Forall2 (fun f x => cx_ok (snd f) x) fs l.

(** the contexts left by parsing a value with a new context *)
Definition covers (p : eparams) (hole : buf) (fs : list (N * kind)) (vs : list value) (c : list pcx) : Prop :=
  forall a, kind_at fs a = KArg -> concat (x_cov (nth a c XNone)) = covered p hole fs vs a (length fs) [].
Fixpoint cx_fin (p : eparams) (hole : buf) (k : kind) (v : value) (x : pcx) : Prop :=
  match k, v with
  | KStruct (Model _ _ fs) _, VStruct vs =>
      exists c, x = XSub c /\ covers p hole fs vs c /\
      (fix go (fs : list (N * kind)) (vs : list value) (c : list pcx) : Prop :=
         match fs, vs, c with
         | f :: fs', v :: vs', x :: c' => cx_fin p hole (snd f) v x /\ go fs' vs' c'
         | _, _, _ => True
         end) fs vs c
  | _, _ => True
  end.
