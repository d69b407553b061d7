(** What the generated codecs are meant to produce: the TLV encoding of a structure,
    stated on the numbers (C01, C03), components (C05) and bytes only. *)
From Verif Require Import Base PrimModel NameModel CodecModel.

(** ** Models codegen accepts and the Go compiler compiles *)

(** kinds that may be elements of a sequence or map *)
Definition plain_kind (k : kind) : bool :=
  match k with
  | KArg | KOffset | KRange _ _ | KSig _ _ | KIName _ | KSeq _ | KMap _ _ _ => false
  | _ => true
  end.

(** fields that never start a new buffer *)
Fixpoint flat_kind (nc : bool) (k : kind) : bool :=
  match k with
  | KWire => negb nc
  | KSig _ _ => false
  | KStruct _ nocopy => negb nocopy
  | KSeq sub => flat_kind nc sub
  | KMap key _ val => flat_kind nc key && flat_kind nc val
  | _ => true
  end.

Definition is_offset (k : kind) : bool := match k with KOffset => true | _ => false end.
Definition is_arg (k : kind) : bool := match k with KArg => true | _ => false end.
Definition kind_at (fs : list (N * kind)) (i : nat) : kind := nth i (map snd fs) KBool.

(** The arguments of a marker field: a signature covers from an offset marker before
    which no field starts a new buffer, into a procedure argument; signatures and
    Interest names occur in nocopy models only. *)
Definition wf_mark (nc : bool) (fs : list (N * kind)) (i : nat) (k : kind) : bool :=
  match k with
  | KSig st cv => nc && (st <? i)%nat && is_offset (kind_at fs st) && is_arg (kind_at fs cv)
                  && forallb (fun f => flat_kind nc (snd f)) (firstn st fs)
  | KIName cv => nc && is_arg (kind_at fs cv) && forallb (fun f => flat_kind nc (snd f)) (firstn i fs)
  | KRange st cv => (st <? i)%nat && is_offset (kind_at fs st) && is_arg (kind_at fs cv)
  | _ => true
  end.

Fixpoint wf_marks_from (nc : bool) (fs : list (N * kind)) (i : nat) (l : list (N * kind)) : bool :=
  match l with
  | [] => true
  | f :: l' => wf_mark nc fs i (snd f) && wf_marks_from nc fs (S i) l'
  end.

Fixpoint wf_kind (nc : bool) (k : kind) : bool :=
  match k with
  | KFixed w _ => ((w =? 1) || (w =? 2) || (w =? 4) || (w =? 8))%nat
  | KStruct (Model nc' _ fs) nocopy =>
      eqb nocopy nc' && implb nocopy nc
      && forallb (fun f => wf_kind nc' (snd f)) fs
      && wf_marks_from nc' fs 0 fs
  | KSeq sub => plain_kind sub && wf_kind nc sub
  | KMap key vt val =>
      match key with KNat false | KStr false => true | _ => false end
      && plain_kind val && wf_kind nc val
  | _ => true
  end.

Definition wf_fields (nc : bool) (fs : list (N * kind)) : bool :=
  forallb (fun f => wf_kind nc (snd f)) fs && wf_marks_from nc fs 0 fs.
Definition wf_model (m : model) : bool := wf_fields (m_nocopy m) (m_fields m).

(** ** Values of the Go types *)
Fixpoint shape (k : kind) (v : value) : Prop :=
  match k, v with
  | KNat _, VNat _ => True
  | KNat opt, VNone => opt = true
  | KFixed _ _, VNat _ => True
  | KFixed _ opt, VNone => opt = true
  | KTime _, VTime _ => True
  | KTime opt, VNone => opt = true
  | KBin, VBytes _ => True
  | KBin, VNone => True
  | KStr _, VBytes _ => True
  | KStr opt, VNone => opt = true
  | KWire, VWire _ => True
  | KWire, VNone => True
  | KName, VName _ => True
  | KName, VNone => True
  | KIName _, VName _ => True
  | KIName _, VNone => True
  | KBool, VBool _ => True
  | KStruct _ _, VNone => True
  | KStruct (Model _ _ fs) _, VStruct vs =>
      (fix go (fs : list (N * kind)) (vs : list value) : Prop :=
         match fs, vs with
         | [], [] => True
         | f :: fs', v :: vs' => shape (snd f) v /\ go fs' vs'
         | _, _ => False
         end) fs vs
  | KSeq sub, VSeq l => Forall (shape sub) l
  | KMap key _ val, VMap l => Forall (fun e => shape key (fst e) /\ shape val (snd e)) l
  | KArg, VNone => True
  | KOffset, VNone => True
  | KRange _ _, VNone => True
  | KSig _ _, VNone => True
  | KSig _ _, VWire _ => True
  | _, _ => False
  end.

Definition fs_shape (fs : list (N * kind)) (vs : list value) : Prop := Forall2 (fun f v => shape (snd f) v) fs vs.

(** ** The TLV encoding *)
Definition tlv (t : N) (b : buf) : buf := tl_enc t ++ tl_enc (nlen b) ++ b.

(** Encoding of a field; [hole] are the bytes at the place of the signature, which the
    lengths take to have [ep_est p] bytes. *)
Fixpoint k_bytes (p : eparams) (hole : buf) (t : N) (k : kind) (v : value) : buf :=
  match k, v with
  | KNat _, VNat n => tlv t (nat_enc n)
  | KFixed w _, VNat n => tlv t (be w n)
  | KTime _, VTime ns => tlv t (nat_enc (ms_of ns))
  | KBin, VBytes b => tlv t b
  | KStr _, VBytes b => tlv t b
  | KWire, VWire w => tlv t (concat w)
  | KName, VName n => tlv t (name_enc n)
  | KIName _, VName n => tlv t (name_enc (final_name p n))
  | KBool, VBool true => tlv t []
  | KStruct (Model _ _ fs) _, VStruct vs =>
      let content hole := (fix go (fs : list (N * kind)) (vs : list value) : buf :=
        match fs, vs with
        | f :: fs', v :: vs' => k_bytes p hole (fst f) (snd f) v ++ go fs' vs'
        | _, _ => []
        end) fs vs in
      tl_enc t ++ tl_enc (nlen (content (repeat 0%N (N.to_nat (ep_est p))))) ++ content hole
  | KSeq sub, VSeq l => concat (map (k_bytes p hole t sub) l)
  | KMap key vt val, VMap l =>
      concat (map (fun e => k_bytes p hole t key (fst e) ++ k_bytes p hole vt val (snd e)) l)
  | KSig _ _, _ => if (0 <? ep_est p)%N then tl_enc t ++ tl_enc (ep_est p) ++ hole else []
  | _, _ => []
  end.

Fixpoint fs_bytes (p : eparams) (hole : buf) (fs : list (N * kind)) (vs : list value) : buf :=
  match fs, vs with
  | f :: fs', v :: vs' => k_bytes p hole (fst f) (snd f) v ++ fs_bytes p hole fs' vs'
  | _, _ => []
  end.

Definition full_hole (p : eparams) : buf := repeat 0%N (N.to_nat (ep_est p)).

(** The buffers EncodeInto expects: of the planned sizes, with any contents. *)
Definition planned (p : eparams) (m : model) (vs : list value) (w : wire) : Prop :=
  if m_nocopy m then map nlen w = m_plan p m vs else exists b, w = [b] /\ nlen b = fs_len p (m_fields m) vs.
