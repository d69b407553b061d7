(** Encodings of unordered models with elements of other types among the model's own. *)
From Verif Require Import Base PrimModel ReaderModel NameModel CodecModel CodecSpec CodecSpec2 CodecPar.

(** the elements of a field, one value each *)
Definition items (p : eparams) (hole : buf) (k : kind) (v : value) : list value :=
  match k, v with
  | KSeq _, VSeq l => l
  | KMap _ _ _, VMap l => map (fun e => VMap [e]) l
  | _, _ => match k_body p hole k v with Some _ => [v] | None => [] end
  end.
Fixpoint fs_items (p : eparams) (hole : buf) (fs : list (N * kind)) (vs : list value) : list (list value) :=
  match fs, vs with
  | f :: fs', v :: vs' => items p hole (snd f) v :: fs_items p hole fs' vs'
  | _, _ => []
  end.

(** types that may be ignored: even and above 31 *)
Definition may_ignore (ic : bool) (t : N) : Prop := ic = true \/ ((31 < t)%N /\ N.even t = true).

(** [mrun fs q b q']: the bytes [b] are elements of the fields [fs] and elements of other
    types; they take away elements from the lists [q] of the elements of each field and
    leave [q'].  Elements of different fields may be in any order. *)
Inductive mbody (p : eparams) (hole : buf) (ic : bool) : kind -> value -> buf -> Prop :=
| mb_clean : forall k v b, k_body p hole k v = Some b -> mbody p hole ic k v b
| mb_struct : forall nc fs nocopy vs b,
    mrun p hole ic fs (fs_items p hole fs vs) b (map (fun _ => []) fs) ->
    mbody p hole ic (KStruct (Model nc false fs) nocopy) (VStruct vs) b
with mrun (p : eparams) (hole : buf) (ic : bool) : list (N * kind) -> list (list value) -> buf -> list (list value) -> Prop :=
| mr_end : forall fs q, mrun p hole ic fs q [] q
| mr_item : forall fs q i f x q' e b q2,
    nth_error fs i = Some f -> nth_error q i = Some (x :: q') -> mitem p hole ic (fst f) (snd f) x e ->
    mrun p hole ic fs (upd q i q') b q2 -> mrun p hole ic fs q (e ++ b) q2
| mr_other : forall fs q t v b q2,
    (t < two64)%N -> ~ In t (elem_types fs) -> may_ignore ic t ->
    mrun p hole ic fs q b q2 -> mrun p hole ic fs q (tlv t v ++ b) q2
with mitem (p : eparams) (hole : buf) (ic : bool) : N -> kind -> value -> buf -> Prop :=
| mi_single : forall t k v b, is_rep k = false -> mbody p hole ic k v b -> mitem p hole ic t k v (tlv t b)
| mi_seq : forall t sub v b, mbody p hole ic sub v b -> mitem p hole ic t (KSeq sub) v (tlv t b)
| mi_map : forall t key vt val a c b1 b2, mbody p hole ic key a b1 -> mbody p hole ic val c b2 ->
    mitem p hole ic t (KMap key vt val) (VMap [(a, c)]) (tlv t b1 ++ tlv vt b2).

(** all of the elements of a value, with others *)
Definition mixed (p : eparams) (hole : buf) (ic : bool) (fs : list (N * kind)) (vs : list value) (b : buf) : Prop :=
  mrun p hole ic fs (fs_items p hole fs vs) b (map (fun _ => []) fs).

(** the elements of an encoding in the order Encode writes them; a key and the value after it
    are one *)
Definition item_bytes (p : eparams) (hole : buf) (t : N) (k : kind) (x : value) : buf :=
  match k with KSeq sub => k_bytes p hole t sub x | _ => k_bytes p hole t k x end.
Fixpoint elements (p : eparams) (hole : buf) (fs : list (N * kind)) (q : list (list value)) : list buf :=
  match fs, q with
  | f :: fs', l :: q' => map (item_bytes p hole (fst f) (snd f)) l ++ elements p hole fs' q'
  | _, _ => []
  end.
Definition all_elements (p : eparams) (hole : buf) (m : model) (vs : list value) : list buf :=
  elements p hole (m_fields m) (fs_items p hole (m_fields m) vs).
Definition insert (k : nat) (x : buf) (l : list buf) : buf := concat (firstn k l ++ x :: skipn k l).
