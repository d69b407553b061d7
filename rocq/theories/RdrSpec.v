(** Versioned objects and objects with a manifest: vocabulary. *)
From Verif Require Import Base NameModel PrimModel ReaderModel CodecModel CodecSpec CodecSpec2 SpecModel SpecSpec SchemaModel NeedModel SegModel SegSpec.

(** the metadata of an object: its name with the version, the last segment, and its size *)
Definition meta_bytes (n : name) (cnt len : N) : buf := tlv 7 (name_enc n) ++ tlv 26 (comp_enc (seg_comp (cnt - 1))) ++ tlv 62722 (nat_enc len).
(** the entries of a manifest from number [i] on *)
Fixpoint manifest_bytes (i : N) (digests : list buf) : buf :=
  match digests with
  | [] => []
  | d :: ds => tlv 202 (tlv 204 (nat_enc i) ++ tlv 206 d) ++ manifest_bytes (i + 1) ds
  end.

Definition no_empty_comp (n : name) : Prop := Forall (fun c => cval c <> []) n.
Definition meta_config (fresh : Z) : data_config := mkDC (Some 0%N) (Some fresh) (Some (seg_comp 0)).
Definition plain_config (fresh : Z) : data_config := mkDC (Some 0%N) (Some fresh) None.

Section Spec.
  Context {D : Type}.

  (** the node has the children a RdrNode is created with: a segmented node for each version, and the nodes
      of the metadata *)
  Definition has_rdr (leaf_of : D -> option (leaf D)) (seg_of : D -> option segnode) (x : mnode D) (s : segnode) (l lm : leaf D) : Prop :=
    exists d tv ds ts dl de tm dv dm,
      m_node x = SNode d [ (PVar TypeVersion tv, SNode ds [(PVar TypeSegment ts, SNode dl [])])
                         ; (PComp key_metadata, SNode de [(PVar TypeVersion tm, SNode dv [(PComp (seg_comp 0), SNode dm [])])]) ]
      /\ seg_of ds = Some s /\ leaf_of dl = Some l /\ leaf_of dm = Some lm.

  (** ... a GeneralObjNode: a segmented node, and those of metadata and manifest *)
  Definition has_object (leaf_of : D -> option (leaf D)) (seg_of : D -> option segnode) (x : mnode D) (s : segnode) (l lm ln : leaf D) : Prop :=
    exists d ds ts dl dm dn,
      m_node x = SNode d [ (PComp key_data, SNode ds [(PVar TypeSegment ts, SNode dl [])]); (PComp key_metadata, SNode dm []); (PComp key_manifest, SNode dn []) ]
      /\ seg_of ds = Some s /\ leaf_of dl = Some l /\ leaf_of dm = Some lm /\ leaf_of dn = Some ln.

  (** the result of fetching an object: all of it, or not Data *)
  Definition whole_or_failure (b : buf) (e : event D) : Prop :=
    ev_status e = Some SData -> exists w, ev_content e = Some w /\ concat w = b.
End Spec.
