(** Segmented objects: vocabulary. *)
From Verif Require Import Base NameModel PrimModel ReaderModel CodecModel CodecSpec CodecSpec2 SpecModel SpecSpec SchemaModel NeedModel SegModel.

Definition no_empty (w : wire) : Prop := Forall (fun b => b <> []) w.

(** bytes [i*size], ..., [i*size+size-1], as far as there are *)
Definition piece (size i : N) (b : buf) : buf := firstn (N.to_nat size) (skipn (N.to_nat (i * size)) b).

(** the least number of pieces of [size] bytes that hold [len] bytes *)
Definition is_ceil (len size cnt : N) : Prop := (len <= cnt * size /\ cnt * size < len + size)%N.

Section Spec.
  Variable D : Type.

  (** What the Data of a leaf node is signed with: nothing, or the signature config, the function from
      the signed portion to the signature, and the greatest size of both. *)
  Inductive signs (l : leaf D) : option sig_config -> (buf -> option buf) -> N -> Prop :=
  | SignsNot : l_signers l = [] -> signs l None (fun _ => None) 0
  | SignsBy : forall s ls sc f, l_signers l = (fun _ => Some s) :: ls -> data_sig_ok sc -> sg_info s = Ok (Some sc) ->
      (forall cov, sg_sign s cov = Ok (f (concat cov))) -> (forall b, fits (sg_est s) (nlen (f b))) ->
      signs l (Some sc) (fun b => Some (f b)) (sig_size sc + sg_est s).

  (** the packet of a segment *)
  Definition packet_of (n : name) (c : data_config) (content : wire) (osc : option sig_config) (f : buf -> option buf) : buf :=
    data_packet n c (Some content) osc (f (data_part n c (Some content) osc)).

  (** the node has the child it is created with, a leaf node for the segments *)
  Definition has_segments (leaf_of : D -> option (leaf D)) (x : mnode D) (l : leaf D) : Prop :=
    exists d tag dl, m_node x = SNode d [(PVar TypeSegment tag, SNode dl [])] /\ leaf_of dl = Some l.
End Spec.
Arguments signs {D}. Arguments has_segments {D}.

(** ** Fetching *)
(** of at most [k] trials one yields Data, and the first that does yields [r] *)
Definition gets (k : nat) (need : nat -> nres) (r : nres) : Prop :=
  exists j, (j < k)%nat /\ need j = r /\ r_status r = SData /\ forall j', (j' < j)%nat -> r_status (need j') <> SData.
(** no trial yields Data, and [r] is what the last one yields *)
Definition gets_none (k : nat) (need : nat -> nres) (r : nres) : Prop :=
  (0 < k)%nat /\ (forall j, (j < k)%nat -> r_status (need j) <> SData) /\ need (k - 1)%nat = r.

Definition final_of (r : nres) : option comp := match r_data r with Some d => d_final_block d | None => None end.
Definition content_of (r : nres) : wire := match r_content r with Some w => w | None => [] end.

(** a result is what reading the packet yields *)
Definition reads_as (packet : buf) (r : nres) : Prop :=
  exists F d cov, (length packet < F)%nat /\ read_data F (new_buffer_reader packet) = Ok (d, cov) /\ r_data r = Some d /\ r_content r = d_content d.

(** the configuration of the segments of an object with [cnt] segments *)
Definition seg_config (s : segnode) (cnt : N) : data_config := mkDC (Some (sn_type s)) (Some (sn_fresh s)) (Some (seg_comp (cnt - 1))).
(** what can be published: the sizes are within the limits of the format, and no buffer of the content is empty *)
Definition publishable (s : segnode) (n : name) (content : wire) (extra : N) : Prop :=
  (0 < sn_size s)%N /\ no_empty content /\ (nlen (concat content) + sn_size s <= two64)%N /\ (sn_type s < two64)%N /\ time_ok (sn_fresh s) /\ name_typed n
  /\ (nlen (name_enc n) + N.min (sn_size s) (nlen (concat content)) + extra + 20 < packet_limit)%N.
