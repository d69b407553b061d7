(** C05-C08, C12, C13: name components, names, patterns
    (pkg/encoding/name_component.go, name_pattern.go).  Statements only.

    [comp_ok c]: the type is a uint64 and the value consists of bytes; every
    Go value of type Component satisfies it.  [mem_limit] (2^62) bounds what
    can be in memory at all. *)
From Verif Require Import Base BaseProofs PrimModel ReaderModel ReaderSpec
  NameModel NameProofs OrderProofs PatternProofs PropsNameProofs.

(** C05.  Bytes produces exactly EncodingLength bytes, for every component. *)
Theorem C05_bytes_length : forall c, exists b, comp_bytes c = Ok b /\ nlen b = comp_len c.
Proof. intros c. exists (comp_enc c). exact (conj (comp_bytes_ok c) (comp_len_enc c)). Qed.
Print Assumptions C05_bytes_length.

(** C05, full statement: [forall c, comp_ok c -> ComponentFromBytes(c.Bytes()) = c].
    It holds exactly for the values of at most 252 bytes. *)
Theorem C05_roundtrip_iff_partial : forall c, comp_ok c -> (zlen (comp_enc c) < mem_limit)%Z ->
  ((do b <- comp_bytes c; comp_from_bytes b) = Ok c <-> (nlen (cval c) <= 252)%N).
Proof. exact c05_iff. Qed.
Print Assumptions C05_roundtrip_iff_partial.

(** The component is recovered also in front of other bytes, by all three decoders. *)
Theorem C05_decode_prefix_partial : forall c s, comp_ok c -> (nlen (cval c) <= 252)%N ->
  (zlen (comp_enc c ++ s) < mem_limit)%Z ->
  comp_from_bytes (comp_enc c ++ s) = Ok c /\ parse_comp (comp_enc c ++ s) = Ok (c, Z.of_N (comp_len c)).
Proof. intros c s H1 H2 H3. exact (conj (comp_from_bytes_ok c s H1 H2 H3) (parse_comp_ok c s H1 H2)). Qed.
Print Assumptions C05_decode_prefix_partial.

Theorem C05_read_any_reader_partial : forall r consumed c s, comp_ok c -> (nlen (cval c) <= 252)%N ->
  At r consumed (comp_enc c ++ s) -> (is_buf_reader r \/ cval c ++ s <> []) ->
  exists r', read_comp r = (Ok c, r') /\ At r' (consumed ++ comp_enc c) s /\ (is_buf_reader r <-> is_buf_reader r').
Proof. exact at_read_comp. Qed.
Print Assumptions C05_read_any_reader_partial.

Theorem C05_roundtrip_refuted : exists c, comp_ok c /\ (do b <- comp_bytes c; comp_from_bytes b) <> Ok c.
Proof.
  exists (mkComp 8 (repeat 1%N 253)). split.
  - split; [exact eq_refl|]. apply Forall_forall. intros z Hz. apply repeat_spec in Hz. subst z. exact eq_refl.
  - vm_compute. discriminate.
Qed.
Print Assumptions C05_roundtrip_refuted.

Example C05_example : let c := mkComp 1000 [0; 47; 255]%N in
  comp_ok c /\ comp_bytes c = Ok [253; 3; 232; 3; 0; 47; 255]%N /\ comp_from_bytes [253; 3; 232; 3; 0; 47; 255]%N = Ok c.
Proof. split; [repeat constructor|split; vm_compute; reflexivity]. Qed.

(** C06, full statement: [forall n, NameFromBytes(n.Bytes()) = n].  It holds exactly
    for the names whose components take at most 252 bytes together. *)
Theorem C06_bytes_total : forall n, exists b, name_bytes n = Ok b /\
  nlen b = (1 + nat_len (name_len n) + name_len n)%N.
Proof.
  intros n. exists (tl_enc TypeName ++ nat_enc (name_len n) ++ name_enc n). split; [exact (name_bytes_ok n)|].
  rewrite !nlen_app, PrimProofs.nat_len_enc, name_len_enc. change (nlen (tl_enc TypeName)) with 1%N. apply N.add_assoc.
Qed.
Print Assumptions C06_bytes_total.

Theorem C06_roundtrip_iff_partial : forall n, Forall comp_ok n -> (Z.of_N (name_len n) < mem_limit - 100)%Z ->
  ((do b <- name_bytes n; name_from_bytes b) = Ok n <-> (name_len n <= 252)%N).
Proof. exact c06_iff. Qed.
Print Assumptions C06_roundtrip_iff_partial.

(** The inner bytes (without the outer header) are read back whatever the total
    length, as long as each component value has at most 252 bytes. *)
Theorem C06_read_name_partial : forall n r consumed, Forall comp_ok n ->
  Forall (fun c => (nlen (cval c) <= 252)%N) n -> At r consumed (name_enc n) -> is_buf_reader r ->
  exists r', read_name r = (Ok n, r') /\ At r' (consumed ++ name_enc n) [] /\ is_buf_reader r'.
Proof. exact at_read_name. Qed.
Print Assumptions C06_read_name_partial.

(** Different names have different encodings. *)
Theorem C06_encoding_injective_partial : forall n m, Forall comp_ok n -> Forall (fun c => (nlen (cval c) <= 252)%N) n ->
  Forall comp_ok m -> Forall (fun c => (nlen (cval c) <= 252)%N) m -> name_enc n = name_enc m -> n = m.
Proof. exact name_enc_inj. Qed.
Print Assumptions C06_encoding_injective_partial.

Theorem C06_roundtrip_refuted : exists n, Forall comp_ok n /\ Forall (fun c => (nlen (cval c) <= 252)%N) n /\
  (do b <- name_bytes n; name_from_bytes b) <> Ok n.
Proof.
  exists [mkComp 8 (repeat 1%N 200); mkComp 8 (repeat 1%N 200)].
  assert (B : bytes_ok (repeat 1%N 200)) by (apply Forall_forall; intros z Hz; apply repeat_spec in Hz; subst z; exact eq_refl).
  split; [|split].
  - repeat constructor; exact B.
  - repeat constructor; vm_compute; discriminate.
  - vm_compute. discriminate.
Qed.
Print Assumptions C06_roundtrip_refuted.

Example C06_example : let n := [mkComp 8 [97; 98]; mkComp 8 []; mkComp 50 [7]]%N in
  name_bytes n = Ok [7; 9; 8; 2; 97; 98; 8; 0; 50; 1; 7]%N /\
  name_from_bytes [7; 9; 8; 2; 97; 98; 8; 0; 50; 1; 7]%N = Ok n.
Proof. split; vm_compute; reflexivity. Qed.

(** C07.  Name.Compare and Component.Compare are total orders with results -1, 0, 1. *)
Theorem C07_name_total_order :
  (forall n m, name_compare n m = (-1)%Z \/ name_compare n m = 0%Z \/ name_compare n m = 1%Z) /\
  (forall n m, name_compare n m = 0%Z <-> n = m) /\
  (forall n m, name_compare m n = (- name_compare n m)%Z) /\
  (forall n m k, (name_compare n m <= 0 -> name_compare m k <= 0 -> name_compare n k <= 0)%Z).
Proof. exact c07_total_order. Qed.
Print Assumptions C07_name_total_order.

Theorem C07_component_total_order :
  (forall a b, comp_compare a b = (-1)%Z \/ comp_compare a b = 0%Z \/ comp_compare a b = 1%Z) /\
  (forall a b, comp_compare a b = 0%Z <-> a = b) /\
  (forall a b, comp_compare b a = (- comp_compare a b)%Z) /\
  (forall a b c, (comp_compare a b <= 0 -> comp_compare b c <= 0 -> comp_compare a c <= 0)%Z).
Proof. exact c07_comp_total_order. Qed.
Print Assumptions C07_component_total_order.

(** It is the canonical order of the NDN specification ([name_lt], PropsNameProofs.v:
    by type, then length, then bytes; a prefix comes first). *)
Theorem C07_canonical : forall n m, name_compare n m = (-1)%Z <-> name_lt n m.
Proof. exact name_compare_lt. Qed.
Print Assumptions C07_canonical.

Theorem C07_equal_agrees : forall n m, name_equal n m = true <-> name_compare n m = 0%Z.
Proof. intros n m. rewrite name_equal_iff, name_compare_eq. reflexivity. Qed.
Print Assumptions C07_equal_agrees.

Theorem C07_component_equal_agrees : forall a b, comp_equal a b = true <-> comp_compare a b = 0%Z.
Proof. intros a b. rewrite comp_equal_eq, comp_compare_eq. reflexivity. Qed.
Print Assumptions C07_component_equal_agrees.

Theorem C07_prefix_smaller : forall n c s, name_compare n (n ++ c :: s) = (-1)%Z.
Proof. exact c07_prefix_smaller. Qed.
Print Assumptions C07_prefix_smaller.

Theorem C07_byte_order : forall n m, Forall comp_ok n -> Forall comp_ok m ->
  Forall (fun c => (nlen (cval c) <= 255)%N) n -> Forall (fun c => (nlen (cval c) <= 255)%N) m ->
  name_compare n m = bytes_compare (name_enc n) (name_enc m).
Proof. exact name_compare_enc. Qed.
Print Assumptions C07_byte_order.

(** ... and the bound on the component length cannot be dropped. *)
Theorem C07_byte_order_unbounded_refuted : exists n m, Forall comp_ok n /\ Forall comp_ok m /\
  name_compare n m = (-1)%Z /\ bytes_compare (name_enc n) (name_enc m) = 1%Z.
Proof. exact c07_byte_order_refuted. Qed.
Print Assumptions C07_byte_order_unbounded_refuted.

Theorem C07_pattern_total_order :
  (forall n m, np_compare n m = 0%Z <-> n = m) /\
  (forall n m, np_compare m n = (- np_compare n m)%Z) /\
  (forall n m k, np_compare n m = (-1)%Z -> np_compare m k = (-1)%Z -> np_compare n k = (-1)%Z) /\
  (forall n m, np_equal n m = true <-> n = m).
Proof. exact (conj np_compare_eq (conj np_compare_anti (conj np_compare_trans np_equal_iff))). Qed.
Print Assumptions C07_pattern_total_order.

Example C07_example : name_compare [mkComp 8 [255]]%N [mkComp 8 [1; 1]]%N = (-1)%Z
  /\ name_compare [mkComp 8 [1]]%N [mkComp 7 [1; 1]]%N = 1%Z.
Proof. split; vm_compute; reflexivity. Qed.

(** C08 *)
Theorem C08_is_prefix_iff : forall n m, is_prefix n m = true <-> exists s, m = n ++ s.
Proof. exact is_prefix_iff. Qed.
Print Assumptions C08_is_prefix_iff.

Theorem C08_partial_order :
  (forall n, is_prefix n n = true) /\
  (forall n m k, is_prefix n m = true -> is_prefix m k = true -> is_prefix n k = true) /\
  (forall n m, (is_prefix n m = true /\ is_prefix m n = true) <-> name_equal n m = true).
Proof. exact c08_partial_order. Qed.
Print Assumptions C08_partial_order.

Theorem C08_pattern_is_prefix_iff : forall n m, np_is_prefix n m = true <-> exists s, m = n ++ s.
Proof. exact np_is_prefix_iff. Qed.
Print Assumptions C08_pattern_is_prefix_iff.

Example C08_example : is_prefix [mkComp 8 [1]]%N [mkComp 8 [1]; mkComp 9 []]%N = true
  /\ is_prefix [mkComp 8 [1]]%N [mkComp 9 [1]; mkComp 9 []]%N = false.
Proof. split; reflexivity. Qed.

(** C12.  [matches p n]: every element IsMatch the component at its place. *)
Theorem C12_match_then_instantiate : forall p n m, matches p n -> tags_consistent p n ->
  exists m', np_match p n m = Ok m' /\ np_from_matching p m' = Ok n.
Proof. exact match_then_instantiate. Qed.
Print Assumptions C12_match_then_instantiate.

Theorem C12_match_content : forall p n m, matches p n -> tags_consistent p n ->
  exists m', np_match p n m = Ok m' /\
    (forall i t tag c, nth_error p i = Some (PVar t tag) -> nth_error n i = Some c -> mget m' tag = Some (cval c)) /\
    (forall tag, (forall t, ~ In (PVar t tag) p) -> mget m' tag = mget m tag).
Proof. exact np_match_get. Qed.
Print Assumptions C12_match_content.

Theorem C12_instantiate_then_match : forall p m n, np_from_matching p m = Ok n ->
  matches p n /\ tags_consistent p n.
Proof. exact instantiate_then_match. Qed.
Print Assumptions C12_instantiate_then_match.

(** The condition on repeated tags is needed. *)
Theorem C12_repeated_tag_refuted : exists p n m', matches p n /\ np_match p n [] = Ok m' /\ np_from_matching p m' <> Ok n.
Proof. exact repeated_tag_breaks. Qed.
Print Assumptions C12_repeated_tag_refuted.

Example C12_example :
  let p := [PComp (mkComp 8 [97]); PVar 8 [120]; PVar 54 [118]; PVar 8 [120]]%N in
  let n := [mkComp 8 [97]; mkComp 8 [1; 2]; mkComp 54 [9]; mkComp 8 [1; 2]]%N in
  matches p n /\ (do m <- np_match p n [([120], [5])]%N; np_from_matching p m) = Ok n.
Proof. split; [repeat constructor|vm_compute; reflexivity]. Qed.

(** C13, full statement: [name_hash_input n = name_hash_input m -> n = m].  False for
    every hash function: *)
Theorem C13_hash_input_refuted : forall (h : buf -> N), exists n1 n2, Forall comp_ok n1 /\ Forall comp_ok n2 /\
  n1 <> n2 /\ name_hash_input n1 = name_hash_input n2 /\ name_hash h n1 = name_hash h n2.
Proof. exact c13_refuted. Qed.
Print Assumptions C13_hash_input_refuted.

(** True among names with the same component lengths. *)
Theorem C13_same_shape_partial : forall n m, Forall comp_ok n -> Forall comp_ok m ->
  map (fun c => length (cval c)) n = map (fun c => length (cval c)) m ->
  name_hash_input n = name_hash_input m -> n = m.
Proof. exact hash_input_inj_shape. Qed.
Print Assumptions C13_same_shape_partial.

(** PrefixHash holds, for every k, the Hash of the first k components. *)
Theorem C13_prefix_hash : forall h n, length (name_prefix_hash h n) = S (length n) /\
  forall k, (k <= length n)%nat -> nth_error (name_prefix_hash h n) k = Some (name_hash h (firstn k n)).
Proof. intros h n. exact (conj (prefix_hash_length h n) (c13_prefix_hashes h n)). Qed.
Print Assumptions C13_prefix_hash.

Example C13_example : name_hash_input [mkComp 8 [1]]%N <> name_hash_input [mkComp 8 [2]]%N
  /\ map (fun c => length (cval c)) [mkComp 8 [1]]%N = map (fun c => length (cval c)) [mkComp 8 [2]]%N.
Proof. split; [vm_compute; discriminate|reflexivity]. Qed.
