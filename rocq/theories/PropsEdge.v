(** C86, C87 and additions to C09, C14, C46: cut and odd inputs, full names.
    Statements only. *)
From Coq Require Import String Ascii.
From Verif Require Import Base BaseProofs PrimModel PrimProofs ReaderModel ReaderSpec ReadInv NameModel NameProofs OrderProofs PropsNameProofs TextModel TextProofs TextProofs2
  StreamModel StreamProofs CodecModel CodecSpec CodecProofs SpecModel SpecSpec SpecData SpecMore RecvModel CodecLib CodecSpec4 CodecTotal EdgeProofs EdgePkt EdgeNum.
Open Scope list_scope.

(** ** C86: input that ends too early is refused *)

(** What ReadName accepts: exactly the sequences of complete components, type and
    length in any of the four widths. *)
Theorem C86_read_name_exactly : forall b n, bytes_ok b -> (zlen b < mem_limit)%Z ->
  ((exists r, read_name (new_buffer_reader b) = (Ok n, r)) <->
   exists xs, b = concat xs /\ Forall2 (fun c x => exists t l, x = t ++ l ++ cval c /\ tl_form t (ctyp c) /\ tl_form l (nlen (cval c))) n xs).
Proof. exact read_name_iff. Qed.
Print Assumptions C86_read_name_exactly.

(** What NameFromBytes accepts: the type 7, the length of all that follows, and
    complete components. *)
Theorem C86_name_from_bytes_exactly : forall b n, bytes_ok b -> (zlen b < mem_limit)%Z ->
  (name_from_bytes b = Ok n <-> exists t l v, b = t ++ l ++ v /\ tl_form t 7 /\ tl_form l (nlen v) /\
     exists xs, v = concat xs /\ Forall2 (fun c x => exists t l, x = t ++ l ++ cval c /\ tl_form t (ctyp c) /\ tl_form l (nlen (cval c))) n xs).
Proof. exact name_from_bytes_iff. Qed.
Print Assumptions C86_name_from_bytes_exactly.

(** So a name cut anywhere is an error ... *)
Theorem C86_cut_name : forall p q n, bytes_ok (p ++ q) -> (zlen (p ++ q) < mem_limit)%Z -> q <> [] ->
  name_from_bytes (p ++ q) = Ok n -> exists e, name_from_bytes p = Err e.
Proof. exact name_from_bytes_cut. Qed.
Print Assumptions C86_cut_name.

(** ... and ReadName notices a cut within a component. *)
Theorem C86_cut_component : forall n xs c x p q, Forall2 component_bytes n xs -> component_bytes c x -> x = p ++ q -> p <> [] -> q <> [] ->
  bytes_ok (concat xs ++ p) -> (zlen (concat xs ++ x) < mem_limit)%Z ->
  exists r, read_name (new_buffer_reader (concat xs ++ p)) = (Err EUnexpectedEOF, r).
Proof.
  intros n xs c x p q F C E P Q B L.
  assert (L1 : (zlen (concat xs ++ p) < mem_limit)%Z) by (subst x; rewrite !zlen_app in *; unfold zlen in *; lia).
  assert (L2 : (zlen x < mem_limit)%Z) by (rewrite zlen_app in L; unfold zlen in *; lia).
  exact (read_name_cut n xs c x p q _ [] F C E P Q (at_new _ L1) I B L2).
Qed.
Print Assumptions C86_cut_component.

Example C86_name_example :
  name_from_bytes [7; 5; 8; 1; 97; 8; 0]%N = Ok [mkComp 8 [97]; mkComp 8 []]%N
  /\ name_from_bytes [7; 5; 8; 1; 97; 8]%N = Err EUnexpectedEOF /\ name_from_bytes [7; 5; 8; 1; 97]%N = Err EFormat /\ name_from_bytes [7]%N = Err EEOF
  /\ component_bytes (mkComp 8 [97])%N [253; 0; 8; 1; 97]%N /\ name_from_bytes [7; 5; 253; 0; 8; 1; 97]%N = Ok [mkComp 8 [97]]%N.
Proof.
  split; [vm_compute; reflexivity|]. split; [vm_compute; reflexivity|]. split; [vm_compute; reflexivity|]. split; [vm_compute; reflexivity|].
  split; [|vm_compute; reflexivity]. exists [253; 0; 8]%N, [1]%N. split; [reflexivity|]. split; [right; left; exists [0; 8]%N; repeat split|left; split; [reflexivity|discriminate]].
Qed.

(** A packet element (Interest 5 or Data 6) that begins with its name and is cut
    anywhere gives no packet, and the engine drops it. *)
Theorem C86_cut_packet : forall sha F t name_and_rest p q, t = 5%N \/ t = 6%N ->
  bytes_ok (p ++ q) -> (nlen (p ++ q) < packet_limit)%N -> p ++ q = tlv t (7%N :: name_and_rest) -> q <> [] -> (3 <= F)%nat ->
  (exists e, read_data F (new_buffer_reader p) = Err e) /\ (exists e, read_interest sha F (new_buffer_reader p) = Err e)
  /\ (exists e, read_packet sha F (new_buffer_reader p) = Err e) /\ on_packet sha F (new_buffer_reader p) = Ok EvDrop.
Proof.
  intros sha F t rest p q T B L E Q LF. rewrite E in B, L. unfold tlv in B, L. apply bytes_ok_app in B. destruct B as [_ B]. apply bytes_ok_app in B. destruct B as [_ B]. inversion B; subst.
  apply (packet_cut_refused sha F t rest p q); auto. rewrite !nlen_app in L. lia.
Qed.
Print Assumptions C86_cut_packet.

(** In particular the packets that MakeData and MakeInterest produce. *)
Theorem C86_cut_data : forall n c content s sc sig sha F, Forall comp_short n -> data_config_ok c -> data_sig_ok sc ->
  sg_info s = Ok (Some sc) -> (forall cov, concat cov = data_part n c content (Some sc) -> sg_sign s cov = Ok sig) ->
  fits (sg_est s) (nlen sig) -> (data_size n c content + sig_size sc + sg_est s < packet_limit)%N -> (3 <= F)%nat ->
  exists w cov, make_data (Some n) (Some c) content (Some s) = Ok (w, cov) /\
    forall p q, concat w = p ++ q -> q <> [] -> bytes_ok (concat w) -> (nlen (concat w) < packet_limit)%N ->
      (exists e, read_data F (new_buffer_reader p) = Err e) /\ on_packet sha F (new_buffer_reader p) = Ok EvDrop.
Proof.
  intros n c content s sc sig sha F N C S I SG FT SZ LF. destruct (data_format n c content s sc sig N C S I SG FT SZ) as (w & cov & M & W & _).
  exists w, cov. split; [exact M|]. intros p q E Q B L. rewrite E in B, L. rewrite W in E.
  destruct (C86_cut_packet sha F 6 _ p q (or_intror eq_refl) B L (eq_sym E) Q LF) as (H1 & _ & _ & H2). auto.
Qed.
Print Assumptions C86_cut_data.

Theorem C86_cut_interest : forall sha n c a s sc sig F, (forall b, length (sha b) = 32%nat /\ bytes_ok (sha b)) ->
  Forall comp_short n -> interest_config_ok c -> interest_sig_ok sc ->
  sg_info s = Ok (Some sc) -> (forall cov, concat cov = name_enc (base_name n) ++ signed_params (Some a) (Some sc) -> sg_sign s cov = Ok sig) ->
  (0 < nlen sig <= sg_est s)%N -> (sg_est s < 253)%N -> (interest_size n c (Some a) + sig_size sc < packet_limit)%N -> (3 <= F)%nat ->
  exists w cov fn, make_interest sha (Some n) (Some c) (Some a) (Some s) = Ok (w, cov, fn) /\
    forall p q, concat w = p ++ q -> q <> [] -> bytes_ok (concat w) -> (nlen (concat w) < packet_limit)%N ->
      (exists e, read_interest sha F (new_buffer_reader p) = Err e) /\ on_packet sha F (new_buffer_reader p) = Ok EvDrop.
Proof.
  intros sha n c a s sc sig F SHA N C S I SG L1 L2 SZ LF. destruct (interest_format sha n c a s sc sig SHA N C S I SG L1 L2 SZ) as (w & cov & fn & M & W & _).
  exists w, cov, fn. split; [exact M|]. intros p q E Q B L. rewrite E in B, L. rewrite W in E.
  destruct (C86_cut_packet sha F 5 _ p q (or_introl eq_refl) B L (eq_sym E) Q LF) as (_ & H1 & _ & H2). auto.
Qed.
Print Assumptions C86_cut_interest.

(** In every model, ordered or not, a number, time, byte string, string or wire field that
    announces more bytes than are left is refused, over both readers; over a
    BufferReader without nine-byte numbers of 2^40 or more it is refused with an error. *)
Theorem C86_cut_field : forall m before t k after ic F r l s,
  m_fields m = before ++ (t, k) :: after -> ~ In t (map fst before) -> counted k ->
  (0 < t < two64)%N -> (Z.of_N l < mem_limit)%Z -> (zlen s < Z.of_N l)%Z -> At r [] (tl_enc t ++ tl_enc l ++ s) ->
  (forall x, m_parse F m ic r <> Ok x)
  /\ (r = new_buffer_reader (tl_enc t ++ tl_enc l ++ s) -> bytes_ok s -> no_huge_number (tl_enc t ++ tl_enc l ++ s) ->
      (length (tl_enc t ++ tl_enc l ++ s) < F)%nat -> exists e, m_parse F m ic r = Err e).
Proof.
  intros m fs1 t k fs2 ic F r l s MF NI C T LL LS A. pose proof (field_short m fs1 t k fs2 ic F r l s MF NI C T LL LS A) as H.
  split; [exact H|]. intros -> B NH LF. destruct (parse_safe m ic (tl_enc t ++ tl_enc l ++ s) F) as [[x E]|E]; auto.
  - apply bytes_ok_app. split; [apply tl_enc_ok; unfold u64_ok; lia|]. apply bytes_ok_app. split; [apply tl_enc_ok|exact B].
  - destruct A as [A _]. exact A.
  - exfalso. exact (H x E).
Qed.
Print Assumptions C86_cut_field.

(** a freshness period of which two of four bytes are there; a content of which one is *)
Example C86_cut_field_example :
  m_parse 20 spec_MetaInfo false (new_buffer_reader [25; 4; 0; 1]%N) = Err (EFailToParse 25 EUnexpectedEOF)
  /\ m_parse 20 spec_MetaInfo false (new_buffer_reader [25; 2; 0; 1]%N) = Ok ([VNone; VTime 1000000; VNone], [XNone; XNone; XNone])
  /\ At (new_buffer_reader [25; 4; 0; 1]%N) [] (tl_enc 25 ++ tl_enc 4 ++ [0; 1]%N).
Proof. split; [vm_compute; reflexivity|]. split; [vm_compute; reflexivity|]. vm_compute. auto. Qed.

(** Not every cut element is refused, though: when its value begins with another
    packet, the announced length is forgotten and that packet is taken (the Delegate
    of a length that is too long yields an empty reader and does not move). *)
Theorem C86_cut_element_refuted : exists p q value, q <> [] /\ p ++ q = tlv 6 value /\
  (exists d cov, read_data 50 (new_buffer_reader p) = Ok (d, cov) /\ d_name d = Some [mkComp 8 [97]]%N)
  /\ forall sha, exists d cov raw, on_packet sha 50 (new_buffer_reader p) = Ok (EvData d cov raw None).
Proof.
  exists [6; 100; 6; 7; 7; 3; 8; 1; 97; 20; 0]%N, (repeat 0%N 91), ([6; 7; 7; 3; 8; 1; 97; 20; 0] ++ repeat 0 91)%N.
  split; [discriminate|]. split; [vm_compute; reflexivity|]. split.
  - match goal with |- exists d cov, ?x = _ /\ _ => let y := eval vm_compute in x in match y with Ok (?d, ?c) => exists d, c end end. split; vm_compute; reflexivity.
  - intros sha. match goal with |- exists d cov raw, ?x = _ => let y := eval vm_compute in x in match y with Ok (EvData ?d ?c ?r None) => exists d, c, r end end. vm_compute. reflexivity.
Qed.
Print Assumptions C86_cut_element_refuted.

Example C86_packet_example : forall sha,
  (exists d cov, read_data 50 (new_buffer_reader [6; 7; 7; 3; 8; 1; 97; 20; 0]%N) = Ok (d, cov))
  /\ Forall (fun k => on_packet sha 50 (new_buffer_reader (firstn k [6; 7; 7; 3; 8; 1; 97; 20; 0]%N)) = Ok EvDrop) (seq 0 9).
Proof.
  intros sha. split.
  - match goal with |- exists d cov, ?x = _ => let y := eval vm_compute in x in match y with Ok (?d, ?c) => exists d, c end end. vm_compute. reflexivity.
  - repeat (constructor; [vm_compute; reflexivity|]). constructor.
Qed.

(** A stream that ends within a packet: the complete packets are handed over, the
    rest is reported as an error. *)
Theorem C86_cut_stream : forall tolerates (pkts : list (N * buf)) t v p q cs n,
  (forall u x, In (u, x) (pkts ++ [(t, v)]) -> (u < 2 ^ 64)%N /\ (N.of_nat (length x) + 18 <= 2 ^ 48)%N) ->
  tolerates EEOF = false -> tolerates EUnexpectedEOF = false ->
  p ++ q = tl_enc t ++ tl_enc (nlen v) ++ v -> q <> [] ->
  concat cs = concat (map (fun e => tl_enc (fst e) ++ tl_enc (nlen (snd e)) ++ snd e) pkts) ++ p -> (length pkts < n)%nat ->
  exists e, s_run tolerates (fun _ => true) n cs = (map (fun e => tl_enc (fst e) ++ tl_enc (nlen (snd e)) ++ snd e) pkts, SError e) /\ (e = EEOF \/ e = EUnexpectedEOF).
Proof.
  intros tol pkts t v p q cs n OK T1 T2 E Q C L.
  assert (OK' : forall e, In e (pkts ++ [(t, v)]) -> u64_ok (fst e) /\ (zlen (snd e) + 18 <= max_alloc)%Z).
  { intros [u x] I. destruct (OK u x I) as [A B]. cbn [fst snd]. split; [exact A|]. change (2 ^ 48)%N with 281474976710656%N in B. unfold zlen, max_alloc. lia. }
  destruct (s_run_all tol pkts cs p (S (n - length pkts - 1))) as (cs' & C' & R); [intros e I; apply OK', in_or_app; auto|exact C|].
  replace (length pkts + S (n - length pkts - 1))%nat with n in R by lia.
  destruct (OK' (t, v)) as [U Z]; [apply in_or_app; right; left; reflexivity|]. cbn [fst snd] in U, Z.
  destruct (s_run_cut tol (fun _ => true) (n - length pkts - 1) cs' t v p q U Z (eq_sym E) Q C' T1 T2) as (e & R2 & HE).
  exists e. rewrite R, R2, app_nil_r. split; [reflexivity|exact HE].
Qed.
Print Assumptions C86_cut_stream.

Example C86_stream_example : s_run (fun _ => false) (fun _ => true) 9 [[5; 2; 1]; [2; 6; 253; 1]]%N = ([[5; 2; 1; 2]]%N, SError EUnexpectedEOF).
Proof. vm_compute. reflexivity. Qed.

(** ** C87: full names *)

(** A name without an implicit digest is extended by the digest of the whole packet;
    a full name is left alone. *)
Theorem C87_full_name : forall sha n c raw,
  to_full_name sha (n ++ [c]) raw = Ok (if (ctyp c =? 1)%N then n ++ [c] else n ++ [c; mkComp 1 (sha (concat raw))]).
Proof.
  intros sha n c raw. destruct (N.eqb_spec (ctyp c) 1) as [E|E]; [apply full_name_full; exact E|]. rewrite full_name_plain by exact E. rewrite <- app_assoc. reflexivity.
Qed.
Print Assumptions C87_full_name.

(** The outcome is a full name whose prefix is the given name, does not depend on how
    the packet is split into buffers, and is not changed by a second call. *)
Theorem C87_full_name_stable : forall sha n raw raw' full, n <> [] -> to_full_name sha n raw = Ok full ->
  is_prefix n full = true /\ to_full_name sha full raw' = Ok full /\ (concat raw' = concat raw -> to_full_name sha n raw' = Ok full).
Proof.
  intros sha n raw raw' full NE E. destruct (exists_last NE) as (m & c & ->). rewrite C87_full_name in E. injection E as <-. rewrite C87_full_name.
  destruct (N.eqb_spec (ctyp c) 1) as [T|T].
  - split; [apply is_prefix_iff; exists []; symmetry; apply app_nil_r|]. split; [rewrite C87_full_name; rewrite T; reflexivity|auto].
  - split; [apply is_prefix_iff; exists [mkComp 1 (sha (concat raw))]; rewrite <- app_assoc; reflexivity|]. split.
    + replace (m ++ [c; mkComp 1 (sha (concat raw))]) with ((m ++ [c]) ++ [mkComp 1 (sha (concat raw))]) by (rewrite <- app_assoc; reflexivity). rewrite C87_full_name. reflexivity.
    + intros ->. reflexivity.
Qed.
Print Assumptions C87_full_name_stable.

(** Two names without digest get the same full name exactly if they are the same and
    so are the digests. *)
Theorem C87_full_name_injective : forall sha n m c d raw raw' full, ctyp c <> 1%N -> ctyp d <> 1%N ->
  to_full_name sha (n ++ [c]) raw = Ok full -> (to_full_name sha (m ++ [d]) raw' = Ok full <-> n ++ [c] = m ++ [d] /\ sha (concat raw) = sha (concat raw')).
Proof.
  intros sha n m c d raw raw' full C D E. rewrite full_name_plain in E by exact C. injection E as <-. rewrite full_name_plain by exact D. split.
  - intros H. injection H as H. apply app_inj_tail in H. destruct H as [H1 H2]. injection H2 as H2. auto.
  - intros [-> ->]. reflexivity.
Qed.
Print Assumptions C87_full_name_injective.

(** The empty name crashes. *)
Theorem C87_empty_name_refuted : forall sha raw, to_full_name sha [] raw = Panic.
Proof. reflexivity. Qed.
Print Assumptions C87_empty_name_refuted.

Example C87_example : to_full_name (fun b => b) [mkComp 8 [97]]%N [[1]; [2; 3]]%N = Ok [mkComp 8 [97]; mkComp 1 [1; 2; 3]]%N.
Proof. reflexivity. Qed.

(** ** C09 at the edges *)

(** seg=, off=, v=, t= and seq= with a decimal number are the components that
    NewSegmentComponent etc. make, and NumberVal is the number. *)
Theorem C09_number_components : forall t nm x,
  In (t, nm) [(50, [115; 101; 103]); (52, [111; 102; 102]); (54, [118]); (56, [116]); (58, [115; 101; 113])]%N -> (x < 2 ^ 64)%N ->
  comp_from_str (nm ++ [chEq] ++ fmt_dec x) = Ok (number_comp t x) /\ comp_str (number_comp t x) = nm ++ [chEq] ++ fmt_dec x /\ number_val (number_comp t x) = x.
Proof. exact seg_text. Qed.
Print Assumptions C09_number_components.

Example C09_number_example : number_comp 50 7 = mkComp 50 [7]%N /\ number_comp 50 256 = mkComp 50 [1; 0]%N /\ number_comp 50 65536 = mkComp 50 [0; 1; 0; 0]%N.
Proof. repeat split; vm_compute; reflexivity. Qed.

(** sha256digest= and params-sha256= take whole bytes only. *)
Theorem C09_hex_even : forall t nm h c,
  In (t, nm) [(1, [115; 104; 97; 50; 53; 54; 100; 105; 103; 101; 115; 116]); (2, [112; 97; 114; 97; 109; 115; 45; 115; 104; 97; 50; 53; 54])]%N ->
  comp_from_str (nm ++ [chEq] ++ h) = Ok c -> ctyp c = t /\ length h = (2 * length (cval c))%nat.
Proof. exact hex_component_even. Qed.
Print Assumptions C09_hex_even.

(** String() always begins with a slash. *)
Theorem C09_slash : (forall n, exists s, name_str n = chSlash :: s) /\ name_str [] = [chSlash].
Proof. split; [exact name_str_slash|reflexivity]. Qed.
Print Assumptions C09_slash.

(** ** C46: CanonicalString of pattern elements is read back *)
Theorem C46_canonical_roundtrip : forall p,
  match p with
  | PComp c => comp_ok c /\ (1 <= ctyp c <= 65535)%N
  | PVar t tag => (t < 2 ^ 64)%N /\ ~ In chEq tag
  end -> pat_from_str (pat_canonical p) = Ok p.
Proof. intros [c|t tag] [H1 H2]; [apply pat_canonical_comp; auto|apply pat_canonical_var; auto]. Qed.
Print Assumptions C46_canonical_roundtrip.

Example C46_canonical_example : pat_canonical (PVar 50 [120])%N = map N_of_ascii (list_ascii_of_string "<50=x>") /\ pat_canonical (PVar 8 [120])%N = map N_of_ascii (list_ascii_of_string "<x>").
Proof. split; vm_compute; reflexivity. Qed.

(** ** C14 at the edges *)

(** Range outside the bytes of the reader, or with the end before the start, is nil
    on both readers. *)
Theorem C14_range_bounds : forall r before after a b, At r before after -> (a < 0 \/ zlen (before ++ after) < b \/ b < a)%Z ->
  r_range a b r = Ok None.
Proof. exact range_bounds. Qed.
Print Assumptions C14_range_bounds.

(** UnreadByte before anything was read is an error and changes nothing. *)
Theorem C14_unread_start : forall (b : buf) (w : wire),
  r_unread_byte (new_buffer_reader b) = (Err EOther, new_buffer_reader b) /\ r_unread_byte (new_wire_reader w) = (Err EOther, new_wire_reader w).
Proof. intros b w. split; reflexivity. Qed.
Print Assumptions C14_unread_start.

Example C14_bounds_example : At (RBuf [1; 2; 3]%N 1) [1]%N [2; 3]%N /\ r_range 2 1 (RBuf [1; 2; 3]%N 1) = Ok None /\ r_range 0 4 (new_wire_reader [[1]; [2; 3]]%N) = Ok None.
Proof. split; [split; [reflexivity|split; reflexivity]|]. split; vm_compute; reflexivity. Qed.

(** ** C19, C21: what MakeData and MakeInterest refuse without asking the signer to sign *)

(** MakeData refuses a nonce, a time or a sequence number for the signature, and a validity period with one end
    only. *)
Theorem C19_refuses : forall n c content s sc, sg_info s = Ok (Some sc) -> sc_type sc <> SigNone ->
  sc_nonce sc <> None \/ sc_time sc <> None \/ sc_seq sc <> None \/ (sc_not_before sc <> None /\ sc_not_after sc = None) \/ (sc_not_before sc = None /\ sc_not_after sc <> None) ->
  make_data (Some n) (Some c) content (Some s) = Err EOther.
Proof.
  intros n c content s sc I NN H. unfold make_data. rewrite final_ok. cbn [bind]. unfold sig_part. rewrite I. cbn [bind]. apply Z.eqb_neq in NN. rewrite NN.
  assert (Q : data_sig_info sc = Err EOther).
  { unfold data_sig_info. destruct (sc_nonce sc), (sc_seq sc), (sc_time sc); auto. destruct (sc_not_before sc), (sc_not_after sc); auto;
      exfalso; destruct H as [H|[H|[H|[[H1 H2]|[H1 H2]]]]]; congruence. }
  rewrite Q. reflexivity.
Qed.
Print Assumptions C19_refuses.

(** Nothing is made without a name or a config, and an error of the signer's SigInfo is passed on. *)
Theorem C19_arguments : forall on oc content sg, on = None \/ oc = None -> make_data on oc content sg = Err EOther.
Proof. intros on oc content sg [->| ->]; [|destruct on]; reflexivity. Qed.
Print Assumptions C19_arguments.
Theorem C19_signer : forall n c content s e, sg_info s = Err e -> make_data (Some n) (Some c) content (Some s) = Err e.
Proof. intros n c content s e I. unfold make_data. rewrite final_ok. cbn [bind]. unfold sig_part. rewrite I. reflexivity. Qed.
Print Assumptions C19_signer.
Theorem C21_arguments : forall sha on oc app sg, on = None \/ oc = None -> make_interest sha on oc app sg = Err EOther.
Proof. intros sha on oc app sg [->| ->]; [|destruct on]; reflexivity. Qed.
Print Assumptions C21_arguments.
Theorem C21_signer : forall sha n c app s e, sg_info s = Err e -> make_interest sha (Some n) (Some c) app (Some s) = Err e.
Proof. intros sha n c app s e I. unfold make_interest, sig_part. rewrite I. reflexivity. Qed.
Print Assumptions C21_signer.

(** A signer of type "none" makes the same packet as no signer. *)
Theorem C19_no_signature : forall n c content s oc, sg_info s = Ok oc -> oc = None \/ (exists sc, oc = Some sc /\ sc_type sc = SigNone) ->
  make_data (Some n) (Some c) content (Some s) = make_data (Some n) (Some c) content None.
Proof.
  intros n c content s oc I H. unfold make_data. rewrite final_ok. cbn [bind]. unfold sig_part. rewrite I. cbn [bind].
  replace (match oc with Some c0 => if (sc_type c0 =? SigNone)%Z then Ok (VNone, 0%Z) else _ | None => Ok (VNone, 0%Z) end) with (Ok (VNone, 0%Z)) by (destruct H as [->|(sc & -> & ->)]; reflexivity).
  cbn [bind]. destruct (m_encode _ _ _) as [[w ys]| | |]; reflexivity.
Qed.
Print Assumptions C19_no_signature.
Theorem C21_no_signature : forall sha n c app s oc, sg_info s = Ok oc -> oc = None \/ (exists sc, oc = Some sc /\ sc_type sc = SigNone) ->
  make_interest sha (Some n) (Some c) app (Some s) = make_interest sha (Some n) (Some c) app None.
Proof.
  intros sha n c app s oc I H. unfold make_interest, sig_part. rewrite I. cbn [bind].
  replace (match oc with Some c0 => if (sc_type c0 =? SigNone)%Z then Ok (VNone, 0%Z) else _ | None => Ok (VNone, 0%Z) end) with (Ok (VNone, 0%Z)) by (destruct H as [->|(sc & -> & ->)]; reflexivity).
  reflexivity.
Qed.
Print Assumptions C21_no_signature.

Example C19_refuses_example : make_data (Some [mkComp 8 [97%N]]) (Some (mkDC None None None)) None
  (Some (mkSigner (Ok (Some (mkSC 1 (Some [mkComp 8 [98%N]]) (Some [1%N]) None None None None))) 32 (fun _ => Ok []))) = Err EOther
  /\ make_data (Some [mkComp 8 [97%N]]) (Some (mkDC None None None)) None (Some (mkSigner (Ok (Some (mkSC (-1) None None None None None None))) 32 (fun _ => Ok [])))
     = make_data (Some [mkComp 8 [97%N]]) (Some (mkDC None None None)) None None.
Proof. split; vm_compute; reflexivity. Qed.
