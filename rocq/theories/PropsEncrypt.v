(** C43: encrypted content (pkg/schema/demosec/encryption.go: ContentKeyNode). *)
From Verif Require Import Base BaseProofs NameModel TextModel TrieModel TrieSpec PrimModel ReaderModel ReaderSpec CodecModel CodecSpec CodecSpec2 CodecLib SpecModel SpecSpec EngineSpec SchemaModel StoreModel StoreSpec NeedModel NeedSpec NeedProofs SegModel SegSpec SegProofs SegProofs2 RdrSpec RdrProofs EncryptModel EncryptSpec EncryptProofs.
From Verif Require Import NameProofs.

(** What is encrypted: the key's id, the IV, the length of the content, and the content, padded with zeros
    and encrypted block by block. *)
Theorem C43_encrypts : forall E D ckid keybits iv content, block_cipher E D ->
  length ckid = 8%nat -> length keybits = 32%nat -> length iv = 16%nat -> bytes_ok iv -> bytes_ok (concat content) ->
  (nlen (concat content) + 200 < packet_limit)%N ->
  exists ew p out, encrypt E ckid keybits iv content = Ok (Some ew) /\ padded (concat content) p /\ chained E keybits iv p out
    /\ concat ew = tlv 130 ckid ++ tlv 132 iv ++ tlv 134 (nat_enc (nlen (concat content))) ++ tlv 136 out.
Proof.
  intros E D ckid keybits iv content BC LC LK LI BI BB LIM. destruct (encrypt_ok E D BC ckid keybits iv content LC LK LI BI BB LIM) as (ew & n & p & A1 & A2 & A3 & A4 & A5 & A6 & _).
  exists ew, p, (cbc_enc E keybits iv n p). auto.
Qed.
Print Assumptions C43_encrypts.

(** Decrypting what Encrypt returned, or any other division of these bytes into buffers that are not empty, with
    the same key yields the content, whatever follows in memory. *)
Theorem C43_round_trip : forall E D ckid keybits iv content, block_cipher E D ->
  length ckid = 8%nat -> length keybits = 32%nat -> length iv = 16%nat -> bytes_ok iv -> bytes_ok (concat content) ->
  (nlen (concat content) + 200 < packet_limit)%N ->
  exists ew, encrypt E ckid keybits iv content = Ok (Some ew)
    /\ forall T leaf_of (x : mnode T) l need slack w F, has_keys leaf_of x l ->
       concat w = concat ew -> nonempty_segs w \/ w = ew -> (length (concat ew) < F)%nat ->
       let r := need (m_name x ++ [mkComp 8 ckid]) in r_status r = SData -> concat (content_of r) = keybits ->
       exists o, decrypt D F x need slack w = Ok (Some [concat content], o).
Proof.
  intros E D ckid keybits iv content BC LC LK LI BI BB LIM. destruct (encrypt_ok E D BC ckid keybits iv content LC LK LI BI BB LIM) as (ew & n & p & A1 & A2 & A3 & A4 & A5 & A6 & A7).
  exists ew. split; [exact A1|]. intros T leaf_of x l need slack w F HK CW NS LF r ST KB.
  destruct (A7 w F CW NS LF) as (vs & cx & w' & P & V0 & V1 & V2 & V3 & C3).
  eexists. apply (decrypt_ok E D BC leaf_of x l ckid keybits iv content w' n p need slack w F); auto. exists vs, cx, w'. auto 10.
Qed.
Print Assumptions C43_round_trip.

(** From end to end: the producer's GenKey saves a packet with the key below the node's name; a consumer whose
    Interest for the key is answered by that packet decrypts what the producer encrypted. *)
Theorem C43_end_to_end : forall E D T leaf_of (x : mnode T) l osc f extra ckid keybits iv content now, block_cipher E D ->
  has_keys leaf_of x l -> signs l osc f extra -> name_typed (m_name x) -> (l_type l < two64)%N -> time_ok (l_fresh l) ->
  (nlen (name_enc (m_name x)) + extra + 200 < packet_limit)%N ->
  length ckid = 8%nat -> bytes_ok ckid -> length keybits = 32%nat -> length iv = 16%nat -> bytes_ok iv -> bytes_ok (concat content) ->
  (nlen (concat content) + 200 < packet_limit)%N ->
  exists e wk ew, gen_key leaf_of x ckid keybits now = Ok [ASave e] /\ ev_raw e = Some wk
    /\ concat wk = packet_of (m_name x ++ [mkComp 8 ckid]) (mkDC (Some (l_type l)) (Some (l_fresh l)) None) [keybits] osc f
    /\ encrypt E ckid keybits iv content = Ok (Some ew)
    /\ forall T' leaf_of' (x' : mnode T') l' need slack w F, has_keys leaf_of' x' l' -> m_name x' = m_name x ->
       concat w = concat ew -> nonempty_segs w \/ w = ew -> (length (concat ew) < F)%nat ->
       let r := need (m_name x ++ [mkComp 8 ckid]) in r_status r = SData -> reads_as (concat wk) r ->
       exists o, decrypt D F x' need slack w = Ok (Some [concat content], o).
Proof.
  intros E D T leaf_of x l osc f extra ckid keybits iv content now BC HK SG NT TY TF LN LC BK LK LI BI BB LIM.
  destruct (C43_round_trip E D ckid keybits iv content BC LC LK LI BI BB LIM) as (ew & EN & RT).
  destruct (refine_key leaf_of x l ckid HK) as (y & R & YN & YL). change TypeGeneric with 8%N in *.
  assert (NTY : name_typed (m_name y)) by (rewrite YN; apply name_typed_app; [exact NT|]; split; constructor; auto; [split; [reflexivity|exact BK]|unfold comp_short, nlen; cbn [cval]; rewrite LC; discriminate]).
  set (c := mkDC (Some (l_type l)) (Some (l_fresh l)) None). assert (DC : data_config_ok c) by (split; [exact TY|]; split; [exact TF|exact I]).
  assert (SZ : (data_size (m_name y) c (Some [keybits]) + extra < packet_limit)%N).
  { rewrite YN. unfold data_size. rewrite name_enc_app, nlen_app. cbn [c dc_final olen concat name_enc map]. rewrite !app_nil_r. unfold comp_enc. cbn [ctyp cval]. rewrite !nlen_app. assert (K1 : nlen ckid = 8%N) by (unfold nlen; rewrite LC; reflexivity). assert (K2 : nlen keybits = 32%N) by (unfold nlen; rewrite LK; reflexivity). rewrite K1, K2. change (nlen (tl_enc 8)) with 1%N. change (nlen (nat_enc 8)) with 1%N. lia. }
  destruct (provide_makes l y [keybits] c now osc f extra SG NTY DC SZ) as (wk & e & P & CK & ET & ED & ER).
  exists e, wk, ew. unfold gen_key. change TypeGeneric with 8%N. rewrite R. cbn [bind]. unfold call_provide. rewrite YL.
  split. { change (provide l y (Some [keybits]) None now) with (provide l y (Some [keybits]) (Some c) now). rewrite P. reflexivity. }
  split; [exact ER|]. split; [rewrite CK, YN; reflexivity|]. split; [exact EN|].
  intros T' leaf_of' x' l' need slack w F HK' NM CW NS LF ST RA. rewrite <- NM in ST, RA.
  apply (RT T' leaf_of' x' l' need slack w F HK' CW NS LF ST).
  rewrite CK in RA. rewrite (reads_content T l osc f extra _ _ _ _ SG NTY DC SZ RA). cbn [concat]. apply app_nil_r.
Qed.
Print Assumptions C43_end_to_end.

(** Without a key that was set, Encrypt returns nil. *)
Theorem C43_no_key : forall E ckid keybits iv content, length ckid <> 8%nat \/ length keybits <> 32%nat -> encrypt E ckid keybits iv content = Ok None.
Proof.
  intros E ckid keybits iv content H. unfold encrypt. destruct (Nat.eqb_spec (length ckid) 8), (Nat.eqb_spec (length keybits) 32); cbn [negb orb]; try reflexivity. tauto.
Qed.
Print Assumptions C43_no_key.

(** If the packet is malformed, or the key is not obtained, or it is not a key, Decrypt returns nil, and changes nothing. *)
Theorem C43_fails : forall D T leaf_of (x : mnode T) l need slack w F, has_keys leaf_of x l ->
  match m_parse F demosec_EncryptedContent true (new_wire_reader w) with
  | Err _ => decrypt D F x need slack w = Ok (None, None)
  | Ok (vs, _) => forall id, nth 0 vs VNone = VBytes id ->
      let r := need (m_name x ++ [mkComp 8 id]) in
      r_status r <> SData \/ ~ In (length (concat (content_of r))) [16; 24; 32]%nat -> decrypt D F x need slack w = Ok (None, None)
  | _ => True
  end.
Proof.
  intros D T leaf_of x l need slack w F HK. unfold decrypt. destruct (m_parse F demosec_EncryptedContent true (new_wire_reader w)) as [[vs cx]| | |]; try reflexivity; try exact I.
  intros id V0. cbn zeta. set (r := need (m_name x ++ [mkComp 8 id])). intros H. rewrite V0. cbn [g_bin]. destruct (refine_key leaf_of x l id HK) as (y & R & _). cbn zeta. rewrite R. cbn [bind]. change TypeGeneric with 8%N. fold r.
  destruct (r_status r); try reflexivity. destruct H as [H|H]; [congruence|]. fold (content_of r). unfold aes_key, join.
  destruct (Nat.eqb_spec (length (concat (content_of r))) 16) as [Q|_]; [exfalso; apply H; rewrite Q; cbn [In]; tauto|].
  destruct (Nat.eqb_spec (length (concat (content_of r))) 24) as [Q|_]; [exfalso; apply H; rewrite Q; cbn [In]; tauto|].
  destruct (Nat.eqb_spec (length (concat (content_of r))) 32) as [Q|_]; [exfalso; apply H; rewrite Q; cbn [In]; tauto|]. reflexivity.
Qed.
Print Assumptions C43_fails.

(** But whoever can send an encrypted packet that names a key makes it panic with an IV that has not 16 bytes,
    or with a length that exceeds the memory of the ciphertext. *)
Theorem C43_malformed_refuted : forall D T leaf_of (x : mnode T) l need slack w F vs cx id iv len c, has_keys leaf_of x l ->
  m_parse F demosec_EncryptedContent true (new_wire_reader w) = Ok (vs, cx) ->
  nth 0 vs VNone = VBytes id -> nth 1 vs VNone = VBytes iv -> nth 2 vs VNone = VNat len -> nth 3 vs VNone = VWire c ->
  let r := need (m_name x ++ [mkComp 8 id]) in r_status r = SData -> In (length (concat (content_of r))) [16; 24; 32]%nat ->
  length iv <> 16%nat \/ ((length (concat c) mod 16)%nat = 0%nat /\ (forall k b, length (D k b) = 16%nat) /\ (nlen (concat c) + nlen slack < len)%N) ->
  decrypt D F x need slack w = Panic.
Proof.
  intros D T leaf_of x l need slack w F vs cx id iv len c HK P V0 V1 V2 V3 r ST KL H. unfold decrypt. rewrite P, V0, V1, V2, V3. cbn [g_bin g_num g_wire].
  destruct (refine_key leaf_of x l id HK) as (y & R & _). cbn zeta. rewrite R. cbn [bind]. change TypeGeneric with 8%N. fold r. rewrite ST. fold (content_of r).
  assert (A : aes_key (join (content_of r)) = true).
  { unfold aes_key, join. cbn [In] in KL. destruct KL as [<-|[<-|[<-|[]]]]; reflexivity. }
  rewrite A. cbn [negb]. destruct (Nat.eqb_spec (length iv) 16) as [LI|LI]; [|reflexivity]. destruct H as [H|(M & DL & H)]; [congruence|]. cbn [negb]. unfold join. rewrite M. cbn [Nat.eqb negb].
  assert (PL : nlen (cbc_dec D (concat (content_of r)) iv (length (concat c) / 16) (concat c)) = nlen (concat c)).
  { unfold nlen. f_equal. assert (DM := Nat.div_mod (length (concat c)) 16 ltac:(lia)). rewrite (cbc_dec_length D DL); lia. }
  assert (G : (len <=? nlen (concat c) + nlen slack)%N = false) by (apply N.leb_gt; exact H). assert (G0 : (len <=? nlen (concat c))%N = false) by (apply N.leb_gt; lia).
  destruct c as [|b [|b' c]]; rewrite ?nlen_app, PL, ?G, ?G0; reflexivity.
Qed.
Print Assumptions C43_malformed_refuted.

(** a cipher (not a good one): each block is combined with the first half of the key *)
Definition ex_E (k b : buf) : buf := xor_block (map (fun x => x mod 256)%N (firstn 16 k)) b.
Lemma ex_cipher : block_cipher ex_E ex_E.
Proof.
  intros k b K B BB. unfold ex_E. set (z := map (fun x => x mod 256)%N (firstn 16 k)).
  assert (ZL : length z = 16%nat) by (unfold z; rewrite map_length, firstn_length; lia).
  split; [rewrite xor_length; congruence|]. split; [|apply xor_back; congruence].
  apply xor_bytes; [|exact BB]. apply Forall_forall. intros y Y. apply in_map_iff in Y. destruct Y as (q & <- & _). apply N.mod_lt. lia.
Qed.

Definition ex_leaf : leaf nat := mkLeaf [] 0%N 10000000%Z 1000000000%Z.
Definition ex_leaf_of (d : nat) : option (leaf nat) := match d with 1%nat => Some ex_leaf | _ => None end.
Definition ex_node : mnode nat := mkM [] (SNode 0%nat [(PVar 8 [99%N], SNode 1%nat [])]) [] [mkComp 8 [97%N]].
Definition ex_id : buf := [1; 2; 3; 4; 5; 6; 7; 8]%N.
Definition ex_key : buf := repeat 200%N 31 ++ [3%N].
Definition ex_iv : buf := repeat 5%N 15 ++ [250%N].
Definition ex_content : wire := [[10; 11; 12]; [13; 14; 15; 16; 17; 18; 19; 20; 21; 22; 23; 24; 25; 26]]%N.
Definition ex_ew : wire := Eval vm_compute in match encrypt ex_E ex_id ex_key ex_iv ex_content with Ok (Some w) => w | _ => [] end.
(** the key, as it is read from the packet that GenKey saved *)
Definition ex_need (n : name) : nres :=
  match gen_key ex_leaf_of ex_node ex_id ex_key 0 with
  | Ok [ASave e] =>
      match ev_raw e, ev_target e with
      | Some w, Some t =>
          if is_prefix n (m_name t) then
            match read_data 200 (new_buffer_reader (concat w)) with
            | Ok (d, _) => mkRes SData (d_content d) (Some d) None None
            | _ => mkRes STimeout None None None None
            end
          else mkRes STimeout None None None None
      | _, _ => mkRes STimeout None None None None
      end
  | _ => mkRes STimeout None None None None
  end.

Example C43_example : has_keys ex_leaf_of ex_node ex_leaf /\ signs ex_leaf None (fun _ => None) 0 /\ name_typed (m_name ex_node) /\ length ex_key = 32%nat /\ bytes_ok ex_iv
  /\ r_status (ex_need (m_name ex_node ++ [mkComp 8 ex_id])) = SData /\ concat (content_of (ex_need (m_name ex_node ++ [mkComp 8 ex_id]))) = ex_key
  /\ encrypt ex_E ex_id ex_key ex_iv ex_content = Ok (Some ex_ew)
  /\ decrypt ex_E 200 ex_node ex_need [] ex_ew = Ok (Some [concat ex_content], Some (concat ex_content ++ repeat 0%N 15))
  /\ decrypt ex_E 200 ex_node ex_need [99%N] [concat ex_ew] = Ok (Some [concat ex_content], Some (concat ex_content ++ repeat 0%N 15)).
Proof.
  split; [do 3 eexists; split; reflexivity|]. split; [constructor; reflexivity|]. split; [split; repeat constructor; discriminate|]. split; [reflexivity|].
  split; [apply Forall_forall; intros y Y; vm_compute in Y; intuition (subst; reflexivity)|].
  split; [vm_compute; reflexivity|]. split; [vm_compute; reflexivity|]. split; [vm_compute; reflexivity|]. split; vm_compute; reflexivity.
Qed.

(** Decrypting in place: the ciphertext, in the caller's (or the storage's) buffer, becomes the padded plaintext; if it is in a packet
    of one buffer, this packet decrypts only once. *)
Theorem C43_repeat_refuted : exists p b, padded (concat ex_content) p
  /\ decrypt ex_E 200 ex_node ex_need [] [concat ex_ew] = Ok (Some [concat ex_content], Some p)
  /\ b = tlv 130 ex_id ++ tlv 132 ex_iv ++ tlv 134 (nat_enc (nlen (concat ex_content))) ++ tlv 136 p
  /\ match decrypt ex_E 200 ex_node ex_need [] [b] with Ok (Some w, _) => concat w <> concat ex_content | _ => False end.
Proof.
  exists (concat ex_content ++ repeat 0%N 15). eexists. split; [exists 15%nat; split; [lia|]; split; reflexivity|]. split; [vm_compute; reflexivity|]. split; [reflexivity|]. vm_compute. discriminate.
Qed.
Print Assumptions C43_repeat_refuted.

(** A length that exceeds the ciphertext, but not its memory, yields bytes that follow the ciphertext there. *)
Theorem C43_leak_refuted : exists w secret, decrypt ex_E 200 ex_node ex_need secret [w] <> Panic
  /\ match decrypt ex_E 200 ex_node ex_need secret [w] with Ok (Some p, _) => skipn 32 (concat p) = secret /\ secret <> [] | _ => False end.
Proof.
  exists (tlv 130 ex_id ++ tlv 132 ex_iv ++ tlv 134 (nat_enc 35) ++ tlv 136 (repeat 0%N 32)), [7; 8; 9]%N. split; [vm_compute; discriminate|]. vm_compute. split; [reflexivity|discriminate].
Qed.
Print Assumptions C43_leak_refuted.
