(** pkg/schema/demosec/encryption.go: content encrypted with a content key (ContentKeyNode).

    The AES block functions are parameters: [E k b] and [D k b] encrypt and decrypt the block [b] of 16 bytes with
    the key [k].  The results of crypto/rand are arguments.  Logging is left out. *)
From Verif Require Import Base NameModel PrimModel ReaderModel TrieModel CodecModel CodecLib SpecModel SchemaModel StoreModel NeedModel SegModel.

(** crypto/subtle XORBytes, on blocks of the same length *)
Fixpoint xor_block (a b : buf) : buf :=
  match a, b with
  | x :: a', y :: b' => N.lxor x y :: xor_block a' b'
  | _, _ => []
  end.

(** content.Join(): types.go 15-34 *)
Definition join (w : wire) : buf := concat w.

Section Cipher.
  Variables (E D : buf -> buf -> buf).

  (** crypto/cipher CBC, CryptBlocks of [n] blocks; [prev] is the IV, and later the previous ciphertext block *)
  Fixpoint cbc_enc (k prev : buf) (n : nat) (b : buf) : buf :=
    match n with
    | O => []
    | S m => let c := E k (xor_block prev (firstn 16 b)) in c ++ cbc_enc k c m (skipn 16 b)
    end.
  Fixpoint cbc_dec (k prev : buf) (n : nat) (b : buf) : buf :=
    match n with
    | O => []
    | S m => let c := firstn 16 b in xor_block prev (D k c) ++ cbc_dec k c m (skipn 16 b)
    end.

  (** aes.NewCipher fails for other keys *)
  Definition aes_key (k : buf) : bool := let n := length k in ((n =? 16) || (n =? 24) || (n =? 32))%nat.

  Section Node.
    Variable T : Type.
    Variable leaf_of : T -> option (leaf T).
    Implicit Types (x : mnode T).

    (** GenKey, 55-69: the actions of providing the key; [keybits] and [ckid] are random *)
    Definition gen_key (x : mnode T) (ckid keybits : buf) (now : Z) : res (list (action T)) :=
      do t <- refine x (m_name x ++ [mkComp TypeGeneric ckid]);
      do r <- call_provide leaf_of t (Some [keybits]) None now;
      Ok (fst r).

    (** Encrypt, 71-104: [None] is a nil result; [iv] is random.  make with a negative length panics. *)
    Definition encrypt (ckid keybits iv : buf) (content : wire) : res (option wire) :=
      if negb (length ckid =? 8)%nat || negb (length keybits =? 32)%nat then Ok None
      else if negb (aes_key keybits) then Ok None
      else
        let l := wire_length content in
        let blkn := Z.quot (to_int l + 16 - 1) 16 in
        if (blkn * 16 <? 0)%Z then Panic
        else
          let total := Z.to_nat (blkn * 16) in
          let inbuf := firstn total (join content ++ repeat 0%N total) in
          let out := cbc_enc keybits iv (Z.to_nat blkn) inbuf in
          do r <- m_encode (mkEP 0 false) demosec_EncryptedContent [VBytes ckid; VBytes iv; VNat l; VWire [out]];
          Ok (Some (fst r)).

    Definition g_bin (v : value) : buf := match v with VBytes b => b | _ => [] end.
    Definition g_num (v : value) : N := match v with VNat n => n | _ => 0%N end.
    Definition g_wire (v : value) : wire := match v with VWire w => w | _ => [] end.

    (** Decrypt, 106-143: what is returned ([None] is a nil result) and what the buffer of the ciphertext
        holds afterwards, if the ciphertext is in one buffer: then Join does not copy, and CryptBlocks overwrites it.
        [need] is the result of NeedChan for a name; [slack] is what follows the ciphertext in that buffer's
        memory, up to its capacity. *)
    Definition decrypt (F : nat) (x : mnode T) (need : name -> nres) (slack : buf) (encrypted : wire) : res (option wire * option buf) :=
      match m_parse F demosec_EncryptedContent true (new_wire_reader encrypted) with
      | Ok (vs, _) =>
          let n := m_name x ++ [mkComp TypeGeneric (g_bin (nth 0 vs VNone))] in
          do t <- refine x n;
          match t with
          | None => Panic
          | Some _ =>
              let r := need n in
              match r_status r with
              | SData =>
                  let key := join (match r_content r with Some c => c | None => [] end) in
                  if negb (aes_key key) then Ok (None, None)
                  else
                    let iv := g_bin (nth 1 vs VNone) in
                    let w := g_wire (nth 3 vs VNone) in
                    let inbuf := join w in
                    if negb (length iv =? 16)%nat then Panic
                    else if negb (length inbuf mod 16 =? 0)%nat then Ok (None, None)
                    else
                      let plain := cbc_dec key iv (length inbuf / 16) inbuf in
                      let len := g_num (nth 2 vs VNone) in
                      match w with
                      | [_] => if (len <=? nlen (plain ++ slack))%N then Ok (Some [firstn (N.to_nat len) (plain ++ slack)], Some plain) else Panic
                      | _ => if (len <=? nlen plain)%N then Ok (Some [firstn (N.to_nat len) plain], None) else Panic
                      end
              | _ => Ok (None, None)
              end
          end
      | Err _ => Ok (None, None)
      | Panic => Panic
      | Hang => Hang
      end.
  End Node.
End Cipher.
Arguments gen_key {T}. Arguments decrypt D {T}.
