(** TLV codecs generated by pkg/encoding/codegen.

    A structure with TLV annotations is a value of [model]; the functions below are
    what the templates of codegen generate for it, as functions of the model.  The
    generated files (zz_generated.go) are instances.  ToDict/FromDict are not modelled. *)
From Verif Require Import Base PrimModel ReaderModel NameModel.

(** ** Models: codegen.go, fields.go 112-138 (CreateField).
    The field names used by annotations are positions in the list of fields. *)
Inductive kind : Type :=
| KNat (opt : bool)                    (* fields_natural.go *)
| KFixed (w : nat) (opt : bool)        (* fields_fixeduint.go; w bytes *)
| KTime (opt : bool)                   (* fields_time.go *)
| KBin                                 (* fields_binary.go *)
| KStr (opt : bool)                    (* fields_string.go *)
| KWire                                (* fields_wire.go *)
| KName                                (* fields_name.go *)
| KBool                                (* fields_bool.go *)
| KStruct (sub : model) (nocopy : bool)   (* fields_struct.go *)
| KSeq (sub : kind)                    (* fields_sequence.go *)
| KMap (key : kind) (vtyp : N) (val : kind)  (* map_field.go *)
| KArg                                 (* procedureArgument, markers.go *)
| KOffset                              (* offsetMarker, markers.go *)
| KRange (start covered : nat)         (* rangeMarker, markers.go *)
| KSig (start covered : nat)           (* signature, signature.go *)
| KIName (covered : nat)               (* interestName, signature.go *)
with model : Type :=
| Model (nocopy ordered : bool) (fields : list (N * kind)).

Definition m_fields (m : model) : list (N * kind) := match m with Model _ _ fs => fs end.
Definition m_nocopy (m : model) : bool := match m with Model nc _ _ => nc end.
Definition m_ordered (m : model) : bool := match m with Model _ o _ => o end.

(** Values.  A nil pointer or slice is [VNone].  A nil sequence or map is an empty one.
    A map is the list of its entries in the order in which encoding visits them. *)
Inductive value : Type :=
| VNone
| VNat (n : N)
| VTime (ns : Z)
| VBytes (b : buf)
| VWire (w : wire)
| VName (n : name)
| VBool (b : bool)
| VStruct (vs : list value)
| VSeq (l : list value)
| VMap (l : list (value * value)).

(** ** Encoding *)

(** Fields of the encoder set by the caller before Init: SignatureValue_estLen and
    NameV_needDigest.  One setting serves all structures nested in a packet.
    [ep_fill] is the value of the digest component: the encoder puts 32 zeros there ([mkEP]);
    other values describe packets in which the digest has been written, or packets made by others. *)
Record eparams : Type := mkEPF { ep_est : N; ep_digest : bool; ep_fill : buf }.
Definition mkEP (est : N) (digest : bool) : eparams := mkEPF est digest (repeat 0%N 32).
(** at most 252 bytes; the identity on what is written in components here *)
Definition clip (b : buf) : buf := map (fun x => (x mod 256)%N) (firstn 252 b).

(** uint64(d / time.Millisecond) *)
Definition ms_of (ns : Z) : N := to_u64 (Z.quot ns 1000000).

(** signature.go 151-174: the Name after InterestName's GenInitEncoder *)
Definition final_name (p : eparams) (n : name) : name :=
  let n1 := match rev n with
            | c :: r => if (ctyp c =? TypeParametersSha256Digest)%N then rev r else n
            | [] => n
            end in
  if ep_digest p then n1 ++ [mkComp TypeParametersSha256Digest (clip (ep_fill p))] else n1.

(** l += typ, length, value (utils.go 9-22, 46-73) *)
Definition elem_len (t n : N) : N := (tl_len t + tl_len n + n)%N.

Definition sumN (l : list N) : N := fold_right N.add 0%N l.

(** GenEncodingLength of every field kind *)
Fixpoint k_len (p : eparams) (t : N) (k : kind) (v : value) : N :=
  match k, v with
  | KNat _, VNat n => (tl_len t + 1 + nat_len n)%N
  | KFixed w _, VNat n => (tl_len t + 1 + N.of_nat w)%N
  | KTime _, VTime ns => (tl_len t + 1 + nat_len (ms_of ns))%N
  | KBin, VBytes b => elem_len t (nlen b)
  | KStr _, VBytes b => elem_len t (nlen b)
  | KWire, VWire w => elem_len t (nlen (concat w))
  | KName, VName n => elem_len t (name_len n)
  | KIName _, VName n => elem_len t (name_len (final_name p n))
  | KBool, VBool true => (tl_len t + 1)%N
  | KStruct (Model _ _ fs) _, VStruct vs =>
      elem_len t ((fix go (fs : list (N * kind)) (vs : list value) : N :=
        match fs, vs with
        | f :: fs', v :: vs' => (k_len p (fst f) (snd f) v + go fs' vs')%N
        | _, _ => 0%N
        end) fs vs)
  | KSeq sub, VSeq l => sumN (map (k_len p t sub) l)
  | KMap key vt val, VMap l =>
      sumN (map (fun e => (k_len p t key (fst e) + k_len p vt val (snd e))%N) l)
  | KSig _ _, _ => if (0 <? ep_est p)%N then elem_len t (ep_est p) else 0%N
  | _, _ => 0%N
  end.

(** encoder.length: model.go 70-74.  Lengths are unbounded numbers here; a structure
    of 2^64 bytes does not fit in memory. *)
Fixpoint fs_len (p : eparams) (fs : list (N * kind)) (vs : list value) : N :=
  match fs, vs with
  | f :: fs', v :: vs' => (k_len p (fst f) (snd f) v + fs_len p fs' vs')%N
  | _, _ => 0%N
  end.

(** GenSwitchWirePlan, utils.go 145-148.  The state is (wirePlan, l). *)
Notation wplan := (list N * N)%type.
Definition plan_switch (s : wplan) : wplan := (fst s ++ [snd s], 0%N).
Definition plan_add (n : N) (s : wplan) : wplan := (fst s, (snd s + n)%N).
(** "if l > 0 { wirePlan = append(wirePlan, l) }", model.go 82-84 *)
Definition plan_close (s : wplan) : list N := if (0 <? snd s)%N then fst s ++ [snd s] else fst s.

(** the part of struct's wire plan that merges the inner plan, fields_struct.go 79-93 *)
Definition plan_merge (inner : list N) (s : wplan) : wplan :=
  match inner with
  | [] => s
  | a :: r =>
      let s1 := fold_left (fun s n => (fst s ++ [snd s], n)) r (plan_add a s) in
      if (snd s1 =? 0)%N then plan_switch s1 else s1
  end.

Fixpoint iter_plan (n : nat) (s : wplan) : wplan := match n with O => s | S k => iter_plan k (plan_switch s) end.

(** GenEncodingWirePlan of every field kind; [nc] says whether the enclosing model is nocopy *)
Fixpoint k_plan (p : eparams) (nc : bool) (t : N) (k : kind) (v : value) (s : wplan) : wplan :=
  match k, v with
  | KWire, VWire w =>
      if nc then iter_plan (length w) (plan_switch (plan_add (tl_len t + tl_len (nlen (concat w)))%N s))
      else plan_add (k_len p t k v) s
  | KStruct (Model nc' _ fs) inner_nocopy, VStruct vs =>
      if inner_nocopy then
        let n := fs_len p fs vs in
        let s1 := plan_add (tl_len t + tl_len n)%N s in
        if (0 <? n)%N then
          plan_merge (plan_close ((fix go (fs : list (N * kind)) (vs : list value) (s : wplan) : wplan :=
            match fs, vs with
            | f :: fs', v :: vs' => go fs' vs' (k_plan p nc' (fst f) (snd f) v s)
            | _, _ => s
            end) fs vs ([], 0%N))) s1
        else s1
      else plan_add (k_len p t k v) s
  | KSeq sub, VSeq l => fold_left (fun s v => k_plan p nc t sub v s) l s
  | KMap key vt val, VMap l =>
      fold_left (fun s e => k_plan p nc vt val (snd e) (k_plan p nc t key (fst e) s)) l s
  | KSig _ _, _ =>
      if (0 <? ep_est p)%N then plan_switch (plan_switch (plan_add (tl_len t + tl_len (ep_est p))%N s)) else s
  | _, _ => plan_add (k_len p t k v) s
  end.

Fixpoint fs_plan (p : eparams) (nc : bool) (fs : list (N * kind)) (vs : list value) (s : wplan) : wplan :=
  match fs, vs with
  | f :: fs', v :: vs' => fs_plan p nc fs' vs' (k_plan p nc (fst f) (snd f) v s)
  | _, _ => s
  end.

(** encoder.wirePlan: model.go 77-85 *)
Definition m_plan (p : eparams) (m : model) (vs : list value) : list N :=
  plan_close (fs_plan p (m_nocopy m) (m_fields m) vs ([], 0%N)).

(** State of EncodeInto: wire, wireIdx, pos; buf is wire[wireIdx], or nil at the end.
    For a model that copies, the wire is the single buffer. *)
Record wst : Type := mkW { w_wire : wire; w_idx : nat; w_pos : Z }.
Definition w_buf (s : wst) : buf := nth (w_idx s) (w_wire s) [].

Definition upd {A} (l : list A) (i : nat) (x : A) : list A :=
  if (i <? length l)%nat then firstn i l ++ x :: skipn (S i) l else l.

(** buf[pos] = ..., PutUint..(buf[pos+1:], ...), pos += ... *)
Definition w_put (x : buf) (s : wst) : res wst :=
  do b <- write_at (w_buf s) (w_pos s) x;
  Ok (mkW (upd (w_wire s) (w_idx s) b) (w_idx s) (w_pos s + zlen x)%Z).

(** copy(buf[pos:], x); pos += len(x) *)
Definition w_copy (x : buf) (s : wst) : res wst :=
  do tail <- slice (w_buf s) (w_pos s) (zlen (w_buf s));
  Ok (mkW (upd (w_wire s) (w_idx s) (firstn (Z.to_nat (w_pos s)) (w_buf s) ++ copy_into tail x))
          (w_idx s) (w_pos s + zlen x)%Z).

(** GenSwitchWire, utils.go 150-158 *)
Definition w_switch (s : wst) : wst := mkW (w_wire s) (S (w_idx s)) 0.

(** wire[wireIdx] = b *)
Definition w_set (b : buf) (s : wst) : res wst :=
  if (w_idx s <? length (w_wire s))%nat then Ok (mkW (upd (w_wire s) (w_idx s) b) (w_idx s) (w_pos s)) else Panic.

(** pos += c.EncodeInto(buf[pos:]) *)
Definition w_comp (c : comp) (s : wst) : res wst :=
  do tail <- slice (w_buf s) (w_pos s) (zlen (w_buf s));
  do r <- comp_encode_into c tail;
  Ok (mkW (upd (w_wire s) (w_idx s) (firstn (Z.to_nat (w_pos s)) (w_buf s) ++ fst r))
          (w_idx s) (w_pos s + snd r)%Z).

Fixpoint foldM {A S} (f : A -> S -> res S) (l : list A) (s : S) : res S :=
  match l with
  | [] => Ok s
  | x :: l' => do s' <- f x s; foldM f l' s'
  end.

(** type and length, utils.go 24-44, 75-111 *)
Definition w_tl (t n : N) (s : wst) : res wst := do s1 <- w_put (tl_enc t) s; w_put (tl_enc n) s1.

(** Fields of the encoder computed by Init and EncodeInto: marked positions, covered
    buffers, place of the signature and of the digest, encoders of nested structures
    (those of sequence elements are dropped). *)
Inductive ecx : Type :=
| YNone
| YOff (off : N) (idx : nat) (pos : Z)
| YCov (w : wire)
| YSig (idx : nat)
| YName (idx : nat) (pos : Z)
| YSub (l : list ecx).

Definition y_off (y : ecx) : N * nat := match y with YOff o i _ => (o, i) | _ => (0%N, O) end.
Definition y_cov (y : ecx) : wire := match y with YCov w => w | _ => [] end.

(** the covered buffers that signature adds, signature.go 74-98 *)
Definition sig_cover (nc : bool) (off : N) (oidx : nat) (s : wst) : res wire :=
  if negb nc || (oidx =? w_idx s)%nat then
    do part <- slice (w_buf s) (Z.of_N off) (w_pos s); Ok [part]
  else
    let b0 := nth oidx (w_wire s) [] in
    do first <- slice b0 (Z.of_N off) (zlen b0);
    do last <- slice (w_buf s) 0 (w_pos s);
    Ok (first :: firstn (w_idx s - oidx - 1) (skipn (S oidx) (w_wire s)) ++ [last]).

(** the middle part of struct's EncodeInto with nocopy, fields_struct.go 111-137:
    [run] is the inner EncodeInto, [plan] the inner wire plan *)
Definition w_subwire {X} (plan : list N) (run : wire -> res (wire * X)) (s : wst) : res (wst * X) :=
  do b0 <- slice (w_buf s) (w_pos s) (zlen (w_buf s));
  let n := length plan in
  if ((n =? 0) || (length (w_wire s) <? w_idx s + n))%nat then Panic else
  do r <- run (b0 :: firstn (n - 1) (skipn (S (w_idx s)) (w_wire s)));
  let sub := fst r in
  let cur := firstn (Z.to_nat (w_pos s)) (w_buf s) ++ hd [] sub in
  let w' := firstn (w_idx s) (w_wire s) ++ cur :: tl sub ++ skipn (w_idx s + n) (w_wire s) in
  let lastL := last plan 0%N in
  if (0 <? lastL)%N then
    Ok (mkW w' (w_idx s + n - 1) (if (1 <? n)%nat then Z.of_N lastL else w_pos s + Z.of_N lastL)%Z, snd r)
  else Ok (mkW w' (w_idx s + n) 0, snd r).

(** EncodeInto(value, buf[pos:]); pos += length: fields_struct.go 107-109 *)
Definition w_subbuf {X} (n : N) (run : wire -> res (wire * X)) (s : wst) : res (wst * X) :=
  do b0 <- slice (w_buf s) (w_pos s) (zlen (w_buf s));
  do r <- run [b0];
  let cur := firstn (Z.to_nat (w_pos s)) (w_buf s) ++ hd [] (fst r) in
  Ok (mkW (upd (w_wire s) (w_idx s) cur) (w_idx s) (w_pos s + Z.of_N n)%Z, snd r).

(** "wireIdx := 0; buf := wire[wireIdx]", model.go 96-101: panics on an empty wire *)
Definition w_start (w : wire) : res wst := match w with [] => Panic | _ => Ok (mkW w 0 0) end.

(** One field of EncodeInto at position [i] of its model: the wire and the encoder's
    fields.  [off] is the variable l of the length pass, [plan] the state of the
    plan pass, just before the field. *)
Definition fwriter : Type := N -> wplan -> wst -> list ecx -> res (wst * list ecx).

(** [w_plain w] writes a field that only has a value *)
Definition w_plain (w : wst -> res wst) : fwriter := fun _ _ s ys => do s' <- w s; Ok (s', ys).

(** markers.go 60-71, 105-116 *)
Definition w_offset (i : nat) : fwriter := fun off _ s ys => Ok (s, upd ys i (YOff off (w_idx s) (w_pos s))).

(** signature.go 56-101 *)
Definition w_sig (p : eparams) (nc : bool) (t : N) (i start cov : nat) : fwriter := fun _ plan s ys =>
  if (0 <? ep_est p)%N then
    let '(off, oidx) := y_off (nth start ys YNone) in
    do s1 <- w_tl t (ep_est p) s;
    do c <- sig_cover nc off oidx (mkW (w_wire s1) (w_idx s) (w_pos s));
    let ys1 := upd ys cov (YCov (y_cov (nth cov ys YNone) ++ c)) in
    if nc then
      let plan1 := plan_switch (plan_add (tl_len t + tl_len (ep_est p))%N plan) in
      Ok (w_switch (w_switch s1), upd ys1 i (YSig (length (fst plan1))))
    else Ok (mkW (w_wire s1) (w_idx s1) (w_pos s1 + Z.of_N (ep_est p))%Z, ys1)
  else Ok (s, ys).

(** signature.go 201-229 *)
Definition w_iname (p : eparams) (t : N) (i cov : nat) (n : name) : fwriter := fun _ _ s ys =>
  let n' := final_name p n in
  do s1 <- w_tl t (name_len n') s;
  do s2 <- foldM w_comp (removelast n') s1;
  match rev n' with
  | [] => 
      do c <- slice (w_buf s2) (w_pos s1) (w_pos s2);
      Ok (s2, upd (upd ys i (YName (w_idx s2) 0)) cov (YCov (y_cov (nth cov ys YNone) ++ [c])))
  | x :: _ =>
      do s3 <- w_comp x s2;
      do c <- slice (w_buf s3) (w_pos s1) (if ep_digest p then w_pos s2 else w_pos s3);
      Ok (s3, upd (upd ys i (YName (w_idx s2) (w_pos s2 + 2)%Z)) cov (YCov (y_cov (nth cov ys YNone) ++ [c])))
  end.

(** the fields of a model in turn, model.go 101-104, with the other two passes *)
Fixpoint run_fields (fs : list (N * (N * (wplan -> wplan) * fwriter))) (off : N) (plan : wplan) (s : wst) (ys : list ecx)
  : res (wst * list ecx) :=
  match fs with
  | [] => Ok (s, ys)
  | (_, (n, pl, w)) :: fs' =>
      do r <- w off plan s ys;
      run_fields fs' (off + n)%N (pl plan) (fst r) (snd r)
  end.

(** GenEncodeInto of every field kind *)
Fixpoint k_write (p : eparams) (nc : bool) (t : N) (i : nat) (k : kind) (v : value) : fwriter :=
  match k, v with
  | KNat _, VNat n => w_plain (fun s => do s1 <- w_put (tl_enc t) s; w_put (nat_len n :: nat_enc n) s1)
  | KFixed w _, VNat n => w_plain (fun s => do s1 <- w_put (tl_enc t) s; w_put (N.of_nat w :: be w n) s1)
  | KTime _, VTime ns => w_plain (fun s => do s1 <- w_put (tl_enc t) s; w_put (nat_len (ms_of ns) :: nat_enc (ms_of ns)) s1)
  | KBin, VBytes b => w_plain (fun s => do s1 <- w_tl t (nlen b) s; w_copy b s1)
  | KStr _, VBytes b => w_plain (fun s => do s1 <- w_tl t (nlen b) s; w_copy b s1)
  | KWire, VWire w => w_plain (fun s =>
      do s1 <- w_tl t (nlen (concat w)) s;
      if nc then foldM (fun b s => do s' <- w_set b s; Ok (w_switch s')) w (w_switch s1)
      else foldM w_copy w s1)
  | KName, VName n => w_plain (fun s => do s1 <- w_tl t (name_len n) s; foldM w_comp n s1)
  | KIName cov, VName n => w_iname p t i cov n
  | KBool, VBool true => w_plain (fun s => do s1 <- w_put (tl_enc t) s; w_put [0%N] s1)
  | KStruct (Model nc' o fs) inner_nocopy, VStruct vs => fun _ _ s ys =>
      let n := fs_len p fs vs in
      do s1 <- w_tl t n s;
      if (0 <? n)%N then
        let writers := (fix go (i : nat) (fs : list (N * kind)) (vs : list value) : list (N * (N * (wplan -> wplan) * fwriter)) :=
          match fs, vs with
          | f :: fs', v :: vs' =>
              (fst f, (k_len p (fst f) (snd f) v, k_plan p nc' (fst f) (snd f) v, k_write p nc' (fst f) i (snd f) v)) :: go (S i) fs' vs'
          | _, _ => []
          end) O fs vs in
        let run w := do s0 <- w_start w;
                     do r <- run_fields writers 0 ([], 0%N) s0 (map (fun _ => YNone) fs);
                     Ok (w_wire (fst r), snd r) in
        do r <- (if inner_nocopy then w_subwire (plan_close (fs_plan p nc' fs vs ([], 0%N))) run s1
                 else w_subbuf n run s1);
        Ok (fst r, upd ys i (YSub (snd r)))
      else Ok (s1, ys)
  | KSeq sub, VSeq l => fun off plan s ys =>
      do s' <- foldM (fun v s => do r <- k_write p nc t i sub v off plan s ys; Ok (fst r)) l s; Ok (s', ys)
  | KMap key vt val, VMap l => fun off plan s ys =>
      do s' <- foldM (fun e s =>
        do r1 <- k_write p nc t i key (fst e) off plan s ys;
        do r2 <- k_write p nc vt i val (snd e) off plan (fst r1) ys; Ok (fst r2)) l s;
      Ok (s', ys)
  | KSig start cov, _ => w_sig p nc t i start cov
  | KOffset, _ => w_offset i
  | KRange _ _, _ => w_offset i
  | _, _ => w_plain (fun s => Ok s)
  end.

Fixpoint fs_writers (p : eparams) (nc : bool) (i : nat) (fs : list (N * kind)) (vs : list value)
  : list (N * (N * (wplan -> wplan) * fwriter)) :=
  match fs, vs with
  | f :: fs', v :: vs' =>
      (fst f, (k_len p (fst f) (snd f) v, k_plan p nc (fst f) (snd f) v, k_write p nc (fst f) i (snd f) v))
      :: fs_writers p nc (S i) fs' vs'
  | _, _ => []
  end.

(** EncodeInto(value, wire) for nocopy models, and on the single buffer for others; model.go 93-105 *)
Definition m_encode_into (p : eparams) (m : model) (vs : list value) (w : wire) : res (wire * list ecx) :=
  do s0 <- w_start w;
  do r <- run_fields (fs_writers p (m_nocopy m) 0 (m_fields m) vs) 0 ([], 0%N) s0 (map (fun _ => YNone) (m_fields m));
  Ok (w_wire (fst r), snd r).

(** Encode: Init then EncodeInto, model.go 107-123 *)
Definition m_encode (p : eparams) (m : model) (vs : list value) : res (wire * list ecx) :=
  if m_nocopy m then m_encode_into p m vs (map (fun n => repeat 0%N (N.to_nat n)) (m_plan p m vs))
  else m_encode_into p m vs [repeat 0%N (N.to_nat (fs_len p (m_fields m) vs))].

(** ** Parsing *)

(** Fields of the parsing context: offset markers, covered ranges, contexts of nested
    structures (one context serves all elements of a sequence or map). *)
Inductive pcx : Type :=
| XNone
| XOff (z : Z)
| XCov (w : wire)
| XSub (l : list pcx).

Definition x_off (x : pcx) : Z := match x with XOff z => z | _ => 0%Z end.
Definition x_cov (x : pcx) : wire := match x with XCov w => w | _ => [] end.
Definition x_sub (x : pcx) : list pcx := match x with XSub l => l | _ => [] end.

(** GenInitContext: fields_struct.go 59-61, fields_sequence.go 88-90, map_field.go 67-69,
    signature.go 42-44.  The Go zero value for the rest. *)
Fixpoint k_ctx (k : kind) : pcx :=
  match k with
  | KOffset | KRange _ _ => XOff 0
  | KArg => XCov []
  | KStruct (Model _ _ fs) _ =>
      XSub ((fix go (fs : list (N * kind)) : list pcx :=
        match fs with [] => [] | f :: fs' => k_ctx (snd f) :: go fs' end) fs)
  | KSeq sub => k_ctx sub
  | KMap _ _ val => k_ctx val
  | _ => XNone
  end.
Definition m_ctx (m : model) : list pcx := map (fun f => k_ctx (snd f)) (m_fields m).

(** The Go zero value of a field, model.go 166 *)
Definition k_zero (k : kind) : value :=
  match k with
  | KNat false | KFixed _ false => VNat 0
  | KTime false => VTime 0
  | KStr false => VBytes []
  | KBool => VBool false
  | KSeq _ => VSeq []
  | KMap _ _ _ => VMap []
  | _ => VNone
  end.

(** Outcome of GenReadFrom: the variable err, the value, the context, the reader.
    [Err] is an immediate return from Parse. *)
Notation frd := (res (option err * value * list pcx * reader)).

(** [x, err = reader.Method()] followed by the rest of the code *)
Definition soft {A B} (o : rout A) (k : err + A -> reader -> res B) : res B :=
  match o with
  | (Ok a, r) => k (inr a) r
  | (Err e, r) => k (inl e) r
  | (Panic, _) => Panic
  | (Hang, _) => Hang
  end.

(** if err == io.EOF { err = io.ErrUnexpectedEOF } *)
Definition no_eof (e : err) : err := match e with EEOF => EUnexpectedEOF | e => e end.

(** The loop of GenNaturalNumberDecode, utils.go 124-143, and of fixedUint,
    fields_fixeduint.go 125-138; [modulus] is 2^(width of the variable) *)
Fixpoint read_nat (fuel : nat) (modulus : N) (n : Z) (v : N) (r : reader) : res (option err * N * reader) :=
  if (n <=? 0)%Z then Ok (None, v, r)
  else match fuel with
       | O => Hang
       | S f => soft (r_read_byte r) (fun o r' =>
           match o with
           | inl e => Ok (Some (no_eof e), v, r')
           | inr x => read_nat f modulus (n - 1) ((v * 256) mod modulus + x)%N r'
           end)
       end.

(** ReadTLNum with the number it returns beside an error, primitives.go 68-96 *)
Fixpoint ptl_loop (n : nat) (v : N) (r : reader) : res (option err * N * reader) :=
  match n with
  | O => Ok (None, v, r)
  | S k => soft (r_read_byte r) (fun o r' =>
      match o with
      | inl e => Ok (Some (no_eof e), v, r')
      | inr x => ptl_loop k (((v * 256) mod two64) + x)%N r'
      end)
  end.
Definition ptl (r : reader) : res (option err * N * reader) :=
  soft (r_read_byte r) (fun o r' =>
    match o with
    | inl e => Ok (Some e, 0%N, r')
    | inr x =>
        if (x <=? 252)%N then Ok (None, x, r')
        else if (x =? 253)%N then ptl_loop 2 0 r'
        else if (x =? 254)%N then ptl_loop 4 0 r'
        else ptl_loop 8 0 r'
    end).

(** The loop over the components of a name, fields_name.go 71-84 and signature.go
    241-258.  [cnt] is the number of slots left.  Result: err, the components, sigCoverEnd. *)
Fixpoint read_name_f (fuel : nat) (cnt : N) (end_ : Z) (acc : name) (cov : Z) (r : reader)
  : res (option err * name * Z * reader) :=
  if (cnt =? 0)%N then Ok (None, acc, cov, r)
  else match fuel with
  | O => Hang
  | S f =>
      do start <- r_pos r;
      if (end_ <=? start)%Z then Ok (None, acc, cov, r)
      else
        do x <- ptl r;
        let '(e1, t, r1) := x in
        do y <- ptl r1;
        let '(e2, l, r2) := y in
        soft (r_read_buf (to_int l) r2) (fun o r3 =>
          match e1, e2, o with
          | None, None, inr v =>
              read_name_f f (cnt - 1) end_ (acc ++ [mkComp t v])
                (if (t =? TypeParametersSha256Digest)%N then start else cov) r3
          | _, _, _ => Ok (Some EUnexpectedEOF, acc, cov, r3)
          end)
  end.

(** fields_name.go 66-92; signature.go 236-262.  A Component takes 32 bytes. *)
Definition read_name_field (fuel : nat) (l : N) (r : reader) : res (option err * name * Z * Z * reader) :=
  if make_ok 32 (Z.of_N (l / 2 + 1)) then
    do start <- r_pos r;
    let end_ := wrap64 (start + to_int l) in
    do x <- read_name_f fuel (l / 2 + 1) end_ [] end_ r;
    let '(e, n, cov, r') := x in
    match e with
    | Some _ => Ok (e, n, start, cov, r')
    | None => do p <- r_pos r'; Ok (if (p =? end_)%Z then None else Some EOverflow, n, start, cov, r')
    end
  else Panic.

Definition opt_wire (w : option wire) : wire := match w with Some w => w | None => [] end.

(** A field as the parse loop sees it; the last arguments of [fh_read] are ignoreCritical,
    startPos, l, the present value, the context and the reader. *)
Record fhandler : Type := mkFH {
  fh_typ : N; fh_kind : kind;
  fh_read : bool -> Z -> N -> value -> list pcx -> reader -> frd }.

Record pstate : Type := mkPS {
  p_vals : list value; p_cx : list pcx; p_rd : reader; p_prog : Z; p_done : list bool }.

(** GenSkipProcess of every field kind *)
Definition k_skip (t : N) (k : kind) (i : nat) (startPos : Z) (v : value) (cx : list pcx) (r : reader) : frd :=
  match k with
  | KNat false | KFixed _ false | KTime false | KStr false => Ok (Some (ESkipRequired t), v, cx, r)
  | KBool => Ok (None, VBool false, cx, r)
  | KSeq _ | KMap _ _ _ | KArg => Ok (None, v, cx, r)
  | KOffset => Ok (None, v, upd cx i (XOff startPos), r)
  | KRange start cov =>
      let cx1 := upd cx i (XOff startPos) in
      do w <- r_range (x_off (nth start cx1 XNone)) startPos r;
      Ok (None, v, upd cx1 cov (XCov (opt_wire w)), r)
  | _ => Ok (None, VNone, cx, r)
  end.

(** progress--, fields_sequence.go 146, map_field.go 137 *)
Definition k_back (k : kind) : Z := match k with KSeq _ | KMap _ _ _ => 1 | _ => 0 end%Z.

(** the case of the switch for a type number; fields of type 0 have none, model.go 187-190 *)
Fixpoint find_field (typ : N) (i : nat) (hs : list fhandler) : option (nat * fhandler) :=
  match hs with
  | [] => None
  | h :: hs' =>
      if (negb (fh_typ h =? 0) && (fh_typ h =? typ))%N then Some (i, h) else find_field typ (S i) hs'
  end.

(** handled_X = true; GenReadFrom; if err != nil return: model.go 195-198, 219-221 *)
Definition do_read (ic : bool) (typ l : N) (startPos : Z) (i : nat) (h : fhandler) (st : pstate) : res pstate :=
  do x <- fh_read h ic startPos l (nth i (p_vals st) VNone) (p_cx st) (p_rd st);
  let '(e, v, cx, r) := x in
  match e with
  | Some e => Err (EFailToParse typ e)
  | None => Ok (mkPS (upd (p_vals st) i v) cx r (p_prog st - k_back (fh_kind h)) (upd (p_done st) i true))
  end.

(** IsCritical, model.go 247 *)
Definition is_critical (typ : N) : bool := ((typ <=? 31) || (typ mod 2 =? 1))%N.

(** the default case, model.go 201-206, 219-221 *)
Definition do_default (ic : bool) (typ l : N) (st : pstate) : res pstate :=
  if negb ic && is_critical typ then Err (EUnrecognized typ)
  else soft (r_skip (to_int l) (p_rd st)) (fun o r =>
    match o with
    | inl e => Err (EFailToParse typ e)
    | inr _ => Ok (mkPS (p_vals st) (p_cx st) r (p_prog st) (p_done st))
    end).

(** model.go 208-221 in an ordered model: field [progress+1] is passed over *)
Definition do_pass (typ : N) (startPos : Z) (hs : list fhandler) (st : pstate) : res pstate :=
  match nth_error hs (Z.to_nat (p_prog st + 1)) with
  | None => Ok st
  | Some h =>
      let i := Z.to_nat (p_prog st + 1) in
      do x <- k_skip (fh_typ h) (fh_kind h) i startPos (nth i (p_vals st) VNone) (p_cx st) (p_rd st);
      let '(e, v, cx, r) := x in
      match e with
      | Some e => Err (EFailToParse typ e)
      | None => Ok (mkPS (upd (p_vals st) i v) cx r (p_prog st) (upd (p_done st) i true))
      end
  end.

Definition p_next (st : pstate) : pstate := mkPS (p_vals st) (p_cx st) (p_rd st) (p_prog st + 1) (p_done st).

(** the inner loop of an ordered model, model.go 182-222; every iteration that does not
    end the loop increments progress, so [n] = number of fields - progress suffices *)
Fixpoint ordered_loop (n : nat) (ic : bool) (typ l : N) (startPos : Z) (hs : list fhandler) (st : pstate) : res pstate :=
  match n with
  | O => Ok st
  | S k =>
      match find_field typ 0 hs with
      | None => do st' <- do_default ic typ l st; Ok (p_next st')
      | Some (i, h) =>
          if (p_prog st + 1 =? Z.of_nat i)%Z then
            do st' <- do_read ic typ l startPos i h st; Ok (p_next st')
          else
            do st' <- do_pass typ startPos hs st;
            ordered_loop k ic typ l startPos hs (p_next st')
      end
  end.

(** one element, model.go 181-222 *)
Definition do_elem (ordered ic : bool) (typ l : N) (startPos : Z) (hs : list fhandler) (st : pstate) : res pstate :=
  if ordered then ordered_loop (Z.to_nat (zlen hs - p_prog st)) ic typ l startPos hs st
  else match find_field typ 0 hs with
       | None => do_default ic typ l st
       | Some (i, h) => do_read ic typ l startPos i h st
       end.

(** the main loop, model.go 169-223 *)
Fixpoint parse_loop (fuel : nat) (ordered ic : bool) (hs : list fhandler) (st : pstate) : res pstate :=
  match fuel with
  | O => Hang
  | S f =>
      do startPos <- r_pos (p_rd st);
      do len <- r_length (p_rd st);
      if (len <=? startPos)%Z then Ok st
      else
        soft (read_tl (p_rd st)) (fun o r1 =>
          match o with
          | inl e => Err (EFailToParse 0 e)
          | inr typ =>
              soft (read_tl r1) (fun o r2 =>
                match o with
                | inl e => Err (EFailToParse 0 e)
                | inr l =>
                    do st' <- do_elem ordered ic typ l startPos hs (mkPS (p_vals st) (p_cx st) r2 (p_prog st) (p_done st));
                    parse_loop f ordered ic hs st'
                end)
          end)
  end.

(** model.go 225-236: the fields that were not met *)
Fixpoint skip_rest (i : nat) (startPos : Z) (hs : list fhandler) (st : pstate) : res pstate :=
  match hs with
  | [] => Ok st
  | h :: hs' =>
      if nth i (p_done st) false then skip_rest (S i) startPos hs' st
      else
        do x <- k_skip (fh_typ h) (fh_kind h) i startPos (nth i (p_vals st) VNone) (p_cx st) (p_rd st);
        let '(e, v, cx, r) := x in
        match e with
        | Some e => Err e
        | None => skip_rest (S i) startPos hs' (mkPS (upd (p_vals st) i v) cx r (p_prog st) (p_done st))
        end
  end.

(** Parse, model.go 147-239 *)
Definition run_parse (fuel : nat) (ordered ic : bool) (hs : list fhandler) (cx : list pcx) (r : reader)
  : res (list value * list pcx) :=
  do st <- parse_loop fuel ordered ic hs
             (mkPS (map (fun h => k_zero (fh_kind h)) hs) cx r (-1) (map (fun _ => false) hs));
  do startPos <- r_pos (p_rd st);
  do st' <- skip_rest 0 startPos hs st;
  Ok (p_vals st', p_cx st').

(** m[k] = v for a Go map, as a list of entries *)
Definition value_key_eqb (a b : value) : bool :=
  match a, b with
  | VNat x, VNat y => (x =? y)%N
  | VBytes x, VBytes y => bytes_eqb x y
  | _, _ => false
  end.
Fixpoint map_put (k v : value) (l : list (value * value)) : list (value * value) :=
  match l with
  | [] => [(k, v)]
  | e :: l' => if value_key_eqb (fst e) k then (k, v) :: l' else e :: map_put k v l'
  end.

(** GenReadFrom of every field kind; [i] is the position of the field in its model *)
Fixpoint k_read (fuel : nat) (t : N) (i : nat) (k : kind) (ic : bool) (startPos : Z) (l : N)
  (old : value) (cx : list pcx) (r : reader) : frd :=
  match k with
  | KNat _ => (* fields_natural.go 54-66 *)
      do x <- read_nat fuel two64 (to_int l) 0 r; let '(e, n, r') := x in Ok (e, VNat n, cx, r')
  | KTime _ => (* fields_time.go 54-67 *)
      do x <- read_nat fuel two64 (to_int l) 0 r; let '(e, n, r') := x in
      Ok (e, VTime (wrap64 (to_int n * 1000000)), cx, r')
  | KFixed w opt => (* fields_fixeduint.go 104-173 *)
      if (w =? 1)%nat then
        if opt then
          soft (r_skip 1 r) (fun o r' =>
            do p <- r_pos r';
            do g <- r_range (p - 1) p r';
            match g with
            | Some ((x :: _) :: _) =>
                Ok (match o with inl e => Some (no_eof e) | inr _ => None end, VNat x, cx, r')
            | _ => Panic
            end)
        else
          soft (r_read_byte r) (fun o r' =>
            match o with
            | inl e => Ok (Some (no_eof e), VNat 0, cx, r')
            | inr x => Ok (None, VNat x, cx, r')
            end)
      else
        do x <- read_nat fuel (256 ^ N.of_nat w)%N (to_int l) 0 r; let '(e, n, r') := x in Ok (e, VNat n, cx, r')
  | KBin => (* fields_binary.go 45-50 *)
      if make_ok 1 (Z.of_N l) then
        soft (read_full (Z.of_N l) r) (fun o r' =>
          match o with inl e => Ok (Some e, VNone, cx, r') | inr b => Ok (None, VBytes b, cx, r') end)
      else Panic
  | KStr _ => (* fields_string.go 60-75 *)
      soft (copy_n (to_int l) r) (fun o r' =>
        match o with inl e => Ok (Some e, old, cx, r') | inr b => Ok (None, VBytes b, cx, r') end)
  | KWire => (* fields_wire.go 92-96 *)
      soft (r_read_wire (to_int l) r) (fun o r' =>
        match o with inl e => Ok (Some e, VNone, cx, r') | inr w => Ok (None, VWire w, cx, r') end)
  | KName => (* fields_name.go 66-92 *)
      do x <- read_name_field fuel l r;
      let '(e, n, _, _, r') := x in Ok (e, VName n, cx, r')
  | KIName cov => (* signature.go 231-270 *)
      do x <- read_name_field fuel l r;
      let '(e, n, start, c, r') := x in
      match e with
      | Some _ => Ok (e, VName n, cx, r')
      | None =>
          do w <- r_range start c r';
          Ok (None, VName n, upd cx cov (XCov (x_cov (nth cov cx XNone) ++ opt_wire w)), r')
      end
  | KBool => Ok (None, VBool true, cx, r) (* fields_bool.go 39-41 *)
  | KStruct (Model _ ordered fs) _ => (* fields_struct.go 149-154 *)
      do d <- r_delegate (to_int l) r;
      let hs := (fix go (i : nat) (fs : list (N * kind)) : list fhandler :=
        match fs with
        | [] => []
        | f :: fs' => mkFH (fst f) (snd f) (k_read fuel (fst f) i (snd f)) :: go (S i) fs'
        end) O fs in
      match run_parse fuel ordered ic hs (x_sub (nth i cx XNone)) (fst d) with
      | Ok (vs, c) => Ok (None, VStruct vs, upd cx i (XSub c), snd d)
      | Err e => Ok (Some e, VNone, cx, snd d)
      | Panic => Panic
      | Hang => Hang
      end
  | KSeq sub => (* fields_sequence.go 130-149 *)
      do x <- k_read fuel t i sub ic startPos l (k_zero sub) cx r;
      let '(e, v, cx', r') := x in
      Ok (e, VSeq (match old with VSeq a => a | _ => [] end ++ [v]), cx', r')
  | KMap key vt val => (* map_field.go 112-138: err of the key is overwritten *)
      do x <- k_read fuel t i key ic startPos l (k_zero key) cx r;
      let '(_, kv, cx1, r1) := x in
      soft (read_tl r1) (fun o r2 =>
        match o with
        | inl e => Err (EFailToParse 0 e)
        | inr typ =>
            soft (read_tl r2) (fun o r3 =>
              match o with
              | inl e => Err (EFailToParse 0 e)
              | inr l' =>
                  if (typ =? vt)%N then
                    do y <- k_read fuel vt i val ic startPos l' (k_zero val) cx1 r3;
                    let '(e, v, cx2, r4) := y in
                    Ok (e, VMap (map_put kv v (match old with VMap a => a | _ => [] end)), cx2, r4)
                  else Err (EFailToParse t (EUnrecognized typ))
              end)
        end)
  | KArg => Ok (None, old, cx, r)
  | KOffset => k_skip t KOffset i startPos old cx r (* markers.go 52-58 *)
  | KRange s c => k_skip t (KRange s c) i startPos old cx r (* markers.go 124-133 *)
  | KSig start cov => (* signature.go 103-111 *)
      soft (r_read_wire (to_int l) r) (fun o r' =>
        match o with
        | inl e => Ok (Some e, VNone, cx, r')
        | inr w =>
            do g <- r_range (x_off (nth start cx XNone)) startPos r';
            Ok (None, VWire w, upd cx cov (XCov (x_cov (nth cov cx XNone) ++ opt_wire g)), r')
        end)
  end.

Fixpoint fs_handlers (fuel : nat) (i : nat) (fs : list (N * kind)) : list fhandler :=
  match fs with
  | [] => []
  | f :: fs' => mkFH (fst f) (snd f) (k_read fuel (fst f) i (snd f)) :: fs_handlers fuel (S i) fs'
  end.

(** context.Parse(reader, ignoreCritical) with a given context *)
Definition m_parse_ctx (fuel : nat) (m : model) (ic : bool) (cx : list pcx) (r : reader) : res (list value * list pcx) :=
  run_parse fuel (m_ordered m) ic (fs_handlers fuel 0 (m_fields m)) cx r.

(** ParseX(reader, ignoreCritical), model.go 275-283 *)
Definition m_parse (fuel : nat) (m : model) (ic : bool) (r : reader) : res (list value * list pcx) :=
  m_parse_ctx fuel m ic (m_ctx m) r.
