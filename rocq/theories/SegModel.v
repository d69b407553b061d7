(** pkg/schema/rdr/rdr.go: segmented objects (SegmentedNode), versioned objects (RdrNode) and objects
    with a manifest (GeneralObjNode).

    What a node is, its description, is of an arbitrary type [D]; [leaf_of], [seg_of] say which
    descriptions are leaf nodes and segmented nodes.  Logging is left out. *)
From Verif Require Import Base NameModel TextModel TrieModel PrimModel ReaderModel CodecModel CodecLib SpecModel SchemaModel StoreModel NeedModel.

(** Wire.Length, encoding/types.go 35-41 *)
Definition wire_length (w : wire) : N := fold_left (fun n b => ((n + nlen b) mod two64)%N) w 0%N.

(** the inner loop of SegmentedNode.Provide, 78-87: what is taken, and what follows the position
    (wireIdx, bufferIdx) afterwards.  [w] is what follows the position before. *)
Fixpoint take_seg (rem : N) (w : wire) : wire * wire :=
  match w with
  | [] => ([], [])
  | b :: w' =>
      if (rem =? 0)%N || (nlen b =? 0)%N then ([], w)
      else if (nlen b <=? rem)%N then let '(p, r) := take_seg (rem - nlen b) w' in (b :: p, r)
      else ([firstn (N.to_nat rem) b], skipn (N.to_nat rem) b :: w')
  end.

(** the contents of [cnt] segments *)
Fixpoint segments (size : N) (cnt : nat) (w : wire) : list wire :=
  match cnt with
  | O => []
  | S k => let '(p, r) := take_seg size w in p :: segments size k r
  end.

(** 61; division by 0 panics *)
Definition seg_count (size : N) (w : wire) : res N :=
  if (size =? 0)%N then Panic else Ok (((wire_length w + size - 1) mod two64) / size)%N.

(** NewSegmentComponent and NewVersionComponent, name_component.go 619-621, 631-633 *)
Definition seg_comp (i : N) : comp := number_comp TypeSegment i.
Definition ver_comp (v : N) : comp := number_comp TypeVersion v.

Section Seg.
  Variable D : Type.
  Variable leaf_of : D -> option (leaf D).

  (** SegmentedNode, 15-26, without what is not used: Lifetime, MustBeFresh and ValidDur have no effect on
      the segments *)
  Record segnode : Type := mkSeg { sn_type : N; sn_fresh : Z; sn_size : N; sn_retries : N }.

  (** Provide of the child leaf node, called through MatchedNode.Call.  A nil node, a node that has no Provide
      and a Provide that returns something else than a Wire panic. *)
  Definition call_provide (t : option (mnode D)) (content : option wire) (cfg : option data_config) (now : Z) : res (list (action D) * option wire) :=
    match t with
    | None => Panic
    | Some x => match leaf_of (s_desc (m_node x)) with
                | Some l => provide l x content cfg now
                | None => Panic
                end
    end.

  (** the outer loop of Provide, 74-100.  [clock i] is the time at segment i. *)
  Fixpoint provide_segs (x : mnode D) (cfg : data_config) (clock : N -> Z) (i : N) (l : list wire) : res (list (action D) * list (option wire)) :=
    match l with
    | [] => Ok ([], [])
    | p :: l' =>
        do t <- refine x (m_name x ++ [seg_comp i]);
        do r <- call_provide t (Some p) (Some cfg) (clock i);
        do r' <- provide_segs x cfg clock (i + 1) l';
        Ok (fst r ++ fst r', snd r :: snd r')
    end.

  (** SegmentedNode.Provide, 53-107: the actions, the packets and the number of segments.  The manifest is made
      of the digests of the packets ([None], a failed Provide, counts as the empty packet). *)
  Definition seg_provide (s : segnode) (x : mnode D) (content : wire) (clock : N -> Z) : res (list (action D) * list (option wire) * N) :=
    do cnt <- seg_count (sn_size s) content;
    let cfg := mkDC (Some (sn_type s)) (Some (sn_fresh s)) (Some (seg_comp ((cnt + two64 - 1) mod two64))) in
    do r <- provide_segs x cfg clock 0 (segments (sn_size s) (N.to_nat cnt) content);
    Ok (fst r, snd r, cnt).
  (** MemStoragePolicy.onSave is the only listener of OnSaveStorage: the storage after these actions; [clock k] is
      the time of the k-th action *)
  Fixpoint save_all (h : store entry) (clock : nat -> Z) (k : nat) (acts : list (action D)) : res (store entry) :=
    match acts with
    | [] => Ok h
    | ASave e :: acts' => do h' <- mem_save h (clock k) e; save_all h' clock (S k) acts'
    | _ :: acts' => save_all h clock (S k) acts'
    end.
  Definition manifest_of (sha256 : buf -> buf) (l : list (option wire)) : list buf :=
    map (fun o => sha256 (match o with Some w => concat w | None => [] end)) l.

  (** schema.NeedResult, interface.go; what NeedChan of the child yields *)
  Record nres : Type := mkRes { r_status : status; r_content : option wire; r_data : option (list value); r_nack : option N; r_valid : option Z }.
  Definition no_res : nres := mkRes SNone None None None None.

  (** int(MaxRetriesOnFailure): as many trials *)
  Definition trials (n : N) : nat := Z.to_nat (to_int n).

  (** the loop over the trials, 166-178 (also 314-328 and 506-519): [need j] is the result of trial j.  The results: succeeded, and the last
      result, which is the one before if there is no trial. *)
  Fixpoint try (need : nat -> nres) (left : nat) (j : nat) (last : nres) : bool * nres :=
    match left with
    | O => (false, last)
    | S k => match r_status (need j) with
             | SData => (true, need j)
             | _ => try need k (S j) (need j)
             end
    end.

  (** the loop over the segments of SinglePacketPipeline, 159-190: succeeded, fragments and the last result.
      [need n j] is the result of trial j for the name n (of segment numbers that wrap around too).  [F] is fuel. *)
  Fixpoint fetch (F : nat) (x : mnode D) (retries : nat) (manifest : list buf) (need : name -> nat -> nres) (i : N) (frags : wire) (last : nres)
    : res (bool * wire * nres) :=
    match F with
    | O => Hang
    | S f =>
        let sc := seg_comp i in
        do nn <- match manifest with
                 | [] => Ok (m_name x ++ [sc])
                 | _ => match nth_error manifest (N.to_nat i) with
                        | Some d => Ok (m_name x ++ [sc; mkComp TypeImplicitSha256Digest d])
                        | None => Panic
                        end
                 end;
        do t <- refine x nn;
        match t, retries with
        | None, S _ => Panic
        | _, _ =>
            let '(ok, r) := try (need nn) retries 0 last in
            let frags' := if ok then frags ++ (match r_content r with Some c => c | None => [] end) else frags in
            do stop <- match manifest with
                       | [] => if ok then
                                 match r_data r with
                                 | Some d => match d_final_block d with
                                             | Some fb => Ok (comp_compare fb sc =? 0)%Z
                                             | None => Panic
                                             end
                                 | None => Panic
                                 end
                               else Ok false
                       | _ => Ok (Z.of_N i =? Z.of_nat (length manifest) - 1)%Z
                       end;
            if stop || negb ok then Ok (ok, frags', r)
            else fetch f x retries manifest need ((i + 1) mod two64)%N frags' r
        end
    end.

  (** SinglePacketPipeline, 141-206: the event given to the callback *)
  Definition pipeline (F : nat) (s : segnode) (x : mnode D) (manifest : list buf) (need : name -> nat -> nres) : res (event D) :=
    do r <- fetch F x (trials (sn_retries s)) manifest need 0 [] no_res;
    let '(ok, frags, last) := r in
    Ok (mkEvent (Some x) None None None None (r_data last) None None (Some frags) (r_nack last) (r_valid last) None None
          (Some (if ok then SData else r_status last))).

  (** ** RdrNode *)
  Variable seg_of : D -> option segnode.
  (** enc.NewStringComponent(32, ...) *)
  Definition key_metadata : comp := mkComp 32 [109; 101; 116; 97; 100; 97; 116; 97]%N.
  Definition key_manifest : comp := mkComp 32 [109; 97; 110; 105; 102; 101; 115; 116]%N.
  Definition key_data : comp := mkComp 32 [100; 97; 116; 97]%N.

  (** Provide of a segmented node, called through MatchedNode.Call *)
  Definition call_seg_provide (t : option (mnode D)) (content : wire) (clock : N -> Z) : res (list (action D) * list (option wire) * N) :=
    match t with
    | None => Panic
    | Some x => match seg_of (s_desc (m_node x)) with
                | Some s => seg_provide s x content clock
                | None => Panic
                end
    end.

  (** utils.MakeTimestamp, utils.go 38-40 *)
  Definition timestamp (now : Z) : N := to_u64 (Z.quot now 1000000).

  (** the encoded metadata of an object with [cnt] segments, 284-289 and 458-463 *)
  Definition metadata (data_name : name) (cnt : N) (content : wire) : res wire :=
    do fb <- comp_bytes (seg_comp ((cnt + two64 - 1) mod two64));
    do r <- m_encode (mkEP 0 false) rdr_MetaData
      [VName data_name; VBytes fb; VNone; VNat (wire_length content); VNone; VNone; VNone; VNone; VNone; VNone];
    Ok (fst r).

  (** RdrNode.Provide, 250-292: the actions, and the version.  [now] is the time at the beginning, [clock] those
      of the segments, [later] that of the metadata. *)
  Definition rdr_provide (meta_fresh : Z) (x : mnode D) (content : wire) (now : Z) (clock : N -> Z) (later : Z) : res (list (action D) * N) :=
    let v := ver_comp (timestamp now) in
    do tm <- refine x (m_name x ++ [key_metadata; v; seg_comp 0]);
    do td <- refine x (m_name x ++ [v]);
    do r <- call_seg_provide td content clock;
    let '(acts, _, cnt) := r in
    do mw <- metadata (m_name x ++ [v]) cnt content;
    do r2 <- call_provide tm (Some mw) (Some (mkDC (Some 0%N) (Some meta_fresh) (Some (seg_comp 0)))) later;
    Ok (acts ++ fst r2, timestamp now).

  (** an event of the end of a Need without content, 331-339 and 522-530 *)
  Definition failed (x : mnode D) (r : nres) (s : status) : event D :=
    mkEvent (Some x) None None None None (r_data r) None None None (r_nack r) (r_valid r) None None (Some s).

  (** Call("Need", callback) on a node: a segmented node runs its pipeline; for any other node [None].  (On a RdrNode
      it fetches the metadata of that node.)  A nil node panics. *)
  Definition call_need (F : nat) (t : option (mnode D)) (manifest : list buf) (need : name -> nat -> nres) : res (option (event D)) :=
    match t with
    | None => Panic
    | Some x => match seg_of (s_desc (m_node x)) with
                | Some s => do e <- pipeline F s x manifest need; Ok (Some e)
                | None => Ok None
                end
    end.

  Definition g_name_of (v : value) : name := match v with VName n => n | _ => [] end.

  (** RdrNode.NeedCallback, 294-356: the event given to the callback; [F] is the fuel of the parser and the
      pipeline *)
  Definition rdr_need (F : nat) (retries : N) (x : mnode D) (version : option N) (need : name -> nat -> nres) : res (option (event D)) :=
    match version with
    | Some v =>
        do t <- refine x (repeat (mkComp 0 []) (length (m_name x)) ++ [ver_comp v]);
        call_need F t [] need
    | None =>
        let mn := m_name x ++ [key_metadata] in
        do t <- refine x mn;
        match t, trials retries with
        | None, S _ => Panic
        | _, k =>
            let '(ok, r) := try (need mn) k 0 no_res in
            if ok then
              match m_parse F rdr_MetaData true (new_wire_reader (match r_content r with Some c => c | None => [] end)) with
              | Ok (vs, _) =>
                  let full := g_name_of (nth 0 vs VNone) in
                  if negb (is_prefix (m_name x) full) then Ok (Some (failed x r (r_status r)))
                  else do t' <- refine x full; call_need F t' [] need
              | Err _ => Panic                                                   (* metadata is nil *)
              | Panic => Panic
              | Hang => Hang
              end
            else Ok (Some (failed x r (r_status r)))
        end
    end.

  (** ** GeneralObjNode *)
  (** the encoded manifest, 474-483 *)
  Fixpoint manifest_entries (i : N) (l : list buf) : list value :=
    match l with
    | [] => []
    | d :: l' => VStruct [VNat i; VBytes d] :: manifest_entries (i + 1) l'
    end.
  Definition manifest_wire (l : list buf) : res wire :=
    do r <- m_encode (mkEP 0 false) rdr_ManifestData [VSeq (manifest_entries 0 l)]; Ok (fst r).

  (** GeneralObjNode.Provide, 435-486: the actions, and the number of segments *)
  Definition gen_provide (sha256 : buf -> buf) (meta_fresh man_fresh : Z) (x : mnode D) (content : wire) (clock : N -> Z) (later1 later2 : Z)
    : res (list (action D) * N) :=
    do td <- refine x (m_name x ++ [key_data]);
    do r <- call_seg_provide td content clock;
    let '(acts, packets, cnt) := r in
    do tm <- refine x (m_name x ++ [key_metadata]);
    do mw <- metadata (m_name x ++ [key_data]) cnt content;
    do r1 <- call_provide tm (Some mw) (Some (mkDC (Some 0%N) (Some meta_fresh) None)) later1;
    do tn <- refine x (m_name x ++ [key_manifest]);
    do nw <- manifest_wire (manifest_of sha256 packets);
    do r2 <- call_provide tn (Some nw) (Some (mkDC (Some 0%N) (Some man_fresh) None)) later2;
    Ok (acts ++ fst r1 ++ fst r2, cnt).

  Definition entry_digest (v : value) : buf := match v with VStruct [_; VBytes d] => d | _ => [] end.
  Definition g_entries (v : value) : list value := match v with VSeq l => l | _ => [] end.

  (** GeneralObjNode.NeedCallback, 488-552 *)
  Definition gen_need (F : nat) (retries : N) (x : mnode D) (need : name -> nat -> nres) : res (option (event D)) :=
    let mn := m_name x ++ [key_manifest] in
    do t <- refine x mn;
    match t, trials retries with
    | None, S _ => Panic
    | _, k =>
        let '(ok, r) := try (need mn) k 0 no_res in
        if ok then
          match m_parse F rdr_ManifestData true (new_wire_reader (match r_content r with Some c => c | None => [] end)) with
          | Ok (vs, _) =>
              do t' <- refine x (m_name x ++ [key_data]);
              call_need F t' (map entry_digest (g_entries (nth 0 vs VNone))) need
          | Err _ => Ok (Some (failed x r SError))
          | Panic => Panic
          | Hang => Hang
          end
        else Ok (Some (failed x r (r_status r)))
    end.
End Seg.
Arguments call_provide {D}. Arguments save_all {D}. Arguments provide_segs {D}. Arguments seg_provide {D}. Arguments fetch {D}. Arguments pipeline {D}.
Arguments call_seg_provide {D}. Arguments rdr_provide {D}. Arguments failed {D}. Arguments call_need {D}. Arguments rdr_need {D}. Arguments gen_provide {D}. Arguments gen_need {D}.
