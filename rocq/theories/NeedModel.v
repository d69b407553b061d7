(** pkg/schema: expressing, receiving and providing at a node (event.go, expressing_point.go,
    leaf_node.go, the listeners of MemStoragePolicy in basic_policies.go).

    A listener is a function of the event; listeners that block, crash or change the event are not
    modelled.  What a function does is the list of its actions, in order; the goroutines it starts
    are not told apart from itself.  Logging is left out. *)
From Verif Require Import Base NameModel TextModel TrieModel PrimModel ReaderModel CodecModel CodecLib SpecModel SchemaModel StoreModel.

(** ndn.InterestResult, ndn.go 41-59 *)
Inductive status : Type := SNone | SData | SNack | STimeout | SCancelled | SUnverified | SError.

(** what a validator returns: a ValidRes, or anything else *)
Inductive verdict : Type := Verdict (z : Z) | NoVerdict.
(** interface.go 102-109 *)
Definition VrFail : Z := (-2)%Z.
Definition VrTimeout : Z := (-1)%Z.
Definition VrSilence : Z := 0%Z.
Definition VrPass : Z := 1%Z.
Definition VrBypass : Z := 2%Z.
Definition VrCachedData : Z := 3%Z.

(** DispatchUntil, event.go 99-108.  [accept] is acceptFunc, with its effect on the event; [ret] is what
    is returned if there is no listener left. *)
Fixpoint dispatch_until {E A : Type} (accept : A -> E -> bool * E) (ls : list (E -> A)) (ret : option A) (e : E) : option A * E :=
  match ls with
  | [] => (ret, e)
  | f :: ls' =>
      let a := f e in
      let '(stop, e') := accept a e in
      if stop then (Some a, e') else dispatch_until accept ls' (Some a) e'
  end.

Section Need.
  Variable D : Type.
  (** crypto/sha256 *)
  Variable sha256 : buf -> buf.

  (** Event, event.go 11-55: the fields listeners and callbacks see.  Signature is always that of Data or
      Interest; TargetNode and Reply are left out. *)
  Record event : Type := mkEvent {
    ev_target : option (mnode D);
    ev_deadline : option Z;
    ev_raw : option wire;
    ev_cov : option wire;
    ev_int : option (list value);
    ev_data : option (list value);
    ev_int_cfg : option interest_config;
    ev_data_cfg : option data_config;
    ev_content : option wire;
    ev_nack : option N;
    ev_valid : option Z;
    ev_self : option bool;
    ev_dur : option Z;
    ev_status : option status }.
  Definition no_event : event := mkEvent None None None None None None None None None None None None None None.
  Definition with_valid (z : Z) (e : event) : event :=
    mkEvent (ev_target e) (ev_deadline e) (ev_raw e) (ev_cov e) (ev_int e) (ev_data e) (ev_int_cfg e) (ev_data_cfg e) (ev_content e)
      (ev_nack e) (Some z) (ev_self e) (ev_dur e) (ev_status e).
  (** the end of a Need: status, content and how long the data may be kept *)
  Definition finished (s : status) (content : option wire) (dur : option Z) (e : event) : event :=
    mkEvent (ev_target e) (ev_deadline e) (ev_raw e) (ev_cov e) (ev_int e) (ev_data e) (ev_int_cfg e) (ev_data_cfg e) content
      (ev_nack e) (ev_valid e) (ev_self e) dur (Some s).
  Definition with_int_cfg (c : option interest_config) (e : event) : event :=
    mkEvent (ev_target e) (ev_deadline e) (ev_raw e) (ev_cov e) (ev_int e) (ev_data e) c (ev_data_cfg e) (ev_content e)
      (ev_nack e) (ev_valid e) (ev_self e) (ev_dur e) (ev_status e).

  Definition validator := event -> verdict.

  (** ExpressPoint, expressing_point.go 33-47.  A signer listener gives None for anything that is not a
      Signer, a search listener for nil and anything that is not a Wire. *)
  Record point : Type := mkPoint {
    p_valid_int : list validator;
    p_valid_data : list validator;
    p_search : list (event -> option wire);
    p_signers : list (event -> option signer);
    p_cbp : bool;
    p_mbf : bool;
    p_life : Z;
    p_supress : bool }.

  Inductive action : Type :=
  | ACall (e : event)                                           (* callback(e) *)
  | ASave (e : event)                                           (* OnSaveStorage.Dispatch(e) *)
  | AHandle (e : event)                                         (* OnInt.DispatchUntil(e, ...) *)
  | AReply (w : wire)                                           (* args.Reply(w) *)
  | AExpress (w : wire) (final : name) (c : interest_config).   (* engine.Express *)

  (** the acceptFunc of validation, 123-127 and 293-297 *)
  Definition accept_verdict (v : verdict) (e : event) : bool * event :=
    match v with
    | NoVerdict => (true, with_valid VrSilence e)
    | Verdict z => ((z <? VrSilence)%Z || (VrBypass <=? z)%Z, with_valid z e)
    end.
  (** validation, 119-137 and 290-320: is the packet valid, and the event afterwards *)
  Definition validate (vs : list validator) (e : event) : bool * event :=
    let '(ret, e') := dispatch_until accept_verdict vs None (with_valid VrSilence e) in
    match ret with
    | Some (Verdict z) => ((VrSilence <? z)%Z, e')
    | _ => (false, e')
    end.

  (** SearchCache, 53-76 *)
  Definition search_cache (p : point) (e : event) : option wire :=
    let c := match ev_int_cfg e with
             | Some c => Some c
             | None => match ev_int e with
                       | Some i => Some (mkIC (i_can_be_prefix i) (i_must_be_fresh i) None None None None)
                       | None => None
                       end
             end in
    match fst (dispatch_until (fun a e => (match a with Some w => (0 <? length w)%nat | None => false end, e)) (p_search p) None (with_int_cfg c e)) with
    | Some r => r
    | None => None
    end.

  Definition get_signer (ls : list (event -> option signer)) (e : event) : option signer :=
    match fst (dispatch_until (fun a e => (match a with Some _ => true | None => false end, e)) ls None e) with
    | Some r => r
    | None => None
    end.

  Definition the_name (o : option name) : name := match o with Some n => n | None => [] end.

  (** OnInterest, 78-153; [at_node] and [m] are the node and the matching *)
  Definition on_interest (p : point) (at_path : list pat) (at_node : stree D) (m : matching) (i : list value) (raw cov : wire) (deadline : Z)
    : res (list action) :=
    let n := the_name (i_name i) in
    match rev n with
    | [] => Panic
    | c :: r =>
        let target := mkM at_path at_node m (if (ctyp c =? TypeImplicitSha256Digest)%N then rev r else n) in
        let e := mkEvent (Some target) (Some deadline) (Some raw) (Some cov) (Some i) None None None (i_app_param i) None None None None None in
        match search_cache p e with
        | Some (b :: w) => Ok [AReply (b :: w)]
        | _ =>
            if negb (i_sig_type i =? SigNone)%Z || match i_app_param i with Some _ => true | None => false end then
              let '(ok, e') := validate (p_valid_int p) e in
              Ok (if ok then [AHandle e'] else [])
            else Ok [AHandle e]
        end
    end.

  (** 172-181 *)
  Definition int_config (p : point) (cfg : option interest_config) (nonce : N) : interest_config :=
    match cfg with
    | Some c => c
    | None => mkIC (p_cbp p) (p_mbf p) None (Some nonce) (Some (p_life p)) None
    end.

  Definition cached_event (x : option (mnode D)) (w : wire) (d : list value) (cov : wire) : event :=
    mkEvent x None (Some w) (Some cov) None (Some d) None None (d_content d) None (Some VrCachedData) (Some true) None (Some SData).
  Definition status_event (s : status) : event :=
    mkEvent None None None None None None None None None None None None None (Some s).

  (** NeedCallback up to the call of Express, 162-258: the actions, and whether nil is returned.  The panic for
      a node of another tree is not modelled.  [F] is the fuel of the parser. *)
  Definition need (F : nat) (p : point) (x : mnode D) (app : option wire) (cfg : option interest_config) (supress : bool) (nonce : N)
    : res (list action * bool) :=
    let c := int_config p cfg nonce in
    let e := mkEvent (Some x) None None None None None (Some c) None app None None None None None in
    let sg := get_signer (p_signers p) e in
    let cached := match sg, app with None, None => search_cache p e | _, _ => None end in
    do hit <- match cached with
              | Some w =>
                  match read_data F (new_wire_reader w) with
                  | Ok (d, cov) => do t <- refine x (the_name (d_name d)); Ok (Some (cached_event t w d cov))
                  | Err _ => Ok None
                  | Panic => Panic
                  | Hang => Hang
                  end
              | None => Ok None
              end;
    match hit with
    | Some ev => Ok ([ACall ev], true)
    | None =>
        match make_interest sha256 (Some (m_name x)) (Some c) app sg with
        | Ok (w, _, fn) =>
            if p_supress p || supress then Ok ([ACall (status_event SNack)], true)
            else Ok ([AExpress w fn c], true)
        | Err _ => Ok ([ACall (status_event SNone)], false)
        | Panic => Panic
        | Hang => Hang
        end
    end.

  (** Express returned an error, 327-333 *)
  Definition express_failed : list action := [ACall (status_event SNone)].

  (** ndn.ExpressCallbackArgs, ndn.go 182-189; the engine gives no other results *)
  Inductive xargs : Type := XData (d : list value) (raw cov : wire) | XNack (reason : N) | XTimeout.

  (** the callback given to Express, 269-326; [deadline] is as computed in 251-256.  The code uses one event
      for all calls of this callback; here each call has its own. *)
  Definition need_result (p : point) (x : mnode D) (deadline : option Z) (a : xargs) : res (list action) :=
    let e := mkEvent (Some x) deadline None None None None None None None None None (Some false) None None in
    match a with
    | XNack reason => Ok [ACall (mkEvent (Some x) deadline None None None None None None None (Some reason) None (Some false) None (Some SNack))]
    | XTimeout => Ok [ACall (finished STimeout None None e)]
    | XData d raw cov =>
        do t <- refine x (the_name (d_name d));
        let e1 := mkEvent t deadline (Some raw) (Some cov) None (Some d) None None (d_content d) None None (Some false) None None in
        let '(ok, e2) := validate (p_valid_data p) e1 in
        if ok then
          let e3 := finished SData (d_content d) (d_freshness d) e2 in
          Ok [ASave e3; ACall e3]
        else Ok [ACall (finished SUnverified None None e2)]
    end.

  (** LeafNode, leaf_node.go 13-21 *)
  Record leaf : Type := mkLeaf {
    l_signers : list (event -> option signer);
    l_type : N;
    l_fresh : Z;
    l_valid : Z }.

  (** Provide, leaf_node.go 29-79: the actions and what is returned *)
  Definition provide (l : leaf) (x : mnode D) (content : option wire) (cfg : option data_config) (now : Z) : res (list action * option wire) :=
    let c := match cfg with Some c => c | None => mkDC (Some (l_type l)) (Some (l_fresh l)) None end in
    let e := mkEvent (Some x) None None None None None None (Some c) content None None None None None in
    match make_data (Some (m_name x)) (Some c) content (get_signer (l_signers l) e) with
    | Ok (w, _) =>
        Ok ([ASave (mkEvent (Some x) (Some (now + l_valid l)%Z) (Some w) None None None None (Some c) content None None (Some true) (Some (l_valid l)) None)], Some w)
    | Err _ => Ok ([], None)
    | Panic => Panic
    | Hang => Hang
    end.

  (** onSearch, basic_policies.go 157-160.  Get does not fail on a storage filled by Put (C39). *)
  Definition mem_search (ord : nat -> list (key * nat) -> list (key * nat)) (h : store entry) (now : Z) (e : event) : option wire :=
    match ev_target e, ev_int_cfg e with
    | Some x, Some c => match s_get ord h now (m_name x) (ic_prefix c) (ic_fresh c) with Ok r => r | _ => None end
    | _, _ => None
    end.

  (** onSave, basic_policies.go 162-166 *)
  Definition mem_save (h : store entry) (now : Z) (e : event) : res (store entry) :=
    match ev_dur e, ev_target e with
    | Some d, Some x => s_put h (m_name x) (match ev_raw e with Some w => w | None => [] end) (now + d)%Z
    | _, _ => Panic
    end.

  (** the channel of NeedChan, 337-355: capacity 1.  A blocked send is [Hang], sending on a closed channel
      panics. *)
  Record nchan : Type := mkChan { c_buf : list event; c_closed : bool }.
  Definition new_chan : nchan := mkChan [] false.
  Definition chan_callback (c : nchan) (e : event) : res nchan :=
    match ev_status e with
    | None => Panic
    | Some _ =>
        if c_closed c then Panic
        else match c_buf c with
             | [] => Ok (mkChan [e] true)
             | _ => Hang
             end
    end.
End Need.
Arguments mkEvent {D}. Arguments ev_target {D}. Arguments ev_deadline {D}. Arguments ev_raw {D}. Arguments ev_cov {D}. Arguments ev_int {D}.
Arguments ev_data {D}. Arguments ev_int_cfg {D}. Arguments ev_data_cfg {D}. Arguments ev_content {D}. Arguments ev_nack {D}. Arguments ev_valid {D}.
Arguments ev_self {D}. Arguments ev_dur {D}. Arguments ev_status {D}. Arguments with_valid {D}. Arguments finished {D}. Arguments with_int_cfg {D}.
Arguments mkPoint {D}. Arguments p_valid_int {D}. Arguments p_valid_data {D}. Arguments p_search {D}. Arguments p_signers {D}. Arguments p_cbp {D}.
Arguments p_mbf {D}. Arguments p_life {D}. Arguments p_supress {D}. Arguments ACall {D}. Arguments ASave {D}. Arguments AHandle {D}. Arguments AReply {D}.
Arguments AExpress {D}. Arguments accept_verdict {D}. Arguments validate {D}. Arguments search_cache {D}. Arguments get_signer {D}. Arguments on_interest {D}.
Arguments int_config {D}. Arguments cached_event {D}. Arguments status_event {D}. Arguments need {D}. Arguments express_failed {D}. Arguments need_result {D}.
Arguments mkLeaf {D}. Arguments l_signers {D}. Arguments l_type {D}. Arguments l_fresh {D}. Arguments l_valid {D}. Arguments provide {D}.
Arguments mem_search {D}. Arguments mem_save {D}. Arguments mkChan {D}. Arguments c_buf {D}. Arguments c_closed {D}. Arguments new_chan {D}. Arguments chan_callback {D}.
