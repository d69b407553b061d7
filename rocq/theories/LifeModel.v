(** An application's engine as a whole, on the face of pkg/engine/dummy: Start and Shutdown of
    pkg/engine/basic/default_engine.go with the parts modelled elsewhere (Express, handlers, onPacket, Reply,
    the timers, the face).  A history is a list of calls; each call runs to its end before the next one starts
    (schedules of concurrent calls: LockModel, FaceModel). *)
From Verif Require Import Base PrimModel ReaderModel NameModel TrieModel EngineModel FibModel CodecModel SpecModel RecvModel DummyModel.

Section Life.
Variable sha256 : buf -> buf.
Variable H : Type.

(** the face, the tables of the engine, and the calls of handlers so far: their arguments can be kept, to reply later *)
Record life : Type := mkLife { lf_face : dface; lf_node : node H; lf_calls : list (H * iargs) }.

(** NewEngine, default_engine.go 534-551, and NewDummyFace, dummy/transports.go 87-89 *)
Definition l_new : life := mkLife df_new (mkNode eng_new fib_new) [].

Inductive lop : Type :=
| LStart
| LShutdown
| LExpress (nm : name) (cbp : bool) (lifetime : option Z) (w : wire)
| LAttach (nm : name) (h : option H)
| LDetach (nm : name)
| LFeed (b : buf)                       (* FeedPacket at the face *)
| LConsume                              (* Consume at the face *)
| LReply (k : nat) (data : option wire) (* Reply of the k-th call of a handler *)
| LTick (d : N) | LFire (id : nat) | LRun (id : nat). (* time and timers, as in EngineModel *)

(** what the caller sees; [LSent w]: no error, and [w] was handed to the face *)
Inductive lout : Type := LNil | LErr | LSent (w : wire) | LPkt (b : buf) | LCall (h : H) (a : iargs).

Definition ok_or_err (b : bool) : lout := if b then LNil else LErr.
Definition is_dnil (r : dout) : bool := match r with DNil => true | _ => false end.

(** face.Send(w) at the end of Express, 441, and of Reply, 256 *)
Definition send_out (s : life) (w : wire) : life * lout :=
  let '(f, r) := df_step (lf_face s) (DSend w) in
  (mkLife f (lf_node s) (lf_calls s), if is_dnil r then LSent w else LErr).

Definition eng_step (s : life) (o : eop) : res (life * lout) :=
  do g <- e_step (n_eng (lf_node s)) o; Ok (mkLife (lf_face s) (mkNode g (n_fib (lf_node s))) (lf_calls s), LNil).

Definition l_step (s : life) (o : lop) : res (life * lout) :=
  let nd := lf_node s in
  match o with
  | LStart => (* 348-360 *)
      if df_running (lf_face s) then Ok (s, LErr)
      else
        let f1 := fst (df_step (lf_face s) DSetCallback) in
        let '(f2, r) := df_step f1 DOpen in
        Ok (mkLife f2 nd (lf_calls s), ok_or_err (is_dnil r))
  | LShutdown => (* 362-368 *)
      if negb (df_running (lf_face s)) then Ok (s, LErr)
      else
        let '(f, r) := df_step (lf_face s) DClose in
        Ok (mkLife f nd (lf_calls s), ok_or_err (is_dnil r))
  | LExpress nm cbp lifetime w => (* 370-449 *)
      do r <- e_express (n_eng nd) nm cbp lifetime;
      match r with
      | None => Ok (s, LErr)
      | Some g => Ok (send_out (mkLife (lf_face s) (mkNode g (n_fib nd)) (lf_calls s)) w)
      end
  | LAttach nm h => (* 85-98 *)
      do r <- f_attach (n_fib nd) nm h; Ok (mkLife (lf_face s) (mkNode (n_eng nd) (fst r)) (lf_calls s), ok_or_err (snd r))
  | LDetach nm => (* 100-110 *)
      do r <- f_detach (n_fib nd) nm; Ok (mkLife (lf_face s) (mkNode (n_eng nd) (fst r)) (lf_calls s), ok_or_err (snd r))
  | LFeed b => (* dummy/transports.go 50-56, onPacket *)
      if df_running (lf_face s) then
        do r <- node_recv sha256 (S (length b)) nd b;
        match snd r with
        | Some (h, a) => Ok (mkLife (lf_face s) (fst r) (lf_calls s ++ [(h, a)]), LCall h a)
        | None => Ok (mkLife (lf_face s) (fst r) (lf_calls s), LNil)
        end
      else Ok (s, LErr)
  | LConsume => (* dummy/transports.go 58-69 *)
      let '(f, r) := df_step (lf_face s) DConsume in
      Ok (mkLife f nd (lf_calls s), match r with DPkt b => LPkt b | _ => LErr end)
  | LReply k data => (* 232-259 *)
      match nth_error (lf_calls s) k with
      | None => Ok (s, LErr)
      | Some (_, a) =>
          do r <- reply a (g_now (n_eng nd)) (df_running (lf_face s)) data;
          Ok (match r with RSent w => send_out s w | _ => (s, LErr) end)
      end
  | LTick d => eng_step s (ETick d)
  | LFire id => eng_step s (EFire id)
  | LRun id => eng_step s (ERun id)
  end.

Fixpoint l_run (s : life) (os : list lop) : res (life * list lout) :=
  match os with
  | [] => Ok (s, [])
  | o :: os' => do r <- l_step s o; do t <- l_run (fst r) os'; Ok (fst t, snd r :: snd t)
  end.
End Life.
Arguments mkLife {H}. Arguments lf_face {H}. Arguments lf_node {H}. Arguments lf_calls {H}. Arguments l_new {H}.
Arguments LStart {H}. Arguments LShutdown {H}. Arguments LExpress {H}. Arguments LAttach {H}. Arguments LDetach {H}.
Arguments LFeed {H}. Arguments LConsume {H}. Arguments LReply {H}. Arguments LTick {H}. Arguments LFire {H}. Arguments LRun {H}.
Arguments LNil {H}. Arguments LErr {H}. Arguments LSent {H}. Arguments LPkt {H}. Arguments LCall {H}. Arguments ok_or_err {H}.
Arguments send_out {H}. Arguments eng_step {H}. Arguments l_step _ {H}. Arguments l_run _ {H}.
