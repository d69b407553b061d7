(** pkg/schema/rdr/pipelines.go: DataFetcher, and what Call of NeedChan is on the nodes it may be given.
    Logging is left out.  (RdrPipelineFixed.Run, 57-66, has no statement.) *)
From Verif Require Import Base NameModel TextModel TrieModel PrimModel ReaderModel CodecModel SpecModel SchemaModel NeedModel SegModel.

(** What comes of [<-mNode.Call("NeedChan").(chan schema.NeedResult)], pipelines.go 47: a result; the channel stays empty; Call
    returned an error value, so the type assertion panics (or a goroutine of the node panics). *)
Inductive asked : Type := Got (r : nres) | Never | Crash.

(** The results of DataFetcher, 42-54: the result, and the InterestConfigs the node was asked with, one for each call ([None], no argument).
    [need c j] is what trial j comes to when asked with [c]; [k] trials are left. *)
Fixpoint fetch_loop (need : option interest_config -> nat -> asked) (k : nat) (j : nat) (result : nres) (calls : list (option interest_config)) : res (nres * list (option interest_config)) :=
  match k with
  | O => Ok (result, calls)
  | S k' =>
      match need None j with
      | Got r => match r_status r with
                 | SData => Ok (r, calls ++ [None])
                 | _ => fetch_loop need k' (S j) r (calls ++ [None])
                 end
      | Never => Hang
      | Crash => Panic
      end
  end.
(** DataFetcher, 42-54.  maxRetries is an int; [no_res] is the zero value of NeedResult. *)
Definition data_fetcher (need : option interest_config -> nat -> asked) (intConfig : option interest_config) (maxRetries : Z) : res (nres * list (option interest_config)) :=
  fetch_loop need (Z.to_nat maxRetries) 0 no_res [].

Section Nodes.
  Variable D : Type.
  (** the callback of NeedChan, rdr.go 125-136 (also 360-371 and 556-567): a nil NeedStatus panics *)
  Definition chan_result (e : event D) : asked :=
    match ev_status e with
    | Some st => Got (mkRes st (ev_content e) (ev_data e) (ev_nack e) (ev_valid e))
    | None => Crash
    end.
  (** the goroutine of a Need: its end, and whether it calls the callback *)
  Definition chan_of (r : res (option (event D))) : asked :=
    match r with
    | Ok (Some e) => chan_result e
    | Ok None => Never
    | Hang => Never
    | Panic | Err _ => Crash
    end.
  (** "SinglePacket", rdr.go 114 *)
  Definition single_packet : buf := [83; 105; 110; 103; 108; 101; 80; 97; 99; 107; 101; 116]%N.
  (** SegmentedNode.NeedCallback, rdr.go 108-121, behind NeedChan without a manifest, 123-139 and 642-658 *)
  Definition seg_chan (F : nat) (pl : buf) (s : segnode) (x : mnode D) (need : name -> nat -> nres) : asked :=
    if bytes_eqb pl single_packet then chan_of (do e <- pipeline F s x [] need; Ok (Some e)) else Never.
  (** RdrNode.NeedChan without a version, rdr.go 358-374 and 723-739 *)
  Definition rdr_chan (seg_of : D -> option segnode) (F : nat) (retries : N) (x : mnode D) (need : name -> nat -> nres) : asked := chan_of (rdr_need seg_of F retries x None need).
  (** GeneralObjNode.NeedChan, rdr.go 554-570 and 798-804 *)
  Definition gen_chan (seg_of : D -> option segnode) (F : nat) (retries : N) (x : mnode D) (need : name -> nat -> nres) : asked := chan_of (gen_need seg_of F retries x need).
  (** a node whose class has no function NeedChan: Call returns an error, interface.go 348-352 *)
  Definition other_chan : asked := Crash.
End Nodes.
Arguments chan_result {D}. Arguments chan_of {D}. Arguments seg_chan {D}. Arguments rdr_chan {D}. Arguments gen_chan {D}.
