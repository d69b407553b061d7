(** Vocabulary for the statements about a whole engine: what a list of calls means, without the engine. *)
From Verif Require Import Base ReaderSpec NameModel EngineSpec CodecSpec4 RecvModel LifeModel.

Section Spec.
Context {H : Type}.

(** is the engine up after these calls?  The last Start or Shutdown decides. *)
Fixpoint up_from (b : bool) (os : list (lop H)) : bool :=
  match os with
  | [] => b
  | LStart :: os' => up_from true os'
  | LShutdown :: os' => up_from false os'
  | _ :: os' => up_from b os'
  end.
Definition up : list (lop H) -> bool := up_from false.

(** the time that passes *)
Fixpoint l_elapsed (os : list (lop H)) : Z :=
  match os with
  | [] => 0
  | LTick d :: os' => (Z.of_N d + l_elapsed os')%Z
  | _ :: os' => l_elapsed os'
  end.

(** the Interests expressed, up or down: Interest number i is the i-th *)
Fixpoint l_expressed (now : Z) (os : list (lop H)) : list xint :=
  match os with
  | [] => []
  | LExpress nm cbp lifetime _ :: os' =>
      match nm with
      | [] => l_expressed now os'
      | _ => mkX nm cbp (now + match lifetime with Some l => l | None => 4000000000 end) :: l_expressed now os'
      end
  | LTick d :: os' => l_expressed (now + Z.of_N d) os'
  | _ :: os' => l_expressed now os'
  end.

(** the packets handed to the face and the packets taken from it, in order *)
Fixpoint sent (tr : list (lout H)) : list buf :=
  match tr with
  | [] => []
  | LSent w :: tr' => match w with [] => sent tr' | _ => concat w :: sent tr' end
  | _ :: tr' => sent tr'
  end.
Fixpoint taken (tr : list (lout H)) : list buf :=
  match tr with
  | [] => []
  | LPkt b :: tr' => b :: taken tr'
  | _ :: tr' => taken tr'
  end.

(** the calls of handlers, in order *)
Fixpoint calls (tr : list (lout H)) : list (H * iargs) :=
  match tr with
  | [] => []
  | LCall h a :: tr' => (h, a) :: calls tr'
  | _ :: tr' => calls tr'
  end.

(** packets that the decoder can take (C49), and handlers that are functions *)
Definition harmless (o : lop H) : Prop :=
  match o with
  | LFeed b => bytes_ok b /\ no_huge_number b /\ (zlen b < mem_limit)%Z
  | LAttach _ None => False
  | _ => True
  end.
End Spec.
