(** Rules for user code. *)
From Verif Require Import Base LockModel.

(** Where code runs: on its own; while a schema tree is locked (in a handler of a tree, in an attach
    or detach listener, between RLock and RUnlock); in the function that SvSync calls for updates, or in
    a validator of something that is fetched; in a callback of Express. *)
Inductive place : Type := Alone | InTree | InUpdate | InCallback.

(** The rules.  In a callback of Express: no Express, and nothing that expresses or waits for a
    tree, a sync node or an SvSync; start a goroutine for that.  While a tree is locked: nothing
    that locks a tree.  In the function called for updates and in validators: no call of an
    SvSync, nothing that locks a tree.  A channel of missing data is read elsewhere, by a goroutine
    that takes no lock ([KTake] is not used). *)
Fixpoint rules (p : place) (c : call) : bool :=
  match c with
  | KSend _ | KAttachHandler _ | KDetachHandler _ | KSearch _ | KSave _ => true
  | KGo l => forallb (rules Alone) l
  | KExpress _ | KCommand _ => match p with InCallback => false | _ => true end
  | KFetch _ _ v => match p with InCallback => false | _ => forallb (rules InUpdate) v end
  | KSyncInt _ _ _ | KSyncTimer _ _ _ | KNewData _ _ _ | KNodeAttach _ _ | KNodeDetach _ _ =>
      match p with InCallback => false | _ => true end
  | KResult _ cbs => match p with InCallback => false | _ => forallb (forallb (rules InCallback)) cbs end
  | KInterest _ h => match p with InCallback => false | _ => forallb (rules p) h end
  | KMove _ fs => match p with InCallback => false | _ => forallb (rules p) fs end
  | KTreeInterest _ _ l | KTreeAttach _ _ l | KTreeDetach _ _ l | KRLock _ l =>
      match p with Alone => forallb (rules InTree) l | _ => false end
  | KPutNode _ => match p with Alone => true | _ => false end
  | KSvIncr _ _ | KSvGet _ | KSvTick _ _ => match p with Alone | InTree => true | _ => false end
  | KSvInterest _ _ ups => match p with InCallback => false | _ => forallb (rules InUpdate) ups end
  | KTake _ => false
  end.

(** every goroutine has come to its end *)
Definition all_done (s : lst) : Prop := forall g, In g (l_gs s) -> g_code g = [] /\ g_held g = [].

(** something can go on *)
Definition goes_on (cap : nat) (s : lst) : Prop := exists e s', lstep cap s e = Some s'.

(** every goroutine that has not come to its end has to wait for ever: no step is possible but taking
    from the channel *)
Definition stuck (cap : nat) (s : lst) : Prop := forall i, gstep cap s i = None.

(** how much there is to do *)
Fixpoint lsize (o : lop) : nat :=
  match o with
  | OAcq _ => 2
  | OPush _ => 2
  | OCall p => S (S ((fix sum (l : list lop) : nat := match l with [] => 0 | x :: r => lsize x + sum r end) p))
  | OGo p => S ((fix sum (l : list lop) : nat := match l with [] => 0 | x :: r => lsize x + sum r end) p)
  | _ => 1
  end.
Definition total (s : lst) : nat :=
  fold_right (fun g n => fold_right (fun o m => lsize o + m) 0 (g_code g) + n) (List.length (l_ch s)) (l_gs s).
