(** What users of the nodes of a schema rely on. *)
From Verif Require Import Base NameModel SpecModel SpecSpec SchemaModel NeedModel.

(** a verdict that ends the validation *)
Inductive decisive : verdict -> Prop :=
| DecOther : decisive NoVerdict
| DecFail : forall z, (z < 0)%Z -> decisive (Verdict z)
| DecBypass : forall z, (2 <= z)%Z -> decisive (Verdict z).

Section Spec.
  Variable D : Type.

  (** the verdicts of the validators that are asked, in order: each sees the verdict before its own *)
  Inductive asked : list (event D -> verdict) -> event D -> list verdict -> Prop :=
  | AskNone : forall e, asked [] e []
  | AskStop : forall f fs e, decisive (f e) -> asked (f :: fs) e [f e]
  | AskNext : forall f fs e z l, f e = Verdict z -> ~ decisive (f e) -> asked fs (with_valid z e) l -> asked (f :: fs) e (f e :: l).

  (** how often the callback of Need is called *)
  Definition calls (l : list (action D)) : nat := length (filter (fun a => match a with ACall _ => true | _ => false end) l).
  Definition expressed_in (l : list (action D)) : nat := length (filter (fun a => match a with AExpress _ _ _ => true | _ => false end) l).
End Spec.
Arguments asked {D}. Arguments calls {D}. Arguments expressed_in {D}.

(** the rule applied: the last validator asked passes *)
Definition accepted (l : list verdict) : Prop := exists l' z, l = l' ++ [Verdict z] /\ (0 < z)%Z.
(** the rule of the documentation of ValidRes: at least one pass and no failure *)
Definition valid_by_rule (l : list verdict) : Prop :=
  (exists z, In (Verdict z) l /\ (0 < z)%Z) /\ (forall v, In v l -> exists z, v = Verdict z /\ (0 <= z)%Z).

(** the first search listener that has something *)
Definition has_something (r : option wire) : Prop := exists b w, r = Some (b :: w).
Inductive finds {E : Type} (e : E) : list (E -> option wire) -> wire -> Prop :=
| FindHere : forall f fs b w, f e = Some (b :: w) -> finds e (f :: fs) (b :: w)
| FindLater : forall f fs w, ~ has_something (f e) -> finds e fs w -> finds e (f :: fs) w.

(** the event of a Need that was answered from a storage with the packet of these fields *)
Definition answered_with {D} (ev : event D) (x : mnode D) (w : wire) (n : name) (c : data_config) (content : option wire) (osc : option sig_config) (osig : option buf) : Prop :=
  ev_status ev = Some SData /\ ev_raw ev = Some w /\ ev_target ev = Some x
  /\ option_map (@concat N) (ev_content ev) = option_map (@concat N) content
  /\ exists d, ev_data ev = Some d /\ data_reads n c content osc osig d.
