(** C69: structures and maps (ToDict, DictTo...). *)
From Verif Require Import Base NameModel CodecModel CodecLib CodecSpec CodecSpec2 DictModel DictSpec DictProofs.

(** The map has an entry for every field that is not nil, with its value, and nothing else. *)
Theorem C69_entries : forall fs vs n x, NoDup (map fst fs) -> all_fit fs vs ->
  (dict_get (to_dict fs vs) n = Some x <-> exists k v, In ((n, k), v) (combine fs vs) /\ shows k v x).
Proof.
  intros fs vs n x ND AF. split.
  - intros G. destruct (loop_inv fs vs [] n x G) as [E | (k & v & I & T)]; [discriminate|]. exists k, v. split; [exact I|]. apply entry_shows; [|exact T]. exact (fit_in _ _ _ _ _ AF I).
  - intros (k & v & I & S). rewrite (field_get fs vs n k v ND AF I). apply entry_shows; [|exact S]. exact (fit_in _ _ _ _ _ AF I).
Qed.
Print Assumptions C69_entries.

(** Reading: every field from its entry, whatever else is in the map. *)
Theorem C69_reads : forall fs d vs, from_dict fs d = DOk vs <-> Forall2 (fun f v => reads (snd f) (dict_get d (fst f)) v) fs vs.
Proof. exact from_dict_iff. Qed.
Print Assumptions C69_reads.

(** An error names the first field whose entry has another type, or that is required and missing. *)
Theorem C69_errors : forall fs d n,
  (from_dict fs d = DIncompatible n <-> exists l k r x ws, fs = l ++ (n, k) :: r /\ Forall2 (fun f v => reads (snd f) (dict_get d (fst f)) v) l ws
     /\ dict_get d n = Some x /\ forall v, ~ reads k (Some x) v)
  /\ (from_dict fs d = DSkipRequired n <-> exists l k r ws, fs = l ++ (n, k) :: r /\ Forall2 (fun f v => reads (snd f) (dict_get d (fst f)) v) l ws
     /\ dict_get d n = None /\ forall v, ~ reads k None v).
Proof. exact from_dict_err. Qed.
Print Assumptions C69_errors.

(** There and back: exactly the structures without nested structures (and without times and wires) survive. *)
Theorem C69_roundtrip_partial : forall fs vs, NoDup (map fst fs) -> all_fit fs vs ->
  (from_dict fs (to_dict fs vs) = DOk vs <-> Forall2 (fun f v => lossy (snd f) = true -> v = VNone) fs vs).
Proof. intros fs vs ND AF. rewrite from_dict_iff. apply read_back; [exact ND|exact AF|]. intros n k v _ F. apply entry_read. exact F. Qed.
Print Assumptions C69_roundtrip_partial.

(** With a nested structure, reading fails at the first one. *)
Theorem C69_struct_refuted : forall l n t sub r vl ws vr, NoDup (map fst (l ++ (n, DKStruct t sub) :: r)) ->
  all_fit l vl -> Forall2 (fun f v => lossy (snd f) = true -> v = VNone) l vl -> all_fit r vr ->
  from_dict (l ++ (n, DKStruct t sub) :: r) (to_dict (l ++ (n, DKStruct t sub) :: r) (vl ++ VStruct ws :: vr)) = DIncompatible n.
Proof.
  intros l n t sub r vl ws vr ND AL LL AR. set (fs := l ++ (n, DKStruct t sub) :: r) in *. set (vs := vl ++ VStruct ws :: vr).
  assert (AF : all_fit fs vs) by (apply Forall2_app; [exact AL|constructor; [exact Logic.I|exact AR]]).
  assert (LEN : length l = length vl) by (clear - AL; induction AL; cbn [length]; congruence).
  assert (CI : forall f v, In (f, v) (combine l vl) -> In (f, v) (combine fs vs)).
  { unfold fs, vs. clear - LEN. revert vl LEN. induction l as [|a l IH]; intros [|b vl] LEN f v I; try discriminate; try destruct I. 
    - left. exact H.
    - right. apply IH; [cbn [length] in LEN; congruence|exact H]. }
  apply from_dict_err. exists l, (DKStruct t sub), r, (DMap (to_dict sub ws)), vl. split; [reflexivity|]. split; [|split].
  - assert (G : forall m k v, In ((m, k), v) (combine l vl) -> reads k (dict_get (to_dict fs vs) m) v).
    { intros m k v I. rewrite (field_get fs vs m k v ND AF (CI _ _ I)). apply entry_read; [exact (fit_in _ _ _ _ _ AL I)|].
      clear - LL I. induction LL as [|f w l vl H LL IH]; [destruct I|]. destruct I as [E | I]; [|exact (IH I)]. injection E as -> ->. exact H. }
    revert G. generalize (to_dict fs vs). intros d G. clear - G LEN. revert vl LEN G. induction l as [|[m k] l IH]; intros [|v vl] LEN G; try discriminate; constructor.
    + apply G. left. reflexivity.
    + apply IH; [cbn [length] in LEN; congruence|]. intros m' k' v' I. apply G. right. exact I.
  - apply C69_entries; [exact ND|exact AF|]. exists (DKStruct t sub), (VStruct ws). split; [|constructor].
    unfold fs, vs. clear - LEN. revert vl LEN. induction l as [|a l IH]; intros [|b vl] LEN; try discriminate; [left; reflexivity|right; apply IH; cbn [length] in LEN; congruence].
  - intros v R. inversion R.
Qed.
Print Assumptions C69_struct_refuted.

(** The library: arguments of management commands without a strategy, responses without parameters. *)
Theorem C69_args_partial : forall args, fs_shape (m_fields mgmt_ControlArgs) args ->
  (from_dict dict_ControlArgs (to_dict dict_ControlArgs args) = DOk args <-> nth 10 args VNone = VNone).
Proof.
  intros args SH. assert (AF : all_fit dict_ControlArgs args).
  { unfold fs_shape in SH. unfold all_fit, dict_ControlArgs. cbn [m_fields mgmt_ControlArgs] in SH.
    repeat match goal with H : Forall2 _ (_ :: _) _ |- _ => inversion H as [|? ? ? ? ?S ?SS]; subst; clear H | H : Forall2 _ [] _ |- _ => inversion H; subst; clear H end.
    repeat (constructor; [cbn [snd] in *; match goal with S : shape ?k ?v |- fits _ ?v => destruct v; cbn in S; cbn; tauto end|]). constructor. }
  rewrite C69_roundtrip_partial; [|vm_compute; repeat constructor; cbn; intuition discriminate|exact AF].
  unfold all_fit, dict_ControlArgs in *. 
  repeat match goal with H : Forall2 _ (_ :: _) _ |- _ => inversion H as [|? ? ? ? ?S ?SS]; subst; clear H | H : Forall2 _ [] _ |- _ => inversion H; subst; clear H end.
  cbn [nth]. split.
  - intros H. do 10 (inversion H as [|? ? ? ? _ H1]; subst; clear H; rename H1 into H). inversion H as [|? ? ? ? L _]; subst. apply L. reflexivity.
  - intros ->. repeat (constructor; [cbn [snd lossy]; try discriminate; reflexivity|]). constructor.
Qed.
Print Assumptions C69_args_partial.

Theorem C69_response_partial : forall code text params, params = VNone \/ (exists args, params = VStruct args) ->
  (from_dict dict_ControlResponseVal (to_dict dict_ControlResponseVal [VNat code; VBytes text; params]) = DOk [VNat code; VBytes text; params] <-> params = VNone).
Proof.
  intros code text params H. rewrite C69_roundtrip_partial.
  - split; [intros F; inversion F as [|? ? ? ? _ F1]; inversion F1 as [|? ? ? ? _ F2]; inversion F2 as [|? ? ? ? L _]; apply L; reflexivity|]. intros ->. repeat constructor; cbn; discriminate.
  - vm_compute; repeat constructor; cbn; intuition discriminate.
  - repeat constructor. destruct H as [-> | (args & ->)]; exact Logic.I.
Qed.
Print Assumptions C69_response_partial.

(** Two Go types of unsigned integers are different: a number of another width, or a signed one, is refused. *)
Example C69_example : let args := [VName [mkComp 8 [97%N]]; VNat 5; VNone; VBytes [120%N]; VNone; VNone; VNone; VNone; VNone; VNone; VNone; VNone; VNone; VNone; VNone; VNat 9000] in
  fs_shape (m_fields mgmt_ControlArgs) args
  /\ to_dict dict_ControlArgs args = [([78; 97; 109; 101], DName (Some [mkComp 8 [97]])); ([70; 97; 99; 101; 73; 100], DUint 8 5); ([76; 111; 99; 97; 108; 85; 114; 105], DStr [120]); ([77; 116; 117], DUint 8 9000)]%N
  /\ from_dict dict_ControlArgs (to_dict dict_ControlArgs args) = DOk args
  /\ from_dict dict_ControlArgs [([77; 116; 117], DUint 4 9000)]%N = DIncompatible [77; 116; 117]%N
  /\ from_dict dict_ControlArgs [([77; 116; 117], DAny 0); ([70; 97; 99; 101; 73; 100], DStr [])]%N = DIncompatible [70; 97; 99; 101; 73; 100]%N
  /\ from_dict dict_ControlResponseVal [] = DSkipRequired [83; 116; 97; 116; 117; 115; 67; 111; 100; 101]%N
  /\ from_dict dict_ControlResponseVal (to_dict dict_ControlResponseVal [VNat 200; VBytes [79; 75]; VStruct args]%N) = DIncompatible [80; 97; 114; 97; 109; 115]%N.
Proof. split; [repeat constructor|]. repeat split; vm_compute; reflexivity. Qed.
