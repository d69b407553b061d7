(** C09-C11, C45, C46: text (URI) forms of names.  Statements only.
    Strings are byte lists; [str] below is only used in examples. *)
From Coq Require Import String Ascii.
From Verif Require Import Base BaseProofs PrimModel NameModel NameProofs TextModel TextProofs TextProofs2 TextProofs3.

Definition str (s : string) : buf := map N_of_ascii (list_ascii_of_string s).

(** C09.  CanonicalString round trip: every type 1..65535, every value. *)
Theorem C09_canonical_roundtrip : forall c, comp_ok c -> (1 <= ctyp c <= 65535)%N ->
  comp_from_str (comp_canonical c) = Ok c.
Proof. exact comp_canonical_roundtrip. Qed.
Print Assumptions C09_canonical_roundtrip.

(** String round trip of components and names; components of the types seg, off, v,
    t, seq (50, 52, 54, 56, 58) have to hold a shortest-form number. *)
Theorem C09_component_roundtrip : forall c, comp_ok c -> (1 <= ctyp c <= 65535)%N ->
  (In (ctyp c) [50; 52; 54; 56; 58]%N -> exists x, (x < 2 ^ 64)%N /\ cval c = nat_enc x) ->
  comp_from_str (comp_str c) = Ok c.
Proof. intros c H1 H2 H3. exact (comp_str_roundtrip c (conj H1 (conj H2 H3))). Qed.
Print Assumptions C09_component_roundtrip.

Theorem C09_name_roundtrip : forall n,
  Forall (fun c => comp_ok c /\ (1 <= ctyp c <= 65535)%N /\
    (In (ctyp c) [50; 52; 54; 56; 58]%N -> exists x, (x < 2 ^ 64)%N /\ cval c = nat_enc x)) n ->
  name_from_str (name_str n) = Ok n.
Proof. exact name_str_roundtrip. Qed.
Print Assumptions C09_name_roundtrip.

Example C09_example :
  let n := [mkComp 8 []; mkComp 8 [47; 61; 97; 255]; mkComp 54 [1; 0]; mkComp 300 [46]; mkComp 2 [10; 255]; mkComp 8 []]%N in
  name_str n = str "//%2F%3Da%FF/v=256/300=./params-sha256=0aff//" /\ name_from_str (name_str n) = Ok n.
Proof. split; vm_compute; reflexivity. Qed.

(** C10, full statement: [name_str n = name_str m -> n = m].  Exactly which names
    collide: those that differ only in seg/off/v/t/seq components of the same type
    whose values are the same number modulo 2^64. *)
Theorem C10_component_collisions_partial : forall c d, comp_ok c -> comp_ok d ->
  (comp_str c = comp_str d <->
   c = d \/ (In (ctyp c) [50; 52; 54; 56; 58]%N /\ ctyp c = ctyp d /\ number_val c = number_val d)).
Proof. exact comp_str_collisions. Qed.
Print Assumptions C10_component_collisions_partial.

Theorem C10_name_collisions_partial : forall n m, Forall comp_ok n -> Forall comp_ok m ->
  (name_str n = name_str m <->
   Forall2 (fun c d => c = d \/ (In (ctyp c) [50; 52; 54; 56; 58]%N /\ ctyp c = ctyp d /\ number_val c = number_val d)) n m).
Proof. exact name_str_collisions. Qed.
Print Assumptions C10_name_collisions_partial.

(** CanonicalString identifies the component, for all types up to 2^64-1. *)
Theorem C10_canonical_injective : forall c d, comp_ok c -> comp_ok d ->
  comp_canonical c = comp_canonical d -> c = d.
Proof. exact comp_canonical_inj. Qed.
Print Assumptions C10_canonical_injective.

Theorem C10_string_injective_refuted : exists n m, Forall comp_ok n /\ Forall comp_ok m /\ n <> m /\ name_str n = name_str m.
Proof.
  exists [mkComp 50 [1]]%N, [mkComp 50 [0; 1]]%N. split; [repeat constructor|]. split; [repeat constructor|].
  split; [discriminate|vm_compute; reflexivity].
Qed.
Print Assumptions C10_string_injective_refuted.

Example C10_example : name_str [mkComp 50 [1]; mkComp 8 [9]]%N = str "/seg=1/%09"
  /\ comp_canonical (mkComp 50 [0; 1])%N = str "50=%00%01".
Proof. split; vm_compute; reflexivity. Qed.

(** C11, full statement: all parsers return.  ComponentFromStr panics exactly on
    the strings "=..." with a single '='. *)
Theorem C11_component_partial : forall s,
  (comp_from_str s = Panic <-> exists t, s = chEq :: t /\ ~ In chEq t) /\ comp_from_str s <> Hang.
Proof. exact comp_from_str_panics. Qed.
Print Assumptions C11_component_partial.

(** The other parsers return when no component starts with '=' (or '<=' in
    patterns) and the pattern is not the empty string.
    [starts_component w s]: [w] is at the start of [s] or right behind a '/'. *)
Theorem C11_name_partial : forall s, ~ starts_component [chEq] s -> returns (name_from_str s).
Proof. exact name_from_str_returns. Qed.
Print Assumptions C11_name_partial.

Theorem C11_pattern_component_partial : forall s, (forall t, s <> chEq :: t) -> (forall t, s <> chLt :: chEq :: t) ->
  returns (pat_from_str s).
Proof. exact pat_from_str_returns. Qed.
Print Assumptions C11_pattern_component_partial.

Theorem C11_pattern_partial : forall s, s <> [] -> ~ starts_component [chEq] s -> ~ starts_component [chLt; chEq] s ->
  returns (np_from_str s).
Proof. exact np_from_str_returns. Qed.
Print Assumptions C11_pattern_partial.

Theorem C11_parsers_panic_refuted :
  comp_from_str (str "=x") = Panic /\ name_from_str (str "/a/=x") = Panic /\
  pat_from_str (str "<=x>") = Panic /\ np_from_str (str "/a/<=x>") = Panic /\ np_from_str (str "") = Panic.
Proof. vm_compute. repeat split; reflexivity. Qed.
Print Assumptions C11_parsers_panic_refuted.

Example C11_example : ~ starts_component [chEq] (str "/a=b") /\ name_from_str (str "/a=b") = Err EFormat.
Proof.
  split; [|vm_compute; reflexivity]. intros (a & b & E & H).
  destruct H as [->|(a' & ->)]; [discriminate|]. rewrite <- app_assoc in E.
  change (str "/a=b") with [47; 97; 61; 98]%N in E. unfold chSlash, chEq in E. cbn [app] in E.
  destruct a' as [|x1 [|x2 [|x3 [|x4 a']]]]; cbn [app] in E; try discriminate; inversion E; subst;
    destruct a'; discriminate.
Qed.

(** C45, full statement: a parsed component has a type 1..65535. *)
Theorem C45_component_type_partial : forall s c, comp_from_str s = Ok c ->
  (1 <= ctyp c <= 65535)%N \/ (2 ^ 63 <= ctyp c < 2 ^ 64)%N.
Proof. exact comp_from_str_type. Qed.
Print Assumptions C45_component_type_partial.

Theorem C45_component_type_refuted : exists s c, comp_from_str s = Ok c /\ (65535 < ctyp c)%N.
Proof. exists (str "9223372036854775808=x"), (mkComp 9223372036854775808 [120])%N. split; vm_compute; reflexivity. Qed.
Print Assumptions C45_component_type_refuted.

Example C45_example : comp_from_str (str "65535=x") = Ok (mkComp 65535 [120])%N
  /\ comp_from_str (str "65536=x") = Err EFormat /\ comp_from_str (str "0=x") = Err EFormat.
Proof. repeat split; vm_compute; reflexivity. Qed.

(** C46, full statement: [np_from_str (np_str p) = Ok p] for patterns whose tags
    contain neither '=' nor '/' and whose components are as in C09.  It fails when
    the last element is an empty generic component. *)
Theorem C46_pattern_roundtrip_partial : forall p,
  Forall (fun x => match x with
    | PComp c => comp_ok c /\ (1 <= ctyp c <= 65535)%N /\
        (In (ctyp c) [50; 52; 54; 56; 58]%N -> exists v, (v < 2 ^ 64)%N /\ cval c = nat_enc v)
    | PVar t tag => (t < 2 ^ 64)%N /\ ~ In chEq tag /\ ~ In chSlash tag
    end) p ->
  (forall q, p <> q ++ [PComp (mkComp TypeGeneric [])]) -> np_from_str (np_str p) = Ok p.
Proof. exact np_str_roundtrip. Qed.
Print Assumptions C46_pattern_roundtrip_partial.

Theorem C46_element_roundtrip : forall t tag, (t < 2 ^ 64)%N -> ~ In chEq tag ->
  pat_from_str (pat_str (PVar t tag)) = Ok (PVar t tag).
Proof. exact pat_var_roundtrip. Qed.
Print Assumptions C46_element_roundtrip.

Theorem C46_trailing_empty_refuted : exists p, np_from_str (np_str p) <> Ok p /\
  Forall (fun x => exists c, x = PComp c /\ uri_ok c) p.
Proof.
  exists [PComp (mkComp 8 [97]); PComp (mkComp 8 [])]%N. split; [vm_compute; discriminate|].
  repeat constructor; eexists; (split; [reflexivity|]); (split; [repeat constructor|]); (split; [cbn [ctyp]; vm_compute; split; discriminate|]);
    intros D; unfold dec_type in D; cbn [ctyp In] in D; exfalso; repeat destruct D as [D|D]; discriminate || auto.
Qed.
Print Assumptions C46_trailing_empty_refuted.

Example C46_example : np_str [PComp (mkComp 8 [97]); PVar 8 [120]; PVar 54 [121]; PVar 9 []]%N = str "/a/<x>/<v=y>/<9=>"
  /\ np_from_str (str "/a/<x>/<v=y>/<9=>") = Ok [PComp (mkComp 8 [97]); PVar 8 [120]; PVar 54 [121]; PVar 9 []]%N.
Proof. split; vm_compute; reflexivity. Qed.
