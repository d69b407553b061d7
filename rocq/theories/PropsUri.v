(** C89: the text form of names is the one of UriSpec.v, in both directions. *)
From Coq Require Import String.
From Verif Require Import Base BaseProofs PrimModel NameModel NameProofs TextModel UriSpec UriProofs.
Open Scope list_scope.

(** What String and CanonicalString write, for every component and name. *)
Theorem C89_component_text : forall c, comp_ok c -> WritesComponent (ctyp c) (cval c) (comp_str c).
Proof. exact component_written. Qed.
Print Assumptions C89_component_text.

Theorem C89_canonical_text : forall c, comp_ok c -> WritesCanonical (ctyp c) (cval c) (comp_canonical c).
Proof. exact canonical_written. Qed.
Print Assumptions C89_canonical_text.

Theorem C89_name_text : forall n, Forall comp_ok n -> exists parts,
  Forall2 (fun c p => WritesComponent (ctyp c) (cval c) p) n parts /\ name_str n = slashed parts.
Proof. exact name_written. Qed.
Print Assumptions C89_name_text.

(** What ComponentFromStr and NameFromStr accept, and what they make of it, for every string. *)
Theorem C89_component_read : forall s c, comp_from_str s = Ok c <-> ReadsComponent s (ctyp c) (cval c).
Proof. exact component_read. Qed.
Print Assumptions C89_component_read.

Theorem C89_name_read : forall s n, name_from_str s = Ok n <->
  exists parts, PartsOf s parts /\ Forall2 (fun p c => ReadsComponent p (ctyp c) (cval c)) parts n.
Proof. exact name_read. Qed.
Print Assumptions C89_name_read.

(** Every text has exactly one list of parts. *)
Theorem C89_parts_unique : forall s, exists parts, PartsOf s parts /\ forall other, PartsOf s other -> other = parts.
Proof.
  intros s. exists (TextProofs2.pieces s). split; [apply parts_iff; reflexivity|]. intros other H. apply parts_iff in H. congruence.
Qed.
Print Assumptions C89_parts_unique.

(** Patterns: variables and elements.  ([ReadsElement] is the disjunction of the next two right hand sides.) *)
Theorem C89_variable_text : forall t tag, (t < 2 ^ 64)%N -> WritesVariable t tag (pat_str (PVar t tag)) /\ (forall c, pat_str (PComp c) = comp_str c).
Proof. intros t tag U. split; [exact (variable_written t tag U)|reflexivity]. Qed.
Print Assumptions C89_variable_text.

Theorem C89_variable_canonical : forall t tag, (t < 2 ^ 64)%N ->
  WritesCanonicalVariable t tag (pat_canonical (PVar t tag)) /\ (forall c, pat_canonical (PComp c) = comp_canonical c).
Proof.
  intros t tag U. split; [|reflexivity]. unfold pat_canonical. destruct (N.eqb_spec t TypeGeneric) as [->|NG]; [left; split; reflexivity|].
  right. split; [exact NG|]. exists (fmt_dec t). split; [apply dec_written; exact U|]. rewrite <- !app_assoc. reflexivity.
Qed.
Print Assumptions C89_variable_canonical.

Theorem C89_element_read : forall s,
  (forall c, pat_from_str s = Ok (PComp c) <-> ReadsComponent s (ctyp c) (cval c) /\ (forall r, s <> open_angle :: r))
  /\ (forall t tag, pat_from_str s = Ok (PVar t tag) <-> exists inner, s = open_angle :: inner ++ [close_angle] /\ ReadsVariable inner t tag).
Proof. intros s. split; [intros c; exact (element_read s (PComp c))|intros t tag; exact (element_read s (PVar t tag))]. Qed.
Print Assumptions C89_element_read.

Theorem C89_pattern_read : forall s p, np_from_str s = Ok p <-> s <> [] /\ exists parts, PartsOf s parts /\ Forall2 ReadsElement parts p.
Proof. exact pattern_read. Qed.
Print Assumptions C89_pattern_read.

Example C89_example :
  comp_ok (mkComp 8 [97; 0; 47; 126]%N)
  /\ comp_str (mkComp 8 [97; 0; 47; 126]%N) = lit "a%00%2F~"
  /\ comp_str (mkComp 32 [97; 61]%N) = lit "32=a%3D"
  /\ comp_str (mkComp 1 [171; 205]%N) = lit "sha256digest=abcd"
  /\ comp_canonical (mkComp 1 [171; 205]%N) = lit "1=%AB%CD"
  /\ name_str [mkComp 8 [97]; mkComp 54 [1; 0]; mkComp 8 []]%N = lit "/a/v=256//"
  /\ name_from_str (lit "a/v=0256//") = Ok [mkComp 8 [97]; mkComp 54 [1; 0]; mkComp 8 []]%N
  /\ name_from_str (lit "/x:y%2f/8=z/") = Ok [mkComp 8 [120; 58; 121; 47]; mkComp 8 [122]]%N
  /\ np_from_str (lit "/<v=x>/a/<9=>") = Ok [PVar 54 [120]; PComp (mkComp 8 [97]); PVar 9 []]%N
  /\ PartsOf (lit "a/b") [lit "a"; lit "b"].
Proof.
  split; [split; [reflexivity|repeat constructor]|]. do 8 (split; [vm_compute; reflexivity|]).
  apply parts_iff. vm_compute. reflexivity.
Qed.
