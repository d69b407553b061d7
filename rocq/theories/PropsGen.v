(** C77: the generator makes of a structure what its annotations say. *)
From Coq Require Import String Ascii Permutation.
From Verif Require Import Base CodecModel CodecLib GenModel GenSpec GenSrc GenProofs.
Local Open Scope string_scope.

(** Every kind of field that can be written is read back from its annotation, with its name and
    type number, in whatever order Go walks through its table of classes. *)
Theorem C77_annotation : forall ord nc name n k, any_order ord -> writable nc k ->
  parse_field ord name n (text k) nc = Some (mkG name (type_of k n) k).
Proof. exact parse_field_text. Qed.
Print Assumptions C77_annotation.

(** The type number in a tag, in decimal or hexadecimal, is the type number of the field. *)
Theorem C77_tag : forall tag n, tag_says tag n -> parse_tag tag = n.
Proof. exact parse_tag_says. Qed.
Print Assumptions C77_tag.

(** The result never depends on the order of the table: not for any annotation, right or wrong. *)
Theorem C77_order : forall ord1 ord2 d, any_order ord1 -> any_order ord2 ->
  process_decl ord1 d = process_decl ord2 d.
Proof. exact process_decl_same. Qed.
Print Assumptions C77_order.

(** A structure whose fields are plain or correctly annotated becomes a model with its name, its
    options and exactly its annotated fields, in order; one without annotations is left alone. *)
Theorem C77_partial : forall ord doc name rest os fs gs, any_order ord ->
  options_say doc os -> Forall2 (field_says (existsb (String.eqb "nocopy") os)) fs gs ->
  process_decl ord (mkDecl doc (mkSpec name (Some fs) :: rest)) = Ok (described name os (List.concat gs)).
Proof. exact process_decl_says. Qed.
Print Assumptions C77_partial.

(** The structures of the library, read from the text of its source files, are those of CodecLib:
    what is proved of the codecs is proved of them. *)
Theorem C77_library : forall ord, any_order ord ->
  Permutation (models_of ord sources) (map Some library).
Proof.
  intros ord O.
  assert (E : models_of ord sources = models_of (fun _ _ _ => class_table) sources).
  { unfold models_of. apply flat_map_ext. intros ds.
    replace (process_all ord ds) with (process_all (fun _ _ _ => class_table) ds); [reflexivity|].
    induction ds as [|d ds IH]; [reflexivity|]. cbn [process_all].
    now rewrite (process_decl_same ord _ d O in_order), IH. }
  rewrite E. clear E.
  set (l := models_of (fun _ _ _ => class_table) sources).
  assert (E : l = (firstn 42 (map Some library) ++ [Some sync_StateVectorAppParam; Some sync_StateVector;
                    Some sync_StateVectorEntry] ++ skipn 45 (map Some library))%list)
    by (vm_compute; reflexivity).
  rewrite E. rewrite <- (firstn_skipn 42 (map Some library)) at 3.
  apply Permutation_app_head.
  change (skipn 42 (map Some library)) with
    ([Some sync_StateVectorEntry; Some sync_StateVector; Some sync_StateVectorAppParam] ++ skipn 45 (map Some library))%list.
  apply Permutation_app_tail.
  apply (Permutation_rev [Some sync_StateVectorAppParam; Some sync_StateVector; Some sync_StateVectorEntry]).
Qed.
Print Assumptions C77_library.

(** ** Non-trivial cases *)

(** a sequence of maps, with the option nocopy needed for what it holds *)
Example C77_annotation_ex :
  writable true (GSeq "x" (GMap "string" (GStr false) 300 "*T" (GStruct "T" true)))
  /\ text (GSeq "x" (GMap "string" (GStr false) 300 "*T" (GStruct "T" true)))
     = "sequence:x:map:string:string:0x12c:*T:struct:T:nocopy".
Proof.
  split; [|vm_compute; reflexivity].
  cbn [writable]. repeat split; try discriminate. right. discriminate.
Qed.

Example C77_tag_ex : tag_says (Some "`json:""a"" tlv:""0x032C""`") 812
  /\ tag_says (Some "`tlv:""201""`") 201.
Proof.
  split.
  - split; [reflexivity|]. exists "`json:""a"" ", "`", "0x032C". split; [reflexivity|]. split.
    + intros a b E. repeat (destruct a as [|? a]; [discriminate E|injection E as _ E]). destruct a; discriminate E.
    + right. exists 1%nat. reflexivity.
  - split; [reflexivity|]. exists "`", "`", "201". split; [reflexivity|]. split.
    + intros a b E. destruct a as [|? a]; [discriminate E|]. injection E as _ E. destruct a; discriminate E.
    + left. reflexivity.
Qed.

(** a structure with two options, a plain field, an embedded one and two annotated ones *)
Definition ex_doc : list string := ["// T is an example."; "// +tlv-model:nocopy,ordered"].
Definition ex_fields : list sfield :=
  [ mkSF ["a"] None ["// plain"]
  ; mkSF [] None ["//+field:name"]
  ; mkSF ["B"] (Some "`tlv:""201""`") ["// B is"; "//+field:fixedUint:uint16:optional"]
  ; mkSF ["m"] None ["//+field:offsetMarker"] ].

Example C77_decl_ex :
  options_say ex_doc ["nocopy"; "ordered"]
  /\ Forall2 (field_says true) ex_fields [[]; []; [mkG "B" 201 (GFixed 2 true)]; [mkG "m" 0 GOffset]]
  /\ process_decl (fun _ _ _ => rev class_table) (mkDecl ex_doc [mkSpec "T" (Some ex_fields)])
     = Ok (Some (mkGM "T" false true false true [mkG "B" 201 (GFixed 2 true); mkG "m" 0 GOffset])).
Proof.
  split; [|split].
  - split.
    + exists ["// T is an example."], "// +tlv-model:nocopy,ordered", []. split; [reflexivity|]. split.
      * right. reflexivity.
      * intros x [<-|[]] t [E|E]; discriminate E.
    + intros o [<-|[<-|[]]]; cbn; tauto.
  - constructor; [|constructor; [|constructor; [|constructor; [|constructor]]]].
    + apply says_plain. intros x t [<-|[]] [E|E]; discriminate E.
    + apply says_embedded. reflexivity.
    + apply (says_field true _ "B" (GFixed 2 true) 201); [reflexivity| | |exact (proj2 C77_tag_ex)].
      * exists ["// B is"], "//+field:fixedUint:uint16:optional", []. split; [reflexivity|]. split.
        -- left. reflexivity.
        -- intros x [<-|[]] t [E|E]; discriminate E.
      * cbn. tauto.
    + apply (says_field true _ "m" GOffset 0); [reflexivity| |exact I|reflexivity].
      exists [], "//+field:offsetMarker", []. split; [reflexivity|]. split; [left; reflexivity|intros x []].
  - vm_compute. reflexivity.
Qed.

(** ** What is not so *)

(** The full statement: whatever a declaration contains, every structure in it with annotations
    gets a model, and in it every annotated field the kind and type number written, or the
    generator stops with an error.  It is false in these ways. *)

Definition plain_order : nat -> string -> string -> list (string * fclass) := fun _ _ _ => class_table.

(** of two structures declared together only the first is seen, and a field that declares two
    names gives one *)
Theorem C77_together_refuted :
  (exists a b, (forall x, In x [a; b] -> exists m, process_decl plain_order (mkDecl [] [x]) = Ok (Some m)) /\
     exists m, process_decl plain_order (mkDecl [] [a; b]) = Ok (Some m) /\ gm_name m = ts_name a) /\
  (exists f, sf_names f = ["A"; "B"] /\
     List.length (process_fields plain_order false [f]) = 1%nat).
Proof.
  split.
  - exists (mkSpec "A" (Some [mkSF ["x"] (Some "`tlv:""1""`") ["//+field:natural"]])),
           (mkSpec "B" (Some [mkSF ["x"] (Some "`tlv:""1""`") ["//+field:natural"]])).
    split.
    + intros x [<-|[<-|[]]]; eexists; vm_compute; reflexivity.
    + eexists. split; [vm_compute; reflexivity|reflexivity].
  - exists (mkSF ["A"; "B"] (Some "`tlv:""1""`") ["//+field:natural"]). split; [reflexivity|vm_compute; reflexivity].
Qed.
Print Assumptions C77_together_refuted.

(** type numbers: a leading zero makes it octal, and what cannot be read is taken for 0 *)
Theorem C77_tag_refuted :
  parse_tag (Some "`tlv:""010""`") = 8%N /\
  parse_tag (Some "`tlv:""08""`") = 0%N /\
  parse_tag (Some "`tlv:""12x""`") = 0%N /\
  parse_tag (Some "`tlv: ""12""`") = 0%N /\
  parse_tag (Some "`tlv:""0x10000000000000000""`") = 0%N.
Proof. repeat split; vm_compute; reflexivity. Qed.
Print Assumptions C77_tag_refuted.

(** annotations: any word that begins like a class is taken for it; an unknown width is 0 bytes;
    the arguments of a map's value also go to its key; a wrong annotation drops the field and
    keeps the rest *)
Theorem C77_annotation_refuted :
  (exists s, ~ (exists k, word k = s) /\ create plain_order 1 s "" false = Some GName) /\
  create plain_order 9 "fixedUint" "uint8" false = Some (GFixed 0 false) /\
  create plain_order 99 "map" "uint64:natural:0x87:*uint64:natural:optional" false
    = Some (GMap "uint64" (GNat true) 0x87 "*uint64" (GNat true)) /\
  (exists good bad, process_fields plain_order false [bad; good] = process_fields plain_order false [good] /\
     process_fields plain_order false [good] <> [] /\ parse_doc "field" (sf_doc bad) <> "").
Proof.
  split; [|split; [|split]].
  - exists "nameless". split; [|vm_compute; reflexivity]. intros [k K]. destruct k; discriminate K.
  - vm_compute; reflexivity.
  - vm_compute; reflexivity.
  - exists (mkSF ["x"] (Some "`tlv:""1""`") ["//+field:natural"]),
           (mkSF ["y"] (Some "`tlv:""2""`") ["//+field:struct:T:nocopy"]).
    split; [vm_compute; reflexivity|]. split; vm_compute; discriminate.
Qed.
Print Assumptions C77_annotation_refuted.

(** the generator panics on an option it does not know, a blank after the comma included, and on
    an empty group of types *)
Theorem C77_panic_refuted :
  process_decl plain_order (mkDecl ["// +tlv-model:nocopy, ordered"] [mkSpec "T" (Some [])]) = Panic /\
  process_decl plain_order (mkDecl [] []) = Panic.
Proof. split; vm_compute; reflexivity. Qed.
Print Assumptions C77_panic_refuted.
