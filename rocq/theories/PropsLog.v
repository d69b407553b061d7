(** C78: logging. *)
From Coq Require Import String Ascii Permutation.
From Verif Require Import Base LogModel LogSpec LogProofs.
Local Open Scope string_scope.

(** ** What is output

    Whatever program of With calls, messages, traces and changes of the level, whatever the
    growth of slices: the handler gets exactly the messages whose level is at least that of the
    logger at the time, in the order of the calls, and each with the fields that its entry was
    derived with, later ones before earlier ones.  The program must not change a map that it has
    given to an entry. *)
Theorem C78_fields : forall room level l,
  v_ok (vrun (v_new level) l) = true ->
  Forall2 same_record (l_out (lrun room (l_new level) l)) (v_out (vrun (v_new level) l)) /\
  l_over (lrun room (l_new level) l) = v_over (vrun (v_new level) l).
Proof.
  intros room level l H. pose proof (R_run room l _ _ (R_new level) H) as X.
  split; [apply (R_out _ _ X)|apply (R_over _ _ X)].
Qed.
Print Assumptions C78_fields.

(** Two entries derived from one, one of them with an error that has fields; a trace; messages
    below and above the level; Fatal.  The growth leaves room for three more elements. *)
Definition log_program : list lop :=
  [ONew; OMap [("a", FInt 1); ("b", FInt 2)]; OSet 0 "c" (FInt 3); ODel 0 "a"; OWith 0 0;       (* entry 1 *)
   OField 1 "x" (FStr "left"); OField 1 "x" (FStr "right");                                  (* entries 2, 3 *)
   OMap [("code", FInt 7)]; OErr 2 (Some (mkErr "broken" (Some "f: g.go:1") (Some 3%nat)));      (* entry 6 *)
   OLog 0 2 "not seen" 10; OLog 1 2 "left" 11; OLog 3 3 "right" 12; OLog 2 6 "error" 13;
   OLevel 0; OLog 0 2 "seen" 14; OTrace 3 "t" 20 21; OStop 12 None 3000021;
   OErr 1 None; OFatal 1 "end" 30; OLog 4 1 "after" 31].
Definition shown (v : vst) : list (Z * Z * string * list (option fval)) :=
  map (fun r => match r with (l, t, m, f) => (l, t, m, map f ["a"; "b"; "c"; "x"; "error"; "source"; "code"; "duration"]) end) (v_out v).
Example C78_fields_ex :
  v_ok (vrun (v_new 1) log_program) = true /\
  shown (vrun (v_new 1) log_program) =
  [(1, 11, "left", [None; Some (FInt 2); Some (FInt 3); Some (FStr "left"); None; None; None; None]);
   (3, 12, "right", [None; Some (FInt 2); Some (FInt 3); Some (FStr "right"); None; None; None; None]);
   (2, 13, "error", [None; Some (FInt 2); Some (FInt 3); Some (FStr "left"); Some (FStr "broken"); Some (FStr "f: g.go:1"); Some (FInt 7); None]);
   (0, 14, "seen", [None; Some (FInt 2); Some (FInt 3); Some (FStr "left"); None; None; None; None]);
   (1, 20, "t", [None; Some (FInt 2); Some (FInt 3); Some (FStr "right"); None; None; None; None]);
   (1, 3000021, "t", [None; Some (FInt 2); Some (FInt 3); Some (FStr "right"); None; None; None; Some (FInt 3)]);
   (4, 30, "end", [None; Some (FInt 2); Some (FInt 3); None; None; None; None; None])]%Z /\
  map (fun p => (r_msg (fst p), snd p)) (firstn 2 (l_out (lrun (fun _ => 3%nat) (l_new 1) log_program))) =
  [("left", [("b", FInt 2); ("c", FInt 3); ("x", FStr "left")]); ("right", [("b", FInt 2); ("c", FInt 3); ("x", FStr "right")])]%Z.
Proof. split; [vm_compute; reflexivity|split; vm_compute; reflexivity]. Qed.

(** ** Sharing

    For all programs, also those that change maps: what entries have been given stays, in order,
    whatever is derived from them; [WithFields] adds one map at the end; and a message is output
    with what these maps hold at that time. *)
Theorem C78_shared : forall room level l,
  let s := lrun room (l_new level) l in
  (forall l' e, (e < List.length (l_ents s))%nat -> ids (lrun room s l') e = ids s e) /\
  (forall e m, ids (fst (with_fields room s e m)) (snd (with_fields room s e m)) = (ids s e ++ [m])%list) /\
  (forall e lv msg now, (l_level s <= lv)%Z -> exists r f,
     l_out (log s lv e msg now) = (l_out s ++ [(r, f)])%list /\
     forall k, mget f k = latest (map (lmap s) (ids s e)) k).
Proof.
  intros room level l s.
  assert (O : slices_ok s) by (apply stays_run, slices_new).
  assert (M : maps_ok s) by (apply maps_ok_run; [apply slices_new|constructor]).
  split; [|split].
  - intros l' e He. apply stays_ids; [exact O|apply stays_run, O|exact He].
  - intros e m. destruct (with_fields_spec room s e m O) as [f2 [s2 [-> [K [L [A [E1 [E2 _]]]]]]]].
    cbn [fst snd]. unfold ids at 1, lent, add_ent; cbn [l_ents]. rewrite E2, app_nth2, Nat.sub_diag by lia.
    cbn [nth en_list]. exact L.
  - intros e lv msg now H. unfold log. apply Z.ltb_ge in H. rewrite H. cbn [l_out]. eexists; eexists. split; [reflexivity|].
    intro k. unfold merged. rewrite merge_all; [unfold over; unfold ids; destruct (latest _ k); reflexivity|].
    apply Forall_forall. intros m Hm. apply in_map_iff in Hm. destruct Hm as [i [<- _]]. apply lmap_ok, M.
Qed.
Print Assumptions C78_shared.

(** Entry 2 has been given the maps 0 and 1. *)
Example C78_shared_ex :
  let s := lrun (fun _ => 3%nat) (l_new 1) [ONew; OMap [("a", FInt 1)]; OWith 0 0; OField 1 "b" (FInt 2); OField 1 "b" (FInt 3)] in
  (ids s 1, ids s 2, ids s 3) = ([0], [0; 1], [0; 2])%nat.
Proof. vm_compute. reflexivity. Qed.

(** So entries are not independent of what the program does to its maps: the same message of the
    same entry is output with another value after the map has been changed. *)
Theorem C78_change_refuted : exists room l,
  map (fun p => mget (snd p) "a") (l_out (lrun room (l_new 1) l)) = [Some (FInt 1); Some (FInt 5)] /\
  l = [ONew; OMap [("a", FInt 1)]; OWith 0 0; OLog 1 1 "m" 1; OSet 0 "a" (FInt 5); OLog 1 1 "m" 2].
Proof. exists (fun _ => 0%nat). eexists. split; [|reflexivity]. vm_compute. reflexivity. Qed.
Print Assumptions C78_change_refuted.

(** An entry that a handler has been given has its fields in Fields only.  An entry derived from
    it with WithField is output without them. *)
Theorem C78_handled_refuted : exists room l,
  map (fun p => (mget (snd p) "a", mget (snd p) "b")) (l_out (lrun room (l_new 1) l)) =
    [(Some (FInt 1), None); (None, Some (FInt 2))] /\
  l = [ONew; OField 0 "a" (FInt 1); OLog 1 1 "m" 1; OField 2 "b" (FInt 2); OLog 1 3 "again" 2].
Proof. exists (fun _ => 0%nat). eexists. split; [|reflexivity]. vm_compute. reflexivity. Qed.
Print Assumptions C78_handled_refuted.

(** The engine asks whether the Level of its entry is at most that of Debug before it prepares texts
    for debugging (default_engine.go 118, 146, 168, 174, 186, 443).  The Level of an entry that has
    been derived has nothing to do with that of its logger: the test succeeds also where no debug
    message is output. *)
Theorem C78_guard_refuted : forall room level l e m,
  let s := lrun room (l_new level) l in
  en_level (lent (fst (with_fields room s e m)) (snd (with_fields room s e m))) = 0%Z /\
  ((0 < level)%Z -> l = [] -> forall msg now, l_out (log s 0 e msg now) = []).
Proof.
  intros room level l e m s. assert (O : slices_ok s) by (apply stays_run, slices_new). split.
  - destruct (with_fields_spec room s e m O) as [f2 [s2 [-> [K [L [A [E1 [E2 _]]]]]]]].
    cbn [fst snd]. unfold lent, add_ent; cbn [l_ents]. rewrite E2, app_nth2, Nat.sub_diag by lia. reflexivity.
  - intros H -> msg now. unfold log, s. cbn [lrun fold_left l_new l_level].
    apply Z.ltb_lt in H. rewrite H. reflexivity.
Qed.
Print Assumptions C78_guard_refuted.

(** ** Orders of maps

    In whatever order the loop over each map goes, the merged map has the same contents. *)
Theorem C78_order : forall ms ms', Forall2 (fun m m' => NoDup (map fst m) /\ Permutation m m') ms ms' ->
  forall k, mget (fold_left merge_into ms []) k = mget (fold_left merge_into ms' []) k.
Proof.
  intros ms ms' F k.
  assert (X : forall m m', NoDup (map fst m) -> Permutation m m' -> NoDup (map fst m') /\ mget m k = mget m' k).
  { intros m m' N P. assert (N' : NoDup (map fst m')) by (apply (Permutation_NoDup (Permutation_map fst P) N)).
    split; [exact N'|]. clear - N N' P. induction P as [|[a v] l l' P IH|[a v] [b w] l|l1 l2 l3 P1 IH1 P2 IH2].
    - reflexivity.
    - cbn [map] in N, N'. inversion N; inversion N'; subst. cbn [mget]. destruct (a =? k); [reflexivity|apply IH; assumption].
    - cbn [mget]. destruct (a =? k) eqn:E1, (b =? k) eqn:E2; try reflexivity.
      apply String.eqb_eq in E1, E2. subst. cbn [map fst] in N. inversion N as [|? ? C]; subst. exfalso; apply C; left; reflexivity.
    - assert (N2 : NoDup (map fst l2)) by (apply (Permutation_NoDup (Permutation_map fst P1) N)).
      rewrite IH1, IH2 by assumption. reflexivity. }
  rewrite !merge_all.
  - unfold over. assert (E : latest ms k = latest ms' k); [|rewrite E; reflexivity].
    induction F as [|m m' r r' [N P] F IH]; cbn [latest]; [reflexivity|]. unfold over. rewrite IH.
    destruct (X m m' N P) as [_ ->]. reflexivity.
  - induction F as [|m m' r r' [N P] F IH]; constructor; [apply (X m m' N P)|exact IH].
  - induction F as [|m m' r r' [N P] F IH]; constructor; [exact N|exact IH].
Qed.
Print Assumptions C78_order.

Example C78_order_ex : Forall2 (fun m m' => NoDup (map fst m) /\ Permutation m m')
  [[("a", FInt 1); ("b", FInt 2)]; [("b", FInt 3)]] [[("b", FInt 2); ("a", FInt 1)]; [("b", FInt 3)]].
Proof.
  constructor; [split|constructor; [split|constructor]].
  - repeat constructor; cbn; intuition congruence.
  - apply perm_swap.
  - repeat constructor; intros [].
  - apply Permutation_refl.
Qed.

(** Names: every name once, in increasing order, and that determines the list: it does not depend
    on the order of the map. *)
Theorem C78_names : forall m, NoDup (map fst m) ->
  increasing (names m) /\ (forall k, In k (names m) <-> mget m k <> None) /\
  (forall l, increasing l -> (forall k, In k l <-> mget m k <> None) -> l = names m).
Proof.
  intros m H. assert (A : increasing (names m)) by (apply sort_inc, H).
  assert (B : forall k, In k (names m) <-> mget m k <> None).
  { intro k. unfold names. rewrite sort_in, <- mget_in. destruct (mget m k); split; intro X; try congruence; eauto.
    destruct X; discriminate. }
  split; [exact A|split; [exact B|]]. intros l Hl E. apply increasing_unique; [exact Hl|exact A|].
  intro x. rewrite E, B. reflexivity.
Qed.
Print Assumptions C78_names.

Example C78_names_ex : names [("pear", FInt 1); ("apple", FInt 2); ("Zebra", FInt 3); ("pea", FInt 4)] = ["Zebra"; "apple"; "pea"; "pear"].
Proof. vm_compute. reflexivity. Qed.

(** ** Levels *)

(** Texts of levels can be read back, quoted or not. *)
Theorem C78_levels : forall u l, (0 <= l <= 4)%Z -> exists s j,
  level_string l = Ok s /\ parse_level u s = Some l /\ must_parse_level u s = Ok l /\
  level_marshal l = Ok j /\ level_unmarshal u j = Some l.
Proof.
  intros u l H. assert (X : (l = 0 \/ l = 1 \/ l = 2 \/ l = 3 \/ l = 4)%Z) by lia.
  destruct X as [-> |[-> |[-> |[-> | ->]]]]; eexists; eexists; split; try (vm_compute; reflexivity);
  (split; [vm_compute; reflexivity|]); (split; [vm_compute; reflexivity|]); split; vm_compute; reflexivity.
Qed.
Print Assumptions C78_levels.

(** ParseLevel accepts exactly the six words, in small or capital letters (for ASCII texts). *)
Lemma ascii_text : forall s, Forall (fun c => (N_of_ascii c < 128)%N) (list_ascii_of_string s) -> is_ascii s = true.
Proof.
  induction s as [|c s IH]; intros H; [reflexivity|]. cbn [list_ascii_of_string] in H. inversion H as [|? ? H1 H2]; subst.
  cbn [is_ascii]. rewrite (IH H2), Bool.andb_true_r. apply N.ltb_lt. exact H1.
Qed.
Theorem C78_parse : forall u s l, Forall (fun c => (N_of_ascii c < 128)%N) (list_ascii_of_string s) ->
  parse_level u s = Some l <-> exists w, In (w, l) level_texts /\ same_word w s.
Proof.
  intros u s l A. pose proof (ascii_text s A) as H. unfold parse_level, to_lower. rewrite H.
  rewrite assoc_in by (repeat constructor; cbn; intuition congruence).
  change level_table with level_texts.
  assert (W : forall w v, In (w, v) level_texts -> small_word w = true).
  { intros w v Hi. cbn in Hi. repeat (destruct Hi as [Hi|Hi]; [injection Hi as <- <-; vm_compute; reflexivity|]). destruct Hi. }
  split.
  - intro Hi. exists (lower_ascii s). split; [exact Hi|]. apply lower_word; [eapply W, Hi|reflexivity].
  - intros [w [Hi E]]. apply lower_word in E; [|eapply W, Hi]. rewrite E. exact Hi.
Qed.
Print Assumptions C78_parse.

(** MustParseLevel gives the same levels and panics on every other text. *)
Theorem C78_must_parse : forall u s,
  (forall l, must_parse_level u s = Ok l <-> parse_level u s = Some l)
  /\ (must_parse_level u s = Panic <-> parse_level u s = None)
  /\ (Forall (fun c => (N_of_ascii c < 128)%N) (list_ascii_of_string s) -> (forall w l, In (w, l) level_texts -> ~ same_word w s) -> must_parse_level u s = Panic).
Proof.
  intros u s. unfold must_parse_level. split; [intro l; destruct (parse_level u s); split; congruence|].
  split; [destruct (parse_level u s); split; congruence|]. intros A N. destruct (parse_level u s) as [l|] eqn:E; [|reflexivity].
  apply (C78_parse u s l A) in E. destruct E as (w & I & S). exfalso. exact (N w l I S).
Qed.
Print Assumptions C78_must_parse.

Example C78_must_parse_ex : forall u, must_parse_level u "Fatal" = Ok 4%Z /\ must_parse_level u "trace" = Panic.
Proof. intro u. split; vm_compute; reflexivity. Qed.

Example C78_parse_ex : same_word "warning" "WaRNing" /\ forall u, parse_level u "WaRNing" = Some 2%Z /\ parse_level u "trace" = None.
Proof.
  split; [|intro; split; vm_compute; reflexivity].
  repeat (constructor; [first [left; reflexivity|right; vm_compute; split; [split; discriminate|reflexivity]]|]). constructor.
Qed.

(** The level that means an error has no text: asking for it panics, and so does encoding it. *)
Theorem C78_text_refuted : exists l, l = (-1)%Z /\ level_string l = Panic /\ level_marshal l = Panic.
Proof. exists (-1)%Z. split; [reflexivity|split; vm_compute; reflexivity]. Qed.
Print Assumptions C78_text_refuted.

(** Texts that are not JSON are accepted by UnmarshalJSON. *)
Theorem C78_json_refuted : exists b, b = """""INFO" /\ forall u, level_unmarshal u b = Some 1%Z.
Proof. eexists. split; [reflexivity|]. intro; vm_compute. reflexivity. Qed.
Print Assumptions C78_json_refuted.

(** ** Lines

    A text handler called from any number of goroutines: what it has written is whole lines, one
    for each call that has ended, and perhaps the beginning of one more. *)
Theorem C78_lines : forall calls sched s,
  (forall c, In c calls -> fst c = 0%nat) ->
  trun calls (t_start calls 1) sched = Some s ->
  exists done part, NoDup done /\ (forall i, In i done <-> ended s i) /\
    t_out s = (List.concat (map (line calls) done) ++ part)%list /\
    (part = [] \/ exists i rest, ~ ended s i /\ line calls i = (part ++ rest)%list).
Proof.
  intros calls sched s One T. destruct (J_run calls One sched _ s [] [] (J_start calls) T) as [done [part H]].
  exists done, part. split; [apply (J_nodup _ _ _ _ H)|split; [apply (J_done _ _ _ _ H)|split; [apply (J_out _ _ _ _ H)|]]].
  destruct (J_lock _ _ _ _ H) as [[_ [P _]]|[_ [i [rest [A [B _]]]]]]; [left; exact P|].
  right. exists i, rest. split; [unfold ended; rewrite A; discriminate|exact B].
Qed.
Print Assumptions C78_lines.

(** and no call waits for ever: as long as one has not ended, some call can go on *)
Theorem C78_lines_go_on : forall calls sched s,
  (forall c, In c calls -> fst c = 0%nat) ->
  trun calls (t_start calls 1) sched = Some s ->
  (exists i, (i < List.length calls)%nat /\ ~ ended s i) -> exists j s', tstep calls s j = Some s'.
Proof.
  intros calls sched s One T [i [Hi Hn]]. destruct (J_run calls One sched _ s [] [] (J_start calls) T) as [done [part H]].
  assert (C : forall j, (j < List.length calls)%nat -> exists ws, nth_error calls j = Some (0%nat, ws)).
  { intros j Hj. apply nth_error_Some in Hj. destruct (nth_error calls j) as [[h ws]|] eqn:E; [|contradiction].
    pose proof (One _ (nth_error_In _ _ E)) as X. cbn [fst] in X. subst h. eauto. }
  destruct (J_lock _ _ _ _ H) as [[L [_ N]]|[L [j [rest [A [B _]]]]]].
  - exists i. unfold tstep. destruct (C i Hi) as [ws ->]. unfold ended in Hn.
    destruct (nth_error (t_st s) i) as [[|r|]|] eqn:E; [rewrite L; cbn; eauto|exfalso; apply (N i r E)|contradiction|].
    apply nth_error_None in E. rewrite (J_len _ _ _ _ H) in E. lia.
  - exists j. assert (Hj : (j < List.length calls)%nat) by (rewrite <- (J_len _ _ _ _ H); apply nth_error_Some; congruence).
    unfold tstep. destruct (C j Hj) as [ws ->]. rewrite A. destruct rest; eauto.
Qed.
Print Assumptions C78_lines_go_on.

(** what one call writes: the names in increasing order with their values *)
Example C78_lines_ex :
  exists ws, text_writes (fun v => match v with Some (FStr x) => x | _ => "?" end) (fun m => m ++ "  ") 3 "0012" "failed"
                         [("why", FStr "z"); ("at", FStr "x")] = Ok ws /\
  let calls := [(0%nat, ws); (0%nat, ["one"; "two"])] in
  exists s, trun calls (t_start calls 1) [1; 1; 1; 1; 0; 0; 0; 0; 0; 0]%nat = Some s /\ ended s 0 /\ ended s 1 /\
  t_out s = ["one"; "two"; esc ++ "[31m ERROR" ++ esc ++ "[0m[0012] failed  "; " " ++ esc ++ "[31mat" ++ esc ++ "[0m=x";
             " " ++ esc ++ "[31mwhy" ++ esc ++ "[0m=z"; newline]%string.
Proof.
  eexists. split; [vm_compute; reflexivity|]. cbv zeta. eexists. split; [vm_compute; reflexivity|].
  split; [|split]; vm_compute; reflexivity.
Qed.

(** Two handlers with the same writer mix their lines. *)
Theorem C78_handlers_refuted : exists calls sched s,
  calls = [(0%nat, ["a1"; "a2"]); (1%nat, ["b1"; "b2"])] /\
  trun calls (t_start calls 2) sched = Some s /\ ended s 0 /\ ended s 1 /\ t_out s = ["a1"; "b1"; "a2"; "b2"].
Proof.
  eexists. exists [0; 1; 0; 1; 0; 1; 0; 1]%nat. eexists. split; [reflexivity|].
  split; [vm_compute; reflexivity|split; [|split]; vm_compute; reflexivity].
Qed.
Print Assumptions C78_handlers_refuted.

(** The text of a call: a head, a part for each field in increasing order of the names, whatever
    the order of the map, and the end of the line; nothing for levels that do not exist. *)
Theorem C78_text : forall show pad level ts msg f ns, NoDup (map fst f) ->
  increasing ns -> (forall k, In k ns <-> mget f k <> None) ->
  (forall colour word, In (level, (colour, word)) level_looks ->
     text_writes show pad level ts msg f =
     Ok (line_head colour word ts (pad msg) :: map (fun n => line_field colour n (show (mget f n))) ns ++ [newline])%list) /\
  (~ (0 <= level <= 4)%Z -> text_writes show pad level ts msg f = Panic).
Proof.
  intros show pad level ts msg f ns N I E. destruct (C78_names f N) as [_ [_ U]].
  split.
  - intros colour word L. rewrite (U ns I E). cbn in L.
    assert (F : forall c n v, line_field c n v = " " ++ esc ++ "[" ++ c ++ "m" ++ n ++ esc ++ "[0m=" ++ v).
    { intros c n v. unfold line_field, coloured. rewrite !sapp_assoc. reflexivity. }
    assert (H : forall c w, line_head c w ts (pad msg) = esc ++ "[" ++ c ++ "m" ++ w ++ esc ++ "[0m[" ++ ts ++ "] " ++ pad msg).
    { intros c w. unfold line_head, coloured. rewrite !sapp_assoc. reflexivity. }
    rewrite H, (map_ext _ _ (fun n => F colour n _)).
    repeat (destruct L as [L|L]; [injection L as <- <- <-; reflexivity|]). destruct L.
  - intro L. unfold text_writes. destruct ((0 <=? level) && (level <? 5))%Z eqn:X; [|reflexivity].
    apply andb_true_iff in X. destruct X as [X1 X2]. apply Z.leb_le in X1. apply Z.ltb_lt in X2. lia.
Qed.
Print Assumptions C78_text.
