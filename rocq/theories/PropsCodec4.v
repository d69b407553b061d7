(** The generated parsers on arbitrary bytes. *)
From Verif Require Import Base PrimModel ReaderModel ReaderSpec ReaderProofs NameModel NameProofs CodecModel CodecSpec CodecLib CodecSpec4 CodecTotal.

(** C18, for every model (also ill-formed ones), with and without ignoreCritical, and every
    input over a BufferReader in which no place reads as a nine-byte number of 2^40 or more:
    the parser comes back, with a value or with an error.  It neither panics nor loops; fuel
    above the length of the input is enough, so the number of steps is linear in it.
    Missing: inputs with such a number, where the statement is false (below), and WireReaders. *)
Theorem C18_partial : forall m ic b F, bytes_ok b -> no_huge_number b -> (zlen b < mem_limit)%Z -> (length b < F)%nat ->
  (exists x, m_parse F m ic (new_buffer_reader b) = Ok x) \/ (exists e, m_parse F m ic (new_buffer_reader b) = Err e).
Proof. exact parse_safe. Qed.
Print Assumptions C18_partial.

(** Fewer than nine bytes never contain such a number; nor do bytes without 255. *)
Theorem C18_short : forall b, (length b < 9)%nat -> no_huge_number b.
Proof. intros b H x s E L. subst b. rewrite app_length in H. cbn in H. lia. Qed.
Print Assumptions C18_short.
Theorem C18_no255 : forall b, ~ In 255%N b -> no_huge_number b.
Proof. intros b H x s E L. subst b. exfalso. apply H. apply in_app_iff. right. left. auto. Qed.
Print Assumptions C18_no255.

(** a truncated packet with a nine-byte length and one with garbage in the name *)
Example C18_ok : bytes_ok [5; 255; 0; 0; 0; 0; 0; 0; 0; 4; 7; 2; 8; 9]%N /\ no_huge_number [5; 255; 0; 0; 0; 0; 0; 0; 0; 4; 7; 2; 8; 9]%N
  /\ (zlen [5; 255; 0; 0; 0; 0; 0; 0; 0; 4; 7; 2; 8; 9]%N < mem_limit)%Z
  /\ m_parse 15 spec_Packet false (new_buffer_reader [5; 255; 0; 0; 0; 0; 0; 0; 0; 4; 7; 2; 8; 9]%N) = Err (EFailToParse 5 (EFailToParse 7 EUnexpectedEOF))
  /\ exists x, m_parse 15 spec_Packet false (new_buffer_reader [5; 255; 0; 0; 0; 0; 0; 0; 0; 4; 7; 2; 8; 0]%N) = Ok x.
Proof.
  split; [repeat constructor|]. split.
  - intros x s E L. destruct x as [|a [|a0 x]]; cbn [app] in E; [discriminate| |].
    + injection E as _ <-. vm_compute. reflexivity.
    + exfalso. injection E as _ _ E. assert (I : In 255%N (x ++ 255%N :: s)) by (apply in_app_iff; right; left; auto). rewrite <- E in I. cbn in I.
      repeat (destruct I as [I|I]; [discriminate I|]). exact I.
  - split; [vm_compute; reflexivity|]. split; [vm_compute; reflexivity|]. eexists. vm_compute. reflexivity.
Qed.

(** C18 is false of all inputs: on these ten bytes (a non-critical element of length 2^64 - 10,
    which as an int is -10) BufferReader.Skip goes back to the beginning, for ever. *)
Theorem C18_hang_refuted : exists b, bytes_ok b /\ length b = 10%nat /\
  forall F, m_parse F spec_Packet false (new_buffer_reader b) = Hang.
Proof.
  exists [32; 255; 255; 255; 255; 255; 255; 255; 255; 246]%N. split; [repeat constructor|]. split; [reflexivity|].
  intros F. unfold m_parse, m_parse_ctx, run_parse, new_buffer_reader.
  set (h := fs_handlers F 0 (m_fields spec_Packet)). assert (FF : find_field 32 0 h = None) by reflexivity. clearbody h.
  match goal with |- bind (parse_loop F ?o ?ic ?hs ?st) _ = _ => set (s0 := st) end.
  assert (G : forall f, parse_loop f false false h s0 = Hang).
  { induction f as [|f IH]; [reflexivity|]. unfold s0. cbn [parse_loop p_rd r_pos r_length bind].
    change (zlen [32; 255; 255; 255; 255; 255; 255; 255; 255; 246]%N <=? 0)%Z with false. cbv iota.
    change (read_tl (RBuf [32; 255; 255; 255; 255; 255; 255; 255; 255; 246]%N 0)) with ((Ok 32%N, RBuf [32; 255; 255; 255; 255; 255; 255; 255; 255; 246]%N 1) : rout N).
    cbn [soft].
    change (read_tl (RBuf [32; 255; 255; 255; 255; 255; 255; 255; 255; 246]%N 1)) with ((Ok 18446744073709551606%N, RBuf [32; 255; 255; 255; 255; 255; 255; 255; 255; 246]%N 10) : rout N).
    cbn [soft p_vals p_cx p_prog p_done]. unfold do_elem. rewrite FF. unfold do_default. cbn [negb andb p_rd].
    change (is_critical 32) with false. cbv iota.
    change (r_skip (to_int 18446744073709551606) (RBuf [32; 255; 255; 255; 255; 255; 255; 255; 255; 246]%N 10)) with ((Ok tt, RBuf [32; 255; 255; 255; 255; 255; 255; 255; 255; 246]%N 0) : rout unit).
    cbn [soft bind p_vals p_cx p_prog p_done]. exact IH. }
  change (m_ordered spec_Packet) with false. rewrite G. reflexivity.
Qed.
Print Assumptions C18_hang_refuted.

(** ... and on these twelve bytes (an Interest whose name claims 2^60 bytes) the allocation of
    the name panics. *)
Theorem C18_panic_refuted : exists b, bytes_ok b /\ length b = 12%nat /\
  forall F, m_parse (20 + F) spec_Packet false (new_buffer_reader b) = Panic.
Proof.
  exists [5; 10; 7; 255; 16; 0; 0; 0; 0; 0; 0; 0]%N. split; [repeat constructor|]. split; [reflexivity|].
  intros F. vm_compute. reflexivity.
Qed.
Print Assumptions C18_panic_refuted.
