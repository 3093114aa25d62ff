(** * C70: recycling its nodes does not change the stack of the scanner *)
From Verif Require Import GoBase GoNum GoUtf8 GoFloat Types XmlTypes StackTypes S_Stack M_Xml M_Stack P_Stack.

(** Any calls on a new stack, one after the other, give their callers what a stack gives, and leave nodes that read as its
    entries; the loops end.  They panic only when pushEOF is called with no element on the stack. *)
Theorem C70_stack : forall ops,
  (exists m s outs, stack_run ops nodes_new = MOk (m, outs) /\ DoAll ops [] s outs /\ Reads (ns_mem m) (ns_stk m) s) \/
  (stack_run ops nodes_new = MPanic /\
   exists ops1 ops2 s outs, ops = ops1 ++ OPushEof :: ops2 /\ DoAll ops1 [] s outs /\ forall e, In e s -> ~ is_start e).
Proof.
  intros ops. destruct (stack_run_spec ops nodes_new [] inv_new) as [(m & s & outs & E & D & I & _)|P]; [left | right; exact P].
  exists m, s, outs. split; [exact E|]. split; [exact D|]. now apply inv_reads.
Qed.
(** What a stack gives is determined, so the alternatives exclude each other and there is only one outcome *)
Theorem C70_determined : forall ops s s1 s2 outs1 outs2, DoAll ops s s1 outs1 -> DoAll ops s s2 outs2 -> s1 = s2 /\ outs1 = outs2.
Proof.
  intros ops. induction ops as [|o ops IH]; intros s s1 s2 outs1 outs2 D1 D2.
  - inversion D1; inversion D2; subst; auto.
  - inversion D1 as [|? ? ? a ? ? ? A1 A2]; inversion D2 as [|? ? ? b ? ? ? B1 B2]; subst.
    destruct (does_fun _ _ _ _ _ _ A1 B1) as (-> & ->). destruct (IH _ _ _ _ _ A2 B2) as (-> & ->). auto.
Qed.
(** No more nodes are made than were on the stack at one time *)
Theorem C70_memory : forall ops m outs k, stack_run ops nodes_new = MOk (m, outs) -> Deepest ops [] k -> length (ns_mem m) = k.
Proof.
  intros ops m outs k E D. destruct (stack_run_spec ops nodes_new [] inv_new) as [(m' & s & outs' & E' & _ & _ & L)|(P & _)]; [|congruence].
  rewrite E in E'. injection E' as <- <-. rewrite (L k D). reflexivity.
Qed.
(** So the scanner with these nodes reports the events and the error of the scanner whose stack is a list *)
Theorem C70_scanner : forall fin cached fuel input,
  scan_loop_h fin cached fuel (hdec_new input) =
  match scan_loop fin cached fuel (dec_new input) with SDone evs e _ => Some (evs, e) | SOut => None end.
Proof. intros fin cached fuel input. apply scan_loop_h_spec. split; [reflexivity | exact inv_new]. Qed.

Example C70_nonvacuous :
  (exists m, stack_run [ONs "p" "" false; OElement (mkName "u" "a"); OPushEof; OPop; OPop; OPopEof; OElement (mkName "" "b"); OPop; OPop] nodes_new
     = MOk (m, [OutNone; OutNone; OutNone; OutEntry (Some (EnStart (mkName "u" "a"))); OutEntry (Some (EnNs "p" "" false)); OutBool true; OutNone;
                OutEntry (Some (EnStart (mkName "" "b"))); OutEntry None]) /\ length (ns_mem m) = 3) /\
  stack_run [ONs "p" "" false; OPushEof] nodes_new = MPanic /\
  (exists evs e, scan_loop_h XEOF true 20 (hdec_new "<a xmlns:p='u'><p:b/></a><p:c/>") = Some (evs, e) /\ length evs = 6).
Proof. split; [|split]; [eexists; split; vm_compute; reflexivity | vm_compute; reflexivity | do 2 eexists; split; vm_compute; reflexivity]. Qed.
Print Assumptions C70_stack.
Print Assumptions C70_memory.
Print Assumptions C70_scanner.
