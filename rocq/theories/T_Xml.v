(** * Properties of the XML scanner: C29, C30, C32, C33, C34 *)
From Verif Require Import GoBase GoNum GoUtf8 GoFloat Types XmlTypes M_Xml S_Xml P_Xml P_Xml2 P_Esc.

(** ** C29: the events of a scan are well nested, and at the end of the input all elements are closed. *)
Theorem C29_well_nested fin input evs e d : scan fin input = SDone evs e d ->
  exists open, Nests [] (map ev_token evs) open /\ (e = XEOF -> open = []).
Proof.
  intros H. destruct (scan_loop_run fin true input _ [] [] _ _ _ _ (RunNew _ _ _) H) as (l & d2 & R & E). cbn [app] in R.
  destruct (run_inv _ _ _ _ _ _ R) as (sc & names & I). exists names. split; [apply I|]. intros ->.
  pose proof (raw_eof fin true d2 d (i_names _ _ _ _ _ I) E) as K. pose proof (i_frames _ _ _ _ _ I) as F.
  rewrite K in F. inversion F. reflexivity.
Qed.
(** An empty-element tag is always followed by the end of its element. *)
Theorem C29_empty_tag_closed fin input l evs d n a : Run fin true input (l ++ [Lexed (RwStart n a true)]) evs d -> d_err d = None ->
  exists open m d', Nests [] (map ev_token evs) (m :: open) /\ raw_token fin true d = RTok [EvEnd m] d'.
Proof.
  intros R HE. destruct (run_inv _ _ _ _ _ _ R) as (sc & names & I). pose proof (i_open _ _ _ _ _ I _ _ _ eq_refl) as C.
  destruct (i_close _ _ _ _ _ I _ C) as (_ & stk & Es). pose proof (i_frames _ _ _ _ _ I) as F. pose proof (i_nests _ _ _ _ _ I) as NE.
  unfold raw_token. rewrite HE, C. unfold handle_end. cbn [d_stk d_ns]. rewrite Es in *.
  destruct (seq_spec (nlocal (translate (d_ns d) n true)) (nlocal (translate (d_ns d) n true))) as [_|X]; [cbn [negb]|congruence].
  destruct (seq_spec (nspace (translate (d_ns d) n true)) (nspace (translate (d_ns d) n true))) as [_|X]; [cbn [negb]|congruence].
  destruct (undo (d_ns d) stk) as [ns2 stk2]. inversion F. subst. eauto 6.
Qed.
Example C29_nonvacuous :
  exists evs d, scan XEOF "<a x='1'><p:b xmlns:p='u'/>t&lt;</a>" = SDone evs XEOF d /\ map ev_token evs =
    [TStart (mkName "" "a") [mkAttr (mkName "" "x") "1"];
     TStart (mkName "u" "b") [mkAttr (mkName "xmlns" "p") "u"]; TEnd (mkName "u" "b");
     TChar "t<"; TEnd (mkName "" "a")].
Proof. vm_compute. eauto. Qed.
Example C29_nonvacuous_open :
  exists evs d m, scan XEOF "<a><b></a>" = SDone evs (XSyntax m) d /\ length evs = 2.
Proof. vm_compute. eauto. Qed.

(** ** C30: every name is resolved with the declarations of the innermost open tags. *)
Theorem C30_names_resolved fin input l evs d ev d' : Run fin true input l evs d -> raw_token fin true d = RTok ev d' ->
  exists s sc, step_of fin true d = Some s /\ Scopes l sc /\ Event sc s (map ev_token ev).
Proof.
  intros R E. destruct (run_inv _ _ _ _ _ _ R) as (sc & names & I).
  destruct (inv_step _ _ _ _ _ _ _ _ _ I E) as (s & sc' & names' & E1 & _ & E2). exists s, sc. sp; [exact E1|apply I|exact E2].
Qed.
Lemma scopes_fun l sc : Scopes l sc -> forall sc', Scopes l sc' -> sc = sc'.
Proof.
  induction 1 as [|l sc n a e H IH|l a sc s H IH Hs|l sc s H IH Hs]; intros sc' H'.
  - inversion H'; [reflexivity|destruct l; discriminate..].
  - inversion H' as [E|l1 sc1 n1 a1 e1 H1 E|l1 a1 sc1 s1 H1 [m [Hm|Hm]] E|l1 sc1 s1 H1 [Hm|(t & r & Hm)] E]; [destruct l; discriminate|..];
      apply app_inj_tail in E as [-> E]; subst; try discriminate. injection E as -> -> ->. f_equal. auto.
  - inversion H' as [E|l1 sc1 n1 a1 e1 H1 E|l1 a1 sc1 s1 H1 [m Hm] E|l1 sc1 s1 H1 Hm E]; [destruct l; discriminate|..];
      apply app_inj_tail in E as [-> E]; subst.
    + destruct Hs as [m [Hm|Hm]]; discriminate.
    + apply IH in H1. congruence.
    + destruct Hs as [m [-> | ->]]; destruct Hm as [Hm|(t & r & Hm)]; discriminate.
  - inversion H' as [E|l1 sc1 n1 a1 e1 H1 E|l1 a1 sc1 s1 H1 [m Hm] E|l1 sc1 s1 H1 Hm E]; [destruct l; discriminate|..];
      apply app_inj_tail in E as [-> E]; subst.
    + destruct Hs as [Hm|(t & r & Hm)]; discriminate.
    + destruct Hs as [-> |(t & r & ->)]; destruct Hm as [Hm|Hm]; discriminate.
    + auto.
Qed.
(** The bindings in force depend on the open tags only: they are the same before an element is opened and after it is closed. *)
Theorem C30_bindings_scoped fin input l evs d sc : Run fin true input l evs d -> Scopes l sc ->
  forall p u, aget seq p (d_ns d) = Some u <-> Bound sc p u.
Proof.
  intros R S. destruct (run_inv _ _ _ _ _ _ R) as (sc' & names & I).
  rewrite (scopes_fun _ _ S sc') by apply I. eapply frames_bound, I.
Qed.
Theorem C30_bindings_restored fin input l evs d l2 evs2 d2 sc : Run fin true input l evs d -> Run fin true input l2 evs2 d2 ->
  Scopes l sc -> Scopes l2 sc -> forall p, aget seq p (d_ns d) = aget seq p (d_ns d2).
Proof.
  intros R R2 S S2 p. pose proof (C30_bindings_scoped _ _ _ _ _ _ R S p) as B. pose proof (C30_bindings_scoped _ _ _ _ _ _ R2 S2 p) as B2.
  destruct (aget seq p (d_ns d)) as [u|].
  - symmetry. apply B2, B. reflexivity.
  - destruct (aget seq p (d_ns d2)) as [u|]; [|reflexivity]. apply B, B2. reflexivity.
Qed.
Theorem C30_ends_supplied fin input l evs d : Run fin true input l evs d -> Supplied l.
Proof. intros R. destruct (run_inv _ _ _ _ _ _ R) as (sc & names & I). apply I. Qed.
(** A redeclared prefix and default namespace *)
Example C30_nonvacuous : exists evs d, scan XEOF "<a xmlns='1' xmlns:p='2'><p:b xmlns:p='3' p:x='' y=''><c xmlns=''/></p:b><p:d/></a>" = SDone evs XEOF d /\
  map ev_token evs =
    [TStart (mkName "1" "a") [mkAttr (mkName "" "xmlns") "1"; mkAttr (mkName "xmlns" "p") "2"];
     TStart (mkName "3" "b") [mkAttr (mkName "xmlns" "p") "3"; mkAttr (mkName "3" "x") ""; mkAttr (mkName "" "y") ""];
     TStart (mkName "" "c") [mkAttr (mkName "" "xmlns") ""]; TEnd (mkName "" "c"); TEnd (mkName "3" "b");
     TStart (mkName "2" "d") []; TEnd (mkName "2" "d"); TEnd (mkName "1" "a")].
Proof. vm_compute. eauto. Qed.
(** Two states of a run with the same scopes, one before and one after an element *)
Example C30_restored_nonvacuous : exists l evs d l2 evs2 d2 sc,
  Run XEOF true "<a xmlns='1'><b xmlns='2'/>" l evs d /\ Run XEOF true "<a xmlns='1'><b xmlns='2'/>" l2 evs2 d2 /\
  Scopes l sc /\ Scopes l2 sc /\ evs <> evs2 /\ aget seq "" (d_ns d2) = Some "1".
Proof.
  set (i := "<a xmlns='1'><b xmlns='2'/>"). pose (a := mkAttr (mkName "" "xmlns") "1"). pose (b := mkAttr (mkName "" "xmlns") "2").
  pose (next := fun d => match raw_token XEOF true d with RTok _ d' => d' | _ => d end).
  pose (d1 := next (dec_new i)). pose (d2 := next d1). pose (d3 := next d2).
  pose (l1 := [Lexed (RwStart (mkName "" "a") [a] false)]). pose (l2 := l1 ++ [Lexed (RwStart (mkName "" "b") [b] true)]).
  assert (R1 : Run XEOF true i l1 ([] ++ [EvStart (mkName "1" "a") [a]]) d1).
  { apply (RunStep XEOF true i [] [] (dec_new i)); [constructor|vm_compute; reflexivity|vm_compute; reflexivity]. }
  assert (R2 : Run XEOF true i l2 (([] ++ [EvStart (mkName "1" "a") [a]]) ++ [EvStart (mkName "2" "b") [b]]) d2).
  { apply (RunStep XEOF true i l1 _ d1); [exact R1|vm_compute; reflexivity|vm_compute; reflexivity]. }
  assert (R3 : Run XEOF true i (l2 ++ [Closed (mkName "" "b")]) ((([] ++ [EvStart (mkName "1" "a") [a]]) ++ [EvStart (mkName "2" "b") [b]]) ++ [EvEnd (mkName "2" "b")]) d3).
  { apply (RunStep XEOF true i l2 _ d2); [exact R2|vm_compute; reflexivity|vm_compute; reflexivity]. }
  exists l1. eexists. exists d1, (l2 ++ [Closed (mkName "" "b")]). eexists. exists d3, [[a]].
  sp; [exact R1|exact R3| | |discriminate|vm_compute; reflexivity].
  - apply (ScStart [] []). constructor.
  - apply (ScEnd l2 [b]); [|eauto]. apply (ScStart l1 [[a]]). apply (ScStart [] []). constructor.
Qed.

(** ** C32: every call takes input or closes a pending element, so the scan ends. *)
Theorem C32_progress fin d ev d' : raw_token fin true d = RTok ev d' ->
  String.length (d_rest d') < String.length (d_rest d) \/ (d_rest d' = d_rest d /\ d_close d <> None /\ d_close d' = None).
Proof. apply raw_token_measure. Qed.
Theorem C32_scan_ends fin input : exists evs e d, scan fin input = SDone evs e d.
Proof.
  pose proof (scan_loop_done fin true (scan_fuel input) (dec_new input)) as H. unfold scan.
  destruct (scan_loop fin true (scan_fuel input) (dec_new input)) as [evs e d|]; [eauto|]. destruct H; [|reflexivity].
  unfold pending, scan_fuel. cbn [dec_new d_rest d_close]. lia.
Qed.
Example C32_nonvacuous : exists ev d', raw_token XEOF true (dec_new "<a/>") = RTok ev d' /\ d_close d' = Some (mkName "" "a").
Proof. vm_compute. eauto. Qed.

(** ** C33: the scan gives the same events as without the cache of names, and a name is the longest
    run of name bytes in the input, after any history. *)
Theorem C33_cache_invisible fin input evs e d : scan fin input = SDone evs e d ->
  exists d', scan_loop fin false (scan_fuel input) (dec_new input) = SDone evs e d'.
Proof.
  intros H. destruct (scan_same fin true false (scan_fuel input) (dec_new input) (dec_new input) evs e d) as (d2 & E & _); [|exact H|eauto].
  unfold same_but_names. sp; try reflexivity; apply names_nil.
Qed.
Theorem C33_names fin input l evs d rest b : Run fin true input l evs d ->
  match name fin true rest (d_names d) b with
  | NOk s rest' _ _ => NameAt rest s rest'
  | NNo rest' _ => rest' = rest /\ exists c r, rest = String c r /\ ~ NameByte c
  | NErr _ _ => forall c, In c (chars rest) -> NameByte c
  end.
Proof.
  intros R. destruct (run_inv _ _ _ _ _ _ R) as (sc & names & I). pose proof (name_spec fin true rest (d_names d) b (i_names _ _ _ _ _ I)) as S.
  destruct (name fin true rest (d_names d) b) as [s r n b'|r b'|e b'].
  - destruct S as (E & S1 & S2 & (c & q & -> & Hc) & _). unfold NameAt. sp; [exact E|exact S1| |].
    + intros x Hx. apply in_name_spec. rewrite sall_forall in S2. auto.
    + exists c, q. split; [reflexivity|]. apply in_name_false, Hc.
  - destruct S as (-> & _ & c & q & -> & Hc). split; [reflexivity|]. exists c, q. split; [reflexivity|]. apply in_name_false, Hc.
  - destruct S as (_ & S & _). intros x Hx. apply in_name_spec. rewrite sall_forall in S. auto.
Qed.
(** Names of eight bytes and less that share prefixes, read twice *)
Example C33_nonvacuous : exists evs d, scan XEOF "<abcdefgh><abcdefghi/><abcdefg/><abcdefghi/></abcdefgh>" = SDone evs XEOF d /\
  length (d_names d) = 2 /\ length evs = 8.
Proof. vm_compute. eauto. Qed.
Example C33_names_nonvacuous : match name XEOF true "abc=1" [("abc" +++ of_chars (repeat "000"%char 5), "abc")] buf_new with NOk s r _ _ => s = "abc" /\ r = "=1" | _ => False end.
Proof. vm_compute. auto. Qed.

(** ** C34: escaped text is read back, as an attribute value and as character data. *)
Theorem C34_attribute fin s rest b : XmlText s ->
  exists b', attrval fin (String """" (escape_text s +++ String """" rest)) b = TOk rest None b' /\ b_cur b' = s.
Proof. apply attrval_escape. Qed.
Theorem C34_text fin s rest names b : XmlText s -> s <> "" ->
  exists r b', lex fin true (escape_text s +++ String "<" rest) names b = LTok (RwChar s r) (String "<" rest) None names b'.
Proof.
  intros T N. destruct (text_escape fin s rest b T) as (b' & E & C). unfold lex.
  destruct (escape_text s +++ String "<" rest) as [|c q] eqn:Eq; [destruct (escape_text s); discriminate|].
  destruct (ceq c "<") eqn:Ec; cbn [negb].
  - exfalso. apply ceq_true in Ec. subst c. unfold text in E. cbn [text_loop] in E. change (ceq "<" "<") with true in E. cbv iota in E.
    injection E as _ E. subst b'. cbn in C. congruence.
  - rewrite E. rewrite C. eauto.
Qed.
Example C34_nonvacuous : exists s, XmlText s /\ escape_text s = "a&lt;&#34;&#xA;" +++ utf8_raw 8364 +++ utf8_raw 128512 /\ s <> "".
Proof.
  exists (str1 97 +++ str1 60 +++ str1 34 +++ str1 10 +++ utf8_raw 8364 +++ utf8_raw 128512 +++ ""). sp; [|vm_compute; reflexivity|discriminate].
  repeat match goal with |- XmlText (str1 ?n +++ _) => apply (XtCons n); [unfold XmlChar; lia|constructor; lia|] end.
  apply (XtCons 8364); [unfold XmlChar; lia|apply (U3 2 2 44); lia|].
  apply (XtCons 128512); [unfold XmlChar; lia|apply (U4 0 31 24 0); lia|constructor].
Qed.

Print Assumptions C29_well_nested.
Print Assumptions C29_empty_tag_closed.
Print Assumptions C30_names_resolved.
Print Assumptions C30_bindings_scoped.
Print Assumptions C30_bindings_restored.
Print Assumptions C30_ends_supplied.
Print Assumptions C32_progress.
Print Assumptions C32_scan_ends.
Print Assumptions C33_cache_invisible.
Print Assumptions C33_names.
Print Assumptions C34_attribute.
Print Assumptions C34_text.
