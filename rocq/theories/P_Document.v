(** * Proofs about whole documents *)
From Verif Require Import GoBase GoNum GoUtf8 GoFloat Types XmlTypes M_Xml S_Core S_Xml S_Lex S_Meaning S_Document P_Core P_Xml P_Xml2 P_Lex P_Printer.
From Verif Require Import Types.
Local Open Scope list_scope.

Lemma means_translate stk ns sc names n elem m : Frames stk ns sc names -> Means sc elem n m -> m = translate ns n elem.
Proof.
  intros F H. pose proof (frames_bound _ _ _ _ F) as B. pose proof (frames_xml _ _ _ _ F) as X. unfold translate.
  destruct H as [l|l|l ->| |p l u N1 N2 N3 HB|p l N1 N2 N3 HB]; cbn [nspace nlocal].
  - reflexivity.
  - cbn [seq andb]. change (seq "xml" "xmlns") with false. change (seq "xml" "") with false. change (seq "xml" "xml") with true. cbv iota. cbn [andb nspace nlocal]. rewrite X. reflexivity.
  - change (seq "" "xmlns") with false. change (seq "" "") with true. reflexivity.
  - change (seq "" "xmlns") with false. change (seq "" "") with true. change (seq "xmlns" "xmlns") with true. destruct elem; reflexivity.
  - apply B in HB. destruct (seq_spec p "xmlns"); [contradiction|]. destruct (seq_spec p "xml"); [contradiction|]. rewrite HB.
    destruct (seq_spec p "") as [->|]; [|reflexivity]. destruct (N3 eq_refl) as [-> NX]. destruct (seq_spec l "xmlns"); [contradiction|]. reflexivity.
  - destruct (seq_spec p "xmlns"); [contradiction|]. destruct (seq_spec p "xml"); [contradiction|].
    assert (E : aget seq p ns = None) by (destruct (aget seq p ns) as [u|] eqn:E; [|reflexivity]; apply B in E; destruct (HB u E)). rewrite E.
    destruct (seq p "" && negb elem); [reflexivity|]. destruct (seq p "" && seq l "xmlns"); reflexivity.
Qed.
(** The state before [rest]: as [At], or at the end of the input with its error *)
Record Before (fin : xerr) (d : Dec) (rest : string) : Prop := mkBefore {
  bf_rest : d_rest d = rest; bf_err : d_err d = None \/ (rest = "" /\ d_err d = Some fin); bf_close : d_close d = None; bf_names : NamesOk (d_names d) }.
Lemma attrs_ok s a : AttrsMean s a -> Forall AttrOk a.
Proof.
  induction 1 as [|w1 nm n w2 w3 q rv v s l _ HN _ _ _ _ _ IH]; constructor; [|exact IH]. unfold AttrOk. cbn [aname].
  destruct (name_means nm n HN) as (_ & N2 & <-). apply ns_name_ok, N2.
Qed.
Lemma resolved_map stk ns sc names a b : Frames stk ns sc names -> Resolved sc a b -> b = map (tr_attr ns) a.
Proof.
  intros F. induction 1 as [|x y a b [HV HM] _ IH]; [reflexivity|]. cbn [map]. rewrite IH. f_equal. unfold tr_attr. rewrite <- (means_translate _ _ _ _ _ _ _ F HM), HV. destruct y; reflexivity.
Qed.
Section Scan.
Context (fin : xerr).
Lemma lex_start_tag nm n s a empty rest names b : NamesOk names -> NameMeans nm n -> AttrsMean s a -> (forall c r, s = String c r -> ~ NameByte c) ->
  exists names' b', lex fin true ("<" +++ nm +++ s +++ (if empty : bool then "/" else "") +++ ">" +++ rest) names b = LTok (RwStart n a empty) rest None names' b' /\ NamesOk names'.
Proof.
  intros NM HN HA HC.
  destruct (name_means nm n HN) as (N1 & N2 & N3). set (r1 := s +++ (if empty then "/" else "") +++ ">" +++ rest).
  cbn [String.append]. unfold lex. change (negb (ceq "<" "<")) with false. cbv iota.
  destruct (head_not nm r1 "/" N1 N2 ltac:(vm_compute; reflexivity)) as (c & t & E1 & C1 & _).
  destruct (head_not nm r1 "?" N1 N2 ltac:(vm_compute; reflexivity)) as (c' & t' & E2 & C2 & _).
  rewrite E1 in E2. injection E2 as <- <-. rewrite E1, C1, C2, <- E1.
  assert (R1 : exists x y, r1 = String x y /\ in_name x = false).
  { unfold r1. destruct s as [|x s]; [destruct empty; eexists _, _; (split; [reflexivity|vm_compute; reflexivity])|]. eexists _, _. split; [reflexivity|].
    apply in_name_false. apply (HC x s). reflexivity. }
  destruct R1 as (x & y & R1 & X1). destruct (name_app fin true nm x y names b NM N1 N2 X1) as (names' & EN & HN'). rewrite R1, EN, <- R1.
  destruct (attrs_mean fin s a HA empty rest (S (String.length r1)) [] names' (buf_puts nm (buf_reset b))) as (names2 & b2 & EA & NE); [unfold r1, tag_close; destruct empty; cbn [String.append]; lia|exact HN'|].
  change (s +++ tag_close empty rest) with r1 in EA. rewrite EA, N3. eauto.
Qed.
Lemma lex_end_tag nm n w rest names b : NamesOk names -> NameMeans nm n -> S_Lex.Blank w ->
  exists names' b', lex fin true ("</" +++ nm +++ w +++ ">" +++ rest) names b = LTok (RwEnd n) rest None names' b' /\ NamesOk names'.
Proof.
  intros NM HN HW.
  destruct (name_means nm n HN) as (N1 & N2 & N3). cbn [String.append]. unfold lex. change (negb (ceq "<" "<")) with false. change (ceq "/" "/") with true. cbv iota.
  assert (R1 : exists x y, w +++ String ">" rest = String x y /\ in_name x = false).
  { destruct w as [|x w]; [eexists _, _; (split; [reflexivity|vm_compute; reflexivity])|]. eexists _, _. split; [reflexivity|]. apply blank_name, HW. left. reflexivity. }
  destruct R1 as (x & y & R1 & X1). destruct (name_app fin true nm x y names b NM N1 N2 X1) as (names' & EN & HN'). rewrite R1, EN, <- R1.
  rewrite blank_space by exact HW. cbn [space]. change (is_space ">") with false. cbv iota. rewrite ceq_refl, N3. eauto.
Qed.
Lemma lex_text s t rest names b : s <> "" -> TextMeans None false s t -> rest = "" \/ (exists q, rest = String "<" q) ->
  exists r b', lex fin true (s +++ rest) names b = LTok (RwChar t r) rest (match rest with EmptyString => Some fin | _ => None end) names b'.
Proof.
  intros HS H HR. assert (HH : exists c q, s = String c q /\ ceq c "<" = false).
  { assert (K : forall a s t, TextMeans None a s t -> a = false -> forall c q, s = String c q -> ceq c "<" = false).
    { clear. intros a s t H. destruct H as [a|a x s t N Q A H|a s t H|s t H|a nm v s t N H|a ds r e s t N X U H|a ds r e s t N X U H]; intros EA c q E; try discriminate; injection E as <- <-; try reflexivity.
      apply ceq_false. intros ->. apply N. left. reflexivity. }
    destruct s as [|c q]; [congruence|]. exists c, q. split; [reflexivity|]. apply (K _ _ _ H eq_refl _ _ eq_refl). }
  destruct HH as (c & q & -> & Hc). unfold lex. cbn [String.append]. rewrite Hc. cbn [negb]. unfold text.
  destruct (text_means fin None ltac:(auto) false (String c q) t H rest (S (String.length (String c q +++ rest))) (byte 0) (buf_reset b)) as (f & b1 & b' & E & L & C); [discriminate|lia|].
  cbn [String.append] in E. rewrite E. destruct f as [|f]; [lia|]. cbn [text_loop].
  destruct HR as [->|(z & ->)]; [|change (ceq "<" "<") with true; cbv iota]; rewrite C; eauto.
Qed.
Lemma proc_inst_end body rest b : forall c, (forall x y, body <> x +++ "?>" +++ y) -> (c = "?"%char -> forall y, body <> ">" +++ y) ->
  exists b', proc_inst c (body +++ "?>" +++ rest) b = (Some rest, b').
Proof.
  revert b. induction body as [|x body IH]; intros b c H H0.
  - cbn [String.append proc_inst]. replace (ceq c "?" && ceq "?" ">") with false by (destruct (ceq c "?"); reflexivity). cbv zeta iota. change (ceq "?" "?" && ceq ">" ">") with true. eauto.
  - cbn [String.append proc_inst]. destruct (ceq c "?" && ceq x ">") eqn:E.
    + apply andb_true_iff in E as [E1 E2]. apply ceq_true in E1, E2. subst. destruct (H0 eq_refl body). reflexivity.
    + apply IH.
      * intros y z ->. apply (H (String x y) z). reflexivity.
      * intros -> y ->. apply (H "" y). reflexivity.
Qed.
Lemma blank_split s : exists w r, s = w +++ r /\ S_Lex.Blank w /\ space s = r.
Proof.
  induction s as [|c s (w & r & E & W & S)]; [exists "", ""; repeat split; intros ? []|]. cbn [space]. destruct (is_space c) eqn:EC.
  - exists (String c w), r. split; [rewrite E; reflexivity|]. split; [|exact S]. intros x [<-|Hx]; [|apply W, Hx]. unfold is_space in EC. rewrite !orb_true_iff in EC.
    destruct EC as [[[K|K]|K]|K]; apply ceq_true in K; subst; cbn; auto.
  - exists "", (String c s). repeat split. intros ? [].
Qed.
Lemma lex_inst nm n w body rest names b : NamesOk names -> NameMeans nm n -> S_Lex.Blank w -> (w = "" -> body = "") -> (forall x y, body <> x +++ "?>" +++ y) ->
  exists names' b', lex fin true ("<?" +++ nm +++ w +++ body +++ "?>" +++ rest) names b = LTok RwInst rest None names' b' /\ NamesOk names'.
Proof.
  intros NM HN HW HB HX. destruct (name_means nm n HN) as (N1 & N2 & N3). cbn [String.append]. unfold lex. change (negb (ceq "<" "<")) with false. change (ceq "?" "/") with false. change (ceq "?" "?") with true. cbv iota.
  assert (R1 : exists x y, w +++ body +++ String "?" (String ">" rest) = String x y /\ in_name x = false).
  { destruct w as [|x w]; [rewrite (HB eq_refl); eexists _, _; (split; [reflexivity|vm_compute; reflexivity])|]. eexists _, _. split; [reflexivity|]. apply blank_name, HW. left. reflexivity. }
  destruct R1 as (x & y & R1 & X1). destruct (name_app fin true nm x y names b NM N1 N2 X1) as (names' & EN & HN'). rewrite R1, EN, <- R1.
  rewrite blank_space by exact HW.
  assert (PI : exists body', space (body +++ String "?" (String ">" rest)) = body' +++ "?>" +++ rest /\ (forall x y, body' <> x +++ "?>" +++ y)).
  { clear - HX. induction body as [|c body IH]; [exists ""; split; [reflexivity|intros [|? ?] y; discriminate]|]. cbn [String.append space]. destruct (is_space c).
    - apply IH. intros x y ->. apply (HX (String c x) y). reflexivity.
    - exists (String c body). split; [reflexivity|exact HX]. }
  destruct PI as (body' & -> & HX'). destruct (proc_inst_end body' rest (buf_puts nm (buf_reset b)) (byte 0) HX' ltac:(discriminate)) as (b' & ->). eauto.
Qed.
Definition follows (k : string) : Prop := k = "" \/ exists q, k = String "<" q.
Lemma end_step d n p stk ns sc names a : Frames stk ns sc names -> eqmap (d_ns d) (fst (declare a ns stk)) -> d_stk d = SStart n :: snd (declare a ns stk) ->
  translate (d_ns d) p true = n ->
  exists ns', handle_end d p = RTok [EvEnd n] (mkDec (d_rest d) (d_err d) stk (d_close d) ns' (d_names d) (d_buf d)) /\ eqmap ns' ns.
Proof.
  intros F E S T. destruct (declare_undo a ns stk (d_ns d) E) as (ns3 & U & E3). rewrite (frames_undo _ _ _ _ ns3 F) in U.
  exists ns3. split; [|exact E3]. unfold handle_end. rewrite T, S, !seq_refl. cbn [negb]. rewrite U. reflexivity.
Qed.
Theorem content_steps sc s ts : Content sc s ts -> forall k d names, Before fin d (s +++ k) -> d_err d = None \/ s = "" -> Frames (d_stk d) (d_ns d) sc names -> follows k ->
  exists xs d', Steps fin d (flat_map events xs) d' /\ map unplaced xs = ts /\ Before fin d' k /\ d_stk d' = d_stk d /\ eqmap (d_ns d') (d_ns d).
Proof.
  induction 1 as [sc|sc s t r ts HS HT HR HC IH|sc nm p s a n b body kids w r ts HN HA HC HM HV HB IHB HW HR IHR|sc nm p s a n b r ts HN HA HC HM HV HR IHR|sc nm p w body r ts HN HW HWB HX HR IHR];
    intros k d names B HE F HK.
  - exists [], d. split; [constructor|]. split; [reflexivity|]. split; [exact B|]. split; [reflexivity|apply eqmap_refl].
  - destruct B as [B1 _ B3 B4]. destruct HE as [HE|HE]; [|destruct s; [congruence|discriminate]]. rewrite sapp_assoc in B1.
    assert (FK : follows (r +++ k)) by (destruct HR as [->|(q & ->)]; [exact HK|right; eexists; reflexivity]).
    destruct (lex_text s t (r +++ k) (d_names d) (d_buf d) HS HT FK) as (rf & b' & EL).
    set (d1 := mkDec (r +++ k) (match r +++ k with EmptyString => Some fin | _ => None end) (d_stk d) None (d_ns d) (d_names d) b').
    assert (E1 : raw_token fin true d = RTok [EvChar t rf] d1) by (unfold raw_token; rewrite HE, B3, B1, EL; reflexivity).
    destruct (IH k d1 names) as (xs & d' & S & U & BF & K1 & K2); [constructor; cbn; auto| |exact F|exact HK|].
    + cbn [d1 d_rest d_err]. destruct (r +++ k); auto.
    + cbn [d1 d_err]. destruct HR as [->|(q & ->)]; [auto|left; reflexivity].
    + exists (XText t rf :: xs), d'. split; [exact (StCons _ _ _ _ _ _ E1 S)|]. split; [cbn [map unplaced]; rewrite U; reflexivity|]. split; [exact BF|]. split; [exact K1|exact K2].
  - destruct B as [B1 _ B3 B4]. destruct HE as [HE|HE]; [|discriminate HE].
    set (k1 := "</" +++ nm +++ w +++ ">" +++ (r +++ k)).
    assert (B1' : d_rest d = "<" +++ nm +++ s +++ (if false then "/" else "") +++ ">" +++ (body +++ k1)) by (rewrite B1; unfold k1; rewrite !sapp_assoc; reflexivity).
    destruct (lex_start_tag nm p s a false (body +++ k1) (d_names d) (d_buf d) B4 HN HA HC) as (nms1 & b1 & EL & NM1).
    destruct (declare a (d_ns d) (d_stk d)) as [ns1 stk1] eqn:ED.
    assert (F1 : forall n, Frames (SStart n :: stk1) ns1 (a :: sc) (n :: names)).
    { intros m. replace stk1 with (snd (declare a (d_ns d) (d_stk d))) by (rewrite ED; reflexivity). econstructor; [exact F|eapply attrs_ok; exact HA|]. rewrite ED. apply eqmap_refl. }
    pose proof (means_translate _ _ _ _ _ _ _ (F1 n) HM) as TN. pose proof (resolved_map _ _ _ _ _ _ (F1 n) HV) as TA.
    set (d1 := mkDec (body +++ k1) None (SStart n :: stk1) None ns1 nms1 b1).
    assert (E1 : raw_token fin true d = RTok [EvStart n b] d1).
    { unfold raw_token. rewrite HE, B3, B1', EL. unfold handle_start. cbn [d_ns d_stk d_rest d_err d_close d_names d_buf]. rewrite ED, <- TN. unfold d1. rewrite TA. reflexivity. }
    destruct (IHB k1 d1 (n :: names)) as (xs & d2 & S2 & U2 & [C1 C2 C3 C4] & K2 & K3); [constructor; cbn; auto|left; reflexivity|apply F1|right; eexists; reflexivity|].
    cbn [d1 d_stk d_ns] in K2, K3.
    assert (C2' : d_err d2 = None) by (destruct C2 as [C2|[C2 _]]; [exact C2|discriminate C2]).
    destruct (lex_end_tag nm p w (r +++ k) (d_names d2) (d_buf d2) C4 HN HW) as (nms3 & b3 & EL3 & NM3).
    destruct (end_step (mkDec (r +++ k) None (d_stk d2) None (d_ns d2) nms3 b3) n p (d_stk d) (d_ns d) sc names a F) as (ns' & HEND & EQ).
    { cbn [d_ns]. rewrite ED. exact K3. }
    { cbn [d_stk]. rewrite ED. exact K2. }
    { cbn [d_ns]. rewrite (translate_eqmap _ _ p true K3). symmetry. exact TN. }
    cbn [d_rest d_err d_close d_names d_buf] in HEND.
    assert (E3 : raw_token fin true d2 = RTok [EvEnd n] (mkDec (r +++ k) None (d_stk d) None ns' nms3 b3)).
    { unfold raw_token. rewrite C2', C3, C1. unfold k1. rewrite EL3. exact HEND. }
    set (d3 := mkDec (r +++ k) None (d_stk d) None ns' nms3 b3) in *.
    destruct (IHR k d3 names) as (ys & d' & S4 & U4 & BF & K5 & K6); [constructor; cbn; auto|left; reflexivity|exact (frames_eqmap _ _ _ _ _ F EQ)|exact HK|].
    exists (XElem n b xs :: ys), d'. split.
    { cbn [flat_map events]. change (EvStart n b :: flat_map events xs ++ [EvEnd n]) with ([EvStart n b] ++ flat_map events xs ++ [EvEnd n]). rewrite <- !app_assoc.
      eapply StCons; [exact E1|]. eapply steps_app; [exact S2|]. eapply StCons; [exact E3|exact S4]. }
    split; [cbn [map unplaced]; rewrite U2, U4; reflexivity|]. split; [exact BF|]. split; [exact K5|]. intros x. rewrite K6. apply EQ.
  - destruct B as [B1 _ B3 B4]. destruct HE as [HE|HE]; [|discriminate HE].
    assert (B1' : d_rest d = "<" +++ nm +++ s +++ (if true then "/" else "") +++ ">" +++ (r +++ k)) by (rewrite B1; rewrite !sapp_assoc; reflexivity).
    destruct (lex_start_tag nm p s a true (r +++ k) (d_names d) (d_buf d) B4 HN HA HC) as (nms1 & b1 & EL & NM1).
    destruct (declare a (d_ns d) (d_stk d)) as [ns1 stk1] eqn:ED.
    assert (F1 : Frames (SStart n :: stk1) ns1 (a :: sc) (n :: names)).
    { replace stk1 with (snd (declare a (d_ns d) (d_stk d))) by (rewrite ED; reflexivity). econstructor; [exact F|eapply attrs_ok; exact HA|]. rewrite ED. apply eqmap_refl. }
    pose proof (means_translate _ _ _ _ _ _ _ F1 HM) as TN. pose proof (resolved_map _ _ _ _ _ _ F1 HV) as TA.
    set (d1 := mkDec (r +++ k) None (SStart n :: stk1) (Some p) ns1 nms1 b1).
    assert (E1 : raw_token fin true d = RTok [EvStart n b] d1).
    { unfold raw_token. rewrite HE, B3, B1', EL. unfold handle_start. cbn [d_ns d_stk d_rest d_err d_close d_names d_buf]. rewrite ED, <- TN. unfold d1. rewrite TA. reflexivity. }
    destruct (end_step (mkDec (r +++ k) None (SStart n :: stk1) None ns1 nms1 b1) n p (d_stk d) (d_ns d) sc names a F) as (ns' & HEND & EQ).
    { cbn [d_ns]. rewrite ED. apply eqmap_refl. }
    { cbn [d_stk]. rewrite ED. reflexivity. }
    { cbn [d_ns]. symmetry. exact TN. }
    cbn [d_rest d_err d_close d_names d_buf] in HEND.
    set (d3 := mkDec (r +++ k) None (d_stk d) None ns' nms1 b1) in *.
    assert (E3 : raw_token fin true d1 = RTok [EvEnd n] d3) by exact HEND.
    destruct (IHR k d3 names) as (ys & d' & S4 & U4 & BF & K5 & K6); [constructor; cbn; auto|left; reflexivity|exact (frames_eqmap _ _ _ _ _ F EQ)|exact HK|].
    exists (XElem n b [] :: ys), d'. split.
    { cbn [flat_map events app]. change (EvStart n b :: EvEnd n :: flat_map events ys) with ([EvStart n b] ++ [EvEnd n] ++ flat_map events ys).
      eapply StCons; [exact E1|]. eapply StCons; [exact E3|exact S4]. }
    split; [cbn [map unplaced]; rewrite U4; reflexivity|]. split; [exact BF|]. split; [exact K5|]. intros x. rewrite K6. apply EQ.
  - destruct B as [B1 _ B3 B4]. destruct HE as [HE|HE]; [|discriminate HE].
    assert (B1' : d_rest d = "<?" +++ nm +++ w +++ body +++ "?>" +++ (r +++ k)) by (rewrite B1; rewrite !sapp_assoc; reflexivity).
    destruct (lex_inst nm p w body (r +++ k) (d_names d) (d_buf d) B4 HN HW HWB HX) as (nms1 & b1 & EL & NM1).
    set (d1 := mkDec (r +++ k) None (d_stk d) None (d_ns d) nms1 b1).
    assert (E1 : raw_token fin true d = RTok [] d1) by (unfold raw_token; rewrite HE, B3, B1', EL; reflexivity).
    destruct (IHR k d1 names) as (ys & d' & S4 & U4 & BF & K5 & K6); [constructor; cbn; auto|left; reflexivity|exact F|exact HK|].
    exists ys, d'. split; [exact (StCons _ _ _ _ _ _ E1 S4)|]. split; [exact U4|]. split; [exact BF|]. split; [exact K5|exact K6].
Qed.
End Scan.
Theorem document_scanned doc ts : Content [] doc ts -> exists xs d, scan XEOF doc = SDone (flat_map events xs) XEOF d /\ map unplaced xs = ts.
Proof.
  intros H. destruct (content_steps XEOF [] doc ts H "" (dec_new doc) []) as (xs & d' & S & U & [B1 B2 B3 B4] & K & _).
  - constructor; cbn; [rewrite sapp_nil_r; reflexivity|auto|reflexivity|apply names_nil].
  - left. reflexivity.
  - constructor. apply eqmap_refl.
  - left. reflexivity.
  - assert (E : exists d2, raw_token XEOF true d' = RErr XEOF d2).
    { unfold raw_token. rewrite B3, B1, K. destruct B2 as [->|[_ ->]]; cbn; eauto. }
    destruct E as (d2 & E). destruct (steps_scan _ _ _ _ S _ _ E) as (n & Hn). exists xs, d2. split; [|exact U]. unfold scan.
    apply (scan_more _ _ (n + scan_fuel doc)); [apply scan_loop_done; cbn; unfold scan_fuel; lia|lia|apply Hn; lia].
Qed.
