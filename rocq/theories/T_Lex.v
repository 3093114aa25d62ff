(** * C58: texts and tags are read as XML says *)
From Verif Require Import GoBase GoNum GoUtf8 GoFloat Types XmlTypes M_Xml S_Xml S_Lex P_Xml P_Xml2 P_Esc P_Lex.

Theorem C58_text fin s t rest names b : TextMeans None false s t -> s <> "" ->
  exists r b', lex fin true (s +++ String "<" rest) names b = LTok (RwChar t r) (String "<" rest) None names b'.
Proof.
  intros H HS. assert (HH : exists c q, s = String c q /\ ceq c "<" = false).
  { assert (K : forall a s t, TextMeans None a s t -> a = false -> forall c q, s = String c q -> ceq c "<" = false).
    { clear. intros a s t H. destruct H as [a|a x s t N Q A H|a s t H|s t H|a nm v s t N H|a ds r e s t N X U H|a ds r e s t N X U H]; intros EA c q E; try discriminate; injection E as <- <-; try reflexivity.
      apply ceq_false. intros ->. apply N. left. reflexivity. }
    destruct s as [|c q]; [congruence|]. exists c, q. split; [reflexivity|]. apply (K _ _ _ H eq_refl _ _ eq_refl). }
  destruct HH as (c & q & -> & Hc). unfold lex. cbn [String.append]. rewrite Hc. cbn [negb]. unfold text.
  destruct (text_means fin None ltac:(auto) false (String c q) t H (String "<" rest) (S (String.length (String c q +++ String "<" rest))) (byte 0) (buf_reset b)) as (f & b1 & b' & E & L & C); [discriminate|lia|].
  cbn [String.append] in E. rewrite E. destruct f as [|f]; [lia|]. cbn [text_loop]. change (ceq "<" "<") with true. cbv iota. rewrite C. eauto.
Qed.
(** A name ends at white space, at the end of the tag and at nothing else *)
Theorem C58_start_tag fin input l evs d nm n s attrs empty rest b : Run fin true input l evs d ->
  NameMeans nm n -> AttrsMean s attrs -> (forall c r, s = String c r -> ~ NameByte c) ->
  exists names' b', lex fin true ("<" +++ nm +++ s +++ (if empty : bool then "/" else "") +++ ">" +++ rest) (d_names d) b = LTok (RwStart n attrs empty) rest None names' b'.
Proof.
  intros R HN HA HC. destruct (run_inv _ _ _ _ _ _ R) as (sc & nms & I). pose proof (i_names _ _ _ _ _ I) as NM. clear I R.
  destruct (name_means nm n HN) as (N1 & N2 & N3). set (r1 := s +++ (if empty then "/" else "") +++ ">" +++ rest).
  cbn [String.append]. unfold lex. change (negb (ceq "<" "<")) with false. cbv iota.
  destruct (head_not nm r1 "/" N1 N2 ltac:(vm_compute; reflexivity)) as (c & t & E1 & C1 & _).
  destruct (head_not nm r1 "?" N1 N2 ltac:(vm_compute; reflexivity)) as (c' & t' & E2 & C2 & _).
  rewrite E1 in E2. injection E2 as <- <-. rewrite E1, C1, C2, <- E1.
  assert (R1 : exists x y, r1 = String x y /\ in_name x = false).
  { unfold r1. destruct s as [|x s]; [destruct empty; eexists _, _; (split; [reflexivity|vm_compute; reflexivity])|]. eexists _, _. split; [reflexivity|].
    apply in_name_false. apply (HC x s). reflexivity. }
  destruct R1 as (x & y & R1 & X1). destruct (name_app fin true nm x y (d_names d) b NM N1 N2 X1) as (names' & EN & HN'). rewrite R1, EN, <- R1.
  destruct (attrs_mean fin s attrs HA empty rest (S (String.length r1)) [] names' (buf_puts nm (buf_reset b))) as (names2 & b2 & EA & _); [unfold r1, tag_close; destruct empty; cbn [String.append]; lia|exact HN'|].
  change (s +++ tag_close empty rest) with r1 in EA. rewrite EA, N3. eauto.
Qed.
Theorem C58_end_tag fin input l evs d nm n w rest b : Run fin true input l evs d -> NameMeans nm n -> Blank w ->
  exists names' b', lex fin true ("</" +++ nm +++ w +++ ">" +++ rest) (d_names d) b = LTok (RwEnd n) rest None names' b'.
Proof.
  intros R HN HW. destruct (run_inv _ _ _ _ _ _ R) as (sc & nms & I). pose proof (i_names _ _ _ _ _ I) as NM. clear I R.
  destruct (name_means nm n HN) as (N1 & N2 & N3). cbn [String.append]. unfold lex. change (negb (ceq "<" "<")) with false. change (ceq "/" "/") with true. cbv iota.
  assert (R1 : exists x y, w +++ String ">" rest = String x y /\ in_name x = false).
  { destruct w as [|x w]; [eexists _, _; (split; [reflexivity|vm_compute; reflexivity])|]. eexists _, _. split; [reflexivity|]. apply blank_name, HW. left. reflexivity. }
  destruct R1 as (x & y & R1 & X1). destruct (name_app fin true nm x y (d_names d) b NM N1 N2 X1) as (names' & EN & HN'). rewrite R1, EN, <- R1.
  rewrite blank_space by exact HW. cbn [space]. change (is_space ">") with false. cbv iota. rewrite ceq_refl, N3. eauto.
Qed.
(** Comments, CDATA sections and document types are not read: an error ends the scan. *)
Theorem C58_no_comments fin r names b : exists names' b', lex fin true ("<!" +++ r) names b = LErr (XSyntax "expected element name after <") names' b'.
Proof. eexists _, _. reflexivity. Qed.

Example C58_nonvacuous_text : TextMeans None false ("a" +++ String cr (String lf (String cr "&lt;&#65;&#x20AC;b'")))
  ("a" +++ String lf (String lf ("<A" +++ utf8_raw 8364 +++ "b'"))).
Proof.
  assert (P : forall c s t, ~ In c ["<"%char; "&"%char; cr] -> TextMeans None false s t -> TextMeans None false (String c s) (String c t)).
  { intros. apply TmPlain; auto; discriminate. }
  assert (N : forall c, In c (chars "ab'") -> ~ In c ["<"%char; "&"%char; cr]).
  { intros c Hc K. repeat (destruct Hc as [<-|Hc]; [repeat (destruct K as [K|K]; [discriminate K|]); destruct K|]). destruct Hc. }
  apply P; [apply N; cbn; auto|]. apply TmCr, TmCrLf, TmCr. change ("<A" +++ ?x) with ("<" +++ "A" +++ x).
  apply (TmNamed _ _ "lt"); [cbn; auto|]. apply (TmDec _ _ "65" 65); [|unfold XmlChar; lia|apply (U1 65); lia|].
  { apply (NuMore 10 "6" 6 "5" 5); [apply NuOne; [lia|left; reflexivity]|lia|left; reflexivity]. }
  apply (TmHex _ _ "20AC" 8364); [|unfold XmlChar; lia|apply (U3 2 2 44); lia|].
  { apply (NuMore 16 "20A" 522 "C" 12); [|lia|right; reflexivity]. apply (NuMore 16 "20" 32 "A" 10); [|lia|right; reflexivity].
    apply (NuMore 16 "2" 2 "0" 0); [|lia|left; reflexivity]. apply NuOne; [lia|left; reflexivity]. }
  apply P; [apply N; cbn; auto|]. apply P; [apply N; cbn; auto|]. apply TmNil.
Qed.
Example C58_nonvacuous_tag : AttrsMean (String cr (" p:x = 'a'" +++ String (byte 9) "y=""""")) [mkAttr (mkName "p" "x") "a"; mkAttr (mkName "" "y") ""].
Proof.
  assert (B : forall s, s = "" \/ s = " " \/ s = String cr " " \/ s = String (byte 9) "" -> Blank s).
  { intros s Hs c Hc. destruct Hs as [->|[->|[->| ->]]]; cbn in Hc |- *; tauto. }
  assert (NB : forall c, In c (chars "pxy") -> NameByte c /\ c <> ":"%char).
  { intros c Hc. split; [|intros ->; repeat (destruct Hc as [Hc|Hc]; [discriminate Hc|]); destruct Hc]. right. repeat (destruct Hc as [<-|Hc]; [cbn; tauto|]). destruct Hc. }
  apply (AmCons (String cr " ") "p:x" (mkName "p" "x") " " " " "'" "a" "a"); try (apply B; auto); [|cbn; auto| |].
  - apply (NmPrefix "p" "x"); intros c Hc; apply NB; cbn in *; tauto.
  - apply TmPlain; [|discriminate|discriminate|apply TmNil]. intros K. repeat (destruct K as [K|K]; [discriminate K|]). destruct K.
  - apply (AmCons (String (byte 9) "") "y" (mkName "" "y") "" "" """" "" "" "" []); try (apply B; auto); [|cbn; auto|apply TmNil|apply AmNil, B; auto].
    apply NmLocal; [discriminate|]. intros c Hc; apply NB; cbn in *; tauto.
Qed.
Print Assumptions C58_text.
Print Assumptions C58_start_tag.
Print Assumptions C58_end_tag.
Print Assumptions C58_no_comments.
