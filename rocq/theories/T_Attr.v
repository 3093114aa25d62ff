(** * Theorems about the errors of attribute values *)
From Coq Require Import ZArith.
From Verif Require Import GoBase GoNum GoUtf8 GoFloat GoStrconv Types XmlTypes M_Core M_Errors M_Text M_Xml M_Decode
  S_Core S_Text S_Errors S_Decode S_Attr P_Xml2 P_Decode P_Attr T_Xml T_Decode.
From Verif Require Import Types.
Local Open Scope list_scope.

(** ** C63: which attribute values are reported, and where *)
(** One start tag, whatever was read before: the element is passed over, which does not happen to one that is to be
    read, or it is opened, and then exactly the errors of its attributes are added, in order, each one located at the
    open elements. *)
Theorem C63_tag reg isroot path later mo evs m n attrs m' p i rest :
  ChildsOk mo -> ModelGroups (knownb reg) path mo ->
  on_events reg isroot path later evs (m_init mo) = Some m -> open_of m = (p, i) :: rest ->
  on_start reg isroot path n attrs m = Some m' ->
  (open_of m' = open_of m /\ m_errs m' = m_errs m /\ ~ Expected (knownb reg) isroot p n) \/
  (exists j inres fs, open_of m' = (n, j) :: open_of m /\ (inres = true <-> p = cn "resources") /\
     Flaws (attr_rule (knownb reg) isroot inres n) (attr_first (knownb reg) inres n) attrs fs /\
     flat_map located (m_errs m') = flat_map located (m_errs m) ++
       map (fun x => (rev (map (fun o => mkLevel (nlocal (fst o)) (snd o)) (open_of m')), "", x)) fs).
Proof.
  intros C G E O S. pose proof (events_ok reg isroot path later _ _ _ (init_ok reg path mo C G) E) as M.
  destruct (top_fits reg path _ _ _ _ M O) as (k0 & F).
  destruct (start_step reg isroot path _ _ _ _ M S) as [_ [(S1 & S2 & S3)|(j & k & fs & S1 & S2 & S3)]].
  - left. unfold open_of. rewrite S1. split; [reflexivity|]. split; [exact S2|]. intros X.
    destruct (expected_child reg isroot path _ _ _ _ (m_st m) F X) as [X1 X2]. destruct S3; congruence.
  - right. exists j, (isres (m_cur m)), fs. split; [unfold open_of; rewrite S1; reflexivity|]. split; [eapply fits_res; exact F|]. split; [exact S2|].
    rewrite S3, flat_map_app. f_equal. rewrite level_open. clear. induction fs as [|x fs IH]; [reflexivity|]. cbn. rewrite IH. reflexivity.
Qed.
Print Assumptions C63_tag.

(** The open elements are among those of the document, from the outside to the inside. *)
Theorem C63_open reg isroot path later mo evs m open :
  ChildsOk mo -> ModelGroups (knownb reg) path mo ->
  on_events reg isroot path later evs (m_init mo) = Some m -> nest [] evs = Some open ->
  SubList (map fst (open_of m)) open.
Proof.
  intros C G E N. apply (events_sub reg isroot path later evs (m_init mo) m [] open); [apply init_ok; assumption|exact E|exact N|constructor].
Qed.
Print Assumptions C63_open.

(** Whole files.  Every error reported, strictly or not, is that of an attribute of the file whose value is not of
    its type, and is located at the element of that attribute. *)
Theorem C63_justified reg isroot strict path every ctx fin input mo evs e d mm g nn d' :
  ChildsOk mo -> ModelGroups (knownb reg) path mo ->
  scan fin input = SDone evs e d ->
  decode_file reg isroot strict path every ctx fin input mo = DRet mm (DErrs g) nn d' ->
  Forall (fun x => exists n attrs a t rq cnt inres loc i, In (EvStart n attrs) evs /\ In a attrs /\
    attr_rule (knownb reg) isroot inres n a = Some (t, rq) /\ Flaw t (avalue a) (S cnt) /\
    x = (loc ++ [mkLevel (nlocal n) i], "", EParse (nlocal (aname a)) rq)) (located g).
Proof.
  intros C G SC H. unfold decode_file in H. destruct (decode_with _ _ _ _ _ _ _ (fun _ => "") input mo) as [m1 e1 n1 d1| |]; try discriminate.
  unfold decode_with in H. destruct (errs_prefix _ _ _ _ _ _ _ _ _ _ _ _ _ _ _ _ H) as (evs1 & m' & E & I & P).
  destruct (P _ _ _ SC) as (post & ->). destruct (events_blame _ _ _ _ _ _ _ (init_ok reg path mo C G) E) as (new & EN & FN). cbn in EN. subst new.
  apply Forall_forall. intros x IN. apply I in IN. apply in_flat_map in IN as (y & Y1 & Y2). rewrite Forall_forall in FN.
  destruct (FN y Y1) as (n & attrs & a & t & rq & cnt & ir & loc & i & B1 & B2 & B3 & B4 & B5). rewrite B5 in Y2. destruct Y2 as [<-|[]].
  exists n, attrs, a, t, rq, cnt, ir, loc, i. split; [apply in_or_app; left; exact B1|]. auto.
Qed.
Print Assumptions C63_justified.
(** So a file none of whose attributes has such a value gives no such error. *)
Theorem C63_clean reg isroot strict path every ctx fin input mo evs e d mm r nn d' :
  ChildsOk mo -> ModelGroups (knownb reg) path mo ->
  scan fin input = SDone evs e d ->
  (forall n attrs a t rq inres, In (EvStart n attrs) evs -> In a attrs ->
     attr_rule (knownb reg) isroot inres n a = Some (t, rq) -> Flaw t (avalue a) 0) ->
  decode_file reg isroot strict path every ctx fin input mo = DRet mm r nn d' ->
  forall g, r = DErrs g -> located g = [].
Proof.
  intros C G SC CL H g ->. pose proof (C63_justified _ _ _ _ _ _ _ _ _ _ _ _ _ _ _ _ C G SC H) as F.
  destruct (located g) as [|x l]; [reflexivity|]. inversion F as [|? ? X _]; subst. exfalso.
  destruct X as (n & attrs & a & t & rq & cnt & ir & loc & i & B1 & B2 & B3 & B4 & B5).
  pose proof (flaw_unique _ _ _ _ (CL n attrs a t rq ir B1 B2 B3) B4). discriminate.
Qed.
Print Assumptions C63_clean.
(** In a well-formed file that is read to its end, the errors of a tag are all reported, in order, located by the names
    of the elements around it, provided these are to be read and no element is inside one of its own name. *)
Theorem C63_reported reg isroot path every fin input mo cs a0 pre n attrs post open fs d mm r nn d' :
  ChildsOk mo -> ModelGroups (knownb reg) path mo ->
  scan fin input = SDone (cs ++ EvStart (cn "model") a0 :: pre ++ EvStart n attrs :: post) XEOF d ->
  Forall is_char cs -> Within [cn "model"] pre open -> Chain (knownb reg) isroot (n :: open) ->
  Flaws (attr_rule (knownb reg) isroot (in_resources open) n) (attr_first (knownb reg) (in_resources open) n) attrs fs ->
  decode_file reg isroot false path every (fun _ => false) fin input mo = DRet mm r nn d' ->
  fs = [] \/
  exists g loc before after, r = DErrs g /\ map lv_name loc = rev (map nlocal (n :: open)) /\
    located g = before ++ map (fun x => (loc, "", x)) fs ++ after.
Proof.
  intros C G SC CS W CH FL H. destruct fs as [|f0 fs]; [left; reflexivity|right]. unfold decode_file in H.
  destruct (decode_with _ _ _ _ _ _ _ (fun _ => "") input mo) as [m1 e1 n1 d1| |]; try discriminate. unfold decode_with in H. unfold scan in SC.
  pose proof (lenient_run reg isroot path every fin (buf_deref (d_buf d1)) _ 0 _ (m_init mo) _ _ _ SC) as L. rewrite H in L.
  destruct (on_events _ _ _ _ _ (m_init mo)) as [m'|] eqn:E; [|discriminate]. destruct L as (n2 & L). injection L as -> -> _ _.
  destruct (tag_reported _ _ _ _ _ _ _ _ _ _ _ _ _ _ C G CS W CH E FL) as (before & after & loc & ER & LN).
  assert (EQ : forall l, located (EList l) = flat_map located l) by (intros l0; induction l0 as [|x l0 IH]; [reflexivity|]; cbn [flat_map]; rewrite <- IH; reflexivity).
  assert (LOC : forall l, flat_map located (map (fun x => Types.EErr loc x "") l) = map (fun x => (rev loc, "", x)) l).
  { intros l. induction l as [|x l IH]; [reflexivity|]. cbn. rewrite IH. reflexivity. }
  assert (R : exists g, finish false (m_errs m') (scan_err XEOF) = DErrs g /\ located g = flat_map located (m_errs m')).
  { assert (NE : m_errs m' <> []) by (rewrite ER; destruct before; discriminate). clear - NE EQ. cbn [scan_err].
    destruct (m_errs m') as [|g0 [|g1 l]]; [congruence| |]; cbn [finish orb List.length Nat.eqb]; eexists; (split; [reflexivity|]); [|apply EQ].
    cbn [flat_map]. rewrite app_nil_r. reflexivity. }
  destruct R as (g & R1 & R2). exists g, (rev loc), (flat_map located before), (flat_map located after).
  split; [exact R1|]. split; [rewrite map_rev, LN; reflexivity|]. rewrite R2, ER, !flat_map_app, LOC. reflexivity.
Qed.
Print Assumptions C63_reported.

(** The index of a location.  Elements that are added to a list when they start: the index is their place.  (An
    [s_obj_done] that is false: the object around is still open.) *)
Theorem C63_index reg isroot path n attrs m m' k i :
  s_obj_done (m_st m) = false -> on_start reg isroot path n attrs m = Some m' -> m_stack m' = (k, n, i) :: m_stack m ->
  landed path k i (m_st m) (m_st m').
Proof.
  intros D H S. unfold on_start in H. destruct (has_child (m_cur m)).
  - destruct (child reg isroot path (m_cur m) n (m_st m)) as [| |i0 k0 s] eqn:C; [|discriminate|].
    + injection H as <-. exfalso. assert (L := f_equal (@List.length _) S). cbn in L. lia.
    + destruct (start reg isroot path k0 n attrs s) as [[s' e]|] eqn:ST; [|discriminate].
      pose proof (start_lands _ _ _ _ _ _ _ _ _ _ _ _ D C ST) as L. destruct e; injection H as <-; cbn in S; injection S as <- <-; exact L.
  - injection H as <-. cbn in S. exfalso. assert (L := f_equal (@List.length _) S). cbn in L. lia.
Qed.
Print Assumptions C63_index.
(** Elements that are added when they end: the index is the number of elements of the list when they start.  As none
    of these elements is read inside one of its kind, that is their place. *)
Theorem C63_place reg isroot path n attrs m m' k i :
  on_start reg isroot path n attrs m = Some m' -> m_stack m' = (k, n, i) :: m_stack m -> placed path k i (m_st m).
Proof.
  intros H S. unfold on_start in H. destruct (has_child (m_cur m)).
  - destruct (child reg isroot path (m_cur m) n (m_st m)) as [| |i0 k0 s] eqn:C; [|discriminate|].
    + injection H as <-. exfalso. assert (L := f_equal (@List.length _) S). cbn in L. lia.
    + apply child_place in C. destruct (start reg isroot path k0 n attrs s) as [[s' e]|] eqn:ST; [|discriminate].
      destruct e; injection H as <-; cbn in S; injection S as <- <-; exact C.
  - injection H as <-. cbn in S. exfalso. assert (L := f_equal (@List.length _) S). cbn in L. lia.
Qed.
Print Assumptions C63_place.

(** What does not hold.  Values of enumerated types are accepted that are none of the words of the specification. *)
Definition doc_ns : string := doc_model +++ " xmlns:m=""http://schemas.microsoft.com/3dmanufacturing/material/2015/02""" +++
  " xmlns:s=""http://schemas.microsoft.com/3dmanufacturing/slice/2015/07""" +++
  " xmlns:b=""http://schemas.microsoft.com/3dmanufacturing/beamlattice/2017/02"">".
Theorem C63_silent_refuted : exists input,
  input = doc_ns +++ "<metadata name=""Title"" preserve=""perhaps""/><resources><m:texture2d id=""1"" path=""/a.png"" contenttype=""text/html"" tilestyleu=""zigzag"" filter=""blurry""/>" +++
    "<m:multiproperties id=""2"" pids=""1"" blendmethods=""stir""/>" +++
    "<object id=""3""><mesh><b:beamlattice radius=""1"" minlength=""1""><b:beams><b:beam v1=""0"" v2=""1"" cap1=""pointed""/></b:beams></b:beamlattice></mesh></object></resources></model>" /\
  Forall (fun tv => ~ In (snd tv) (fst tv))
    [(map snd spec_tex_type, "text/html"); (map snd spec_tile, "zigzag"); (map snd spec_filter, "blurry");
     (map snd spec_blend, "stir"); (map snd spec_cap, "pointed")] /\
  exists nn, result (unmarshal_model all_specs input model_zero) = Some (DNone, nn).
Proof.
  eexists. split; [reflexivity|]. split.
  - repeat (constructor; [cbn; intuition discriminate|]). constructor.
  - eexists. vm_compute. reflexivity.
Qed.
Print Assumptions C63_silent_refuted.
(** The index of a slice segment is not its place: here the third segment of a first polygon is called the second. *)
Theorem C63_segment_refuted : exists input g,
  input = doc_ns +++ "<resources><s:slicestack id=""1""><s:slice ztop=""1""><s:polygon startv=""0""><s:segment v2=""1""/><s:segment v2=""2""/><s:segment v2=""x""/></s:polygon></s:slice></s:slicestack></resources></model>" /\
  option_map fst (result (unmarshal_model all_specs input model_zero)) = Some (DErrs g) /\
  located g = [([mkLevel "model" (-1); mkLevel "resources" (-1); mkLevel "slicestack" 0; mkLevel "slice" 0; mkLevel "polygon" 0; mkLevel "segment" 1],
                "", EParse "v2" true)].
Proof. eexists _, _. split; [reflexivity|]. split; vm_compute; reflexivity. Qed.
Print Assumptions C63_segment_refuted.
(** An attribute of a namespace nobody knows is taken for one of the slice extension. *)
Theorem C63_namespace_refuted : exists input mm e nn d s,
  input = doc_ns +++ "<resources><s:slicestack id=""1"" xmlns:o=""http://other"" o:id=""7""/></resources></model>" /\
  unmarshal_model all_specs input model_zero = DRet mm e nn d /\ e = DNone /\
  rs_assets (mo_res mm) = [AExt (XSliceStack s)] /\ ss_id s = 7%N.
Proof. eexists _, _, _, _, _, _. split; [reflexivity|]. split; [vm_compute; reflexivity|]. repeat split. Qed.
Print Assumptions C63_namespace_refuted.
(** An attribute no specification defines is an error of a required attribute on a vertex or triangle, none elsewhere. *)
Theorem C63_undefined_refuted : exists input input' g,
  input = doc_ns +++ "<resources><object id=""1""><mesh><vertices><vertex x=""1"" y=""2"" z=""3"" note=""hi""/></vertices></mesh></object></resources></model>" /\
  option_map fst (result (unmarshal_model all_specs input model_zero)) = Some (DErrs g) /\ map snd (located g) = [EParse "note" true] /\
  input' = doc_ns +++ "<resources><object id=""1"" note=""hi""/></resources></model>" /\
  option_map fst (result (unmarshal_model all_specs input' model_zero)) = Some DNone.
Proof. eexists _, _, _. split; [reflexivity|]. split; [vm_compute; reflexivity|]. split; [vm_compute; reflexivity|]. split; [reflexivity|]. vm_compute. reflexivity. Qed.
Print Assumptions C63_undefined_refuted.
Definition doc_flawed : string := doc_ns +++
  "<resources><object id=""1""><mesh><vertices><vertex x=""1"" y=""2"" z=""3""/><vertex x=""one"" y=""2"" z=""""/></vertices></mesh></object></resources></model>".
Example C63_nonvacuous : exists a0 pre n attrs post d g,
  scan XEOF doc_flawed = SDone ([] ++ EvStart (cn "model") a0 :: pre ++ EvStart n attrs :: post) XEOF d /\
  let open := [cn "vertices"; cn "mesh"; cn "object"; cn "resources"; cn "model"] in
  let fs := [EParse "x" true; EParse "z" true] in
  Within [cn "model"] pre open /\ Chain (knownb all_specs) true (n :: open) /\
  Flaws (attr_rule (knownb all_specs) true (in_resources open) n) (attr_first (knownb all_specs) (in_resources open) n) attrs fs /\
  ChildsOk model_zero /\ ModelGroups (knownb all_specs) "" model_zero /\
  option_map fst (result (decode_file all_specs true false "" 1000 (fun _ => false) XEOF doc_flawed model_zero)) = Some (DErrs g) /\
  located g = map (fun x => ([mkLevel "model" (-1); mkLevel "resources" (-1); mkLevel "object" 0; mkLevel "mesh" (-1); mkLevel "vertices" (-1); mkLevel "vertex" 1], "", x)) fs.
Proof.
  pose (evs := match scan XEOF doc_flawed with SDone l _ _ => l | SOut => [] end).
  pose (pr := firstn 6 (skipn 1 evs)).
  exists (match evs with EvStart _ a :: _ => a | _ => [] end), pr, (cn "vertex"),
    (match nth 7 evs (EvEnd (cn "")) with EvStart _ a => a | _ => [] end), (skipn 8 evs), (match scan XEOF doc_flawed with SDone _ _ d => d | SOut => dec_new "" end).
  eexists. split; [vm_compute; reflexivity|]. cbn zeta. split; [|split; [|split; [|split; [|split; [|split]]]]].
  - let r := eval vm_compute in pr in change pr with r.
    repeat first [apply WiNil | apply WiChar | apply WiEnd; [discriminate|] | apply WiStart; [discriminate|cbn; intuition discriminate|]].
  - repeat (apply ChIn; [|split; [left; cbn; tauto|left; reflexivity]]). apply ChRoot.
  - let r := eval vm_compute in (match nth 7 evs (EvEnd (cn "")) with EvStart _ a => a | _ => [] end) in
      change (match nth 7 evs (EvEnd (cn "")) with EvStart _ a => a | _ => [] end) with r.
    assert (A : forall a n b, attr_rule (knownb all_specs) true false (cn "vertex") a = req TFloat -> nlocal (aname a) = n -> snd (parse_float (avalue a)) = b ->
      AttrFlaws (attr_rule (knownb all_specs) true false (cn "vertex") a) a (if b then [] else [EParse n true])).
    { intros a n b -> <- E. pose proof (wrong1 FloatText (avalue a) b) as W.
      destruct b; [change [] with (repeat (EParse (nlocal (aname a)) true) 0)|change [EParse (nlocal (aname a)) true] with (repeat (EParse (nlocal (aname a)) true) 1)];
        eapply AFRule; try reflexivity; apply W; unfold FloatText; rewrite E; tauto. }
    cbn [in_resources].
    change (Flaws (attr_rule (knownb all_specs) true false (cn "vertex")) false
      [mkAttr (mkName "" "x") "one"; mkAttr (mkName "" "y") "2"; mkAttr (mkName "" "z") ""] ([EParse "x" true] ++ [] ++ [EParse "z" true] ++ [])).
    apply S_Attr.FCons; [left; reflexivity|apply (A _ "x" false); vm_compute; reflexivity|].
    apply S_Attr.FCons; [left; reflexivity|apply (A _ "y" true); vm_compute; reflexivity|].
    apply S_Attr.FCons; [left; reflexivity|apply (A _ "z" false); vm_compute; reflexivity|]. apply S_Attr.FNil.
  - constructor.
  - split; [constructor|]. split; [constructor|]. intros r A. destruct A as [A|A|A|c A B I]; try (constructor; fail). destruct I.
  - vm_compute. reflexivity.
  - vm_compute. reflexivity.
Qed.
