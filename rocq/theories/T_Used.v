(** * Theorems: decoding into a model that is not empty: C81

    UnmarshalModel and Decode add to the model they are given.  What they add should not depend on what it held, and what
    it held should stay. *)
From Coq Require Import ZArith Lia.
From Verif Require Import GoBase GoNum GoUtf8 GoFloat GoStrconv Types XmlTypes PkgTypes M_Core M_Errors M_Text M_Xml M_Decode M_Package M_Childs M_Decoder M_Reuse
  S_Core S_Text S_Errors S_Xml S_Lex S_Decode S_Attr S_Meaning S_Read S_Document S_Package S_Used P_Core P_Panic P_Attr P_Childs P_Onto P_Used T_Decode T_Attr T_Meaning T_Read T_Document T_Reuse.
From Verif Require Import Types.
Local Open Scope list_scope.

(** An error without the positions of elements in their lists *)
Definition erased (e : derr) : derr := match e with DErrs g => DErrs (unindexed g) | e => e end.
Definition erased_p (e : perr) : perr := match e with PChild (CDec e) => PChild (CDec (erased e)) | PRoot e => PRoot (erased e) | e => e end.
Lemma derel_erased e e' : derel e e' -> erased e' = erased e.
Proof. destruct e, e'; cbn; intros H; try contradiction; try reflexivity; rewrite H; reflexivity. Qed.
Lemma erased_derel e e' : derel e e' -> e = DNone <-> e' = DNone.
Proof. destruct e, e'; cbn; intros H; try contradiction; split; congruence. Qed.
Lemma perel_erased e e' : perel e e' -> erased_p e' = erased_p e.
Proof. destruct e as [|[|e]| |e], e' as [|[|e']| |e']; cbn; intros H; try contradiction; try reflexivity; rewrite (derel_erased _ _ H); reflexivity. Qed.

(** Decoding a file, conforming or not, into [M] does what decoding it into [emptied M] does: same errors up to the
    positions in lists, same model with the resources, items, metadata and other elements of [M] before those read, and a
    panic only where there is one anyway.
    Missing: the other parts of [M] (unit, language, namespaces, children, attachments), see below. *)
Theorem C81_file_partial reg isroot strict path every ctx fin input M :
  (forall m e n d, decode_file reg isroot strict path every ctx fin input (emptied M) = DRet m e n d ->
     exists e', erased e' = erased e /\ decode_file reg isroot strict path every ctx fin input M = DRet (onto M m) e' n d) /\
  (decode_file reg isroot strict path every ctx fin input (emptied M) = DPanic <-> decode_file reg isroot strict path every ctx fin input M = DPanic).
Proof.
  pose proof (file_onto reg isroot strict path every ctx fin input M (emptied M)) as R. rewrite (onto_emptied M) in R.
  destruct (decode_file reg isroot strict path every ctx fin input (emptied M)) as [m e n d| |], (decode_file reg isroot strict path every ctx fin input M) as [m' e' n' d'| |];
    cbn [drel] in R; try contradiction; (split; [intros m0 e0 n0 d0 [= -> -> -> ->] || discriminate|split; congruence]); try discriminate.
  destruct R as (-> & R & -> & ->). exists e'. split; [apply derel_erased, R|reflexivity].
Qed.
Print Assumptions C81_file_partial.
(** So what [M] held of these is kept, at its place, whatever the file is, also after an error. *)
Theorem C81_kept_partial reg input M m e n d : unmarshal_model reg input M = DRet m e n d ->
  (forall i o, nth_error (rs_objects (mo_res M)) i = Some o -> nth_error (rs_objects (mo_res m)) i = Some o) /\
  (forall i a, nth_error (rs_assets (mo_res M)) i = Some a -> nth_error (rs_assets (mo_res m)) i = Some a) /\
  (forall i t, nth_error (bu_items (mo_build M)) i = Some t -> nth_error (bu_items (mo_build m)) i = Some t) /\
  (forall i t, nth_error (mo_md M) i = Some t -> nth_error (mo_md m) i = Some t) /\
  (forall i t, nth_error (mo_any M) i = Some t -> nth_error (mo_any m) i = Some t).
Proof.
  intros H. pose proof (file_onto reg true false DefaultModelPath 1000 (fun _ => false) XEOF input M (emptied M)) as R. rewrite (onto_emptied M) in R.
  change (decode_file reg true false DefaultModelPath 1000 (fun _ => false) XEOF input M) with (unmarshal_model reg input M) in R. rewrite H in R.
  destruct (decode_file reg true false DefaultModelPath 1000 (fun _ => false) XEOF input (emptied M)) as [m0 e0 n0 d0| |]; cbn [drel] in R; try contradiction. destruct R as (-> & _).
  assert (A : forall X (a b : list X) i x, nth_error a i = Some x -> nth_error (a ++ b) i = Some x).
  { intros X a b i x E. rewrite nth_error_app1; [exact E|]. apply nth_error_Some. congruence. }
  cbn [onto mo_res mo_build mo_md mo_any rs_objects rs_assets bu_items]. repeat split; intros i x; apply A.
Qed.
Print Assumptions C81_kept_partial.
(** If the headers of [M] are as in a new model, what a document says is added: cf. C76. *)
Theorem C81_document_partial reg doc M before a kids after :
  Blank (emptied M) -> mo_path M = "" \/ mo_path M = DefaultModelPath -> NoDup (map fst (mo_childs M)) ->
  Content [] doc (before ++ XElem (cn "model") a kids :: after) -> Forall is_text before -> Forall is_text after ->
  Conforming (knownb reg) true a kids -> Forall (KeptTextless (knownb reg)) kids ->
  exists n d, unmarshal_model reg doc M = DRet (onto M (model_of (knownb reg) (fun _ => "") (emptied M) a kids)) DNone n d.
Proof.
  intros B R C H P1 P2 CF KT. destruct (C76_read reg doc (emptied M) before a kids after B R C H P1 P2 CF KT) as (n & d & E).
  destruct (proj1 (C81_file_partial reg true false DefaultModelPath 1000 (fun _ => false) XEOF doc M) _ _ _ _ E) as (e' & X & E').
  exists n, d. destruct e'; try discriminate X. exact E'.
Qed.
Print Assumptions C81_document_partial.
(** Packages: for every execution of the goroutines with one model there is one with the other, with the same outcome.
    [nr]: the Decoder may have been used before. *)
Theorem C81_package_partial reg strict every resolve later nr p M :
  (forall m, decodes_again reg strict every resolve later nr p (emptied M) (PModel m) -> decodes_again reg strict every resolve later nr p M (PModel (onto M m))) /\
  (forall m', decodes_again reg strict every resolve later nr p M (PModel m') -> exists m, m' = onto M m /\ decodes_again reg strict every resolve later nr p (emptied M) (PModel m)) /\
  (forall e, decodes_again reg strict every resolve later nr p (emptied M) (PErr e) -> exists e', erased_p e' = erased_p e /\ decodes_again reg strict every resolve later nr p M (PErr e')) /\
  (forall e', decodes_again reg strict every resolve later nr p M (PErr e') -> exists e, erased_p e' = erased_p e /\ decodes_again reg strict every resolve later nr p (emptied M) (PErr e)).
Proof.
  pose proof (onto_emptied M) as O.
  assert (F : forall r, decodes_again reg strict every resolve later nr p (emptied M) r -> exists r', prel M r r' /\ decodes_again reg strict every resolve later nr p M r').
  { intros r D. destruct (decodes_fwd _ _ _ _ _ _ M _ _ _ D) as (r' & R & D'). rewrite O in D'. exists r'. split; assumption. }
  assert (G : forall r', decodes_again reg strict every resolve later nr p M r' -> exists r, prel M r r' /\ decodes_again reg strict every resolve later nr p (emptied M) r).
  { intros r' D. rewrite <- O in D. destruct (decodes_bwd _ _ _ _ _ _ M _ _ _ D) as (r & R & D'). exists r. split; assumption. }
  split; [|split; [|split]].
  - intros m D. destruct (F _ D) as ([m'|] & R & D'); [|contradiction]. cbn [prel] in R. subst m'. exact D'.
  - intros m' D. destruct (G _ D) as ([m|] & R & D'); [|contradiction]. exists m. split; assumption.
  - intros e D. destruct (F _ D) as ([|e'] & R & D'); [contradiction|]. exists e'. split; [apply perel_erased, R|exact D'].
  - intros e' D. destruct (G _ D) as ([|e] & R & D'); [contradiction|]. exists e. split; [apply perel_erased, R|exact D'].
Qed.
Print Assumptions C81_package_partial.

(** ** What is not so: two files read one after the other into the same model *)
Definition next (input : string) (m : Model) : option Model := match unmarshal_model all_specs input m with DRet m DNone _ _ => Some m | _ => None end.
Definition first_doc : string := doc_model +++ " xmlns:m=""http://schemas.microsoft.com/3dmanufacturing/material/2015/02"" unit=""inch""><resources><object id=""1"" name=""a""><mesh/></object></resources></model>".
Definition second_doc : string := doc_model +++ " xmlns:m=""http://schemas.microsoft.com/3dmanufacturing/slice/2015/07"" requiredextensions=""m""><resources><object id=""1"" name=""b""><mesh/></object></resources><build><item objectid=""1""/></build></model>".
Definition item_names (m : Model) : list (option string) := map (fun i => option_map ob_name (find_object m "" (it_oid i))) (bu_items (mo_build m)).
(** A file without a unit is in millimetres, but is read in the unit of the file before it. *)
Theorem C81_unit_refuted : exists a b m1 m2 m12, next a model_zero = Some m1 /\ next b model_zero = Some m2 /\ next b m1 = Some m12 /\
  mo_units m2 = 0%N /\ mo_units m12 <> 0%N.
Proof.
  exists first_doc, second_doc. eexists _, _, _. split; [vm_compute; reflexivity|]. split; [vm_compute; reflexivity|]. split; [vm_compute; reflexivity|]. split; [reflexivity|discriminate].
Qed.
Print Assumptions C81_unit_refuted.
(** The extension the second file requires is not marked as required, that of the first with the same prefix is. *)
Theorem C81_required_refuted : exists a b m1 m2 m12 x y, next a model_zero = Some m1 /\ next b model_zero = Some m2 /\ next b m1 = Some m12 /\
  mo_exts m1 = [mkExt x "m" false] /\ mo_exts m2 = [mkExt y "m" true] /\ x <> y /\ mo_exts m12 = [mkExt x "m" true; mkExt y "m" false].
Proof.
  exists first_doc, second_doc. eexists _, _, _, _, _. split; [vm_compute; reflexivity|]. split; [vm_compute; reflexivity|]. split; [vm_compute; reflexivity|]. split; [reflexivity|]. split; [reflexivity|]. split; [discriminate|reflexivity].
Qed.
Print Assumptions C81_required_refuted.
(** The item of the second file builds the object of the first. *)
Theorem C81_object_refuted : exists a b m1 m2 m12, next a model_zero = Some m1 /\ next b model_zero = Some m2 /\ next b m1 = Some m12 /\
  item_names m1 = [] /\ item_names m2 = [Some "b"] /\ item_names m12 = [Some "a"].
Proof.
  exists first_doc, second_doc. eexists _, _, _. split; [vm_compute; reflexivity|]. split; [vm_compute; reflexivity|]. split; [vm_compute; reflexivity|]. repeat split; vm_compute; reflexivity.
Qed.
Print Assumptions C81_object_refuted.
Definition with_parts (id png : string) : PkgIn :=
  mkPI [mkRel "/3D/3dmodel.model" type_3dmodel "r0"; mkRel "/t.png" type_thumbnail "r2"]
    [mkPF "/3D/3dmodel.model" "" (Some (core_file "")) [mkRel "/3D/other.model" type_3dmodel "r1"];
     mkPF "/3D/other.model" "" (Some (core_file ("<resources><object id=""" +++ id +++ """><mesh/></object></resources>"))) []; mkPF "/t.png" "image/png" (Some png) []].
(** The child of the first package is lost, and the attachment of the second, if they have the names of those of the other. *)
Theorem C81_parts_refuted : exists p1 p2 m1 m12,
  decodes all_reg true 1000 in_3d (fun _ _ => "") p1 model_zero (PModel m1) /\ decodes all_reg true 1000 in_3d (fun _ _ => "") p2 m1 (PModel m12) /\
  child_ids m1 = [("/3D/other.model", [7%N])] /\ child_ids m12 = [("/3D/other.model", [1%N])] /\
  (exists f, In f (pi_files p2) /\ pf_name f = "/t.png" /\ pf_data f = Some "new") /\
  map (fun a => (at_path a, at_data a)) (mo_atts m12) = [("/t.png", "old")].
Proof.
  exists (with_parts "7" "old"), (with_parts "1" "new"). eexists _, _. split; [|split; [|split; [|split; [|split]]]].
  - eapply DecRoot; [vm_compute; reflexivity|eapply (ran (repeat 0 11)); [vm_compute; reflexivity|repeat constructor|reflexivity]|]. vm_compute. reflexivity.
  - eapply DecRoot; [vm_compute; reflexivity|eapply (ran (repeat 0 11)); [vm_compute; reflexivity|repeat constructor|reflexivity]|]. vm_compute. reflexivity.
  - reflexivity.
  - reflexivity.
  - exists (mkPF "/t.png" "image/png" (Some "new") []). split; [right; right; left; reflexivity|split; reflexivity].
  - reflexivity.
Qed.
Print Assumptions C81_parts_refuted.
(** A model with an object and an item, and a document with a text before the model element; an error with a position. *)
Definition held : Model := mkModel "" "" 0 "" (mkRes [] [mkObj 5 "held" "" "" 0 0 0 (mkMG [] []) None None []] []) (mkBuild [mkItem 5 matrix_zero "" (mkMG [] []) []] []) [] [] [] [] [] [] [] [].
Example C81_nonvacuous : exists before a kids, Blank (emptied held) /\ onto held (emptied held) = held /\ held <> emptied held /\
  Content [] (spell doc_b) (before ++ XElem (cn "model") a kids :: []) /\ Forall is_text before /\
  Conforming (knownb all_specs) true a kids /\ Forall (KeptTextless (knownb all_specs)) kids.
Proof.
  destruct C76_nonvacuous as (b & a & k & H1 & H2 & _ & H3 & H4). exists b, a, k. split; [repeat split|]. split; [reflexivity|]. split; [discriminate|]. split; [exact H1|]. split; [exact H2|]. split; assumption.
Qed.
(** The positions do differ. *)
Example C81_error_nonvacuous : exists e e' n d m, let input := doc_model +++ "><resources><object id=""x""><mesh/></object></resources></model>" in
  unmarshal_model all_specs input (emptied held) = DRet m (DErrs e) n d /\ unmarshal_model all_specs input held = DRet (onto held m) (DErrs e') n d /\ e <> e' /\ unindexed e = unindexed e'.
Proof.
  eexists _, _, _, _, _. cbv zeta. split; [vm_compute; reflexivity|]. split; [vm_compute; reflexivity|]. split; [discriminate|reflexivity].
Qed.
