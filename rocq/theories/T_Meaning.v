(** * Theorems about what files mean *)
From Coq Require Import ZArith.
From Verif Require Import GoBase GoNum GoUtf8 GoFloat GoStrconv Types XmlTypes M_Core M_Errors M_Text M_Xml M_Decode
  S_Core S_Text S_Errors S_Xml S_Decode S_Attr S_Meaning P_Xml2 P_Decode P_Attr P_MeaningModel P_MeaningTree T_Xml T_Decode T_Attr.
From Verif Require Import Types.
Local Open Scope list_scope.

(** ** C65: a file means what its elements say *)
(** Every file that is read without error is a forest of elements and texts, and of one forest only. *)
Theorem C65_tree reg isroot strict path every ctx fin input m mm n d :
  decode_file reg isroot strict path every ctx fin input m = DRet mm DNone n d ->
  exists ts, scan fin input = SDone (flat_map events ts) XEOF d /\
    forall ts', scan fin input = SDone (flat_map events ts') XEOF d -> ts' = ts.
Proof.
  intros H. destruct (C59_accepted _ _ _ _ _ _ _ _ _ _ _ _ H) as (evs & S & N).
  destruct (nests_forest (List.length evs) [] evs (Nat.le_refl _) N) as (f & rest & -> & N2 & [->|(x & r & ->)]); [|inversion N2].
  rewrite app_nil_r in S. exists f. split; [exact S|]. intros ts S'. rewrite S in S'. injection S' as E.
  destruct (events_inj f [] ts []) as (<- & _); [left; reflexivity|left; reflexivity|rewrite !app_nil_r; exact E|reflexivity].
Qed.
Print Assumptions C65_tree.

(** The model that is read from a root file is the one its elements say, whatever order they and their attributes
    are read in.  Missing: files that are not plain; see the refutations. *)
Theorem C65_meaning_partial reg strict path every ctx fin later input M pre a kids post m n d d' :
  Blank M -> root_file M path ->
  scan fin input = SDone (flat_map events (pre ++ XElem (cn "model") a kids :: post)) XEOF d ->
  Forall is_text pre -> Forall is_text post -> PlainFile (knownb reg) true a kids ->
  decode_with reg true strict path every ctx fin later input M = DRet m DNone n d' ->
  m = model_of (knownb reg) later M a kids.
Proof.
  intros B R S T1 T2 P H. destruct (none_run _ _ _ _ _ _ _ _ _ _ _ _ _ _ _ H) as (evs & mf & S' & E & N & ->). unfold scan in S. rewrite S in S'. injection S' as <- <-.
  apply (root_meaning reg path later M pre a kids post mf B R T1 T2 P E N).
Qed.
Print Assumptions C65_meaning_partial.
(** What UnmarshalModel returns, as its user sees it *)
Theorem C65_unmarshal_partial reg input M pre a kids post m n d d' :
  Blank M -> mo_path M = "" \/ mo_path M = DefaultModelPath ->
  scan XEOF input = SDone (flat_map events (pre ++ XElem (cn "model") a kids :: post)) XEOF d ->
  Forall is_text pre -> Forall is_text post -> PlainFile (knownb reg) true a kids ->
  unmarshal_model reg input M = DRet m DNone n d' ->
  m = model_of (knownb reg) (buf_deref (d_buf d)) M a kids.
Proof.
  intros B R S T1 T2 P H. unfold unmarshal_model, decode_file in H.
  destruct (decode_with _ _ _ _ _ _ _ (fun _ => "") input M) as [m1 e1 n1 d1| |] eqn:E1; try discriminate.
  assert (d1 = d) as ->.
  { unfold decode_with in E1. unfold scan in S. pose proof (lenient_run reg true DefaultModelPath 1000 XEOF (fun _ => "") _ 0 _ (m_init M) _ _ _ S) as L. rewrite E1 in L.
    destruct (on_events _ _ _ _ _ _); [destruct L as (? & [= _ _ _ ->]); reflexivity|discriminate]. }
  eapply C65_meaning_partial; try eassumption. destruct R as [R|R]; [right|left]; auto.
Qed.
Print Assumptions C65_unmarshal_partial.
(** The same for the file of a child model: it gives that child its resources, and nothing of the model changes but
    the list of unknown elements. *)
Theorem C65_child_partial reg strict path every ctx fin later input M pre a kids post m n d d' :
  NoDup (map fst (mo_childs M)) -> ~ root_file M path -> path <> "" ->
  (exists c, In (path, c) (mo_childs M) /\ ch_res c = res_zero) ->
  scan fin input = SDone (flat_map events (pre ++ XElem (cn "model") a kids :: post)) XEOF d ->
  Forall is_text pre -> Forall is_text post -> PlainFile (knownb reg) false a kids ->
  decode_with reg false strict path every ctx fin later input M = DRet m DNone n d' ->
  m = child_of (knownb reg) later M path kids.
Proof.
  intros ND R NE (c & HC & RC) S T1 T2 P H. destruct (none_run _ _ _ _ _ _ _ _ _ _ _ _ _ _ _ H) as (evs & mf & S' & E & N & ->). unfold scan in S. rewrite S in S'. injection S' as <- <-.
  apply (child_meaning reg path later M pre a kids post mf ND R NE); try assumption. unfold find_resources.
  destruct (seq_spec path ""); [contradiction|]. destruct (seq_spec path (mo_path M)) as [->|]; [exfalso; apply R; left; reflexivity|]. cbn [orb].
  assert (X : seq (mo_path M) "" && seq path DefaultModelPath = false).
  { destruct (seq_spec (mo_path M) ""); [|reflexivity]. destruct (seq_spec path DefaultModelPath); [|reflexivity]. exfalso. apply R. right. auto. }
  rewrite X. unfold find_child. rewrite <- RC. clear - ND HC. induction (mo_childs M) as [|[k c'] l IH]; [destruct HC|]. cbn [map fst] in ND. inversion ND as [|? ? N1 N2]; subst. cbn [aget].
  destruct (seq_spec path k) as [->|NK].
  - destruct HC as [[= ->]|HC]; [reflexivity|]. exfalso. apply N1. apply in_map_iff. exists (k, c). auto.
  - destruct HC as [[= -> _]|HC]; [contradiction|]. apply IH; assumption.
Qed.
Print Assumptions C65_child_partial.
(** The tree of a document, for the examples *)
Definition tree_of (input : string) : option (list Attr * list XTree * Dec) :=
  match scan XEOF input with
  | SDone evs XEOF d => match grow (List.length evs) evs with ([XElem n a kids], []) => if name_eqb n (cn "model") then Some (a, kids, d) else None | _ => None end
  | _ => None
  end.
Definition read (input : string) : option Model := match unmarshal_model all_specs input model_zero with DRet m DNone _ _ => Some m | _ => None end.

Definition doc_all : string := doc_ns +++ "<metadata name=""Title"" type=""xs:string"">A cube</metadata><metadata name=""m:Author"" preserve=""1"">Nobody</metadata>" +++
  "<resources><basematerials id=""1""><base displaycolor=""#FF00007F"" name=""red""/><base name=""blue"" displaycolor=""#0000FF""/></basematerials>" +++
  "<m:colorgroup id=""2""><m:color color=""#01020304""/></m:colorgroup><x:stuff xmlns:x=""http://other"" id=""3""><x:more/>text</x:stuff>" +++
  "<s:slicestack id=""4"" zbottom=""1""><s:slice ztop=""2""><s:vertices><s:vertex x=""1"" y=""2""/></s:vertices><s:polygon startv=""0""><s:segment v2=""1"" p1=""5""/></s:polygon></s:slice></s:slicestack>" +++
  "<object pindex=""1"" id=""5"" pid=""1"" type=""support""><metadatagroup><metadata name=""k"">v</metadata></metadatagroup>" +++
  "<mesh><vertices><vertex x=""1"" z=""-2.5"" y=""0""/><vertex x=""0"" y=""0"" z=""0""/><vertex x=""3"" y=""4"" z=""5""/></vertices><triangles><triangle v3=""2"" v1=""0"" v2=""1""/><triangle v1=""0"" v2=""1"" v3=""2"" p1=""0"" p3=""1""/></triangles>" +++
  "<b:beamlattice radius=""2"" minlength=""1""><b:beams><b:beam v1=""0"" v2=""1"" r1=""3""/></b:beams></b:beamlattice></mesh></object>" +++
  "<object id=""6""><components><component objectid=""5"" transform=""1 0 0 0 1 0 0 0 1 10 0 0""/></components><unheard><of/></unheard></object></resources>" +++
  "<build><item objectid=""6"" partnumber=""p""><metadatagroup><metadata name=""n""/></metadatagroup></item><item objectid=""5""/></build></model>".
(** The hypotheses of C65_unmarshal_partial are met by a document with all of this, and the model is not trivial. *)
Example C65_nonvacuous : exists a kids d m n,
  Blank model_zero /\ scan XEOF doc_all = SDone (flat_map events ([] ++ XElem (cn "model") a kids :: [])) XEOF d /\ PlainFile (knownb all_specs) true a kids /\
  unmarshal_model all_specs doc_all model_zero = DRet m DNone n d /\
  map ob_id (rs_objects (mo_res m)) = [5; 6]%N /\ List.length (rs_assets (mo_res m)) = 4 /\ map it_oid (bu_items (mo_build m)) = [6; 5]%N /\
  m = model_of (knownb all_specs) (buf_deref (d_buf d)) model_zero a kids.
Proof.
  let r := eval vm_compute in (tree_of doc_all) in match r with Some (?a, ?k, ?d) => exists a, k, d end.
  let r := eval vm_compute in (unmarshal_model all_specs doc_all model_zero) in match r with DRet ?m _ ?n _ => exists m, n end.
  split; [repeat split|]. split; [vm_compute; reflexivity|]. split; [apply fileb_sound; vm_compute; reflexivity|]. repeat (split; [vm_compute; reflexivity|]). vm_compute. reflexivity.
Qed.
Definition with_child : Model := mkModel "" "" 0 "" res_zero (mkBuild [] []) [] [] [] [("/3D/part.model", child_zero)] [] [] [] [].
Example C65_child_nonvacuous : exists a kids d m n,
  ~ root_file with_child "/3D/part.model" /\ scan XEOF doc_all = SDone (flat_map events ([] ++ XElem (cn "model") a kids :: [])) XEOF d /\ PlainFile (knownb all_specs) false a kids /\
  decode_with all_specs false true "/3D/part.model" 1000 (fun _ => false) XEOF (buf_deref (d_buf d)) doc_all with_child = DRet m DNone n d /\
  map (fun kc => map ob_id (rs_objects (ch_res (snd kc)))) (mo_childs m) = [[5; 6]%N] /\ mo_build m = mkBuild [] [] /\
  m = child_of (knownb all_specs) (buf_deref (d_buf d)) with_child "/3D/part.model" kids.
Proof.
  let r := eval vm_compute in (tree_of doc_all) in match r with Some (?a, ?k, ?d) => exists a, k, d;
    let r := eval vm_compute in (decode_with all_specs false true "/3D/part.model" 1000 (fun _ => false) XEOF (buf_deref (d_buf d)) doc_all with_child) in match r with DRet ?m _ ?n _ => exists m, n end end.
  split; [intros [H|[_ H]]; discriminate H|]. split; [vm_compute; reflexivity|]. split; [apply fileb_sound; vm_compute; reflexivity|]. repeat (split; [vm_compute; reflexivity|]). vm_compute. reflexivity.
Qed.

(** What does not hold: files that mean something else to the reader.  Each witness is read without error. *)
(** An element the reader does not know is ignored, but not what is inside it. *)
Definition doc_alt : string := doc_ns +++ "<resources/><build><x:alternative xmlns:x=""http://other""><item objectid=""1""/></x:alternative></build></model>".
Theorem C65_ignored_refuted : exists a kids d m,
  scan XEOF doc_alt = SDone (flat_map events [XElem (cn "model") a kids]) XEOF d /\ read doc_alt = Some m /\
  map it_oid (bu_items (mo_build (model_of (knownb all_specs) (buf_deref (d_buf d)) model_zero a kids))) = [] /\
  map it_oid (bu_items (mo_build m)) = [1]%N.
Proof.
  let r := eval vm_compute in (tree_of doc_alt) in match r with Some (?a, ?k, ?d) => exists a, k, d end.
  let r := eval vm_compute in (read doc_alt) in match r with Some ?m => exists m end.
  repeat (split; [vm_compute; reflexivity|]). vm_compute. reflexivity.
Qed.
Print Assumptions C65_ignored_refuted.
(** Inside an element that is ignored, one of the name of the parent ends the parent: the second triangle is lost. *)
Definition doc_end : string := doc_ns +++ "<resources><object id=""1""><mesh><vertices/><triangles><triangle v1=""0"" v2=""1"" v3=""2""/>" +++
  "<x:old xmlns:x=""http://other""><triangles/></x:old><triangle v1=""0"" v2=""2"" v3=""3""/></triangles></mesh></object></resources></model>".
Definition all_tris (m : Model) : list Triangle := flat_map (fun o => match ob_mesh o with Some me => me_tris me | None => [] end) (rs_objects (mo_res m)).
Theorem C65_closed_refuted : exists a kids d m,
  scan XEOF doc_end = SDone (flat_map events [XElem (cn "model") a kids]) XEOF d /\ read doc_end = Some m /\
  List.length (all_tris (model_of (knownb all_specs) (buf_deref (d_buf d)) model_zero a kids)) = 2 /\ List.length (all_tris m) = 1.
Proof.
  let r := eval vm_compute in (tree_of doc_end) in match r with Some (?a, ?k, ?d) => exists a, k, d end.
  let r := eval vm_compute in (read doc_end) in match r with Some ?m => exists m end.
  repeat (split; [vm_compute; reflexivity|]). vm_compute. reflexivity.
Qed.
Print Assumptions C65_closed_refuted.
(** A colour without its attribute is left out, and the colours behind it move. *)
Definition doc_color : string := doc_ns +++ "<resources><m:colorgroup id=""1""><m:color/><m:color color=""#FF0000""/></m:colorgroup></resources></model>".
Definition all_colors (m : Model) : list RGBA := flat_map (fun a => match a with AExt (XColorGroup g) => cg_colors g | _ => [] end) (rs_assets (mo_res m)).
Theorem C65_color_refuted : exists a kids d m,
  scan XEOF doc_color = SDone (flat_map events [XElem (cn "model") a kids]) XEOF d /\ read doc_color = Some m /\
  all_colors (model_of (knownb all_specs) (buf_deref (d_buf d)) model_zero a kids) = [mkRGBA 0 0 0 0; mkRGBA 255 0 0 255] /\ all_colors m = [mkRGBA 255 0 0 255].
Proof.
  let r := eval vm_compute in (tree_of doc_color) in match r with Some (?a, ?k, ?d) => exists a, k, d end.
  let r := eval vm_compute in (read doc_color) in match r with Some ?m => exists m end.
  repeat (split; [vm_compute; reflexivity|]). vm_compute. reflexivity.
Qed.
Print Assumptions C65_color_refuted.
(** The text of a metadata that a processing instruction divides loses its first part. *)
Definition doc_text : string := doc_ns +++ "<metadata name=""Title"">Gear <?page break?>wheel</metadata></model>".
Theorem C65_text_refuted : exists a kids d m,
  scan XEOF doc_text = SDone (flat_map events [XElem (cn "model") a kids]) XEOF d /\ read doc_text = Some m /\
  map md_value (mo_md (model_of (knownb all_specs) (buf_deref (d_buf d)) model_zero a kids)) = ["Gear wheel"] /\ map md_value (mo_md m) = ["wheel"].
Proof.
  let r := eval vm_compute in (tree_of doc_text) in match r with Some (?a, ?k, ?d) => exists a, k, d end.
  let r := eval vm_compute in (read doc_text) in match r with Some ?m => exists m end.
  repeat (split; [vm_compute; reflexivity|]). vm_compute. reflexivity.
Qed.
Print Assumptions C65_text_refuted.
