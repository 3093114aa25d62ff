(** * Theorems on reading with different sets of extensions: C93 *)
From Coq Require Import ZArith Permutation.
From Verif Require Import GoBase GoNum GoUtf8 GoFloat GoStrconv Types XmlTypes PkgTypes M_Core M_Errors M_Text M_Xml M_Geom M_Coherency M_Validate M_ExtValidate M_Decode M_Package M_Childs M_Decoder
  S_Core S_Text S_Errors S_Xml S_Decode S_Attr S_Meaning S_Read S_Package S_Childs S_Bare P_Core P_Attr P_Package P_Childs P_MeaningModel P_Read P_Bare
  T_Decode T_Childs T_Package T_Attr T_Meaning T_Read.
From Verif Require Import Types.
Local Open Scope list_scope.

(** C93: whichever extensions are registered, the core content of a conforming file is read, and it is the same. *)
Theorem C93_core : forall reg reg' strict strict' path every fin later later' input M pre a kids post d,
  Blank M -> root_file M path -> NoDup (map fst (mo_childs M)) ->
  scan fin input = SDone (flat_map events (pre ++ XElem (cn "model") a kids :: post)) XEOF d -> Forall is_text pre -> Forall is_text post ->
  Conforming (knownb reg) true a kids -> Conforming (knownb reg') true a kids ->
  exists m n m' n', decode_with reg true strict path every (fun _ => false) fin later input M = DRet m DNone n d /\
    decode_with reg' true strict' path every (fun _ => false) fin later' input M = DRet m' DNone n' d /\ bare m' = bare m.
Proof.
  intros reg reg' strict strict' path every fin later later' input M pre a kids post d B R N S T1 T2 C C'.
  destruct (C74_root reg strict path every fin later input M pre a kids post d B R N S T1 T2 C) as (n & E).
  destruct (C74_root reg' strict' path every fin later' input M pre a kids post d B R N S T1 T2 C') as (n' & E').
  eexists _, n, _, n'. split; [exact E|]. split; [exact E'|]. apply bare_model_of.
Qed.
Print Assumptions C93_core.
(** The same of every plain file, if both readings succeed. *)
Theorem C93_plain : forall reg reg' strict strict' path every ctx ctx' fin later later' input M pre a kids post m m' n n' d d1 d2,
  Blank M -> root_file M path ->
  scan fin input = SDone (flat_map events (pre ++ XElem (cn "model") a kids :: post)) XEOF d -> Forall is_text pre -> Forall is_text post ->
  PlainFile (knownb reg) true a kids -> PlainFile (knownb reg') true a kids ->
  decode_with reg true strict path every ctx fin later input M = DRet m DNone n d1 ->
  decode_with reg' true strict' path every ctx' fin later' input M = DRet m' DNone n' d2 -> bare m' = bare m.
Proof.
  intros reg reg' strict strict' path every ctx ctx' fin later later' input M pre a kids post m m' n n' d d1 d2 B R S T1 T2 P P' H H'.
  rewrite (C65_meaning_partial reg strict path every ctx fin later input M pre a kids post m n d d1 B R S T1 T2 P H).
  rewrite (C65_meaning_partial reg' strict' path every ctx' fin later' input M pre a kids post m' n' d d2 B R S T1 T2 P' H'). apply bare_model_of.
Qed.
Print Assumptions C93_plain.
(** The file of a child *)
Theorem C93_child : forall reg reg' strict strict' path every ctx ctx' fin later later' input M pre a kids post m m' n n' d d1 d2,
  NoDup (map fst (mo_childs M)) -> ~ root_file M path -> path <> "" -> (exists c, In (path, c) (mo_childs M) /\ ch_res c = res_zero) ->
  scan fin input = SDone (flat_map events (pre ++ XElem (cn "model") a kids :: post)) XEOF d -> Forall is_text pre -> Forall is_text post ->
  PlainFile (knownb reg) false a kids -> PlainFile (knownb reg') false a kids ->
  decode_with reg false strict path every ctx fin later input M = DRet m DNone n d1 ->
  decode_with reg' false strict' path every ctx' fin later' input M = DRet m' DNone n' d2 -> bare m' = bare m.
Proof.
  intros reg reg' strict strict' path every ctx ctx' fin later later' input M pre a kids post m m' n n' d d1 d2 N R NE X S T1 T2 P P' H H'.
  rewrite (C65_child_partial reg strict path every ctx fin later input M pre a kids post m n d d1 N R NE X S T1 T2 P H).
  rewrite (C65_child_partial reg' strict' path every ctx' fin later' input M pre a kids post m' n' d d2 N R NE X S T1 T2 P' H'). apply bare_child_of.
Qed.
Print Assumptions C93_child.

(** What ValidateCoherency returns for two models with the same core content is the same; and what BoundingBox returns,
    unless an item or a component names a part. *)
Theorem C93_coherency : forall m m' r, bare m' = bare m -> (model_coherency m' r <-> model_coherency m r).
Proof. intros m m' r E. rewrite <- (bare_coherency m'), E. apply bare_coherency. Qed.
Print Assumptions C93_coherency.
Theorem C93_box : forall fuel m m' r, Local m -> Local m' -> bare m' = bare m -> (model_bbox fuel m' r <-> model_bbox fuel m r).
Proof. intros fuel m m' r L L' E. rewrite <- (bare_bbox m' L'), E. apply bare_bbox, L. Qed.
Print Assumptions C93_box.

(** Packages: all of the model but the attachments, which C47 is about; the map of parts in any order *)
Record SamePackage (m m' : Model) : Prop := {
  sp_path : mo_path m' = mo_path m; sp_lang : mo_lang m' = mo_lang m; sp_units : mo_units m' = mo_units m; sp_thumb : mo_thumb m' = mo_thumb m;
  sp_res : bare_resources (mo_res m') = bare_resources (mo_res m);
  sp_items : map bare_item (bu_items (mo_build m')) = map bare_item (bu_items (mo_build m));
  sp_exts : mo_exts m' = mo_exts m; sp_md : mo_md m' = mo_md m;
  sp_childs : Permutation (map bare_part (mo_childs m')) (map bare_part (mo_childs m));
  sp_rootrels : mo_rootrels m' = mo_rootrels m; sp_rels : mo_rels m' = mo_rels m }.
Section Package.
Context (reg reg' : Reg) (resolve : string -> string -> string) (later later' : string -> Ref -> string).
Context (p : PkgIn) (root : PFile) (cs : list PFile) (ra : list Attr) (rk : list XTree) (rd : Dec).
Context (CF : forall c, In c cs -> exists a kids d, Holds reg false c a kids d) (CF' : forall c, In c cs -> exists a kids d, Holds reg' false c a kids d).
Lemma holds_same isroot f a kids d a' kids' d' : Holds reg isroot f a kids d -> Holds reg' isroot f a' kids' d' -> a = a' /\ kids = kids' /\ d = d'.
Proof.
  intros (x & pre & post & E & S & P1 & P2 & _) (x' & pre' & post' & E' & S' & P1' & P2' & _). rewrite E in E'. injection E' as <-. rewrite S in S'. injection S' as EV <-.
  assert (U : pre ++ XElem (cn "model") a kids :: post = pre' ++ XElem (cn "model") a' kids' :: post').
  { destruct (events_inj (pre ++ XElem (cn "model") a kids :: post) [] (pre' ++ XElem (cn "model") a' kids' :: post') []) as (<- & _); [left; reflexivity|left; reflexivity|rewrite !app_nil_r; exact EV|reflexivity]. }
  clear - U P1 P1'. revert pre' P1' U. induction P1 as [|t l Ht Hl IH]; intros pre' P1' U.
  - destruct P1' as [|t' l' Ht' _]; cbn in U; [injection U as -> -> _; auto|]. injection U as <- _. destruct Ht'.
  - destruct P1' as [|t' l' Ht' Hl']; cbn in U; [injection U as -> _; destruct Ht|]. injection U as _ U. eauto.
Qed.
Lemma read_part reg0 later0 m k c : ReadPackage reg0 resolve later0 p root cs ra rk rd m -> (forall c, In c cs -> exists a kids d, Holds reg0 false c a kids d) -> In (k, c) (mo_childs m) ->
  exists f a kids d, In f cs /\ Holds reg0 false f a kids d /\ (k, c) = (pf_name f, mkChild (res_read reg0 later0 f kids) (map fst (kept resolve p (pf_name f) (pf_rels f))) []).
Proof.
  intros RP HF I. assert (K : In k (map pf_name cs)) by (apply (rd_childs _ _ _ _ _ _ _ _ _ _ RP); apply (in_map fst) in I; exact I).
  apply in_map_iff in K as (f & <- & Hf). destruct (HF f Hf) as (a & kids & d & H). exists f, a, kids, d. split; [exact Hf|]. split; [exact H|].
  pose proof (rd_child _ _ _ _ _ _ _ _ _ _ RP f a kids d _ Hf H (kept_spec resolve p (pf_name f) (pf_rels f))) as J.
  apply (in_aget _ _ _ (rd_keys _ _ _ _ _ _ _ _ _ _ RP)) in I, J. congruence.
Qed.
Lemma read_parts_in reg1 reg2 later1 later2 m1 m2 x :
  (forall f a kids d a' kids' d', Holds reg1 false f a kids d -> Holds reg2 false f a' kids' d' -> a = a' /\ kids = kids' /\ d = d') ->
  ReadPackage reg1 resolve later1 p root cs ra rk rd m1 -> ReadPackage reg2 resolve later2 p root cs ra rk rd m2 ->
  (forall c, In c cs -> exists a kids d, Holds reg1 false c a kids d) -> (forall c, In c cs -> exists a kids d, Holds reg2 false c a kids d) ->
  In x (map bare_part (mo_childs m1)) -> In x (map bare_part (mo_childs m2)).
Proof.
  intros HS R1 R2 H1 H2 I. apply in_map_iff in I as ([k c] & <- & I). destruct (read_part reg1 later1 m1 k c R1 H1 I) as (f & a & kids & d & Hf & H & E).
  rewrite E. destruct (H2 f Hf) as (a' & kids' & d' & H'). destruct (HS _ _ _ _ _ _ _ H H') as (<- & <- & <-).
  pose proof (rd_child _ _ _ _ _ _ _ _ _ _ R2 f a kids d _ Hf H' (kept_spec resolve p (pf_name f) (pf_rels f))) as J. apply (in_map bare_part) in J.
  replace (bare_part (pf_name f, mkChild (res_read reg1 later1 f kids) (map fst (kept resolve p (pf_name f) (pf_rels f))) []))
    with (bare_part (pf_name f, mkChild (res_read reg2 later2 f kids) (map fst (kept resolve p (pf_name f) (pf_rels f))) [])); [exact J|].
  unfold bare_part, res_read. cbn [fst snd ch_res ch_rels]. f_equal. f_equal. apply bare_the_resources.
Qed.
Lemma bare_keys l : NoDup (map fst l) -> NoDup (map bare_part l).
Proof.
  intros H. apply (NoDup_map_inv fst). rewrite map_map. replace (map (fun x => fst (bare_part x)) l) with (map fst l); [exact H|]. apply map_ext. reflexivity.
Qed.
Lemma packages_same m m' : ReadPackage reg resolve later p root cs ra rk rd m -> ReadPackage reg' resolve later' p root cs ra rk rd m' -> SamePackage m m'.
Proof.
  intros R R'. pose proof R as RR. pose proof R' as RR'. destruct (rd_root _ _ _ _ _ _ _ _ _ _ RR) as (b & (B1 & B2 & B3 & B4 & B5 & B6 & B7 & B8 & B9) & E).
  destruct (rd_root _ _ _ _ _ _ _ _ _ _ RR') as (b' & (B1' & B2' & B3' & B4' & B5' & B6' & B7' & B8' & B9') & E').
  pose proof (rd_path _ _ _ _ _ _ _ _ _ _ RR) as P. pose proof (rd_path _ _ _ _ _ _ _ _ _ _ RR') as P'. constructor.
  - congruence.
  - rewrite E, E'. reflexivity.
  - rewrite E, E'. reflexivity.
  - rewrite E, E'. reflexivity.
  - rewrite E, E'. cbn [model_of mo_res]. apply bare_the_resources.
  - rewrite E, E'. cbn [model_of mo_build]. unfold the_elem. destruct (elems (cn "build") rk); [reflexivity|apply bare_build_of].
  - rewrite E, E'. reflexivity.
  - rewrite E, E'. reflexivity.
  - apply NoDup_Permutation; [apply bare_keys, (rd_keys _ _ _ _ _ _ _ _ _ _ RR')|apply bare_keys, (rd_keys _ _ _ _ _ _ _ _ _ _ RR)|]. intros x. split.
    + apply (read_parts_in reg' reg later' later m' m x); try assumption. intros f a kids d a' kids' d' H H'. destruct (holds_same _ _ _ _ _ _ _ _ H' H) as (-> & -> & ->). auto.
    + apply (read_parts_in reg reg' later later' m m' x); try assumption. apply holds_same.
  - rewrite (rd_rootrels _ _ _ _ _ _ _ _ _ _ RR _ (kept_spec resolve p "/" (pi_rels p))), (rd_rootrels _ _ _ _ _ _ _ _ _ _ RR' _ (kept_spec resolve p "/" (pi_rels p))). reflexivity.
  - rewrite (rd_rels _ _ _ _ _ _ _ _ _ _ RR _ (kept_spec resolve p (pf_name root) (pf_rels root))), (rd_rels _ _ _ _ _ _ _ _ _ _ RR' _ (kept_spec resolve p (pf_name root) (pf_rels root))). reflexivity.
Qed.
End Package.
(** Every execution with one set of extensions and every execution with another read the package, with the same core
    content. *)
Theorem C93_package : forall reg reg' strict strict' every resolve later later' p root cs l1 r l2 ra rk rd,
  NoDup (map pf_name (pi_files p)) ->
  pi_rels p = l1 ++ r :: l2 -> rel_type r = type_3dmodel -> (forall x, In x (l1 ++ l2) -> rel_type x <> type_3dmodel) ->
  Target resolve p "/" r root -> Models resolve p (pf_name root) (pf_rels root) cs -> NoDup (map pf_name cs) ->
  (forall c, In c cs -> pf_name c <> "" /\ pf_name c <> pf_name root) -> pf_name root <> "" ->
  Holds reg true root ra rk rd -> Holds reg' true root ra rk rd ->
  (forall c, In c cs -> exists a kids d, Holds reg false c a kids d /\ flat_map (S_Meaning.any_of (knownb reg) (later (pf_name c))) kids = []) ->
  (forall c, In c cs -> exists a kids d, Holds reg' false c a kids d /\ flat_map (S_Meaning.any_of (knownb reg') (later' (pf_name c))) kids = []) ->
  forall res res', decodes reg strict every resolve later p model_zero res -> decodes reg' strict' every resolve later' p model_zero res' ->
  exists m m', res = PModel m /\ res' = PModel m' /\ SamePackage m m'.
Proof.
  intros reg reg' strict strict' every resolve later later' p root cs l1 r l2 ra rk rd N R T O TG MD ND NM NE H H' C C' res res' D D'.
  destruct (C75_read_partial reg strict every resolve later p root cs l1 r l2 ra rk rd N R T O TG MD ND NM NE H C) as (A & _).
  destruct (C75_read_partial reg' strict' every resolve later' p root cs l1 r l2 ra rk rd N R T O TG MD ND NM NE H' C') as (A' & _).
  destruct (A res D) as (m & -> & RP). destruct (A' res' D') as (m' & -> & RP'). exists m, m'. split; [reflexivity|]. split; [reflexivity|].
  apply (packages_same reg reg' resolve later later' p root cs ra rk rd); try assumption.
  - intros c Hc. destruct (C c Hc) as (a & kids & d & X & _). eauto.
  - intros c Hc. destruct (C' c Hc) as (a & kids & d & X & _). eauto.
Qed.
Print Assumptions C93_package.

(** ** Examples *)
Definition no_specs : Reg := mkReg false false false false.
Example C93_nonvacuous : exists a kids d m m',
  Blank model_zero /\ scan XEOF doc_all = SDone (flat_map events ([] ++ XElem (cn "model") a kids :: [])) XEOF d /\
  Conforming (knownb all_specs) true a kids /\ Conforming (knownb no_specs) true a kids /\
  m = model_of (knownb all_specs) (buf_deref (d_buf d)) model_zero a kids /\ m' = model_of (knownb no_specs) (buf_deref (d_buf d)) model_zero a kids /\
  m <> m' /\ List.length (rs_objects (mo_res (bare m))) = 2 /\ List.length (rs_assets (mo_res (bare m))) = 1.
Proof.
  let r := eval vm_compute in (tree_of doc_all) in match r with Some (?a, ?k, ?d) => exists a, k, d end.
  eexists _, _. split; [repeat split|]. split; [vm_compute; reflexivity|]. split; [apply conformingb_sound; vm_compute; reflexivity|]. split; [apply conformingb_sound; vm_compute; reflexivity|].
  split; [reflexivity|]. split; [reflexivity|]. split; [|split; vm_compute; reflexivity].
  intros E. apply (f_equal (fun m => map (fun a => match a with AExt _ => true | _ => false end) (rs_assets (mo_res m)))) in E. vm_compute in E. discriminate E.
Qed.
(** The package of C75 *)
Example C93_package_nonvacuous : exists root c ra rk rd ca ck cd,
  pi_files pkg_all = [root; c; mkPF "/t.png" "image/png" (Some "PNG") []] /\
  Holds all_specs true root ra rk rd /\ Holds no_specs true root ra rk rd /\ Holds all_specs false c ca ck cd /\ Holds no_specs false c ca ck cd /\
  flat_map (S_Meaning.any_of (knownb no_specs) (fun _ => "")) ck = [].
Proof.
  exists (mkPF "/3D/3dmodel.model" "m" (Some doc_all) [mkRel "/3D/part.model" type_3dmodel "r3"]), (mkPF "/3D/part.model" "m" (Some doc_part) [mkRel "/t.png" "http://x" "r4"]).
  let r := eval vm_compute in (tree_of doc_all) in match r with Some (?a, ?k, ?d) => exists a, k, d end.
  let r := eval vm_compute in (tree_of doc_part) in match r with Some (?a, ?k, ?d) => exists a, k, d end.
  split; [reflexivity|].
  split; [eexists _, [], []; split; [reflexivity|]; split; [vm_compute; reflexivity|]; split; [constructor|]; split; [constructor|]; apply conformingb_sound; vm_compute; reflexivity|].
  split; [eexists _, [], []; split; [reflexivity|]; split; [vm_compute; reflexivity|]; split; [constructor|]; split; [constructor|]; apply conformingb_sound; vm_compute; reflexivity|].
  split; [eexists _, [], []; split; [reflexivity|]; split; [vm_compute; reflexivity|]; split; [constructor|]; split; [constructor|]; apply conformingb_sound; vm_compute; reflexivity|].
  split; [eexists _, [], []; split; [reflexivity|]; split; [vm_compute; reflexivity|]; split; [constructor|]; split; [constructor|]; apply conformingb_sound; vm_compute; reflexivity|].
  vm_compute. reflexivity.
Qed.
(** An item that names a part: without the production extension the object of that number of the root model is placed,
    and the box is another.  C93_box needs its hypothesis. *)
Definition doc_path : string := doc_model +++ " xmlns:p=""http://schemas.microsoft.com/3dmanufacturing/production/2015/06"">" +++ "<resources><object id=""1""><mesh><vertices><vertex x=""1"" y=""1"" z=""1""/></vertices></mesh></object></resources>" +++
  "<build><item objectid=""1"" p:path=""/3D/part.model""/></build></model>".
Definition one_vertex : Object := mkObj 1 "" "" "" 0 0 0 mg_zero (Some (mkMesh [P3 (fadd f_one f_one) (fadd f_one f_one) (fadd f_one f_one)] [] [] [] [] [])) None [].
Definition with_part : Model := mkModel "" "" 0 "" res_zero (mkBuild [] []) [] [] [] [("/3D/part.model", mkChild (mkRes [] [one_vertex] []) [] [])] [] [] [] [].
Definition read_with (reg : Reg) : option Model := match unmarshal_model reg doc_path with_part with DRet m DNone _ _ => Some m | _ => None end.
Example C93_parts_matter : exists m m', read_with all_specs = Some m /\ read_with no_specs = Some m' /\ bare m' = bare m /\ Local m' /\ ~ Local m /\
  option_map bmin (model_bbox_seq 5 m) = Some (P3 (fadd f_one f_one) (fadd f_one f_one) (fadd f_one f_one)) /\ option_map bmin (model_bbox_seq 5 m') = Some (P3 f_one f_one f_one).
Proof.
  let r := eval vm_compute in (read_with all_specs) in match r with Some ?m => exists m end.
  let r := eval vm_compute in (read_with no_specs) in match r with Some ?m => exists m end.
  split; [vm_compute; reflexivity|]. split; [vm_compute; reflexivity|]. split; [vm_compute; reflexivity|]. split; [|split; [|split; vm_compute; reflexivity]].
  - split; [intros it g [<-|[]] [<-|[]]; reflexivity|]. intros o [<-|[]] cs c g E. discriminate E.
  - intros (L & _). assert (X : names_part (GItem "" "/3D/part.model") = false); [|discriminate X]. eapply L; [left; reflexivity|left; reflexivity].
Qed.
