(** * Theorems: what becomes of an STL file that is imported, validated, saved and read: C82 *)
From Coq Require Import ZArith Lia Permutation.
From Verif Require Import GoBase GoNum GoUtf8 GoFloat GoStrconv Types XmlTypes PkgTypes M_Core M_Geom M_Errors M_Text M_Coherency M_Validate M_ExtValidate M_Xml M_Decode M_Printer M_Encode M_Package M_Childs M_Decoder M_Stl
  S_Core S_Geom S_Strconv S_Coherency S_Validate S_RoundTrip S_Package S_PkgTrip S_Revalid S_Stl S_Convert
  P_Coherency P_Stl P_Package P_RTBase P_RTText P_RTAttr P_RTExt P_RTModel P_RTPkg P_Convert P_Convert2 P_Revalid P_Revalid2 P_Revalid3 T_Core T_Geom T_Coherency T_Validate T_ExtProd T_Stl T_RoundTrip T_Package T_PkgTrip T_Revalid.
From Verif Require Import Types.
Local Open Scope list_scope.

Definition Below4G (i : Input) : Prop := (N.of_nat (String.length (in_data i)) < 2 ^ 32)%N.
Definition FewResources (m : Model) : Prop :=
  (N.of_nat (List.length (rs_assets (mo_res m)) + List.length (rs_objects (mo_res m))) < 2 ^ 32 - 1)%N.

Lemma threes_length ps ts : Threes ps ts -> 3 * List.length ts <= List.length ps.
Proof. intros T. induction T as [ps H|a b c ps ts T IH]; cbn [List.length]; lia. Qed.
Lemma apart_nodup oor (l : list Point3D) : (forall i j p q, i < j -> nth_error l i = Some p -> nth_error l j = Some q -> ~ SameCell oor p q) -> NoDup l.
Proof.
  intros H. apply NoDup_nth_error. intros i j L E. destruct (nth_error l i) as [p|] eqn:Ei; [|apply nth_error_None in Ei; lia]. symmetry in E.
  assert (S : SameCell oor p p) by (apply P_Geom.same_cell_spec; reflexivity).
  destruct (Nat.lt_trichotomy i j) as [K|[K|K]]; [destruct (H _ _ _ _ K Ei E S)|exact K|destruct (H _ _ _ _ K E Ei S)].
Qed.
(** What the file holds and what is made of it *)
Lemma facts oor ctx fuel i m m' : decode_stl oor ctx fuel i m = Some (m', None) -> Below4G i ->
  exists ts mesh, StlFacets (in_data i) ts /\ Imported m m' (unused_id (mo_res m)) mesh /\ Forall2 (TriangleOf oor mesh) (me_tris mesh) ts /\
    (forall i j p q, i < j -> nth_error (me_verts mesh) i = Some p -> nth_error (me_verts mesh) j = Some q -> ~ SameCell oor p q) /\
    Forall PointFits (me_verts mesh) /\ (N.of_nat (List.length (me_verts mesh)) < 2 ^ 32)%N /\ SmallMesh mesh /\
    me_vany mesh = [] /\ me_tany mesh = [] /\ me_any mesh = [] /\ me_ext mesh = [].
Proof.
  intros D B. destruct (decoded oor ctx fuel i m m' D) as (ts & ps & mb & tris & nodes & SF & T & BU & IM & L & PF).
  assert (B' : (N.of_nat (List.length ps) < 2 ^ 32)%N) by (revert B; unfold Below4G; lia).
  assert (B2 : (N.of_nat (List.length ps) <= 2 ^ 32)%N) by lia.
  destruct (built_mesh oor mb tris nodes ps ts BU B2 T) as (F & V & E1 & E2 & E3 & E4). pose proof (built_apart oor mb tris nodes ps BU B2) as A.
  exists ts, (mesh_of mb tris). split; [exact SF|]. split; [exact IM|]. split; [exact F|]. split; [exact A|]. split; [|split; [|split; [|auto]]].
  - apply Forall_forall. intros v Hv. exact (proj1 (Forall_forall _ _) PF v (V v Hv)).
  - assert (List.length (me_verts (mesh_of mb tris)) <= List.length ps) by (apply NoDup_incl_length; [exact (apart_nodup oor _ A)|exact V]). lia.
  - unfold SmallMesh. rewrite (P_Stl.Forall2_length _ _ _ F). apply threes_length in T. revert B' T. change (2 ^ 32)%N with 4294967296%N. lia.
Qed.

(** C82: if an STL file of less than 4 GB is read without error, in whatever format, there is one triangle for each
    facet; the mesh is coherent exactly if there are four facets at least and these are watertight; and a valid model
    without extensions is valid with the new object exactly if there are four facets at least and no two corners of a
    facet coincide, which is so if they are watertight. *)
Theorem C82_imported : forall oor ctx fuel i m m',
  decode_stl oor ctx fuel i m = Some (m', None) -> Below4G i ->
  exists ts id mesh, StlFacets (in_data i) ts /\ Imported m m' id mesh /\ Forall2 (TriangleOf oor mesh) (me_tris mesh) ts /\
    (mesh_coherency mesh = None <-> 4 <= List.length ts /\ Watertight oor ts) /\
    (forall loaded levels, mo_exts m = [] -> NoDup (map fst (mo_childs m)) -> SmallVertices m -> DistinctIds (mo_res m) -> FewResources m ->
       validate loaded (registry levels) m = None ->
       (validate loaded (registry levels) m' = None <-> 4 <= List.length ts /\ Forall (Proper oor) ts)) /\
    (Watertight oor ts -> Forall (Proper oor) ts).
Proof.
  intros oor ctx fuel i m m' D B. destruct (facts oor ctx fuel i m m' D B) as (ts & mesh & SF & IM & F & A & PF & LV & SM & _ & _ & _ & EX).
  exists ts, (unused_id (mo_res m)), mesh. split; [exact SF|]. split; [exact IM|]. split; [exact F|]. split; [|split; [|apply watertight_proper]].
  - rewrite (proj1 (C17_mesh_coherency mesh SM)). exact (coherent_iff oor mesh ts F A).
  - intros loaded levels HE ND SV DI FR V. destruct (C01_unused_id_fresh_and_lowest _ DI FR) as (N0 & NU & _).
    apply C20_validate_nil in V; [|apply C20_registry_proper|exact ND|exact SV].
    rewrite C20_validate_nil; [|apply C20_registry_proper|rewrite (im_childs _ _ _ _ IM); exact ND|exact (small_im _ _ _ _ IM SV LV)].
    rewrite (conforms_im _ _ _ _ IM _ _ HE N0 NU V). apply (mesh_conforms oor mesh ts F A); [reflexivity|exact EX].
Qed.
Print Assumptions C82_imported.

(** C82: and if the facets are watertight, the model that is read after saving is valid too, its last object is the
    imported one, and its mesh is coherent and has the same facets up to merging and the decimals that are written.
    The model before is any valid one without extensions that can be saved (see C54, C66), the empty one for example. *)
Theorem C82_saved : forall oor ctx fuel i m m' reg strict every normalize resolve refuses later p order1 order2 w q r loaded levels,
  decode_stl oor ctx fuel i m = Some (m', None) -> Below4G i ->
  mo_exts m = [] -> SmallVertices m -> DistinctIds (mo_res m) -> FewResources m ->
  validate loaded (registry levels) m = None ->
  PackageFits normalize resolve (knows reg) p m -> Robust p m ->
  Permutation order1 (mo_childs m) -> Permutation order2 (mo_childs m) ->
  encode normalize resolve refuses p order1 order2 m' = Some w -> Carried w q ->
  decodes reg strict every resolve later q model_zero r ->
  exists ts, StlFacets (in_data i) ts /\
    (4 <= List.length ts -> Watertight oor ts ->
     exists m'' before o mesh, r = PModel m'' /\ validate loaded (registry levels) m'' = None /\
       rs_objects (mo_res m'') = before ++ [o] /\ List.length before = List.length (rs_objects (mo_res m)) /\ ob_mesh o = Some mesh /\
       mesh_coherency mesh = None /\ Forall2 (SavedTriangle oor p mesh) (me_tris mesh) ts).
Proof.
  intros * D B HE SV DI FR V PF RO O1 O2 E C R. destruct (facts oor ctx fuel i m m' D B) as (ts & mesh & SF & IM & F & A & PT & LV & SM & EX).
  exists ts. split; [exact SF|]. intros L W. pose proof (watertight_proper oor ts W) as P.
  assert (V' : validate loaded (registry levels) m' = None).
  { destruct (C01_unused_id_fresh_and_lowest _ DI FR) as (N0 & NU & _).
    pose proof (P_Revalid3.childs_ok _ _ _ _ _ PF) as ND. apply C20_validate_nil in V; [|apply C20_registry_proper|exact ND|exact SV].
    rewrite C20_validate_nil; [|apply C20_registry_proper|rewrite (im_childs _ _ _ _ IM); exact ND|exact (small_im _ _ _ _ IM SV LV)].
    rewrite (conforms_im _ _ _ _ IM _ _ HE N0 NU V). apply (mesh_conforms oor mesh ts F A); [reflexivity|apply EX|auto]. }
  assert (TR : forall x, In x (me_tris mesh) ->
    (forall v, In v [t_v1 x; t_v2 x; t_v3 x] -> (v < N.of_nat (List.length (me_verts mesh)))%N) /\ x = triangle (t_v1 x) (t_v2 x) (t_v3 x)).
  { intros x Hx. destruct (tri_corners oor mesh ts F x Hx) as (T1 & _ & T2). auto. }
  assert (LV2 : (N.of_nat (List.length (me_verts mesh)) <= 2 ^ 32)%N) by lia.
  pose proof (package_fits m m' _ mesh IM (unused_u32 _) PT LV2 TR EX normalize resolve (knows reg) p PF) as PF'.
  rewrite <- (im_childs _ _ _ _ IM) in O1, O2.
  destruct (C66_valid_partial reg strict every normalize resolve refuses later p m' order1 order2 w q r levels loaded PF' (robust_im m m' _ mesh IM EX p RO)
    (small_im _ _ _ _ IM SV LV) O1 O2 E C R V') as (m'' & -> & SP & V'').
  destruct (sp_model _ _ _ SP) as (_ & _ & _ & _ & _ & SR & _).
  destruct (read_mesh m m' _ mesh IM TR p m'' SR) as (before & o & mesh' & E1 & E2 & _ & E4 & E5 & E6).
  exists m'', before, o, mesh'. split; [reflexivity|]. split; [exact V''|]. split; [exact E1|]. split; [exact E2|]. split; [exact E4|]. split.
  - assert (SM' : SmallMesh mesh') by (unfold SmallMesh; rewrite E5; exact SM). rewrite (proj1 (C17_mesh_coherency mesh' SM')).
    apply (coherent_same mesh mesh' E5); [symmetry; exact (P_Stl.Forall2_length _ _ _ E6)|]. apply (coherent_iff oor mesh ts F A). auto.
  - exact (saved_triangles mesh oor p ts mesh' F E5 E6).
Qed.
Print Assumptions C82_saved.

(** ** A tetrahedron *)
Definition vertex_line (s : string) : string := "   vertex " +++ s +++ nl.
Definition facet_text (a b c : string) : string :=
  " facet normal 0 0 0" +++ nl +++ "  outer loop" +++ nl +++ vertex_line a +++ vertex_line b +++ vertex_line c +++ "  endloop" +++ nl +++ " endfacet" +++ nl.
Definition tetra_text (last : string) : string :=
  "solid s" +++ nl +++ facet_text "0 0 0" "0 1 0" "1 0 0" +++ facet_text "0 0 0" "1 0 0" "0 0 1" +++ facet_text "0 0 0" "0 0 1" "0 1 0" +++
  facet_text "1 0 0" "0 1 0" last +++ "endsolid s" +++ nl.
Definition no_oor : f32 -> Z := fun _ => 0%Z.
Definition import (data : string) : option (Model * option serr) := decode_stl no_oor (fun _ => false) 1 (eof data) model_zero.
Definition tetra_model (data : string) : Model := match import data with Some (m, _) => m | None => model_zero end.
(** Everything the theorems ask for, and what they say of it *)
Example C82_nonvacuous :
  import (tetra_text "0 0 1") = Some (tetra_model (tetra_text "0 0 1"), None) /\ Below4G (eof (tetra_text "0 0 1")) /\
  SmallVertices model_zero /\ DistinctIds (mo_res model_zero) /\ FewResources model_zero /\ PackageFits (fun n => n) (fun _ n => n) (knows reg_all) 4 model_zero /\ Robust 4 model_zero /\
  validate (fun _ => true) (registry 5) model_zero = None /\ validate (fun _ => true) (registry 5) (tetra_model (tetra_text "0 0 1")) = None /\
  (exists ts, StlFacets (tetra_text "0 0 1") ts /\ List.length ts = 4 /\ Watertight no_oor ts) /\
  exists w r, encode (fun n => n) (fun _ n => n) (fun _ _ _ => false) 4 [] [] (tetra_model (tetra_text "0 0 1")) = Some w /\ Carried w (read_of w) /\
    decodes reg_all true 1000 (fun _ n => n) (fun _ _ => "") (read_of w) model_zero r.
Proof.
  assert (E : import (tetra_text "0 0 1") = Some (tetra_model (tetra_text "0 0 1"), None)) by (vm_compute; reflexivity).
  assert (B : Below4G (eof (tetra_text "0 0 1"))) by (vm_compute; reflexivity).
  assert (SV : SmallVertices model_zero) by (intros rs x me [->|(k & c & [] & _)] []).
  assert (DI : DistinctIds (mo_res model_zero)) by (intros k H; destruct H; reflexivity).
  assert (FR : FewResources model_zero) by (vm_compute; reflexivity).
  assert (PF : PackageFits (fun n => n) (fun _ n => n) (knows reg_all) 4 model_zero).
  { constructor.
    - unfold ModelFits, HeadFits, ExtsFit. cbv zeta. fits.
    - intros k c [].
    - repeat constructor; cbn; tauto.
    - intros n [<-|[]]. split; [discriminate|auto].
    - intros r [].
    - intros r [].
    - intros a [].
    - split; [intros a b []|intros k c []].
    - split; [intros o me []|split; [intros t []|intros k c []]]. }
  assert (RO : Robust 4 model_zero).
  { constructor.
    - intros r [].
    - intros x (rs & st & s & [->|(k & c & [] & _)] & [] & _).
    - intros x y (rs & st & s & [->|(k & c & [] & _)] & [] & _).
    - intros rs x me g [->|(k & c & [] & _)] []. }
  split; [exact E|]. split; [exact B|]. split; [exact SV|]. split; [exact DI|]. split; [exact FR|]. split; [exact PF|]. split; [exact RO|].
  split; [vm_compute; reflexivity|]. split; [vm_compute; reflexivity|].
  destruct (facts no_oor (fun _ => false) 1 (eof (tetra_text "0 0 1")) model_zero (tetra_model (tetra_text "0 0 1")) E B) as (ts & mesh & SF & IM & F & A & PT & LV & SM & EX).
  split.
  - exists ts. split; [exact SF|].
    assert (O : rs_objects (mo_res (tetra_model (tetra_text "0 0 1"))) = [mkObj 1 "" "" "" 0 0 0 mg_zero (Some mesh) None []]) by (rewrite (im_res _ _ _ _ IM); reflexivity).
    assert (M : mesh_coherency mesh = None /\ List.length (me_tris mesh) = 4).
    { revert O. vm_compute rs_objects. intros O. injection O as <-. split; vm_compute; reflexivity. }
    split; [rewrite <- (P_Stl.Forall2_length (B:=Corners) _ _ _ F); apply M|]. apply (coherent_iff no_oor mesh ts F A). apply (proj1 (C17_mesh_coherency mesh SM)). apply M.
  - eexists. destruct (C54_partial reg_all true 1000 (fun n => n) (fun _ n => n) (fun _ _ _ => false) (fun _ _ => "") 4 (tetra_model (tetra_text "0 0 1")) [] [] _ (read_of _)
      (package_fits model_zero (tetra_model (tetra_text "0 0 1")) _ mesh IM (unused_u32 _) PT ltac:(lia)
        ltac:(intros x Hx; destruct (tri_corners no_oor mesh ts F x Hx) as (T1 & _ & T2); auto) EX (fun n => n) (fun _ n => n) (knows reg_all) 4 PF)
      (Permutation_refl _) (Permutation_refl _) eq_refl (read_carried _)) as (_ & m'' & DEC).
    exists (PModel m''). split; [reflexivity|]. split; [apply read_carried|exact DEC].
Qed.
(** A file with a facet whose corners are closer than the accuracy of merging is imported without error; the model is
    not valid. *)
Theorem C82_degenerate_facet : exists data m', decode_stl no_oor (fun _ => false) 1 (eof data) model_zero = Some (m', None) /\
  (forall fuel, validate (fun _ => true) (registry fuel) model_zero = None) /\ forall fuel, validate (fun _ => true) (registry fuel) m' <> None.
Proof.
  exists (tetra_text "0 1.0000001 0"), (tetra_model (tetra_text "0 1.0000001 0")). split; [vm_compute; reflexivity|].
  split; intros fuel; vm_compute; [reflexivity|discriminate].
Qed.
Print Assumptions C82_degenerate_facet.
