(** * Theorems about writing a model and reading it again *)
From Coq Require Import ZArith Reals.
From Verif Require Import GoBase GoNum GoUtf8 GoFloat Types XmlTypes M_Core M_Errors M_Text M_Xml M_Decode M_Printer M_Encode M_Validate
  S_Xml S_Printer S_Text S_Core S_Geom S_Strconv S_RoundTrip P_Printer P_Text P_RTBase P_RTText P_RTAttr P_RTExt P_RTCore P_RTModel T_Printer GoStrconv.

(** ** C39: the model read is the one written, with coordinates and transforms rounded to the decimals written, and
    nothing that a model file does not hold.  [MarshalModel] writes four decimals. *)
Theorem C39_round_trip reg m : ModelFits (knows reg) 4 m ->
  exists m' n d, unmarshal_model reg (marshal_model m) model_zero = DRet m' DNone n d /\ SameModel 4 m m' /\
    mo_path m' = "" /\ mo_atts m' = [] /\ mo_childs m' = [] /\ mo_rootrels m' = [] /\ mo_rels m' = [].
Proof.
  intros F. destruct (root_run reg DefaultModelPath 4 m model_zero F) as (ts & s2 & D & E & R); try reflexivity.
  destruct (C35_print_scan _ _ _ D) as (evs & d & S & T).
  destruct (file_run reg true DefaultModelPath 1000 (marshal_model m) model_zero evs d (top_mach s2) S) as (n & X); [intros later; apply R, T|reflexivity|].
  exists (rt_model 4 m model_zero), n, d. split; [unfold unmarshal_model; rewrite X; cbn [top_mach m_st]; rewrite E; reflexivity|].
  split; [apply (model_same (knows reg)), F|]. repeat (split; [reflexivity|]). reflexivity.
Qed.
Print Assumptions C39_round_trip.
(** The same with any number of decimals, and with the XML header that [Encoder.Encode] writes before the model. *)
Theorem C39_header reg p m : ModelFits (knows reg) p m ->
  exists m' n d, unmarshal_model reg (xml_header +++ print (write_model p m)) model_zero = DRet m' DNone n d /\ SameModel p m m'.
Proof.
  intros F. destruct (root_run reg DefaultModelPath p m model_zero F) as (ts & s2 & D & E & R); try reflexivity.
  destruct (C35_header _ _ _ D) as (evs & d & S & T).
  destruct (file_run reg true DefaultModelPath 1000 _ model_zero evs d (top_mach s2) S) as (n & X); [|reflexivity|].
  - intros later. destruct evs as [|ev evs]; [discriminate|]. cbn [map] in T. injection T as T1 T2. destruct ev as [x a|x|now r]; try discriminate. cbn [on_events on_event].
    exact (R later evs T2).
  - exists (rt_model p m model_zero), n, d. split; [unfold unmarshal_model; rewrite X; cbn [top_mach m_st]; rewrite E; reflexivity|apply (model_same (knows reg)), F].
Qed.
Print Assumptions C39_header.

(** A model with metadata, materials, a mesh with properties, an assembly, transforms and extension data *)
Definition rt_uuid : string := "01cbb956-1d24-062d-fbcb-c5e1d6d1a72b".
Definition rt_mesh_obj : Object :=
  mkObj 5 "cube" "part-1" "" 1 0 0 (mkMG [mkMeta (mkName "x" "note") "a < b" "xs:string" true] [])
    (Some (mkMesh [P3 f_zero f_zero f_zero; P3 f_one f_zero f_zero; P3 f_zero f_one f_zero; P3 f_zero f_zero f_one] []
       [mkTri 0 2 1 1 1 1 1 []; mkTri 0 1 3 1 0 1 0 []; mkTri 0 3 2 0 0 0 0 []; mkTri 1 2 3 7 0 0 0 []] []  []
       [AnyTokens [TStart (mkName "http://x" "tag") [mkAttr (mkName "" "id") "1"]; TStart (mkName "http://x" "inner") []; TEnd (mkName "http://x" "inner"); TEnd (mkName "http://x" "tag")]]))
    None [GObj rt_uuid].
Definition rt_asm_obj : Object :=
  mkObj 6 "" "" "" 0 0 1 mg_zero None
    (Some (mkComps [mkComp 5 (M16 f_one f_zero f_zero f_zero f_zero f_one f_zero f_zero f_zero f_zero f_one f_zero f_one f_one f_one f_one) [GComp rt_uuid "/3D/other.model"]] [])) [].
Definition rt_example : Model :=
  mkModel "" "en-US" 1 "/thumb.png"
    (mkRes [ABase (mkBM 1 [mkBase "Red" (mkRGBA 255 0 0 255) []; mkBase "Blue" (mkRGBA 0 0 255 128) []] []);
            AExt (XColorGroup (mkCG 2 [mkRGBA 1 2 3 4]))] [rt_mesh_obj; rt_asm_obj] [])
    (mkBuild [mkItem 6 matrix_zero "p" mg_zero [GItem rt_uuid ""]] [GBuild rt_uuid])
    [] [mkExt ns_production "p" true; mkExt ns_materials "m" false; mkExt "http://x" "x" false]
    [mkMeta (mkName "" "Title") "A title" "" false] [] [] [] [] [GUnknown "http://x" [mkAttr (mkName "http://x" "a") "1"]].
Definition reg_all : Reg := mkReg true true true true.
Ltac fits := repeat (cbn; match goal with
  | |- Forall _ [] => constructor
  | |- Forall _ (_ :: _) => constructor
  | |- NoDup [] => constructor
  | |- NoDup (_ :: _) => constructor
  | |- XmlText _ => apply safe_xml; reflexivity
  | |- Writable _ _ => apply safe_writable; reflexivity
  | |- NameStr _ => apply name_ok; reflexivity
  | |- TagFits _ _ => split
  | |- AttrFits _ _ _ => split
  | |- U32 _ => reflexivity
  | |- Byte _ => reflexivity
  | |- ColorFits _ => split
  | |- Num _ => reflexivity
  | |- AnyFits _ _ _ _ _ => split
  | |- GroupFits _ _ _ _ _ => unfold GroupFits
  | |- ItemFits _ _ _ _ => split
  | |- BuildFits _ _ _ _ => split
  | |- BaseFits _ _ _ => split
  | |- CompFits _ _ _ => split
  | |- MeshFits _ _ _ _ => split
  | |- ObjFits _ _ _ _ _ => split
  | |- ResFits _ _ _ _ _ => split
  | |- ExtFits _ _ _ _ => unfold ExtFits
  | |- AssetFits _ _ _ _ => unfold AssetFits
  | |- ~ False => intros []
  | |- ~ (_ \/ _) => let H := fresh in intros H; repeat (destruct H as [H|H]; [discriminate H|]); exact H
  | |- [] = [] \/ _ => left
  | |- "" = "" /\ _ \/ _ => left
  | |- _ \/ _ \/ Declared _ _ => right; right
  | |- GroupMetaFits _ _ _ _ => split
  | |- MetaFits _ _ => split
  | |- UuidTextLoose _ => apply uuid_validate_spec; reflexivity
  | |- PointFits _ => split
  | |- NumsFit _ => split
  | |- (_ <= _)%N => discriminate
  | |- (_ <= _ <= _)%Z => split; discriminate
  | |- knows _ _ => discriminate
  | |- Declared _ _ => assumption
  | |- ~ knows _ _ => assumption
  | |- TransformFits _ => right; repeat constructor
  | |- TrisFit _ _ [] => constructor
  | |- TrisFit _ _ (_ :: _) => constructor
  | |- Inside _ _ (TStart ?m ?a :: TEnd ?m :: ?r) => apply (InElem _ _ m a [] r)
  | |- Inside _ _ [] => constructor
  | |- _ /\ _ => split
  | |- True => exact I
  | |- _ <> _ => discriminate
  | |- _ = _ => reflexivity
  | |- _ = _ -> _ => intros; discriminate
  | |- ?a = ?b -> ?a = ?b => exact (fun H => H)
  end).
Example C39_nonvacuous : ModelFits (knows reg_all) 4 rt_example.
Proof.
  assert (DX : Declared (env_of rt_example) "http://x") by (split; [discriminate|exists "x"; reflexivity]).
  assert (DP : Declared (env_of rt_example) ns_production) by (split; [discriminate|exists "p"; reflexivity]).
  assert (DM : Declared (env_of rt_example) ns_materials) by (split; [discriminate|exists "m"; reflexivity]).
  assert (KX : ~ knows reg_all "http://x") by (intros H; apply H; reflexivity).
  unfold ModelFits, HeadFits. set (e := env_of rt_example) in *. clearbody e. unfold ExtsFit. cbv zeta.
  fits.
  - intros _ c [<-|[]]. reflexivity.
  - right. split; [reflexivity|]. intros q r E. do 5 (destruct q as [|? q]; cbn in E; [discriminate|]; injection E as _ E). destruct q; discriminate.
  - discriminate.
  - left. split; [right; right; left; reflexivity|]. split; [discriminate|]. intros [H|[]]. discriminate.
  - apply printable_xml. reflexivity.
  - exists (mkName "http://x" "tag"), [mkAttr (mkName "" "id") "1"], [TStart (mkName "http://x" "inner") []; TEnd (mkName "http://x" "inner")].
    split; [reflexivity|]. unfold UnknownFits. fits.
  - auto.
  - auto.
Qed.

(** ** C40 *)
(** The triangle that is read for [t] in a mesh of the object [o] *)
Definition SameProperties (o : Object) (t t' : Triangle) : Prop :=
  t_v1 t' = t_v1 t /\ t_v2 t' = t_v2 t /\ t_v3 t' = t_v3 t /\ t_any t' = t_any t /\
  (t_pid t <> 0%N -> t_pid t' = t_pid t /\ t_p1 t' = t_p1 t /\ t_p2 t' = t_p2 t /\ t_p3 t' = t_p3 t) /\
  (t_pid t = 0%N -> t_pid t' = ob_pid o /\ t_p1 t' = ob_pindex o /\ t_p2 t' = ob_pindex o /\ t_p3 t' = ob_pindex o).
Definition MeshProperties (o o' : Object) : Prop :=
  match ob_mesh o, ob_mesh o' with
  | Some me, Some me' => Forall2 (SameProperties o) (me_tris me) (me_tris me')
  | None, None => True
  | _, _ => False
  end.
(** True where no triangle but the last of its mesh carries extension attributes, unless it has a property group
    and indices that are not all the same ([TrisFit]). *)
Theorem C40_properties_partial reg m : ModelFits (knows reg) 4 m ->
  exists m' n d, unmarshal_model reg (marshal_model m) model_zero = DRet m' DNone n d /\
    Forall2 MeshProperties (rs_objects (mo_res m)) (rs_objects (mo_res m')).
Proof.
  intros F. destruct (C39_round_trip reg m F) as (m' & n & d & E & (_ & _ & _ & _ & _ & (_ & S & _) & _) & _). exists m', n, d. split; [exact E|].
  revert S. generalize (rs_objects (mo_res m)) (rs_objects (mo_res m')). induction 1 as [|o o' l l' H S IH]; constructor; [|exact IH].
  destruct H as (_ & _ & _ & _ & _ & _ & _ & _ & _ & H & _). unfold MeshProperties. destruct (ob_mesh o) as [me|], (ob_mesh o') as [me'|]; try exact H.
  destruct H as (_ & _ & -> & _). induction (me_tris me) as [|t ts IHt]; cbn [map]; constructor; [|exact IHt]. unfold SameProperties, with_defaults.
  destruct (N.eqb_spec (t_pid t) 0) as [E0|E0]; cbn; repeat split; try reflexivity; intros; try contradiction; congruence.
Qed.
Print Assumptions C40_properties_partial.
(** Without that restriction it is false: the attribute of the first triangle takes the place of pid in the array the
    triangles share, so the second triangle is written without its property group. *)
Definition shared_obj : Object :=
  mkObj 5 "" "" "" 1 0 0 mg_zero
    (Some (mkMesh [P3 f_zero f_zero f_zero; P3 f_one f_zero f_zero; P3 f_zero f_one f_zero; P3 f_zero f_zero f_one] []
       [mkTri 0 2 1 1 0 0 0 [GUnknown "http://x" [mkAttr (mkName "http://x" "a") "7"]]; mkTri 0 1 3 3 1 1 1 []; mkTri 0 3 2 1 0 0 0 []; mkTri 1 2 3 1 0 0 0 []] [] [] []))
    None [].
Definition shared_model : Model :=
  mkModel "" "en-US" 1 "" (mkRes [ABase (mkBM 1 [mkBase "Red" (mkRGBA 255 0 0 255) []; mkBase "Blue" (mkRGBA 0 0 255 128) []] []);
      ABase (mkBM 3 [mkBase "Cyan" (mkRGBA 0 255 255 255) []; mkBase "Black" (mkRGBA 0 0 0 255) []] [])] [shared_obj] [])
    (mkBuild [mkItem 5 matrix_zero "" mg_zero []] []) [] [mkExt "http://x" "x" false] [] [] [] [] [] [].
Lemma forall2_cons {A B} (R : A -> B -> Prop) a b l l' : Forall2 R (a :: l) (b :: l') -> R a b /\ Forall2 R l l'.
Proof. inversion 1; auto. Qed.
Theorem C40_refuted : exists m m' n d, validate (fun _ => false) (fun _ => None) m = None /\
  unmarshal_model reg_all (marshal_model m) model_zero = DRet m' DNone n d /\
  ~ Forall2 MeshProperties (rs_objects (mo_res m)) (rs_objects (mo_res m')).
Proof.
  exists shared_model. eexists _, _, _. split; [vm_compute; reflexivity|]. split; [vm_compute; reflexivity|].
  intros H. apply forall2_cons in H as [H _]. unfold MeshProperties in H. cbn [rs_objects mo_res shared_model ob_mesh shared_obj me_tris] in H.
  apply forall2_cons in H as [_ H]. apply forall2_cons in H as [(_ & _ & _ & _ & H & _) _]. cbn in H. destruct (H ltac:(discriminate)) as (H1 & _). discriminate H1.
Qed.
Print Assumptions C40_refuted.

(** ** C55 *)
(** Every resource of the materials and slice extensions, written alone in a model and read again *)
Definition ext_model (a : list Asset) (o : list Object) (b : Build) : Model :=
  mkModel "" "" 0 "" (mkRes a o []) b [] [mkExt ns_materials "m" false; mkExt ns_production "p" false; mkExt ns_slices "s" false; mkExt ns_beam "b" false] [] [] [] [] [] [].
Definition ext_env : Env := env_of (ext_model [] [] (mkBuild [] [])).
Lemma ext_head a o b : HeadFits (knows reg_all) (ext_model a o b).
Proof. unfold HeadFits, ExtsFit. fits. Qed.
Theorem C55_resource_partial x : ExtFits ext_env (knows reg_all) 4 x -> (forall g, x <> XBeamLattice g) ->
  exists m' n d y, unmarshal_model reg_all (marshal_model (ext_model [AExt x] [] (mkBuild [] []))) model_zero = DRet m' DNone n d /\
    rs_assets (mo_res m') = [AExt y] /\ SameExt 4 x y.
Proof.
  intros F NB. set (m := ext_model _ _ _). assert (MF : ModelFits (knows reg_all) 4 m).
  { split; [apply ext_head|]. split; [constructor|]. split; [|split; [split; [constructor|split; constructor]|exact I]].
    split; [constructor; [split; [exact F|exact NB]|constructor]|]. split; [constructor|split; constructor]. }
  destruct (C39_round_trip reg_all m MF) as (m' & n & d & E & (_ & _ & _ & _ & _ & (SA & _) & _) & _). exists m', n, d.
  subst m. cbn in SA. inversion SA as [|a b l l' H1 H2 E1 E2]; subst. inversion H2; subst. destruct b as [b|id ts|y]; try destruct H1. exists y. split; [exact E|]. split; [reflexivity|exact H1].
Qed.
Print Assumptions C55_resource_partial.
(** A beam lattice, in a mesh with [vs] *)
Definition lattice_obj (vs : list Point3D) (g : BeamLattice) : Object :=
  mkObj 1 "" "" "" 0 0 0 mg_zero (Some (mkMesh vs [] [] [] [] [AnyExt (XBeamLattice g)])) None [].
Theorem C55_lattice_partial vs g : ExtFits ext_env (knows reg_all) 4 (XBeamLattice g) -> Forall PointFits vs ->
  exists m' n d o me y, unmarshal_model reg_all (marshal_model (ext_model [] [lattice_obj vs g] (mkBuild [] []))) model_zero = DRet m' DNone n d /\
    rs_objects (mo_res m') = [o] /\ ob_mesh o = Some me /\ me_ext me = [AnyExt (XBeamLattice y)] /\ SameExt 4 (XBeamLattice g) (XBeamLattice y).
Proof.
  intros F FV. set (m := ext_model _ _ _). assert (MF : ModelFits (knows reg_all) 4 m).
  { split; [apply ext_head|]. split; [constructor|]. split; [|split; [split; [constructor|split; constructor]|exact I]].
    split; [constructor|]. split; [|split; constructor]. constructor; [|constructor]. unfold ObjFits, lattice_obj. cbn [ob_id ob_name ob_part ob_thumb ob_pid ob_pindex ob_type ob_md ob_any ob_mesh ob_comps].
    do 9 (split; [fits; auto|]). split; [exact FV|]. do 4 (split; [fits|]). exact F. }
  destruct (C39_round_trip reg_all m MF) as (m' & n & d & E & (_ & _ & _ & _ & _ & (_ & SO & _) & _) & _). exists m', n, d.
  subst m. cbn in SO. inversion SO as [|a o l l' H1 H2 E1 E2]; subst. inversion H2; subst. destruct H1 as (_ & _ & _ & _ & _ & _ & _ & _ & _ & H1 & _). cbn in H1.
  destruct (ob_mesh o) as [me|] eqn:EM; [|destruct H1]. destruct H1 as (_ & _ & _ & _ & _ & H1). cbn in H1. inversion H1 as [|a b l l' X Y EA EB]; subst. inversion Y; subst.
  destruct b as [ts|[t|c|c|c|c|c|y]]; try destruct X. exists o, me, y. split; [exact E|]. split; [solve [reflexivity|congruence]|]. split; [exact EM|]. split; [solve [reflexivity|congruence]|]. cbn. tauto.
Qed.
Print Assumptions C55_lattice_partial.

(** What the production extension adds to an item, an object and a component, and to the build *)
Definition production_model (ub uo ui uc pi pc : string) : Model :=
  ext_model [] [mkObj 1 "" "" "" 0 0 0 mg_zero None (Some (mkComps [mkComp 2 matrix_zero [GComp uc pc]] [])) [GObj uo]]
    (mkBuild [mkItem 1 matrix_zero "" mg_zero [GItem ui pi]] [GBuild ub]).
Theorem C55_production_partial ub uo ui uc pi pc :
  Forall (fun u => UuidTextLoose u /\ XmlText u) [ub; uo; ui; uc] -> XmlText pi -> XmlText pc ->
  exists m' n d o it, unmarshal_model reg_all (marshal_model (production_model ub uo ui uc pi pc)) model_zero = DRet m' DNone n d /\
    rs_objects (mo_res m') = [o] /\ ob_any o = [GObj uo] /\ bu_items (mo_build m') = [it] /\ it_any it = [GItem ui pi] /\
    bu_any (mo_build m') = [GBuild ub] /\ option_map (fun c => map co_any (cs_list c)) (ob_comps o) = Some [[GComp uc pc]].
Proof.
  intros F Xi Xc. repeat match goal with H : Forall _ (_ :: _) |- _ => apply Forall_cons_iff in H as [[? ?] H] end.
  set (m := production_model _ _ _ _ _ _). assert (MF : ModelFits (knows reg_all) 4 m).
  { split; [apply ext_head|]. split; [constructor|]. assert (DP : Declared (env_of m) ns_production) by (split; [discriminate|exists "p"; reflexivity]).
    assert (K : knows reg_all ns_production) by discriminate. set (e := env_of m) in *. clearbody e.
    split; [|split; [|exact I]].
    - unfold m, production_model, ext_model, ResFits, ObjFits. cbn [mo_res rs_assets rs_objects rs_any ob_comps ob_mesh]. fits; auto; try assumption.
    - unfold m, production_model, ext_model, BuildFits, ItemFits. cbn [mo_build bu_items bu_any]. fits; auto. }
  destruct (C39_round_trip reg_all m MF) as (m' & n & d & E & (_ & _ & _ & _ & _ & (_ & SO & _) & (SI & SB) & _) & _). exists m', n, d.
  subst m. cbn in SO, SI, SB. inversion SO as [|a o l l' J1 J2 E1 E2]; subst. inversion J2; subst. inversion SI as [|a it l l' I1 I2 E3 E4]; subst. inversion I2; subst.
  exists o, it. split; [exact E|]. destruct J1 as (_ & _ & _ & _ & _ & _ & _ & _ & HA & _ & HC). destruct I1 as (_ & _ & _ & _ & IA).
  repeat (split; [solve [reflexivity|assumption]|]). cbn in HC. destruct (ob_comps o) as [c|]; [|destruct HC]. destruct HC as (HC & _). cbn.
  inversion HC as [|x y l l' C1 C2 E5 E6]; subst. inversion C2; subst. destruct C1 as (_ & _ & C1). cbn in C1 |- *. rewrite C1. reflexivity.
Qed.
Print Assumptions C55_production_partial.
(** Without the restriction on the radii of beams it is false: a second radius that is that of the lattice is not
    written, and what is read instead is the first one. *)
Definition f_two : f32 := fadd f_one f_one.
Definition cone_lattice : BeamLattice :=
  mkBL 0 0 0 [mkBeam 0 1 f_two f_one 0 0; mkBeam 1 2 f_one f_one 0 0] [] f_one f_one 0.
Theorem C55_refuted : exists vs g m' n d o me y,
  unmarshal_model reg_all (marshal_model (ext_model [] [lattice_obj vs g] (mkBuild [] []))) model_zero = DRet m' DNone n d /\
  rs_objects (mo_res m') = [o] /\ ob_mesh o = Some me /\ me_ext me = [AnyExt (XBeamLattice y)] /\
  map bm_r2 (bl_beams g) = [f_one; f_one] /\ map bm_r2 (bl_beams y) = [f_two; f_one].
Proof.
  exists [P3 f_zero f_zero f_zero; P3 f_one f_zero f_zero; P3 f_zero f_one f_zero], cone_lattice. eexists _, _, _, _, _, _.
  split; [vm_compute; reflexivity|]. split; [reflexivity|]. split; [reflexivity|]. split; [reflexivity|]. split; vm_compute; reflexivity.
Qed.
Print Assumptions C55_refuted.

(** The properties of triangles, a lattice with a conical beam, a slice stack and production data meet the hypotheses *)
Example C40_nonvacuous : ModelFits (knows reg_all) 4 rt_example.
Proof. exact C39_nonvacuous. Qed.
Definition rt_lattice : BeamLattice :=
  mkBL 1 7 0 [mkBeam 0 1 f_two (fadd f_two f_one) 0 1; mkBeam 1 2 f_one f_one 2 0; mkBeam 2 0 f_one f_two 1 1] [mkBS [0; 2]%N "set" "s<1>"] f_one f_one 2.
Lemma own_above m q : f_valid (S754_finite false m (Zneg q)) = true -> (2 ^ Zpos q <= Zpos m)%Z -> OwnRadius 4 (S754_finite false m (Zneg q)).
Proof.
  intros V L. split; [exact V|]. split; [reflexivity|]. apply Rle_trans with 1%R; [cbn; Lra.lra|]. unfold value. rewrite Rmult_1_l. cbn [powerRZ].
  assert (P : (0 < 2 ^ Pos.to_nat q)%R) by (apply pow_lt; Lra.lra). apply Rmult_le_reg_r with (2 ^ Pos.to_nat q)%R; [exact P|].
  rewrite Rmult_1_l, Rmult_assoc, Rinv_l, Rmult_1_r by Lra.lra. rewrite pow_IZR, positive_nat_Z. apply IZR_le. exact L.
Qed.
Example C55_nonvacuous : ExtFits ext_env (knows reg_all) 4 (XBeamLattice rt_lattice) /\
  ExtFits ext_env (knows reg_all) 4 (XSliceStack (mkSS 3 f_one [mkSlice f_two [P2 f_zero f_zero; P2 f_one f_zero; P2 f_zero f_one]
     [mkPoly 0 [mkSeg 1 5 0 1; mkSeg 2 0 0 0; mkSeg 0 0 0 0]]] [])) /\ UuidTextLoose rt_uuid /\ XmlText rt_uuid.
Proof.
  assert (O2 : OwnRadius 4 f_two) by (apply (own_above 8388608 22); [reflexivity|discriminate]).
  assert (O3 : OwnRadius 4 (fadd f_two f_one)) by (apply (own_above 12582912 22); [reflexivity|discriminate]).
  split; [|split; [|split]].
  - split; [discriminate|]. split; [split; [discriminate|exists "b"; reflexivity]|]. cbn [bl_clip bl_clipmesh bl_repmesh bl_beams bl_sets bl_minlen bl_radius bl_cap rt_lattice].
    do 6 (split; [first [reflexivity|discriminate]|]). split; [|fits].
    constructor; [|constructor; [|constructor; [|constructor]]]; (split; [reflexivity|]); (split; [reflexivity|]); (split; [|split; discriminate]); split; cbn [bm_r1 bm_r2].
    + right. split; [exact O2|reflexivity].
    + right. split; [exact O3|reflexivity].
    + left. reflexivity.
    + left. split; reflexivity.
    + left. reflexivity.
    + right. split; [exact O2|reflexivity].
    + apply printable_xml. reflexivity.
  - split; [discriminate|]. split; [split; [discriminate|exists "s"; reflexivity]|]. fits; auto.
  - fits.
  - fits.
Qed.
