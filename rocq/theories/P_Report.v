(** * What Validate reports about a model that was saved and read *)
From Coq Require Import Permutation.
From Verif Require Import GoBase GoNum GoFloat GoStrconv Types XmlTypes M_Core M_Errors M_Geom M_Text M_Validate M_ExtValidate M_Decode S_Geom S_Strconv S_Text S_RoundTrip
  P_Core P_RTText P_RTExt P_RTCore P_Revalid2.
From Verif Require Import Types.

Section Report.
Context (p : nat) (m m' : Model) (loaded : string -> bool) (fuel : nat).
Hypothesis X : mo_exts m' = mo_exts m.
Hypothesis RS : forall path, find_resources m' path = option_map (rt_res p) (find_resources m path).
Hypothesis B : mo_build m' = rt_build (mo_build m).
Hypothesis PD : path_or_default m' = path_or_default m.
Hypothesis AT : Permutation (mo_atts m) (mo_atts m').
Notation V := (registry fuel).
Definition rt_el (el : VElem) : VElem := match el with VModel => VModel | VAsset a => VAsset (rt_asset p a) | VObject o => VObject (rt_obj p o) end.
(** The elements of the model, about which the rules that compare numbers say the same *)
Context (Ours : VElem -> Prop).
Hypothesis SL : forall path el, Ours el -> (exists x, In x (mo_exts m) /\ ex_ns x = M_ExtValidate.ns_slices) -> slices_validate fuel m' path (rt_el el) = slices_validate fuel m path el.
Hypothesis BL : forall path el, Ours el -> (exists x, In x (mo_exts m) /\ ex_ns x = M_ExtValidate.ns_beamlattice) -> beamlattice_validate m' path (rt_el el) = beamlattice_validate m path el.
Lemma ext_rt path path' el : (path = path' /\ Ours el \/ el = VModel) -> forall errs, ext_validate V m' path' (rt_el el) errs = ext_validate V m path el errs.
Proof.
  intros HP. unfold ext_validate. rewrite X. assert (SU : forall x, In x (mo_exts m) -> In x (mo_exts m)) by auto. revert SU. generalize (mo_exts m) at 1 3 4 as l.
  induction l as [|x l IH]; intros SU errs; [reflexivity|]. cbn [fold_left].
  rewrite IH by (intros; apply SU; right; assumption). f_equal. pose proof (SU x (or_introl eq_refl)) as Ix. unfold registry.
  destruct (seq_spec (ex_ns x) M_ExtValidate.ns_materials); [|destruct (seq_spec (ex_ns x) M_ExtValidate.ns_beamlattice) as [EB|_]; [|destruct (seq_spec (ex_ns x) M_ExtValidate.ns_slices) as [ES|_]; [|destruct (seq_spec (ex_ns x) M_ExtValidate.ns_production); [|reflexivity]]]]; f_equal.
  - destruct el as [|a|o]; try reflexivity. destruct HP as [[<- _]|[=]]. apply materials_rt; assumption.
  - destruct HP as [[<- O]| ->]; [|reflexivity]. rewrite BL by eauto. reflexivity.
  - destruct HP as [[<- O]| ->]; [|reflexivity]. rewrite SL by eauto. reflexivity.
  - destruct el as [|a|o]; try reflexivity; [cbn [rt_el]; change (production_validate m' path' VModel) with (production_validate m' path VModel); apply production_model_rt; assumption|]. destruct HP as [[<- _]|[=]]. apply production_object_rt; assumption.
Qed.
Lemma metadata_rt md : metadata_validate m' md = metadata_validate m md.
Proof. unfold metadata_validate. rewrite X. reflexivity. Qed.
Lemma check_rt l : check_metadata m' l = check_metadata m l.
Proof. unfold check_metadata. generalize 0 (@nil Name) (@None gerr). induction l as [|md l IH]; intros i n e; [reflexivity|]. cbn [check_metadata_from]. rewrite metadata_rt. apply IH. Qed.
Lemma item_report it : item_validate m' (rt_item it) = item_validate m it.
Proof.
  unfold item_validate. change (item_path (rt_item it)) with (item_path it). cbn [rt_item it_oid it_md]. rewrite (find_object_rt p m m' RS), check_rt.
  destruct (find_object m (item_path it) (it_oid it)); reflexivity.
Qed.
Lemma build_report b : build_validate m' (rt_build b) = build_validate m b.
Proof. unfold build_validate. cbn [rt_build bu_items]. rewrite loop_map. apply loop_ext. intros i x e. rewrite item_report. reflexivity. Qed.
Lemma group_rt a : group_len (rt_asset p a) = group_len a.
Proof. destruct a as [b|id ts|[]]; cbn; rewrite ?map_length; reflexivity. Qed.
Lemma local_rt a : asset_local (rt_asset p a) = asset_local a.
Proof. destruct a as [b|id ts|[]]; reflexivity. Qed.
Lemma triangle_report path o n i t e : triangle_validate m' path (rt_obj p o) n i (with_defaults o t) e = triangle_validate m path o n i t e.
Proof.
  unfold triangle_validate, with_defaults. cbn [rt_obj ob_pid ob_pindex]. destruct (N.eqb_spec (t_pid t) 0) as [E|E]; cbn [t_v1 t_v2 t_v3 t_pid t_p1 t_p2 t_p3 negb].
  - rewrite !N.eqb_refl. cbn [andb]. destruct (negb _); reflexivity.
  - rewrite (proj2 (N.eqb_neq _ _) E). cbn [negb]. rewrite (res_find_asset_rt p m m' RS). destruct (res_find_asset m path (t_pid t)) as [a|]; cbn [option_map]; [rewrite group_rt|]; reflexivity.
Qed.
Lemma mesh_report path o me : mesh_validate m' path (rt_obj p o) (rt_mesh p o me) = mesh_validate m path o me.
Proof.
  unfold mesh_validate. cbn [rt_obj ob_type rt_mesh me_verts me_tris me_ext]. rewrite !map_length, loop_map.
  replace (match map (rt_elem p) (me_ext me) with [] => true | _ => false end) with (match me_ext me with [] => true | _ => false end) by (destruct (me_ext me); reflexivity).
  apply loop_ext. intros i t e. apply triangle_report.
Qed.
Lemma components_report path o cs : components_validate m' path (rt_obj p o) (map rt_comp1 cs) = components_validate m path o cs.
Proof.
  unfold components_validate. rewrite loop_map. cbv zeta. cbn [rt_obj ob_id].
  rewrite (loop_ext _ (fun j c errs =>
      if (co_oid c =? 0)%N then add errs (at_index (missing "objectid") "component" j)
      else match find_object m (comp_path c path) (co_oid c) with
           | Some ref => add_if ((ob_id ref =? ob_id o)%N && seq (comp_path c path) path) errs
                                (at_index (sent "ErrRecursion") "component" j)
           | None => add errs (at_index (sent "ErrMissingResource") "component" j)
           end)); [reflexivity|].
  intros i c e. change (comp_path (rt_comp1 c) path) with (comp_path c path). cbn [rt_comp1 co_oid]. rewrite (find_object_rt p m m' RS). destruct (find_object m (comp_path c path) (co_oid c)); reflexivity.
Qed.
Lemma object_report path o : Ours (VObject o) -> object_validate V m' path (rt_obj p o) = object_validate V m path o.
Proof.
  intros O. unfold object_validate. change (VObject (rt_obj p o)) with (rt_el (VObject o)). rewrite (ext_rt path path (VObject o)) by auto. f_equal.
  cbn [rt_obj ob_id ob_pid ob_pindex ob_mesh ob_comps]. change (mkObj _ _ _ _ _ _ _ _ _ _ _) with (rt_obj p o).
  destruct (ob_mesh o) as [me|], (ob_comps o) as [cs|]; cbn [option_map rt_comps cs_list]; rewrite ?mesh_report, ?(res_find_asset_rt p m m' RS).
  - destruct (res_find_asset m path (ob_pid o)) as [a|]; cbn [option_map]; rewrite ?group_rt; (destruct (cs_list cs) as [|c l]; cbn [map]; [reflexivity|]; change (rt_comp1 c :: map rt_comp1 l) with (map rt_comp1 (c :: l)); rewrite components_report; reflexivity).
  - destruct (res_find_asset m path (ob_pid o)) as [a|]; cbn [option_map]; rewrite ?group_rt; reflexivity.
  - destruct (cs_list cs) as [|c l]; cbn [map]; [reflexivity|]. change (rt_comp1 c :: map rt_comp1 l) with (map rt_comp1 (c :: l)). rewrite components_report. reflexivity.
  - reflexivity.
Qed.
Lemma assets_report path l : (forall a, In a l -> Ours (VAsset a)) -> forall i seen e, assets_validate V m' path i (map (rt_asset p) l) seen e = assets_validate V m path i l seen e.
Proof.
  induction l as [|a l IH]; intros O i seen e; [reflexivity|]. pose proof (O a (or_introl eq_refl)). cbn [map assets_validate]. rewrite asset_id_rt, local_rt. change (VAsset (rt_asset p a)) with (rt_el (VAsset a)). rewrite (ext_rt path path) by auto.
  rewrite IH by (intros; apply O; right; assumption). destruct a as [b|id ts|x]; reflexivity.
Qed.
Lemma objects_report path l : (forall o, In o l -> Ours (VObject o)) -> forall i seen e, objects_validate V m' path i (map (rt_obj p) l) seen e = objects_validate V m path i l seen e.
Proof. induction l as [|o l IH]; intros O i seen e; [reflexivity|]. cbn [map objects_validate]. rewrite object_report by (apply O; left; reflexivity). cbn [rt_obj ob_id]. apply IH. intros; apply O; right; assumption. Qed.
Lemma resources_report path rs : (forall a, In a (rs_assets rs) -> Ours (VAsset a)) -> (forall o, In o (rs_objects rs) -> Ours (VObject o)) -> resources_validate V m' path (rt_res p rs) = resources_validate V m path rs.
Proof. intros OA OO. unfold resources_validate. cbn [rt_res rs_assets rs_objects]. rewrite assets_report by exact OA. destruct (assets_validate V m path 0 (rs_assets rs) [] None). apply objects_report, OO. Qed.
End Report.
