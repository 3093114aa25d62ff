(** * Proofs: UUIDs and SetMissingUUIDs *)
From Coq Require Import Lia Permutation.
From Verif Require Import GoBase GoFloat Types M_Core M_Errors M_Geom M_Validate M_ExtValidate M_Coherency S_Core S_Errors S_Geom S_Validate S_ExtValidate S_Same S_Uuids
  P_Core P_Errors P_Geom P_Validate P_Renumber P_Same P_ExtProd2.
From Verif Require Import Types.
Local Open Scope list_scope.

Lemma pl_path l : any_path (plain_any l) = any_path l.
Proof.
  induction l as [|g l IH]; [reflexivity|]. destruct g; cbn [plain_any flat_map plain_group app any_path]; fold (plain_any l); try exact IH;
    (destruct (seq path "") eqn:E; cbn [app any_path negb]; [exact IH|rewrite E; reflexivity]).
Qed.
Lemma pl_slice l : get_slice_attr (plain_any l) = get_slice_attr l.
Proof.
  induction l as [|g l IH]; [reflexivity|]. destruct g; cbn [plain_any flat_map plain_group app get_slice_attr]; fold (plain_any l); try exact IH; try reflexivity;
    (destruct (seq path ""); exact IH).
Qed.
Section Plain.
Context (m : Model).
Notation m' := (plain m).
Lemma pl_find_child p : find_child m' p = option_map (fun c => snd (plain_child (p, c))) (find_child m p).
Proof.
  unfold find_child. cbn [plain mo_childs]. induction (mo_childs m) as [|[q c] l IH]; cbn [map aget plain_child fst snd]; [reflexivity|].
  destruct (seq p q); [reflexivity|exact IH].
Qed.
Lemma pl_resources p : find_resources m' p = option_map plain_res (find_resources m p).
Proof.
  unfold find_resources. rewrite pl_find_child. cbn [plain mo_path mo_res]. destruct (_ || _); [reflexivity|]. destruct (find_child m p); reflexivity.
Qed.
Lemma pl_find_obj id l : find_obj id (map plain_object l) = option_map plain_object (find_obj id l).
Proof. induction l as [|o l IH]; cbn [map find_obj]; [reflexivity|]. cbn [plain_object ob_id]. destruct (ob_id o =? id)%N; [reflexivity|exact IH]. Qed.
Lemma pl_object p id : find_object m' p id = option_map plain_object (find_object m p id).
Proof. unfold find_object. rewrite pl_resources. destruct (find_resources m p); [apply pl_find_obj|reflexivity]. Qed.
Lemma pl_asset p id : find_asset m' p id = find_asset m p id.
Proof. unfold find_asset. rewrite pl_resources. destruct (find_resources m p); reflexivity. Qed.
Lemma pl_res_asset p id : res_find_asset m' p id = res_find_asset m p id.
Proof. unfold res_find_asset. rewrite pl_resources. destruct (find_resources m p); reflexivity. Qed.
Lemma pl_comp_path c p : comp_path (plain_comp c) p = comp_path c p.
Proof. unfold comp_path. cbn [plain_comp co_any]. rewrite pl_path. reflexivity. Qed.
Lemma pl_item_path it : item_path (plain_item it) = item_path it.
Proof. unfold item_path. cbn [plain_item it_any]. apply pl_path. Qed.
Lemma pl_metadata l : forall i names e, check_metadata_from m' i l names e = check_metadata_from m i l names e.
Proof. induction l as [|x l IH]; intros i names e; cbn [check_metadata_from]; [reflexivity|]. rewrite IH. reflexivity. Qed.
Lemma pl_rels l : forall i v t e, validate_rels_from m' i l v t e = validate_rels_from m i l v t e.
Proof.
  induction l as [|x l IH]; intros i v t e; cbn [validate_rels_from]; [reflexivity|]. change (mo_atts m') with (mo_atts m).
  destruct (bad_part_name (rel_path x)), (seq (rel_type x) rel_print_ticket), (find_attachment (mo_atts m) (rel_path x)); apply IH.
Qed.
Lemma pl_relationship l p : validate_relationship m' l p = validate_relationship m l p.
Proof. unfold validate_relationship. rewrite pl_rels. reflexivity. Qed.
Lemma pl_item it : item_validate m' (plain_item it) = item_validate m it.
Proof.
  unfold item_validate, check_metadata. rewrite pl_item_path, pl_object, pl_metadata. cbn [plain_item it_oid it_md].
  destruct (find_object m (item_path it) (it_oid it)); reflexivity.
Qed.
Lemma pl_build : build_validate m' (mo_build m') = build_validate m (mo_build m).
Proof. unfold build_validate. cbn [plain mo_build bu_items]. rewrite loop_map. apply loop_ext. intros i it e. fold (plain m). rewrite pl_item. reflexivity. Qed.
Lemma pl_mesh p o me : mesh_validate m' p (plain_object o) me = mesh_validate m p o me.
Proof. unfold mesh_validate. cbn [plain_object ob_type]. apply loop_ext. intros i t e. unfold triangle_validate. rewrite pl_res_asset. reflexivity. Qed.
Lemma pl_components p o cs : components_validate m' p (plain_object o) (map plain_comp cs) = components_validate m p o cs.
Proof.
  unfold components_validate. rewrite loop_map.
  rewrite (loop_ext _ (fun j c errs =>
      if (co_oid c =? 0)%N then add errs (at_index (missing "objectid") "component" j)
      else match find_object m (comp_path c p) (co_oid c) with
           | Some ref => add_if ((ob_id ref =? ob_id o)%N && seq (comp_path c p) p) errs
                                (at_index (sent "ErrRecursion") "component" j)
           | None => add errs (at_index (sent "ErrMissingResource") "component" j)
           end)); [reflexivity|]. intros i c e. rewrite pl_comp_path, pl_object. cbn [plain_comp co_oid plain_object ob_id].
  destruct (find_object m (comp_path c p) (co_oid c)); reflexivity.
Qed.
(** ** Extensions *)
Definition plain_elem (el : VElem) : VElem := match el with VObject o => VObject (plain_object o) | _ => el end.
Lemma pl_multi_pids p l : forall j colors undef e, multi_pids m' p j l colors undef e = multi_pids m p j l colors undef e.
Proof.
  induction l as [|x l IH]; intros j colors undef e; cbn [multi_pids]; [reflexivity|]. rewrite pl_asset.
  destruct (find_asset m p x) as [[b|i ts|[]]|]; rewrite IH; reflexivity.
Qed.
Lemma pl_materials p el : materials_validate m' p (plain_elem el) = materials_validate m p el.
Proof.
  unfold materials_validate. destruct el as [|[b|i ts|[]]|o]; try reflexivity; cbn [plain_elem].
  - unfold tex_group_validate. rewrite pl_asset. reflexivity.
  - unfold composite_validate. rewrite pl_asset. reflexivity.
  - unfold multi_validate. rewrite pl_multi_pids. reflexivity.
Qed.
Lemma pl_ref_loop a b l : ref_mesh_loop (map plain_object l) a b = ref_mesh_loop l a b.
Proof. induction l as [|o l IH]; cbn [map ref_mesh_loop]; [reflexivity|]. rewrite IH. reflexivity. Qed.
Lemma pl_ref_mesh p a b : ref_mesh_validate m' p a b = ref_mesh_validate m p a b.
Proof. unfold ref_mesh_validate. rewrite pl_resources. destruct (find_resources m p); [cbn [option_map plain_res rs_objects]; rewrite pl_ref_loop|]; reflexivity. Qed.
Lemma pl_beams p el : beamlattice_validate m' p (plain_elem el) = beamlattice_validate m p el.
Proof.
  unfold beamlattice_validate. destruct el as [|a|o]; try reflexivity. unfold lattice_validate. cbn [plain_elem plain_object ob_mesh ob_type ob_id].
  destruct (ob_mesh o) as [me|]; [|reflexivity]. destruct (get_lattice (me_ext me)) as [bl|]; [|reflexivity]. rewrite !pl_ref_mesh. reflexivity.
Qed.
Lemma pl_comps_transforms p id rec rec' oid cs : (forall o, rec' (plain_object o) = rec o) ->
  comps_transforms m' p id rec' oid (map plain_comp cs) = comps_transforms m p id rec oid cs.
Proof.
  intros H. induction cs as [|c cs IH]; cbn [map comps_transforms]; [reflexivity|]. rewrite pl_comp_path, pl_object, IH. cbn [plain_comp co_oid co_tr].
  destruct (find_object m (comp_path c p) (co_oid c)) as [o|]; [cbn [option_map]; rewrite H|]; reflexivity.
Qed.
Lemma pl_obj_transforms p id : forall fuel o, obj_transforms fuel m' p id (plain_object o) = obj_transforms fuel m p id o.
Proof.
  induction fuel as [|f IH]; intros o; cbn [obj_transforms]; [reflexivity|]. cbn [plain_object ob_comps ob_id].
  destruct (ob_comps o); [|reflexivity]. cbn [option_map plain_comps cs_list]. apply pl_comps_transforms, IH.
Qed.
Lemma pl_items_transforms fuel p id its : items_transforms fuel m' p id (map plain_item its) = items_transforms fuel m p id its.
Proof.
  induction its as [|it its IH]; cbn [map items_transforms]; [reflexivity|]. rewrite pl_item_path, pl_object, IH. cbn [plain_item it_oid it_tr].
  destruct (find_object m _ (it_oid it)) as [o|]; [cbn [option_map]; rewrite pl_obj_transforms|]; reflexivity.
Qed.
Lemma pl_all_closed s : all_closed m' s = all_closed m s.
Proof.
  unfold all_closed. f_equal. induction (ss_refs s) as [|r l IH]; cbn [forallb]; [reflexivity|]. rewrite IH, pl_asset. reflexivity.
Qed.
Lemma pl_slice_object fuel p o : slice_object_validate fuel m' p (plain_object o) = slice_object_validate fuel m p o.
Proof.
  unfold slice_object_validate. cbn [plain_object ob_any ob_id ob_type]. rewrite pl_slice.
  destruct (get_slice_attr (ob_any o)) as [[sid res]|]; [|reflexivity]. rewrite pl_res_asset.
  change (mo_exts m') with (mo_exts m). change (bu_items (mo_build m')) with (map plain_item (bu_items (mo_build m))). rewrite pl_items_transforms.
  destruct (sid =? 0)%N; [reflexivity|]. destruct (res_find_asset m p sid) as [[b|i ts|[]]|]; try reflexivity. rewrite pl_all_closed. reflexivity.
Qed.
Lemma pl_refs_loop p l : forall i z e, refs_loop m' p i l z e = refs_loop m p i l z e.
Proof.
  induction l as [|r l IH]; intros i z e; cbn [refs_loop]; [reflexivity|]. rewrite pl_asset.
  destruct (seq (sr_path r) ""), (seq (sr_path r) p), (sr_id r =? 0)%N; cbn [negb]; try apply IH;
    (destruct (find_asset m (sr_path r) (sr_id r)) as [[b|j ts|[]]|]; apply IH).
Qed.
Lemma pl_slices fuel p el : slices_validate fuel m' p (plain_elem el) = slices_validate fuel m p el.
Proof.
  unfold slices_validate. destruct el as [|[b|i ts|[]]|o]; try reflexivity; cbn [plain_elem].
  - unfold slice_stack_validate. rewrite pl_refs_loop. reflexivity.
  - apply pl_slice_object.
Qed.
Context (fuel : nat) (Np : ~ In M_ExtValidate.ns_production (map ex_ns (mo_exts m))).
Lemma pl_registry ns p el : ns <> M_ExtValidate.ns_production ->
  match registry fuel ns with Some v => v m' p (plain_elem el) = v m p el | None => True end.
Proof.
  intros N. unfold registry. destruct (seq ns M_ExtValidate.ns_materials); [apply pl_materials|]. destruct (seq ns M_ExtValidate.ns_beamlattice); [apply pl_beams|].
  destruct (seq ns M_ExtValidate.ns_slices); [rewrite pl_slices; reflexivity|].
  destruct (seq_spec ns M_ExtValidate.ns_production) as [E|_]; [contradiction|exact I].
Qed.
Lemma pl_exts p el e : ext_validate (registry fuel) m' p (plain_elem el) e = ext_validate (registry fuel) m p el e.
Proof.
  unfold ext_validate. change (mo_exts m') with (mo_exts m). revert e Np. generalize (mo_exts m). intros l. induction l as [|y l IH]; intros e H; [reflexivity|].
  cbn [fold_left]. rewrite IH by (intros C; apply H; right; exact C). assert (K : ex_ns y <> M_ExtValidate.ns_production) by (intros C; apply H; left; exact C).
  pose proof (pl_registry (ex_ns y) p el K) as R. destruct (registry fuel (ex_ns y)); [rewrite R|]; reflexivity.
Qed.
Lemma pl_object_validate p o : object_validate (registry fuel) m' p (plain_object o) = object_validate (registry fuel) m p o.
Proof.
  unfold object_validate. change (VObject (plain_object o)) with (plain_elem (VObject o)). rewrite pl_exts, pl_res_asset. cbn [plain_object ob_id ob_pindex ob_pid ob_mesh ob_comps].
  destruct (ob_mesh o) as [me|]; rewrite ?pl_mesh; (destruct (ob_comps o) as [cs|]; [|reflexivity]); cbn [option_map plain_comps cs_list];
    pose proof (pl_components p o (cs_list cs)) as C; destruct (cs_list cs) as [|c l]; try reflexivity; cbn [map] in C |- *; rewrite C; reflexivity.
Qed.
Lemma pl_assets p l : forall i seen e, assets_validate (registry fuel) m' p i l seen e = assets_validate (registry fuel) m p i l seen e.
Proof.
  induction l as [|a l IH]; intros i seen e; cbn [assets_validate]; [reflexivity|]. rewrite IH. change (VAsset a) with (plain_elem (VAsset a)) at 1. rewrite pl_exts. reflexivity.
Qed.
Lemma pl_objects p l : forall i seen e, objects_validate (registry fuel) m' p i (map plain_object l) seen e = objects_validate (registry fuel) m p i l seen e.
Proof. induction l as [|a l IH]; intros i seen e; cbn [map objects_validate]; [reflexivity|]. rewrite IH, pl_object_validate. reflexivity. Qed.
Lemma pl_resources_validate p rs : resources_validate (registry fuel) m' p (plain_res rs) = resources_validate (registry fuel) m p rs.
Proof. unfold resources_validate. cbn [plain_res rs_assets rs_objects]. rewrite pl_assets. destruct (assets_validate _ _ _ _ _ _ _). apply pl_objects. Qed.
Lemma pl_sorted : sorted_childs m' = sorted_childs m.
Proof. unfold sorted_childs. cbn [plain mo_childs]. rewrite map_map. reflexivity. Qed.
Lemma pl_child_at p : child_at m' p = snd (plain_child (p, child_at m p)).
Proof. unfold child_at. rewrite pl_find_child. destruct (find_child m p); reflexivity. Qed.
Theorem pl_validate loaded : validate loaded (registry fuel) m' = validate loaded (registry fuel) m.
Proof.
  unfold validate. cbv zeta. rewrite pl_sorted, !pl_relationship, pl_build. change (path_or_default m') with (path_or_default m).
  change (mo_rootrels m') with (mo_rootrels m). change (mo_rels m') with (mo_rels m). change (mo_md m') with (mo_md m). change (mo_path m') with (mo_path m).
  change (mo_res m') with (plain_res (mo_res m)). change (validate_namespaces loaded m') with (validate_namespaces loaded m).
  unfold check_metadata. rewrite pl_metadata, pl_resources_validate. change (ext_validate (registry fuel) m' (mo_path m) VModel) with (fun e => ext_validate (registry fuel) m' (mo_path m) (plain_elem VModel) e). cbv beta. rewrite pl_exts.
  rewrite (fold_ext (fun errs path => if seq path (path_or_default m) then add errs (sent "ErrOPCDuplicatedModelName")
      else add errs (validate_relationship m' (ch_rels (child_at m' path)) path))
    (fun errs path => if seq path (path_or_default m) then add errs (sent "ErrOPCDuplicatedModelName")
      else add errs (validate_relationship m (ch_rels (child_at m path)) path))) by (intros e q; rewrite pl_child_at, pl_relationship; reflexivity).
  rewrite (fold_ext (fun errs path => match resources_validate (registry fuel) m' path (ch_res (child_at m' path)) with None => errs | Some _ => add errs (wrap_path (resources_validate (registry fuel) m' path (ch_res (child_at m' path))) "resources" path) end)
    (fun errs path => match resources_validate (registry fuel) m path (ch_res (child_at m path)) with None => errs | Some _ => add errs (wrap_path (resources_validate (registry fuel) m path (ch_res (child_at m path))) "resources" path) end))
    by (intros e q; rewrite pl_child_at; cbn [plain_child snd ch_res]; rewrite pl_resources_validate; reflexivity).
  reflexivity.
Qed.
End Plain.
(** ** Boxes *)
Lemma pl_comps_bbox m p rec rec' cs : (forall o, rec' (plain_object o) = rec o) -> forall b, comps_bbox (plain m) p rec' b (map plain_comp cs) = comps_bbox m p rec b cs.
Proof.
  intros H. induction cs as [|c cs IH]; intros b; cbn [map comps_bbox]; [reflexivity|]. rewrite pl_comp_path, pl_object. cbn [plain_comp co_oid co_tr].
  destruct (find_object m (comp_path c p) (co_oid c)) as [o|]; cbn [option_map]; [|apply IH]. rewrite H. destruct (rec o); [apply IH|reflexivity].
Qed.
Lemma pl_comps_of o : comps_of (plain_object o) = map plain_comp (comps_of o).
Proof. unfold comps_of. cbn [plain_object ob_comps]. destruct (ob_comps o); reflexivity. Qed.
Lemma pl_obj_bbox m p : forall fuel o, obj_bbox fuel (plain m) p (plain_object o) = obj_bbox fuel m p o.
Proof.
  induction fuel as [|f IH]; intros o; cbn [obj_bbox]; [reflexivity|]. rewrite pl_comps_of. cbn [plain_object ob_mesh]. destruct (ob_mesh o); [reflexivity|].
  pose proof (pl_comps_bbox m p _ _ (comps_of o) IH limit_box) as K. destruct (comps_of o); [reflexivity|exact K].
Qed.
Lemma pl_item_task m fuel it : item_task fuel (plain m) (plain_item it) = item_task fuel m it.
Proof.
  unfold item_task. rewrite pl_item_path, pl_object. cbn [plain_item it_oid it_tr]. destruct (find_object m _ _) as [o|]; cbn [option_map]; [rewrite pl_obj_bbox|]; reflexivity.
Qed.
Theorem pl_bbox m fuel r : model_bbox fuel (plain m) r <-> model_bbox fuel m r.
Proof.
  unfold model_bbox. change (bu_items (mo_build (plain m))) with (map plain_item (bu_items (mo_build m))).
  destruct (bu_items (mo_build m)) as [|it its]; [reflexivity|]. cbn [map]. rewrite map_map, pl_item_task, (map_ext _ _ (pl_item_task m fuel)). reflexivity.
Qed.
(** ** Coherency *)
Lemma pl_mapi w l : mapi (coherency_task w) (map plain_object l) = mapi (coherency_task w) l.
Proof.
  unfold mapi. generalize 0 at 1 2 as i. induction l as [|o l IH]; intros i; cbn; [reflexivity|]. rewrite IH. reflexivity.
Qed.
Lemma pl_tasks m cs : coherency_tasks (plain m) (map plain_child cs) = coherency_tasks m cs.
Proof.
  unfold coherency_tasks. cbn [plain mo_res plain_res rs_objects]. rewrite pl_mapi. f_equal.
  induction cs as [|[p c] cs IH]; cbn [map flat_map]; [reflexivity|]. rewrite IH. cbn [plain_child fst snd ch_res plain_res rs_objects]. rewrite pl_mapi. reflexivity.
Qed.
Theorem pl_coherency m r : model_coherency (plain m) r <-> model_coherency m r.
Proof.
  split; intros (cs & errs & P & O & ->).
  - change (mo_childs (plain m)) with (map plain_child (mo_childs m)) in P. apply Permutation_map_inv in P as (cs' & -> & P).
    exists cs', errs. split; [apply Permutation_sym, P|]. split; [|reflexivity]. rewrite <- pl_tasks. exact O.
  - exists (map plain_child cs), errs. split; [apply Permutation_map, P|]. split; [|reflexivity]. rewrite pl_tasks. exact O.
Qed.
