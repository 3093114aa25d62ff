(** * Bare models *)
From Coq Require Import ZArith Permutation.
From Verif Require Import GoBase GoNum GoUtf8 GoFloat GoStrconv Types XmlTypes M_Core M_Errors M_Geom M_Coherency
  S_Core S_Text S_Errors S_Attr S_Meaning S_Bare P_Core P_Renumber.
From Verif Require Import Types.
Local Open Scope list_scope.

(** ** Meanings for two sets of extensions *)
Section Two.
Context (k1 k2 : string -> bool) (l1 l2 : Ref -> string).
Lemma bare_metagroup ps e : bare_group (metadata_group_of k1 ps e) = bare_group (metadata_group_of k2 ps e).
Proof. reflexivity. Qed.
Lemma bare_the_group ps kids : bare_group (the_elem (cn "metadatagroup") kids (metadata_group_of k1 ps) mg_zero) = bare_group (the_elem (cn "metadatagroup") kids (metadata_group_of k2 ps) mg_zero).
Proof. unfold the_elem. destruct (elems (cn "metadatagroup") kids); reflexivity. Qed.
Lemma bare_item_of ps e : bare_item (item_of k1 ps e) = bare_item (item_of k2 ps e).
Proof. unfold bare_item, item_of. cbn [it_oid it_tr it_part it_md]. rewrite bare_the_group. reflexivity. Qed.
Lemma bare_mesh_of pid pindex e : bare_mesh (mesh_of k1 l1 pid pindex e) = bare_mesh (mesh_of k2 l2 pid pindex e).
Proof.
  unfold bare_mesh, mesh_of. cbv zeta. cbn [me_verts me_tris]. f_equal. induction (elems (cn "triangles") (snd e)) as [|x l IH]; [reflexivity|].
  cbn [flat_map]. rewrite !map_app, IH. f_equal. rewrite !map_map. apply map_ext. reflexivity.
Qed.
Lemma bare_components_of e : bare_components (components_of k1 e) = bare_components (components_of k2 e).
Proof. unfold bare_components, components_of. cbn [cs_list]. rewrite !map_map. reflexivity. Qed.
Lemma bare_object_of ps e : bare_object (object_of k1 l1 ps e) = bare_object (object_of k2 l2 ps e).
Proof.
  unfold bare_object, object_of. cbv zeta. cbn [ob_id ob_name ob_part ob_thumb ob_pid ob_pindex ob_type ob_md ob_mesh ob_comps]. rewrite bare_the_group. f_equal.
  - unfold the_elem. destruct (elems (cn "mesh") (snd e)); cbn [option_map]; [reflexivity|]. f_equal. apply bare_mesh_of.
  - unfold the_elem. destruct (elems (cn "components") (snd e)); cbn [option_map]; [reflexivity|]. f_equal. apply bare_components_of.
Qed.
Lemma bare_asset_of t : flat_map bare_asset (asset_of k1 l1 t) = flat_map bare_asset (asset_of k2 l2 t).
Proof.
  destruct t as [n a kids|]; [|reflexivity]. unfold asset_of. destruct (seq (nspace n) ns_core).
  - destruct (name_eqb n (cn "basematerials")); [|reflexivity]. unfold basematerials_of. cbn [flat_map bare_asset bs_id bs_mats app]. rewrite !map_map. reflexivity.
  - destruct (k1 (nspace n)), (k2 (nspace n)); try reflexivity; destruct (ext_of n a kids); reflexivity.
Qed.
Lemma bare_resources_of ps e : bare_resources (resources_of k1 l1 ps e) = bare_resources (resources_of k2 l2 ps e).
Proof.
  unfold bare_resources, resources_of. cbn [rs_assets rs_objects]. f_equal.
  - induction (snd e) as [|t l IH]; [reflexivity|]. cbn [flat_map]. rewrite !flat_map_app, IH, bare_asset_of. reflexivity.
  - rewrite !map_map. apply map_ext. intros x. apply bare_object_of.
Qed.
Lemma bare_the_resources ps kids : bare_resources (the_elem (cn "resources") kids (resources_of k1 l1 ps) res_zero) = bare_resources (the_elem (cn "resources") kids (resources_of k2 l2 ps) res_zero).
Proof. unfold the_elem. destruct (elems (cn "resources") kids); [reflexivity|apply bare_resources_of]. Qed.
Lemma bare_build_of ps e : map bare_item (bu_items (build_of k1 ps e)) = map bare_item (bu_items (build_of k2 ps e)).
Proof. unfold build_of. cbn [bu_items]. rewrite !map_map. apply map_ext. intros x. apply bare_item_of. Qed.
Lemma bare_model_of M a kids : bare (model_of k1 l1 M a kids) = bare (model_of k2 l2 M a kids).
Proof.
  unfold bare, model_of. cbv zeta. cbn [mo_path mo_lang mo_units mo_thumb mo_res mo_build mo_atts mo_exts mo_md mo_childs mo_rootrels mo_rels]. f_equal.
  - apply bare_the_resources.
  - f_equal. unfold the_elem. destruct (elems (cn "build") kids); [reflexivity|apply bare_build_of].
Qed.
Lemma bare_child_of M path kids : bare (child_of k1 l1 M path kids) = bare (child_of k2 l2 M path kids).
Proof.
  unfold bare, child_of. cbv zeta. cbn [mo_path mo_lang mo_units mo_thumb mo_res mo_build mo_atts mo_exts mo_md mo_childs mo_rootrels mo_rels]. f_equal.
  rewrite !map_map. apply map_ext. intros [k c]. cbn [fst snd]. destruct (seq k path); [|reflexivity]. unfold bare_part. cbn [fst snd ch_res ch_rels]. rewrite bare_the_resources. reflexivity.
Qed.
End Two.

(** ** Coherency and boxes of bare models *)
Lemma bare_mesh_coherency me : mesh_coherency (bare_mesh me) = mesh_coherency me.
Proof.
  unfold mesh_coherency. cbn [bare_mesh me_tris me_verts]. rewrite map_length.
  assert (E : flat_map face_pairs (map bare_triangle (me_tris me)) = flat_map face_pairs (me_tris me)).
  { induction (me_tris me) as [|t l IH]; cbn [map flat_map]; [reflexivity|]. rewrite IH. reflexivity. }
  rewrite E. reflexivity.
Qed.
Lemma bare_task w i o : coherency_task w i (bare_object o) = coherency_task w i o.
Proof.
  unfold coherency_task, is_solid. cbn [bare_object ob_mesh ob_type]. destruct (ob_mesh o) as [me|]; cbn [option_map]; [|reflexivity]. rewrite bare_mesh_coherency. reflexivity.
Qed.
Lemma bare_tasks_part w l : mapi (coherency_task w) (map bare_object l) = mapi (coherency_task w) l.
Proof. unfold mapi. generalize 0. induction l as [|o l IH]; intros i; cbn; [reflexivity|]. rewrite bare_task, IH. reflexivity. Qed.
Lemma bare_tasks m cs : coherency_tasks (bare m) (map bare_part cs) = coherency_tasks m cs.
Proof.
  unfold coherency_tasks. cbn [bare mo_res bare_resources rs_objects]. rewrite bare_tasks_part. f_equal.
  induction cs as [|[p c] cs IH]; cbn [map flat_map]; [reflexivity|]. rewrite IH. cbn [bare_part fst snd ch_res bare_resources rs_objects]. rewrite bare_tasks_part. reflexivity.
Qed.
Theorem bare_coherency m r : model_coherency (bare m) r <-> model_coherency m r.
Proof.
  split; intros (cs & errs & P & O & ->).
  - cbn [bare mo_childs] in P. apply Permutation_map_inv in P as (cs0 & -> & P). rewrite bare_tasks in O. exists cs0, errs. split; [apply Permutation_sym, P|auto].
  - exists (map bare_part cs), errs. split; [cbn [bare mo_childs]; apply Permutation_map, P|]. rewrite bare_tasks. auto.
Qed.
Lemma local_path l : (forall g, In g l -> names_part g = false) -> any_path l = "".
Proof.
  induction l as [|g l IH]; intros H; [reflexivity|]. pose proof (H g (or_introl eq_refl)) as G. specialize (IH (fun x h => H x (or_intror h))).
  destruct g; cbn in *; try exact IH; (destruct (String.eqb_spec path ""); [|discriminate G]; subst; cbn; exact IH).
Qed.
Section Boxes.
Context (m : Model) (L : Local m).
Lemma bare_find_obj id l : find_obj id (map bare_object l) = option_map bare_object (find_obj id l).
Proof. induction l as [|o l IH]; cbn; [reflexivity|]. destruct (ob_id o =? id)%N; [reflexivity|exact IH]. Qed.
Lemma find_obj_in id l o : find_obj id l = Some o -> In o l.
Proof. induction l as [|x l IH]; cbn; [discriminate|]. destruct (ob_id x =? id)%N; [intros [= ->]; auto|auto]. Qed.
Lemma bare_root id : find_object (bare m) "" id = option_map bare_object (find_object m "" id).
Proof. unfold find_object, find_resources. cbn. apply bare_find_obj. Qed.
Lemma bare_comps_bbox rec rec' cs : (forall o, In o (rs_objects (mo_res m)) -> rec' (bare_object o) = rec o) -> (forall c g, In c cs -> In g (co_any c) -> names_part g = false) ->
  forall b, comps_bbox (bare m) "" rec' b (map bare_component cs) = comps_bbox m "" rec b cs.
Proof.
  intros H LC. induction cs as [|c cs IH]; intros b; cbn [comps_bbox map]; [reflexivity|]. specialize (IH (fun x g h => LC x g (or_intror h))).
  assert (E1 : comp_path (bare_component c) "" = "") by reflexivity. assert (E2 : comp_path c "" = "") by (unfold comp_path; rewrite (local_path _ (fun g => LC c g (or_introl eq_refl))); reflexivity).
  rewrite E1, E2. cbn [bare_component co_oid co_tr]. rewrite bare_root. destruct (find_object m "" (co_oid c)) as [o|] eqn:F; cbn [option_map]; [|apply IH].
  unfold find_object, find_resources in F. cbn in F. apply find_obj_in in F. rewrite (H o F). destruct (rec o); [apply IH|reflexivity].
Qed.
Lemma bare_obj_bbox fuel : forall o, In o (rs_objects (mo_res m)) -> obj_bbox fuel (bare m) "" (bare_object o) = obj_bbox fuel m "" o.
Proof.
  induction fuel as [|f IH]; intros o Ho; cbn [obj_bbox]; [reflexivity|]. unfold comps_of. cbn [bare_object ob_mesh ob_comps].
  destruct (ob_mesh o) as [me|]; cbn [option_map]; [reflexivity|]. destruct (ob_comps o) as [cs|] eqn:C; cbn [option_map bare_components cs_list]; [|reflexivity].
  pose proof (bare_comps_bbox _ _ (cs_list cs) IH (fun c g => proj2 L o Ho cs c g C) limit_box) as K. destruct (cs_list cs); [reflexivity|exact K].
Qed.
Lemma bare_item_task fuel it : In it (bu_items (mo_build m)) -> item_task fuel (bare m) (bare_item it) = item_task fuel m it.
Proof.
  intros I. unfold item_task, item_path. cbn [bare_item it_any it_oid it_tr any_path]. rewrite (local_path _ (fun g => proj1 L it g I)), bare_root.
  destruct (find_object m "" (it_oid it)) as [o|] eqn:F; cbn [option_map]; [|reflexivity]. unfold find_object, find_resources in F. cbn in F. apply find_obj_in in F. rewrite (bare_obj_bbox fuel o F). reflexivity.
Qed.
Theorem bare_bbox fuel r : model_bbox fuel (bare m) r <-> model_bbox fuel m r.
Proof.
  unfold model_bbox. cbn [bare mo_build bu_items].
  assert (E : map (item_task fuel (bare m)) (map bare_item (bu_items (mo_build m))) = map (item_task fuel m) (bu_items (mo_build m))) by (rewrite map_map; apply map_ext_in; intros it; apply bare_item_task).
  revert E. destruct (bu_items (mo_build m)) as [|it its]; cbn [map]; [tauto|]. intros E. rewrite E. reflexivity.
Qed.
End Boxes.
