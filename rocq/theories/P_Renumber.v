(** * Validate and renumbered models *)
From Coq Require Import Lia Permutation.
From Verif Require Import GoBase GoFloat Types M_Core M_Errors M_Geom M_Validate M_ExtValidate M_Coherency S_Core S_Errors S_Geom S_Validate S_ExtValidate S_Renumber
  P_Core P_Errors P_Geom P_Validate.
From Verif Require Import Types.
Local Open Scope list_scope.

Lemma ref_part_path l : ref_part l = any_path l.
Proof. induction l as [|[] l IH]; cbn; rewrite ?IH; try reflexivity; destruct path; reflexivity. Qed.
Lemma loop_map {A B} (h : A -> B) f l : forall i e, loop f i (map h l) e = loop (fun i x => f i (h x)) i l e.
Proof. induction l as [|x l IH]; intros i e; cbn; [reflexivity|apply IH]. Qed.
Lemma loop_ext {A} (f g : nat -> A -> error -> error) l : (forall i x e, f i x e = g i x e) -> forall i e, loop f i l e = loop g i l e.
Proof. intros H. induction l as [|x l IH]; intros i e; cbn; [reflexivity|]. rewrite H. apply IH. Qed.

Section Renumber.
Context (m : Model) (F : string -> N -> N) (R : Renumbering m F).
Notation m' := (renumber F m).
Lemma ren_eqb p a b : (F p a =? F p b)%N = (a =? b)%N.
Proof. destruct (N.eqb_spec a b) as [->|N]; [apply N.eqb_refl|]. apply N.eqb_neq. intros E. apply N. exact (rn_inj _ _ R _ _ _ E). Qed.
Lemma ren_eqb0 p a : (F p a =? 0)%N = (a =? 0)%N.
Proof. rewrite <- (rn_zero _ _ R p) at 1. apply ren_eqb. Qed.
Lemma ren_asset_id p a : asset_id (ren_asset F (F p) a) = F p (asset_id a).
Proof. destruct a as [b|i ts|[]]; try reflexivity. cbn. symmetry. apply (rn_zero _ _ R). Qed.
Lemma ren_group_len p a : group_len (ren_asset F (F p) a) = group_len a.
Proof. destruct a as [b|i ts|[]]; reflexivity. Qed.
Lemma ren_local p a : asset_local (ren_asset F (F p) a) = asset_local a.
Proof. destruct a as [b|i ts|[]]; reflexivity. Qed.
Lemma ren_find_ast p id l : find_ast (F p id) (map (ren_asset F (F p)) l) = option_map (ren_asset F (F p)) (find_ast id l).
Proof. induction l as [|a l IH]; cbn [find_ast map]; [reflexivity|]. rewrite ren_asset_id, ren_eqb, IH. destruct (_ =? _)%N; reflexivity. Qed.
Lemma ren_find_obj p id l : find_obj (F p id) (map (ren_obj F (F p)) l) = option_map (ren_obj F (F p)) (find_obj id l).
Proof. induction l as [|a l IH]; cbn [find_obj map]; [reflexivity|]. cbn [ob_id ren_obj]. rewrite ren_eqb, IH. destruct (_ =? _)%N; reflexivity. Qed.
Lemma ren_child_at p : find_child m' p = option_map (fun c => snd (ren_part F (p, c))) (find_child m p).
Proof.
  unfold find_child. cbn [renumber mo_childs]. induction (mo_childs m) as [|[q c] l IH]; cbn [aget map ren_part fst snd]; [reflexivity|].
  destruct (seq_spec p q) as [->|N]; [reflexivity|exact IH].
Qed.
Lemma ren_resources p : find_resources m' p = option_map (ren_res F (F p)) (find_resources m p).
Proof.
  unfold find_resources. cbn [renumber mo_path mo_res].
  destruct (seq_spec p "") as [->|N1]; [reflexivity|]. cbn [orb].
  destruct (seq_spec p (mo_path m)) as [->|N2].
  { cbn [orb option_map]. rewrite <- (rn_root _ _ R). unfold root_path. destruct (seq_spec (mo_path m) ""); [contradiction|reflexivity]. }
  cbn [orb]. destruct (seq_spec (mo_path m) "") as [E|N3]; cbn [andb].
  - destruct (seq_spec p DefaultModelPath) as [->|N4].
    + cbn [option_map]. rewrite <- (rn_root _ _ R). unfold root_path. rewrite E. reflexivity.
    + rewrite ren_child_at. destruct (find_child m p); reflexivity.
  - rewrite ren_child_at. destruct (find_child m p); reflexivity.
Qed.
Lemma ren_object p id : find_object m' p (F p id) = option_map (ren_obj F (F p)) (find_object m p id).
Proof.
  unfold find_object. rewrite ren_resources. destruct (find_resources m p) as [rs|]; cbn [option_map]; [|reflexivity].
  unfold rs_find_object. cbn [ren_res rs_objects]. apply ren_find_obj.
Qed.
Lemma ren_res_asset p id : res_find_asset m' p (F p id) = option_map (ren_asset F (F p)) (res_find_asset m p id).
Proof.
  unfold res_find_asset. rewrite ren_resources. destruct (find_resources m p) as [rs|]; cbn [option_map]; [|reflexivity].
  unfold rs_find_asset. cbn [ren_res rs_assets]. apply ren_find_ast.
Qed.
Lemma ren_find_asset p id : find_asset m' p (F p id) = option_map (ren_asset F (F p)) (find_asset m p id).
Proof. exact (ren_res_asset p id). Qed.

(** ** Core *)
Lemma ren_metadata l : forall i names e, check_metadata_from m' i l names e = check_metadata_from m i l names e.
Proof. induction l as [|x l IH]; intros i names e; cbn [check_metadata_from]; [reflexivity|]. rewrite IH. reflexivity. Qed.
Lemma ren_rels l : forall i v t e, validate_rels_from m' i l v t e = validate_rels_from m i l v t e.
Proof.
  induction l as [|x l IH]; intros i v t e; cbn [validate_rels_from]; [reflexivity|]. cbn [renumber mo_atts].
  destruct (bad_part_name (rel_path x)), (seq (rel_type x) rel_print_ticket), (find_attachment (mo_atts m) (rel_path x)); apply IH.
Qed.
Lemma ren_relationship l p : validate_relationship m' l p = validate_relationship m l p.
Proof. unfold validate_relationship. rewrite ren_rels. reflexivity. Qed.
Lemma ren_item_validate it : item_validate m' (ren_item F it) = item_validate m it.
Proof.
  unfold item_validate, item_path. cbn [ren_item it_any it_oid it_md]. rewrite ren_eqb0, ref_part_path, ren_object. unfold check_metadata. rewrite ren_metadata.
  destruct (it_oid it =? 0)%N; [reflexivity|]. destruct (find_object m _ _); reflexivity.
Qed.
Lemma ren_build : build_validate m' (mo_build m') = build_validate m (mo_build m).
Proof.
  unfold build_validate. cbn [renumber mo_build bu_items]. rewrite loop_map. apply loop_ext. intros i it e. rewrite ren_item_validate. reflexivity.
Qed.
Lemma ren_triangle p o n i t e : triangle_validate m' p (ren_obj F (F p) o) n i (ren_tri (F p) t) e = triangle_validate m p o n i t e.
Proof.
  unfold triangle_validate. cbn [ren_tri t_v1 t_v2 t_v3 t_pid t_p1 t_p2 t_p3 ren_obj ob_pid ob_pindex]. rewrite ren_eqb0, ren_eqb, ren_res_asset.
  destruct (t_pid t =? 0)%N; [reflexivity|]. cbn [negb]. destruct (_ && _)%bool; [reflexivity|].
  destruct (res_find_asset m p (t_pid t)) as [a|]; cbn [option_map]; [rewrite ren_group_len|]; reflexivity.
Qed.
Lemma ren_mesh_validate p o me : mesh_validate m' p (ren_obj F (F p) o) (ren_mesh F (F p) me) = mesh_validate m p o me.
Proof.
  unfold mesh_validate. cbn [ren_mesh me_verts me_tris me_ext ren_obj ob_type]. rewrite map_length, loop_map.
  destruct (me_ext me); cbn [map]; apply loop_ext; intros i t e; exact (ren_triangle p o _ i t e).
Qed.
Lemma ren_comp_path p c : comp_path (ren_comp F (F p) c) p = comp_path c p.
Proof. reflexivity. Qed.
Lemma ren_comp_oid p c : co_oid (ren_comp F (F p) c) = F (comp_path c p) (co_oid c).
Proof. unfold ren_comp, comp_path. cbn [co_oid]. rewrite ref_part_path. cbv zeta. destruct (any_path (co_any c)); reflexivity. Qed.
Lemma ren_components p o cs : components_validate m' p (ren_obj F (F p) o) (map (ren_comp F (F p)) cs) = components_validate m p o cs.
Proof.
  unfold components_validate. cbv zeta. rewrite loop_map.
  match goal with |- match loop ?f ?i ?l ?e with _ => _ end = match loop ?g _ _ _ with _ => _ end => rewrite (loop_ext f g l); [reflexivity|] end.
  intros i c e. rewrite ren_comp_oid, ren_eqb0, ren_comp_path, ren_object. destruct (co_oid c =? 0)%N; [reflexivity|].
  destruct (find_object m (comp_path c p) (co_oid c)) as [r|]; cbn [option_map ren_obj ob_id]; [|reflexivity].
  destruct (seq_spec (comp_path c p) p) as [->|N]; [rewrite ren_eqb; reflexivity|]. rewrite !andb_false_r. reflexivity.
Qed.

(** ** Extensions *)
Definition ren_velem p (el : VElem) : VElem :=
  match el with VModel => VModel | VAsset a => VAsset (ren_asset F (F p) a) | VObject o => VObject (ren_obj F (F p) o) end.
Lemma ren_multi_pids p l : forall j colors undef e, multi_pids m' p j (map (F p) l) colors undef e = multi_pids m p j l colors undef e.
Proof.
  induction l as [|x l IH]; intros j colors undef e; cbn [multi_pids map]; [reflexivity|]. rewrite ren_find_asset.
  destruct (find_asset m p x) as [[b|i ts|[]]|]; cbn [option_map ren_asset ren_ext bs_mats cm_comps cg_colors]; rewrite IH; reflexivity.
Qed.
Lemma ren_is_nil {A B} (f : A -> B) l : is_nil (map f l) = is_nil l.
Proof. destruct l; reflexivity. Qed.
Lemma ren_materials p el : materials_validate m' p (ren_velem p el) = materials_validate m p el.
Proof.
  destruct el as [|[b|i ts|[t|g|g|g|g|s|b]]|o]; cbn [materials_validate ren_velem ren_asset ren_ext]; try reflexivity.
  - unfold texture_validate. cbn [tx_id tx_path tx_ctype]. rewrite ren_eqb0. reflexivity.
  - unfold tex_group_validate. cbn [tg_id tg_tex tg_coords]. rewrite !ren_eqb0, ren_find_asset. destruct (tg_tex g =? 0)%N; [reflexivity|].
    destruct (find_asset m p (tg_tex g)) as [[b|i ts|[]]|]; reflexivity.
  - unfold color_group_validate. cbn [cg_id cg_colors]. rewrite ren_eqb0. reflexivity.
  - unfold composite_validate. cbn [cm_id cm_mat cm_indices cm_comps]. rewrite !ren_eqb0, ren_find_asset. destruct (cm_mat g =? 0)%N; [reflexivity|].
    destruct (find_asset m p (cm_mat g)) as [[b|i ts|[]]|]; reflexivity.
  - unfold multi_validate. cbn [mp_id mp_pids mp_blend mp_multis]. rewrite ren_eqb0, ren_is_nil, map_length, ren_multi_pids. reflexivity.
Qed.
Lemma ren_get_lattice p l : get_lattice (map (ren_elem F (F p)) l) = option_map (ren_lattice (F p)) (get_lattice l).
Proof. induction l as [|[ts|[]] l IH]; cbn; try exact IH; reflexivity. Qed.
Lemma ren_ref_loop p l a b : ref_mesh_loop (map (ren_obj F (F p)) l) (F p a) (F p b) = ref_mesh_loop l a b.
Proof.
  induction l as [|o l IH]; cbn [ref_mesh_loop map]; [reflexivity|]. cbn [ren_obj ob_id ob_mesh ob_type]. rewrite !ren_eqb, IH.
  destruct (ob_id o =? b)%N; [reflexivity|]. destruct (ob_id o =? a)%N; [|reflexivity]. destruct (ob_mesh o) as [me|]; cbn [option_map ren_mesh me_ext]; [|reflexivity].
  rewrite ren_get_lattice. destruct (get_lattice (me_ext me)); reflexivity.
Qed.
Lemma ren_ref_mesh p a b : ref_mesh_validate m' p (F p a) (F p b) = ref_mesh_validate m p a b.
Proof.
  unfold ref_mesh_validate. rewrite ren_eqb, ren_resources. destruct (a =? b)%N; [reflexivity|]. destruct (find_resources m p) as [rs|]; cbn [option_map]; [|reflexivity].
  apply ren_ref_loop.
Qed.
Lemma ren_beams p el : beamlattice_validate m' p (ren_velem p el) = beamlattice_validate m p el.
Proof.
  destruct el as [|a|o]; cbn [beamlattice_validate ren_velem]; try reflexivity. unfold lattice_validate. cbn [ren_obj ob_mesh ob_type ob_id].
  destruct (ob_mesh o) as [me|]; cbn [option_map ren_mesh me_ext me_verts]; [|reflexivity]. rewrite ren_get_lattice.
  destruct (get_lattice (me_ext me)) as [bl|]; cbn [option_map]; [|reflexivity].
  cbn [ren_lattice bl_minlen bl_radius bl_clip bl_clipmesh bl_repmesh bl_beams bl_sets]. rewrite !ren_eqb0, !ren_ref_mesh. reflexivity.
Qed.
Lemma ren_object_attr p l : get_object_attr (map (ren_group (F p)) l) = get_object_attr l.
Proof. induction l as [|[] l IH]; cbn; try exact IH; reflexivity. Qed.
Lemma ren_production p el : production_validate m' p (ren_velem p el) = production_validate m p el.
Proof.
  destruct el as [|a|o]; cbn [production_validate ren_velem]; try reflexivity.
  - unfold prod_model_validate. cbn [renumber mo_build bu_any bu_items]. rewrite loop_map. reflexivity.
  - unfold prod_object_validate. cbn [ren_obj ob_any ob_comps]. rewrite ren_object_attr. destruct (ob_comps o) as [cs|]; cbn [option_map ren_comps cs_list]; [|reflexivity].
    rewrite loop_map. reflexivity.
Qed.
(** Slices: one renumbering for all parts *)
Section Slices.
Context (C : forall p, F p = F "").
Lemma ren_slice_attr p l : get_slice_attr (map (ren_group (F p)) l) = option_map (fun x => (F p (fst x), snd x)) (get_slice_attr l).
Proof. induction l as [|[] l IH]; cbn; try exact IH; reflexivity. Qed.
Lemma ren_comps_transforms p id rec rec' oid cs : (forall o, rec' (ren_obj F (F "") o) = rec o) ->
  comps_transforms m' p (F "" id) rec' (F "" oid) (map (ren_comp F (F "")) cs) = comps_transforms m p id rec oid cs.
Proof.
  intros H. induction cs as [|c cs IH]; cbn [comps_transforms map]; [reflexivity|]. cbv zeta.
  assert (E : co_oid (ren_comp F (F "") c) = F "" (co_oid c)) by (unfold ren_comp; cbn [co_oid]; destruct (ref_part (co_any c)) as [|x y]; [reflexivity|rewrite (C (String x y)); reflexivity]).
  assert (P : comp_path (ren_comp F (F "") c) p = comp_path c p) by reflexivity.
  rewrite E, P, !ren_eqb, IH. cbn [ren_comp co_tr]. rewrite <- (C (comp_path c p)), ren_object.
  destruct ((co_oid c =? id)%N && seq (comp_path c p) p && has_transform (co_tr c) && negb (valid_transform (co_tr c))); [reflexivity|].
  destruct ((co_oid c =? oid)%N && seq (comp_path c p) p); [reflexivity|].
  destruct (find_object m (comp_path c p) (co_oid c)) as [o|]; cbn [option_map]; [|reflexivity]. rewrite (C (comp_path c p)), H. reflexivity.
Qed.
Lemma ren_obj_transforms fuel p id o : obj_transforms fuel m' p (F "" id) (ren_obj F (F "") o) = obj_transforms fuel m p id o.
Proof.
  revert o. induction fuel as [|f IH]; intros o; cbn [obj_transforms]; [reflexivity|]. cbn [ren_obj ob_comps ob_id].
  destruct (ob_comps o) as [cs|]; cbn [option_map ren_comps cs_list]; [|reflexivity]. apply ren_comps_transforms, IH.
Qed.
Lemma ren_items_transforms fuel p id its : items_transforms fuel m' p (F "" id) (map (ren_item F) its) = items_transforms fuel m p id its.
Proof.
  induction its as [|it its IH]; cbn [items_transforms map]; [reflexivity|]. unfold item_path. cbn [ren_item it_any it_oid it_tr]. cbv zeta. rewrite IH.
  set (tp := if seq (any_path (it_any it)) "" then p else any_path (it_any it)). rewrite (C (ref_part (it_any it))), ren_eqb.
  destruct ((it_oid it =? id)%N && seq tp p && has_transform (it_tr it) && negb (valid_transform (it_tr it))); [reflexivity|].
  rewrite <- (C tp), ren_object. destruct (find_object m tp (it_oid it)) as [o|]; cbn [option_map]; [|reflexivity]. rewrite (C tp), ren_obj_transforms. reflexivity.
Qed.
Lemma ren_closed f s : stack_closed (ren_stack F f s) = stack_closed s.
Proof.
  unfold stack_closed. cbn [ren_stack ss_slices]. induction (ss_slices s) as [|sl l IH]; cbn [map forallb]; [reflexivity|]. rewrite IH. f_equal.
  cbn [ren_slice sl_polys]. induction (sl_polys sl) as [|q r IH']; cbn [map forallb]; [reflexivity|]. rewrite IH'. f_equal.
  unfold polygon_closed. cbn [ren_poly pg_segs pg_start]. rewrite <- map_rev. destruct (rev (pg_segs q)); reflexivity.
Qed.
Lemma ren_all_closed f s : all_closed m' (ren_stack F f s) = all_closed m s.
Proof.
  unfold all_closed. rewrite ren_closed. f_equal. cbn [ren_stack ss_refs]. induction (ss_refs s) as [|r l IH]; cbn [map forallb]; [reflexivity|]. rewrite IH. f_equal.
  cbn [ren_sref sr_path sr_id]. rewrite ren_find_asset. destruct (find_asset m (sr_path r) (sr_id r)) as [[b|i ts|[]]|]; cbn [option_map ren_asset ren_ext]; try reflexivity. apply ren_closed.
Qed.
Lemma ren_slice_object fuel p o : slice_object_validate fuel m' p (ren_obj F (F p) o) = slice_object_validate fuel m p o.
Proof.
  unfold slice_object_validate. cbn [ren_obj ob_any ob_id ob_type]. rewrite ren_slice_attr. destruct (get_slice_attr (ob_any o)) as [[sid res]|]; cbn [option_map fst snd]; [|reflexivity].
  cbv zeta. rewrite ren_eqb0, ren_res_asset. destruct (sid =? 0)%N; [reflexivity|].
  destruct (res_find_asset m p sid) as [[b|i ts|[]]|]; cbn [option_map ren_asset ren_ext]; try reflexivity.
  rewrite ren_all_closed. cbn [renumber mo_build bu_items]. rewrite (C p), ren_items_transforms. reflexivity.
Qed.
Lemma ren_slices_loop f bottom l : forall j last e, slices_loop bottom j (map (ren_slice f) l) last e = slices_loop bottom j l last e.
Proof.
  induction l as [|s l IH]; intros j last e; cbn [slices_loop map]; [reflexivity|]. cbn [ren_slice sl_top sl_verts sl_polys]. rewrite IH, ren_is_nil, loop_map.
  match goal with |- context [loop ?f 0 (sl_polys s) None] => rewrite (loop_ext f (fun k p perrs => add_if (is_nil (pg_segs p)) perrs (at_index (sent "ErrSliceInsufficientSegments") "polygon" k)) (sl_polys s)); [reflexivity|] end.
  intros i q e'. cbn [ren_poly pg_segs]. rewrite ren_is_nil. reflexivity.
Qed.
Lemma ren_refs_loop p l : forall i z e, refs_loop m' p i (map (ren_sref F) l) z e = refs_loop m p i l z e.
Proof.
  induction l as [|r l IH]; intros i z e; cbn [refs_loop map]; [reflexivity|]. cbn [ren_sref sr_path sr_id]. rewrite ren_eqb0, ren_find_asset.
  destruct (seq (sr_path r) ""); [|destruct (seq (sr_path r) p)]; destruct (sr_id r =? 0)%N; cbn [negb]; try apply IH.
  destruct (find_asset m (sr_path r) (sr_id r)) as [[b|k ts|[]]|]; cbn [option_map ren_asset ren_ext]; try apply IH.
  cbn [ren_stack ss_refs ss_slices]. rewrite ren_is_nil, <- map_rev. destruct (ss_slices s) as [|s0 r0] eqn:E; cbn [map]; destruct (rev _) as [|s1 r1]; cbn [map ren_slice sl_top]; apply IH.
Qed.
Lemma ren_slices fuel p el : slices_validate fuel m' p (ren_velem p el) = slices_validate fuel m p el.
Proof.
  destruct el as [|[b|i ts|[]]|o]; cbn [slices_validate ren_velem ren_asset ren_ext]; try reflexivity; [|apply ren_slice_object].
  unfold slice_stack_validate. cbn [ren_stack ss_slices ss_refs ss_bottom]. rewrite !ren_is_nil, ren_refs_loop, ren_slices_loop. reflexivity.
Qed.
End Slices.

(** ** All *)
Context (fuel : nat) (C : In slice_ns (map ex_ns (mo_exts m)) -> forall p, F p = F "").
Lemma ren_exts p el e : ext_validate (registry fuel) m' p (ren_velem p el) e = ext_validate (registry fuel) m p el e.
Proof.
  unfold ext_validate. cbn [renumber mo_exts]. revert e.
  assert (K : incl (mo_exts m) (mo_exts m)) by apply incl_refl. revert K. generalize (mo_exts m) at 1 3 4.
  induction l as [|x l IH]; intros K e; cbn [fold_left]; [reflexivity|]. rewrite <- IH by (intros y Y; apply K; right; exact Y). f_equal.
  unfold registry. destruct (seq (ex_ns x) M_ExtValidate.ns_materials); [rewrite ren_materials; reflexivity|].
  destruct (seq (ex_ns x) M_ExtValidate.ns_beamlattice); [rewrite ren_beams; reflexivity|].
  destruct (seq_spec (ex_ns x) M_ExtValidate.ns_slices) as [E|N].
  - rewrite ren_slices; [reflexivity|]. apply C, in_map_iff. exists x. split; [exact E|apply K; left; reflexivity].
  - destruct (seq (ex_ns x) M_ExtValidate.ns_production); [rewrite ren_production; reflexivity|reflexivity].
Qed.
Lemma ren_object_validate p o : object_validate (registry fuel) m' p (ren_obj F (F p) o) = object_validate (registry fuel) m p o.
Proof.
  unfold object_validate. cbv zeta. change (VObject (ren_obj F (F p) o)) with (ren_velem p (VObject o)). rewrite ren_exts. f_equal.
  cbn [ren_obj ob_id ob_pindex ob_pid ob_mesh ob_comps]. rewrite !ren_eqb0, ren_res_asset.
  assert (M : match option_map (ren_mesh F (F p)) (ob_mesh o), option_map (ren_comps F (F p)) (ob_comps o) with Some _, Some _ | None, None => true | _, _ => false end =
    match ob_mesh o, ob_comps o with Some _, Some _ | None, None => true | _, _ => false end) by (destruct (ob_mesh o), (ob_comps o); reflexivity).
  rewrite M. destruct (res_find_asset m p (ob_pid o)) as [a|] eqn:E; cbn [option_map]; rewrite ?ren_group_len.
  all: destruct (ob_comps o) as [cs|]; cbn [option_map ren_comps cs_list].
  all: destruct (ob_mesh o) as [me|]; cbn [option_map].
  all: try (pose proof (ren_mesh_validate p o me) as Me; change (mesh_validate m' p _ (ren_mesh F (F p) me)) with (mesh_validate m' p (ren_obj F (F p) o) (ren_mesh F (F p) me)); rewrite Me; clear Me).
  all: try reflexivity.
  all: pose proof (ren_components p o (cs_list cs)) as Co; revert Co; destruct (cs_list cs) as [|c r]; cbn [map]; [reflexivity|];
    intros Co; match type of Co with ?a = _ => match goal with |- add ?x ?y = _ => change y with a end end; rewrite Co; reflexivity.
Qed.
Lemma ren_base p b : base_validate (mkBM (F p (bs_id b)) (bs_mats b) (bs_any b)) = base_validate b.
Proof. unfold base_validate. cbn [bs_id bs_mats]. rewrite ren_eqb0. reflexivity. Qed.
Lemma ren_seen p x seen : existsb (N.eqb (F p x)) (map (F p) seen) = existsb (N.eqb x) seen.
Proof. induction seen as [|y l IH]; cbn; [reflexivity|]. rewrite ren_eqb, IH. reflexivity. Qed.
Lemma ren_assets p l : forall i seen e,
  assets_validate (registry fuel) m' p i (map (ren_asset F (F p)) l) (map (F p) seen) e =
  (fst (assets_validate (registry fuel) m p i l seen e), map (F p) (snd (assets_validate (registry fuel) m p i l seen e))).
Proof.
  induction l as [|a l IH]; intros i seen e; cbn [assets_validate map]; [reflexivity|]. cbv zeta. rewrite ren_asset_id, ren_eqb0, ren_seen, ren_local.
  change (VAsset (ren_asset F (F p) a)) with (ren_velem p (VAsset a)). rewrite ren_exts. change (F p (asset_id a) :: map (F p) seen) with (map (F p) (asset_id a :: seen)).
  rewrite IH. destruct a as [b|k ts|x]; cbn [ren_asset]; rewrite ?ren_base; reflexivity.
Qed.
Lemma ren_objects p l : forall i seen e,
  objects_validate (registry fuel) m' p i (map (ren_obj F (F p)) l) (map (F p) seen) e = objects_validate (registry fuel) m p i l seen e.
Proof.
  induction l as [|o l IH]; intros i seen e; cbn [objects_validate map]; [reflexivity|]. cbv zeta. rewrite ren_object_validate.
  change (ob_id (ren_obj F (F p) o)) with (F p (ob_id o)). rewrite ren_eqb0, ren_seen. change (F p (ob_id o) :: map (F p) seen) with (map (F p) (ob_id o :: seen)). apply IH.
Qed.
Lemma ren_resources_validate p rs : resources_validate (registry fuel) m' p (ren_res F (F p) rs) = resources_validate (registry fuel) m p rs.
Proof.
  unfold resources_validate. cbn [ren_res rs_assets rs_objects]. pose proof (ren_assets p (rs_assets rs) 0 [] None) as As. cbn [map] in As. rewrite As.
  destruct (assets_validate (registry fuel) m p 0 (rs_assets rs) [] None) as [e seen]. cbn [fst snd]. apply ren_objects.
Qed.
Lemma ren_sorted : sorted_childs m' = sorted_childs m.
Proof. unfold sorted_childs. cbn [renumber mo_childs]. rewrite map_map. f_equal. Qed.
Lemma ren_child p : child_at m' p = snd (ren_part F (p, child_at m p)).
Proof. unfold child_at. rewrite ren_child_at. destruct (find_child m p); reflexivity. Qed.
Lemma fold_ext {A B} (f g : A -> B -> A) l : (forall a b, f a b = g a b) -> forall a, fold_left f l a = fold_left g l a.
Proof. intros H. induction l as [|x l IH]; intros a; cbn; [reflexivity|]. rewrite H. apply IH. Qed.
Theorem ren_validate loaded : validate loaded (registry fuel) m' = validate loaded (registry fuel) m.
Proof.
  unfold validate. cbv zeta. rewrite ren_sorted, !ren_relationship.
  change (mo_rootrels m') with (mo_rootrels m). change (mo_rels m') with (mo_rels m). change (mo_md m') with (mo_md m). change (mo_path m') with (mo_path m).
  change (path_or_default m') with (path_or_default m). change (validate_namespaces loaded m') with (validate_namespaces loaded m).
  unfold check_metadata. rewrite ren_metadata, ren_build. change (mo_res m') with (ren_res F (F "") (mo_res m)). rewrite <- (rn_root _ _ R).
  change (root_path m) with (path_or_default m). rewrite ren_resources_validate.
  rewrite (fold_ext (fun errs path => if seq path (path_or_default m) then add errs (sent "ErrOPCDuplicatedModelName")
      else add errs (validate_relationship m' (ch_rels (child_at m' path)) path))
    (fun errs path => if seq path (path_or_default m) then add errs (sent "ErrOPCDuplicatedModelName")
      else add errs (validate_relationship m (ch_rels (child_at m path)) path))) by (intros e q; rewrite ren_child, ren_relationship; reflexivity).
  assert (X : forall e, ext_validate (registry fuel) m' (mo_path m) VModel e = ext_validate (registry fuel) m (mo_path m) VModel e)
    by (intros e; exact (ren_exts (mo_path m) VModel e)).
  rewrite X.
  rewrite (fold_ext (fun errs path => match resources_validate (registry fuel) m' path (ch_res (child_at m' path)) with None => errs | Some _ => add errs (wrap_path (resources_validate (registry fuel) m' path (ch_res (child_at m' path))) "resources" path) end)
    (fun errs path => match resources_validate (registry fuel) m path (ch_res (child_at m path)) with None => errs | Some _ => add errs (wrap_path (resources_validate (registry fuel) m path (ch_res (child_at m path))) "resources" path) end))
    by (intros e q; rewrite ren_child; cbn [ren_part fst snd ch_res]; rewrite ren_resources_validate; reflexivity).
  reflexivity.
Qed.
End Renumber.

(** ** Boxes and coherency *)
Section Boxes.
Context (m : Model) (F : string -> N -> N) (R : Renumbering m F) (C : forall p, F p = F "").
Notation m' := (renumber F m).
Lemma ren_comps_bbox p rec rec' cs : (forall o, rec' (ren_obj F (F "") o) = rec o) ->
  forall b, comps_bbox m' p rec' b (map (ren_comp F (F "")) cs) = comps_bbox m p rec b cs.
Proof.
  intros H. induction cs as [|c cs IH]; intros b; cbn [comps_bbox map]; [reflexivity|].
  assert (E : co_oid (ren_comp F (F "") c) = F (comp_path c p) (co_oid c)) by (rewrite (C (comp_path c p)); unfold ren_comp; cbn [co_oid]; destruct (ref_part (co_any c)) as [|x y]; [reflexivity|rewrite (C (String x y)); reflexivity]).
  assert (P : comp_path (ren_comp F (F "") c) p = comp_path c p) by reflexivity.
  rewrite E, P, (ren_object m F R). destruct (find_object m (comp_path c p) (co_oid c)) as [o|]; cbn [option_map]; [|apply IH].
  rewrite (C (comp_path c p)), H. destruct (rec o) as [cb|]; [|reflexivity]. apply IH.
Qed.
Lemma ren_obj_bbox fuel p o : obj_bbox fuel m' p (ren_obj F (F "") o) = obj_bbox fuel m p o.
Proof.
  revert o. induction fuel as [|f IH]; intros o; cbn [obj_bbox]; [reflexivity|]. unfold comps_of. cbn [ren_obj ob_mesh ob_comps].
  destruct (ob_mesh o) as [me|]; cbn [option_map]; [reflexivity|]. destruct (ob_comps o) as [cs|]; cbn [option_map ren_comps cs_list]; [|reflexivity].
  pose proof (ren_comps_bbox p _ _ (cs_list cs) IH limit_box) as K. destruct (cs_list cs); [reflexivity|exact K].
Qed.
Lemma ren_item_task fuel it : item_task fuel m' (ren_item F it) = item_task fuel m it.
Proof.
  unfold item_task, item_path. cbn [ren_item it_any it_oid it_tr]. rewrite ref_part_path, (ren_object m F R).
  destruct (find_object m (any_path (it_any it)) (it_oid it)) as [o|]; cbn [option_map]; [|reflexivity]. rewrite (C (any_path (it_any it))), ren_obj_bbox. reflexivity.
Qed.
Theorem ren_bbox fuel r : model_bbox fuel m' r <-> model_bbox fuel m r.
Proof.
  unfold model_bbox. cbn [renumber mo_build bu_items]. 
  assert (E : map (item_task fuel m') (map (ren_item F) (bu_items (mo_build m))) = map (item_task fuel m) (bu_items (mo_build m))) by (rewrite map_map; apply map_ext; intros it; apply ren_item_task).
  revert E. destruct (bu_items (mo_build m)) as [|it its]; cbn [map]; [tauto|]. intros E. rewrite E. reflexivity.
Qed.
End Boxes.
Section Coherency.
Context (m : Model) (F : string -> N -> N).
Lemma ren_tris_coherency f me : mesh_coherency (ren_mesh F f me) = mesh_coherency me.
Proof.
  unfold mesh_coherency. cbn [ren_mesh me_tris me_verts]. rewrite map_length.
  assert (E : flat_map face_pairs (map (ren_tri f) (me_tris me)) = flat_map face_pairs (me_tris me)).
  { induction (me_tris me) as [|t l IH]; cbn [map flat_map]; [reflexivity|]. rewrite IH. reflexivity. }
  rewrite E. reflexivity.
Qed.
Lemma ren_task w i f o : coherency_task w i (ren_obj F f o) = coherency_task w i o.
Proof.
  unfold coherency_task, is_solid. cbn [ren_obj ob_mesh ob_type]. destruct (ob_mesh o) as [me|]; cbn [option_map]; [|reflexivity]. rewrite ren_tris_coherency. reflexivity.
Qed.
Lemma ren_tasks_part w f l : mapi (coherency_task w) (map (ren_obj F f) l) = mapi (coherency_task w) l.
Proof.
  unfold mapi. generalize 0. induction l as [|o l IH]; intros i; cbn; [reflexivity|]. rewrite ren_task, IH. reflexivity.
Qed.
Lemma ren_tasks cs : coherency_tasks (renumber F m) (map (ren_part F) cs) = coherency_tasks m cs.
Proof.
  unfold coherency_tasks. cbn [renumber mo_res ren_res rs_objects]. rewrite ren_tasks_part. f_equal.
  induction cs as [|[p c] cs IH]; cbn [map flat_map]; [reflexivity|]. rewrite IH. cbn [ren_part fst snd ch_res ren_res rs_objects]. rewrite ren_tasks_part. reflexivity.
Qed.
Theorem ren_coherency r : model_coherency (renumber F m) r <-> model_coherency m r.
Proof.
  split; intros (cs & errs & P & O & ->).
  - cbn [renumber mo_childs] in P. apply Permutation_map_inv in P as (cs0 & -> & P). rewrite ren_tasks in O. exists cs0, errs. split; [apply Permutation_sym, P|auto].
  - exists (map (ren_part F) cs), errs. split; [cbn [renumber mo_childs]; apply Permutation_map, P|]. rewrite ren_tasks. auto.
Qed.
End Coherency.
