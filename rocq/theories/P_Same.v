(** * Checks of models that differ in nothing a check looks at *)
From Coq Require Import Lia Permutation.
From Verif Require Import GoBase GoFloat Types M_Core M_Errors M_Geom M_Validate M_ExtValidate M_Coherency S_Core S_Errors S_Geom S_Validate S_ExtValidate S_Same
  P_Core P_Errors P_Geom P_Validate P_Renumber.
From Verif Require Import Types.
Local Open Scope list_scope.

Section Same.
Context (m m' : Model) (Ok : NoDup (map fst (mo_childs m))) (S : Same m m').
Lemma sa_keys : Permutation (map fst (mo_childs m')) (map fst (mo_childs m)).
Proof.
  pose proof (Permutation_map fst (sm_childs _ _ S)) as P. rewrite !map_map in P. exact P.
Qed.
Lemma sa_ok : NoDup (map fst (mo_childs m')).
Proof. eapply Permutation_NoDup; [apply Permutation_sym, sa_keys|exact Ok]. Qed.
Lemma sa_sorted : sorted_childs m' = sorted_childs m.
Proof. unfold sorted_childs. apply (isort_perm_eq _ sleb_total sleb_trans sleb_antisym), sa_keys. Qed.
Definition child_seen (c : Child) : Resources * list Relationship := (ch_res c, ch_rels c).
Lemma sa_find p : option_map child_seen (find_child m' p) = option_map child_seen (find_child m p).
Proof.
  unfold find_child. destruct (aget seq p (mo_childs m)) as [c|] eqn:E.
  - apply aget_in in E. apply (in_map part_seen) in E. apply (Permutation_in _ (Permutation_sym (sm_childs _ _ S))) in E.
    apply in_map_iff in E as ([q c'] & E & I). unfold part_seen in E. cbn in E. injection E as -> E1 E2.
    rewrite (in_aget _ _ _ sa_ok I). cbn. unfold child_seen. congruence.
  - destruct (aget seq p (mo_childs m')) as [c|] eqn:E'; [|reflexivity]. exfalso.
    apply aget_in in E'. apply (in_map fst) in E'. apply (Permutation_in _ sa_keys) in E'. apply in_map_iff in E' as ([q c'] & Q & I). cbn in Q. subst q.
    apply (in_aget _ _ _ Ok) in I. congruence.
Qed.
Lemma sa_resources p : find_resources m' p = find_resources m p.
Proof.
  unfold find_resources. rewrite (sm_path _ _ S), (sm_res _ _ S). destruct (_ || _); [reflexivity|]. pose proof (sa_find p) as H.
  destruct (find_child m' p), (find_child m p); cbn in H; try discriminate; [|reflexivity]. injection H as -> _. reflexivity.
Qed.
Lemma sa_child p : ch_res (child_at m' p) = ch_res (child_at m p) /\ ch_rels (child_at m' p) = ch_rels (child_at m p).
Proof.
  unfold child_at. pose proof (sa_find p) as H. destruct (find_child m' p), (find_child m p); cbn in H; try discriminate; [|auto]. injection H as -> ->. auto.
Qed.
Lemma sa_object p id : find_object m' p id = find_object m p id.
Proof. unfold find_object. rewrite sa_resources. reflexivity. Qed.
Lemma sa_asset p id : find_asset m' p id = find_asset m p id.
Proof. unfold find_asset. rewrite sa_resources. reflexivity. Qed.
Lemma sa_res_asset p id : res_find_asset m' p id = res_find_asset m p id.
Proof. unfold res_find_asset. rewrite sa_resources. reflexivity. Qed.
Lemma sa_root : path_or_default m' = path_or_default m.
Proof. unfold path_or_default. rewrite (sm_path _ _ S). reflexivity. Qed.
Lemma existsb_seen {A B} (k : A -> B) (f : A -> bool) (g : B -> bool) l : (forall x, f x = g (k x)) -> existsb f l = existsb g (map k l).
Proof. intros H. induction l as [|x l IH]; cbn; [reflexivity|]. rewrite H, IH. reflexivity. Qed.
Lemma sa_metadata_one x : metadata_validate m' x = metadata_validate m x.
Proof.
  unfold metadata_validate. rewrite !(existsb_seen ext_seen (fun ext => seq (ex_ns ext) (nspace (md_name x))) (fun e => seq (fst e) (nspace (md_name x)))) by reflexivity.
  rewrite (sm_exts _ _ S). reflexivity.
Qed.
Lemma sa_metadata l : forall i names e, check_metadata_from m' i l names e = check_metadata_from m i l names e.
Proof. induction l as [|x l IH]; intros i names e; cbn [check_metadata_from]; [reflexivity|]. rewrite IH, sa_metadata_one. reflexivity. Qed.
Lemma attachment_seen p : forall l, option_map att_seen (find_attachment l p) = find (fun a => eq_fold (fst a) p) (map att_seen l).
Proof. induction l as [|a l IH]; cbn; [reflexivity|]. destruct (eq_fold (at_path a) p); [reflexivity|exact IH]. Qed.
Lemma sa_attachment p : option_map att_seen (find_attachment (mo_atts m') p) = option_map att_seen (find_attachment (mo_atts m) p).
Proof. rewrite !attachment_seen, (sm_atts _ _ S). reflexivity. Qed.
Lemma sa_rels l : forall i v t e, validate_rels_from m' i l v t e = validate_rels_from m i l v t e.
Proof.
  induction l as [|x l IH]; intros i v t e; cbn [validate_rels_from]; [reflexivity|]. pose proof (sa_attachment (rel_path x)) as A.
  destruct (find_attachment (mo_atts m') (rel_path x)) as [a|], (find_attachment (mo_atts m) (rel_path x)) as [a'|]; cbn in A; try discriminate.
  - injection A as _ A. destruct (bad_part_name (rel_path x)), (seq (rel_type x) rel_print_ticket); rewrite ?A; apply IH.
  - destruct (bad_part_name (rel_path x)), (seq (rel_type x) rel_print_ticket); apply IH.
Qed.
Lemma sa_relationship l p : validate_relationship m' l p = validate_relationship m l p.
Proof. unfold validate_relationship. rewrite sa_rels. reflexivity. Qed.
Lemma sa_item it : item_validate m' it = item_validate m it.
Proof. unfold item_validate, check_metadata. rewrite sa_object, sa_metadata. reflexivity. Qed.
Lemma sa_build b : build_validate m' b = build_validate m b.
Proof. unfold build_validate. apply loop_ext. intros i it e. rewrite sa_item. reflexivity. Qed.
Lemma sa_triangle p o n i t e : triangle_validate m' p o n i t e = triangle_validate m p o n i t e.
Proof. unfold triangle_validate. rewrite sa_res_asset. reflexivity. Qed.
Lemma sa_mesh p o me : mesh_validate m' p o me = mesh_validate m p o me.
Proof. unfold mesh_validate. apply loop_ext. intros i t e. apply sa_triangle. Qed.
Lemma sa_components p o cs : components_validate m' p o cs = components_validate m p o cs.
Proof.
  unfold components_validate. rewrite (loop_ext _ (fun j c errs =>
      if (co_oid c =? 0)%N then add errs (at_index (missing "objectid") "component" j)
      else match find_object m (comp_path c p) (co_oid c) with
           | Some ref => add_if ((ob_id ref =? ob_id o)%N && seq (comp_path c p) p) errs
                                (at_index (sent "ErrRecursion") "component" j)
           | None => add errs (at_index (sent "ErrMissingResource") "component" j)
           end)); [reflexivity|]. intros i c e. rewrite sa_object. reflexivity.
Qed.
(** ** Extensions *)
Lemma sa_multi_pids p l : forall j colors undef e, multi_pids m' p j l colors undef e = multi_pids m p j l colors undef e.
Proof.
  induction l as [|x l IH]; intros j colors undef e; cbn [multi_pids]; [reflexivity|]. rewrite sa_asset.
  destruct (find_asset m p x) as [[b|i ts|[]]|]; rewrite IH; reflexivity.
Qed.
Lemma sa_texture t : texture_validate m' t = texture_validate m t.
Proof.
  unfold texture_validate. rewrite !(existsb_seen att_seen (fun a => eq_fold (at_path a) (tx_path t)) (fun a => eq_fold (fst a) (tx_path t))) by reflexivity.
  rewrite (sm_atts _ _ S). reflexivity.
Qed.
Lemma sa_materials p el : materials_validate m' p el = materials_validate m p el.
Proof.
  unfold materials_validate. destruct el as [|[b|i ts|[]]|o]; try reflexivity.
  - apply sa_texture.
  - unfold tex_group_validate. rewrite sa_asset. reflexivity.
  - unfold composite_validate. rewrite sa_asset. reflexivity.
  - unfold multi_validate. rewrite sa_multi_pids. reflexivity.
Qed.
Lemma sa_ref_mesh p a b : ref_mesh_validate m' p a b = ref_mesh_validate m p a b.
Proof. unfold ref_mesh_validate. rewrite sa_resources. reflexivity. Qed.
Lemma sa_beams p el : beamlattice_validate m' p el = beamlattice_validate m p el.
Proof.
  unfold beamlattice_validate. destruct el as [|a|o]; try reflexivity. unfold lattice_validate.
  destruct (ob_mesh o) as [me|]; [|reflexivity]. destruct (get_lattice (me_ext me)) as [bl|]; [|reflexivity]. rewrite !sa_ref_mesh. reflexivity.
Qed.
Lemma sa_path_uuid p u q : path_uuid_validate m' p u q = path_uuid_validate m p u q.
Proof. unfold path_uuid_validate. rewrite sa_root. reflexivity. Qed.
Lemma sa_production p el : production_validate m' p el = production_validate m p el.
Proof.
  unfold production_validate. destruct el as [|a|o]; [|reflexivity|].
  - unfold prod_model_validate. rewrite (sm_build _ _ S). apply loop_ext. intros i it e.
    destruct (get_item_attr (it_any it)) as [[u q]|]; [rewrite sa_path_uuid|]; reflexivity.
  - unfold prod_object_validate. destruct (ob_comps o) as [cs|]; [|reflexivity]. cbv zeta.
    rewrite (loop_ext _ (fun i c cerrs =>
          match (match get_comp_attr (co_any c) with
                     | Some (u, p0) => add None (path_uuid_validate m p u p0)
                     | None => add None (missing "UUID")
                     end) with None => cerrs | Some _ => add cerrs (at_index (match get_comp_attr (co_any c) with
                     | Some (u, p0) => add None (path_uuid_validate m p u p0)
                     | None => add None (missing "UUID")
                     end) "component" i) end)); [reflexivity|].
    intros i c e. destruct (get_comp_attr (co_any c)) as [[u q]|]; [rewrite sa_path_uuid|]; reflexivity.
Qed.
Lemma sa_comps_transforms p id rec rec' oid cs : (forall o, rec' o = rec o) -> comps_transforms m' p id rec' oid cs = comps_transforms m p id rec oid cs.
Proof.
  intros H. induction cs as [|c cs IH]; cbn [comps_transforms]; [reflexivity|]. rewrite sa_object, IH.
  destruct (find_object m (comp_path c p) (co_oid c)) as [o|]; [rewrite H|]; reflexivity.
Qed.
Lemma sa_obj_transforms fuel p id : forall o, obj_transforms fuel m' p id o = obj_transforms fuel m p id o.
Proof.
  induction fuel as [|f IH]; intros o; cbn [obj_transforms]; [reflexivity|]. destruct (ob_comps o); [|reflexivity]. apply sa_comps_transforms, IH.
Qed.
Lemma sa_items_transforms fuel p id its : items_transforms fuel m' p id its = items_transforms fuel m p id its.
Proof.
  induction its as [|it its IH]; cbn [items_transforms]; [reflexivity|]. rewrite sa_object, IH.
  destruct (find_object m _ (it_oid it)) as [o|]; [rewrite sa_obj_transforms|]; reflexivity.
Qed.
Lemma sa_all_closed s : all_closed m' s = all_closed m s.
Proof.
  unfold all_closed. f_equal. induction (ss_refs s) as [|r l IH]; cbn [forallb]; [reflexivity|]. rewrite IH, sa_asset. reflexivity.
Qed.
Lemma required_seen : forall l, slice_required l = match find (fun e => seq (fst e) M_ExtValidate.ns_slices) (map ext_seen l) with Some e => snd e | None => false end.
Proof. induction l as [|e l IH]; cbn; [reflexivity|]. destruct (seq (ex_ns e) M_ExtValidate.ns_slices); [reflexivity|exact IH]. Qed.
Lemma sa_slice_object fuel p o : slice_object_validate fuel m' p o = slice_object_validate fuel m p o.
Proof.
  unfold slice_object_validate. destruct (get_slice_attr (ob_any o)) as [[sid res]|]; [|reflexivity].
  rewrite sa_res_asset, !required_seen, (sm_exts _ _ S), (sm_build _ _ S), sa_items_transforms.
  destruct (sid =? 0)%N; [reflexivity|]. destruct (res_find_asset m p sid) as [[b|i ts|[]]|]; try reflexivity. rewrite sa_all_closed. reflexivity.
Qed.
Lemma sa_refs_loop p l : forall i z e, refs_loop m' p i l z e = refs_loop m p i l z e.
Proof.
  induction l as [|r l IH]; intros i z e; cbn [refs_loop]; [reflexivity|]. rewrite sa_asset.
  destruct (seq (sr_path r) ""), (seq (sr_path r) p), (sr_id r =? 0)%N; cbn [negb]; try apply IH;
    (destruct (find_asset m (sr_path r) (sr_id r)) as [[b|j ts|[]]|]; apply IH).
Qed.
Lemma sa_slices fuel p el : slices_validate fuel m' p el = slices_validate fuel m p el.
Proof.
  unfold slices_validate. destruct el as [|[b|i ts|[]]|o]; try reflexivity.
  - unfold slice_stack_validate. rewrite sa_refs_loop. reflexivity.
  - apply sa_slice_object.
Qed.
Context (fuel : nat).
Lemma sa_registry ns p el : match registry fuel ns with Some v => v m' p el = v m p el | None => True end.
Proof.
  unfold registry. destruct (seq ns M_ExtValidate.ns_materials); [apply sa_materials|]. destruct (seq ns M_ExtValidate.ns_beamlattice); [apply sa_beams|].
  destruct (seq ns M_ExtValidate.ns_slices); [rewrite sa_slices; reflexivity|]. destruct (seq ns M_ExtValidate.ns_production); [apply sa_production|exact I].
Qed.
Lemma sa_exts p el e : ext_validate (registry fuel) m' p el e = ext_validate (registry fuel) m p el e.
Proof.
  unfold ext_validate. pose proof (sm_exts _ _ S) as E. revert e E. generalize (mo_exts m). induction (mo_exts m') as [|x l IH]; intros [|y l'] e E; try discriminate; [reflexivity|].
  cbn [map] in E. injection E as E1 _ E2. cbn [fold_left]. rewrite (IH l' _ E2), E1. pose proof (sa_registry (ex_ns y) p el) as R.
  destruct (registry fuel (ex_ns y)); [rewrite R|]; reflexivity.
Qed.
Lemma sa_object_validate p o : object_validate (registry fuel) m' p o = object_validate (registry fuel) m p o.
Proof.
  unfold object_validate. rewrite sa_exts, sa_res_asset. destruct (ob_mesh o) as [me|]; destruct (ob_comps o) as [cs|]; rewrite ?sa_mesh; try reflexivity;
    (destruct (cs_list cs) as [|c l]; [|rewrite sa_components]; reflexivity).
Qed.
Lemma sa_assets p l : forall i seen e, assets_validate (registry fuel) m' p i l seen e = assets_validate (registry fuel) m p i l seen e.
Proof. induction l as [|a l IH]; intros i seen e; cbn [assets_validate]; [reflexivity|]. rewrite IH, sa_exts. reflexivity. Qed.
Lemma sa_objects p l : forall i seen e, objects_validate (registry fuel) m' p i l seen e = objects_validate (registry fuel) m p i l seen e.
Proof. induction l as [|a l IH]; intros i seen e; cbn [objects_validate]; [reflexivity|]. rewrite IH, sa_object_validate. reflexivity. Qed.
Lemma sa_resources_validate p rs : resources_validate (registry fuel) m' p rs = resources_validate (registry fuel) m p rs.
Proof. unfold resources_validate. rewrite sa_assets. destruct (assets_validate _ _ _ _ _ _ _). apply sa_objects. Qed.
Lemma sa_namespaces loaded : validate_namespaces loaded m' = validate_namespaces loaded m.
Proof.
  unfold validate_namespaces. rewrite !(existsb_seen ext_seen (fun ext => ex_req ext && negb (loaded (ex_ns ext))) (fun e => snd e && negb (loaded (fst e)))) by reflexivity.
  rewrite (sm_exts _ _ S). reflexivity.
Qed.
Theorem sa_validate loaded : validate loaded (registry fuel) m' = validate loaded (registry fuel) m.
Proof.
  unfold validate. cbv zeta. rewrite sa_sorted, sa_root, !sa_relationship, sa_namespaces, (sm_rootrels _ _ S), (sm_rels _ _ S), (sm_md _ _ S), (sm_path _ _ S), (sm_res _ _ S), (sm_build _ _ S).
  unfold check_metadata. rewrite sa_metadata, sa_build, sa_resources_validate, sa_exts.
  rewrite (fold_ext (fun errs path => if seq path (path_or_default m) then add errs (sent "ErrOPCDuplicatedModelName")
      else add errs (validate_relationship m' (ch_rels (child_at m' path)) path))
    (fun errs path => if seq path (path_or_default m) then add errs (sent "ErrOPCDuplicatedModelName")
      else add errs (validate_relationship m (ch_rels (child_at m path)) path))) by (intros e q; rewrite (proj2 (sa_child q)), sa_relationship; reflexivity).
  rewrite (fold_ext (fun errs path => match resources_validate (registry fuel) m' path (ch_res (child_at m' path)) with None => errs | Some _ => add errs (wrap_path (resources_validate (registry fuel) m' path (ch_res (child_at m' path))) "resources" path) end)
    (fun errs path => match resources_validate (registry fuel) m path (ch_res (child_at m path)) with None => errs | Some _ => add errs (wrap_path (resources_validate (registry fuel) m path (ch_res (child_at m path))) "resources" path) end))
    by (intros e q; rewrite (proj1 (sa_child q)), sa_resources_validate; reflexivity).
  reflexivity.
Qed.
Lemma sa_comps_bbox p rec rec' cs : (forall o, rec' o = rec o) -> forall b, comps_bbox m' p rec' b cs = comps_bbox m p rec b cs.
Proof.
  intros H. induction cs as [|c cs IH]; intros b; cbn [comps_bbox]; [reflexivity|]. rewrite sa_object.
  destruct (find_object m (comp_path c p) (co_oid c)) as [o|]; [|apply IH]. rewrite H. destruct (rec o); [apply IH|reflexivity].
Qed.
Lemma sa_obj_bbox p : forall o, obj_bbox fuel m' p o = obj_bbox fuel m p o.
Proof.
  induction fuel as [|f IH]; intros o; cbn [obj_bbox]; [reflexivity|]. destruct (ob_mesh o); [reflexivity|]. 
  pose proof (sa_comps_bbox p _ _ (comps_of o) IH limit_box) as K. destruct (comps_of o); [reflexivity|exact K].
Qed.
Lemma sa_item_task it : item_task fuel m' it = item_task fuel m it.
Proof. unfold item_task. rewrite sa_object. destruct (find_object m _ _) as [o|]; [rewrite sa_obj_bbox|]; reflexivity. Qed.
Theorem sa_bbox r : model_bbox fuel m' r <-> model_bbox fuel m r.
Proof. unfold model_bbox. rewrite (sm_build _ _ S). destruct (bu_items (mo_build m)) as [|it its]; [reflexivity|]. rewrite (map_ext _ _ sa_item_task). reflexivity. Qed.
End Same.
Lemma tasks_seen m cs : coherency_tasks m cs = mapi (coherency_task (fun e => wrap e "resources")) (rs_objects (mo_res m)) ++
  flat_map (fun x => mapi (coherency_task (fun e => wrap_path e "resources" (fst x))) (rs_objects (fst (snd x)))) (map part_seen cs).
Proof. unfold coherency_tasks. f_equal. induction cs as [|[p c] cs IH]; cbn [map flat_map]; [reflexivity|]. rewrite IH. reflexivity. Qed.
Lemma sa_coherency_half m m' r : Same m m' -> model_coherency m r -> model_coherency m' r.
Proof.
  intros S (cs & errs & P & O & ->). pose proof (Permutation_trans (Permutation_map part_seen P) (Permutation_sym (sm_childs _ _ S))) as Q.
  apply Permutation_map_inv in Q as (cs' & E & Q). exists cs', errs. split; [apply Permutation_sym, Q|]. split; [|reflexivity].
  rewrite tasks_seen, (sm_res _ _ S), <- E, <- tasks_seen. exact O.
Qed.
Lemma same_sym m m' : Same m m' -> Same m' m.
Proof. intros []. constructor; try (symmetry; assumption). Qed.
Theorem sa_coherency m m' r : Same m m' -> (model_coherency m' r <-> model_coherency m r).
Proof. intros S. split; apply sa_coherency_half; [apply same_sym|]; exact S. Qed.
