(** * The validators of the extensions and SetMissingUUIDs *)
From Verif Require Import GoBase GoFloat Types M_Core M_Errors M_Text M_Geom M_Validate.

(** materials/materials.go 17, beamlattice/beamlattice.go 14, slices/slices.go 15, production/production.go 15 *)
Definition ns_materials : string := "http://schemas.microsoft.com/3dmanufacturing/material/2015/02".
Definition ns_beamlattice : string := "http://schemas.microsoft.com/3dmanufacturing/beamlattice/2017/02".
Definition ns_slices : string := "http://schemas.microsoft.com/3dmanufacturing/slice/2015/07".
Definition ns_production : string := "http://schemas.microsoft.com/3dmanufacturing/production/2015/06".

Definition is_nil {A} (l : list A) : bool := match l with [] => true | _ => false end.

(** ** Materials *)
(** materials/validate.go 37-50, validateColorGroup *)
Definition color_group_validate (g : ColorGroup) : error :=
  let errs := add_if (cg_id g =? 0)%N None (sent "ErrMissingID") in
  let errs := add_if (is_nil (cg_colors g)) errs (sent "ErrEmptyResourceProps") in
  loop (fun j c errs => add_if (is_zero_color c) errs (at_index (missing "color") "color" j))
       0 (cg_colors g) errs.
(** materials/validate.go 52-69, validateTexture2DGroup *)
Definition tex_group_validate (m : Model) (path : string) (g : Tex2DGroup) : error :=
  let errs := add_if (tg_id g =? 0)%N None (sent "ErrMissingID") in
  let errs :=
    if (tg_tex g =? 0)%N then add errs (missing "texid")
    else match find_asset m path (tg_tex g) with
         | Some (AExt (XTexture2D _)) => errs
         | Some _ => add errs (sent "ErrTextureReference")
         | None => add errs (sent "ErrTextureReference")
         end in
  add_if (is_nil (tg_coords g)) errs (sent "ErrEmptyResourceProps").
(** materials/validate.go 71-93, validateTexture2D *)
Definition texture_validate (m : Model) (t : Texture2D) : error :=
  let errs := add_if (tx_id t =? 0)%N None (sent "ErrMissingID") in
  let errs :=
    if seq (tx_path t) "" then add errs (missing "path")
    else add_if (negb (existsb (fun a => eq_fold (at_path a) (tx_path t)) (mo_atts m))) errs
                (sent "ErrMissingTexturePart") in
  add_if (tx_ctype t =? 0)%N errs (missing "contenttype").
(** materials/validate.go 113-139, the loop on PIDs; [colors] is colorCount,
    [undef] is resourceUndefined and the list collects [lengths] *)
Fixpoint multi_pids (m : Model) (path : string) (j : nat) (pids : list N) (colors : nat) (undef : bool)
    (errs : error) : error * list nat :=
  match pids with
  | [] => (errs, [])
  | pid :: r =>
      let '(errs, colors, undef, len) :=
        match find_asset m path pid with
        | Some (ABase b) =>
            (add_if (negb (Nat.eqb j 0)) errs (sent "ErrMaterialMulti"), colors, undef, List.length (bs_mats b))
        | Some (AExt (XComposite c)) =>
            (add_if (negb (Nat.eqb j 0)) errs (sent "ErrMaterialMulti"), colors, undef, List.length (cm_comps c))
        | Some (AExt (XMulti _)) => (add errs (sent "ErrMultiRefMulti"), colors, undef, 0)
        | Some (AExt (XColorGroup g)) =>
            (add_if (Nat.eqb colors 1) errs (sent "ErrMultiColors"), S colors, undef, List.length (cg_colors g))
        | Some _ => (errs, colors, undef, 0)
        | None => (add_if (negb undef) errs (sent "ErrMissingResource"), colors, true, 0)
        end in
      let '(errs, lens) := multi_pids m path (S j) r colors undef errs in
      (errs, len :: lens)
  end.
(** materials/validate.go 141-146: the inner loop, with its break.
    [k < len(r.PIDs)] is [lengths] having a k-th element. *)
Definition multi_bad (lens : list nat) (multi : list N) : bool :=
  existsb (fun li => (N.of_nat (fst li) <? snd li)%N) (combine lens multi).
(** materials/validate.go 95-149, validateMultiProps *)
Definition multi_validate (m : Model) (path : string) (p : MultiProps) : error :=
  let errs := add_if (mp_id p =? 0)%N None (sent "ErrMissingID") in
  let errs := add_if (is_nil (mp_pids p)) errs (missing "pids") in
  let errs := add_if (Z.of_nat (List.length (mp_pids p)) - 1 <? Z.of_nat (List.length (mp_blend p)))%Z errs
                     (sent "ErrMultiBlend") in
  let errs := add_if (is_nil (mp_multis p)) errs (sent "ErrEmptyResourceProps") in
  let '(errs, lens) := multi_pids m path 0 (mp_pids p) 0 false errs in
  loop (fun j multi errs => add_if (multi_bad lens multi) errs (at_index (sent "ErrIndexOutOfBounds") "multi" j))
       0 (mp_multis p) errs.
(** materials/validate.go 151-178, validateCompositeMat *)
Definition composite_validate (m : Model) (path : string) (c : CompositeMaterials) : error :=
  let errs := add_if (cm_id c =? 0)%N None (sent "ErrMissingID") in
  let errs :=
    if (cm_mat c =? 0)%N then add errs (missing "matid")
    else match find_asset m path (cm_mat c) with
         | Some (ABase b) =>
             add_if (existsb (fun i => (N.of_nat (List.length (bs_mats b)) <? i)%N) (cm_indices c)) errs
                    (sent "ErrIndexOutOfBounds")
         | Some _ => add errs (sent "ErrCompositeBase")
         | None => add errs (sent "ErrMissingResource")
         end in
  let errs := add_if (is_nil (cm_indices c)) errs (missing "matindices") in
  add_if (is_nil (cm_comps c)) errs (sent "ErrEmptyResourceProps").
(** materials/validate.go 14-35, Spec.Validate and validateAsset *)
Definition materials_validate (m : Model) (path : string) (el : VElem) : error :=
  match el with
  | VAsset (AExt (XColorGroup g)) => color_group_validate g
  | VAsset (AExt (XTex2DGroup g)) => tex_group_validate m path g
  | VAsset (AExt (XTexture2D t)) => texture_validate m t
  | VAsset (AExt (XMulti p)) => multi_validate m path p
  | VAsset (AExt (XComposite c)) => composite_validate m path c
  | _ => None
  end.

(** ** Beam lattice *)
(** beamlattice/beamlattice.go 109-116, GetBeamLattice on mesh.Any *)
Fixpoint get_lattice (l : list AnyElem) : option BeamLattice :=
  match l with
  | [] => None
  | AnyExt (XBeamLattice b) :: _ => Some b
  | _ :: r => get_lattice r
  end.
(** beamlattice/validate.go 76-94, validateRefMesh *)
Fixpoint ref_mesh_loop (l : list Object) (mesh_id self_id : N) : error :=
  match l with
  | [] => None
  | o :: r =>
      if (ob_id o =? self_id)%N then sent "ErrMissingResource"
      else if (ob_id o =? mesh_id)%N then
        match ob_mesh o with
        | None => sent "ErrLatticeInvalidMesh"
        | Some me =>
            if negb (ob_type o =? 0)%Z || match get_lattice (me_ext me) with Some _ => true | None => false end
            then sent "ErrLatticeInvalidMesh" else None
        end
      else ref_mesh_loop r mesh_id self_id
  end.
Definition ref_mesh_validate (m : Model) (path : string) (mesh_id self_id : N) : error :=
  if (mesh_id =? self_id)%N then sent "ErrRecursion"
  else match find_resources m path with
       | Some rs => ref_mesh_loop (rs_objects rs) mesh_id self_id
       | None => None
       end.
(** beamlattice/validate.go 49-61: one beam *)
Definition beam_validate (nverts : nat) (radius : f32) (i : nat) (b : Beam) (errs : error) : error :=
  let errs :=
    if (bm_i1 b =? bm_i2 b)%N then add errs (at_index (sent "ErrLatticeSameVertex") "beam" i)
    else add_if ((N.of_nat nverts <=? bm_i1 b) || (N.of_nat nverts <=? bm_i2 b))%N errs
                (at_index (sent "ErrIndexOutOfBounds") "beam" i) in
  add_if (negb (feqb (bm_r1 b) f_zero) && negb (feqb (bm_r1 b) radius) && negb (feqb (bm_r1 b) (bm_r2 b))) errs
         (at_index (sent "ErrLatticeBeamR2") "beam" i).
(** beamlattice/validate.go 18-74, validateObject; ClipNone is 0 *)
Definition lattice_validate (m : Model) (path : string) (o : Object) : error :=
  match ob_mesh o with
  | None => None
  | Some me =>
      match get_lattice (me_ext me) with
      | None => None
      | Some bl =>
          let errs := add_if (negb (ob_type o =? 0)%Z && negb (ob_type o =? 3)%Z) None (sent "ErrLatticeObjType") in
          let errs := add_if (feqb (bl_minlen bl) f_zero) errs (missing "minlength") in
          let errs := add_if (feqb (bl_radius bl) f_zero) errs (missing "radius") in
          let errs := add_if ((bl_clip bl =? 0) && (bl_clipmesh bl =? 0))%N errs (sent "ErrLatticeClippedNoMesh") in
          let errs := if negb (bl_clipmesh bl =? 0)%N
                      then add errs (ref_mesh_validate m path (bl_clipmesh bl) (ob_id o)) else errs in
          let errs := if negb (bl_repmesh bl =? 0)%N
                      then add errs (ref_mesh_validate m path (bl_repmesh bl) (ob_id o)) else errs in
          let errs := loop (beam_validate (List.length (me_verts me)) (bl_radius bl)) 0 (bl_beams bl) errs in
          let errs := loop (fun i set errs =>
            add_if (existsb (fun ref => (N.of_nat (List.length (bs_refs set)) <=? ref)%N) (bs_refs set)) errs
                   (at_index (sent "ErrIndexOutOfBounds") "beamset" i)) 0 (bl_sets bl) errs in
          match errs with None => None | Some _ => wrap (wrap errs "beamlattice") "mesh" end
      end
  end.
(** beamlattice/validate.go 11-16, Spec.Validate *)
Definition beamlattice_validate (m : Model) (path : string) (el : VElem) : error :=
  match el with VObject o => lattice_validate m path o | _ => None end.

(** ** Slices *)
(** slices/validate.go 13-15, validTransform *)
Definition valid_transform (t : Matrix) : bool :=
  feqb (m2 t) f_zero && feqb (m6 t) f_zero && feqb (m8 t) f_zero && feqb (m9 t) f_zero && feqb (m10 t) f_one.
(** slices/validate.go 208-229, validateObjectTransforms; [None]: not finished
    within [fuel] nested calls.  The order of the tests is that of the code. *)
Section ObjTransforms.
  Variable m : Model.
  Variable path : string.
  Variable id : N.
  Variable rec : Object -> option bool.
  Fixpoint comps_transforms (oid : N) (cs : list Component) : option bool :=
    match cs with
    | [] => Some true
    | c :: r =>
        let cp := comp_path c path in
        if (co_oid c =? id)%N && seq cp path && has_transform (co_tr c) && negb (valid_transform (co_tr c))
        then Some false
        else if (co_oid c =? oid)%N && seq cp path then Some true
        else match find_object m cp (co_oid c) with
             | Some o1 =>
                 match rec o1 with
                 | None => None
                 | Some false => Some false
                 | Some true => comps_transforms oid r
                 end
             | None => comps_transforms oid r
             end
    end.
End ObjTransforms.
Fixpoint obj_transforms (fuel : nat) (m : Model) (path : string) (id : N) (o : Object) : option bool :=
  match fuel with
  | O => None
  | S f => match ob_comps o with
           | None => Some true
           | Some cs => comps_transforms m path id (obj_transforms f m path id) (ob_id o) (cs_list cs)
           end
  end.
(** slices/validate.go 188-206, validateBuildTransforms *)
Fixpoint items_transforms (fuel : nat) (m : Model) (path : string) (id : N) (its : list Item) : option bool :=
  match its with
  | [] => Some true
  | it :: r =>
      let tp := if seq (item_path it) "" then path else item_path it in
      if (it_oid it =? id)%N && seq tp path && has_transform (it_tr it) && negb (valid_transform (it_tr it))
      then Some false
      else match find_object m tp (it_oid it) with
           | Some o =>
               match obj_transforms fuel m path id o with
               | None => None
               | Some false => Some false
               | Some true => items_transforms fuel m path id r
               end
           | None => items_transforms fuel m path id r
           end
  end.
(** slices/validate.go 160-169, isSliceStackClosed *)
Definition polygon_closed (p : Polygon) : bool :=
  match rev (pg_segs p) with [] => true | s :: _ => (pg_start p =? sg_v2 s)%N end.
Definition stack_closed (s : SliceStack) : bool :=
  forallb (fun sl => forallb polygon_closed (sl_polys sl)) (ss_slices s).
(** slices/validate.go 171-186, checkAllClosed *)
Definition all_closed (m : Model) (s : SliceStack) : bool :=
  stack_closed s &&
  forallb (fun r => match find_asset m (sr_path r) (sr_id r) with
                    | Some (AExt (XSliceStack st)) => stack_closed st
                    | _ => true
                    end) (ss_refs s).
(** slices/slices.go 118-125, GetObjectAttr *)
Fixpoint get_slice_attr (l : AnyAttr) : option (N * N) :=
  match l with
  | [] => None
  | GSlice id res :: _ => Some (id, res)
  | _ :: r => get_slice_attr r
  end.
(** slices/validate.go 53-59: IsRequired of the first extension with the namespace *)
Fixpoint slice_required (l : list Extension) : bool :=
  match l with
  | [] => false
  | e :: r => if seq (ex_ns e) ns_slices then ex_req e else slice_required r
  end.
(** slices/validate.go 27-65, validateObject; ResolutionLow is 1 *)
Definition slice_object_validate (fuel : nat) (m : Model) (path : string) (o : Object) : option error :=
  match get_slice_attr (ob_any o) with
  | None => Some None
  | Some (sid, res) =>
      let errs :=
        if (sid =? 0)%N then Some (add None (missing "slicestackid"))
        else match res_find_asset m path sid with
             | Some (AExt (XSliceStack st)) =>
                 match items_transforms fuel m path (ob_id o) (bu_items (mo_build m)) with
                 | None => None
                 | Some ok =>
                     let errs := add_if (negb ok) None (sent "ErrSliceInvalidTranform") in
                     Some (add_if (((ob_type o =? 0)%Z || (ob_type o =? 3)%Z) && negb (all_closed m st)) errs
                                  (sent "ErrSlicePolygonNotClosed"))
                 end
             | Some _ => Some (add None (sent "ErrNonSliceStack"))
             | None => Some (add None (sent "ErrMissingResource"))
             end in
      match errs with
      | None => None
      | Some errs => Some (add_if ((res =? 1)%N && negb (slice_required (mo_exts m))) errs (sent "ErrSliceExtRequired"))
      end
  end.
(** -math.MaxFloat32 *)
Definition f_lowest : f32 := fneg f_max.
(** slices/validate.go 85-118, validateSlices *)
Fixpoint slices_loop (bottom : f32) (j : nat) (l : list Slice) (last : f32) (errs : error) : error :=
  match l with
  | [] => errs
  | s :: r =>
      let errs :=
        if feqb (sl_top s) f_zero then add errs (at_index (missing "ztop") "slice" j)
        else add_if (fltb (sl_top s) bottom) errs (at_index (sent "ErrSliceSmallTopZ") "slice" j) in
      let errs := add_if (fleb (sl_top s) last) errs (at_index (sent "ErrSliceNoMonotonic") "slice" j) in
      let errs :=
        if is_nil (sl_polys s) && is_nil (sl_verts s) then errs
        else
          let errs := add_if (List.length (sl_verts s) <? 2)%nat errs
                             (at_index (sent "ErrSliceInsufficientVertices") "slice" j) in
          let errs := add_if (is_nil (sl_polys s)) errs
                             (at_index (sent "ErrSliceInsufficientPolygons") "slice" j) in
          let perrs := loop (fun k p perrs =>
            add_if (is_nil (pg_segs p)) perrs (at_index (sent "ErrSliceInsufficientSegments") "polygon" k))
            0 (sl_polys s) None in
          match perrs with None => errs | Some _ => add errs (at_index perrs "slice" j) end in
      slices_loop bottom (S j) r (sl_top s) errs
  end.
(** slices/validate.go 120-158, validateRefs *)
Fixpoint refs_loop (m : Model) (path : string) (i : nat) (l : list SliceRef) (lastz : f32) (errs : error) : error :=
  match l with
  | [] => errs
  | ref :: r =>
      let '(valid, errs) :=
        if seq (sr_path ref) "" then (false, add errs (at_index (missing "slicepath") "sliceref" i))
        else if seq (sr_path ref) path then (false, add errs (at_index (sent "ErrSliceRefSamePart") "sliceref" i))
        else (true, errs) in
      let '(valid, errs) :=
        if (sr_id ref =? 0)%N then (false, add errs (at_index (missing "slicestackid") "sliceref" i))
        else (valid, errs) in
      if negb valid then refs_loop m path (S i) r lastz errs
      else
        match find_asset m (sr_path ref) (sr_id ref) with
        | Some (AExt (XSliceStack st)) =>
            let errs := add_if (negb (is_nil (ss_refs st))) errs (at_index (sent "ErrSliceRefRef") "sliceref" i) in
            let errs := match ss_slices st with
                        | s0 :: _ => add_if (fleb (sl_top s0) lastz) errs (at_index (sent "ErrSliceNoMonotonic") "sliceref" i)
                        | [] => errs
                        end in
            let lastz := match rev (ss_slices st) with s1 :: _ => sl_top s1 | [] => lastz end in
            refs_loop m path (S i) r lastz errs
        | Some _ => refs_loop m path (S i) r lastz (add errs (at_index (sent "ErrNonSliceStack") "sliceref" i))
        | None => refs_loop m path (S i) r lastz (add errs (at_index (sent "ErrMissingResource") "sliceref" i))
        end
  end.
(** slices/validate.go 67-83, validateAsset *)
Definition slice_stack_validate (m : Model) (path : string) (st : SliceStack) : error :=
  let errs := add_if ((negb (is_nil (ss_slices st)) && negb (is_nil (ss_refs st))) ||
                      (is_nil (ss_slices st) && is_nil (ss_refs st))) None (sent "ErrSlicesAndRefs") in
  let errs := add errs (refs_loop m path 0 (ss_refs st) f_lowest None) in
  add errs (slices_loop (ss_bottom st) 0 (ss_slices st) f_lowest None).
(** slices/validate.go 17-25, Spec.Validate *)
Definition slices_validate (fuel : nat) (m : Model) (path : string) (el : VElem) : option error :=
  match el with
  | VObject o => slice_object_validate fuel m path o
  | VAsset (AExt (XSliceStack st)) => Some (slice_stack_validate m path st)
  | _ => Some None
  end.

(** ** Production *)
(** production/production.go 47-54, 64-71, 82-89, 109-116 *)
Fixpoint get_build_attr (l : AnyAttr) : option string :=
  match l with [] => None | GBuild u :: _ => Some u | _ :: r => get_build_attr r end.
Fixpoint get_object_attr (l : AnyAttr) : option string :=
  match l with [] => None | GObj u :: _ => Some u | _ :: r => get_object_attr r end.
Fixpoint get_item_attr (l : AnyAttr) : option (string * string) :=
  match l with [] => None | GItem u p :: _ => Some (u, p) | _ :: r => get_item_attr r end.
Fixpoint get_comp_attr (l : AnyAttr) : option (string * string) :=
  match l with [] => None | GComp u p :: _ => Some (u, p) | _ :: r => get_comp_attr r end.
(** production/validate.go 83-98, validatePathUUID *)
Definition path_uuid_validate (m : Model) (path : string) (uuid opath : string) : error :=
  let errs :=
    if seq uuid "" then add None (missing "UUID")
    else add_if (negb (uuid_validate uuid)) None (sent "ErrUUID") in
  if negb (seq opath "") then
    if seq path "" || seq path (path_or_default m) then errs else add errs (sent "ErrProdRefInNonRoot")
  else errs.
(** production/validate.go 27-48, validateModel *)
Definition prod_model_validate (m : Model) : error :=
  let errs :=
    match get_build_attr (bu_any (mo_build m)) with
    | None => add None (wrap (missing "UUID") "build")
    | Some u => add_if (negb (uuid_validate u)) None (wrap (sent "ErrUUID") "build")
    end in
  loop (fun i it errs =>
          let ierrs := match get_item_attr (it_any it) with
                       | Some (u, p) => add None (path_uuid_validate m "" u p)
                       | None => add None (missing "UUID")
                       end in
          match ierrs with None => errs | Some _ => add errs (wrap (at_index ierrs "item" i) "build") end)
       0 (bu_items (mo_build m)) errs.
(** production/validate.go 50-76, validateObject *)
Definition prod_object_validate (m : Model) (path : string) (o : Object) : error :=
  let errs :=
    match get_object_attr (ob_any o) with
    | None => add None (missing "UUID")
    | Some u => add_if (negb (uuid_validate u)) None (sent "ErrUUID")
    end in
  match ob_comps o with
  | None => errs
  | Some cs =>
      let cerrs := loop (fun i c cerrs =>
          let err := match get_comp_attr (co_any c) with
                     | Some (u, p) => add None (path_uuid_validate m path u p)
                     | None => add None (missing "UUID")
                     end in
          match err with None => cerrs | Some _ => add cerrs (at_index err "component" i) end)
          0 (cs_list cs) None in
      match cerrs with None => errs | Some _ => add errs (wrap cerrs "components") end
  end.
(** production/validate.go 17-25, Spec.Validate *)
Definition production_validate (m : Model) (path : string) (el : VElem) : error :=
  match el with
  | VModel => prod_model_validate m
  | VObject o => prod_object_validate m path o
  | VAsset _ => None
  end.

(** The validators registered when all four extension packages are imported
    (init functions: materials/materials.go 28-30, beamlattice/beamlattice.go 30-32, slices/slices.go 23-25,
    production/production.go 35-37).  [fuel] bounds the recursion of the slices validator. *)
Definition registry (fuel : nat) (ns : string) : option (Model -> string -> VElem -> error) :=
  if seq ns ns_materials then Some materials_validate
  else if seq ns ns_beamlattice then Some beamlattice_validate
  else if seq ns ns_slices then
    Some (fun m path el => match slices_validate fuel m path el with Some e => e | None => None end)
  else if seq ns ns_production then Some production_validate
  else None.

(** ** SetMissingUUIDs (production/production.go 129-164).  [fresh n] is the n-th value of
    uuid.New; the counter is threaded in the order of the calls. *)
Section SetMissing.
  Variable fresh : nat -> string.
  (** [ext.UUID = uuid.New()] on the first group of its kind *)
  Fixpoint fill_item (u : string) (l : AnyAttr) : AnyAttr :=
    match l with [] => [] | GItem _ p :: r => GItem u p :: r | g :: r => g :: fill_item u r end.
  Fixpoint fill_obj (u : string) (l : AnyAttr) : AnyAttr :=
    match l with [] => [] | GObj _ :: r => GObj u :: r | g :: r => g :: fill_obj u r end.
  Fixpoint fill_comp (u : string) (l : AnyAttr) : AnyAttr :=
    match l with [] => [] | GComp _ p :: r => GComp u p :: r | g :: r => g :: fill_comp u r end.
  (** production/production.go 130-132 *)
  Definition set_build (n : nat) (l : AnyAttr) : nat * AnyAttr :=
    match get_build_attr l with
    | None => (S n, l ++ [GBuild (fresh n)])
    | Some _ => (n, l)
    end.
  (** production/production.go 134-141 *)
  Definition set_item (n : nat) (it : Item) : nat * Item :=
    let put l := mkItem (it_oid it) (it_tr it) (it_part it) (it_md it) l in
    match get_item_attr (it_any it) with
    | None => (S n, put (it_any it ++ [GItem (fresh n) ""]))
    | Some (u, _) => if seq u "" then (S n, put (fill_item (fresh n) (it_any it))) else (n, it)
    end.
  (** production/production.go 151-160 *)
  Definition set_comp (n : nat) (c : Component) : nat * Component :=
    let put l := mkComp (co_oid c) (co_tr c) l in
    match get_comp_attr (co_any c) with
    | None => (S n, put (co_any c ++ [GComp (fresh n) ""]))
    | Some (u, _) => if seq u "" then (S n, put (fill_comp (fresh n) (co_any c))) else (n, c)
    end.
  Fixpoint set_list {A} (f : nat -> A -> nat * A) (n : nat) (l : list A) : nat * list A :=
    match l with
    | [] => (n, [])
    | x :: r => let (n1, x') := f n x in let (n2, r') := set_list f n1 r in (n2, x' :: r')
    end.
  (** production/production.go 143-162, the callback given to WalkObjects *)
  Definition set_object (n : nat) (o : Object) : nat * Object :=
    let put l cs := mkObj (ob_id o) (ob_name o) (ob_part o) (ob_thumb o) (ob_pid o) (ob_pindex o) (ob_type o)
                          (ob_md o) (ob_mesh o) cs l in
    let (n, any) := match get_object_attr (ob_any o) with
                    | None => (S n, ob_any o ++ [GObj (fresh n)])
                    | Some u => if seq u "" then (S n, fill_obj (fresh n) (ob_any o)) else (n, ob_any o)
                    end in
    match ob_comps o with
    | None => (n, put any None)
    | Some cs => let (n, l) := set_list set_comp n (cs_list cs) in (n, put any (Some (mkComps l (cs_any cs))))
    end.
  Definition set_res (n : nat) (rs : Resources) : nat * Resources :=
    let (n, l) := set_list set_object n (rs_objects rs) in (n, mkRes (rs_assets rs) l (rs_any rs)).
  (** WalkObjects on the children in the order of their sorted paths, changing
      the objects in place *)
  Fixpoint set_childs (n : nat) (paths : list string) (cs : list (string * Child)) : nat * list (string * Child) :=
    match paths with
    | [] => (n, cs)
    | p :: r =>
        match aget seq p cs with
        | None => (n, cs)
        | Some c => let (n, rs) := set_res n (ch_res c) in
                    set_childs n r (aset seq p (mkChild rs (ch_rels c) (ch_any c)) cs)
        end
    end.
  Definition set_missing_uuids (m : Model) : Model :=
    let (n, bany) := set_build 0 (bu_any (mo_build m)) in
    let (n, its) := set_list set_item n (bu_items (mo_build m)) in
    let (n, cs) := set_childs n (sorted_childs m) (mo_childs m) in
    let (_, rs) := set_res n (mo_res m) in
    mkModel (mo_path m) (mo_lang m) (mo_units m) (mo_thumb m) rs (mkBuild its bany) (mo_atts m) (mo_exts m)
      (mo_md m) cs (mo_rootrels m) (mo_rels m) (mo_any m) (mo_anyattr m).
End SetMissing.
