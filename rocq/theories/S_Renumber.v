(** * Specification: renumbering the resources of the parts of a model *)
From Verif Require Import GoBase GoFloat Types S_Core S_Geom S_Validate.

(** The part that a reference names; "" if it names none *)
Fixpoint ref_part (l : AnyAttr) : string :=
  match l with
  | [] => ""
  | GItem _ p :: r | GComp _ p :: r => match p with EmptyString => ref_part r | _ => p end
  | _ :: r => ref_part r
  end.

Section Renumber.
(** [F p id] is the new identifier of the resource [id] of the part [p]; "" is the root part. *)
Context (F : string -> N -> N).
Section Part.
(** The renumbering of the part that is changed *)
Context (f : N -> N).
Definition ren_group (g : AttrGroup) : AttrGroup := match g with GSlice i r => GSlice (f i) r | _ => g end.
Definition ren_comp (c : Component) : Component :=
  mkComp ((match ref_part (co_any c) with EmptyString => f | q => F q end) (co_oid c)) (co_tr c) (co_any c).
Definition ren_comps (cs : Components) : Components := mkComps (map ren_comp (cs_list cs)) (cs_any cs).
Definition ren_tri (t : Triangle) : Triangle :=
  mkTri (t_v1 t) (t_v2 t) (t_v3 t) (f (t_pid t)) (t_p1 t) (t_p2 t) (t_p3 t) (t_any t).
Definition ren_lattice (b : BeamLattice) : BeamLattice :=
  mkBL (bl_clip b) (f (bl_clipmesh b)) (f (bl_repmesh b)) (bl_beams b) (bl_sets b) (bl_minlen b) (bl_radius b) (bl_cap b).
Definition ren_seg (s : Segment) : Segment := mkSeg (sg_v2 s) (f (sg_pid s)) (sg_p1 s) (sg_p2 s).
Definition ren_poly (p : Polygon) : Polygon := mkPoly (pg_start p) (map ren_seg (pg_segs p)).
Definition ren_slice (s : Slice) : Slice := mkSlice (sl_top s) (sl_verts s) (map ren_poly (sl_polys s)).
Definition ren_sref (r : SliceRef) : SliceRef := mkSRef (F (sr_path r) (sr_id r)) (sr_path r).
Definition ren_stack (s : SliceStack) : SliceStack :=
  mkSS (f (ss_id s)) (ss_bottom s) (map ren_slice (ss_slices s)) (map ren_sref (ss_refs s)).
Definition ren_ext (e : ExtElem) : ExtElem :=
  match e with
  | XTexture2D t => XTexture2D (mkTex2D (f (tx_id t)) (tx_path t) (tx_ctype t) (tx_tu t) (tx_tv t) (tx_filter t))
  | XTex2DGroup g => XTex2DGroup (mkTG (f (tg_id g)) (f (tg_tex g)) (tg_coords g))
  | XColorGroup g => XColorGroup (mkCG (f (cg_id g)) (cg_colors g))
  | XComposite g => XComposite (mkCM (f (cm_id g)) (f (cm_mat g)) (cm_indices g) (cm_comps g))
  | XMulti g => XMulti (mkMP (f (mp_id g)) (map f (mp_pids g)) (mp_blend g) (mp_multis g))
  | XSliceStack s => XSliceStack (ren_stack s)
  | XBeamLattice b => XBeamLattice (ren_lattice b)
  end.
Definition ren_elem (a : AnyElem) : AnyElem := match a with AnyExt e => AnyExt (ren_ext e) | _ => a end.
Definition ren_mesh (me : Mesh) : Mesh :=
  mkMesh (me_verts me) (me_vany me) (map ren_tri (me_tris me)) (me_tany me) (me_any me) (map ren_elem (me_ext me)).
Definition ren_obj (o : Object) : Object :=
  mkObj (f (ob_id o)) (ob_name o) (ob_part o) (ob_thumb o) (f (ob_pid o)) (ob_pindex o) (ob_type o) (ob_md o)
    (option_map ren_mesh (ob_mesh o)) (option_map ren_comps (ob_comps o)) (map ren_group (ob_any o)).
(** The tokens of an unknown resource are left as they are; only its identifier is changed. *)
Definition ren_asset (a : Asset) : Asset :=
  match a with
  | ABase b => ABase (mkBM (f (bs_id b)) (bs_mats b) (bs_any b))
  | AUnknown i ts => AUnknown (f i) ts
  | AExt e => AExt (ren_ext e)
  end.
Definition ren_res (rs : Resources) : Resources :=
  mkRes (map ren_asset (rs_assets rs)) (map ren_obj (rs_objects rs)) (rs_any rs).
End Part.
Definition ren_item (it : Item) : Item :=
  mkItem (F (ref_part (it_any it)) (it_oid it)) (it_tr it) (it_part it) (it_md it) (it_any it).
Definition ren_part (pc : string * Child) : string * Child :=
  (fst pc, mkChild (ren_res (F (fst pc)) (ch_res (snd pc))) (ch_rels (snd pc)) (ch_any (snd pc))).
Definition renumber (m : Model) : Model :=
  mkModel (mo_path m) (mo_lang m) (mo_units m) (mo_thumb m) (ren_res (F "") (mo_res m))
    (mkBuild (map ren_item (bu_items (mo_build m))) (bu_any (mo_build m)))
    (mo_atts m) (mo_exts m) (mo_md m) (map ren_part (mo_childs m)) (mo_rootrels m) (mo_rels m) (mo_any m) (mo_anyattr m).
End Renumber.

(** Different identifiers of a part stay different, 0 stays "none", and the root part is the root part under either name. *)
Record Renumbering (m : Model) (F : string -> N -> N) : Prop := {
  rn_zero : forall p, F p 0%N = 0%N;
  rn_inj : forall p a b, F p a = F p b -> a = b;
  rn_root : F (root_path m) = F "" }.
