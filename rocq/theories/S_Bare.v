(** * Specification: what the core specification says of a model

    A model without anything of the extensions: attributes of other namespaces, elements of other namespaces and the
    resources that are not base materials. *)
From Verif Require Import GoBase GoFloat Types.

Definition bare_group (g : MetadataGroup) : MetadataGroup := mkMG (mg_list g) [].
Definition bare_item (it : Item) : Item := mkItem (it_oid it) (it_tr it) (it_part it) (bare_group (it_md it)) [].
Definition bare_base (b : Base) : Base := mkBase (ba_name b) (ba_color b) [].
Definition bare_asset (a : Asset) : list Asset :=
  match a with ABase b => [ABase (mkBM (bs_id b) (map bare_base (bs_mats b)) [])] | _ => [] end.
Definition bare_triangle (t : Triangle) : Triangle := mkTri (t_v1 t) (t_v2 t) (t_v3 t) (t_pid t) (t_p1 t) (t_p2 t) (t_p3 t) [].
Definition bare_mesh (me : Mesh) : Mesh := mkMesh (me_verts me) [] (map bare_triangle (me_tris me)) [] [] [].
Definition bare_component (c : Component) : Component := mkComp (co_oid c) (co_tr c) [].
Definition bare_components (cs : Components) : Components := mkComps (map bare_component (cs_list cs)) [].
Definition bare_object (o : Object) : Object :=
  mkObj (ob_id o) (ob_name o) (ob_part o) (ob_thumb o) (ob_pid o) (ob_pindex o) (ob_type o) (bare_group (ob_md o))
    (option_map bare_mesh (ob_mesh o)) (option_map bare_components (ob_comps o)) [].
Definition bare_resources (r : Resources) : Resources :=
  mkRes (flat_map bare_asset (rs_assets r)) (map bare_object (rs_objects r)) [].
Definition bare_part (pc : string * Child) : string * Child :=
  (fst pc, mkChild (bare_resources (ch_res (snd pc))) (ch_rels (snd pc)) []).
Definition bare (m : Model) : Model :=
  mkModel (mo_path m) (mo_lang m) (mo_units m) (mo_thumb m) (bare_resources (mo_res m))
    (mkBuild (map bare_item (bu_items (mo_build m))) []) (mo_atts m) (mo_exts m) (mo_md m) (map bare_part (mo_childs m))
    (mo_rootrels m) (mo_rels m) [] [].

(** No item and no component names the part of its object with an attribute of the production extension. *)
Definition names_part (g : AttrGroup) : bool :=
  match g with GItem _ p | GComp _ p => negb (String.eqb p "") | _ => false end.
Definition LocalObject (o : Object) : Prop :=
  forall cs c g, ob_comps o = Some cs -> In c (cs_list cs) -> In g (co_any c) -> names_part g = false.
Definition Local (m : Model) : Prop :=
  (forall it g, In it (bu_items (mo_build m)) -> In g (it_any it) -> names_part g = false) /\
  (forall o, In o (rs_objects (mo_res m)) -> LocalObject o).
