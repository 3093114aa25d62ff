(** * The encoder of model files (encoder.go, spec/, and the encoders of the extension packages)

    The encoder calls its xmlEncoder; what it asks for is a list of operations, which M_Printer turns into
    text.  Every Marshal3MF of the repository returns nil, and the writer never fails. *)
From Coq Require Import ZArith.
From Verif Require Import GoBase GoNum GoUtf8 GoFloat GoStrconv Types XmlTypes M_Core M_Text M_Printer.

Definition lname (l : string) : Name := mkName "" l.
Definition lattr (l v : string) : Attr := mkAttr (lname l) v.
(** [if cond { attrs = append(attrs, a) }] *)
Definition opt (b : bool) (a : Attr) : list Attr := if b then [a] else [].
Definition nonempty (s : string) : bool := negb (seq s "").
(** core.go 21-27, materials/materials.go 19 *)
Definition rel_model : string := "http://schemas.microsoft.com/3dmanufacturing/2013/01/3dmodel".
Definition rel_thumbnail : string := "http://schemas.openxmlformats.org/package/2006/relationships/metadata/thumbnail".
Definition rel_texture : string := "http://schemas.microsoft.com/3dmanufacturing/2013/01/3dtexture".
(** math.go 112-115, Matrix.String *)
Definition matrix_string (m : Matrix) : string :=
  sjoin " " (map (format_f 3) [m0 m; m1 m; m2 m; m4 m; m5 m; m6 m; m8 m; m9 m; m10 m; m12 m; m13 m; m14 m]).

(** ** Attributes of extensions *)
(** The calls of append by Marshal3MF: spec/unknown.go 19-22, production/encoder.go 12-40, slices/encoder.go 15-21 *)
Definition group_appends (g : AttrGroup) : list (list Attr) :=
  let uuid u := [mkAttr (mkName ns_production "UUID") u] in
  let path p := if nonempty p then [[mkAttr (mkName ns_production "path") p]] else [] in
  match g with
  | GUnknown _ attrs => [attrs]
  | GBuild u | GObj u => [uuid u]
  | GItem u p | GComp u p => path p ++ [uuid u]
  | GSlice id r => [[mkAttr (mkName ns_slices "slicestackid") (fmt_dec id); mkAttr (mkName ns_slices "meshresolution") (resolution_string r)]]
  end.
(** spec/spec.go 95-103, AnyAttr.Marshal3MF *)
Definition any_appends (any : AnyAttr) : list (list Attr) := flat_map group_appends any.
Definition any_attrs (any : AnyAttr) : list Attr := concat (any_appends any).

Definition start_op (n : Name) (a : list Attr) : op := OpTok (TStart n a).
Definition end_op (n : Name) : op := OpTok (TEnd n).
Definition element (n : Name) (a : list Attr) (inner : list op) : list op := start_op n a :: inner ++ [end_op n].
Definition auto (l : list op) : list op := OpAuto true :: l ++ [OpAuto false].
(** Auto-close and skip-escape set together, and reset *)
Definition auto_skip (l : list op) : list op := OpAuto true :: OpSkip true :: l ++ [OpSkip false; OpAuto false].

Section Encoder.
(** FloatPresicion; a negative one (shortest text) is not modelled *)
Context (prec : nat).
Definition ffmt (x : f32) : string := format_f prec x.

(** ** Extensions *)
(** materials/encoder.go 15-33 *)
Definition write_colors (r : ColorGroup) : list op :=
  element (mkName ns_materials "colorgroup") [lattr "id" (fmt_dec (cg_id r))]
    (auto_skip (map (fun c => start_op (mkName ns_materials "color") [lattr "color" (format_rgba c)]) (cg_colors r))).
(** materials/encoder.go 36-58 *)
Definition write_texgroup (r : Tex2DGroup) : list op :=
  element (mkName ns_materials "texture2dgroup") [lattr "id" (fmt_dec (tg_id r)); lattr "texid" (fmt_dec (tg_tex r))]
    (auto_skip (map (fun c => start_op (mkName ns_materials "tex2coord") [lattr "u" (ffmt (fst c)); lattr "v" (ffmt (snd c))]) (tg_coords r))).
(** materials/encoder.go 61-87 *)
Definition write_composite (r : CompositeMaterials) : list op :=
  element (mkName ns_materials "compositematerials")
    [lattr "id" (fmt_dec (cm_id r)); lattr "matid" (fmt_dec (cm_mat r)); lattr "matindices" (sjoin " " (map fmt_dec (cm_indices r)))]
    (auto_skip (map (fun c => start_op (mkName ns_materials "composite") [lattr "values" (sjoin " " (map ffmt c))]) (cm_comps r))).
(** materials/encoder.go 90-120 *)
Definition write_multi (r : MultiProps) : list op :=
  element (mkName ns_materials "multiproperties")
    [lattr "id" (fmt_dec (mp_id r)); lattr "pids" (sjoin " " (map fmt_dec (mp_pids r))); lattr "blendmethods" (sjoin " " (map blend_string (mp_blend r)))]
    (auto_skip (map (fun c => start_op (mkName ns_materials "multi") [lattr "pindices" (sjoin " " (map fmt_dec c))]) (mp_multis r))).
(** materials/encoder.go 123-143 *)
Definition write_texture (r : Texture2D) : list op :=
  OpRel (mkRel (tx_path r) rel_texture "") ::
  auto [start_op (mkName ns_materials "texture2d")
    ([lattr "id" (fmt_dec (tx_id r)); lattr "path" (tx_path r); lattr "contenttype" (tex_type_string (tx_ctype r))]
     ++ opt (negb (tx_tu r =? 0)%N) (lattr "tilestyleu" (tile_string (tx_tu r)))
     ++ opt (negb (tx_tv r =? 0)%N) (lattr "tilestylev" (tile_string (tx_tv r)))
     ++ opt (negb (tx_filter r =? 0)%N) (lattr "filter" (filter_string (tx_filter r))))].
(** slices/encoder.go 100-118, marshalVertices *)
Definition write_slice_vertices (vs : list Point2D) : list op :=
  element (mkName ns_slices "vertices") []
    (auto_skip (map (fun v => start_op (mkName ns_slices "vertex") [lattr "x" (ffmt (p2x v)); lattr "y" (ffmt (p2y v))]) vs)).
(** slices/encoder.go 76-92: the attributes of a segment.  The shared array keeps its names, and only values that were
    just assigned are printed. *)
Definition segment_attrs (s : Segment) : list Attr :=
  lattr "v2" (fmt_dec (sg_v2 s)) ::
  (if (sg_pid s =? 0)%N then []
   else [lattr "pid" (fmt_dec (sg_pid s)); lattr "p1" (fmt_dec (sg_p1 s))]
        ++ opt (negb (sg_p1 s =? sg_p2 s)%N) (lattr "p2" (fmt_dec (sg_p2 s)))).
(** slices/encoder.go 62-98, marshalPolygons *)
Definition write_polygons (l : list Polygon) : list op :=
  OpSkip true ::
  flat_map (fun p => element (mkName ns_slices "polygon") [lattr "startv" (fmt_dec (pg_start p))]
     (auto (map (fun s => start_op (mkName ns_slices "segment") (segment_attrs s)) (pg_segs p)))) l
  ++ [OpSkip false].
(** slices/encoder.go 50-60 *)
Definition write_slice (s : Slice) : list op :=
  element (mkName ns_slices "slice") [lattr "ztop" (ffmt (sl_top s))] (write_slice_vertices (sl_verts s) ++ write_polygons (sl_polys s)).
(** slices/encoder.go 24-48 *)
Definition write_stack (s : SliceStack) : list op :=
  element (mkName ns_slices "slicestack")
    (lattr "id" (fmt_dec (ss_id s)) :: opt (negb (feqb (ss_bottom s) f_zero)) (lattr "zbottom" (ffmt (ss_bottom s))))
    (flat_map write_slice (ss_slices s)
     ++ auto (map (fun r => start_op (mkName ns_slices "sliceref") [lattr "slicestackid" (fmt_dec (sr_id r)); lattr "slicepath" (sr_path r)]) (ss_refs s))).
(** beamlattice/encoder.go 76-98: the attributes of a beam *)
Definition beam_attrs (m : BeamLattice) (b : Beam) : list Attr :=
  [lattr "v1" (fmt_dec (bm_i1 b)); lattr "v2" (fmt_dec (bm_i2 b))]
  ++ opt (fltb f_zero (bm_r1 b) && negb (feqb (bm_r1 b) (bl_radius m))) (lattr "r1" (ffmt (bm_r1 b)))
  ++ opt (fltb f_zero (bm_r2 b) && negb (feqb (bm_r2 b) (bl_radius m))) (lattr "r2" (ffmt (bm_r2 b)))
  ++ opt (negb (bm_c1 b =? bl_cap m)%N) (lattr "cap1" (cap_string (bm_c1 b)))
  ++ opt (negb (bm_c2 b =? bl_cap m)%N) (lattr "cap2" (cap_string (bm_c2 b))).
(** beamlattice/encoder.go 70-103, marshalBeams *)
Definition write_beams (m : BeamLattice) : list op :=
  element (mkName ns_beam "beams") [] (auto_skip (map (fun b => start_op (mkName ns_beam "beam") (beam_attrs m b)) (bl_beams m))).
(** beamlattice/encoder.go 46-68, marshalBeamsets *)
Definition write_sets (m : BeamLattice) : list op :=
  element (mkName ns_beam "beamsets") []
    (flat_map (fun b => element (mkName ns_beam "beamset")
       (opt (nonempty (bs_name b)) (lattr "name" (bs_name b)) ++ opt (nonempty (bs_ident b)) (lattr "identifier" (bs_ident b)))
       (auto (map (fun r => start_op (mkName ns_beam "ref") [lattr "index" (fmt_dec r)]) (bs_refs b)))) (bl_sets m)).
(** beamlattice/encoder.go 14-44 *)
Definition write_lattice (m : BeamLattice) : list op :=
  element (mkName ns_beam "beamlattice")
    ([lattr "minlength" (ffmt (bl_minlen m)); lattr "radius" (ffmt (bl_radius m))]
     ++ opt (negb (bl_clip m =? 0)%N) (lattr "clippingmode" (clip_string (bl_clip m)))
     ++ opt (negb (bl_clipmesh m =? 0)%N) (lattr "clippingmesh" (fmt_dec (bl_clipmesh m)))
     ++ opt (negb (bl_repmesh m =? 0)%N) (lattr "representationmesh" (fmt_dec (bl_repmesh m)))
     ++ opt (negb (bl_cap m =? 0)%N) (lattr "cap" (cap_string (bl_cap m))))
    (write_beams m ++ write_sets m).
Definition write_ext (e : ExtElem) : list op :=
  match e with
  | XTexture2D r => write_texture r
  | XTex2DGroup r => write_texgroup r
  | XColorGroup r => write_colors r
  | XComposite r => write_composite r
  | XMulti r => write_multi r
  | XSliceStack r => write_stack r
  | XBeamLattice r => write_lattice r
  end.
(** spec/unknown.go 44-49 *)
Definition write_tokens (l : list Token) : list op := map OpTok l.
Definition write_any1 (e : AnyElem) : list op :=
  match e with AnyTokens l => write_tokens l | AnyExt x => write_ext x end.
(** spec/spec.go 124-131, Any.Marshal3MF: it returns after the first element without error *)
Definition write_any (l : list AnyElem) : list op := match l with [] => [] | e :: _ => write_any1 e end.

(** ** Core *)
(** encoder.go 350-373, writeMetadata *)
Definition write_metadata1 (md : Metadata) : list op :=
  let name := if nonempty (nspace (md_name md)) then nspace (md_name md) +++ ":" +++ nlocal (md_name md) else nlocal (md_name md) in
  element (lname "metadata")
    ([lattr "name" name] ++ opt (md_preserve md) (lattr "preserve" "true") ++ opt (nonempty (md_type md)) (lattr "type" (md_type md)))
    [OpTok (TChar (md_value md))].
Definition write_metadata (l : list Metadata) : list op := flat_map write_metadata1 l.
(** encoder.go 283-289 *)
Definition write_metadata_group (g : MetadataGroup) : list op :=
  element (lname "metadatagroup") (any_attrs (mg_any g)) (write_metadata (mg_list g)).
(** encoder.go 296-320: an item, in auto-close mode *)
Definition item_attrs (i : Item) : list Attr :=
  [lattr "objectid" (fmt_dec (it_oid i))]
  ++ opt (has_transform (it_tr i)) (lattr "transform" (matrix_string (it_tr i)))
  ++ opt (nonempty (it_part i)) (lattr "partnumber" (it_part i))
  ++ any_attrs (it_any i).
Definition write_item (i : Item) : list op :=
  match mg_list (it_md i) with
  | [] => [start_op (lname "item") (item_attrs i)]
  | _ => OpAuto false :: element (lname "item") (item_attrs i) (write_metadata_group (it_md i)) ++ [OpAuto true]
  end.
(** encoder.go 291-323, writeBuild *)
Definition write_build (m : Model) : list op :=
  element (lname "build") (any_attrs (bu_any (mo_build m))) (auto (flat_map write_item (bu_items (mo_build m)))).
(** encoder.go 419-438, writeComponents *)
Definition write_components (cs : Components) : list op :=
  element (lname "components") (any_attrs (cs_any cs))
    (auto (map (fun c => start_op (lname "component")
       ([lattr "objectid" (fmt_dec (co_oid c))] ++ opt (has_transform (co_tr c)) (lattr "transform" (matrix_string (co_tr c))) ++ any_attrs (co_any c)))
       (cs_list cs))).
(** encoder.go 440-464, writeVertices *)
Definition write_vertices (m : Mesh) : list op :=
  element (lname "vertices") (any_attrs (me_vany m))
    (auto_skip (map (fun v => start_op (lname "vertex") [lattr "x" (ffmt (px v)); lattr "y" (ffmt (py v)); lattr "z" (ffmt (pz v))]) (me_verts m))).
(** encoder.go 466-508, writeTriangles.  All triangles use one array of seven attributes; a slice of it grows in
    place as long as it fits, and is copied when it does not. *)
Definition tri_array : list Attr :=
  [lattr "v1" ""; lattr "v2" ""; lattr "v3" ""; lattr "pid" ""; lattr "p1" ""; lattr "p2" ""; lattr "p3" ""].
Inductive aslice := InPlace (len : nat) | Copied (l : list Attr).
Definition slice_append (arr : list Attr) (s : aslice) (xs : list Attr) : list Attr * aslice :=
  match s with
  | InPlace n =>
      if Nat.leb (n + List.length xs) (List.length arr)
      then (firstn n arr ++ xs ++ skipn (n + List.length xs) arr, InPlace (n + List.length xs))
      else (arr, Copied (firstn n arr ++ xs))
  | Copied l => (arr, Copied (l ++ xs))
  end.
Definition slice_view (arr : list Attr) (s : aslice) : list Attr := match s with InPlace n => firstn n arr | Copied l => l end.
(** [attrs[i].Value = v] *)
Fixpoint set_value (i : nat) (v : string) (arr : list Attr) : list Attr :=
  match arr, i with
  | [], _ => []
  | a :: r, O => mkAttr (aname a) v :: r
  | a :: r, S i => a :: set_value i v r
  end.
Fixpoint set_values (i : nat) (vs : list string) (arr : list Attr) : list Attr :=
  match vs with [] => arr | v :: r => set_values (S i) r (set_value i v arr) end.
(** encoder.go 484-501: the values written before the attributes of extensions *)
Definition tri_values (pid pindex : N) (t : Triangle) : list string :=
  map fmt_dec ([t_v1 t; t_v2 t; t_v3 t]
    ++ (if (t_pid t =? 0)%N then []
        else if negb (t_p1 t =? t_p2 t)%N || negb (t_p1 t =? t_p3 t)%N then [t_pid t; t_p1 t; t_p2 t; t_p3 t]
        else if negb (t_pid t =? pid)%N || negb (t_p1 t =? pindex)%N then [t_pid t; t_p1 t]
        else [])).
Definition tri_step (pid pindex : N) (arr : list Attr) (t : Triangle) : list Attr * list Attr :=
  let vs := tri_values pid pindex t in
  let (arr, s) := fold_left (fun st xs => slice_append (fst st) (snd st) xs) (any_appends (t_any t))
                    (set_values 0 vs arr, InPlace (List.length vs)) in
  (slice_view arr s, arr).
Fixpoint write_tris (pid pindex : N) (arr : list Attr) (l : list Triangle) : list op :=
  match l with
  | [] => []
  | t :: r => let (attrs, arr) := tri_step pid pindex arr t in start_op (lname "triangle") attrs :: write_tris pid pindex arr r
  end.
Definition write_triangles (o : Object) (m : Mesh) : list op :=
  element (lname "triangles") (any_attrs (me_tany m)) (auto_skip (write_tris (ob_pid o) (ob_pindex o) tri_array (me_tris m))).
(** encoder.go 510-520 *)
Definition write_mesh (o : Object) (m : Mesh) : list op :=
  element (lname "mesh") (any_attrs (me_any m)) (write_vertices m ++ write_triangles o m ++ write_any (me_ext m)).
(** encoder.go 375-417, writeObject *)
Definition object_attrs (o : Object) : list Attr :=
  let mesh := match ob_mesh o with Some _ => true | None => false end in
  [lattr "id" (fmt_dec (ob_id o))]
  ++ opt (negb (ob_type o =? 0)%Z) (lattr "type" (object_type_string (ob_type o)))
  ++ opt (nonempty (ob_thumb o)) (lattr "thumbnail" (ob_thumb o))
  ++ opt (nonempty (ob_part o)) (lattr "partnumber" (ob_part o))
  ++ opt (nonempty (ob_name o)) (lattr "name" (ob_name o))
  ++ opt (mesh && negb (ob_pid o =? 0)%N) (lattr "pid" (fmt_dec (ob_pid o)))
  ++ opt (mesh && negb (ob_pindex o =? 0)%N) (lattr "pindex" (fmt_dec (ob_pindex o)))
  ++ any_attrs (ob_any o).
Definition write_object (o : Object) : list op :=
  (if nonempty (ob_thumb o) then [OpRel (mkRel (ob_thumb o) rel_thumbnail "")] else [])
  ++ element (lname "object") (object_attrs o)
       ((match mg_list (ob_md o) with [] => [] | _ => write_metadata_group (ob_md o) end)
        ++ match ob_mesh o, ob_comps o with
           | Some m, _ => write_mesh o m
           | None, Some cs => write_components cs
           | None, None => []
           end).
(** encoder.go 522-543 *)
Definition write_basemats (r : BaseMaterials) : list op :=
  element (lname "basematerials") (lattr "id" (fmt_dec (bs_id r)) :: any_attrs (bs_any r))
    (auto (map (fun b => start_op (lname "base") ([lattr "name" (ba_name b); lattr "displaycolor" (format_rgba (ba_color b))] ++ any_attrs (ba_any b)))
       (bs_mats r))).
Definition write_asset (a : Asset) : list op :=
  match a with ABase b => write_basemats b | AUnknown _ l => write_tokens l | AExt e => write_ext e end.
(** encoder.go 325-348, writeResources *)
Definition write_resources (r : Resources) : list op :=
  element (lname "resources") (any_attrs (rs_any r)) (flat_map write_asset (rs_assets r) ++ flat_map write_object (rs_objects r)).
(** encoder.go 220-248, modelToken; the relationship of the thumbnail goes to the package, see M_Package *)
Definition model_attrs (m : Model) (isroot : bool) : list Attr :=
  [lattr "xmlns" ns_core; lattr "unit" (units_string (mo_units m)); mkAttr (mkName ns_xml "lang") (mo_lang m)]
  ++ opt (isroot && nonempty (mo_thumb m)) (lattr "thumbnail" (mo_thumb m))
  ++ map (fun e => mkAttr (mkName "xmlns" (ex_local e)) (ex_ns e)) (mo_exts m)
  ++ (match isort sleb (map ex_local (filter ex_req (mo_exts m))) with
      | [] => []
      | l => [lattr "requiredextensions" (sjoin " " l)]
      end)
  ++ any_attrs (mo_anyattr m).
(** encoder.go 266-281, writeModel *)
Definition write_model (m : Model) : list op :=
  element (lname "model") (model_attrs m true)
    (write_metadata (mo_md m) ++ write_resources (mo_res m) ++ write_build m ++ write_any (mo_any m)).
(** encoder.go 250-264, writeChildModel *)
Definition write_child (m : Model) (c : Child) : list op :=
  element (lname "model") (model_attrs m false)
    (write_resources (ch_res c) ++ element (lname "build") [] [] ++ write_any (ch_any c)).
End Encoder.
(** encoder.go 97-104, MarshalModel, with defaultFloatPrecision (20); no XML header *)
Definition marshal_model (m : Model) : string := print (write_model 4 m).
