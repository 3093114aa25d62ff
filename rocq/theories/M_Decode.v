(** * The decoder of model files (decoder.go, read.go 64-159, spec/, and the decoders of the extension packages)

    The element decoders of Go are objects linked by pointers; here a decoder is its kind [DK] and the data
    they share is the state [DSt].  A pointer to a record under construction is one of the registers of the
    state, or the last element of the list the record was appended to; that is what the pointer denotes,
    because nothing else is appended to that list as long as the decoder is in use (each kind says so where
    it is created).  Decoders of different files that run at the same time are the subject of Conc. *)
From Coq Require Import ZArith.
From Verif Require Import GoBase GoNum GoUtf8 GoFloat GoStrconv Types XmlTypes M_Core M_Errors M_Text M_Xml.

(** ** Extensions *)
(** The packages whose init has registered their Spec (materials/materials.go 29, production/production.go 36, slices/slices.go 24,
    beamlattice/beamlattice.go 31).  Specs from outside the repository are not modelled. *)
Record Reg := mkReg { rg_mat : bool; rg_prod : bool; rg_slices : bool; rg_beam : bool }.
Inductive SpecKind := SpMat | SpProd | SpSlices | SpBeam.
(** spec/spec.go 25-30, Load *)
Definition load (reg : Reg) (ns : string) : option SpecKind :=
  if seq ns ns_materials then (if rg_mat reg then Some SpMat else None)
  else if seq ns ns_production then (if rg_prod reg then Some SpProd else None)
  else if seq ns ns_slices then (if rg_slices reg then Some SpSlices else None)
  else if seq ns ns_beam then (if rg_beam reg then Some SpBeam else None)
  else None.
(** The methods Namespace: spec/unknown.go 15-17, production/production.go 45, 62, 80, 107, slices/slices.go 137 *)
Definition group_ns (g : AttrGroup) : string :=
  match g with
  | GUnknown sp _ => sp
  | GBuild _ | GObj _ | GItem _ _ | GComp _ _ => ns_production
  | GSlice _ _ => ns_slices
  end.
(** spec/spec.go 105-112, NewAttrGroup, with the methods of the packages: materials/decoder.go 15-17,
    production/decoder.go 19-33, slices/decoder.go 22-30, beamlattice/decoder.go 14-16.  The parent is always in
    the core namespace; [None] is a nil group. *)
Definition new_attr_group (reg : Reg) (ns parent : string) : option AttrGroup :=
  match load reg ns with
  | None => Some (GUnknown ns [])
  | Some SpMat | Some SpBeam => None
  | Some SpProd =>
      if seq parent "build" then Some (GBuild "")
      else if seq parent "item" then Some (GItem "" "")
      else if seq parent "object" then Some (GObj "")
      else if seq parent "component" then Some (GComp "" "")
      else None
  | Some SpSlices => if seq parent "object" then Some (GSlice 0 0) else None
  end.
Definition parse_err (a : Attr) (required : bool) : error := Some (EParse (nlocal (aname a)) required).
(** Unmarshal3MFAttr: spec/unknown.go 24-27, production/decoder.go 35-77, slices/decoder.go 32-48 *)
Definition unmarshal_attr (g : AttrGroup) (a : Attr) : AttrGroup * error :=
  let l := nlocal (aname a) in let v := avalue a in
  match g with
  | GUnknown sp attrs => (GUnknown sp (attrs ++ [a]), None)
  | GBuild u => if seq l "UUID" then if uuid_validate v then (GBuild v, None) else (g, parse_err a true) else (g, None)
  | GObj u => if seq l "UUID" then if uuid_validate v then (GObj v, None) else (g, parse_err a true) else (g, None)
  | GItem u p =>
      if seq l "UUID" then if uuid_validate v then (GItem v p, None) else (g, parse_err a true)
      else if seq l "path" then (GItem u v, None) else (g, None)
  | GComp u p =>
      if seq l "UUID" then if uuid_validate v then (GComp v p, None) else (g, parse_err a true)
      else if seq l "path" then (GComp u v, None) else (g, None)
  | GSlice id r =>
      if seq l "slicestackid" then
        let (n, ok) := parse_u32 v in if ok then (GSlice n r, None) else (g, parse_err a true)
      else if seq l "meshresolution" then
        match new_resolution v with Some m => (GSlice id m, None) | None => (g, parse_err a false) end
      else (g, None)
  end.
(** The code repeated by the core decoders (e.g. decoder.go 127-133): the group of the namespace of [a], created
    when there is none, takes the attribute; [None] is the call of a method of a nil group. *)
Fixpoint any_attr (reg : Reg) (parent : string) (any : AnyAttr) (a : Attr) : option (AnyAttr * error) :=
  match any with
  | [] =>
      match new_attr_group reg (nspace (aname a)) parent with
      | None => None
      | Some g => let (g, e) := unmarshal_attr g a in Some ([g], e)
      end
  | g :: r =>
      if seq (group_ns g) (nspace (aname a)) then let (g, e) := unmarshal_attr g a in Some (g :: r, e)
      else match any_attr reg parent r a with Some (r, e) => Some (g :: r, e) | None => None end
  end.
(** A loop over the attributes that collects errors with specerr.Append.  Where the Go code does not call Append
    because there is no error, appending nil changes nothing: the collected error is nil or a List. *)
Fixpoint attrs_loop {A} (f : A -> Attr -> option (A * error)) (x : A) (errs : error) (l : list Attr) : option (A * error) :=
  match l with
  | [] => Some (x, errs)
  | a :: r =>
      match f x a with
      | None => None
      | Some (x, e) => attrs_loop f x (append errs [e]) r
      end
  end.
(** [for _, a := range attrs { if cond { ...; break } }] *)
Fixpoint first_attr (p : Attr -> bool) (l : list Attr) : option Attr :=
  match l with [] => None | a :: r => if p a then Some a else first_attr p r end.
Definition is_attr (local : string) (a : Attr) : bool := seq (nspace (aname a)) "" && seq (nlocal (aname a)) local.

(** ** Texts of attributes *)
(** strconv.ParseUint with the error of the decoders *)
Definition get_u32 (a : Attr) (required : bool) : N * error :=
  let (n, ok) := parse_u32 (avalue a) in (n, if ok then None else parse_err a required).
Definition get_f32 (a : Attr) (required : bool) : f32 * error :=
  let (x, ok) := parse_float (avalue a) in (x, if ok then None else parse_err a required).
(** strconv.ParseBool, whose error is ignored *)
Definition parse_bool (s : string) : bool :=
  existsb (seq s) ["1"; "t"; "T"; "true"; "TRUE"; "True"].
(** spec/utils.go 61-78, ParseMatrix *)
Fixpoint parse_floats (l : list string) : option (list f32) :=
  match l with
  | [] => Some []
  | s :: r =>
      let (x, ok) := parse_float s in
      if ok then match parse_floats r with Some t => Some (x :: t) | None => None end else None
  end.
Definition parse_matrix (s : string) : Matrix * bool :=
  let values := fields s in
  if negb (Nat.eqb (List.length values) 12) then (matrix_zero, false)
  else match parse_floats values with
       | Some [a; b; c; d; e; f; g; h; i; j; k; l] =>
           (M16 a b c f_zero  d e f f_zero  g h i f_zero  j k l f_one, true)
       | _ => (matrix_zero, false)
       end.
(** [for _, f := range strings.Fields(v)] with ParseUint and ParseFloat *)
Fixpoint u32_fields (a : Attr) (l : list string) (errs : error) : list N * error :=
  match l with
  | [] => ([], errs)
  | s :: r =>
      let (n, ok) := parse_u32 s in
      let (t, errs) := u32_fields a r (append errs [if ok then None else parse_err a true]) in
      (n :: t, errs)
  end.
Fixpoint f32_fields (a : Attr) (l : list string) (errs : error) : list f32 * error :=
  match l with
  | [] => ([], errs)
  | s :: r =>
      let (n, ok) := parse_float s in
      let (t, errs) := f32_fields a r (append errs [if ok then None else parse_err a true]) in
      (n :: t, errs)
  end.

(** ** The state *)
Inductive loc := LRes | LModel | LMesh.
Inductive mloc := MModel | MItem | MObj.
(** The decoders of the extension packages *)
Inductive XK :=
| XkColorGroup | XkColor | XkTexGroup | XkCoord | XkTex | XkComposites | XkComposite | XkMultis | XkMulti
| XkStack | XkSliceRef | XkSlice | XkSVerts | XkSVert | XkPoly | XkSeg
| XkLattice | XkBeams | XkBeam | XkSets | XkSet | XkRef.
(** The decoders; [KExt l x]: of an extension element that was added to the assets, the Any list of the model or
    that of the mesh; [KUnk l]: spec.UnknownTokensDecoder in one of those Any lists *)
Inductive DK :=
| KTop | KModel | KMetaGroup (l : mloc) | KMeta (l : mloc) | KBuild | KItem | KRes | KBaseMats | KBase | KObj
| KMesh | KVerts | KVert | KTris | KTri | KComps | KComp | KUnkAsset | KUnk (l : loc) | KExt (l : loc) (x : XK).

(** The data.  [s_obj], [s_item] and [s_bm] are the fields [resource] and [item] of the decoders; once the End
    method has appended their address ([.._done]) they denote the last element of the list. *)
Record DSt := mkD {
  s_model : Model;
  s_obj : Object; s_obj_done : bool;
  s_item : Item; s_item_done : bool;
  s_bm : BaseMaterials; s_bm_done : bool;
  s_meta : Metadata; s_slice : Slice; s_set : BeamSet;
  s_unk : list Token; s_unk_id : N }.
Definition item_zero := mkItem 0 matrix_zero "" mg_zero [].
Definition meta_zero := mkMeta (mkName "" "") "" "" false.
Definition slice_zero := mkSlice f_zero [] [].
Definition set_zero := mkBS [] "" "".
Definition bm_zero := mkBM 0 [] [].
Definition d_init (m : Model) : DSt :=
  mkD m obj_zero false item_zero false bm_zero false meta_zero slice_zero set_zero [] 0.
Definition with_model (m : Model) (s : DSt) : DSt :=
  mkD m (s_obj s) (s_obj_done s) (s_item s) (s_item_done s) (s_bm s) (s_bm_done s) (s_meta s) (s_slice s) (s_set s) (s_unk s) (s_unk_id s).
Definition with_obj (o : Object) (b : bool) (s : DSt) : DSt :=
  mkD (s_model s) o b (s_item s) (s_item_done s) (s_bm s) (s_bm_done s) (s_meta s) (s_slice s) (s_set s) (s_unk s) (s_unk_id s).
Definition with_item (i : Item) (b : bool) (s : DSt) : DSt :=
  mkD (s_model s) (s_obj s) (s_obj_done s) i b (s_bm s) (s_bm_done s) (s_meta s) (s_slice s) (s_set s) (s_unk s) (s_unk_id s).
Definition with_bm (b : BaseMaterials) (d : bool) (s : DSt) : DSt :=
  mkD (s_model s) (s_obj s) (s_obj_done s) (s_item s) (s_item_done s) b d (s_meta s) (s_slice s) (s_set s) (s_unk s) (s_unk_id s).
Definition with_meta (m : Metadata) (s : DSt) : DSt :=
  mkD (s_model s) (s_obj s) (s_obj_done s) (s_item s) (s_item_done s) (s_bm s) (s_bm_done s) m (s_slice s) (s_set s) (s_unk s) (s_unk_id s).
Definition with_slice (l : Slice) (s : DSt) : DSt :=
  mkD (s_model s) (s_obj s) (s_obj_done s) (s_item s) (s_item_done s) (s_bm s) (s_bm_done s) (s_meta s) l (s_set s) (s_unk s) (s_unk_id s).
Definition with_set (b : BeamSet) (s : DSt) : DSt :=
  mkD (s_model s) (s_obj s) (s_obj_done s) (s_item s) (s_item_done s) (s_bm s) (s_bm_done s) (s_meta s) (s_slice s) b (s_unk s) (s_unk_id s).
Definition with_unk (t : list Token) (id : N) (s : DSt) : DSt :=
  mkD (s_model s) (s_obj s) (s_obj_done s) (s_item s) (s_item_done s) (s_bm s) (s_bm_done s) (s_meta s) (s_slice s) (s_set s) t id.

(** Assignments to fields *)
Definition mo_head (lang : string) (units : N) (thumb : string) (exts : list Extension) (any : AnyAttr) (m : Model) : Model :=
  mkModel (mo_path m) lang units thumb (mo_res m) (mo_build m) (mo_atts m) exts (mo_md m) (mo_childs m)
          (mo_rootrels m) (mo_rels m) (mo_any m) any.
Definition mo_set_res (r : Resources) (m : Model) : Model :=
  mkModel (mo_path m) (mo_lang m) (mo_units m) (mo_thumb m) r (mo_build m) (mo_atts m) (mo_exts m) (mo_md m) (mo_childs m)
          (mo_rootrels m) (mo_rels m) (mo_any m) (mo_anyattr m).
Definition mo_set_build (b : Build) (m : Model) : Model :=
  mkModel (mo_path m) (mo_lang m) (mo_units m) (mo_thumb m) (mo_res m) b (mo_atts m) (mo_exts m) (mo_md m) (mo_childs m)
          (mo_rootrels m) (mo_rels m) (mo_any m) (mo_anyattr m).
Definition mo_set_md (l : list Metadata) (m : Model) : Model :=
  mkModel (mo_path m) (mo_lang m) (mo_units m) (mo_thumb m) (mo_res m) (mo_build m) (mo_atts m) (mo_exts m) l (mo_childs m)
          (mo_rootrels m) (mo_rels m) (mo_any m) (mo_anyattr m).
Definition mo_set_childs (c : list (string * Child)) (m : Model) : Model :=
  mkModel (mo_path m) (mo_lang m) (mo_units m) (mo_thumb m) (mo_res m) (mo_build m) (mo_atts m) (mo_exts m) (mo_md m) c
          (mo_rootrels m) (mo_rels m) (mo_any m) (mo_anyattr m).
Definition mo_set_any (l : list AnyElem) (m : Model) : Model :=
  mkModel (mo_path m) (mo_lang m) (mo_units m) (mo_thumb m) (mo_res m) (mo_build m) (mo_atts m) (mo_exts m) (mo_md m) (mo_childs m)
          (mo_rootrels m) (mo_rels m) l (mo_anyattr m).
Definition ob_set_mesh (me : option Mesh) (o : Object) : Object :=
  mkObj (ob_id o) (ob_name o) (ob_part o) (ob_thumb o) (ob_pid o) (ob_pindex o) (ob_type o) (ob_md o) me (ob_comps o) (ob_any o).
Definition ob_set_comps (cs : option Components) (o : Object) : Object :=
  mkObj (ob_id o) (ob_name o) (ob_part o) (ob_thumb o) (ob_pid o) (ob_pindex o) (ob_type o) (ob_md o) (ob_mesh o) cs (ob_any o).
Definition ob_set_md (g : MetadataGroup) (o : Object) : Object :=
  mkObj (ob_id o) (ob_name o) (ob_part o) (ob_thumb o) (ob_pid o) (ob_pindex o) (ob_type o) g (ob_mesh o) (ob_comps o) (ob_any o).
Definition it_set_md (g : MetadataGroup) (i : Item) : Item := mkItem (it_oid i) (it_tr i) (it_part i) g (it_any i).
Definition rs_add_asset (a : Asset) (r : Resources) : Resources := mkRes (rs_assets r ++ [a]) (rs_objects r) (rs_any r).
Definition rs_add_object (o : Object) (r : Resources) : Resources := mkRes (rs_assets r) (rs_objects r ++ [o]) (rs_any r).
Definition me_add_any (e : AnyElem) (m : Mesh) : Mesh :=
  mkMesh (me_verts m) (me_vany m) (me_tris m) (me_tany m) (me_any m) (me_ext m ++ [e]).

Section Decoder.
Context (reg : Reg) (isroot : bool) (path : string).
(** What a reference into the scan buffer shows when the model is used *)
Context (later : Ref -> string).

(** decoder.go 28: the pointer [FindResources(d.path)] returned; path and children do not change while decoding *)
Definition res_get (s : DSt) : option Resources := find_resources (s_model s) path.
Definition res_set (r : Resources) (s : DSt) : DSt :=
  let m := s_model s in
  if seq path "" || seq path (mo_path m) || (seq (mo_path m) "" && seq path DefaultModelPath)
  then with_model (mo_set_res r m) s
  else match find_child m path with
       | Some c => with_model (mo_set_childs (map (fun kc => if seq (fst kc) path
           then (fst kc, mkChild r (ch_rels (snd kc)) (ch_any (snd kc))) else kc) (mo_childs m)) m) s
       | None => s
       end.
(** A method on the resources; on a nil pointer it panics *)
Definition res_upd (f : Resources -> Resources) (s : DSt) : option DSt :=
  match res_get s with Some r => Some (res_set (f r) s) | None => None end.

(** The record the decoder of an object, an item or base materials works on *)
Definition get_obj (s : DSt) : Object :=
  if s_obj_done s then match res_get s with Some r => last (rs_objects r) obj_zero | None => obj_zero end else s_obj s.
Definition upd_obj (f : Object -> Object) (s : DSt) : DSt :=
  if s_obj_done s then
    match res_get s with
    | Some r => res_set (mkRes (rs_assets r) (upd_last f (rs_objects r)) (rs_any r)) s
    | None => s
    end
  else with_obj (f (s_obj s)) false s.
Definition get_item (s : DSt) : Item :=
  if s_item_done s then last (bu_items (mo_build (s_model s))) item_zero else s_item s.
Definition upd_item (f : Item -> Item) (s : DSt) : DSt :=
  if s_item_done s then
    let b := mo_build (s_model s) in
    with_model (mo_set_build (mkBuild (upd_last f (bu_items b)) (bu_any b)) (s_model s)) s
  else with_item (f (s_item s)) false s.
Definition on_base (f : BaseMaterials -> BaseMaterials) (a : Asset) : Asset := match a with ABase b => ABase (f b) | _ => a end.
Definition get_bm (s : DSt) : BaseMaterials :=
  if s_bm_done s then
    match res_get s with Some r => match last (rs_assets r) (ABase bm_zero) with ABase b => b | _ => bm_zero end | None => bm_zero end
  else s_bm s.
Definition upd_bm (f : BaseMaterials -> BaseMaterials) (s : DSt) : DSt :=
  if s_bm_done s then
    match res_get s with
    | Some r => res_set (mkRes (upd_last (on_base f) (rs_assets r)) (rs_objects r) (rs_any r)) s
    | None => s
    end
  else with_bm (f (s_bm s)) false s.
(** The mesh of the object: [None] is a nil pointer, which meshDecoder.Start excludes for its children *)
Definition get_mesh (s : DSt) : option Mesh := ob_mesh (get_obj s).
Definition upd_mesh (f : Mesh -> Mesh) (s : DSt) : DSt :=
  upd_obj (fun o => ob_set_mesh (match ob_mesh o with Some me => Some (f me) | None => None end) o) s.
(** The element a decoder of an extension returned from Element: it was appended to the list when the decoder
    was created *)
Definition on_any (f : ExtElem -> ExtElem) (e : AnyElem) : AnyElem := match e with AnyExt x => AnyExt (f x) | _ => e end.
Definition on_asset (f : ExtElem -> ExtElem) (a : Asset) : Asset := match a with AExt x => AExt (f x) | _ => a end.
Definition any_ext (e : AnyElem) : option ExtElem := match e with AnyExt x => Some x | _ => None end.
Definition get_ext (l : loc) (s : DSt) : option ExtElem :=
  match l with
  | LRes => match res_get s with
            | Some r => match last (rs_assets r) (ABase bm_zero) with AExt x => Some x | _ => None end
            | None => None
            end
  | LModel => any_ext (last (mo_any (s_model s)) (AnyTokens []))
  | LMesh => match get_mesh s with Some me => any_ext (last (me_ext me) (AnyTokens [])) | None => None end
  end.
Definition upd_any (l : loc) (f : AnyElem -> AnyElem) (s : DSt) : DSt :=
  match l with
  | LRes => s
  | LModel => with_model (mo_set_any (upd_last f (mo_any (s_model s))) (s_model s)) s
  | LMesh => upd_mesh (fun m => mkMesh (me_verts m) (me_vany m) (me_tris m) (me_tany m) (me_any m) (upd_last f (me_ext m))) s
  end.
Definition upd_ext (l : loc) (f : ExtElem -> ExtElem) (s : DSt) : DSt :=
  match l with
  | LRes =>
      match res_get s with
      | Some r => res_set (mkRes (upd_last (on_asset f) (rs_assets r)) (rs_objects r) (rs_any r)) s
      | None => s
      end
  | _ => upd_any l (on_any f) s
  end.
Definition on_color (f : ColorGroup -> ColorGroup) (e : ExtElem) := match e with XColorGroup g => XColorGroup (f g) | _ => e end.
Definition on_texg (f : Tex2DGroup -> Tex2DGroup) (e : ExtElem) := match e with XTex2DGroup g => XTex2DGroup (f g) | _ => e end.
Definition on_tex (f : Texture2D -> Texture2D) (e : ExtElem) := match e with XTexture2D g => XTexture2D (f g) | _ => e end.
Definition on_comp (f : CompositeMaterials -> CompositeMaterials) (e : ExtElem) := match e with XComposite g => XComposite (f g) | _ => e end.
Definition on_multi (f : MultiProps -> MultiProps) (e : ExtElem) := match e with XMulti g => XMulti (f g) | _ => e end.
Definition on_stack (f : SliceStack -> SliceStack) (e : ExtElem) := match e with XSliceStack g => XSliceStack (f g) | _ => e end.
Definition on_lattice (f : BeamLattice -> BeamLattice) (e : ExtElem) := match e with XBeamLattice g => XBeamLattice (f g) | _ => e end.
Definition the_color (e : option ExtElem) := match e with Some (XColorGroup g) => g | _ => mkCG 0 [] end.
Definition the_texg (e : option ExtElem) := match e with Some (XTex2DGroup g) => g | _ => mkTG 0 0 [] end.
Definition the_tex (e : option ExtElem) := match e with Some (XTexture2D g) => g | _ => mkTex2D 0 "" 0 0 0 0 end.
Definition the_comp (e : option ExtElem) := match e with Some (XComposite g) => g | _ => mkCM 0 0 [] [] end.
Definition the_multi (e : option ExtElem) := match e with Some (XMulti g) => g | _ => mkMP 0 [] [] [] end.
Definition the_stack (e : option ExtElem) := match e with Some (XSliceStack g) => g | _ => mkSS 0 f_zero [] [] end.
Definition lattice_zero := mkBL 0 0 0 [] [] f_zero f_zero 0.
Definition the_lattice (e : option ExtElem) := match e with Some (XBeamLattice g) => g | _ => lattice_zero end.

(** The metadata a metadata decoder appends to (decoder.go 39-41, 119-121) *)
Definition get_md (l : mloc) (s : DSt) : list Metadata :=
  match l with MModel => mo_md (s_model s) | MItem => mg_list (it_md (get_item s)) | MObj => mg_list (ob_md (get_obj s)) end.
Definition add_md (l : mloc) (x : Metadata) (s : DSt) : DSt :=
  match l with
  | MModel => with_model (mo_set_md (mo_md (s_model s) ++ [x]) (s_model s)) s
  | MItem => upd_item (fun i => it_set_md (mkMG (mg_list (it_md i) ++ [x]) (mg_any (it_md i))) i) s
  | MObj => upd_obj (fun o => ob_set_md (mkMG (mg_list (ob_md o) ++ [x]) (mg_any (ob_md o))) o) s
  end.
Definition get_mg (l : mloc) (s : DSt) : MetadataGroup :=
  match l with MModel => mg_zero | MItem => it_md (get_item s) | MObj => ob_md (get_obj s) end.
Definition set_mg (l : mloc) (g : MetadataGroup) (s : DSt) : DSt :=
  match l with MModel => s | MItem => upd_item (it_set_md g) s | MObj => upd_obj (ob_set_md g) s end.

(** ** Child: the decoder of a child element, its index, or nil, or a panic *)
Inductive cres := CNil | CPanic | COk (i : Z) (k : DK) (s : DSt).
Definition zlen {A} (l : list A) : Z := Z.of_nat (List.length l).
Definition core (n : Name) (local : string) : bool := seq (nspace n) ns_core && seq (nlocal n) local.
(** What NewElementDecoder of the registered packages returns (materials/decoder.go 19-36, production/decoder.go
    15-17, slices/decoder.go 15-20, beamlattice/decoder.go 18-23): the decoder and its empty element.  The
    name is in the namespace of the package, which is how the package was found. *)
Definition ext_decoder (sp : SpecKind) (local : string) : option (XK * ExtElem) :=
  match sp with
  | SpMat =>
      if seq local "colorgroup" then Some (XkColorGroup, XColorGroup (mkCG 0 []))
      else if seq local "texture2dgroup" then Some (XkTexGroup, XTex2DGroup (mkTG 0 0 []))
      else if seq local "texture2d" then Some (XkTex, XTexture2D (mkTex2D 0 "" 0 0 0 0))
      else if seq local "compositematerials" then Some (XkComposites, XComposite (mkCM 0 0 [] []))
      else if seq local "multiproperties" then Some (XkMultis, XMulti (mkMP 0 [] [] []))
      else None
  | SpProd => None
  | SpSlices => if seq local "slicestack" then Some (XkStack, XSliceStack (mkSS 0 f_zero [] [])) else None
  | SpBeam => if seq local "beamlattice" then Some (XkLattice, XBeamLattice lattice_zero) else None
  end.
(** spec/spec.go 114-119, NewElementDecoder: the decoder and the element it builds *)
Definition new_element_decoder (l : loc) (n : Name) : option (DK * AnyElem) :=
  match load reg (nspace n) with
  | Some sp => match ext_decoder sp (nlocal n) with Some (x, e) => Some (KExt l x, AnyExt e) | None => None end
  | None => Some (KUnk l, AnyTokens [])
  end.
(** decoder.go 24-52, modelDecoder.Child *)
Definition model_child (n : Name) (s : DSt) : cres :=
  if seq (nspace n) ns_core then
    if seq (nlocal n) "resources" then COk (-1) KRes s
    else if seq (nlocal n) "build" then if isroot then COk (-1) KBuild s else CNil
    else if seq (nlocal n) "metadata" then
      if isroot then COk (zlen (mo_md (s_model s))) (KMeta MModel) (with_meta meta_zero s) else CNil
    else CNil
  else
    match new_element_decoder LModel n with
    | Some (k, e) => COk (-1) k (with_model (mo_set_any (mo_any (s_model s) ++ [e]) (s_model s)) s)
    | None => CNil
    end.
(** decoder.go 289-312, resourceDecoder.Child.  Every branch that makes a decoder uses the resources, which may be
    nil.  A beam lattice is no Asset: the type assertion panics. *)
Definition res_child (n : Name) (s : DSt) : cres :=
  let asset k (f : Resources -> Resources) s :=
    match res_get s with
    | Some r => COk (zlen (rs_assets r)) k (res_set (f r) s)
    | None => CPanic
    end in
  if seq (nspace n) ns_core then
    if seq (nlocal n) "object" then
      match res_get s with Some r => COk (zlen (rs_objects r)) KObj (with_obj obj_zero false s) | None => CPanic end
    else if seq (nlocal n) "basematerials" then asset KBaseMats (fun r => r) (with_bm bm_zero false s)
    else CNil
  else
    match load reg (nspace n) with
    | Some sp =>
        match ext_decoder sp (nlocal n) with
        | Some (_, XBeamLattice _) => CPanic
        | Some (x, e) => asset (KExt LRes x) (rs_add_asset (AExt e)) s
        | None => match res_get s with Some _ => CNil | None => CPanic end
        end
    | None => asset KUnkAsset (fun r => r) (with_unk [] 0 s)
    end.
(** decoder.go 407-429, meshDecoder.Child *)
Definition mesh_child (n : Name) (s : DSt) : cres :=
  if seq (nspace n) ns_core then
    if seq (nlocal n) "vertices" then COk (-1) KVerts s
    else if seq (nlocal n) "triangles" then COk (-1) KTris s
    else CNil
  else
    match new_element_decoder LMesh n with
    | Some (k, e) => COk (-1) k (upd_mesh (me_add_any e) s)
    | None => CNil
    end.
(** The Child methods of the extension decoders: materials/decoder.go 48-54, 127-133, 215-221, 287-293;
    slices/decoder.go 59-70, 135-146, 174-180, 213-219; beamlattice/decoder.go 80-92, 103-109, 165-171, 198-204 *)
Definition ext_child (l : loc) (x : XK) (n : Name) (s : DSt) : cres :=
  let e := get_ext l s in
  let is ns local := seq (nspace n) ns && seq (nlocal n) local in
  match x with
  | XkColorGroup => if is ns_materials "color" then COk (zlen (cg_colors (the_color e))) (KExt l XkColor) s else CNil
  | XkTexGroup => if is ns_materials "tex2coord" then COk (zlen (tg_coords (the_texg e))) (KExt l XkCoord) s else CNil
  | XkComposites => if is ns_materials "composite" then COk (zlen (cm_comps (the_comp e))) (KExt l XkComposite) s else CNil
  | XkMultis => if is ns_materials "multi" then COk (zlen (mp_multis (the_multi e))) (KExt l XkMulti) s else CNil
  | XkStack =>
      if is ns_slices "slice" then COk (zlen (ss_slices (the_stack e))) (KExt l XkSlice) (with_slice slice_zero s)
      else if is ns_slices "sliceref" then COk (zlen (ss_refs (the_stack e))) (KExt l XkSliceRef) s
      else CNil
  | XkSlice =>
      if is ns_slices "vertices" then COk (-1) (KExt l XkSVerts) s
      else if is ns_slices "polygon" then COk (zlen (sl_polys (s_slice s))) (KExt l XkPoly) s
      else CNil
  | XkSVerts => if is ns_slices "vertex" then COk (zlen (sl_verts (s_slice s))) (KExt l XkSVert) s else CNil
  | XkPoly => if is ns_slices "segment" then COk (zlen (sl_polys (s_slice s))) (KExt l XkSeg) s else CNil
  | XkLattice =>
      if is ns_beam "beams" then COk (-1) (KExt l XkBeams) s
      else if is ns_beam "beamsets" then COk (-1) (KExt l XkSets) s
      else CNil
  | XkBeams => if is ns_beam "beam" then COk (zlen (bl_beams (the_lattice e))) (KExt l XkBeam) s else CNil
  | XkSets => if is ns_beam "beamset" then COk (zlen (bl_sets (the_lattice e))) (KExt l XkSet) (with_set set_zero s) else CNil
  | XkSet => if is ns_beam "ref" then COk (zlen (bs_refs (s_set s))) (KExt l XkRef) s else CNil
  | _ => CNil
  end.
(** Whether the decoder is a spec.ChildElementDecoder *)
Definition has_child (k : DK) : bool :=
  match k with
  | KMeta _ | KBase | KVert | KTri | KComp | KUnkAsset | KUnk _ => false
  | KExt _ x =>
      match x with
      | XkColor | XkCoord | XkTex | XkComposite | XkMulti | XkSliceRef | XkSVert | XkSeg | XkBeam | XkRef => false
      | _ => true
      end
  | _ => true
  end.
(** Child.  decoder.go 117-123 (metadata group), 194-200 (build), 226-232 (item), 325-331 (base materials), 446-452
    (vertices), 516-522 (triangles), 626-640 (object), 699-705 (components), 758-765 (top) *)
Definition child (k : DK) (n : Name) (s : DSt) : cres :=
  match k with
  | KTop => if core n "model" then COk (-1) KModel s else CNil
  | KModel => model_child n s
  | KMetaGroup l => if core n "metadata" then COk (zlen (get_md l s)) (KMeta l) (with_meta meta_zero s) else CNil
  | KBuild => if core n "item" then COk (zlen (bu_items (mo_build (s_model s)))) KItem (with_item item_zero false s) else CNil
  | KItem => if core n "metadatagroup" then COk (-1) (KMetaGroup MItem) s else CNil
  | KRes => res_child n s
  | KBaseMats => if core n "base" then COk (zlen (bs_mats (get_bm s))) KBase s else CNil
  | KObj =>
      if core n "mesh" then COk (-1) KMesh s
      else if core n "components" then COk (-1) KComps s
      else if core n "metadatagroup" then COk (-1) (KMetaGroup MObj) s
      else CNil
  | KMesh => mesh_child n s
  | KVerts => if core n "vertex" then COk (zlen (match get_mesh s with Some m => me_verts m | None => [] end)) KVert s else CNil
  | KTris => if core n "triangle" then COk (zlen (match get_mesh s with Some m => me_tris m | None => [] end)) KTri s else CNil
  | KComps => if core n "component" then COk (zlen (match ob_comps (get_obj s) with Some c => cs_list c | None => [] end)) KComp s else CNil
  | KExt l x => ext_child l x n s
  | _ => CNil
  end.

(** ** Start: the new state and the error, or a panic *)
(** decoder.go 87-109, noCoreAttribute *)
Definition model_nocore (m : Model) (a : Attr) : option (Model * error) :=
  let head lang exts any := mo_head lang (mo_units m) (mo_thumb m) exts any m in
  if seq (nspace (aname a)) "http://www.w3.org/XML/1998/namespace" then
    Some (if seq (nlocal (aname a)) "lang" then head (avalue a) (mo_exts m) (mo_anyattr m) else m, None)
  else if seq (nspace (aname a)) "xmlns" then
    Some (head (mo_lang m) (mo_exts m ++ [mkExt (avalue a) (nlocal (aname a)) false]) (mo_anyattr m), None)
  else
    match any_attr reg "model" (mo_anyattr m) a with
    | Some (any, e) => Some (head (mo_lang m) (mo_exts m) any, append None [e])
    | None => None
    end.
(** decoder.go 58-74: one attribute of the model, with the required extensions found so far *)
Definition model_attr (x : Model * list string) (a : Attr) : option ((Model * list string) * error) :=
  let (m, req) := x in
  if seq (nspace (aname a)) "" then
    let l := nlocal (aname a) in
    if seq l "unit" then
      match new_units (avalue a) with
      | Some u => Some ((mo_head (mo_lang m) u (mo_thumb m) (mo_exts m) (mo_anyattr m) m, req), None)
      | None => Some ((mo_head (mo_lang m) 0 (mo_thumb m) (mo_exts m) (mo_anyattr m) m, req), parse_err a false)
      end
    else if seq l "thumbnail" then Some ((mo_head (mo_lang m) (mo_units m) (avalue a) (mo_exts m) (mo_anyattr m) m, req), None)
    else if seq l "requiredextensions" then Some ((m, fields (avalue a)), None)
    else Some (x, None)
  else match model_nocore m a with Some (m, e) => Some ((m, req), e) | None => None end.
(** decoder.go 76-84: the first extension with that prefix becomes required *)
Fixpoint require (local : string) (l : list Extension) : list Extension :=
  match l with
  | [] => []
  | e :: r => if seq (ex_local e) local then mkExt (ex_ns e) (ex_local e) true :: r else e :: require local r
  end.
(** decoder.go 54-85, modelDecoder.Start *)
Definition model_start (attrs : list Attr) (s : DSt) : option (DSt * error) :=
  if negb isroot then Some (s, None)
  else
    match attrs_loop model_attr (s_model s, []) None attrs with
    | None => None
    | Some ((m, req), e) =>
        let exts := fold_left (fun l local => require local l) req (mo_exts m) in
        Some (with_model (mo_head (mo_lang m) (mo_units m) (mo_thumb m) exts (mo_anyattr m) m) s, e)
    end.
(** Start of the elements that only have attributes of extensions: decoder.go 125-136, 202-213, 277-287, 396-405,
    437-444, 505-514, 682-697 *)
Definition group_start (parent : string) (any : AnyAttr) (attrs : list Attr) : option (AnyAttr * error) :=
  attrs_loop (any_attr reg parent) any None attrs.
(** decoder.go 145-177, metadataDecoder.namespace and Start *)
Definition meta_attr (exts : list Extension) (x : Metadata) (a : Attr) : Metadata :=
  let l := nlocal (aname a) in let v := avalue a in
  if negb (seq (nspace (aname a)) "") then x
  else if seq l "name" then
    let name := match split_at ":" v with
                | Some (p, r) => if existsb (fun e => seq (ex_local e) p) exts then mkName p r else mkName "" v
                | None => mkName "" v
                end in
    mkMeta name (md_value x) (md_type x) (md_preserve x)
  else if seq l "type" then mkMeta (md_name x) (md_value x) v (md_preserve x)
  else if seq l "preserve" then mkMeta (md_name x) (md_value x) (md_type x) (parse_bool v)
  else x.
(** decoder.go 234-269, buildItemDecoder.Start and parseCoreAttr *)
Definition item_attr (i : Item) (a : Attr) : option (Item * error) :=
  let l := nlocal (aname a) in
  if seq (nspace (aname a)) "" then
    if seq l "objectid" then
      let (n, e) := get_u32 a true in Some (mkItem n (it_tr i) (it_part i) (it_md i) (it_any i), append None [e])
    else if seq l "partnumber" then Some (mkItem (it_oid i) (it_tr i) (avalue a) (it_md i) (it_any i), None)
    else if seq l "transform" then
      let (t, ok) := parse_matrix (avalue a) in
      Some (mkItem (it_oid i) t (it_part i) (it_md i) (it_any i), append None [if ok then None else parse_err a false])
    else Some (i, None)
  else
    match any_attr reg "item" (it_any i) a with
    | Some (any, e) => Some (mkItem (it_oid i) (it_tr i) (it_part i) (it_md i) any, e)
    | None => None
    end.
(** decoder.go 333-355, baseMaterialsDecoder.Start *)
Definition bm_attr (b : BaseMaterials) (a : Attr) : option (BaseMaterials * error) :=
  if seq (nspace (aname a)) "" then
    if seq (nlocal (aname a)) "id" then let (n, e) := get_u32 a true in Some (mkBM n (bs_mats b) (bs_any b), e)
    else Some (b, None)
  else
    match any_attr reg "basematerials" (bs_any b) a with
    | Some (any, e) => Some (mkBM (bs_id b) (bs_mats b) any, e)
    | None => None
    end.
(** decoder.go 362-390, baseMaterialDecoder.Start *)
Definition base_attr (b : Base) (a : Attr) : option (Base * error) :=
  if seq (nspace (aname a)) "" then
    if seq (nlocal (aname a)) "name" then Some (mkBase (avalue a) (ba_color b) (ba_any b), None)
    else if seq (nlocal (aname a)) "displaycolor" then
      let (c, ok) := parse_rgba (avalue a) in
      Some (mkBase (ba_name b) c (ba_any b), if ok then None else parse_err a true)
    else Some (b, None)
  else
    match any_attr reg "base" (ba_any b) a with
    | Some (any, e) => Some (mkBase (ba_name b) (ba_color b) any, e)
    | None => None
    end.
(** decoder.go 464-488, vertexDecoder.Start.  The values are read without copying, before the buffer changes. *)
Definition vertex_attr (p : Point3D) (a : Attr) : option (Point3D * error) :=
  let l := nlocal (aname a) in
  if negb (seq (nspace (aname a)) "") then Some (p, None)
  else
    let (v, e) := get_f32 a true in
    Some (if seq l "x" then P3 v (py p) (pz p) else if seq l "y" then P3 (px p) v (pz p)
          else if seq l "z" then P3 (px p) (py p) v else p, e).
(** decoder.go 530-579: the variables of triangleDecoder.Start; [None] for hasX false *)
Record TriV := mkTriV { tv_v1 : N; tv_v2 : N; tv_v3 : N; tv_pid : option N; tv_p1 : option N; tv_p2 : option N; tv_p3 : option N;
                        tv_any : AnyAttr }.
Definition tri_attr (t : TriV) (a : Attr) : option (TriV * error) :=
  let l := nlocal (aname a) in
  if seq (nspace (aname a)) "" then
    let opt := seq l "pid" || seq l "p1" || seq l "p2" || seq l "p3" in
    let (v, e) := get_u32 a (negb opt) in
    Some (if seq l "v1" then mkTriV v (tv_v2 t) (tv_v3 t) (tv_pid t) (tv_p1 t) (tv_p2 t) (tv_p3 t) (tv_any t)
          else if seq l "v2" then mkTriV (tv_v1 t) v (tv_v3 t) (tv_pid t) (tv_p1 t) (tv_p2 t) (tv_p3 t) (tv_any t)
          else if seq l "v3" then mkTriV (tv_v1 t) (tv_v2 t) v (tv_pid t) (tv_p1 t) (tv_p2 t) (tv_p3 t) (tv_any t)
          else if seq l "pid" then mkTriV (tv_v1 t) (tv_v2 t) (tv_v3 t) (Some v) (tv_p1 t) (tv_p2 t) (tv_p3 t) (tv_any t)
          else if seq l "p1" then mkTriV (tv_v1 t) (tv_v2 t) (tv_v3 t) (tv_pid t) (Some v) (tv_p2 t) (tv_p3 t) (tv_any t)
          else if seq l "p2" then mkTriV (tv_v1 t) (tv_v2 t) (tv_v3 t) (tv_pid t) (tv_p1 t) (Some v) (tv_p3 t) (tv_any t)
          else if seq l "p3" then mkTriV (tv_v1 t) (tv_v2 t) (tv_v3 t) (tv_pid t) (tv_p1 t) (tv_p2 t) (Some v) (tv_any t)
          else t, e)
  else
    match any_attr reg "triangle" (tv_any t) a with
    | Some (any, e) => Some (mkTriV (tv_v1 t) (tv_v2 t) (tv_v3 t) (tv_pid t) (tv_p1 t) (tv_p2 t) (tv_p3 t) any, e)
    | None => None
    end.
(** decoder.go 589-594, applyDefault *)
Definition apply_default (v : option N) (d : N) : N := match v with Some v => v | None => d end.
(** decoder.go 580-586 *)
Definition tri_of (pid pindex : N) (t : TriV) : Triangle :=
  let p1 := apply_default (tv_p1 t) pindex in
  mkTri (tv_v1 t) (tv_v2 t) (tv_v3 t) (apply_default (tv_pid t) pid) p1 (apply_default (tv_p2 t) p1) (apply_default (tv_p3 t) p1) (tv_any t).
(** decoder.go 607-623 and 642-674, objectDecoder.Start and parseCoreAttr *)
Definition obj_attr (o : Object) (a : Attr) : option (Object * error) :=
  let l := nlocal (aname a) in let v := avalue a in
  let mk id name part thumb pid pindex ty any := mkObj id name part thumb pid pindex ty (ob_md o) (ob_mesh o) (ob_comps o) any in
  if seq (nspace (aname a)) "" then
    if seq l "id" then
      let (n, e) := get_u32 a true in
      Some (mk n (ob_name o) (ob_part o) (ob_thumb o) (ob_pid o) (ob_pindex o) (ob_type o) (ob_any o), append None [e])
    else if seq l "type" then
      let (t, e) := match new_object_type v with Some t => (t, None) | None => (0%Z, parse_err a false) end in
      Some (mk (ob_id o) (ob_name o) (ob_part o) (ob_thumb o) (ob_pid o) (ob_pindex o) t (ob_any o), append None [e])
    else if seq l "thumbnail" then
      Some (mk (ob_id o) (ob_name o) (ob_part o) v (ob_pid o) (ob_pindex o) (ob_type o) (ob_any o), None)
    else if seq l "name" then
      Some (mk (ob_id o) v (ob_part o) (ob_thumb o) (ob_pid o) (ob_pindex o) (ob_type o) (ob_any o), None)
    else if seq l "partnumber" then
      Some (mk (ob_id o) (ob_name o) v (ob_thumb o) (ob_pid o) (ob_pindex o) (ob_type o) (ob_any o), None)
    else if seq l "pid" then
      let (n, e) := get_u32 a false in
      Some (mk (ob_id o) (ob_name o) (ob_part o) (ob_thumb o) n (ob_pindex o) (ob_type o) (ob_any o), append None [e])
    else if seq l "pindex" then
      let (n, e) := get_u32 a false in
      Some (mk (ob_id o) (ob_name o) (ob_part o) (ob_thumb o) (ob_pid o) n (ob_type o) (ob_any o), append None [e])
    else Some (o, None)
  else
    match any_attr reg "object" (ob_any o) a with
    | Some (any, e) => Some (mk (ob_id o) (ob_name o) (ob_part o) (ob_thumb o) (ob_pid o) (ob_pindex o) (ob_type o) any, e)
    | None => None
    end.
(** decoder.go 712-743, componentDecoder.Start *)
Definition comp_attr (c : Component) (a : Attr) : option (Component * error) :=
  if seq (nspace (aname a)) "" then
    if seq (nlocal (aname a)) "objectid" then
      let (n, e) := get_u32 a true in Some (mkComp n (co_tr c) (co_any c), e)
    else if seq (nlocal (aname a)) "transform" then
      let (t, ok) := parse_matrix (avalue a) in
      Some (mkComp (co_oid c) t (co_any c), if ok then None else parse_err a false)
    else Some (c, None)
  else
    match any_attr reg "component" (co_any c) a with
    | Some (any, e) => Some (mkComp (co_oid c) (co_tr c) any, e)
    | None => None
    end.
(** materials/decoder.go 100-117, tex2DCoordDecoder.Start *)
Definition coord_attr (p : f32 * f32) (a : Attr) : option ((f32 * f32) * error) :=
  if negb (seq (nspace (aname a)) "") then Some (p, None)
  else
    let (v, e) := get_f32 a true in
    Some (if seq (nlocal (aname a)) "u" then (v, snd p) else if seq (nlocal (aname a)) "v" then (fst p, v) else p, e).
(** materials/decoder.go 135-158, tex2DGroupDecoder.Start *)
Definition texg_attr (g : Tex2DGroup) (a : Attr) : option (Tex2DGroup * error) :=
  if negb (seq (nspace (aname a)) "") then Some (g, None)
  else if seq (nlocal (aname a)) "id" then let (n, e) := get_u32 a true in Some (mkTG n (tg_tex g) (tg_coords g), e)
  else if seq (nlocal (aname a)) "texid" then let (n, e) := get_u32 a true in Some (mkTG (tg_id g) n (tg_coords g), e)
  else Some (g, None).
Definition or0 (o : option N) : N := match o with Some n => n | None => 0%N end.
(** materials/decoder.go 169-195, texture2DDecoder.Start: unknown texts give the value 0 without error *)
Definition tex_attr (t : Texture2D) (a : Attr) : option (Texture2D * error) :=
  let l := nlocal (aname a) in let v := avalue a in
  if negb (seq (nspace (aname a)) "") then Some (t, None)
  else if seq l "id" then
    let (n, e) := get_u32 a true in Some (mkTex2D n (tx_path t) (tx_ctype t) (tx_tu t) (tx_tv t) (tx_filter t), e)
  else if seq l "path" then Some (mkTex2D (tx_id t) v (tx_ctype t) (tx_tu t) (tx_tv t) (tx_filter t), None)
  else if seq l "contenttype" then Some (mkTex2D (tx_id t) (tx_path t) (or0 (new_tex_type v)) (tx_tu t) (tx_tv t) (tx_filter t), None)
  else if seq l "tilestyleu" then Some (mkTex2D (tx_id t) (tx_path t) (tx_ctype t) (or0 (new_tile v)) (tx_tv t) (tx_filter t), None)
  else if seq l "tilestylev" then Some (mkTex2D (tx_id t) (tx_path t) (tx_ctype t) (tx_tu t) (or0 (new_tile v)) (tx_filter t), None)
  else if seq l "filter" then Some (mkTex2D (tx_id t) (tx_path t) (tx_ctype t) (tx_tu t) (tx_tv t) (or0 (new_filter v)), None)
  else Some (t, None).
(** materials/decoder.go 223-253, compositeMaterialsDecoder.Start *)
Definition composites_attr (g : CompositeMaterials) (a : Attr) : option (CompositeMaterials * error) :=
  let l := nlocal (aname a) in
  if negb (seq (nspace (aname a)) "") then Some (g, None)
  else if seq l "id" then let (n, e) := get_u32 a true in Some (mkCM n (cm_mat g) (cm_indices g) (cm_comps g), e)
  else if seq l "matid" then let (n, e) := get_u32 a true in Some (mkCM (cm_id g) n (cm_indices g) (cm_comps g), e)
  else if seq l "matindices" then
    let (ns, e) := u32_fields a (fields (avalue a)) None in
    Some (mkCM (cm_id g) (cm_mat g) (cm_indices g ++ ns) (cm_comps g), e)
  else Some (g, None).
(** materials/decoder.go 260-278, compositeDecoder.Start *)
Definition composite_attr (c : list f32) (a : Attr) : option (list f32 * error) :=
  if is_attr "values" a then let (vs, e) := f32_fields a (fields (avalue a)) None in Some (c ++ vs, e) else Some (c, None).
(** materials/decoder.go 295-323, multiPropertiesDecoder.Start *)
Definition multis_attr (g : MultiProps) (a : Attr) : option (MultiProps * error) :=
  let l := nlocal (aname a) in
  if negb (seq (nspace (aname a)) "") then Some (g, None)
  else if seq l "id" then let (n, e) := get_u32 a true in Some (mkMP n (mp_pids g) (mp_blend g) (mp_multis g), e)
  else if seq l "blendmethods" then
    Some (mkMP (mp_id g) (mp_pids g) (mp_blend g ++ map (fun f => or0 (new_blend f)) (fields (avalue a))) (mp_multis g), None)
  else if seq l "pids" then
    let (ns, e) := u32_fields a (fields (avalue a)) None in
    Some (mkMP (mp_id g) (mp_pids g ++ ns) (mp_blend g) (mp_multis g), e)
  else Some (g, None).
(** materials/decoder.go 330-346, multiDecoder.Start *)
Definition multi_attr (c : list N) (a : Attr) : option (list N * error) :=
  if is_attr "pindices" a then let (vs, e) := u32_fields a (fields (avalue a)) None in Some (c ++ vs, e) else Some (c, None).
(** slices/decoder.go 72-91, sliceStackDecoder.Start: any namespace *)
Definition stack_attr (g : SliceStack) (a : Attr) : option (SliceStack * error) :=
  if seq (nlocal (aname a)) "id" then let (n, e) := get_u32 a true in Some (mkSS n (ss_bottom g) (ss_slices g) (ss_refs g), e)
  else if seq (nlocal (aname a)) "zbottom" then let (v, e) := get_f32 a false in Some (mkSS (ss_id g) v (ss_slices g) (ss_refs g), e)
  else Some (g, None).
(** slices/decoder.go 98-119, sliceRefDecoder.Start *)
Definition sliceref_attr (r : SliceRef) (a : Attr) : option (SliceRef * error) :=
  if seq (nlocal (aname a)) "slicestackid" then let (n, e) := get_u32 a true in Some (mkSRef n (sr_path r), e)
  else if seq (nlocal (aname a)) "slicepath" then Some (mkSRef (sr_id r) (avalue a), None)
  else Some (r, None).
(** slices/decoder.go 187-206, polygonVertexDecoder.Start *)
Definition svert_attr (p : Point2D) (a : Attr) : option (Point2D * error) :=
  let (v, e) := get_f32 a true in
  Some (if seq (nlocal (aname a)) "x" then P2 v (p2y p) else if seq (nlocal (aname a)) "y" then P2 (p2x p) v else p, e).
(** slices/decoder.go 245-276, polygonSegmentDecoder.Start, with hasP1 and hasP2 *)
Definition seg_attr (x : Segment * (bool * bool)) (a : Attr) : option ((Segment * (bool * bool)) * error) :=
  let '(g, (h1, h2)) := x in
  let l := nlocal (aname a) in
  let (v, e) := get_u32 a (seq l "v2") in
  let '(g, h1, h2) :=
    if seq l "v2" then (mkSeg v (sg_pid g) (sg_p1 g) (sg_p2 g), h1, h2)
    else if seq l "pid" then (mkSeg (sg_v2 g) v (sg_p1 g) (sg_p2 g), h1, h2)
    else if seq l "p1" then (mkSeg (sg_v2 g) (sg_pid g) v (sg_p2 g), true, h2)
    else if seq l "p2" then (mkSeg (sg_v2 g) (sg_pid g) (sg_p1 g) v, h1, true)
    else (g, h1, h2) in
  let g := if h1 && negb h2 then mkSeg (sg_v2 g) (sg_pid g) (sg_p1 g) (sg_p1 g) else g in
  Some ((g, (h1, h2)), e).
(** beamlattice/decoder.go 34-78, beamLatticeDecoder.Start *)
Definition lattice_attr (b : BeamLattice) (a : Attr) : option (BeamLattice * error) :=
  let l := nlocal (aname a) in let v := avalue a in
  let mk clip cmesh rmesh minlen radius cap := mkBL clip cmesh rmesh (bl_beams b) (bl_sets b) minlen radius cap in
  if negb (seq (nspace (aname a)) "") then Some (b, None)
  else if seq l "radius" then
    let (x, e) := get_f32 a true in Some (mk (bl_clip b) (bl_clipmesh b) (bl_repmesh b) (bl_minlen b) x (bl_cap b), e)
  else if seq l "minlength" || seq l "precision" then
    let (x, e) := get_f32 a true in Some (mk (bl_clip b) (bl_clipmesh b) (bl_repmesh b) x (bl_radius b) (bl_cap b), e)
  else if seq l "clippingmode" || seq l "clipping" then
    Some (mk (or0 (new_clip v)) (bl_clipmesh b) (bl_repmesh b) (bl_minlen b) (bl_radius b) (bl_cap b),
          match new_clip v with Some _ => None | None => parse_err a false end)
  else if seq l "clippingmesh" then
    let (n, e) := get_u32 a false in Some (mk (bl_clip b) n (bl_repmesh b) (bl_minlen b) (bl_radius b) (bl_cap b), e)
  else if seq l "representationmesh" then
    let (n, e) := get_u32 a false in Some (mk (bl_clip b) (bl_clipmesh b) n (bl_minlen b) (bl_radius b) (bl_cap b), e)
  else if seq l "cap" then
    Some (mk (bl_clip b) (bl_clipmesh b) (bl_repmesh b) (bl_minlen b) (bl_radius b) (or0 (new_cap v)),
          match new_cap v with Some _ => None | None => parse_err a false end)
  else Some (b, None).
(** beamlattice/decoder.go 116-157: the attributes of a beam, with hasCap1 and hasCap2 *)
Definition beam_attr (x : Beam * (bool * bool)) (a : Attr) : option ((Beam * (bool * bool)) * error) :=
  let '(b, (h1, h2)) := x in
  let l := nlocal (aname a) in let v := avalue a in
  let some (o : option N) := match o with Some _ => true | None => false end in
  if negb (seq (nspace (aname a)) "") then Some (x, None)
  else if seq l "v1" then
    let (n, e) := get_u32 a true in Some ((mkBeam n (bm_i2 b) (bm_r1 b) (bm_r2 b) (bm_c1 b) (bm_c2 b), (h1, h2)), e)
  else if seq l "v2" then
    let (n, e) := get_u32 a true in Some ((mkBeam (bm_i1 b) n (bm_r1 b) (bm_r2 b) (bm_c1 b) (bm_c2 b), (h1, h2)), e)
  else if seq l "r1" then
    let (r, e) := get_f32 a false in Some ((mkBeam (bm_i1 b) (bm_i2 b) r (bm_r2 b) (bm_c1 b) (bm_c2 b), (h1, h2)), e)
  else if seq l "r2" then
    let (r, e) := get_f32 a false in Some ((mkBeam (bm_i1 b) (bm_i2 b) (bm_r1 b) r (bm_c1 b) (bm_c2 b), (h1, h2)), e)
  else if seq l "cap1" then
    Some ((mkBeam (bm_i1 b) (bm_i2 b) (bm_r1 b) (bm_r2 b) (or0 (new_cap v)) (bm_c2 b), (h1 || some (new_cap v), h2)), None)
  else if seq l "cap2" then
    Some ((mkBeam (bm_i1 b) (bm_i2 b) (bm_r1 b) (bm_r2 b) (bm_c1 b) (or0 (new_cap v)), (h1, h2 || some (new_cap v))), None)
  else Some (x, None).
(** beamlattice/decoder.go 158-171: the defaults *)
Definition beam_of (g : BeamLattice) (x : Beam * (bool * bool)) : Beam :=
  let '(b, (h1, h2)) := x in
  let r1 := if feqb (bm_r1 b) f_zero then bl_radius g else bm_r1 b in
  let r2 := if feqb (bm_r2 b) f_zero then r1 else bm_r2 b in
  mkBeam (bm_i1 b) (bm_i2 b) r1 r2 (if h1 then bm_c1 b else bl_cap g) (if h2 then bm_c2 b else bl_cap g).
(** beamlattice/decoder.go 200-214, beamSetDecoder.Start *)
Definition set_attr (b : BeamSet) (a : Attr) : BeamSet :=
  if negb (seq (nspace (aname a)) "") then b
  else if seq (nlocal (aname a)) "name" then mkBS (bs_refs b) (avalue a) (bs_ident b)
  else if seq (nlocal (aname a)) "identifier" then mkBS (bs_refs b) (bs_name b) (avalue a)
  else b.
Definition beam_zero := mkBeam 0 0 f_zero f_zero 0 0.
(** The Start methods of the extension decoders *)
Definition ext_start (l : loc) (x : XK) (attrs : list Attr) (s : DSt) : option (DSt * error) :=
  let e := get_ext l s in
  (* a loop that ends in an update of the element *)
  let fin {A} (r : option (A * error)) (f : A -> DSt) := match r with Some (v, e) => Some (f v, e) | None => None end in
  match x with
  | XkColorGroup => (* materials/decoder.go 56-69 *)
      match first_attr (is_attr "id") attrs with
      | Some a => let (n, er) := get_u32 a true in
                  Some (upd_ext l (on_color (fun g => mkCG n (cg_colors g))) s, append None [er])
      | None => Some (s, None)
      end
  | XkColor => (* 76-91 *)
      match first_attr (is_attr "color") attrs with
      | Some a => let (c, ok) := parse_rgba (avalue a) in
                  Some (upd_ext l (on_color (fun g => mkCG (cg_id g) (cg_colors g ++ [c]))) s, if ok then None else parse_err a true)
      | None => Some (s, None)
      end
  | XkTexGroup => fin (attrs_loop texg_attr (the_texg e) None attrs) (fun g => upd_ext l (on_texg (fun _ => g)) s)
  | XkCoord => fin (attrs_loop coord_attr (f_zero, f_zero) None attrs)
                 (fun c => upd_ext l (on_texg (fun g => mkTG (tg_id g) (tg_tex g) (tg_coords g ++ [c]))) s)
  | XkTex => fin (attrs_loop tex_attr (the_tex e) None attrs) (fun g => upd_ext l (on_tex (fun _ => g)) s)
  | XkComposites => fin (attrs_loop composites_attr (the_comp e) None attrs) (fun g => upd_ext l (on_comp (fun _ => g)) s)
  | XkComposite => fin (attrs_loop composite_attr [] None attrs)
                     (fun c => upd_ext l (on_comp (fun g => mkCM (cm_id g) (cm_mat g) (cm_indices g) (cm_comps g ++ [c]))) s)
  | XkMultis => fin (attrs_loop multis_attr (the_multi e) None attrs) (fun g => upd_ext l (on_multi (fun _ => g)) s)
  | XkMulti => fin (attrs_loop multi_attr [] None attrs)
                 (fun c => upd_ext l (on_multi (fun g => mkMP (mp_id g) (mp_pids g) (mp_blend g) (mp_multis g ++ [c]))) s)
  | XkStack => fin (attrs_loop stack_attr (the_stack e) None attrs) (fun g => upd_ext l (on_stack (fun _ => g)) s)
  | XkSliceRef => fin (attrs_loop sliceref_attr (mkSRef 0 "") None attrs)
                    (fun r => upd_ext l (on_stack (fun g => mkSS (ss_id g) (ss_bottom g) (ss_slices g) (ss_refs g ++ [r]))) s)
  | XkSlice => (* slices/decoder.go 148-161 *)
      match first_attr (fun a => seq (nlocal (aname a)) "ztop") attrs with
      | Some a => let (v, er) := get_f32 a true in
                  Some (with_slice (mkSlice v (sl_verts (s_slice s)) (sl_polys (s_slice s))) s, append None [er])
      | None => Some (s, None)
      end
  | XkSVerts => Some (s, None)
  | XkSVert => fin (attrs_loop svert_attr (P2 f_zero f_zero) None attrs)
                 (fun p => with_slice (mkSlice (sl_top (s_slice s)) (sl_verts (s_slice s) ++ [p]) (sl_polys (s_slice s))) s)
  | XkPoly => (* 221-238 *)
      let add v := with_slice (mkSlice (sl_top (s_slice s)) (sl_verts (s_slice s)) (sl_polys (s_slice s) ++ [mkPoly v []])) s in
      match first_attr (fun a => seq (nlocal (aname a)) "startv") attrs with
      | Some a => let (n, er) := get_u32 a true in Some (add n, append None [er])
      | None => Some (add 0%N, None)
      end
  | XkSeg => fin (attrs_loop seg_attr (mkSeg 0 0 0 0, (false, false)) None attrs)
               (fun g => with_slice (mkSlice (sl_top (s_slice s)) (sl_verts (s_slice s))
                  (upd_last (fun p => mkPoly (pg_start p) (pg_segs p ++ [fst g])) (sl_polys (s_slice s)))) s)
  | XkLattice => fin (attrs_loop lattice_attr (the_lattice e) None attrs) (fun g => upd_ext l (on_lattice (fun _ => g)) s)
  | XkBeams | XkSets => Some (s, None)
  | XkBeam => fin (attrs_loop beam_attr (beam_zero, (false, false)) None attrs)
                (fun b => upd_ext l (on_lattice (fun g => mkBL (bl_clip g) (bl_clipmesh g) (bl_repmesh g)
                   (bl_beams g ++ [beam_of g b]) (bl_sets g) (bl_minlen g) (bl_radius g) (bl_cap g))) s)
  | XkSet => Some (with_set (fold_left set_attr attrs (s_set s)) s, None)
  | XkRef => (* beamlattice/decoder.go 236-255 *)
      let add v := with_set (mkBS (bs_refs (s_set s) ++ [v]) (bs_name (s_set s)) (bs_ident (s_set s))) s in
      match first_attr (is_attr "index") attrs with
      | Some a => let (n, er) := get_u32 a true in Some (add n, append None [er])
      | None => Some (add 0%N, None)
      end
  end.
(** Start of the decoder of an element named [n] *)
Definition start (k : DK) (n : Name) (attrs : list Attr) (s : DSt) : option (DSt * error) :=
  let fin {A} (r : option (A * error)) (f : A -> DSt) := match r with Some (v, e) => Some (f v, e) | None => None end in
  match k with
  | KTop => Some (s, None)
  | KModel => model_start attrs s
  | KMetaGroup l => let g := get_mg l s in
                    fin (group_start "metadatagroup" (mg_any g) attrs) (fun any => set_mg l (mkMG (mg_list g) any) s)
  | KMeta l => Some (with_meta (fold_left (meta_attr (mo_exts (s_model s))) attrs (s_meta s)) s, None)
  | KBuild => let b := mo_build (s_model s) in
              fin (group_start "build" (bu_any b) attrs) (fun any => with_model (mo_set_build (mkBuild (bu_items b) any) (s_model s)) s)
  | KItem => fin (attrs_loop item_attr (get_item s) None attrs) (fun i => upd_item (fun _ => i) s)
  | KRes => (* the resources are used only if there are attributes *)
      match attrs with
      | [] => Some (s, None)
      | _ => match res_get s with
             | Some r => fin (group_start "resources" (rs_any r) attrs) (fun any => res_set (mkRes (rs_assets r) (rs_objects r) any) s)
             | None => None
             end
      end
  | KBaseMats => fin (attrs_loop bm_attr (get_bm s) None attrs) (fun b => upd_bm (fun _ => b) s)
  | KBase => fin (attrs_loop base_attr (mkBase "" rgba_zero []) None attrs)
               (fun b => upd_bm (fun bm => mkBM (bs_id bm) (bs_mats bm ++ [b]) (bs_any bm)) s)
  | KObj => fin (attrs_loop obj_attr (get_obj s) None attrs) (fun o => upd_obj (fun _ => o) s)
  | KMesh => fin (group_start "mesh" [] attrs) (fun any => upd_obj (ob_set_mesh (Some (mkMesh [] [] [] [] any []))) s)
  | KVerts => fin (group_start "vertices" (match get_mesh s with Some m => me_vany m | None => [] end) attrs)
                (fun any => upd_mesh (fun m => mkMesh (me_verts m) any (me_tris m) (me_tany m) (me_any m) (me_ext m)) s)
  | KVert => fin (attrs_loop vertex_attr point_zero None attrs)
               (fun p => upd_mesh (fun m => mkMesh (me_verts m ++ [p]) (me_vany m) (me_tris m) (me_tany m) (me_any m) (me_ext m)) s)
  | KTris => fin (group_start "triangles" (match get_mesh s with Some m => me_tany m | None => [] end) attrs)
               (fun any => upd_mesh (fun m => mkMesh (me_verts m) (me_vany m) (me_tris m) any (me_any m) (me_ext m)) s)
  | KTri => (* the defaults were copied from the object by trianglesDecoder.Start; they do not change *)
      fin (attrs_loop tri_attr (mkTriV 0 0 0 None None None None []) None attrs)
        (fun t => upd_mesh (fun m => mkMesh (me_verts m) (me_vany m)
           (me_tris m ++ [tri_of (ob_pid (get_obj s)) (ob_pindex (get_obj s)) t]) (me_tany m) (me_any m) (me_ext m)) s)
  | KComps => fin (group_start "components" [] attrs) (fun any => upd_obj (ob_set_comps (Some (mkComps [] any))) s)
  | KComp => fin (attrs_loop comp_attr (mkComp 0 matrix_zero []) None attrs)
               (fun c => upd_obj (fun o => ob_set_comps (match ob_comps o with
                  | Some cs => Some (mkComps (cs_list cs ++ [c]) (cs_any cs)) | None => None end) o) s)
  | KUnkAsset => (* 773-786 *)
      match first_attr (is_attr "id") attrs with
      | Some a => let (id, er) := get_u32 a true in Some (with_unk (s_unk s ++ [TStart n attrs]) id s, append None [er])
      | None => Some (with_unk (s_unk s ++ [TStart n attrs]) (s_unk_id s) s, None)
      end
  | KUnk l => (* spec/unknown.go 68-81 *)
      Some (upd_any l (fun e => match e with AnyTokens ts => AnyTokens (ts ++ [TStart n attrs]) | _ => e end) s, None)
  | KExt l x => ext_start l x attrs s
  end.

(** AppendToken (spec/unknown.go 87-89), for the decoders that have it *)
Definition append_token (k : DK) (t : Token) (s : DSt) : DSt :=
  match k with
  | KUnkAsset => with_unk (s_unk s ++ [t]) (s_unk_id s) s
  | KUnk l => upd_any l (fun e => match e with AnyTokens ts => AnyTokens (ts ++ [t]) | _ => e end) s
  | _ => s
  end.
(** End: decoder.go 184-186 (metadata), 222-224 (item), 321-323 (base materials), 603-605 (object), 788-792 (unknown
    asset); spec/unknown.go 83-85; slices/decoder.go 131-133; beamlattice/decoder.go 196-198; the others do nothing *)
Definition end_ (k : DK) (n : Name) (s : DSt) : option DSt :=
  match k with
  | KMeta l => Some (add_md l (s_meta s) s)
  | KItem => let b := mo_build (s_model s) in
             Some (with_model (mo_set_build (mkBuild (bu_items b ++ [get_item s]) (bu_any b)) (s_model s))
                     (with_item (get_item s) true s))
  | KBaseMats => res_upd (rs_add_asset (ABase (get_bm s))) (with_bm (get_bm s) true s)
  | KObj => res_upd (rs_add_object (get_obj s)) (with_obj (get_obj s) true s)
  | KUnkAsset => res_upd (rs_add_asset (AUnknown (s_unk_id s) (s_unk s ++ [TEnd n])))
                   (with_unk (s_unk s ++ [TEnd n]) (s_unk_id s) s)
  | KUnk l => Some (append_token (KUnk l) (TEnd n) s)
  | KExt l XkSlice => Some (upd_ext l (on_stack (fun g => mkSS (ss_id g) (ss_bottom g) (ss_slices g ++ [s_slice s]) (ss_refs g))) s)
  | KExt l XkSet => Some (upd_ext l (on_lattice (fun g => mkBL (bl_clip g) (bl_clipmesh g) (bl_repmesh g) (bl_beams g)
                            (bl_sets g ++ [s_set s]) (bl_minlen g) (bl_radius g) (bl_cap g))) s)
  | _ => Some s
  end.

(** ** The callbacks (read.go 64-123) *)
(** currentDecoder and currentName, the stack (its top first), and the errors found *)
Record Mach := mkM { m_st : DSt; m_cur : DK; m_name : Name; m_stack : list (DK * Name * Z); m_errs : list gerr }.
Definition m_init (m : Model) : Mach := mkM (d_init m) KTop (mkName "" "") [] [].
(** read.go 87-91: the error is wrapped once for each element of the stack, the innermost first *)
Definition wrap_stack (e : gerr) (stack : list (DK * Name * Z)) : gerr :=
  fold_left (fun e el => wrap_index1 e (nlocal (snd (fst el))) (snd el)) stack e.
(** read.go 79-108, OnStart; [None] is a panic *)
Definition on_start (n : Name) (attrs : list Attr) (m : Mach) : option Mach :=
  if has_child (m_cur m) then
    match child (m_cur m) n (m_st m) with
    | CPanic => None
    | CNil => Some m
    | COk i k s =>
        let stack := (k, n, i) :: m_stack m in
        match start k n attrs s with
        | None => None
        | Some (s, None) => Some (mkM s k n stack (m_errs m))
        | Some (s, Some e) => Some (mkM s k n stack (append_list (m_errs m) [Some (wrap_stack e stack)]))
        end
    end
  else Some (mkM (append_token (m_cur m) (TStart n attrs) (m_st m)) (m_cur m) (m_name m) (m_stack m) (m_errs m)).
(** read.go 109-121, OnEnd: after the last element of the stack decoder and name stay what they are *)
Definition on_end (n : Name) (m : Mach) : option Mach :=
  if name_eqb (m_name m) n then
    match end_ (m_cur m) n (m_st m), m_stack m with
    | Some s, _ :: (k, n', i) :: r => Some (mkM s k n' ((k, n', i) :: r) (m_errs m))
    | Some s, [_] => Some (mkM s (m_cur m) (m_name m) [] (m_errs m))
    | _, _ => None
    end
  else Some (mkM (append_token (m_cur m) (TEnd n) (m_st m)) (m_cur m) (m_name m) (m_stack m) (m_errs m)).
(** read.go 122-128, OnChar: a metadata decoder copies the text (decoder.go 180-182), an unknown element keeps the slice *)
Definition on_char (now : string) (r : Ref) (m : Mach) : Mach :=
  let s := m_st m in
  let s := match m_cur m with
           | KMeta _ => with_meta (mkMeta (md_name (s_meta s)) now (md_type (s_meta s)) (md_preserve (s_meta s))) s
           | k => append_token k (TChar (later r)) s
           end in
  mkM s (m_cur m) (m_name m) (m_stack m) (m_errs m).
Definition on_event (e : event) (m : Mach) : option Mach :=
  match e with
  | EvStart n attrs => on_start n attrs m
  | EvEnd n => on_end n m
  | EvChar now r => Some (on_char now r m)
  end.
Fixpoint on_events (l : list event) (m : Mach) : option Mach :=
  match l with [] => Some m | e :: r => match on_event e m with Some m => on_events r m | None => None end end.
End Decoder.

(** ** decodeModelFile (read.go 64-159) *)
(** The error returned: nil, that of the scanner, that of the context, or what the element decoders reported *)
Inductive derr := DNone | DScan (e : xerr) | DCtx | DErrs (e : gerr).
(** [n]: the calls of RawToken; [d]: the scanner at the end *)
Inductive dres := DRet (m : Model) (e : derr) (n : nat) (d : Dec) | DPanic | DOut.
(** read.go 149-158: [e] is DNone for nil and for io.EOF *)
Definition finish (strict : bool) (errs : list gerr) (e : derr) : derr :=
  match e, errs with
  | DNone, [] => DNone
  | DNone, g :: _ => if strict || Nat.eqb (List.length errs) 1 then DErrs g else DErrs (EList errs)
  | e, _ => e
  end.
Definition scan_err (e : xerr) : derr := match e with XEOF => DNone | e => DScan e end.
Section Loop.
(** checkEveryTokens (read.go 23) and whether the context is done when it is polled after the i-th token *)
Context (reg : Reg) (isroot strict : bool) (path : string) (every : nat) (ctx_done : nat -> bool) (fin : xerr).
Context (later : Ref -> string).
(** read.go 130-148; the i-th call of RawToken, from 0 *)
Fixpoint decode_loop (fuel i : nat) (d : Dec) (m : Mach) : dres :=
  let ret e n d m := DRet (s_model (m_st m)) (finish strict (m_errs m) e) n d in
  match fuel with
  | O => DOut
  | S f =>
      match raw_token fin true d with
      | ROut => DOut
      | RErr e d => ret (scan_err e) (S i) d m
      | RTok evs d =>
          match on_events reg isroot path later evs m with
          | None => DPanic
          | Some m =>
              if strict && negb (Nat.eqb (List.length (m_errs m)) 0) then ret DNone (S i) d m
              else if Nat.eqb (i mod every) 0 && ctx_done i then ret DCtx (S i) d m
              else decode_loop f (S i) d m
          end
      end
  end.
Definition decode_with (input : string) (m : Model) : dres := decode_loop (scan_fuel input) 0 (dec_new input) (m_init m).
End Loop.
(** The model as its user sees it: slices of the scan buffer show what the buffer holds at the end.  The events do
    not depend on the oracle, so the first run finds the final buffer. *)
Definition decode_file (reg : Reg) (isroot strict : bool) (path : string) (every : nat) (ctx_done : nat -> bool) (fin : xerr)
    (input : string) (m : Model) : dres :=
  match decode_with reg isroot strict path every ctx_done fin (fun _ => "") input m with
  | DRet _ _ _ d => decode_with reg isroot strict path every ctx_done fin (buf_deref (d_buf d)) input m
  | r => r
  end.
(** read.go 196-200 and 202-213, UnmarshalModel: the file is the root model, its name DefaultModelPath (339) *)
Definition unmarshal_model (reg : Reg) (input : string) (m : Model) : dres :=
  decode_file reg true false DefaultModelPath 1000 (fun _ => false) XEOF input m.
