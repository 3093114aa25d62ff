(** * Specification: what the elements of a model file mean

    The meaning of a file is a function of the tree of its elements.  Attributes are looked up by name, children by
    name and in order; nothing here depends on how a reader goes through the file. *)
From Coq Require Import ZArith.
From Verif Require Import GoBase GoUtf8 GoFloat GoStrconv Types XmlTypes S_Core S_Text S_Errors S_Attr.

(** ** Trees *)
(** A text is the one the reader is given, and its place in the buffer of the scanner. *)
Inductive XTree := XElem (n : Name) (a : list Attr) (kids : list XTree) | XText (now : string) (r : Ref).
Fixpoint events (t : XTree) : list event :=
  match t with
  | XElem n a kids => EvStart n a :: flat_map events kids ++ [EvEnd n]
  | XText s r => [EvChar s r]
  end.
(** The names of the elements of a tree *)
Fixpoint names (t : XTree) : list Name :=
  match t with XElem n _ kids => n :: flat_map names kids | XText _ _ => [] end.
(** The children of a name: their attributes and children *)
Definition elem1 (n : Name) (t : XTree) : list (list Attr * list XTree) :=
  match t with XElem m a kids => if name_eqb m n then [(a, kids)] else [] | XText _ _ => [] end.
Definition elems (n : Name) (kids : list XTree) : list (list Attr * list XTree) := flat_map (elem1 n) kids.
Definition the_elem {A} (n : Name) (kids : list XTree) (f : list Attr * list XTree -> A) (d : A) : A :=
  match elems n kids with e :: _ => f e | [] => d end.
Definition texts (kids : list XTree) : string :=
  String.concat "" (map (fun t => match t with XText s _ => s | XElem _ _ _ => "" end) kids).

(** ** Values *)
Definition attr_of (n : Name) (a : list Attr) : option string :=
  option_map avalue (find (fun x => name_eqb (aname x) n) a).
(** The value of an attribute without namespace, or the default *)
Definition get {A} (l : string) (a : list Attr) (f : string -> A) (d : A) : A :=
  match attr_of (mkName "" l) a with Some v => f v | None => d end.
Definition uint_of (s : string) : N := fold_left (fun n c => (n * 10 + (bN c - 48))%N) (chars s) 0%N.
(** C60 says what this is. *)
Definition num_of (s : string) : f32 := fst (parse_float s).
Definition str (l : string) (a : list Attr) : string := get l a (fun v => v) "".
Definition uint (l : string) (a : list Attr) : N := get l a uint_of 0%N.
Definition num (l : string) (a : list Attr) : f32 := get l a num_of f_zero.
Definition word_of {A} (table : list (A * string)) (d : A) (s : string) : A :=
  match find (fun p => seq (snd p) s) table with Some p => fst p | None => d end.
Definition word {A} (table : list (A * string)) (d : A) (l : string) (a : list Attr) : A := get l a (word_of table d) d.
Definition hex_of (c : ascii) : N :=
  if is_digit c then bN c - 48 else if (97 <=? bN c)%N then bN c - 87 else bN c - 55.
Definition colour_of (s : string) : RGBA :=
  let byte a b := (16 * hex_of a + hex_of b)%N in
  match chars s with
  | [_; a1; a2; b1; b2; c1; c2] => mkRGBA (byte a1 a2) (byte b1 b2) (byte c1 c2) 255
  | [_; a1; a2; b1; b2; c1; c2; d1; d2] => mkRGBA (byte a1 a2) (byte b1 b2) (byte c1 c2) (byte d1 d2)
  | _ => mkRGBA 0 0 0 0
  end.
Definition matrix_of (s : string) : Matrix :=
  match map num_of (fields s) with
  | [a; b; c; d; e; f; g; h; i; j; k; l] => M16 a b c f_zero  d e f f_zero  g h i f_zero  j k l f_one
  | _ => matrix_zero
  end.
Definition uints_of (s : string) : list N := map uint_of (fields s).
Definition nums_of (s : string) : list f32 := map num_of (fields s).
(** A truth value: the words strconv.ParseBool takes for true *)
Definition true_of (s : string) : bool := existsb (seq s) ["1"; "t"; "T"; "true"; "TRUE"; "True"].

(** ** Attributes of other namespaces: one group for each namespace, in the order they first appear *)
Fixpoint firsts (l : list string) : list string :=
  match l with [] => [] | x :: r => x :: filter (fun y => negb (seq y x)) (firsts r) end.
Definition spaces (a : list Attr) : list string := firsts (map (fun x => nspace (aname x)) a).
Definition foreign (a : list Attr) : list Attr := filter (fun x => negb (seq (nspace (aname x)) "")) a.
Section Meaning.
(** The namespaces of the registered extensions; what a place in the scan buffer shows at the end *)
Context (known : string -> bool) (later : Ref -> string).
Definition group_of (el : string) (a : list Attr) (ns : string) : AttrGroup :=
  let at_ l := match attr_of (mkName ns l) a with Some v => v | None => "" end in
  let mine := GUnknown ns (filter (fun x => seq (nspace (aname x)) ns) a) in
  if negb (known ns) then mine
  else if seq ns ns_production then
    if seq el "build" then GBuild (at_ "UUID")
    else if seq el "item" then GItem (at_ "UUID") (at_ "path")
    else if seq el "object" then GObj (at_ "UUID")
    else if seq el "component" then GComp (at_ "UUID") (at_ "path")
    else mine
  else if seq ns ns_slices then
    GSlice (match attr_of (mkName ns "slicestackid") a with Some v => uint_of v | None => 0%N end)
           (match attr_of (mkName ns "meshresolution") a with Some v => word_of spec_resolution 0%N v | None => 0%N end)
  else mine.
Definition groups (el : string) (a : list Attr) : AnyAttr := map (group_of el a) (spaces a).

(** ** Elements the reader does not know are kept as they are; their texts as the buffer shows them at the end *)
Fixpoint tokens_of (t : XTree) : list Token :=
  match t with
  | XElem n a kids => TStart n a :: flat_map tokens_of kids ++ [TEnd n]
  | XText _ r => [TChar (later r)]
  end.

(** ** Materials *)
Definition mn (l : string) := mkName ns_materials l.
Definition texture_of (a : list Attr) : Texture2D :=
  mkTex2D (uint "id" a) (str "path" a) (word spec_tex_type 0%N "contenttype" a) (word spec_tile 0%N "tilestyleu" a)
    (word spec_tile 0%N "tilestylev" a) (word spec_filter 0%N "filter" a).
Definition color_group_of (a : list Attr) (kids : list XTree) : ColorGroup :=
  mkCG (uint "id" a) (map (fun e => get "color" (fst e) colour_of (mkRGBA 0 0 0 0)) (elems (mn "color") kids)).
Definition texture_group_of (a : list Attr) (kids : list XTree) : Tex2DGroup :=
  mkTG (uint "id" a) (uint "texid" a) (map (fun e => (num "u" (fst e), num "v" (fst e))) (elems (mn "tex2coord") kids)).
Definition composites_of (a : list Attr) (kids : list XTree) : CompositeMaterials :=
  mkCM (uint "id" a) (uint "matid" a) (get "matindices" a uints_of [])
    (map (fun e => get "values" (fst e) nums_of []) (elems (mn "composite") kids)).
Definition multis_of (a : list Attr) (kids : list XTree) : MultiProps :=
  mkMP (uint "id" a) (get "pids" a uints_of []) (get "blendmethods" a (fun v => map (word_of spec_blend 0%N) (fields v)) [])
    (map (fun e => get "pindices" (fst e) uints_of []) (elems (mn "multi") kids)).

(** ** Slices *)
Definition sn (l : string) := mkName ns_slices l.
Definition segment_of (a : list Attr) : Segment :=
  mkSeg (uint "v2" a) (uint "pid" a) (uint "p1" a) (get "p2" a uint_of (uint "p1" a)).
Definition polygon_of (e : list Attr * list XTree) : Polygon :=
  mkPoly (uint "startv" (fst e)) (map (fun e => segment_of (fst e)) (elems (sn "segment") (snd e))).
Definition slice_of (e : list Attr * list XTree) : Slice :=
  mkSlice (num "ztop" (fst e))
    (flat_map (fun e => map (fun e => P2 (num "x" (fst e)) (num "y" (fst e))) (elems (sn "vertex") (snd e))) (elems (sn "vertices") (snd e)))
    (map polygon_of (elems (sn "polygon") (snd e))).
Definition stack_of (a : list Attr) (kids : list XTree) : SliceStack :=
  mkSS (uint "id" a) (num "zbottom" a) (map slice_of (elems (sn "slice") kids))
    (map (fun e => mkSRef (uint "slicestackid" (fst e)) (str "slicepath" (fst e))) (elems (sn "sliceref") kids)).

(** ** Beam lattices *)
Definition bn (l : string) := mkName ns_beam l.
(** A radius of a beam that is missing, or zero, is that of the lattice, or that of the other end. *)
Definition beam_of (radius : f32) (cap : N) (a : list Attr) : Beam :=
  let r1 := if feqb (num "r1" a) f_zero then radius else num "r1" a in
  let r2 := if feqb (num "r2" a) f_zero then r1 else num "r2" a in
  mkBeam (uint "v1" a) (uint "v2" a) r1 r2 (word spec_cap cap "cap1" a) (word spec_cap cap "cap2" a).
Definition set_of (e : list Attr * list XTree) : BeamSet :=
  mkBS (map (fun e => uint "index" (fst e)) (elems (bn "ref") (snd e))) (str "name" (fst e)) (str "identifier" (fst e)).
Definition lattice_of (a : list Attr) (kids : list XTree) : BeamLattice :=
  let radius := num "radius" a in let cap := word spec_cap 0%N "cap" a in
  mkBL (get "clippingmode" a (word_of spec_clip 0%N) (word spec_clip 0%N "clipping" a))
    (uint "clippingmesh" a) (uint "representationmesh" a)
    (flat_map (fun e => map (fun e => beam_of radius cap (fst e)) (elems (bn "beam") (snd e))) (elems (bn "beams") kids))
    (flat_map (fun e => map set_of (elems (bn "beamset") (snd e))) (elems (bn "beamsets") kids))
    (get "minlength" a num_of (num "precision" a)) radius cap.
(** The elements of the extensions *)
Definition ext_of (n : Name) (a : list Attr) (kids : list XTree) : option ExtElem :=
  if name_eqb n (mn "colorgroup") then Some (XColorGroup (color_group_of a kids))
  else if name_eqb n (mn "texture2dgroup") then Some (XTex2DGroup (texture_group_of a kids))
  else if name_eqb n (mn "texture2d") then Some (XTexture2D (texture_of a))
  else if name_eqb n (mn "compositematerials") then Some (XComposite (composites_of a kids))
  else if name_eqb n (mn "multiproperties") then Some (XMulti (multis_of a kids))
  else if name_eqb n (sn "slicestack") then Some (XSliceStack (stack_of a kids))
  else if name_eqb n (bn "beamlattice") then Some (XBeamLattice (lattice_of a kids))
  else None.

(** ** The core specification *)
Definition any_of (t : XTree) : list AnyElem :=
  match t with
  | XText _ _ => []
  | XElem n a kids =>
      if seq (nspace n) ns_core then []
      else if known (nspace n) then match ext_of n a kids with Some x => [AnyExt x] | None => [] end
      else [AnyTokens (tokens_of t)]
  end.
Section Prefixes.
(** The prefixes the root element declares *)
Context (prefixes : list string).
Definition meta_name (v : string) : Name :=
  match split_at ":" v with
  | Some (p, r) => if existsb (seq p) prefixes then mkName p r else mkName "" v
  | None => mkName "" v
  end.
Definition metadata_of (e : list Attr * list XTree) : Metadata :=
  mkMeta (get "name" (fst e) meta_name (mkName "" "")) (texts (snd e)) (str "type" (fst e)) (get "preserve" (fst e) true_of false).
Definition metadata_group_of (e : list Attr * list XTree) : MetadataGroup :=
  mkMG (map metadata_of (elems (cn "metadata") (snd e))) (groups "metadatagroup" (fst e)).
Definition item_of (e : list Attr * list XTree) : Item :=
  mkItem (uint "objectid" (fst e)) (get "transform" (fst e) matrix_of matrix_zero) (str "partnumber" (fst e))
    (the_elem (cn "metadatagroup") (snd e) metadata_group_of mg_zero) (groups "item" (foreign (fst e))).
Definition build_of (e : list Attr * list XTree) : Build :=
  mkBuild (map item_of (elems (cn "item") (snd e))) (groups "build" (fst e)).
Definition base_of (a : list Attr) : Base :=
  mkBase (str "name" a) (get "displaycolor" a colour_of (mkRGBA 0 0 0 0)) (groups "base" (foreign a)).
Definition basematerials_of (a : list Attr) (kids : list XTree) : BaseMaterials :=
  mkBM (uint "id" a) (map (fun e => base_of (fst e)) (elems (cn "base") kids)) (groups "basematerials" (foreign a)).
Definition vertex_of (a : list Attr) : Point3D := P3 (num "x" a) (num "y" a) (num "z" a).
Definition triangle_of (pid pindex : N) (a : list Attr) : Triangle :=
  let p1 := get "p1" a uint_of pindex in
  mkTri (uint "v1" a) (uint "v2" a) (uint "v3" a) (get "pid" a uint_of pid) p1 (get "p2" a uint_of p1) (get "p3" a uint_of p1)
    (groups "triangle" (foreign a)).
Definition mesh_of (pid pindex : N) (e : list Attr * list XTree) : Mesh :=
  let vs := elems (cn "vertices") (snd e) in let ts := elems (cn "triangles") (snd e) in
  mkMesh (flat_map (fun e => map (fun e => vertex_of (fst e)) (elems (cn "vertex") (snd e))) vs)
    (flat_map (fun e => groups "vertices" (fst e)) vs)
    (flat_map (fun e => map (fun e => triangle_of pid pindex (fst e)) (elems (cn "triangle") (snd e))) ts)
    (flat_map (fun e => groups "triangles" (fst e)) ts)
    (groups "mesh" (fst e)) (flat_map any_of (snd e)).
Definition component_of (a : list Attr) : Component :=
  mkComp (uint "objectid" a) (get "transform" a matrix_of matrix_zero) (groups "component" (foreign a)).
Definition components_of (e : list Attr * list XTree) : Components :=
  mkComps (map (fun e => component_of (fst e)) (elems (cn "component") (snd e))) (groups "components" (fst e)).
Definition object_of (e : list Attr * list XTree) : Object :=
  let a := fst e in let pid := uint "pid" a in let pindex := uint "pindex" a in
  mkObj (uint "id" a) (str "name" a) (str "partnumber" a) (str "thumbnail" a) pid pindex (word spec_object_type 0%Z "type" a)
    (the_elem (cn "metadatagroup") (snd e) metadata_group_of mg_zero)
    (the_elem (cn "mesh") (snd e) (fun e => Some (mesh_of pid pindex e)) None)
    (the_elem (cn "components") (snd e) (fun e => Some (components_of e)) None)
    (groups "object" (foreign a)).
Definition asset_of (t : XTree) : list Asset :=
  match t with
  | XText _ _ => []
  | XElem n a kids =>
      if seq (nspace n) ns_core then if name_eqb n (cn "basematerials") then [ABase (basematerials_of a kids)] else []
      else if known (nspace n) then match ext_of n a kids with Some x => [AExt x] | None => [] end
      else [AUnknown (uint "id" a) (tokens_of t)]
  end.
Definition resources_of (e : list Attr * list XTree) : Resources :=
  mkRes (flat_map asset_of (snd e)) (map object_of (elems (cn "object") (snd e))) (groups "resources" (fst e)).
End Prefixes.

(** ** The root element *)
Definition declared (a : list Attr) : list Attr := filter (fun x => seq (nspace (aname x)) "xmlns") a.
Definition ns_xml : string := "http://www.w3.org/XML/1998/namespace".
Definition others (a : list Attr) : list Attr :=
  filter (fun x => negb (existsb (seq (nspace (aname x))) [""; "xmlns"; ns_xml])) a.
Definition extensions_of (a : list Attr) : list Extension :=
  let required := get "requiredextensions" a fields [] in
  map (fun x => mkExt (avalue x) (nlocal (aname x)) (existsb (seq (nlocal (aname x))) required)) (declared a).
Definition prefixes_of (a : list Attr) : list string := map (fun x => nlocal (aname x)) (declared a).
(** The model of a root file.  What does not come from the file is that of [M]: where the file is in its package. *)
Definition model_of (M : Model) (a : list Attr) (kids : list XTree) : Model :=
  let ps := prefixes_of a in
  mkModel (mo_path M) (match attr_of (mkName ns_xml "lang") a with Some v => v | None => "" end)
    (word spec_units 0%N "unit" a) (str "thumbnail" a)
    (the_elem (cn "resources") kids (resources_of ps) res_zero) (the_elem (cn "build") kids (build_of ps) (mkBuild [] []))
    (mo_atts M) (extensions_of a) (map (metadata_of ps) (elems (cn "metadata") kids)) (mo_childs M) (mo_rootrels M) (mo_rels M)
    (flat_map any_of kids) (groups "model" (others a)).
(** The model [M] of the root file, after the child file [path] was read. *)
Definition child_of (M : Model) (path : string) (kids : list XTree) : Model :=
  let r := the_elem (cn "resources") kids (resources_of (map ex_local (mo_exts M))) res_zero in
  mkModel (mo_path M) (mo_lang M) (mo_units M) (mo_thumb M) (mo_res M) (mo_build M) (mo_atts M) (mo_exts M) (mo_md M)
    (map (fun kc => if seq (fst kc) path then (fst kc, mkChild r (ch_rels (snd kc)) (ch_any (snd kc))) else kc) (mo_childs M))
    (mo_rootrels M) (mo_rels M) (mo_any M ++ flat_map any_of kids) (mo_anyattr M).

(** ** The files this is about *)
Context (isroot : bool).
Definition children (p : Name) : list Name :=
  map snd (filter (fun pc => name_eqb (fst pc) p) (structure ++ if isroot then root_structure else [])).
(** The elements that keep children of unknown namespaces *)
Definition keeper (p : Name) : bool := existsb (name_eqb p) [cn "model"; cn "resources"; cn "mesh"].
(** [d] is an element the reader knows as a child of [p], or keeps there. *)
Definition takes (p d : Name) : bool :=
  (existsb (name_eqb d) (children p) && (negb (keeper p) || seq (nspace d) ns_core || known (nspace d))) ||
  (keeper p && negb (seq (nspace d) ns_core) && negb (known (nspace d))).
Definition ext_tops : list Name :=
  [mn "colorgroup"; mn "texture2dgroup"; mn "texture2d"; mn "compositematerials"; mn "multiproperties"; sn "slicestack"; bn "beamlattice"].
(** An extension element where it has no meaning *)
Definition misplaced (p d : Name) : bool := keeper p && known (nspace d) && existsb (name_eqb d) ext_tops.
(** Elements of which there is one at most *)
Definition singles : list Name :=
  map cn ["resources"; "build"; "mesh"; "components"; "metadatagroup"; "vertices"; "triangles"].
Definition given (l : string) (a : list Attr) : Prop := attr_of (mkName "" l) a <> None.
Definition PlainAttrs (n : Name) (a : list Attr) : Prop :=
  NoDup (map aname a) /\
  (nspace n = ns_slices -> Forall (fun x => nspace (aname x) = "") a) /\
  (n = mn "color" -> given "color" a) /\
  (n = bn "beamlattice" -> ~ (given "minlength" a /\ given "precision" a) /\ ~ (given "clippingmode" a /\ given "clipping" a)).
Definition Singles (kids : list XTree) : Prop := forall n, In n singles -> List.length (elems n kids) <= 1.
(** A child of [p]: an element that is read is like this itself, one that is kept has none of its name inside, and in one
    that is ignored there is nothing that would be read outside of it. *)
Fixpoint Plain (p : Name) (t : XTree) : Prop :=
  match t with
  | XText _ _ => True
  | XElem n a kids =>
      if takes p n then
        PlainAttrs n a /\ Singles kids /\
        if seq (nspace n) ns_core || known (nspace n) then
          if name_eqb n (cn "metadata") then kids = [] \/ exists s r, kids = [XText s r]
          else (fix all l := match l with [] => True | t :: r => Plain n t /\ all r end) kids
        else ~ In n (flat_map names kids)
      else forall d, In d (names t) -> takes p d = false /\ d <> p /\ misplaced p d = false
  end.
Definition PlainFile (a : list Attr) (kids : list XTree) : Prop :=
  PlainAttrs (cn "model") a /\ Singles kids /\ Forall (Plain (cn "model")) kids.
End Meaning.
Definition is_text (t : XTree) : Prop := match t with XText _ _ => True | XElem _ _ _ => False end.
(** A model nothing was read into yet *)
Definition Blank (M : Model) : Prop :=
  mo_lang M = "" /\ mo_units M = 0%N /\ mo_thumb M = "" /\ mo_exts M = [] /\ mo_anyattr M = [] /\ mo_md M = [] /\
  mo_res M = res_zero /\ mo_build M = mkBuild [] [] /\ mo_any M = [].
Definition root_file (M : Model) (path : string) : Prop := path = mo_path M \/ (mo_path M = "" /\ path = DefaultModelPath).
