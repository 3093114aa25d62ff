(** * Specification of writing a model as text and reading it again

    Which models are written so that they can be read again ([...Fits]), and what is read ([Same...]): the same
    model with the coordinates rounded to the decimals that are written. *)
From Coq Require Import ZArith Reals.
From Verif Require Import GoBase GoNum GoUtf8 GoFloat Types XmlTypes S_Xml S_Printer S_Core S_Text S_Geom S_Strconv.

Definition U32 (n : N) : Prop := (n < 4294967296)%N.
(** A text that can be written as the value of an attribute, where it is escaped or not *)
Definition Writable (skip : bool) (v : string) : Prop := if skip then PlainText v else XmlText v.

Section Fits.
(** The namespaces the document declares, and those of the extensions the program knows *)
Context (e : Env) (known : string -> Prop).

(** ** Attributes of extensions *)
Definition space_of (g : AttrGroup) : string :=
  match g with GUnknown sp _ => sp | GSlice _ _ => ns_slices | _ => ns_production end.
(** Attributes the element [parent] of the core specification may carry: those of the production and slice
    extensions where these define them, and any others in a namespace the program does not know *)
Definition GroupFits (skip : bool) (parent : string) (g : AttrGroup) : Prop :=
  let prod p := parent = p /\ known ns_production /\ Declared e ns_production in
  let uuid u := UuidTextLoose u /\ Writable skip u in
  match g with
  | GUnknown sp attrs =>
      attrs <> [] /\ sp <> "" /\ ~ known sp /\ Forall (fun a => nspace (aname a) = sp /\ AttrFits e skip a) attrs
  | GBuild u => prod "build" /\ uuid u
  | GObj u => prod "object" /\ uuid u
  | GItem u p => prod "item" /\ uuid u /\ Writable skip p
  | GComp u p => prod "component" /\ uuid u /\ Writable skip p
  | GSlice id r => parent = "object" /\ known ns_slices /\ Declared e ns_slices /\ U32 id /\ (r <= 1)%N
  end.
Definition AnyFits (skip : bool) (parent : string) (any : AnyAttr) : Prop :=
  Forall (GroupFits skip parent) any /\ NoDup (map space_of any).

(** ** Elements the program does not know *)
(** Elements without text, none of them named [n] *)
Inductive Inside (n : Name) : list Token -> Prop :=
| InNil : Inside n []
| InElem m a l r : m <> n -> nspace m <> "" -> TagFits e m -> Forall (AttrFits e false) a -> Inside n l -> Inside n r ->
    Inside n (TStart m a :: l ++ TEnd m :: r).
Definition UnknownFits (n : Name) (a : list Attr) (l : list Token) : Prop :=
  nspace n <> "" /\ nspace n <> ns_core /\ ~ known (nspace n) /\ TagFits e n /\ Forall (AttrFits e false) a /\ Inside n l.
Definition TokensFit (ts : list Token) : Prop :=
  exists n a l, ts = TStart n a :: l ++ [TEnd n] /\ UnknownFits n a l.
(** The identifier of an unknown resource is that of its first attribute id, or 0 *)
Definition IdOf (a : list Attr) (id : N) : Prop :=
  (exists l v r, a = l ++ mkAttr (mkName "" "id") v :: r /\ (forall w, ~ In (mkAttr (mkName "" "id") w) l) /\ parse_u32 v = (id, true))
  \/ ((forall w, ~ In (mkAttr (mkName "" "id") w) a) /\ id = 0%N).

(** ** Elements of the extensions *)
Definition Byte (n : N) : Prop := (n < 256)%N.
Definition ColorFits (c : RGBA) : Prop := Byte (cR c) /\ Byte (cG c) /\ Byte (cB c) /\ Byte (cA c).
Definition Num (x : f32) : Prop := f_valid x = true.
Section Precision.
(** The decimals written *)
Context (p : nat).
(** A radius that is written and not read as absent: at least one unit of the last decimal *)
Definition OwnRadius (x : f32) : Prop := Finite x /\ negative x = false /\ (/ 10 ^ p <= value x)%R.
(** The radii of a beam: one that is the radius of the lattice is not written, and the second one is read as the
    first if it is absent. *)
Definition RadiiFit (g : BeamLattice) (b : Beam) : Prop :=
  (bm_r1 b = bl_radius g \/ (OwnRadius (bm_r1 b) /\ feqb (bm_r1 b) (bl_radius g) = false)) /\
  ((bm_r1 b = bl_radius g /\ bm_r2 b = bl_radius g) \/ (OwnRadius (bm_r2 b) /\ feqb (bm_r2 b) (bl_radius g) = false)).
Definition ExtFits (x : ExtElem) : Prop :=
  match x with
  | XColorGroup g => known ns_materials /\ Declared e ns_materials /\ U32 (cg_id g) /\ Forall ColorFits (cg_colors g)
  | XTex2DGroup g => known ns_materials /\ Declared e ns_materials /\ U32 (tg_id g) /\ U32 (tg_tex g) /\
      Forall (fun c => Num (fst c) /\ Num (snd c)) (tg_coords g)
  | XTexture2D t => known ns_materials /\ Declared e ns_materials /\ U32 (tx_id t) /\ XmlText (tx_path t) /\
      (tx_ctype t <= 2)%N /\ (tx_tu t <= 3)%N /\ (tx_tv t <= 3)%N /\ (tx_filter t <= 2)%N
  | XComposite g => known ns_materials /\ Declared e ns_materials /\ U32 (cm_id g) /\ U32 (cm_mat g) /\
      Forall U32 (cm_indices g) /\ Forall (Forall Num) (cm_comps g)
  | XMulti g => known ns_materials /\ Declared e ns_materials /\ U32 (mp_id g) /\ Forall U32 (mp_pids g) /\
      Forall (fun b => (b <= 1)%N) (mp_blend g) /\ Forall (Forall U32) (mp_multis g)
  | XSliceStack g => known ns_slices /\ Declared e ns_slices /\ U32 (ss_id g) /\ Num (ss_bottom g) /\
      Forall (fun s => Num (sl_top s) /\ Forall (fun v => Num (p2x v) /\ Num (p2y v)) (sl_verts s) /\
        Forall (fun q => U32 (pg_start q) /\
          (* without property group the indices are not written *)
          Forall (fun s => U32 (sg_v2 s) /\ U32 (sg_pid s) /\ U32 (sg_p1 s) /\ U32 (sg_p2 s) /\
                           (sg_pid s = 0%N -> sg_p1 s = 0%N /\ sg_p2 s = 0%N)) (pg_segs q)) (sl_polys s)) (ss_slices g) /\
      Forall (fun r => U32 (sr_id r) /\ XmlText (sr_path r)) (ss_refs g)
  | XBeamLattice g => known ns_beam /\ Declared e ns_beam /\ (bl_clip g <= 2)%N /\ U32 (bl_clipmesh g) /\ U32 (bl_repmesh g) /\
      Num (bl_minlen g) /\ Num (bl_radius g) /\ (bl_cap g <= 2)%N /\
      Forall (fun b => U32 (bm_i1 b) /\ U32 (bm_i2 b) /\ RadiiFit g b /\ (bm_c1 b <= 2)%N /\ (bm_c2 b <= 2)%N) (bl_beams g) /\
      Forall (fun b => Forall U32 (bs_refs b) /\ XmlText (bs_name b) /\ XmlText (bs_ident b)) (bl_sets g)
  end.
(** One element at most: only the first one is written *)
Definition ElemsFit (l : list AnyElem) : Prop :=
  match l with
  | [] => True
  | [AnyTokens ts] => TokensFit ts
  | [AnyExt x] => ExtFits x
  | _ => False
  end.

(** ** Core elements *)
(** The prefixes the root element declares *)
Context (prefixes : list string).
(** The name of metadata is written prefix:local; without prefix its first part must not look like one. *)
Definition MetaNameFits (n : Name) : Prop :=
  (In (nspace n) prefixes /\ nspace n <> "" /\ ~ In ":"%char (chars (nspace n))) \/
  (nspace n = "" /\ forall q r, nlocal n = q +++ ":" +++ r -> ~ In ":"%char (chars q) -> ~ In q prefixes).
Definition MetaFits (md : Metadata) : Prop :=
  MetaNameFits (md_name md) /\ XmlText (nspace (md_name md)) /\ XmlText (nlocal (md_name md)) /\ XmlText (md_value md) /\ XmlText (md_type md).
(** A group without metadata is not written *)
Definition GroupMetaFits (g : MetadataGroup) : Prop :=
  Forall MetaFits (mg_list g) /\ AnyFits false "metadatagroup" (mg_any g) /\ (mg_list g = [] -> mg_any g = []).
Definition NoTransform (t : Matrix) : Prop := ZeroMatrix t \/ IdentityMatrix t.
Definition TransformFits (t : Matrix) : Prop := NoTransform t \/ ValidMatrix t.
Definition ItemFits (i : Item) : Prop :=
  U32 (it_oid i) /\ TransformFits (it_tr i) /\ XmlText (it_part i) /\ GroupMetaFits (it_md i) /\ AnyFits false "item" (it_any i).
Definition BuildFits (b : Build) : Prop := Forall ItemFits (bu_items b) /\ AnyFits false "build" (bu_any b).
Definition BaseFits (b : Base) : Prop := XmlText (ba_name b) /\ ColorFits (ba_color b) /\ AnyFits false "base" (ba_any b).
Definition AssetFits (a : Asset) : Prop :=
  match a with
  | ABase b => U32 (bs_id b) /\ Forall BaseFits (bs_mats b) /\ AnyFits false "basematerials" (bs_any b)
  | AUnknown id ts => exists n a l, ts = TStart n a :: l ++ [TEnd n] /\ UnknownFits n a l /\ IdOf a id
  | AExt x => ExtFits x /\ forall g, x <> XBeamLattice g
  end.
Definition CompFits (c : Component) : Prop :=
  U32 (co_oid c) /\ TransformFits (co_tr c) /\ AnyFits false "component" (co_any c).
Definition PointFits (v : Point3D) : Prop := Num (px v) /\ Num (py v) /\ Num (pz v).
Definition NumsFit (t : Triangle) : Prop :=
  U32 (t_v1 t) /\ U32 (t_v2 t) /\ U32 (t_v3 t) /\ U32 (t_pid t) /\ U32 (t_p1 t) /\ U32 (t_p2 t) /\ U32 (t_p3 t).
(** Extension attributes of one triangle overwrite the properties of those after it, unless it has a
    property group and indices that are not all equal, in which case all seven attributes are written. *)
Definition AllWritten (t : Triangle) : Prop := t_pid t <> 0%N /\ (t_p1 t <> t_p2 t \/ t_p1 t <> t_p3 t).
Inductive TrisFit : list Triangle -> Prop :=
| TfNil : TrisFit []
| TfCons t r : NumsFit t -> AnyFits true "triangle" (t_any t) ->
    (t_any t = [] \/ AllWritten t \/ r = []) -> TrisFit r -> TrisFit (t :: r).
Definition MeshFits (m : Mesh) : Prop :=
  Forall PointFits (me_verts m) /\ AnyFits false "vertices" (me_vany m) /\ TrisFit (me_tris m) /\
  AnyFits false "triangles" (me_tany m) /\ AnyFits false "mesh" (me_any m) /\ ElemsFit (me_ext m).
Definition ObjFits (o : Object) : Prop :=
  U32 (ob_id o) /\ XmlText (ob_name o) /\ XmlText (ob_part o) /\ XmlText (ob_thumb o) /\ U32 (ob_pid o) /\ U32 (ob_pindex o) /\
  (0 <= ob_type o <= 4)%Z /\ GroupMetaFits (ob_md o) /\ AnyFits false "object" (ob_any o) /\
  match ob_mesh o, ob_comps o with
  | Some m, None => MeshFits m
  (* the properties of an object without mesh are not written *)
  | None, Some cs => ob_pid o = 0%N /\ ob_pindex o = 0%N /\ Forall CompFits (cs_list cs) /\ AnyFits false "components" (cs_any cs)
  | None, None => ob_pid o = 0%N /\ ob_pindex o = 0%N
  | Some _, Some _ => False
  end.
Definition ResFits (r : Resources) : Prop :=
  Forall AssetFits (rs_assets r) /\ Forall ObjFits (rs_objects r) /\ AnyFits false "resources" (rs_any r).
End Precision.
End Fits.

(** ** The model *)
(** The declarations the root element makes, the last one first *)
Definition env_of (m : Model) : Env :=
  mkEnv (Some ns_core) (rev (map (fun x => (ex_local x, ex_ns x)) (mo_exts m))).
Definition ExtsFit (l : list Extension) : Prop :=
  NoDup (map ex_local l) /\
  Forall (fun x => NameStr (ex_local x) /\ ex_local x <> "xml" /\ ex_local x <> "xmlns" /\ XmlText (ex_ns x) /\ ex_ns x <> "xmlns" /\
                   (ex_req x = true -> forall c, In c (chars (ex_local x)) -> (bN c < 128)%N)) l.
Definition HeadFits (known : string -> Prop) (m : Model) : Prop :=
  (mo_units m <= 5)%N /\ XmlText (mo_lang m) /\ XmlText (mo_thumb m) /\ ExtsFit (mo_exts m) /\
  AnyFits (env_of m) known false "model" (mo_anyattr m) /\ Forall (fun g => space_of g <> nsxml) (mo_anyattr m).
Definition ModelFits (known : string -> Prop) (p : nat) (m : Model) : Prop :=
  let e := env_of m in let prefixes := map ex_local (mo_exts m) in
  HeadFits known m /\ Forall (MetaFits prefixes) (mo_md m) /\ ResFits e known p prefixes (mo_res m) /\
  BuildFits e known prefixes (mo_build m) /\ ElemsFit e known p (mo_any m).

(** ** What is read *)
Section Same.
Context (p : nat).
(** A number that is only written if it is not zero *)
Definition RoundedOrZero (x y : f32) : Prop := Rounded p x y \/ (feqb x f_zero = true /\ y = f_zero).
Definition SameSlice (a b : Slice) : Prop :=
  Rounded p (sl_top a) (sl_top b) /\
  Forall2 (fun v w => Rounded p (p2x v) (p2x w) /\ Rounded p (p2y v) (p2y w)) (sl_verts a) (sl_verts b) /\ sl_polys b = sl_polys a.
Definition SameBeam (a b : Beam) : Prop :=
  bm_i1 b = bm_i1 a /\ bm_i2 b = bm_i2 a /\ Rounded p (bm_r1 a) (bm_r1 b) /\ Rounded p (bm_r2 a) (bm_r2 b) /\
  bm_c1 b = bm_c1 a /\ bm_c2 b = bm_c2 a.
Definition SameExt (x y : ExtElem) : Prop :=
  match x, y with
  | XTex2DGroup a, XTex2DGroup b => tg_id b = tg_id a /\ tg_tex b = tg_tex a /\
      Forall2 (fun v w => Rounded p (fst v) (fst w) /\ Rounded p (snd v) (snd w)) (tg_coords a) (tg_coords b)
  | XComposite a, XComposite b => cm_id b = cm_id a /\ cm_mat b = cm_mat a /\ cm_indices b = cm_indices a /\
      Forall2 (Forall2 (Rounded p)) (cm_comps a) (cm_comps b)
  | XSliceStack a, XSliceStack b => ss_id b = ss_id a /\ RoundedOrZero (ss_bottom a) (ss_bottom b) /\
      Forall2 SameSlice (ss_slices a) (ss_slices b) /\ ss_refs b = ss_refs a
  | XBeamLattice a, XBeamLattice b =>
      bl_clip b = bl_clip a /\ bl_clipmesh b = bl_clipmesh a /\ bl_repmesh b = bl_repmesh a /\ bl_cap b = bl_cap a /\
      Rounded p (bl_minlen a) (bl_minlen b) /\ Rounded p (bl_radius a) (bl_radius b) /\
      Forall2 SameBeam (bl_beams a) (bl_beams b) /\ bl_sets b = bl_sets a
  | XTexture2D _, _ | XColorGroup _, _ | XMulti _, _ => y = x
  | _, _ => False
  end.
Definition SameElem (x y : AnyElem) : Prop :=
  match x, y with AnyExt a, AnyExt b => SameExt a b | AnyTokens _, _ => y = x | _, _ => False end.
Definition SameAsset (x y : Asset) : Prop :=
  match x, y with AExt a, AExt b => SameExt a b | AExt _, _ => False | _, _ => y = x end.
Definition SamePoint (a b : Point3D) : Prop :=
  Rounded p (px a) (px b) /\ Rounded p (py a) (py b) /\ Rounded p (pz a) (pz b).
(** The identity and the zero matrix are both read as the zero matrix *)
Definition SameTransform (a b : Matrix) : Prop :=
  (NoTransform a /\ b = matrix_zero) \/ (~ NoTransform a /\ RoundedMatrix a b).
Definition SameComp (a b : Component) : Prop := co_oid b = co_oid a /\ SameTransform (co_tr a) (co_tr b) /\ co_any b = co_any a.
Definition SameItem (a b : Item) : Prop :=
  it_oid b = it_oid a /\ SameTransform (it_tr a) (it_tr b) /\ it_part b = it_part a /\ it_md b = it_md a /\ it_any b = it_any a.
(** A triangle without property group: the indices are not written, and what is read are the defaults of the object *)
Definition with_defaults (o : Object) (t : Triangle) : Triangle :=
  if (t_pid t =? 0)%N then mkTri (t_v1 t) (t_v2 t) (t_v3 t) (ob_pid o) (ob_pindex o) (ob_pindex o) (ob_pindex o) (t_any t) else t.
Definition SameMesh (o : Object) (a b : Mesh) : Prop :=
  Forall2 SamePoint (me_verts a) (me_verts b) /\ me_vany b = me_vany a /\ me_tris b = map (with_defaults o) (me_tris a) /\ me_tany b = me_tany a /\
  me_any b = me_any a /\ Forall2 SameElem (me_ext a) (me_ext b).
Definition SameOption {A} (R : A -> A -> Prop) (a b : option A) : Prop :=
  match a, b with Some a, Some b => R a b | None, None => True | _, _ => False end.
Definition SameObj (a b : Object) : Prop :=
  ob_id b = ob_id a /\ ob_name b = ob_name a /\ ob_part b = ob_part a /\ ob_thumb b = ob_thumb a /\ ob_pid b = ob_pid a /\
  ob_pindex b = ob_pindex a /\ ob_type b = ob_type a /\ ob_md b = ob_md a /\ ob_any b = ob_any a /\
  SameOption (SameMesh a) (ob_mesh a) (ob_mesh b) /\
  SameOption (fun c d => Forall2 SameComp (cs_list c) (cs_list d) /\ cs_any d = cs_any c) (ob_comps a) (ob_comps b).
Definition SameRes (a b : Resources) : Prop :=
  Forall2 SameAsset (rs_assets a) (rs_assets b) /\ Forall2 SameObj (rs_objects a) (rs_objects b) /\ rs_any b = rs_any a.
(** The parts of a model that the file of the root model holds *)
Definition SameModel (a b : Model) : Prop :=
  mo_lang b = mo_lang a /\ mo_units b = mo_units a /\ mo_thumb b = mo_thumb a /\ mo_exts b = mo_exts a /\ mo_md b = mo_md a /\
  SameRes (mo_res a) (mo_res b) /\
  (Forall2 SameItem (bu_items (mo_build a)) (bu_items (mo_build b)) /\ bu_any (mo_build b) = bu_any (mo_build a)) /\
  Forall2 SameElem (mo_any a) (mo_any b) /\ mo_anyattr b = mo_anyattr a.
End Same.
