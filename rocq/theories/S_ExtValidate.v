(** * Specification of the validators of the extensions

    For each extension: the located violations the validator reports (the rules as
    it applies them) and the rules of the extension itself ([...Conforms]). *)
From Verif Require Import GoBase GoFloat Types S_Core S_Geom S_Validate.

(** ** Materials *)
Inductive ColorViolation (g : ColorGroup) : list Level -> gerr -> Prop :=
| CgvID : cg_id g = 0%N -> ColorViolation g [] (ESent "ErrMissingID")
| CgvEmpty : cg_colors g = [] -> ColorViolation g [] (ESent "ErrEmptyResourceProps")
| CgvColor j : nth_error (cg_colors g) j = Some no_color -> ColorViolation g [lvi "color" j] (EMissing "color").
Definition ColorConforms (g : ColorGroup) : Prop :=
  cg_id g <> 0%N /\ cg_colors g <> [] /\ ~ In no_color (cg_colors g).

Inductive TexGroupViolation (m : Model) (path : string) (g : Tex2DGroup) : list Level -> gerr -> Prop :=
| TgvID : tg_id g = 0%N -> TexGroupViolation m path g [] (ESent "ErrMissingID")
| TgvNoTexture : tg_tex g = 0%N -> TexGroupViolation m path g [] (EMissing "texid")
| TgvTexture : tg_tex g <> 0%N -> (forall t, ~ AssetIn m path (tg_tex g) (AExt (XTexture2D t))) ->
    TexGroupViolation m path g [] (ESent "ErrTextureReference")
| TgvEmpty : tg_coords g = [] -> TexGroupViolation m path g [] (ESent "ErrEmptyResourceProps").
Definition TexGroupConforms (m : Model) (path : string) (g : Tex2DGroup) : Prop :=
  tg_id g <> 0%N /\ tg_coords g <> [] /\ tg_tex g <> 0%N /\
  exists t, AssetIn m path (tg_tex g) (AExt (XTexture2D t)).

Inductive TextureViolation (m : Model) (t : Texture2D) : list Level -> gerr -> Prop :=
| TxvID : tx_id t = 0%N -> TextureViolation m t [] (ESent "ErrMissingID")
| TxvNoPath : tx_path t = "" -> TextureViolation m t [] (EMissing "path")
| TxvPart : tx_path t <> "" -> ~ Attached (mo_atts m) (tx_path t) ->
    TextureViolation m t [] (ESent "ErrMissingTexturePart")
| TxvContent : tx_ctype t = 0%N -> TextureViolation m t [] (EMissing "contenttype").
Definition TextureConforms (m : Model) (t : Texture2D) : Prop :=
  tx_id t <> 0%N /\ tx_path t <> "" /\ Attached (mo_atts m) (tx_path t) /\ tx_ctype t <> 0%N.

Definition IsBase (a : Asset) : Prop := exists b, a = ABase b.
Definition IsComposite (a : Asset) : Prop := exists c, a = AExt (XComposite c).
Definition IsMulti (a : Asset) : Prop := exists p, a = AExt (XMulti p).
Definition IsColor (a : Asset) : Prop := exists g, a = AExt (XColorGroup g).

Inductive CompositeViolation (m : Model) (path : string) (c : CompositeMaterials) : list Level -> gerr -> Prop :=
| CmvID : cm_id c = 0%N -> CompositeViolation m path c [] (ESent "ErrMissingID")
| CmvNoMat : cm_mat c = 0%N -> CompositeViolation m path c [] (EMissing "matid")
| CmvMissing : cm_mat c <> 0%N -> (forall a, ~ AssetIn m path (cm_mat c) a) ->
    CompositeViolation m path c [] (ESent "ErrMissingResource")
| CmvBase a : cm_mat c <> 0%N -> AssetIn m path (cm_mat c) a -> ~ IsBase a ->
    CompositeViolation m path c [] (ESent "ErrCompositeBase")
| CmvIndex b i : cm_mat c <> 0%N -> AssetIn m path (cm_mat c) (ABase b) -> In i (cm_indices c) ->
    (N.of_nat (List.length (bs_mats b)) < i)%N -> CompositeViolation m path c [] (ESent "ErrIndexOutOfBounds")
| CmvNoIndex : cm_indices c = [] -> CompositeViolation m path c [] (EMissing "matindices")
| CmvEmpty : cm_comps c = [] -> CompositeViolation m path c [] (ESent "ErrEmptyResourceProps").
(** The rule: a material index must designate a base material. *)
Definition CompositeConforms (m : Model) (path : string) (c : CompositeMaterials) : Prop :=
  cm_id c <> 0%N /\ cm_mat c <> 0%N /\ cm_indices c <> [] /\ cm_comps c <> [] /\
  exists b, AssetIn m path (cm_mat c) (ABase b) /\
    (forall i, In i (cm_indices c) -> (i < N.of_nat (List.length (bs_mats b)))%N).

(** The size the validator attributes to a property group of a multi-property. *)
Inductive CountedSize (m : Model) (path : string) (pid : N) : nat -> Prop :=
| CsBase b : AssetIn m path pid (ABase b) -> CountedSize m path pid (List.length (bs_mats b))
| CsComposite c : AssetIn m path pid (AExt (XComposite c)) -> CountedSize m path pid (List.length (cm_comps c))
| CsColor g : AssetIn m path pid (AExt (XColorGroup g)) -> CountedSize m path pid (List.length (cg_colors g))
| CsOther : (forall a, AssetIn m path pid a -> ~ IsBase a /\ ~ IsComposite a /\ ~ IsColor a) ->
    CountedSize m path pid 0.
Inductive MultiViolation (m : Model) (path : string) (p : MultiProps) : list Level -> gerr -> Prop :=
| MpvID : mp_id p = 0%N -> MultiViolation m path p [] (ESent "ErrMissingID")
| MpvNoPids : mp_pids p = [] -> MultiViolation m path p [] (EMissing "pids")
| MpvBlend : List.length (mp_pids p) <= List.length (mp_blend p) -> MultiViolation m path p [] (ESent "ErrMultiBlend")
| MpvEmpty : mp_multis p = [] -> MultiViolation m path p [] (ESent "ErrEmptyResourceProps")
| MpvMissing pid : In pid (mp_pids p) -> (forall a, ~ AssetIn m path pid a) ->
    MultiViolation m path p [] (ESent "ErrMissingResource")
| MpvMaterial j pid a : nth_error (mp_pids p) j = Some pid -> j <> 0 -> AssetIn m path pid a ->
    IsBase a \/ IsComposite a -> MultiViolation m path p [] (ESent "ErrMaterialMulti")
| MpvMulti pid a : In pid (mp_pids p) -> AssetIn m path pid a -> IsMulti a ->
    MultiViolation m path p [] (ESent "ErrMultiRefMulti")
| MpvColors i j pid pid' a a' : i <> j -> nth_error (mp_pids p) i = Some pid -> nth_error (mp_pids p) j = Some pid' ->
    AssetIn m path pid a -> AssetIn m path pid' a' -> IsColor a -> IsColor a' ->
    MultiViolation m path p [] (ESent "ErrMultiColors")
| MpvIndex j mu k i pid n : nth_error (mp_multis p) j = Some mu -> nth_error mu k = Some i ->
    nth_error (mp_pids p) k = Some pid -> CountedSize m path pid n -> (N.of_nat n < i)%N ->
    MultiViolation m path p [lvi "multi" j] (ESent "ErrIndexOutOfBounds").
(** The rules: in particular each index designates a property of its group. *)
Definition MultiConforms (m : Model) (path : string) (p : MultiProps) : Prop :=
  mp_id p <> 0%N /\ mp_pids p <> [] /\ mp_multis p <> [] /\
  List.length (mp_blend p) < List.length (mp_pids p) /\
  (forall pid, In pid (mp_pids p) -> exists a, AssetIn m path pid a /\ ~ IsMulti a) /\
  (forall j pid a, nth_error (mp_pids p) j = Some pid -> AssetIn m path pid a -> IsBase a \/ IsComposite a -> j = 0) /\
  (forall i j pid pid' a a', nth_error (mp_pids p) i = Some pid -> nth_error (mp_pids p) j = Some pid' ->
     AssetIn m path pid a -> AssetIn m path pid' a' -> IsColor a -> IsColor a' -> i = j) /\
  (forall mu k i pid a n, In mu (mp_multis p) -> nth_error mu k = Some i -> nth_error (mp_pids p) k = Some pid ->
     AssetIn m path pid a -> GroupSize a n -> (i < N.of_nat n)%N).

Inductive MaterialViolation (m : Model) (path : string) : VElem -> list Level -> gerr -> Prop :=
| MatColor g loc k : ColorViolation g loc k -> MaterialViolation m path (VAsset (AExt (XColorGroup g))) loc k
| MatTexGroup g loc k : TexGroupViolation m path g loc k -> MaterialViolation m path (VAsset (AExt (XTex2DGroup g))) loc k
| MatTexture t loc k : TextureViolation m t loc k -> MaterialViolation m path (VAsset (AExt (XTexture2D t))) loc k
| MatComposite c loc k : CompositeViolation m path c loc k -> MaterialViolation m path (VAsset (AExt (XComposite c))) loc k
| MatMulti p loc k : MultiViolation m path p loc k -> MaterialViolation m path (VAsset (AExt (XMulti p))) loc k.

(** ** Beam lattice *)
(** The lattice of a mesh: the first one among its extension elements. *)
Definition LatticeOf (me : Mesh) (bl : BeamLattice) : Prop :=
  exists a b, me_ext me = a ++ AnyExt (XBeamLattice bl) :: b /\ (forall x, ~ In (AnyExt (XBeamLattice x)) a).
(** A mesh that may be used to clip or to represent. *)
Definition PlainMesh (o : Object) : Prop :=
  ob_type o = 0%Z /\ exists me, ob_mesh o = Some me /\ (forall bl, ~ LatticeOf me bl).
(** The object [id] is declared in the part before the object [self]. *)
Definition DeclaredBefore (l : list Object) (self id : N) (o : Object) : Prop :=
  exists a b, l = a ++ o :: b /\ ob_id o = id /\ (forall x, In x a -> ob_id x <> id /\ ob_id x <> self).
Inductive RefMeshViolation (m : Model) (path : string) (self id : N) : gerr -> Prop :=
| RmSelf : id = self -> RefMeshViolation m path self id (ESent "ErrRecursion")
| RmLate rs o : id <> self -> Addressed m path rs -> DeclaredBefore (rs_objects rs) id self o ->
    RefMeshViolation m path self id (ESent "ErrMissingResource")
| RmKind rs o : id <> self -> Addressed m path rs -> DeclaredBefore (rs_objects rs) self id o -> ~ PlainMesh o ->
    RefMeshViolation m path self id (ESent "ErrLatticeInvalidMesh").
Definition Unset (x : f32) : Prop := is_zero x.

Inductive LatticeViolation (m : Model) (path : string) (o : Object) (me : Mesh) (bl : BeamLattice) :
  list Level -> gerr -> Prop :=
| LvType : ~ SolidType o -> LatticeViolation m path o me bl [] (ESent "ErrLatticeObjType")
| LvMinLen : Unset (bl_minlen bl) -> LatticeViolation m path o me bl [] (EMissing "minlength")
| LvRadius : Unset (bl_radius bl) -> LatticeViolation m path o me bl [] (EMissing "radius")
| LvClip : bl_clip bl = 0%N -> bl_clipmesh bl = 0%N ->
    LatticeViolation m path o me bl [] (ESent "ErrLatticeClippedNoMesh")
| LvRef id k : In id [bl_clipmesh bl; bl_repmesh bl] -> id <> 0%N -> RefMeshViolation m path (ob_id o) id k ->
    LatticeViolation m path o me bl [] k
| LvSame i b : nth_error (bl_beams bl) i = Some b -> bm_i1 b = bm_i2 b ->
    LatticeViolation m path o me bl [lvi "beam" i] (ESent "ErrLatticeSameVertex")
| LvRange i b v : nth_error (bl_beams bl) i = Some b -> bm_i1 b <> bm_i2 b -> In v [bm_i1 b; bm_i2 b] ->
    (N.of_nat (List.length (me_verts me)) <= v)%N ->
    LatticeViolation m path o me bl [lvi "beam" i] (ESent "ErrIndexOutOfBounds")
| LvR2 i b : nth_error (bl_beams bl) i = Some b -> ~ Unset (bm_r1 b) -> ~ NumEq (bm_r1 b) (bl_radius bl) ->
    ~ NumEq (bm_r1 b) (bm_r2 b) -> LatticeViolation m path o me bl [lvi "beam" i] (ESent "ErrLatticeBeamR2")
| LvSet i s r : nth_error (bl_sets bl) i = Some s -> In r (bs_refs s) ->
    (N.of_nat (List.length (bs_refs s)) <= r)%N ->
    LatticeViolation m path o me bl [lvi "beamset" i] (ESent "ErrIndexOutOfBounds").
Inductive BeamViolation (m : Model) (path : string) : VElem -> list Level -> gerr -> Prop :=
| BvLattice o me bl loc k : ob_mesh o = Some me -> LatticeOf me bl -> LatticeViolation m path o me bl loc k ->
    BeamViolation m path (VObject o) (lv "mesh" :: lv "beamlattice" :: loc) k.
(** A positive number. *)
Definition Positive (x : f32) : Prop :=
  x = S754_infinity false \/ exists m e, x = S754_finite false m e.
(** The rules of the beam lattice extension. *)
Definition LatticeConforms (m : Model) (path : string) (o : Object) (me : Mesh) (bl : BeamLattice) : Prop :=
  SolidType o /\ Positive (bl_minlen bl) /\ Positive (bl_radius bl) /\
  (bl_clip bl <> 0%N -> bl_clipmesh bl <> 0%N) /\
  (forall id, In id [bl_clipmesh bl; bl_repmesh bl] -> id <> 0%N -> id <> ob_id o /\
     exists rs r, Addressed m path rs /\ DeclaredBefore (rs_objects rs) (ob_id o) id r /\ PlainMesh r) /\
  (forall b, In b (bl_beams bl) -> bm_i1 b <> bm_i2 b /\
     (bm_i1 b < N.of_nat (List.length (me_verts me)))%N /\ (bm_i2 b < N.of_nat (List.length (me_verts me)))%N /\
     (** no second radius without a first one *)
     (Unset (bm_r1 b) -> Unset (bm_r2 b))) /\
  (forall s r, In s (bl_sets bl) -> In r (bs_refs s) -> (r < N.of_nat (List.length (bl_beams bl)))%N).

(** ** Slices *)
Definition StackIn (m : Model) (path : string) (id : N) (st : SliceStack) : Prop :=
  AssetIn m path id (AExt (XSliceStack st)).
Definition LastOf {A} (l : list A) (x : A) : Prop := exists r, l = r ++ [x].
Definition FirstOf {A} (l : list A) (x : A) : Prop := exists r, l = x :: r.
(** The lowest finite float32. *)
Definition lowest32 : f32 := S754_finite true 16777215 104.

(** A reference whose attributes are all there. *)
Definition RefWellFormed (path : string) (r : SliceRef) : Prop := sr_path r <> "" /\ sr_path r <> path /\ sr_id r <> 0%N.
(** The [i]-th reference leads to slices, the topmost at height [z]. *)
Definition EndsAt (m : Model) (path : string) (l : list SliceRef) (i : nat) (z : f32) : Prop :=
  exists r st s, nth_error l i = Some r /\ RefWellFormed path r /\ StackIn m (sr_path r) (sr_id r) st /\
    LastOf (ss_slices st) s /\ sl_top s = z.
(** The height reached by the references before the [i]-th. *)
Inductive HeightBefore (m : Model) (path : string) (l : list SliceRef) (i : nat) : f32 -> Prop :=
| HbNone : (forall j z, j < i -> ~ EndsAt m path l j z) -> HeightBefore m path l i lowest32
| HbSome j z : j < i -> EndsAt m path l j z -> (forall k y, j < k < i -> ~ EndsAt m path l k y) ->
    HeightBefore m path l i z.

Inductive RefViolation (m : Model) (path : string) (l : list SliceRef) (i : nat) : gerr -> Prop :=
| RfPath r : nth_error l i = Some r -> sr_path r = "" -> RefViolation m path l i (EMissing "slicepath")
| RfSame r : nth_error l i = Some r -> sr_path r <> "" -> sr_path r = path ->
    RefViolation m path l i (ESent "ErrSliceRefSamePart")
| RfID r : nth_error l i = Some r -> sr_id r = 0%N -> RefViolation m path l i (EMissing "slicestackid")
| RfMissing r : nth_error l i = Some r -> RefWellFormed path r -> (forall a, ~ AssetIn m (sr_path r) (sr_id r) a) ->
    RefViolation m path l i (ESent "ErrMissingResource")
| RfKind r a : nth_error l i = Some r -> RefWellFormed path r -> AssetIn m (sr_path r) (sr_id r) a ->
    (forall st, a <> AExt (XSliceStack st)) -> RefViolation m path l i (ESent "ErrNonSliceStack")
| RfRef r st : nth_error l i = Some r -> RefWellFormed path r -> StackIn m (sr_path r) (sr_id r) st ->
    ss_refs st <> [] -> RefViolation m path l i (ESent "ErrSliceRefRef")
| RfOrder r st s z : nth_error l i = Some r -> RefWellFormed path r -> StackIn m (sr_path r) (sr_id r) st ->
    FirstOf (ss_slices st) s -> HeightBefore m path l i z -> Le (sl_top s) z ->
    RefViolation m path l i (ESent "ErrSliceNoMonotonic").

(** The top of the slice before the [j]-th. *)
Inductive TopBefore (l : list Slice) : nat -> f32 -> Prop :=
| TbFirst : TopBefore l 0 lowest32
| TbNext j s : nth_error l j = Some s -> TopBefore l (S j) (sl_top s).
Inductive SliceViolation (bottom : f32) (l : list Slice) (j : nat) : list Level -> gerr -> Prop :=
| SlNoTop s : nth_error l j = Some s -> Unset (sl_top s) -> SliceViolation bottom l j [] (EMissing "ztop")
| SlLow s : nth_error l j = Some s -> ~ Unset (sl_top s) -> fltb (sl_top s) bottom = true ->
    SliceViolation bottom l j [] (ESent "ErrSliceSmallTopZ")
| SlOrder s z : nth_error l j = Some s -> TopBefore l j z -> Le (sl_top s) z ->
    SliceViolation bottom l j [] (ESent "ErrSliceNoMonotonic")
| SlVertices s : nth_error l j = Some s -> ~ (sl_polys s = [] /\ sl_verts s = []) -> List.length (sl_verts s) < 2 ->
    SliceViolation bottom l j [] (ESent "ErrSliceInsufficientVertices")
| SlPolygons s : nth_error l j = Some s -> sl_verts s <> [] -> sl_polys s = [] ->
    SliceViolation bottom l j [] (ESent "ErrSliceInsufficientPolygons")
| SlSegments s k p : nth_error l j = Some s -> nth_error (sl_polys s) k = Some p -> pg_segs p = [] ->
    SliceViolation bottom l j [lvi "polygon" k] (ESent "ErrSliceInsufficientSegments").
Inductive StackViolation (m : Model) (path : string) (st : SliceStack) : list Level -> gerr -> Prop :=
| StBoth : (ss_slices st = [] <-> ss_refs st = []) -> StackViolation m path st [] (ESent "ErrSlicesAndRefs")
| StRef i k : RefViolation m path (ss_refs st) i k -> StackViolation m path st [lvi "sliceref" i] k
| StSlice j loc k : SliceViolation (ss_bottom st) (ss_slices st) j loc k ->
    StackViolation m path st (lvi "slice" j :: loc) k.

(** The rules for a stack. *)
Definition SliceConforms (s : Slice) : Prop :=
  (sl_polys s = [] /\ sl_verts s = []) \/
  (2 <= List.length (sl_verts s) /\ sl_polys s <> [] /\
   forall p, In p (sl_polys s) -> pg_segs p <> [] /\
     (pg_start p < N.of_nat (List.length (sl_verts s)))%N /\
     (forall g, In g (pg_segs p) -> (sg_v2 g < N.of_nat (List.length (sl_verts s)))%N)).
Definition StackConforms (m : Model) (path : string) (st : SliceStack) : Prop :=
  ((ss_slices st <> [] /\ ss_refs st = []) \/ (ss_slices st = [] /\ ss_refs st <> [])) /\
  (forall s, In s (ss_slices st) -> Le (ss_bottom st) (sl_top s) /\ SliceConforms s) /\
  (forall j s s', nth_error (ss_slices st) j = Some s -> nth_error (ss_slices st) (S j) = Some s' ->
     fltb (sl_top s) (sl_top s') = true) /\
  (forall r, In r (ss_refs st) -> RefWellFormed path r /\
     exists st', StackIn m (sr_path r) (sr_id r) st' /\ ss_refs st' = []) /\
  (forall i r st' s z, nth_error (ss_refs st) i = Some r -> StackIn m (sr_path r) (sr_id r) st' ->
     FirstOf (ss_slices st') s -> HeightBefore m path (ss_refs st) i z -> fltb z (sl_top s) = true).

(** *** Objects with slices *)
Definition SliceAttr (o : Object) (sid res : N) : Prop :=
  exists a b, ob_any o = a ++ GSlice sid res :: b /\ (forall x y, ~ In (GSlice x y) a).
Definition ClosedStack (st : SliceStack) : Prop :=
  forall s p g, In s (ss_slices st) -> In p (sl_polys s) -> LastOf (pg_segs p) g -> pg_start p = sg_v2 g.
Definition AllClosed (m : Model) (st : SliceStack) : Prop :=
  ClosedStack st /\ forall r st', In r (ss_refs st) -> StackIn m (sr_path r) (sr_id r) st' -> ClosedStack st'.
(** The transforms allowed on sliced objects. *)
Definition PlanarMatrix (t : Matrix) : Prop :=
  is_zero (m2 t) /\ is_zero (m6 t) /\ is_zero (m8 t) /\ is_zero (m9 t) /\ m10 t = one32.
Definition MayPlace (t : Matrix) : Prop := ZeroMatrix t \/ IdentityMatrix t \/ PlanarMatrix t.
(** The first declaration of the extension says that it is required. *)
Definition slice_ns : string := "http://schemas.microsoft.com/3dmanufacturing/slice/2015/07".
Definition SlicesRequired (m : Model) : Prop :=
  exists a e b, mo_exts m = a ++ e :: b /\ (forall x, In x a -> ex_ns x <> slice_ns) /\ ex_ns e = slice_ns /\ ex_req e = true.

(** The references the validator follows from an object: it resolves every component
    in the part [path] of the sliced object, and leaves an object at the first
    component that designates the object itself. *)
Definition SelfRef (path : string) (o : Object) (c : Component) : Prop :=
  co_oid c = ob_id o /\ TargetFile c path path.
Inductive Followed (m : Model) (path : string) : Object -> Object -> Prop :=
| FoHere o : Followed m path o o
| FoComp o pre c post q o1 o2 : Comps o = pre ++ c :: post ->
    (forall d, In d (pre ++ [c]) -> ~ SelfRef path o d) -> TargetFile c path q -> ObjIn m q (co_oid c) o1 ->
    Followed m path o1 o2 -> Followed m path o o2.
Definition BadPlacement (path : string) (id : N) (o : Object) : Prop :=
  exists pre c post, Comps o = pre ++ c :: post /\ (forall d, In d pre -> ~ SelfRef path o d) /\
    co_oid c = id /\ TargetFile c path path /\ ~ MayPlace (co_tr c).
Inductive BadBuild (m : Model) (path : string) (id : N) : Prop :=
| BbItem it q : In it (bu_items (mo_build m)) -> CarriedPath (it_any it) q -> (q = "" \/ q = path) ->
    it_oid it = id -> ~ MayPlace (it_tr it) -> BadBuild m path id
| BbObject it q o o' : In it (bu_items (mo_build m)) -> CarriedPath (it_any it) q ->
    ObjIn m (if seq q "" then path else q) (it_oid it) o -> Followed m path o o' -> BadPlacement path id o' ->
    BadBuild m path id.

Inductive SliceObjViolation (m : Model) (path : string) (o : Object) : gerr -> Prop :=
| SoNoID res : SliceAttr o 0 res -> SliceObjViolation m path o (EMissing "slicestackid")
| SoMissing sid res : SliceAttr o sid res -> sid <> 0%N -> (forall a, ~ AssetIn m path sid a) ->
    SliceObjViolation m path o (ESent "ErrMissingResource")
| SoKind sid res a : SliceAttr o sid res -> sid <> 0%N -> AssetIn m path sid a ->
    (forall st, a <> AExt (XSliceStack st)) -> SliceObjViolation m path o (ESent "ErrNonSliceStack")
| SoPlacement sid res st : SliceAttr o sid res -> sid <> 0%N -> StackIn m path sid st -> BadBuild m path (ob_id o) ->
    SliceObjViolation m path o (ESent "ErrSliceInvalidTranform")
| SoOpen sid res st : SliceAttr o sid res -> sid <> 0%N -> StackIn m path sid st -> SolidType o -> ~ AllClosed m st ->
    SliceObjViolation m path o (ESent "ErrSlicePolygonNotClosed")
| SoRequired sid : SliceAttr o sid 1 -> ~ SlicesRequired m -> SliceObjViolation m path o (ESent "ErrSliceExtRequired").
Inductive SlicesViolation (m : Model) (path : string) : VElem -> list Level -> gerr -> Prop :=
| SvStack st loc k : StackViolation m path st loc k -> SlicesViolation m path (VAsset (AExt (XSliceStack st))) loc k
| SvSliced o k : SliceObjViolation m path o k -> SlicesViolation m path (VObject o) [] k.

(** The rules for an object with slices.  [Placed file o]: the build places the object
    [o] of the part [file]. *)
Inductive Placed (m : Model) : string -> Object -> Prop :=
| PlItem it q o : In it (bu_items (mo_build m)) -> CarriedPath (it_any it) q -> ObjIn m q (it_oid it) o -> Placed m q o
| PlComp file o c q o1 : Placed m file o -> In c (Comps o) -> Target m c file q o1 -> Placed m q o1.
Definition SamePart (m : Model) (p q : string) : Prop :=
  p = q \/ (p = "" /\ q = root_path m) \/ (p = root_path m /\ q = "").
Definition PlacementsConform (m : Model) (path : string) (id : N) : Prop :=
  (forall it q, In it (bu_items (mo_build m)) -> CarriedPath (it_any it) q -> SamePart m q path -> it_oid it = id ->
     MayPlace (it_tr it)) /\
  (forall file o c q, Placed m file o -> In c (Comps o) -> TargetFile c file q -> SamePart m q path -> co_oid c = id ->
     MayPlace (co_tr c)).
Definition SliceObjConforms (m : Model) (path : string) (o : Object) : Prop :=
  forall sid res, SliceAttr o sid res ->
    sid <> 0%N /\ (res = 1%N -> SlicesRequired m) /\
    exists st, StackIn m path sid st /\ (SolidType o -> AllClosed m st) /\ PlacementsConform m path (ob_id o).
(** Heights on which the comparisons of the validator are meaningful. *)
Definition OrdinaryHeight (z : f32) : Prop := Finite z /\ ~ Unset z /\ fltb lowest32 z = true.
Definition IndicesInRange (st : SliceStack) : Prop :=
  forall s p, In s (ss_slices st) -> In p (sl_polys s) ->
    (pg_start p < N.of_nat (List.length (sl_verts s)))%N /\
    (forall g, In g (pg_segs p) -> (sg_v2 g < N.of_nat (List.length (sl_verts s)))%N).
(** Everything is in one part and nothing contains itself directly. *)
Definition SinglePart (m : Model) : Prop :=
  (forall it, In it (bu_items (mo_build m)) -> CarriedPath (it_any it) "") /\
  (forall o c, In o (rs_objects (mo_res m)) -> In c (Comps o) -> CarriedPath (co_any c) "" /\ co_oid c <> ob_id o).
