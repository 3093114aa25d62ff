(** * Specification of Model.Validate

    Two views: [Violation], the located violations that a report must list, and
    [Conforms], the rules a conforming model satisfies. *)
From Verif Require Import GoBase GoFloat Types S_Core S_Geom.

Definition Loc := (list Level * string * gerr)%type.
Definition lv (n : string) : Level := mkLevel n (-1).
Definition lvi (n : string) (i : nat) : Level := mkLevel n (Z.of_nat i).

(** ** Metadata names *)
Definition reserved_names : list string :=
  ["title"; "designer"; "description"; "copyright"; "licenseterms"; "rating";
   "creationdate"; "modificationdate"; "application"].
(** Rune by rune lower case, where the result is ASCII: besides A-Z, the runes
    U+0130 (C4 B0) and U+212A (E2 84 AA) have ASCII lower case. *)
Inductive LowersTo : string -> string -> Prop :=
| LwNil : LowersTo "" ""
| LwSame c s t : (bN c < 128)%N -> ~ (65 <= bN c <= 90)%N -> LowersTo s t -> LowersTo (String c s) (String c t)
| LwUpper c d s t : (65 <= bN c <= 90)%N -> bN d = (bN c + 32)%N -> LowersTo s t ->
    LowersTo (String c s) (String d t)
| LwDotI s t : LowersTo s t -> LowersTo (String "196" (String "176" s)) (String "i" t)
| LwKelvin s t : LowersTo s t ->
    LowersTo (String "226" (String "132" (String "170" s))) (String "k" t).
Definition Reserved (s : string) : Prop := exists n, In n reserved_names /\ LowersTo s n.

(** Equality of texts up to the case of the letters A-Z. *)
Inductive IgnoringCase : string -> string -> Prop :=
| IcNil : IgnoringCase "" ""
| IcSame c s t : IgnoringCase s t -> IgnoringCase (String c s) (String c t)
| IcUpper c d s t : (65 <= bN c <= 90)%N -> bN d = (bN c + 32)%N -> IgnoringCase s t ->
    IgnoringCase (String c s) (String d t)
| IcLower c d s t : (65 <= bN d <= 90)%N -> bN c = (bN d + 32)%N -> IgnoringCase s t ->
    IgnoringCase (String c s) (String d t).
Definition AllAscii (s : string) : Prop := forall a c b, s = a +++ String c b -> (bN c < 128)%N.

Definition Declared (m : Model) (ns : string) : Prop := exists e, In e (mo_exts m) /\ ex_ns e = ns.

Inductive MetaViolation (m : Model) (l : list Metadata) (i : nat) : gerr -> Prop :=
| MvNoName md : nth_error l i = Some md -> nlocal (md_name md) = "" ->
    MetaViolation m l i (EMissing "name")
| MvReserved md : nth_error l i = Some md -> nlocal (md_name md) <> "" -> nspace (md_name md) = "" ->
    ~ Reserved (nlocal (md_name md)) -> MetaViolation m l i (ESent "ErrMetadataName")
| MvNamespace md : nth_error l i = Some md -> nlocal (md_name md) <> "" -> nspace (md_name md) <> "" ->
    ~ Declared m (nspace (md_name md)) -> MetaViolation m l i (ESent "ErrMetadataNamespace")
| MvDuplicated md j md' : nth_error l i = Some md -> j < i -> nth_error l j = Some md' ->
    md_name md = md_name md' -> MetaViolation m l i (ESent "ErrMetadataDuplicated").

Definition MetaConforms (m : Model) (l : list Metadata) : Prop :=
  (forall md, In md l -> nlocal (md_name md) <> "" /\
     (nspace (md_name md) = "" -> Reserved (nlocal (md_name md))) /\
     (nspace (md_name md) <> "" -> Declared m (nspace (md_name md)))) /\
  NoDup (map md_name l).

(** ** Relationships *)
Definition print_ticket_type : string := "http://schemas.microsoft.com/3dmanufacturing/2013/01/printticket".
Definition print_ticket_content : string := "application/vnd.ms-printing.printticket+xml".

Definition PartName (p : string) : Prop :=
  (exists r, p = "/" +++ r) /\ ~ (exists a b, p = a +++ "/." +++ b).
(** The attachment a path designates: the first one with that path, ignoring case. *)
Definition Designates (atts : list Attachment) (p : string) (a : Attachment) : Prop :=
  exists before after, atts = before ++ a :: after /\ eq_fold (at_path a) p = true /\
    Forall (fun x => eq_fold (at_path x) p = false) before.
Definition Attached (atts : list Attachment) (p : string) : Prop :=
  exists a, In a atts /\ eq_fold (at_path a) p = true.

Inductive RelViolation (atts : list Attachment) (l : list Relationship) (i : nat) : gerr -> Prop :=
| RvName r : nth_error l i = Some r -> ~ PartName (rel_path r) ->
    RelViolation atts l i (ESent "ErrOPCPartName")
| RvTarget r : nth_error l i = Some r -> PartName (rel_path r) -> ~ Attached atts (rel_path r) ->
    RelViolation atts l i (ESent "ErrOPCRelTarget")
| RvDuplicated r j r' : nth_error l i = Some r -> PartName (rel_path r) -> j < i ->
    nth_error l j = Some r' -> rel_path r' = rel_path r -> rel_type r' = rel_type r ->
    RelViolation atts l i (ESent "ErrOPCDuplicatedRel")
| RvContent r a : nth_error l i = Some r -> rel_type r = print_ticket_type ->
    Designates atts (rel_path r) a -> at_ctype a <> print_ticket_content ->
    RelViolation atts l i (ESent "ErrOPCContentType")
| RvTicket r j r' : nth_error l i = Some r -> rel_type r = print_ticket_type -> Attached atts (rel_path r) ->
    j < i -> nth_error l j = Some r' -> rel_type r' = print_ticket_type -> Attached atts (rel_path r') ->
    RelViolation atts l i (ESent "ErrOPCDuplicatedTicket").

Definition RelsConform (atts : list Attachment) (l : list Relationship) : Prop :=
  (forall r, In r l -> PartName (rel_path r) /\ Attached atts (rel_path r)) /\
  NoDup (map (fun r => (rel_path r, rel_type r)) l) /\
  (forall r a, In r l -> rel_type r = print_ticket_type -> Designates atts (rel_path r) a ->
     at_ctype a = print_ticket_content) /\
  (forall i j r r', nth_error l i = Some r -> nth_error l j = Some r' ->
     rel_type r = print_ticket_type -> rel_type r' = print_ticket_type -> i = j).

(** ** Resources *)
Definition ObjIn (m : Model) (path : string) (id : N) (o : Object) : Prop :=
  exists rs, Addressed m path rs /\ FirstWith ob_id id (rs_objects rs) o.
Definition AssetIn (m : Model) (path : string) (id : N) (a : Asset) : Prop :=
  exists rs, Addressed m path rs /\ FirstWith asset_id id (rs_assets rs) a.

(** The number of properties in a property group. *)
Inductive GroupSize : Asset -> nat -> Prop :=
| GsBase b : GroupSize (ABase b) (List.length (bs_mats b))
| GsTexture g : GroupSize (AExt (XTex2DGroup g)) (List.length (tg_coords g))
| GsColor g : GroupSize (AExt (XColorGroup g)) (List.length (cg_colors g))
| GsComposite g : GroupSize (AExt (XComposite g)) (List.length (cm_comps g))
| GsMulti g : GroupSize (AExt (XMulti g)) (List.length (mp_multis g)).

Inductive AssetName : Asset -> string -> Prop :=
| AnBase b : AssetName (ABase b) "basematerials"
| AnUnknown id n attrs ts : AssetName (AUnknown id (TStart n attrs :: ts)) (nlocal n)
| AnUnknownEmpty id : AssetName (AUnknown id []) ""
| AnUnknownEnd id n ts : AssetName (AUnknown id (TEnd n :: ts)) ""
| AnUnknownChar id s ts : AssetName (AUnknown id (TChar s :: ts)) ""
| AnTexture2D t : AssetName (AExt (XTexture2D t)) "texture2d"
| AnTexture g : AssetName (AExt (XTex2DGroup g)) "texture2dgroup"
| AnColor g : AssetName (AExt (XColorGroup g)) "colorgroup"
| AnComposite g : AssetName (AExt (XComposite g)) "compositematerials"
| AnMulti g : AssetName (AExt (XMulti g)) "multiproperties"
| AnSlices s : AssetName (AExt (XSliceStack s)) "slicestack"
| AnBeams b : AssetName (AExt (XBeamLattice b)) "".

Definition no_color : RGBA := mkRGBA 0 0 0 0.

Inductive BaseViolation (b : BaseMaterials) : list Level -> gerr -> Prop :=
| BvID : bs_id b = 0%N -> BaseViolation b [] (ESent "ErrMissingID")
| BvEmpty : bs_mats b = [] -> BaseViolation b [] (ESent "ErrEmptyResourceProps")
| BvName j ba : nth_error (bs_mats b) j = Some ba -> ba_name ba = "" ->
    BaseViolation b [lvi "base" j] (EMissing "name")
| BvColor j ba : nth_error (bs_mats b) j = Some ba -> ba_color ba = no_color ->
    BaseViolation b [lvi "base" j] (EMissing "displaycolor").
Definition BaseConforms (b : BaseMaterials) : Prop :=
  bs_id b <> 0%N /\ bs_mats b <> [] /\
  (forall ba, In ba (bs_mats b) -> ba_name ba <> "" /\ ba_color ba <> no_color).

(** A triangle that repeats the property of its object. *)
Definition InheritsProperty (o : Object) (t : Triangle) : Prop :=
  t_pid t = ob_pid o /\ t_p1 t = ob_pindex o /\ t_p2 t = ob_pindex o /\ t_p3 t = ob_pindex o.
Definition SolidType (o : Object) : Prop := ob_type o = 0%Z \/ ob_type o = 3%Z.

Inductive MeshViolation (m : Model) (path : string) (o : Object) (me : Mesh) : list Level -> gerr -> Prop :=
| MeVertices : SolidType o -> List.length (me_verts me) < 3 ->
    MeshViolation m path o me [] (ESent "ErrInsufficientVertices")
| MeTriangles : SolidType o -> List.length (me_tris me) < 4 -> me_ext me = [] ->
    MeshViolation m path o me [] (ESent "ErrInsufficientTriangles")
| MeSame i t : nth_error (me_tris me) i = Some t -> ~ NoDup [t_v1 t; t_v2 t; t_v3 t] ->
    MeshViolation m path o me [lvi "triangle" i] (ESent "ErrDuplicatedIndices")
| MeRange i t v : nth_error (me_tris me) i = Some t -> In v [t_v1 t; t_v2 t; t_v3 t] ->
    (N.of_nat (List.length (me_verts me)) <= v)%N ->
    MeshViolation m path o me [lvi "triangle" i] (ESent "ErrIndexOutOfBounds")
| MeNoResource i t : nth_error (me_tris me) i = Some t -> t_pid t <> 0%N -> ~ InheritsProperty o t ->
    (forall a, ~ AssetIn m path (t_pid t) a) ->
    MeshViolation m path o me [lvi "triangle" i] (ESent "ErrMissingResource")
| MeProperty i t a n p : nth_error (me_tris me) i = Some t -> t_pid t <> 0%N -> ~ InheritsProperty o t ->
    AssetIn m path (t_pid t) a -> GroupSize a n -> In p [t_p1 t; t_p2 t; t_p3 t] -> (N.of_nat n <= p)%N ->
    MeshViolation m path o me [lvi "triangle" i] (ESent "ErrIndexOutOfBounds").
Definition MeshConforms (m : Model) (path : string) (o : Object) (me : Mesh) : Prop :=
  (SolidType o -> 3 <= List.length (me_verts me) /\ (4 <= List.length (me_tris me) \/ me_ext me <> [])) /\
  (forall t, In t (me_tris me) ->
     NoDup [t_v1 t; t_v2 t; t_v3 t] /\
     (forall v, In v [t_v1 t; t_v2 t; t_v3 t] -> (v < N.of_nat (List.length (me_verts me)))%N) /\
     (t_pid t <> 0%N -> ~ InheritsProperty o t ->
        (exists a, AssetIn m path (t_pid t) a) /\
        (forall a n p, AssetIn m path (t_pid t) a -> GroupSize a n ->
           In p [t_p1 t; t_p2 t; t_p3 t] -> (p < N.of_nat n)%N))).

Inductive CompViolation (m : Model) (path : string) (o : Object) (j : nat) (c : Component) : gerr -> Prop :=
| CvID : co_oid c = 0%N -> CompViolation m path o j c (EMissing "objectid")
| CvMissing q : co_oid c <> 0%N -> TargetFile c path q -> (forall r, ~ ObjIn m q (co_oid c) r) ->
    CompViolation m path o j c (ESent "ErrMissingResource")
| CvRecursion q r : co_oid c <> 0%N -> TargetFile c path q -> ObjIn m q (co_oid c) r ->
    ob_id r = ob_id o -> q = path -> CompViolation m path o j c (ESent "ErrRecursion").
Definition CompConforms (m : Model) (path : string) (o : Object) (c : Component) : Prop :=
  co_oid c <> 0%N /\
  exists q r, TargetFile c path q /\ ObjIn m q (co_oid c) r /\ ~ (q = path /\ ob_id r = ob_id o).

Inductive ObjViolation (m : Model) (path : string) (o : Object) : list Level -> gerr -> Prop :=
| OvID : ob_id o = 0%N -> ObjViolation m path o [] (ESent "ErrMissingID")
| OvPID : ob_pindex o <> 0%N -> ob_pid o = 0%N -> ObjViolation m path o [] (EMissing "pid")
| OvKind : (ob_mesh o = None <-> ob_comps o = None) -> ObjViolation m path o [] (ESent "ErrInvalidObject")
| OvNoResource me : ob_mesh o = Some me -> ob_pid o <> 0%N -> (forall a, ~ AssetIn m path (ob_pid o) a) ->
    ObjViolation m path o [] (ESent "ErrMissingResource")
| OvProperty me a n : ob_mesh o = Some me -> ob_pid o <> 0%N -> AssetIn m path (ob_pid o) a ->
    GroupSize a n -> (N.of_nat n <= ob_pindex o)%N -> ObjViolation m path o [] (ESent "ErrIndexOutOfBounds")
| OvMesh me loc k : ob_mesh o = Some me -> MeshViolation m path o me loc k ->
    ObjViolation m path o (lv "mesh" :: loc) k
| OvCompsPID cs : ob_comps o = Some cs -> cs_list cs <> [] -> ob_pid o <> 0%N ->
    ObjViolation m path o [] (ESent "ErrComponentsPID")
| OvComp cs j c k : ob_comps o = Some cs -> nth_error (cs_list cs) j = Some c ->
    CompViolation m path o j c k -> ObjViolation m path o [lv "components"; lvi "component" j] k.
Definition ObjConforms (m : Model) (path : string) (o : Object) : Prop :=
  ob_id o <> 0%N /\ (ob_pindex o <> 0%N -> ob_pid o <> 0%N) /\
  ((exists me, ob_mesh o = Some me /\ ob_comps o = None /\
      (ob_pid o <> 0%N ->
         (exists a, AssetIn m path (ob_pid o) a) /\
         (forall a n, AssetIn m path (ob_pid o) a -> GroupSize a n -> (ob_pindex o < N.of_nat n)%N)) /\
      MeshConforms m path o me) \/
   (exists cs, ob_mesh o = None /\ ob_comps o = Some cs /\
      (cs_list cs <> [] -> ob_pid o = 0%N) /\
      (forall c, In c (cs_list cs) -> CompConforms m path o c))).

(** ** The model.  [loaded] tells which namespaces have a registered spec;
    [ExtError ns m path el x]: the validator of [ns] reports [x] on [el]. *)
Section Model.
  Context (loaded : string -> Prop) (ExtError : string -> Model -> string -> VElem -> Loc -> Prop).

  Inductive ElemViolation (m : Model) (path : string) (el : VElem) : Loc -> Prop :=
  | EvExt e x : In e (mo_exts m) -> ExtError (ex_ns e) m path el x -> ElemViolation m path el x.

  Inductive ResViolation (m : Model) (path : string) (rs : Resources) : Loc -> Prop :=
  | SvAssetDup i a nm j a' : nth_error (rs_assets rs) i = Some a -> AssetName a nm -> asset_id a <> 0%N ->
      j < i -> nth_error (rs_assets rs) j = Some a' -> asset_id a' = asset_id a ->
      ResViolation m path rs ([lvi nm i], "", ESent "ErrDuplicatedID")
  | SvBase i b loc k : nth_error (rs_assets rs) i = Some (ABase b) -> BaseViolation b loc k ->
      ResViolation m path rs (lvi "basematerials" i :: loc, "", k)
  | SvAssetExt i a nm loc q k : nth_error (rs_assets rs) i = Some a -> AssetName a nm ->
      ElemViolation m path (VAsset a) (loc, q, k) -> ResViolation m path rs (lvi nm i :: loc, q, k)
  | SvObjDup i o : nth_error (rs_objects rs) i = Some o -> ob_id o <> 0%N ->
      ((exists a, In a (rs_assets rs) /\ asset_id a = ob_id o) \/
       (exists j o', j < i /\ nth_error (rs_objects rs) j = Some o' /\ ob_id o' = ob_id o)) ->
      ResViolation m path rs ([lvi "object" i], "", ESent "ErrDuplicatedID")
  | SvObj i o loc k : nth_error (rs_objects rs) i = Some o -> ObjViolation m path o loc k ->
      ResViolation m path rs (lvi "object" i :: loc, "", k)
  | SvObjExt i o loc q k : nth_error (rs_objects rs) i = Some o ->
      ElemViolation m path (VObject o) (loc, q, k) -> ResViolation m path rs (lvi "object" i :: loc, q, k).

  Inductive ItemViolation (m : Model) (it : Item) : list Level -> gerr -> Prop :=
  | IvID : it_oid it = 0%N -> ItemViolation m it [] (EMissing "objectid")
  | IvMissing q : it_oid it <> 0%N -> CarriedPath (it_any it) q -> (forall o, ~ ObjIn m q (it_oid it) o) ->
      ItemViolation m it [] (ESent "ErrMissingResource")
  | IvOther q o : it_oid it <> 0%N -> CarriedPath (it_any it) q -> ObjIn m q (it_oid it) o ->
      ob_type o = 1%Z -> ItemViolation m it [] (ESent "ErrOtherItem")
  | IvMeta i k : MetaViolation m (mg_list (it_md it)) i k -> ItemViolation m it [lvi "metadata" i] k.

  (** The path of the root part. *)
  Definition root_path (m : Model) : string := if seq (mo_path m) "" then DefaultModelPath else mo_path m.

  Inductive Violation (m : Model) : Loc -> Prop :=
  | VRootRel i k : RelViolation (mo_atts m) (mo_rootrels m) i k ->
      Violation m ([lv "model"; lvi "relationship" i], "", k)
  | VRequired e : In e (mo_exts m) -> ex_req e = true -> ~ loaded (ex_ns e) ->
      Violation m ([lv "model"], "", ESent "ErrRequiredExt")
  | VSamePath c : In (root_path m, c) (mo_childs m) ->
      Violation m ([lv "model"], "", ESent "ErrOPCDuplicatedModelName")
  | VChildRel p c i k : In (p, c) (mo_childs m) -> p <> root_path m ->
      RelViolation (mo_atts m) (ch_rels c) i k ->
      Violation m ([lv "model"; lvi "relationship" i], p, k)
  | VRel i k : RelViolation (mo_atts m) (mo_rels m) i k ->
      Violation m ([lv "model"; lvi "relationship" i], root_path m, k)
  | VMeta i k : MetaViolation m (mo_md m) i k ->
      Violation m ([lv "model"; lvi "metadata" i], "", k)
  | VExt loc q k : ElemViolation m (mo_path m) VModel (loc, q, k) -> Violation m (lv "model" :: loc, q, k)
  | VChildRes p c loc q k : In (p, c) (mo_childs m) -> ResViolation m p (ch_res c) (loc, q, k) ->
      Violation m (lv "model" :: lv "resources" :: loc, p, k)
  | VRes loc q k : ResViolation m (root_path m) (mo_res m) (loc, q, k) ->
      Violation m (lv "model" :: lv "resources" :: loc, q, k)
  | VItem i it loc k : nth_error (bu_items (mo_build m)) i = Some it -> ItemViolation m it loc k ->
      Violation m (lv "model" :: lv "build" :: lvi "item" i :: loc, "", k).

  Definition ElemConforms (m : Model) (path : string) (el : VElem) : Prop :=
    forall e x, In e (mo_exts m) -> ~ ExtError (ex_ns e) m path el x.
  Definition ResConforms (m : Model) (path : string) (rs : Resources) : Prop :=
    (** non-zero identifiers are not repeated within the part *)
    (forall k, k <> 0%N -> id_count rs k <= 1) /\
    (forall b, In (ABase b) (rs_assets rs) -> BaseConforms b) /\
    (forall a, In a (rs_assets rs) -> ElemConforms m path (VAsset a)) /\
    (forall o, In o (rs_objects rs) -> ObjConforms m path o /\ ElemConforms m path (VObject o)).
  Definition ItemConforms (m : Model) (it : Item) : Prop :=
    it_oid it <> 0%N /\
    (exists q o, CarriedPath (it_any it) q /\ ObjIn m q (it_oid it) o /\ ob_type o <> 1%Z) /\
    MetaConforms m (mg_list (it_md it)).
  Definition Conforms (m : Model) : Prop :=
    (forall e, In e (mo_exts m) -> ex_req e = true -> loaded (ex_ns e)) /\
    RelsConform (mo_atts m) (mo_rootrels m) /\
    RelsConform (mo_atts m) (mo_rels m) /\
    MetaConforms m (mo_md m) /\
    ElemConforms m (mo_path m) VModel /\
    ResConforms m (root_path m) (mo_res m) /\
    (forall p c, In (p, c) (mo_childs m) -> p <> root_path m /\
       RelsConform (mo_atts m) (ch_rels c) /\ ResConforms m p (ch_res c)) /\
    (forall it, In it (bu_items (mo_build m)) -> ItemConforms m it).
End Model.

(** Meshes whose number of vertices fits 32 bits. *)
Definition SmallVertices (m : Model) : Prop :=
  forall rs o me, (rs = mo_res m \/ exists p c, In (p, c) (mo_childs m) /\ rs = ch_res c) ->
    In o (rs_objects rs) -> ob_mesh o = Some me -> (N.of_nat (List.length (me_verts me)) < 2 ^ 32)%N.
