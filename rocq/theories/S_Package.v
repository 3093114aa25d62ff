(** * What packages should be (C46, C47) *)
From Verif Require Import GoBase Types PkgTypes.

Definition SameKey (a b : Relationship) : Prop := rel_type a = rel_type b /\ rel_path a = rel_path b.
(** [out] is what remains of [l] without the elements that are [R]-related to an earlier one (or to one of [seen]) *)
Inductive Firsts {A} (R : A -> A -> Prop) : list A -> list A -> list A -> Prop :=
| FNil seen : Firsts R seen [] []
| FKeep seen x l out : (forall y, In y seen -> ~ R y x) -> Firsts R (seen ++ [x]) l out -> Firsts R seen (x :: l) (x :: out)
| FDrop seen x l out y : In y seen -> R y x -> Firsts R seen l out -> Firsts R seen (x :: l) out.
Definition WithoutDuplicates (l out : list Relationship) : Prop := Firsts SameKey [] l out.
(** A path has one type *)
Definition OneType (l : list Relationship) : Prop := forall a b, In a l -> In b l -> rel_path a = rel_path b -> rel_type a = rel_type b.

Definition type_3dmodel : string := "http://schemas.microsoft.com/3dmanufacturing/2013/01/3dmodel".
Definition type_thumbnail : string := "http://schemas.openxmlformats.org/package/2006/relationships/metadata/thumbnail".
Definition type_texture : string := "http://schemas.microsoft.com/3dmanufacturing/2013/01/3dtexture".
(** What the resources demand: their textures, then the thumbnails of their objects *)
Definition demand_ext (e : ExtElem) : list Relationship :=
  match e with XTexture2D t => [mkRel (tx_path t) type_texture ""] | _ => [] end.
Definition demand_asset (a : Asset) : list Relationship := match a with AExt e => demand_ext e | _ => [] end.
Definition demand_object (o : Object) : list Relationship :=
  match ob_thumb o with EmptyString => [] | t => [mkRel t type_thumbnail ""] end.
Definition demands (r : Resources) : list Relationship := flat_map demand_asset (rs_assets r) ++ flat_map demand_object (rs_objects r).
(** Textures are resources: they are not among the other elements of meshes and models *)
Definition NoTexture (l : list AnyElem) : Prop := forall t, ~ In (AnyExt (XTexture2D t)) l.
Definition NoTextures (r : Resources) : Prop := forall o me, In o (rs_objects r) -> ob_mesh o = Some me -> NoTexture (me_ext me).

(** ** Reading *)
Section Read.
Context (resolve : string -> string -> string) (p : PkgIn).
(** The part a relationship of [src] leads to *)
Definition Target (src : string) (r : Relationship) (f : PFile) : Prop := In f (pi_files p) /\ pf_name f = resolve src (rel_path r).
(** The relationships of [src] that lead to a part and are not of the type of models, with their parts *)
Inductive Kept (src : string) : list Relationship -> list (Relationship * PFile) -> Prop :=
| KNil : Kept src [] []
| KKeep r l f out : rel_type r <> type_3dmodel -> Target src r f -> Kept src l out -> Kept src (r :: l) ((r, f) :: out)
| KModel r l out : rel_type r = type_3dmodel -> Kept src l out -> Kept src (r :: l) out
| KAbsent r l out : (forall f, ~ Target src r f) -> Kept src l out -> Kept src (r :: l) out.
(** The parts the relationships of [src] of the type of models lead to *)
Inductive Models (src : string) : list Relationship -> list PFile -> Prop :=
| MNil : Models src [] []
| MKeep r l f out : rel_type r = type_3dmodel -> Target src r f -> Models src l out -> Models src (r :: l) (f :: out)
| MOther r l out : rel_type r <> type_3dmodel -> Models src l out -> Models src (r :: l) out
| MAbsent r l out : (forall f, ~ Target src r f) -> Models src l out -> Models src (r :: l) out.
(** A part reached by the package, the root model or a child by a relationship that is not of the type of models *)
Definition Reached (root : PFile) (childs : list PFile) (f : PFile) : Prop :=
  exists src l r, (src = "/" /\ l = pi_rels p \/ exists g, In g (root :: childs) /\ src = pf_name g /\ l = pf_rels g) /\
    In r l /\ rel_type r <> type_3dmodel /\ Target src r f.
End Read.
Definition SameFold (a b : string) : Prop := slower a = slower b.
