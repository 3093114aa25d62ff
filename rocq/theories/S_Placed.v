(** * Specification: what the build of a model places *)
From Verif Require Import GoBase GoFloat Types S_Core S_Geom S_Within.

(** The build places the object of the file: an item refers to it, or a component of a placed object without mesh. *)
Inductive Reached (m : Model) : string -> Object -> Prop :=
| ReItem it file o : In it (bu_items (mo_build m)) -> ItemTarget m it file o -> Reached m file o
| ReComp file o c file' o' : Reached m file o -> ob_mesh o = None -> In c (Comps o) -> Target m c file file' o' -> Reached m file' o'.
(** The same geometry: meshes with the same vertices, or no mesh and the same components *)
Definition Alike (o o' : Object) : Prop :=
  match ob_mesh o, ob_mesh o' with
  | Some me, Some me' => me_verts me = me_verts me'
  | None, None => Comps o = Comps o'
  | _, _ => False
  end.
(** What is referred to in one model is referred to in the other, and alike. *)
Definition Agree (T T' : string -> Object -> Prop) : Prop :=
  (forall file o, T file o -> exists o', T' file o' /\ Alike o o') /\ (forall file o', T' file o' -> exists o, T file o).
(** The builds have the same items, and place alike objects. *)
Definition SamePlaced (m m' : Model) : Prop :=
  bu_items (mo_build m) = bu_items (mo_build m') /\
  (forall it, In it (bu_items (mo_build m)) -> Agree (ItemTarget m it) (ItemTarget m' it)) /\
  (forall file o c, Reached m file o -> ob_mesh o = None -> In c (Comps o) -> Agree (Target m c file) (Target m' c file)).
(** An item or a component, whichever its part, has the number as the identifier it refers to. *)
Definition Named (m : Model) (id : N) : Prop :=
  (exists it, In it (bu_items (mo_build m)) /\ it_oid it = id) \/
  (exists o c, ObjectOf m o /\ In c (Comps o) /\ co_oid c = id).
(** The first object of the part with the identifier *)
Definition At (m : Model) (file : string) (id : N) (o : Object) : Prop :=
  exists rs, Addressed m file rs /\ FirstWith ob_id id (rs_objects rs) o.
(** The models differ only in objects that nothing names (and in what is not an object). *)
Definition SameNamed (m m' : Model) : Prop :=
  bu_items (mo_build m) = bu_items (mo_build m') /\
  forall file id o, Named m id -> (At m file id o <-> At m' file id o).
