(** * Objects that contain themselves, as BoundingBox and the validator of slices look components up *)
From Verif Require Import GoBase Types S_Core S_Geom.

(** [R] leads from [x] to [y] in any number of steps, in at least one. *)
Inductive Many {A} (R : A -> A -> Prop) : A -> A -> Prop :=
| MNone x : Many R x x
| MMore x y z : R x y -> Many R y z -> Many R x z.
Definition Plus {A} (R : A -> A -> Prop) (x z : A) : Prop := exists y, R x y /\ Many R y z.
(** [o'] is the object of a component of [o], those without a path being looked up in [file] *)
Definition Contains (m : Model) (file : string) (o o' : Object) : Prop := exists c file', In c (Comps o) /\ Target m c file file' o'.
(** the same, where [o] has no mesh: the components of an object with a mesh are not looked at. *)
Definition Below (m : Model) (file : string) (o o' : Object) : Prop := ob_mesh o = None /\ Contains m file o o'.
(** The item shows the object, in the file it names. *)
Definition Shows (m : Model) (it : Item) (file : string) (o : Object) : Prop :=
  CarriedPath (it_any it) file /\ exists rs, Addressed m file rs /\ FirstWith ob_id (it_oid it) (rs_objects rs) o.
(** From an object of the build, an object is reached that is below itself. *)
Definition Cyclic (m : Model) : Prop := exists it file o x,
  In it (bu_items (mo_build m)) /\ Shows m it file o /\ Many (Below m file) o x /\ Plus (Below m file) x x.
(** The same for the validator of slices, which starts in the file of the sliced object and looks at the components of
    objects with a mesh, too. *)
Definition CyclicFrom (m : Model) (path : string) : Prop := exists it q o x,
  In it (bu_items (mo_build m)) /\ CarriedPath (it_any it) q /\
  (exists rs, Addressed m (if string_dec q "" then path else q) rs /\ FirstWith ob_id (it_oid it) (rs_objects rs) o) /\
  Many (Contains m path) o x /\ Plus (Contains m path) x x.
