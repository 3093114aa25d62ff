(** * Specification: the points the build of a model places *)
From Verif Require Import GoBase GoFloat Types S_Core S_Geom.

(** A transform that is not set has a zero in its last place (math.go 60-63, 177-180). *)
Definition unset (t : Matrix) : bool := feqb (m15 t) f_zero.
(** A point moved by a transform; every operation is rounded to float32. *)
Definition move (t : Matrix) (p : Point3D) : Point3D :=
  if unset t then p
  else P3 (fadd (fadd (fadd (fmul (m0 t) (px p)) (fmul (m4 t) (py p))) (fmul (m8 t) (pz p))) (m12 t))
          (fadd (fadd (fadd (fmul (m1 t) (px p)) (fmul (m5 t) (py p))) (fmul (m9 t) (pz p))) (m13 t))
          (fadd (fadd (fadd (fmul (m2 t) (px p)) (fmul (m6 t) (py p))) (fmul (m10 t) (pz p))) (m14 t)).
(** [p] is a point of the object [o] written in [file]: a vertex of its mesh or a moved point of a component. *)
Inductive PointOf (m : Model) : string -> Object -> Point3D -> Prop :=
| POMesh file o me p : ob_mesh o = Some me -> In p (me_verts me) -> PointOf m file o p
| POComp file o c file' o' p : ob_mesh o = None -> In c (Comps o) -> Target m c file file' o' ->
    PointOf m file' o' p -> PointOf m file o (move (co_tr c) p).
(** The object an item places *)
Definition ItemTarget (m : Model) (it : Item) (file : string) (o : Object) : Prop :=
  CarriedPath (it_any it) file /\ exists rs, Addressed m file rs /\ FirstWith ob_id (it_oid it) (rs_objects rs) o.
Definition BuildPoint (m : Model) (p : Point3D) : Prop :=
  exists it file o q, In it (bu_items (mo_build m)) /\ ItemTarget m it file o /\ PointOf m file o q /\ p = move (it_tr it) q.
(** Each of the six faces touches one of the points. *)
Definition FacesTouch (P : Point3D -> Prop) (b : Box) : Prop :=
  (exists p, P p /\ px p = px (bmin b)) /\ (exists p, P p /\ px p = px (bmax b)) /\
  (exists p, P p /\ py p = py (bmin b)) /\ (exists p, P p /\ py p = py (bmax b)) /\
  (exists p, P p /\ pz p = pz (bmin b)) /\ (exists p, P p /\ pz p = pz (bmax b)).

(** A number of at most 2^k in magnitude *)
Definition Within (k : Z) (x : f32) : Prop := Finite x /\ (Z.abs (scaled x) <= 2 ^ (149 + k))%Z.
Definition WithinPoint (k : Z) (p : Point3D) : Prop := Within k (px p) /\ Within k (py p) /\ Within k (pz p).
(** A transform that is not set, or whose entries are at most 2^k in magnitude, those of each row of one sign *)
Definition Plain (k : Z) (t : Matrix) : Prop :=
  unset t = true \/
  (Within k (m0 t) /\ Within k (m4 t) /\ Within k (m8 t) /\ Within k (m12 t) /\ RowSigns (m0 t) (m4 t) (m8 t)) /\
  (Within k (m1 t) /\ Within k (m5 t) /\ Within k (m9 t) /\ Within k (m13 t) /\ RowSigns (m1 t) (m5 t) (m9 t)) /\
  (Within k (m2 t) /\ Within k (m6 t) /\ Within k (m10 t) /\ Within k (m14 t) /\ RowSigns (m2 t) (m6 t) (m10 t)).
(** The paths of components do not mislead the code (C16). *)
Definition Resolvable (m : Model) : Prop :=
  forall o1 c p o2 c', ObjectOf m o1 -> In c (Comps o1) -> CarriedPath (co_any c) p -> p <> "" ->
    Target m c "" p o2 -> ob_mesh o2 = None -> In c' (Comps o2) -> ~ CarriedPath (co_any c') "".
(** Every object has a point away from the origin. *)
Definition Substantial (m : Model) : Prop :=
  forall file rs o, Addressed m file rs -> In o (rs_objects rs) -> exists p, PointOf m file o p /\ ~ NumEqPoint p (P3 f_zero f_zero f_zero).
(** Vertices of at most 2^k, plain transforms of at most 2^t, components nested at most n deep, and room for the
    products in a float32 *)
Record Ordinary (k t : Z) (n : nat) (m : Model) : Prop := {
  or_keys : NoDup (map fst (mo_childs m));
  or_paths : Resolvable m;
  or_full : Substantial m;
  or_verts : forall o me p, ObjectOf m o -> ob_mesh o = Some me -> In p (me_verts me) -> WithinPoint k p;
  or_comps : forall o c, ObjectOf m o -> In c (Comps o) -> Plain t (co_tr c);
  or_items : forall it, In it (bu_items (mo_build m)) -> Plain t (it_tr it);
  or_depth : exists rank : Object -> nat, (forall o, ObjectOf m o -> rank o <= n) /\
    (forall o c file file' o', ObjectOf m o -> In c (Comps o) -> Target m c file file' o' -> rank o' < rank o);
  or_room : (0 <= k /\ 0 <= t /\ k + (t + 3) * (Z.of_nat n + 1) <= 127)%Z }.
