(** * Specification of which shapes survive saving and reading (C87) *)
From Coq Require Import Reals.
From Verif Require Import GoBase GoFloat Types S_Core S_Geom S_Strconv.
Local Open Scope R_scope.

(** No item and no component has a transform. *)
Definition Untransformed (m : Model) : Prop :=
  (forall it, In it (bu_items (mo_build m)) -> it_tr it = matrix_zero) /\
  (forall o c, ObjectOf m o -> In c (Comps o) -> co_tr c = matrix_zero).
Definition FiniteVertices (m : Model) : Prop :=
  forall o me v, ObjectOf m o -> ob_mesh o = Some me -> In v (me_verts me) -> FinitePoint v.
(** A mesh with vertices has a coordinate of at least one unit of the last decimal. *)
Definition Sized (p : nat) (m : Model) : Prop :=
  forall o me, ObjectOf m o -> ob_mesh o = Some me -> me_verts me <> [] ->
    exists v x, In v (me_verts me) /\ (x = px v \/ x = py v \/ x = pz v) /\ / 10 ^ p <= Rabs (value x).
(** [y] is [x] as it is read from [p] decimals, up to the sign of a zero. *)
Definition CoordRead (p : nat) (x y : f32) : Prop := exists z, Rounded p x z /\ NumEq z y.
Definition PointRead (p : nat) (a b : Point3D) : Prop :=
  CoordRead p (px a) (px b) /\ CoordRead p (py a) (py b) /\ CoordRead p (pz a) (pz b).
Definition BoxRead (p : nat) (a b : Box) : Prop := PointRead p (bmin a) (bmin b) /\ PointRead p (bmax a) (bmax b).
