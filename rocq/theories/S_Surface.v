(** * Specification: meshes that describe the same surface *)
From Coq Require Import Permutation.
From Verif Require Import GoBase GoFloat Types S_Coherency.

Definition corners (t : Triangle) : N * N * N := (t_v1 t, t_v2 t, t_v3 t).
(** The corners after the vertices got the numbers [f]; [flip] turns the triangle over. *)
Definition relabel (f : N -> N) (flip : bool) (t : Triangle) : N * N * N :=
  if flip then (f (t_v1 t), f (t_v3 t), f (t_v2 t)) else (f (t_v1 t), f (t_v2 t), f (t_v3 t)).
(** The same triangle, listed from another corner *)
Inductive Turned : N * N * N -> N * N * N -> Prop :=
| Turned0 a b c : Turned (a, b, c) (a, b, c)
| Turned1 a b c : Turned (a, b, c) (b, c, a)
| Turned2 a b c : Turned (a, b, c) (c, a, b).
(** [me'] has as many vertices as [me], and its triangles, in some order, are those of [me] with other vertex numbers,
    each listed from any corner; if [flip] is set, all are turned over. *)
Definition Relisted (f : N -> N) (flip : bool) (me me' : Mesh) : Prop :=
  List.length (me_verts me') = List.length (me_verts me) /\
  exists ts, Permutation ts (map corners (me_tris me')) /\ Forall2 (fun t x => Turned (relabel f flip t) x) (me_tris me) ts.
Definition Injective (f : N -> N) : Prop := forall a b, f a = f b -> a = b.

(** [v] is a corner of a triangle of the mesh. *)
Definition Uses (me : Mesh) (v : N) : Prop := exists t, In t (me_tris me) /\ (v = t_v1 t \/ v = t_v2 t \/ v = t_v3 t).
(** [me] consists of the triangles of [a] and of [b], which have no vertex in common. *)
Definition Disjoint (a b me : Mesh) : Prop :=
  me_tris me = me_tris a ++ me_tris b /\ forall v, Uses a v -> ~ Uses b v.

(** [o'] is [o] with its mesh listed differently. *)
Definition SameSurface (o o' : Object) : Prop :=
  ob_type o' = ob_type o /\
  match ob_mesh o, ob_mesh o' with
  | None, None => True
  | Some me, Some me' => exists f flip, Injective f /\ Relisted f flip me me'
  | _, _ => False
  end.
(** The objects of [m'] are, part by part and place by place, those of [m] with their meshes listed differently. *)
Definition Resurfaced (m m' : Model) : Prop :=
  (forall p i o, ObjectAt m p i o -> exists o', ObjectAt m' p i o' /\ SameSurface o o') /\
  (forall p i o', ObjectAt m' p i o' -> exists o, ObjectAt m p i o /\ SameSurface o o').
