(** * Specification: closed surfaces *)
From Coq Require Import ZArith.
From Verif Require Import GoBase GoFloat Types S_Coherency.

Definition sum (l : list Z) : Z := fold_right Z.add 0%Z l.
(** A quantity of directed edges that changes its sign with the direction *)
Definition Antisymmetric (f : N -> N -> Z) : Prop := forall a b, f b a = (- f a b)%Z.
(** Going around every triangle, each edge is passed as often in one direction as in the other: there is no boundary. *)
Definition NoBoundary (ts : list Triangle) : Prop :=
  forall f, Antisymmetric f -> sum (map (fun t => f (t_v1 t) (t_v2 t) + f (t_v2 t) (t_v3 t) + f (t_v3 t) (t_v1 t))%Z ts) = 0%Z.

(** Exact points and what is computed with them *)
Definition point := (Z * Z * Z)%type.
Definition minus (p q : point) : point :=
  let '(x, y, z) := p in let '(a, b, c) := q in (x - a, y - b, z - c)%Z.
Definition cross (p q : point) : point :=
  let '(x, y, z) := p in let '(a, b, c) := q in (y * c - z * b, z * a - x * c, x * b - y * a)%Z.
Definition dot (p q : point) : Z := let '(x, y, z) := p in let '(a, b, c) := q in (x * a + y * b + z * c)%Z.
(** Six times the signed volume between the triangles and the point [q], where vertex [v] is at [at_ v] *)
Definition volume (at_ : N -> point) (q : point) (ts : list Triangle) : Z :=
  sum (map (fun t => dot (minus (at_ (t_v1 t)) q) (cross (minus (at_ (t_v2 t)) q) (minus (at_ (t_v3 t)) q))) ts).
(** Twice the area vector of a triangle, seen along the direction [d] *)
Definition facing (at_ : N -> point) (d : point) (t : Triangle) : Z :=
  dot d (cross (minus (at_ (t_v2 t)) (at_ (t_v1 t))) (minus (at_ (t_v3 t)) (at_ (t_v1 t)))).

(** No boundary, wherever the vertices are a volume that does not depend on the point it is measured from, as much area
    towards each direction as away from it, and an even number of triangles *)
Definition Closed (ts : list Triangle) : Prop :=
  NoBoundary ts /\ (forall at_ q q', volume at_ q ts = volume at_ q' ts) /\
  (forall at_ d, sum (map (facing at_ d) ts) = 0%Z) /\ Nat.Even (List.length ts).
