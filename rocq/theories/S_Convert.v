(** * Specification of converting an STL file into a 3MF model (C82) *)
From Coq Require Import ZArith.
From Verif Require Import GoBase GoNum GoFloat GoStrconv Types XmlTypes S_Geom S_RoundTrip S_Stl.

(** The corners of a facet *)
Definition Corners : Type := Point3D * Point3D * Point3D.
(** The facets of the file: the complete groups of three vertices of a text, or as many facets as a binary file declares *)
Inductive StlFacets (data : string) (ts : list Corners) : Prop :=
| SfText ls ps : LooksText data -> LinesOf ls data -> VertexLines ls ps -> Threes ps ts -> StlFacets data ts
| SfBinary n body : ~ LooksText data -> BinaryFile n body data -> Facets ts body -> List.length ts = N.to_nat n -> StlFacets data ts.

Section Cells.
Context (oor : f32 -> Z).
(** Points are told apart up to the accuracy of merging only. *)
Definition Apart (p q : Point3D) : Prop := ~ SameCell oor p q.
(** A facet with three corners *)
Definition Proper (t : Corners) : Prop := let '(a, b, c) := t in Apart a b /\ Apart b c /\ Apart c a.
(** The directed edges of the facets, with repetitions *)
Definition facet_edges (ts : list Corners) : list (Point3D * Point3D) :=
  flat_map (fun t => let '(a, b, c) := t in [(a, b); (b, c); (c, a)]) ts.
Definition SameEdge (x y : Point3D * Point3D) : Prop := SameCell oor (fst x) (fst y) /\ SameCell oor (snd x) (snd y).
Definition turned (x : Point3D * Point3D) : Point3D * Point3D := (snd x, fst x).
(** Every edge has two ends, occurs once, and once in the other direction. *)
Definition Watertight (ts : list Corners) : Prop :=
  forall i x, nth_error (facet_edges ts) i = Some x ->
    Apart (fst x) (snd x) /\
    (forall j y, nth_error (facet_edges ts) j = Some y -> SameEdge x y -> j = i) /\
    exists j y, nth_error (facet_edges ts) j = Some y /\ SameEdge (turned x) y.
(** After saving with [p] decimals: the corner is a point of the cell of [a], rounded *)
Definition SavedCorner (p : nat) (me : Mesh) (i : N) (a : Point3D) : Prop :=
  exists v w, SameCell oor v a /\ SamePoint p v w /\ nth_error (me_verts me) (N.to_nat i) = Some w.
Definition SavedTriangle (p : nat) (me : Mesh) (x : Triangle) (t : Corners) : Prop :=
  let '(a, b, c) := t in SavedCorner p me (t_v1 x) a /\ SavedCorner p me (t_v2 x) b /\ SavedCorner p me (t_v3 x) c.
End Cells.
