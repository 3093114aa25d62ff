(** * Specification: STL files with the same facets *)
From Verif Require Import GoBase GoNum GoFloat GoStrconv Types S_Core S_Geom S_Strconv S_Stl.

(** The corners of the facets, in order *)
Definition corners (ts : list (Point3D * Point3D * Point3D)) : list Point3D := flat_map (fun t => let '(a, b, c) := t in [a; b; c]) ts.
(** A text file of the facets: its vertex lines are their corners. *)
Definition TextFacets (ts : list (Point3D * Point3D * Point3D)) (data : string) : Prop :=
  exists ls, LinesOf ls data /\ VertexLines ls (corners ts) /\ forall l, In l ls -> (N.of_nat (String.length l) <= 65535)%N.
(** A binary file of the facets, with anything behind them *)
Definition BinaryFacets (ts : list (Point3D * Point3D * Point3D)) (data : string) : Prop :=
  exists body, BinaryFile (N.of_nat (List.length ts)) body data /\ Facets ts body.
(** A file of the facets in the format the importer takes it for *)
Definition FileOf (ts : list (Point3D * Point3D * Point3D)) (data : string) : Prop :=
  300 <= String.length data /\ ((LooksText data /\ TextFacets ts data) \/ (~ LooksText data /\ BinaryFacets ts data)).
