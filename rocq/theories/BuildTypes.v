(** * What a program does with a MeshBuilder (core.go 511-545)

    The builder has two public fields.  Between calls of AddVertex a program may set
    CalculateConnectivity, and may append vertices to the mesh itself; replacing the pointer to
    the mesh is forbidden by the comment of the field (core.go 518) and is left out, as is
    removing vertices. *)
From Verif Require Import GoBase GoFloat Types.

Inductive use :=
| Add (p : Point3D)      (* mb.AddVertex(p) *)
| Flag (b : bool)        (* mb.CalculateConnectivity = b *)
| Direct (p : Point3D).  (* mb.Mesh.Vertices.Vertex = append(mb.Mesh.Vertices.Vertex, p) *)
