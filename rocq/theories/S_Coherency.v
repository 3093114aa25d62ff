(** * Specification of mesh coherency *)
From Verif Require Import GoBase GoFloat Types.

(** The directed edges of a mesh, with repetitions: each triangle has three. *)
Definition edges_of (me : Mesh) : list (N * N) :=
  concat (map (fun t => [(t_v1 t, t_v2 t); (t_v2 t, t_v3 t); (t_v3 t, t_v1 t)]) (me_tris me)).
Definition edge_dec : forall x y : N * N, {x = y} + {x <> y}.
Proof. decide equality; apply N.eq_dec. Defined.
Definition occurrences (me : Mesh) (a b : N) : nat := count_occ edge_dec (edges_of me) (a, b).

(** Closed, manifold and consistently oriented: every edge joins two different
    vertices and is used exactly twice, once in each direction. *)
Definition Oriented (me : Mesh) : Prop :=
  forall a b, In (a, b) (edges_of me) ->
    a <> b /\ occurrences me a b = 1 /\ occurrences me b a = 1.

Definition Coherent (me : Mesh) : Prop :=
  3 <= List.length (me_verts me) /\ 4 <= List.length (me_tris me) /\ Oriented me.

(** The first thing that is wrong with a mesh. *)
Inductive Incoherent (me : Mesh) : gerr -> Prop :=
| IncVertices : List.length (me_verts me) < 3 -> Incoherent me (ESent "ErrInsufficientVertices")
| IncTriangles : 3 <= List.length (me_verts me) -> List.length (me_tris me) < 4 ->
    Incoherent me (ESent "ErrInsufficientTriangles")
| IncOriented : 3 <= List.length (me_verts me) -> 4 <= List.length (me_tris me) -> ~ Oriented me ->
    Incoherent me (ESent "ErrMeshConsistency").

(** The number of edges fits 32 bits. *)
Definition SmallMesh (me : Mesh) : Prop := (N.of_nat (3 * List.length (me_tris me)) < 2 ^ 32)%N.

(** The solid objects of a model with their part ("" for the root) and index. *)
Definition Solid (o : Object) : Prop := ob_type o = 0%Z \/ ob_type o = 3%Z.
Inductive ObjectAt (m : Model) : string -> nat -> Object -> Prop :=
| AtRoot i o : nth_error (rs_objects (mo_res m)) i = Some o -> ObjectAt m "" i o
| AtChild p c i o : In (p, c) (mo_childs m) -> nth_error (rs_objects (ch_res c)) i = Some o ->
    ObjectAt m p i o.

Definition mesh_location (i : nat) : list Level :=
  [mkLevel "model" (-1); mkLevel "resources" (-1); mkLevel "object" (Z.of_nat i); mkLevel "mesh" (-1)].

(** The located errors a coherency check must report. *)
Definition CoherencyError (m : Model) (x : list Level * string * gerr) : Prop :=
  exists p i o me e, ObjectAt m p i o /\ Solid o /\ ob_mesh o = Some me /\ Incoherent me e /\
    x = (mesh_location i, p, e).
Definition SmallModel (m : Model) : Prop :=
  forall p i o me, ObjectAt m p i o -> ob_mesh o = Some me -> SmallMesh me.
