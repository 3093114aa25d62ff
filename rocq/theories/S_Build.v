(** * Specification: a MeshBuilder in use *)
From Verif Require Import GoBase GoFloat Types BuildTypes S_Geom.

(** The points handed to AddVertex, each with the value CalculateConnectivity has then. *)
Fixpoint calls (f : bool) (us : list use) : list (Point3D * bool) :=
  match us with
  | [] => []
  | Add p :: r => (p, f) :: calls f r
  | Flag b :: r => calls b r
  | Direct _ :: r => calls f r
  end.
(** The vertices the program appends itself. *)
Fixpoint directs (us : list use) : nat :=
  match us with
  | [] => 0
  | Direct _ :: r => S (directs r)
  | _ :: r => directs r
  end.
(** How many different numbers a list has. *)
Definition different (l : list N) : nat := List.length (nodup N.eq_dec l).
(** What the comment of CalculateConnectivity promises (core.go 514-516): a call finds the vertex
    of the mesh [vs] that has the coordinates of [p]; [vs'] and [i] are the mesh after the call
    and its result. *)
Definition FindsExisting (vs : list Point3D) (p : Point3D) (vs' : list Point3D) (i : N) : Prop :=
  In p vs -> vs' = vs /\ nth_error vs (N.to_nat i) = Some p.
