(** * A MeshBuilder in use (core.go 511-545) *)
From Verif Require Import GoBase GoFloat Types BuildTypes M_Geom.

Section Build.
  Variable oor : f32 -> Z.
  (** core.go 533-545, AddVertex, and the assignments to the public fields (core.go 517 and 519);
      the list has what the calls of AddVertex return. *)
  Fixpoint build (mb : MB) (us : list use) : MB * list N :=
    match us with
    | [] => (mb, [])
    | Add p :: r => let (mb1, i) := add_vertex oor mb p in
                    let (mb2, is) := build mb1 r in (mb2, i :: is)
    | Flag b :: r => build (mkMB b (mb_verts mb) (mb_tree mb)) r
    | Direct p :: r => build (mkMB (mb_conn mb) (mb_verts mb ++ [p]) (mb_tree mb)) r
    end.
End Build.
