(** * Specification: two models put together *)
From Verif Require Import GoBase GoFloat Types S_Core S_Geom S_Within S_Placed.

(** The objects, items and parts of both, in their order; the name of the root part is the same.  Everything else is
    whatever it is. *)
Record Merged (m1 m2 m : Model) : Prop := {
  mg_path1 : mo_path m = mo_path m1;
  mg_path2 : mo_path m = mo_path m2;
  mg_objects : rs_objects (mo_res m) = rs_objects (mo_res m1) ++ rs_objects (mo_res m2);
  mg_items : bu_items (mo_build m) = bu_items (mo_build m1) ++ bu_items (mo_build m2);
  mg_childs : mo_childs m = mo_childs m1 ++ mo_childs m2 }.
(** No item or component of one model refers to an identifier of an object of the other. *)
Definition Apart (m1 m2 : Model) : Prop :=
  (forall o, ObjectOf m2 o -> ~ Named m1 (ob_id o)) /\ (forall o, ObjectOf m1 o -> ~ Named m2 (ob_id o)).
