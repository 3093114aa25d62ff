(** * Specification: models whose validity does not depend on the decimals that are not written (C66) *)
From Coq Require Import ZArith Reals.
From Verif Require Import GoBase GoFloat Types XmlTypes PkgTypes S_Geom S_Validate S_Strconv S_Package S_PkgTrip.
Local Open Scope R_scope.

(** The resources of the root part or of a child *)
Definition PartRes (m : Model) (rs : Resources) : Prop := rs = mo_res m \/ exists k c, In (k, c) (mo_childs m) /\ rs = ch_res c.
(** Not zero: at least one unit of the last decimal *)
Definition Visible (p : nat) (x : f32) : Prop := Finite x -> value x <> 0 -> / 10 ^ p <= Rabs (value x).
(** The height of a slice *)
Definition Height (m : Model) (x : f32) : Prop :=
  exists rs st s, PartRes m rs /\ In (AExt (XSliceStack st)) (rs_assets rs) /\ In s (ss_slices st) /\ x = sl_top s.
Record Robust (p : nat) (m : Model) : Prop := {
  (** the targets of all relationships, also those that are added for textures and thumbnails *)
  ro_names : forall r, In r (all_rels m) -> PartName (rel_path r);
  ro_tops : forall x, Height m x -> Finite x /\ Visible p x;
  ro_apart : forall x y, Height m x -> Height m y -> value x < value y -> value x + 2 / 10 ^ p < value y;
  ro_lattices : forall rs o me g, PartRes m rs -> In o (rs_objects rs) -> ob_mesh o = Some me ->
    In (AnyExt (XBeamLattice g)) (me_ext me) -> Visible p (bl_minlen g) /\ Visible p (bl_radius g)
}.
