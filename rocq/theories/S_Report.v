(** * Specification of which models are reported alike before and after saving (C86) *)
From Coq Require Import Reals.
From Verif Require Import GoBase GoFloat Types XmlTypes PkgTypes S_Geom S_Validate S_Strconv S_PkgTrip S_Revalid.
Local Open Scope R_scope.

(** The rules of the slice and beam lattice extensions compare numbers that are rounded when they are written. *)
Definition NoNumberRules (m : Model) : Prop := forall x, In x (mo_exts m) -> ex_ns x <> ns_slices /\ ex_ns x <> ns_beam.
(** Two numbers that are equal, or differ by more than two units of the last of [p] decimals *)
Definition Clear (p : nat) (x y : f32) : Prop :=
  Finite x /\ Finite y /\ (value x = value y \/ 2 / 10 ^ p < Rabs (value x - value y)).
Definition Uses (ns : string) (m : Model) : Prop := exists x, In x (mo_exts m) /\ ex_ns x = ns.
(** The bottom of a stack of slices *)
Definition Bottom (m : Model) (x : f32) : Prop :=
  exists rs st, PartRes m rs /\ In (AExt (XSliceStack st)) (rs_assets rs) /\ x = ss_bottom st.
(** The transform of an item or a component *)
Definition Transform (m : Model) (t : Matrix) : Prop :=
  (exists i, In i (bu_items (mo_build m)) /\ t = it_tr i) \/
  (exists rs o cs c, PartRes m rs /\ In o (rs_objects rs) /\ ob_comps o = Some cs /\ In c (cs_list cs) /\ t = co_tr c).
(** What these rules compare is clear: heights of slices with each other, with 0 and with the bottoms of stacks; of
    transforms, the entries that must be 0 and 1; of beam lattices, the sizes with 0 and the first radius of a beam with
    0, with the other one and with that of the lattice. *)
Record Firm (p : nat) (m : Model) : Prop := {
  fi_tops : Uses ns_slices m -> forall x, Height m x -> Clear p x f_zero /\ forall y, Height m y \/ Bottom m y -> Clear p x y;
  fi_transforms : Uses ns_slices m -> forall t, Transform m t ->
    Clear 3 (m2 t) f_zero /\ Clear 3 (m6 t) f_zero /\ Clear 3 (m8 t) f_zero /\ Clear 3 (m9 t) f_zero /\ Clear 3 (m10 t) f_one;
  fi_lattices : Uses ns_beam m -> forall rs o me g, PartRes m rs -> In o (rs_objects rs) -> ob_mesh o = Some me -> In (AnyExt (XBeamLattice g)) (me_ext me) ->
    Clear p (bl_minlen g) f_zero /\ Clear p (bl_radius g) f_zero /\
    forall b, In b (bl_beams g) -> Clear p (bm_r1 b) (bm_r2 b) /\ Clear p (bm_r1 b) (bl_radius g)
}.
(** Relationships that keep the rules: reading drops repeated relationships, and saving adds those that resources demand. *)
Definition RelsFine (m : Model) : Prop :=
  (forall r, In r (all_rels m) -> PartName (rel_path r)) /\ RelsConform (mo_atts m) (mo_rootrels m) /\ RelsConform (mo_atts m) (mo_rels m) /\
  forall k c, In (k, c) (mo_childs m) -> RelsConform (mo_atts m) (ch_rels c).
(** A model without a package around it *)
Definition Lone (m : Model) : Prop :=
  mo_path m = "" /\ mo_childs m = [] /\ mo_atts m = [] /\ mo_rootrels m = [] /\ mo_rels m = [].
