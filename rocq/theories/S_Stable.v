(** * Specification: models that are the same text when they are saved, read and saved again

    What the text does not keep apart is not far from a value that is not written at all. *)
From Coq Require Import ZArith Reals.
From Verif Require Import GoBase GoFloat Types S_Core S_Geom S_Strconv S_RoundTrip.
Local Open Scope R_scope.

(** [x] written with [p] decimals is not [d] written with [p] decimals. *)
Definition Far (p : nat) (x : f32) (d : R) : Prop := ~ Finite x \/ / 2 / 10 ^ p < Rabs (value x - d).
(** A transform is not written if it is the identity: one of its entries is not one of the identity. *)
Definition TransformSettled (t : Matrix) : Prop :=
  NoTransform t \/ Far 3 (m0 t) 1 \/ Far 3 (m1 t) 0 \/ Far 3 (m2 t) 0 \/ Far 3 (m4 t) 0 \/ Far 3 (m5 t) 1 \/ Far 3 (m6 t) 0 \/
  Far 3 (m8 t) 0 \/ Far 3 (m9 t) 0 \/ Far 3 (m10 t) 1 \/ Far 3 (m12 t) 0 \/ Far 3 (m13 t) 0 \/ Far 3 (m14 t) 0.
Section Precision.
Context (p : nat).
(** A radius is not written if it is that of the lattice. *)
Definition RadiusSettled (g : BeamLattice) (r : f32) : Prop :=
  r = bl_radius g \/ ~ Finite (bl_radius g) \/ / 10 ^ p < Rabs (value r - value (bl_radius g)).
Definition ExtSettled (x : ExtElem) : Prop :=
  match x with
  | XSliceStack g => is_zero (ss_bottom g) \/ Far p (ss_bottom g) 0
  | XBeamLattice g => Forall (fun b => RadiusSettled g (bm_r1 b) /\ RadiusSettled g (bm_r2 b)) (bl_beams g)
  | _ => True
  end.
Definition ElemSettled (x : AnyElem) : Prop := match x with AnyExt x => ExtSettled x | AnyTokens _ => True end.
Definition AssetSettled (a : Asset) : Prop := match a with AExt x => ExtSettled x | _ => True end.
Definition ObjSettled (o : Object) : Prop :=
  (forall m, ob_mesh o = Some m -> Forall ElemSettled (me_ext m)) /\
  (forall c, ob_comps o = Some c -> Forall (fun c => TransformSettled (co_tr c)) (cs_list c)).
Definition Settled (m : Model) : Prop :=
  Forall AssetSettled (rs_assets (mo_res m)) /\ Forall ObjSettled (rs_objects (mo_res m)) /\
  Forall (fun i => TransformSettled (it_tr i)) (bu_items (mo_build m)) /\ Forall ElemSettled (mo_any m).
End Precision.
