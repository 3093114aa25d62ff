(** * Specification: the box of a build and the boxes of parts of it *)
From Verif Require Import GoBase GoFloat Types S_Core S_Geom S_Within.

(** The model with other items in its build *)
Definition with_items (m : Model) (its : list Item) : Model :=
  mkModel (mo_path m) (mo_lang m) (mo_units m) (mo_thumb m) (mo_res m) (mkBuild its (bu_any (mo_build m))) (mo_atts m)
    (mo_exts m) (mo_md m) (mo_childs m) (mo_rootrels m) (mo_rels m) (mo_any m) (mo_anyattr m).
(** [z] is, as a number, the lesser (the greater) of [x] and [y]. *)
Definition Lesser (x y z : f32) : Prop := (Le x y /\ NumEq z x) \/ (Le y x /\ NumEq z y).
Definition Greater (x y z : f32) : Prop := (Le y x /\ NumEq z x) \/ (Le x y /\ NumEq z y).
(** [r] is the least box around [a] and [b]. *)
Definition Union (a b r : Box) : Prop :=
  (Lesser (px (bmin a)) (px (bmin b)) (px (bmin r)) /\ Lesser (py (bmin a)) (py (bmin b)) (py (bmin r)) /\
   Lesser (pz (bmin a)) (pz (bmin b)) (pz (bmin r))) /\
  (Greater (px (bmax a)) (px (bmax b)) (px (bmax r)) /\ Greater (py (bmax a)) (py (bmax b)) (py (bmax r)) /\
   Greater (pz (bmax a)) (pz (bmax b)) (pz (bmax r))).
(** [a] reaches nowhere out of [r]. *)
Definition Covers (r a : Box) : Prop :=
  (Le (px (bmin r)) (px (bmin a)) /\ Le (py (bmin r)) (py (bmin a)) /\ Le (pz (bmin r)) (pz (bmin a))) /\
  (Le (px (bmax a)) (px (bmax r)) /\ Le (py (bmax a)) (py (bmax r)) /\ Le (pz (bmax a)) (pz (bmax r))).
(** The item refers to no object, or to one with no vertices and no components. *)
Definition Nothing (m : Model) (it : Item) : Prop :=
  forall file o, ItemTarget m it file o ->
    (exists me, ob_mesh o = Some me /\ me_verts me = []) \/ (ob_mesh o = None /\ Comps o = []).
(** [l'] is [l] without some of the elements that satisfy [P]. *)
Inductive Without {A} (P : A -> Prop) : list A -> list A -> Prop :=
| WNil : Without P [] []
| WKeep x l l' : Without P l l' -> Without P (x :: l) (x :: l')
| WDrop x l l' : P x -> Without P l l' -> Without P (x :: l) l'.
