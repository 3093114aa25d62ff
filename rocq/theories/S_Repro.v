(** * Specification of saving a model twice (C83) *)
From Coq Require Import Permutation.
From Verif Require Import GoBase Types PkgTypes.

(** The same part, its relationships in another order *)
Definition SamePart (a b : Part) : Prop :=
  pt_name b = pt_name a /\ pt_ctype b = pt_ctype a /\ pt_data b = pt_data a /\ Permutation (pt_rels a) (pt_rels b).
(** The same package up to the order of the children and of the relationships of the root model: the relationships of
    the package, the first parts (attachments and root model) and the parts of the children are the same. *)
Definition SameSave (w w' : Pkg) : Prop :=
  pk_rels w' = pk_rels w /\
  exists atts root root' childs childs', pk_parts w = atts ++ root :: childs /\ pk_parts w' = atts ++ root' :: childs' /\
    SamePart root root' /\ Permutation childs childs'.
(** Creating a part fails for its own sake or because it clashes with an earlier one, whichever comes first. *)
Definition OrderBlind (refuses : list string -> string -> string -> bool) : Prop :=
  exists bad clash, (forall n k, clash n k = clash k n) /\ forall l n c, refuses l n c = bad n c || existsb (clash n) l.
