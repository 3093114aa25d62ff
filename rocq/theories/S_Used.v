(** * What a model held before a file was decoded into it *)
From Coq Require Import ZArith.
From Verif Require Import GoBase Types.

(** The model [m] with the resources, items, metadata and other elements of [M] before its own *)
Definition onto (M m : Model) : Model :=
  mkModel (mo_path m) (mo_lang m) (mo_units m) (mo_thumb m)
    (mkRes (rs_assets (mo_res M) ++ rs_assets (mo_res m)) (rs_objects (mo_res M) ++ rs_objects (mo_res m)) (rs_any (mo_res m)))
    (mkBuild (bu_items (mo_build M) ++ bu_items (mo_build m)) (bu_any (mo_build m)))
    (mo_atts m) (mo_exts m) (mo_md M ++ mo_md m) (mo_childs m) (mo_rootrels m) (mo_rels m) (mo_any M ++ mo_any m) (mo_anyattr m).
(** The model [M] without them *)
Definition emptied (M : Model) : Model :=
  mkModel (mo_path M) (mo_lang M) (mo_units M) (mo_thumb M) (mkRes [] [] (rs_any (mo_res M))) (mkBuild [] (bu_any (mo_build M)))
    (mo_atts M) (mo_exts M) [] (mo_childs M) (mo_rootrels M) (mo_rels M) [] (mo_anyattr M).
(** An error without the positions of elements in their lists *)
Fixpoint unindexed (e : gerr) : gerr :=
  match e with
  | EErr t x p => EErr (map (fun l => mkLevel (lv_name l) (-1)) t) (unindexed x) p
  | EList l => EList (map unindexed l)
  | e => e
  end.
