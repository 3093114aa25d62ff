(** * Specification: models that differ in UUIDs only *)
From Coq Require Import Permutation.
From Verif Require Import GoBase GoFloat Types S_Same.

(** Of the attributes of the production extension only the paths that are there stay. *)
Definition plain_group (g : AttrGroup) : AnyAttr :=
  match g with
  | GBuild _ | GObj _ => []
  | GItem _ p => if seq p "" then [] else [GItem "" p]
  | GComp _ p => if seq p "" then [] else [GComp "" p]
  | _ => [g]
  end.
Definition plain_any (l : AnyAttr) : AnyAttr := flat_map plain_group l.
Definition plain_item (it : Item) : Item := mkItem (it_oid it) (it_tr it) (it_part it) (it_md it) (plain_any (it_any it)).
Definition plain_comp (c : Component) : Component := mkComp (co_oid c) (co_tr c) (plain_any (co_any c)).
Definition plain_comps (cs : Components) : Components := mkComps (map plain_comp (cs_list cs)) (cs_any cs).
Definition plain_object (o : Object) : Object :=
  mkObj (ob_id o) (ob_name o) (ob_part o) (ob_thumb o) (ob_pid o) (ob_pindex o) (ob_type o) (ob_md o) (ob_mesh o)
    (option_map plain_comps (ob_comps o)) (plain_any (ob_any o)).
Definition plain_res (rs : Resources) : Resources := mkRes (rs_assets rs) (map plain_object (rs_objects rs)) (rs_any rs).
Definition plain_child (pc : string * Child) : string * Child :=
  (fst pc, mkChild (plain_res (ch_res (snd pc))) (ch_rels (snd pc)) (ch_any (snd pc))).
Definition plain (m : Model) : Model :=
  mkModel (mo_path m) (mo_lang m) (mo_units m) (mo_thumb m) (plain_res (mo_res m))
    (mkBuild (map plain_item (bu_items (mo_build m))) (plain_any (bu_any (mo_build m)))) (mo_atts m) (mo_exts m) (mo_md m)
    (map plain_child (mo_childs m)) (mo_rootrels m) (mo_rels m) (mo_any m) (mo_anyattr m).
(** Without UUIDs nothing a check looks at is different. *)
Definition SameButUuids (m m' : Model) : Prop := Same (plain m) (plain m').
(** The same model but for the order of the parts in the map *)
Definition with_childs (m : Model) (cs : list (string * Child)) : Model :=
  mkModel (mo_path m) (mo_lang m) (mo_units m) (mo_thumb m) (mo_res m) (mo_build m) (mo_atts m) (mo_exts m) (mo_md m) cs
    (mo_rootrels m) (mo_rels m) (mo_any m) (mo_anyattr m).
Definition Reordered (m m' : Model) : Prop := exists cs, Permutation cs (mo_childs m) /\ m' = with_childs m cs.
